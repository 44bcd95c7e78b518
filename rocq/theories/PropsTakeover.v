(** C119: complaints hand the group key over to one dealer. *)
From Coq Require Import String Strings.Byte Arith NArith ZArith Bool List Lia Permutation Sorted Field.
From Verif Require Import Base Suite Spec SpecDkg SpecSign SpecRobust SpecEnd Types Algebra BaseLemmas ModelDkg ModelSign LemmasShare LemmasRound1
  LemmasRound2 LemmasFinish LemmasBlame LemmasSign Toy Demo DemoDkg PropsRound1 PropsRound2 PropsFinish PropsBlame PropsRobust PropsView PropsLeak
  PropsSteer PropsEnd.
Import ListNotations.

Section Takeover.
  Context {S : Suite} {L : SuiteLaws S}.
  Add Field F_fld : F_field.

  (** commitments of some of the parties, evaluated *)
  Lemma dealt_point_parties (rest : list Party) (comms' : bmap Vss) x :
    NoDup (map y_index rest) -> NoDup (bkeys comms') ->
    (forall j c, In (j, c) comms' <-> exists p, In p rest /\ j = y_index p /\ c = MkVss j (committed (y_co p))) ->
    dealt_point comms' x = (gen * interp0 (dealt_values rest x))%G.
  Proof.
    intros Hr Hn H. rewrite <- ginterp0_gen. unfold dealt_point, dealt_values. rewrite map_map. cbn [fst snd]. apply ginterp0_perm.
    apply NoDup_Permutation.
    - apply (NoDup_map_inv fst). rewrite map_map. cbn [fst]. exact Hn.
    - apply (NoDup_map_inv fst). rewrite map_map. cbn [fst]. exact Hr.
    - intros [j P]. rewrite !in_map_iff. split.
      + intros ([j0 c] & E & I). cbn [fst snd] in E. injection E as <- <-. apply H in I. destruct I as (p & I & -> & ->).
        exists p. split; [|exact I]. cbn [vss_points]. rewrite gpoly_committed. reflexivity.
      + intros (p & E & I). injection E as <- <-. exists (y_index p, MkVss (y_index p) (committed (y_co p))). split.
        * cbn [fst snd vss_points]. rewrite gpoly_committed. reflexivity.
        * apply H. exists p. auto.
  Qed.
  Lemma sub_distinct (parties rest : list Party) : NoDup (map y_index parties) -> NoDup rest -> (forall p, In p rest -> In p parties) ->
    NoDup (map y_index rest).
  Proof.
    intros Hn Hr Hs. induction Hr as [|a l Ha Hr IH]; cbn [map]; [constructor|]. constructor; [|apply IH; intros p Hp; apply Hs; right; exact Hp].
    intros Hin. apply in_map_iff in Hin. destruct Hin as (b & E & Hb). apply Ha.
    assert (Eab : forall l (a b : Party), NoDup (map y_index l) -> In a l -> In b l -> y_index a = y_index b -> a = b).
    { clear. intros l. induction l as [|x l IH]; intros a b Hn Ha Hb E; [contradiction|]. cbn [map] in Hn.
      apply NoDup_cons_iff in Hn. destruct Hn as [N1 N2]. destruct Ha as [<-|Ha], Hb as [<-|Hb]; auto.
      - destruct N1. rewrite E. apply in_map, Hb.
      - destruct N1. rewrite <- E. apply in_map, Ha. }
    rewrite <- (Eab parties b a); auto; apply Hs; cbn; auto.
  Qed.
  (** whom unproven complaints convict *)
  Lemma forged_convict st (forged : u32 -> Complaint) victims : (forall j, accused (forged j) = u32_zero /\ maker (forged j) = j) ->
    forall j, convicted st (map forged victims) j <-> In j victims.
  Proof.
    intros Hf j. unfold convicted. split.
    - intros (x & Hin & Hx). apply in_map_iff in Hin. destruct Hin as (k & <- & Hk). destruct (Hf k) as [A B].
      destruct Hx as [[(X & _) _]|[_ ->]]; [contradiction|]. rewrite B. exact Hk.
    - intros Hj. exists (forged j). split; [apply in_map, Hj|]. destruct (Hf j) as [A B]. right. split; [|congruence].
      intros (X & _). contradiction.
  Qed.
  Lemma interp0_one j v : j <> u32_zero -> interp0 [(j, v)] = v.
  Proof.
    intros Hj. assert (H : NoDup [j]) by (constructor; [intros []|constructor]).
    pose proof (interp0_poly [j] [v] H (le_n 1)) as E. cbn [map] in E. rewrite poly_value_0 in E. cbn [hd] in E.
    rewrite <- E at 2. f_equal. f_equal. f_equal. cbn. ring.
  Qed.
  Lemma complaint_of_bad st es cs e : complaint_list st es cs -> In e es -> bad_for st e -> exists c, In c cs /\ complains st e c.
  Proof.
    induction 1 as [|e0 es c cs B C H IH|e0 es cs B H IH]; intros Hin Hb; [contradiction| |].
    - destruct Hin as [->|Hin]; [exists c; cbn; auto|]. destruct (IH Hin Hb) as (c' & A1 & A2). exists c'. cbn; auto.
    - destruct Hin as [->|Hin]; [contradiction|auto].
  Qed.
  Lemma only_key {V} (m : bmap V) j : NoDup (bkeys m) -> (forall k, In k (bkeys m) -> k = j) ->
    m = [] \/ exists v, m = [(j, v)].
  Proof.
    intros Hn H. destruct m as [|[k v] m]; [left; reflexivity|right]. exists v.
    assert (k = j) by (apply H; left; reflexivity). subst k.
    destruct m as [|[k' v'] m]; [reflexivity|]. exfalso. cbn in Hn. apply NoDup_cons_iff in Hn. destruct Hn as [N _]. apply N. left.
    apply H. right. left. reflexivity.
  Qed.
End Takeover.

(** complaints that anyone can write, without any secret, choose the dealers whose secrets count: any set, also one with a
    single dealer.  Nobody notices: all calls succeed and the keys fit together *)
Theorem C119_forged_complaints_choose_the_dealers :
  forall (S : Suite) (L : SuiteLaws S) (m : build) (params : Params) (parties rest : list Party) (victims : list u32)
    (forged : u32 -> Complaint),
  honest_parties params parties -> all_bootstrapped m params parties ->
  (forall j, accused (forged j) = u32_zero /\ maker (forged j) = j) ->
  NoDup rest -> (forall p, In p rest <-> In p parties /\ ~ In (y_index p) victims) ->
  let gk := (gen * interp0 (dealt_values rest F0))%G in
  let key i := MkSK i (interp0 (dealt_values rest (of_u32 i))) in
  (forall w senders es r, In w parties -> Permutation senders parties -> delivered senders w es ->
     exists s2 r' keys s3, to_round_two m (y_st w) es r = Ok (s2, [], r') /\ blame s2 (map forged victims) = Ok (keys, s3) /\
       finish s3 = Ok (gk, key (y_index w))) /\
  recovers (N.to_nat (u32v (p_t params))) (interp0 (dealt_values rest F0)) (map (fun w => key (y_index w)) parties).
Proof.
  intros S L m params parties rest victims forged H HB Hf Hnr Hrest. cbv zeta.
  assert (Hnri : NoDup (map y_index rest)).
  { eapply sub_distinct; [apply (hp_indices _ _ H)|exact Hnr|]. intros p Hp. apply Hrest, Hp. }
  split.
  - intros w senders es r Hw HP HD.
    destruct (C18_honest_agreement S L m params parties H HB) as (sec & _ & C18).
    destruct (C18 w senders es r Hw HP HD) as (s2 & r' & _ & E2 & _).
    destruct (honest_state m params parties w H HB Hw) as (st & comms & ps & Est & HPs & _ & R & Hc & Hnd & Hcm & Hdh).
    assert (Hkeys : forall j, In j (bkeys comms) <-> exists p, In p parties /\ y_index p = j).
    { intros j. split.
      - intros Hj. apply bget_key_some in Hj. destruct Hj as [c Hj]. apply Hcm in Hj. destruct Hj as (p & A & B & _). eauto.
      - intros (p & A & B). eapply bget_some_key, Hcm. exists p. eauto. }
    assert (Hgood : good_indices (bkeys comms)).
    { split; [exact Hnd|]. intros Hz. apply Hkeys in Hz. destruct Hz as (p & A & B). apply (proj2 (hp_indices _ _ H)). rewrite <- B. apply in_map, A. }
    destruct (delivered_cover m params parties senders w es H HB Hw HP HD) as [W1 W2].
    rewrite Est in E2. set (hw := MkFollower st es r s2 [] r' (map forged victims)).
    destruct (C61_followers_agree_and_hold_keys S L m (ds_params st) (ds_dhs st) comms [hw] (map forged victims) Hgood)
      as (keys & comms' & gk & K1 & K2 & K3 & _).
    { intros h c [<-|[]] []. }
    { intros j c Hj. apply Hcm in Hj. destruct Hj as (p & A & _ & ->). cbn [vss_points]. intros X.
      destruct (honest_fresh params parties p H A) as [_ _ Hlen _ _ _]. apply map_eq_nil in X. rewrite X in Hlen. cbn in Hlen.
      destruct (hp_threshold _ _ H). lia. }
    { intros h [<-|[]]. split; cbn [hw h_st h_es h_r h_s2 h_cs h_r']; auto.
      - intros e He. rewrite (rec_index _ _ _ _ _ R), Hkeys. destruct (W1 e He) as (A & p & B & C). split; [exact A|]. exists p. auto.
      - intros j Hj. apply Hkeys in Hj. destruct Hj as (p & A & <-). apply W2, A. }
    { intros h [<-|[]]. split; [reflexivity|intros c []]. }
    destruct (K3 hw (or_introl eq_refl)) as (sk & (s3 & B1 & B2 & B3 & B4) & K4 & _). specialize (K2 hw (or_introl eq_refl)).
    cbn [hw h_s2 h_settles h_st] in B1, B4, K2.
    assert (HE : forall x, dealt_point comms' x = (gen * interp0 (dealt_values rest x))%G).
    { intros x. apply dealt_point_parties; [exact Hnri|eapply without_nodup; eassumption|].
      intros j c. rewrite (without_in _ _ _ K2), (forged_convict st forged victims Hf). split.
      + intros [A B]. apply in_bget in A; [|exact Hnd]. apply Hcm in A. destruct A as (p & A & <- & ->). exists p. split; [|auto]. apply Hrest. auto.
      + intros (p & A & -> & ->). apply Hrest in A. destruct A as [A B]. split; [|exact B]. apply bget_in, Hcm. exists p. auto. }
    exists s2, r', keys, s3. rewrite Est. split; [exact E2|]. split; [exact B1|]. rewrite B3.
    rewrite <- HE, <- (first_points_dealt _ _ K1). do 2 f_equal.
    rewrite HE in K4. apply gen_inj in K4. rewrite (rec_index _ _ _ _ _ R) in B4.
    destruct sk as [i v]. cbn [sk_index sk_key] in *. rewrite B4 in *. rewrite K4. reflexivity.
  - split.
    { rewrite map_map. cbn [sk_index]. apply (hp_indices _ _ H). }
    intros sub Hs Hn Hl.
    set (cm := map (fun p => (y_index p, MkVss (y_index p) (committed (y_co p)))) rest).
    assert (HE : forall x, dealt_point cm x = (gen * interp0 (dealt_values rest x))%G).
    { intros x. apply dealt_point_parties; [exact Hnri| |].
      - unfold cm, bkeys. rewrite map_map. exact Hnri.
      - intros j c. unfold cm. rewrite in_map_iff. split.
        + intros (p & [= <- <-] & Hp). exists p. auto.
        + intros (p & Hp & -> & ->). exists p. auto. }
    apply gen_inj. rewrite <- HE. apply (keys_interpolate cm (N.to_nat (u32v (p_t params)))); auto.
    + intros j c Hjc. apply in_map_iff in Hjc. destruct Hjc as (p & [= <- <-] & Hp). cbn [vss_points].
      unfold committed. rewrite map_length. apply Hrest in Hp.
      destruct (honest_fresh params parties p H (proj1 Hp)) as [_ _ Hlen _ _ _]. lia.
    + intros k Hk. rewrite HE. f_equal. apply Hs in Hk. apply in_map_iff in Hk. destruct Hk as (w & <- & _). reflexivity.
Qed.
Print Assumptions C119_forged_complaints_choose_the_dealers.

(** with all the others removed, the group key is the public key of the remaining dealer, who computes every signing key and
    signs alone *)
Theorem C119_one_dealer_owns_the_group_key :
  forall (S : Suite) (L : SuiteLaws S) (m : build) (params : Params) (parties : list Party) (d : Party) (others : list Party)
    (forged : u32 -> Complaint),
  honest_parties params parties -> all_bootstrapped m params parties -> Permutation parties (d :: others) ->
  (forall j, accused (forged j) = u32_zero /\ maker (forged j) = j) ->
  exists a0, hd_error (y_co d) = Some a0 /\
  (forall w senders es r, In w parties -> Permutation senders parties -> delivered senders w es ->
     exists s2 r' keys s3, to_round_two m (y_st w) es r = Ok (s2, [], r') /\
       blame s2 (map forged (map y_index others)) = Ok (keys, s3) /\
       finish s3 = Ok ((gen * a0)%G, MkSK (y_index w) (poly_value (y_co d) (of_u32 (y_index w))))) /\
  (forall h k, verify_signature (gen * a0)%G (MkTSig (gen * k)%G (k + a0 * compute_challenge (gen * k)%G (gen * a0)%G h)%F) h = Ok tt).
Proof.
  intros S L m params parties d others forged H HB HP Hf.
  assert (Hd : In d parties) by (eapply Permutation_in; [apply Permutation_sym, HP|left; reflexivity]).
  assert (Hix : NoDup (y_index d :: map y_index others)).
  { change (NoDup (map y_index (d :: others))). eapply Permutation_NoDup; [apply Permutation_map, HP|apply (hp_indices _ _ H)]. }
  apply NoDup_cons_iff in Hix. destruct Hix as [Hix Hio].
  assert (Hz : y_index d <> u32_zero).
  { intros X. apply (proj2 (hp_indices _ _ H)). rewrite <- X. apply in_map, Hd. }
  destruct (honest_fresh params parties d H Hd) as [_ _ Hlen _ _ _].
  destruct (y_co d) as [|a0 co] eqn:Eco; [exfalso; cbn in Hlen; destruct (hp_threshold _ _ H); lia|].
  exists a0. split; [reflexivity|].
  assert (Hi : forall x, interp0 (dealt_values [d] x) = poly_value (a0 :: co) x).
  { intros x. unfold dealt_values. cbn [map]. rewrite Eco. apply interp0_one, Hz. }
  destruct (C119_forged_complaints_choose_the_dealers S L m params parties [d] (map y_index others) forged H HB Hf) as [A _].
  - constructor; [intros []|constructor].
  - intros p. split.
    + intros [<-|[]]. auto.
    + intros [A B]. apply (Permutation_in _ HP) in A. destruct A as [<-|A]; [left; reflexivity|]. destruct B. apply in_map, A.
  - split.
    + intros w senders es r Hw HPs HD. destruct (A w senders es r Hw HPs HD) as (s2 & r' & keys & s3 & E1 & E2 & E3).
      exists s2, r', keys, s3. split; [exact E1|]. split; [exact E2|]. rewrite E3, !Hi. rewrite poly_value_0. reflexivity.
    + intros h k. apply sig_verify_iff. cbn [ts_R ts_z]. unfold schnorr.
      change (compute_challenge (gen * k)%G (gen * a0)%G h) with (chal (gen * k)%G (gen * a0)%G h).
      rewrite !Gmul_mul, <- !Gmul_add_r. reflexivity.
Qed.
Print Assumptions C119_one_dealer_owns_the_group_key.

(** the same without any forged message: one entry of the list is excluded in round one, the dealer with an index above the
    number of accepted participants sends the others anything but their shares, and they complain, correctly.  Each of these
    complaints convicts its maker *)
Theorem C119_an_exclusion_hands_over_the_group_key :
  forall (S : Suite) (L : SuiteLaws S) (m : build) (params : Params) (ps valid : list Participant) (mis : list u32)
    (hs : list Follower) (all : list Complaint) (d : Participant) (P : G),
  good_indices (map pt_index ps) -> splits (ok_bootstrap (p_t params)) ps valid mis ->
  In d valid -> part_public_key d = Some P -> (N.of_nat (length valid) < u32v (pt_index d))%N ->
  (* the accepted participants are d and those of hs, who follow the protocol *)
  Permutation (map pt_index valid) (pt_index d :: map (fun h => ds_index (h_st h)) hs) ->
  (forall h, In h hs -> takes_part m params ps h) ->
  (* each of them got a message of d that does not open to the committed value *)
  (forall h, In h hs -> exists e, In e (h_es h) /\ es_sender e = pt_index d /\ bad_for (h_st h) e) ->
  settle_together hs all -> (forall c, In c all -> maker c <> pt_index d) ->
  forall h, In h hs -> exists keys s3 sk, blame (h_s2 h) (h_settles h) = Ok (keys, s3) /\ finish s3 = Ok (P, sk) /\
    sk_index sk = ds_index (h_st h) /\
    (* the signing key is whatever d sent *)
    ((forall e v, In e (h_es h) -> es_sender e = pt_index d -> ~ opens (h_st h) e v) -> sk_key sk = F0) /\
    (forall e v, last_such (fun e => es_sender e = pt_index d /\ exists v, opens (h_st h) e v) (h_es h) e -> opens (h_st h) e v ->
       sk_key sk = v).
Proof.
  intros S L m params ps valid mis hs all d P Hg HS Hd HP Hbig HPm Hh Hbad Hset Hmk h Hin.
  assert (Hdps : In d ps /\ ok_bootstrap (p_t params) d).
  { clear -HS Hd. induction HS; [contradiction| |]; cbn [In] in *.
    - destruct Hd as [<-|Hd]; [auto|]. destruct (IHHS Hd). auto.
    - destruct (IHHS Hd). auto. }
  assert (Hvalid : forall q, In q ps -> ok_bootstrap (p_t params) q -> In q valid).
  { clear -HS. induction HS; intros q Hq Ho; [destruct Hq| |]; destruct Hq as [<-|Hq]; try contradiction; auto using in_cons, in_eq. }
  (* what every follower knows *)
  assert (View : forall k, In k hs -> exists comms, ds_comms (h_st k) = Some comms /\ good_indices (bkeys comms) /\
    (forall j c, bget j comms = Some c -> vss_points c <> []) /\
    (forall j, In j (bkeys comms) <-> In j (map pt_index valid)) /\
    (forall j pk, bget j (ds_dhs (h_st k)) = Some pk -> In j (bkeys comms)) /\
    u32v (p_n (ds_params (h_st k))) = N.of_nat (length valid) /\
    (exists rest, option_map vss_points (bget (pt_index d) comms) = Some (P :: rest))).
  { intros k Hk. destruct (Hh k Hk) as [B _ _ _].
    destruct (begins_view m params ps k Hg B) as (comms & C1 & C2 & C3 & C4 & C5 & C6 & C7).
    destruct B as (x & my & co & ps' & r & l & q & HPp & E).
    assert (Hg' : good_indices (map pt_index ps')).
    { split; [eapply Permutation_NoDup; [apply Permutation_map, HPp|apply Hg]|].
      intros Z. apply Hg. eapply Permutation_in; [apply Permutation_map, Permutation_sym, HPp|exact Z]. }
    destruct (C62_view_is_usable S L m params x my co ps' r q (h_st k) l Hg' E) as (comms0 & A1 & _ & _ & _ & A5).
    assert (comms0 = comms) by congruence. subst comms0.
    exists comms. split; [exact C1|]. split; [exact C2|]. split; [|split; [|split; [exact C5|split; [exact (C7 _ _ HS)|]]]].
    - intros j c Hj X. apply C3 in Hj. rewrite X in Hj. cbn in Hj. lia.
    - intros j. rewrite (C4 j), in_map_iff. split.
      + intros (p & Y1 & Y2 & Y3). exists p. auto.
      + intros (p & <- & Hp). exists p. split; [|split; [|reflexivity]].
        * clear -HS Hp. induction HS; [contradiction| |]; cbn [In] in *; tauto.
        * clear -HS Hp. induction HS; [contradiction| |]; cbn [In] in *; [|tauto]. destruct Hp as [<-|Hp]; auto.
    - unfold part_public_key in HP. destruct (pt_comm d) as [c|] eqn:Ec; [|discriminate].
      assert (Hdc : bget (pt_index d) comms = Some c).
      { apply (A5 d c); [eapply Permutation_in; [exact HPp|apply Hdps]|apply Hdps|exact Ec]. }
      rewrite Hdc. cbn [option_map]. unfold vss_public_key in HP. destruct (vss_points c) as [|P0 rest]; [discriminate|].
      injection HP as ->. exists rest. reflexivity. }
  (* every follower raises a complaint against d, in its own name *)
  assert (Own : forall k, In k hs -> exists c, In c all /\ accused c = pt_index d /\ maker c = ds_index (h_st k)).
  { intros k Hk. destruct (View k Hk) as (comms & C1 & C2 & _). destruct (Hh k Hk) as [_ M _ R].
    destruct (Hbad k Hk) as (e & He & Es & Hb).
    destruct (proj1 (C16_complaints_exact S L m (h_st k) comms (h_es k) (h_r k) C1 (proj1 C2)) _ _ _ R) as [HL _].
    destruct (complaint_of_bad _ _ _ e HL He Hb) as (c & Hc & (E1 & _)). exists c. split; [apply (proj2 (Hset k Hk)), Hc|].
    unfold accused, maker. rewrite E1. split; [exact Es|apply M, He]. }
  destruct (View h Hin) as (comms & C1 & C2 & C3 & C4 & C5 & C6 & (rest & C7)).
  destruct (Hh h Hin) as [_ M _ R].
  destruct (proj1 (C16_complaints_exact S L m (h_st h) comms (h_es h) (h_r h) C1 (proj1 C2)) _ _ _ R) as [_ HA].
  destruct (h_s2 h) as [st2'] eqn:Es2. cbn [st2] in HA.
  pose proof HA as [A1 A2 A3 A4 A5 A6 A7 (shares & B1 & B2 & B3)].
  assert (Hc2 : ds_comms st2' = Some comms) by congruence.
  destruct (C22_blame_outcome S L st2' comms shares (h_settles h) Hc2 B1) as (l & keys & st3 & Eb & _ & _ & _ & HPr).
  destruct HPr as [P1 P2 _ _ _ _ (m1 & m1' & D1 & D2 & D3) (m2 & m2' & E1 & E2 & E3)].
  assert (m1 = comms) by congruence. assert (m2 = shares) by congruence. subst m1 m2.
  assert (NoU : forall c, accused c = pt_index d -> ~ upheld st2' c).
  { intros c Hc (_ & X & _). rewrite A1, C6, Hc in X. lia. }
  assert (Cv : forall j, In j (map pt_index valid) -> (convicted st2' (h_settles h) j <-> j <> pt_index d)).
  { intros j Hj. split.
    - intros (c & Hc & Hcv) ->. apply (proj1 (Hset h Hin)) in Hc. destruct Hcv as [[U X]|[_ X]].
      + symmetry in X. exact (NoU c X U).
      + symmetry in X. exact (Hmk c Hc X).
    - intros Hne. apply (Permutation_in _ HPm) in Hj. destruct Hj as [<-|Hj]; [contradiction|].
      apply in_map_iff in Hj. destruct Hj as (k & <- & Hk). destruct (Own k Hk) as (c & X1 & X2 & X3).
      exists c. split; [apply (proj1 (Hset h Hin)), X1|]. right. split; [exact (NoU c X2)|auto]. }
  assert (Hdv : In (pt_index d) (map pt_index valid)) by (apply in_map, Hd).
  (* the retained commitments *)
  assert (Hn1 : NoDup (bkeys m1')) by (eapply without_nodup; [eassumption|apply C2]).
  assert (Hk1 : forall k, In k (bkeys m1') -> k = pt_index d).
  { intros k Hk. apply (without_keys _ _ _ D3) in Hk. destruct Hk as [Hk1 Hk2]. apply C4 in Hk1. rewrite (Cv k Hk1) in Hk2.
    destruct (u32_eq_dec k (pt_index d)) as [E|E]; [exact E|contradiction (Hk2 E)]. }
  assert (Hd1 : bget (pt_index d) m1' = bget (pt_index d) comms).
  { apply (without_bget _ _ _ D3). rewrite (Cv _ Hdv). intros X. apply X; reflexivity. }
  destruct (only_key m1' (pt_index d) Hn1 Hk1) as [->|[com ->]].
  { exfalso. rewrite <- Hd1 in C7. discriminate C7. }
  assert (Hcom : vss_points com = P :: rest).
  { rewrite <- Hd1 in C7. cbn [bget] in C7. rewrite u32_eqb_refl in C7. cbn [option_map] in C7. injection C7 as C7. exact C7. }
  (* the retained shares *)
  assert (Hn2 : NoDup (bkeys m2')) by (eapply without_nodup; [eassumption|exact B2]).
  assert (Hk2 : forall k, In k (bkeys m2') -> k = pt_index d).
  { intros k Hk. apply (without_keys _ _ _ E3) in Hk. destruct Hk as [Hk1' Hk2'].
    assert (Hv : In k (map pt_index valid)).
    { apply bget_key_some in Hk1'. destruct Hk1' as [s Hs]. apply B3 in Hs. destruct Hs as (e & (l1 & l2 & _ & (X & v & (pk & Y & _)) & _) & _).
      apply C4, (C5 k pk). rewrite <- X. exact Y. }
    rewrite (Cv k Hv) in Hk2'. destruct (u32_eq_dec k (pt_index d)) as [E|E]; [exact E|contradiction (Hk2' E)]. }
  assert (Hd2 : bget (pt_index d) m2' = bget (pt_index d) shares).
  { apply (without_bget _ _ _ E3). rewrite (Cv _ Hdv). intros X. apply X; reflexivity. }
  assert (Hdz : pt_index d <> u32_zero).
  { intros X. apply (proj2 Hg). rewrite <- X. apply in_map, Hdps. }
  assert (HF : finish (R2 st3) = Ok (dealt_point [(pt_index d, com)] F0, MkSK (ds_index st3) (interp0 (share_points m2')))).
  { apply finish_ok; auto.
    - split; [exact Hn1|]. intros [X|[]]. contradiction.
    - split; [exact Hn2|]. intros X. apply Hk2 in X. symmetry in X. contradiction.
    - intros j c [[= <- <-]|[]]. rewrite Hcom. discriminate. }
  assert (HPd : dealt_point [(pt_index d, com)] F0 = P).
  { symmetry. apply first_points_dealt. exists [(pt_index d, P)]. split.
    - constructor; [|constructor]. cbn [fst snd]. split; [reflexivity|]. exists rest. exact Hcom.
    - destruct (gen_span P) as [v ->].
      change [(pt_index d, (gen * v)%G)] with (map (fun iv : u32 * F => (fst iv, (gen * snd iv)%G)) [(pt_index d, v)]).
      rewrite ginterp0_gen, interp0_one by exact Hdz. reflexivity. }
  rewrite HPd in HF. exists keys, (R2 st3), (MkSK (ds_index st3) (interp0 (share_points m2'))).
  split; [exact Eb|]. split; [exact HF|]. cbn [sk_index sk_key]. split; [congruence|].
  destruct (only_key m2' (pt_index d) Hn2 Hk2) as [->|[s ->]].
  - split; [intros _; reflexivity|]. intros e v Hl Ho.
    assert (X : bget (pt_index d) shares = Some (MkShare (pt_index d) (es_receiver e) v)).
    { apply B3. exists e. split; [exact Hl|]. exists v. auto. }
    rewrite <- Hd2 in X. discriminate X.
  - cbn [bget] in Hd2. rewrite u32_eqb_refl in Hd2. symmetry in Hd2. pose proof Hd2 as Hd3. apply B3 in Hd3.
    destruct Hd3 as (e0 & Hl0 & v0 & Ho0 & ->). cbn [share_points map fst snd sh_value]. unfold share_points. cbn [map fst snd sh_value].
    rewrite interp0_one by exact Hdz. split.
    + intros Hno. exfalso. destruct Hl0 as (l1 & l2 & El & (X & _) & _). apply (Hno e0 v0); auto.
      rewrite El. apply in_or_app. right. left. reflexivity.
    + intros e v Hl Ho.
      assert (X : bget (pt_index d) shares = Some (MkShare (pt_index d) (es_receiver e) v)).
      { apply B3. exists e. split; [exact Hl|]. exists v. auto. }
      rewrite Hd2 in X. injection X as _ X. exact X.
Qed.
Print Assumptions C119_an_exclusion_hands_over_the_group_key.

(** an honest run of three; complaints of zero bytes name 1 and 2 as makers: the group key is the public key of 3 *)
Definition C119_forged : list Complaint := map empty_complaint (map y_index (map demo_party [1; 2]%N)).
Example C119_ex_honest :
  honest_parties demo_params demo_parties /\ all_bootstrapped Debug demo_params demo_parties /\
  Permutation demo_parties (demo_party 3 :: map demo_party [1; 2]%N) /\
  (forall j, accused (empty_complaint j) = u32_zero /\ maker (empty_complaint j) = j).
Proof.
  split; [exact C18_ex_honest|]. split; [exact C18_ex_bootstrapped|]. split; [|split; reflexivity].
  change demo_parties with (map demo_party [1; 2]%N ++ [demo_party 3]). apply Permutation_sym, Permutation_cons_append.
Qed.
Definition after_forged (j : N) : result (G * SigningKey) :=
  let* (s2, _, _) := to_round_two Debug (demo_r1 demo_ps j) (demo_shares j) 7%N in
  let* (_, s3) := blame s2 C119_forged in finish s3.
Example C119_ex :
  map after_forged [1; 2; 3]%N =
  map (fun j => Ok ((toy_gen * hd (mk 0) (y_co (demo_party 3)))%G, MkSK (u j) (poly_value (y_co (demo_party 3)) (mk (Z.of_N j))))) [1; 2; 3]%N.
Proof. vmr. Qed.

(** five listed, threshold three; 4 has no valid DH proof and is excluded; 5, the fourth that is accepted, garbles its shares for
    1, 2 and 3: two out of five, fewer than the threshold, end up with the key of everybody *)
Definition over_params : Params := MkParams (u 5) (u 3).
Definition over_ps : list Participant :=
  [dealer 5 3 1 10; dealer 5 3 2 20; dealer 5 3 3 30; without_dh_proof (dealer 5 3 4 40); dealer 5 3 5 50].
Definition over_run (i : N) : result (RoundOne * PartList * Rng) :=
  bootstrap Debug over_params (dealer_x 5 3 i (10 * i)) (u i) (dealer_co 5 3 i (10 * i)) over_ps (1000 + i)%N.
Definition over_r1 (i : N) : RoundOne := state_of (over_run i).
Definition over_shares (j : N) : list EncShare :=
  map (fun e => if u32_eqb (es_sender e) (u 5) then garbled e else e) (shares_to j (map over_r1 [1; 2; 3; 5]%N)).
Definition over_two (i : N) : result (RoundTwo * list Complaint * Rng) := to_round_two Debug (over_r1 i) (over_shares i) (500 + i)%N.
Definition over_cs : list Complaint := flat_map (fun i => complaints_of (over_two i)) [1; 2; 3]%N.
Definition over_follower (i : N) : Follower := follower_of (over_r1 i) (500 + i)%N (over_shares i) over_cs.
Lemma over_ok i : In i [1; 2; 3]%N -> is_ok (over_run i) = true.
Proof. intros [<-|[<-|[<-|[]]]]; vmr. Qed.
Lemma over_two_ok i : In i [1; 2; 3]%N -> is_ok (over_two i) = true.
Proof. intros [<-|[<-|[<-|[]]]]; vmr. Qed.
Lemma over_mine i : In i [1; 2; 3]%N -> forallb (fun e => u32_eqb (es_receiver e) (ds_index (st1 (over_r1 i)))) (over_shares i) = true.
Proof. intros [<-|[<-|[<-|[]]]]; vmr. Qed.
Lemma over_all i : In i [1; 2; 3]%N ->
  forallb (fun p => implb (okb true true (p_t over_params) p) (existsb (fun e => u32_eqb (es_sender e) (pt_index p)) (over_shares i))) over_ps = true.
Proof. intros [<-|[<-|[<-|[]]]]; vmr. Qed.
Lemma over_accused i : In i [1; 2; 3]%N -> map accused (complaints_of (over_two i)) = [u 5].
Proof. intros [<-|[<-|[<-|[]]]]; vmr. Qed.
Definition over_valid : list Participant := [dealer 5 3 1 10; dealer 5 3 2 20; dealer 5 3 3 30; dealer 5 3 5 50].
Lemma over_splits_filter : filter (okb true true (p_t over_params)) over_ps = over_valid. Proof. vmr. Qed.
Lemma over_splits_rest : map pt_index (filter (fun p => negb (okb true true (p_t over_params) p)) over_ps) = [u 4]. Proof. vmr. Qed.
Lemma over_indices : map pt_index over_valid = [u 1; u 2; u 3; u 5]. Proof. vmr. Qed.
Lemma over_makers : map maker over_cs = [u 1; u 2; u 3]. Proof. vmr. Qed.
Lemma over_fidx : map (fun h => ds_index (h_st h)) (map over_follower [1; 2; 3]%N) = [u 1; u 2; u 3]. Proof. vmr. Qed.
Lemma bad_of_complaint {S : Suite} {L : SuiteLaws S} st es cs c : complaint_list st es cs -> In c cs ->
  exists e, In e es /\ bad_for st e /\ complains st e c.
Proof.
  induction 1 as [|e0 es c0 cs B C H IH|e0 es cs B H IH]; intros Hin; [contradiction| |].
  - destruct Hin as [<-|Hin]; [exists e0; cbn; auto|]. destruct (IH Hin) as (e & A1 & A2). exists e. cbn; auto.
  - destruct (IH Hin) as (e & A1 & A2). exists e. cbn; auto.
Qed.
Lemma over_takes_part i : In i [1; 2; 3]%N -> takes_part Debug over_params over_ps (over_follower i).
Proof.
  intros Hi. unfold over_follower. eapply follower_of_takes_part with (ps' := over_ps).
  - pose proof (over_ok i Hi) as X. unfold over_run in X. exact X.
  - unfold over_r1, over_run. reflexivity.
  - pose proof (over_two_ok i Hi) as X. unfold over_two in X. exact X.
  - apply Permutation_refl.
  - exact (over_mine i Hi).
  - exact (over_all i Hi).
Qed.
Lemma over_bad i : In i [1; 2; 3]%N ->
  exists e, In e (h_es (over_follower i)) /\ es_sender e = u 5 /\ bad_for (h_st (over_follower i)) e.
Proof.
  intros Hi. destruct (over_takes_part i Hi) as [B M _ R].
  assert (Hg : good_indices (map pt_index over_ps)) by good.
  destruct (begins_view Debug over_params over_ps (over_follower i) Hg B) as (comms & C1 & C2 & _).
  destruct (proj1 (C16_complaints_exact Toy ToyLaws Debug _ comms _ _ C1 (proj1 C2)) _ _ _ R) as [HL _].
  assert (E : h_cs (over_follower i) = complaints_of (over_two i)) by (unfold over_follower; rewrite follower_complaints; [reflexivity|exact (over_two_ok i Hi)]).
  rewrite E in HL. pose proof (over_accused i Hi) as HA. revert HA HL. generalize (complaints_of (over_two i)). intros [|c cs] HA HL; [discriminate HA|].
  cbn [map] in HA. apply (f_equal (hd u32_zero)) in HA. cbn [hd] in HA.
  destruct (bad_of_complaint _ _ _ c HL (or_introl eq_refl)) as (e & A1 & A2 & (A3 & _)). exists e. split; [exact A1|]. split; [|exact A2].
  rewrite <- A3. exact HA.
Qed.
Lemma in_flat {A B} (f : A -> list B) l x y : In x l -> In y (f x) -> In y (flat_map f l).
Proof. intros H1 H2. apply in_flat_map. eauto. Qed.
Example C119_ex_exclusion :
  good_indices (map pt_index over_ps) /\ splits (ok_bootstrap (p_t over_params)) over_ps over_valid [u 4] /\
  In (dealer 5 3 5 50) over_valid /\
  option_map fv (part_public_key (dealer 5 3 5 50)) = Some (fv (toy_gen * hd (mk 0) (dealer_co 5 3 5 50))%G) /\
  (N.of_nat (length over_valid) < u32v (pt_index (dealer 5 3 5 50)))%N /\
  Permutation (map pt_index over_valid) (pt_index (dealer 5 3 5 50) :: map (fun h => ds_index (h_st h)) (map over_follower [1; 2; 3]%N)) /\
  (forall h, In h (map over_follower [1; 2; 3]%N) -> takes_part Debug over_params over_ps h) /\
  (forall h, In h (map over_follower [1; 2; 3]%N) -> exists e, In e (h_es h) /\ es_sender e = pt_index (dealer 5 3 5 50) /\ bad_for (h_st h) e) /\
  settle_together (map over_follower [1; 2; 3]%N) over_cs /\ (forall c, In c over_cs -> maker c <> pt_index (dealer 5 3 5 50)) /\
  map end_view (map over_follower [1; 2; 3]%N) =
    repeat (Ok ([u 5], fv (toy_gen * hd (mk 0) (dealer_co 5 3 5 50))%G, 0%Z)) 3.
Proof.
  assert (E5 : pt_index (dealer 5 3 5 50) = u 5) by vmr.
  split; [good|]. split.
  { rewrite <- over_splits_filter at 1. rewrite <- over_splits_rest. apply splits_filter. intros p. apply okb_bootstrap. }
  split; [right; right; right; left; reflexivity|]. split; [vmr|].
  split; [rewrite E5; reflexivity|].
  split.
  { rewrite over_indices, over_fidx, E5. change [u 1; u 2; u 3; u 5] with ([u 1; u 2; u 3] ++ [u 5]). apply Permutation_sym, Permutation_cons_append. }
  split.
  { intros h Hh. apply in_map_iff in Hh. destruct Hh as (i & <- & Hi). apply over_takes_part, Hi. }
  split.
  { intros h Hh. apply in_map_iff in Hh. destruct Hh as (i & <- & Hi). rewrite E5. apply over_bad, Hi. }
  split.
  { intros h Hh. apply in_map_iff in Hh. destruct Hh as (i & <- & Hi). split.
    - intros c. unfold over_follower. rewrite follower_of_settles by exact (over_two_ok i Hi). exact (iff_refl _).
    - intros c Hc. unfold over_follower in Hc. rewrite follower_complaints in Hc by exact (over_two_ok i Hi).
      unfold over_cs. exact (in_flat (fun i => complaints_of (over_two i)) [1; 2; 3]%N i c Hi Hc). }
  split; [|vmr].
  intros c Hc. apply (in_map maker) in Hc. rewrite over_makers in Hc. rewrite E5. intros E. rewrite E in Hc. revert Hc. clear.
  intros [X|[X|[X|[]]]]; vm_compute in X; discriminate X.
Qed.
