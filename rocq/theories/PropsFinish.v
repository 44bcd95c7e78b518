(** C18-C21, C35: end of the key generation, agreement, keys and commitments. *)
From Coq Require Import String Strings.Byte Arith NArith ZArith Bool List Lia Permutation.
From Verif Require Import Base Suite Spec SpecDkg Types Algebra BaseLemmas ModelDkg LemmasShare LemmasRound1
  LemmasRound2 LemmasFinish Toy Demo DemoDkg.
Import ListNotations.

Section Honest.
  Context {S : Suite} {L : SuiteLaws S}.

  Lemma honest_fresh params parties p : honest_parties params parties -> In p parties ->
    fresh_dealer params (y_index p) (y_d p) (y_co p) (y_x p).
  Proof.
    intros H Hp. destruct (hp_dealt _ _ H p Hp) as (r & r' & E).
    eapply new_dealer_inv; [|apply H|exact E].
    intros Hz. destruct (hp_indices _ _ H) as [_ Hn]. apply Hn. rewrite <- Hz. apply in_map, Hp.
  Qed.
  Lemma honest_indices params parties : honest_parties params parties ->
    map pt_index (map y_d parties) = map y_index parties.
  Proof.
    intros H. rewrite map_map. apply map_ext_in. intros p Hp.
    destruct (honest_fresh params parties p H Hp) as [E _ _ _ _ _]. exact E.
  Qed.
  Lemma honest_perm params parties parties' : honest_parties params parties -> Permutation parties' parties ->
    honest_parties params parties'.
  Proof.
    intros [H1 H2 [H3 H4] H5] HP. constructor; auto.
    - rewrite (Permutation_length HP). exact H1.
    - split; [eapply Permutation_NoDup; [apply Permutation_map, Permutation_sym, HP|exact H3]|].
      intros Hz. apply H4. eapply Permutation_in; [apply Permutation_map, HP|exact Hz].
    - intros p Hp. apply H5. eapply Permutation_in; eassumption.
  Qed.

  Definition triple (p : Party) : Participant * list F * F := (y_d p, y_co p, y_x p).

  Lemma honest_round_one m params parties p ps r : honest_parties params parties -> In p parties ->
    Permutation ps (map y_d parties) ->
    exists st es comms r', bootstrap m params (y_x p) (y_index p) (y_co p) ps r = Ok (R1 st, MkPList ps None, r') /\
      their_encrypted_secret_shares (R1 st) = Ok es /\
      shares_for_all (y_index p) (y_x p) (y_co p) ps es /\
      records params (y_index p) (y_x p) ps st /\ ds_comms st = Some comms /\ NoDup (bkeys comms) /\
      (forall j c, bget j comms = Some c <-> exists q, In q parties /\ y_index q = j /\ c = MkVss j (committed (y_co q))) /\
      (forall q, In q parties -> bget (y_index q) (ds_dhs st) = Some (gen * y_x q)%G).
  Proof.
    intros H Hp HP. apply Permutation_map_inv in HP. destruct HP as (parties' & -> & HP).
    apply Permutation_sym in HP. pose proof (honest_perm _ _ _ H HP) as H'.
    destruct (bootstrap_honest m params (y_x p) (y_index p) (y_co p) (map y_d parties') r (map triple parties'))
      as (st & es & comms & r' & E1 & E2 & E3 & E4 & E5 & E6 & E7 & E8).
    - apply H.
    - rewrite map_length. apply H'.
    - rewrite (honest_indices params parties' H'). apply H'.
    - rewrite map_map. reflexivity.
    - intros d c y Hin. apply in_map_iff in Hin. destruct Hin as (q & [= <- <- <-] & Hq).
      pose proof (honest_fresh params parties' q H' Hq) as Hf. destruct Hf as [Hi]. rewrite Hi. constructor; auto.
    - exists st, es, comms, r'. repeat (split; [assumption|]). split.
      + intros j c. rewrite E7. split.
        * intros (d & co & y & Hin & Hj & ->). apply in_map_iff in Hin. destruct Hin as (q & [= <- <- <-] & Hq).
          exists q. split; [eapply Permutation_in; eassumption|]. split; [|reflexivity].
          rewrite <- Hj. symmetry. apply (honest_fresh params parties' q H' Hq).
        * intros (q & Hq & Hj & ->). exists (y_d q), (y_co q), (y_x q).
          assert (Hq' : In q parties') by (eapply Permutation_in; [apply Permutation_sym|]; eassumption).
          split; [apply (in_map triple), Hq'|]. split; [|reflexivity].
          rewrite <- Hj. apply (honest_fresh params parties' q H' Hq').
      + intros q Hq. assert (Hq' : In q parties') by (eapply Permutation_in; [apply Permutation_sym|]; eassumption).
        rewrite <- (E8 (y_d q) (y_co q) (y_x q)); [|apply (in_map triple), Hq'].
        f_equal. symmetry. apply (honest_fresh params parties' q H' Hq').
  Qed.

  (** what bootstrapped honest parties hold *)
  Lemma honest_state m params parties p : honest_parties params parties -> all_bootstrapped m params parties ->
    In p parties -> exists st comms ps, y_st p = R1 st /\ Permutation ps (map y_d parties) /\
      shares_for_all (y_index p) (y_x p) (y_co p) ps (y_es p) /\
      records params (y_index p) (y_x p) ps st /\ ds_comms st = Some comms /\ NoDup (bkeys comms) /\
      (forall j c, bget j comms = Some c <-> exists q, In q parties /\ y_index q = j /\ c = MkVss j (committed (y_co q))) /\
      (forall q, In q parties -> bget (y_index q) (ds_dhs st) = Some (gen * y_x q)%G).
  Proof.
    intros H HB Hp. destruct (HB p Hp) as (ps & HP & r & lists & r' & E & Ee).
    destruct (honest_round_one m params parties p ps r H Hp HP) as (st & es & comms & r1 & E1 & E2 & E3 & E4 & E5 & E6 & E7 & E8).
    rewrite E in E1. injection E1 as Es _ _. rewrite Es in Ee. rewrite E2 in Ee. injection Ee as <-.
    exists st, comms, ps. auto 10.
  Qed.

  Definition dealing (p : Party) : u32 * F * list F := (y_index p, y_x p, y_co p).

  Lemma honest_nodup_ps params parties ps : honest_parties params parties -> Permutation ps (map y_d parties) ->
    NoDup (map pt_index ps).
  Proof.
    intros H HP. eapply Permutation_NoDup; [apply Permutation_map, Permutation_sym, HP|].
    rewrite (honest_indices params parties H). apply H.
  Qed.

  Lemma honest_delivered_some m params parties senders q es : honest_parties params parties ->
    all_bootstrapped m params parties -> In q parties -> (forall p, In p senders -> In p parties) -> delivered senders q es ->
    Forall2 (fun d e => let '(j, x, co) := d in es_sender e = j /\ es_receiver e = y_index q /\
       decrypt_share e (enc_point ((gen * x) * y_x q)%G) =
         Ok (MkShare j (y_index q) (poly_value co (of_u32 (y_index q))))) (map dealing senders) es.
  Proof.
    intros H HB Hq Hs HD. induction HD as [|p e senders es He HD IH]; cbn [map]; constructor.
    - cbn. destruct (honest_state m params parties p H HB (Hs p (or_introl eq_refl)))
        as (st & comms & ps & Est & HPs & [K1 K2] & _).
      destruct (honest_fresh params parties q H Hq) as [Hi Hpk _ _ _ _].
      destruct (K2 (y_index q) (y_d q)) as (e' & G1 & G2 & G3 & G4).
      { apply last_with_distinct; [eapply honest_nodup_ps; eassumption|]. split; [|exact Hi].
        eapply Permutation_in; [apply Permutation_sym, HPs|]. apply in_map, Hq. }
      rewrite He in G1. injection G1 as <-. rewrite Hi in G3, G4. repeat split; auto.
      rewrite <- G4, Hpk. do 2 f_equal. apply dh_shared.
    - apply IH. intros p' Hp'. apply Hs. right; exact Hp'.
  Qed.
  Lemma honest_delivered m params parties senders q es : honest_parties params parties ->
    all_bootstrapped m params parties -> In q parties -> Permutation senders parties -> delivered senders q es ->
    Forall2 (fun d e => let '(j, x, co) := d in es_sender e = j /\ es_receiver e = y_index q /\
       decrypt_share e (enc_point ((gen * x) * y_x q)%G) =
         Ok (MkShare j (y_index q) (poly_value co (of_u32 (y_index q))))) (map dealing senders) es.
  Proof.
    intros H HB Hq HP HD. apply (honest_delivered_some m params parties senders q es H HB Hq); [|exact HD].
    intros p Hin. eapply Permutation_in; eassumption.
  Qed.
End Honest.

(** C18 *)
Theorem C18_round_one_succeeds :
  forall (S : Suite) (L : SuiteLaws S) (m : build) (params : Params) (parties : list Party) (p : Party)
         (ps : list Participant) (r : Rng),
  honest_parties params parties -> In p parties -> Permutation ps (map y_d parties) ->
  exists st es r', bootstrap m params (y_x p) (y_index p) (y_co p) ps r = Ok (st, MkPList ps None, r') /\
    their_encrypted_secret_shares st = Ok es /\
    forall q, In q parties -> exists e, bget (y_index q) es = Some e.
Proof.
  intros S L m params parties p ps r H Hp HP.
  destruct (honest_round_one m params parties p ps r H Hp HP) as (st & es & comms & r' & E1 & E2 & [K1 K2] & _).
  exists (R1 st), es, r'. repeat (split; [assumption|]). intros q Hq.
  destruct (honest_fresh params parties q H Hq) as [Hi _ _ _ _ _].
  destruct (K2 (y_index q) (y_d q)) as (e & G1 & _).
  { apply last_with_distinct; [eapply honest_nodup_ps; eassumption|]. split; [|exact Hi].
    eapply Permutation_in; [apply Permutation_sym, HP|]. apply in_map, Hq. }
  eauto.
Qed.
Print Assumptions C18_round_one_succeeds.

Theorem C18_honest_agreement :
  forall (S : Suite) (L : SuiteLaws S) (m : build) (params : Params) (parties : list Party),
  honest_parties params parties -> all_bootstrapped m params parties ->
  exists secret : F,
    secret = interp0 (dealt_values parties F0) /\
    forall q senders es r, In q parties -> Permutation senders parties -> delivered senders q es ->
      exists s2 r' sk,
        to_round_two m (y_st q) es r = Ok (s2, [], r') /\
        finish s2 = Ok ((gen * secret)%G, sk) /\
        sk_index sk = y_index q /\
        sk_key sk = interp0 (dealt_values parties (of_u32 (y_index q))) /\
        forall cs, Permutation cs (map (fun p => MkVss (y_index p) (committed (y_co p))) parties) ->
          ivk_generate (y_index q) cs = Ok (to_public sk) /\ ivk_verify (to_public sk) cs = Ok tt.
Proof.
  intros S L m params parties H HB. exists (interp0 (dealt_values parties F0)). split; [reflexivity|].
  intros q senders es r Hq HP HD.
  destruct (honest_state m params parties q H HB Hq) as (st & comms & ps & Est & HPs & _ & R & Hc & Hnd & Hcm & Hdh).
  pose proof (honest_delivered m params parties senders q es H HB Hq HP HD) as HF.
  destruct (dealing_ok m st comms (map dealing parties) (map dealing senders) es r) as (s2 & r' & E1 & _ & E2); auto.
  - rewrite map_map. apply H.
  - intros j c. rewrite Hcm. split.
    + intros (p & Hp & <- & ->). exists (y_x p), (y_co p). split; [|reflexivity]. apply (in_map dealing), Hp.
    + intros (x & co & Hin & ->). apply in_map_iff in Hin. destruct Hin as (p & [= <- <- <-] & Hp). exists p. auto.
  - intros j x co Hin. apply in_map_iff in Hin. destruct Hin as (p & [= <- <- <-] & Hp). split; [|apply Hdh, Hp].
    destruct (honest_fresh params parties p H Hp) as [_ _ Hl _ _ _]. intros E. rewrite E in Hl. cbn in Hl.
    destruct (hp_threshold _ _ H) as [T1 T2]. lia.
  - rewrite (rec_n _ _ _ _ _ R), (rec_t _ _ _ _ _ R), (Permutation_length HPs), map_length, (hp_count _ _ H). apply H.
  - rewrite (rec_t _ _ _ _ _ R), map_length, (hp_count _ _ H). apply H.
  - apply Permutation_map, HP.
  - rewrite (rec_index _ _ _ _ _ R), (rec_sk _ _ _ _ _ R). exact HF.
  - rewrite Est. exists s2, r', (MkSK (y_index q) (interp0 (dealt_values parties (of_u32 (y_index q))))).
    split; [exact E1|]. split.
    { rewrite E2, (rec_index _ _ _ _ _ R), !map_map. unfold dealt_values. reflexivity. }
    split; [reflexivity|]. split; [reflexivity|]. intros cs Hcs.
    assert (Hgi : good_indices (map vss_index cs)).
    { destruct (hp_indices _ _ H) as [I1 I2].
      assert (P : Permutation (map vss_index cs) (map y_index parties)).
      { apply (Permutation_map vss_index) in Hcs. rewrite map_map in Hcs. exact Hcs. }
      split; [eapply Permutation_NoDup; [apply Permutation_sym, P|exact I1]|].
      intros Hz. apply I2. eapply Permutation_in; eassumption. }
    assert (E : dealt_point (by_index cs) (of_u32 (y_index q)) = (gen * interp0 (dealt_values parties (of_u32 (y_index q))))%G).
    { unfold by_index. rewrite (dealt_point_perm _ _ _ (Permutation_map _ Hcs)). unfold dealt_point.
      rewrite <- ginterp0_gen. unfold dealt_values. rewrite !map_map. cbn [fst snd vss_points vss_index].
      f_equal. apply map_ext. intros p. rewrite gpoly_committed. reflexivity. }
    pose proof (ivk_generate_ok (y_index q) cs Hgi) as Eg. rewrite E in Eg.
    split; [exact Eg|]. unfold ivk_verify, to_public. cbn [vk_index vk_share sk_index sk_key].
    rewrite ivk_loops. unfold ivk_generate in Eg. destruct (ivk_generate_loop _ _ _ _) as [z| |]; try discriminate.
    cbn in Eg. injection Eg as Eg. cbn [bind]. rewrite Eg, Geqb_refl. reflexivity.
Qed.
Print Assumptions C18_honest_agreement.

(** any t of the resulting keys reconstruct the agreed secret *)
Lemma dealt_keys_reconstruct :
  forall (S : Suite) (L : SuiteLaws S) (params : Params) (parties qs : list Party) (ks : list SigningKey),
  honest_parties params parties ->
  (forall q, In q qs -> In q parties) -> NoDup qs -> (u32v (p_t params) <= N.of_nat (length qs))%N ->
  Forall2 (fun q k => sk_index k = y_index q /\ sk_key k = interp0 (dealt_values parties (of_u32 (y_index q)))) qs ks ->
  interp0 (key_points ks) = interp0 (dealt_values parties F0).
Proof.
  intros S L params parties qs ks H Hin Hnd Hl HF.
  set (comms := map (fun p => (y_index p, MkVss (y_index p) (committed (y_co p)))) parties).
  assert (E : forall x, dealt_point comms x = (gen * interp0 (dealt_values parties x))%G).
  { intros x. unfold dealt_point, comms. rewrite <- ginterp0_gen. unfold dealt_values. rewrite !map_map.
    cbn [fst snd vss_points]. f_equal. apply map_ext. intros p. rewrite gpoly_committed. reflexivity. }
  apply gen_inj. rewrite <- E. apply (keys_interpolate comms (N.to_nat (u32v (p_t params)))).
  - intros j c Hjc. apply in_map_iff in Hjc. destruct Hjc as (p & [= <- <-] & Hp). cbn [vss_points].
    unfold committed. rewrite map_length. destruct (honest_fresh params parties p H Hp) as [_ _ Hlen _ _ _]. lia.
  - assert (M : map sk_index ks = map y_index qs).
    { clear -HF. induction HF as [|q k qs ks [H1 _] HF IH]; cbn; congruence. }
    rewrite M. destruct (hp_indices _ _ H) as [I _]. clear -Hin Hnd I.
    assert (NI : forall p q, In p parties -> In q parties -> y_index p = y_index q -> p = q).
    { clear -I. induction parties as [|d0 ds IH]; intros d d' Hi Hi' Hq; [contradiction|].
      inversion I as [|? ? Hni Hn']; subst. destruct Hi as [->|Hi], Hi' as [->|Hi']; auto.
      - exfalso. apply Hni. rewrite Hq. apply (in_map y_index ds d' Hi').
      - exfalso. apply Hni. rewrite <- Hq. apply (in_map y_index ds d Hi). }
    induction Hnd as [|q qs Hq Hnd IH]; cbn; constructor.
    + intros Hm. apply in_map_iff in Hm. destruct Hm as (q' & E & Hq'). apply NI in E.
      * subst q'. contradiction.
      * apply Hin. right; exact Hq'.
      * apply Hin. left; reflexivity.
    + apply IH. intros q' Hq'. apply Hin. right; exact Hq'.
  - rewrite <- (Forall2_len _ _ _ HF). lia.
  - intros k Hk. rewrite E. f_equal.
    clear -HF Hk. induction HF as [|q k' qs ks [H1 H2] HF IH]; [contradiction|].
    destruct Hk as [->|Hk]; [|apply IH, Hk]. rewrite H2, H1. reflexivity.
Qed.
Theorem C18_any_t_keys_reconstruct :
  forall (S : Suite) (L : SuiteLaws S) (m : build) (params : Params) (parties qs : list Party) (outs : list (G * SigningKey)),
  honest_parties params parties -> all_bootstrapped m params parties ->
  (forall q, In q qs -> In q parties) -> NoDup qs -> (u32v (p_t params) <= N.of_nat (length qs))%N ->
  Forall2 (party_run m parties) qs outs ->
  interp0 (key_points (map snd outs)) = interp0 (dealt_values parties F0) /\
  forall gk sk, In (gk, sk) outs -> gk = (gen * interp0 (key_points (map snd outs)))%G.
Proof.
  intros S L m params parties qs outs H HB Hin Hnd Hl HF.
  destruct (C18_honest_agreement S L m params parties H HB) as (s & Es & HA).
  assert (K : Forall2 (fun q out => fst out = (gen * s)%G /\ sk_index (snd out) = y_index q /\
                sk_key (snd out) = interp0 (dealt_values parties (of_u32 (y_index q)))) qs outs).
  { clear Hnd Hl. induction HF as [|q out qs outs (senders & es & r & s2 & cs & r' & P1 & P2 & P3 & P4) HF IH]; constructor.
    - destruct (HA q senders es r (Hin q (or_introl eq_refl)) P1 P2) as (s2' & r2 & sk & A1 & A2 & A3 & A4 & _).
      rewrite P3 in A1. injection A1 as <- _ _. rewrite P4 in A2. injection A2 as ->. cbn [fst snd]. auto.
    - apply IH. intros q' Hq'. apply Hin. right; exact Hq'. }
  assert (E : interp0 (key_points (map snd outs)) = interp0 (dealt_values parties F0)).
  { apply (dealt_keys_reconstruct S L params parties qs); auto.
    clear -K. induction K as [|q out qs outs (_ & K1 & K2) K IH]; cbn [map]; constructor; auto. }
  split; [exact E|]. intros gk sk Hg. rewrite E, <- Es. clear -K Hg.
  induction K as [|q out qs outs (K1 & _) K IH]; [contradiction|]. destruct Hg as [->|Hg]; auto.
Qed.
Print Assumptions C18_any_t_keys_reconstruct.

(** the demo run is such a run; its keys and group key *)
Definition demo_party (i : N) : Party :=
  MkParty (u i) (dealer 3 2 i (10 * i)) (dealer_co 3 2 i (10 * i)) (dealer_x 3 2 i (10 * i))
    (demo_r1 demo_ps i) (got [] (their_encrypted_secret_shares (demo_r1 demo_ps i))).
Definition demo_parties : list Party := map demo_party [1; 2; 3]%N.
Example C18_ex_honest : honest_parties demo_params demo_parties.
Proof.
  constructor.
  - vmr.
  - split; vm_compute; discriminate.
  - good.
  - intros p [<-|[<-|[<-|[]]]]; unfold dealt_by.
    + exists 10%N, (let '(_, _, _, r) := dealer_run 3 2 1 10 in r). vmr.
    + exists 20%N, (let '(_, _, _, r) := dealer_run 3 2 2 20 in r). vmr.
    + exists 30%N, (let '(_, _, _, r) := dealer_run 3 2 3 30 in r). vmr.
Qed.
Example C18_ex :
  (let* (s2, cs, _) := to_round_two Debug (demo_r1 demo_ps 3) (demo_shares 3) 7%N in
   let* (gk, sk) := finish s2 in
   Ok (length cs, gk, sk)) =
  Ok (0, (toy_gen * interp0 (dealt_values demo_parties (mk 0)))%G,
      MkSK (u 3) (interp0 (dealt_values demo_parties (mk 3)))) /\
  (let* (s2, cs, _) := to_round_two Debug (demo_r1 demo_ps 1) (rev (demo_shares 1)) 7%N in
   let* (gk, sk) := finish s2 in Ok (gk, sk_index sk)) =
  Ok ((toy_gen * interp0 (dealt_values demo_parties (mk 0)))%G, u 1).
Proof. vms. Qed.
Example C18_ex_bootstrapped : all_bootstrapped Debug demo_params demo_parties.
Proof.
  intros p Hp. exists demo_ps.
  assert (HP : Permutation demo_ps (map y_d demo_parties)) by apply Permutation_refl.
  split; [exact HP|].
  assert (K : forall i, In (demo_party i) demo_parties -> bootstrapped Debug demo_params demo_ps (demo_party i)).
  { intros i Hi.
    destruct (C18_round_one_succeeds Toy ToyLaws Debug demo_params demo_parties (demo_party i) demo_ps (1000 + i)%N
      C18_ex_honest Hi HP) as (st & es & r' & E1 & E2 & _).
    exists (1000 + i)%N, (MkPList demo_ps None), r'.
    assert (Es : y_st (demo_party i) = st).
    { cbn [y_st demo_party]. unfold demo_r1. cbn [y_x y_co y_index demo_party] in E1. rewrite E1. reflexivity. }
    split; [rewrite Es; exact E1|]. cbn [y_es demo_party]. cbn [y_st demo_party] in *. rewrite Es, E2. reflexivity. }
  destruct Hp as [<-|[<-|[<-|[]]]]; apply K; cbn; auto.
Qed.

Lemma party_runs_exist (S : Suite) (L : SuiteLaws S) m params parties qs : honest_parties params parties -> all_bootstrapped m params parties ->
  (forall q, In q qs -> In q parties) -> Rng -> exists outs, Forall2 (party_run m parties) qs outs.
Proof.
  intros H HB Hin r. destruct (C18_honest_agreement S L m params parties H HB) as (s & _ & HA).
  induction qs as [|q qs IH]; [exists []; constructor|]. destruct IH as [outs IH]; [intros q' Hq'; apply Hin; right; exact Hq'|].
  pose proof (Hin q (or_introl eq_refl)) as Hq.
  assert (HD : exists es, delivered parties q es).
  { unfold delivered. assert (HS : forall p, In p parties -> In p parties) by auto. revert HS. generalize parties at 1 3. intros l HS.
    induction l as [|p l IHl]; [exists []; constructor|]. destruct IHl as [es IHl]; [intros p' Hp'; apply HS; right; exact Hp'|].
    destruct (honest_state m params parties p H HB (HS p (or_introl eq_refl))) as (st & comms & ps & _ & HPs & [K1 K2] & _).
    destruct (honest_fresh params parties q H Hq) as [Hi _ _ _ _ _].
    destruct (K2 (y_index q) (y_d q)) as (e & G1 & _).
    { apply last_with_distinct; [eapply honest_nodup_ps; eassumption|]. split; [|exact Hi].
      eapply Permutation_in; [apply Permutation_sym, HPs|]. apply in_map, Hq. }
    exists (e :: es). constructor; assumption. }
  destruct HD as [es HD]. destruct (HA q parties es r Hq (Permutation_refl _) HD) as (s2 & r' & sk & A1 & A2 & _).
  exists ((gen * s, sk)%G :: outs). constructor; [|exact IH]. exists parties, es, r, s2, [], r'. auto.
Qed.
Example C18_ex_runs : exists outs, Forall2 (party_run Debug demo_parties) demo_parties outs.
Proof. exact (party_runs_exist Toy ToyLaws Debug demo_params demo_parties demo_parties C18_ex_honest C18_ex_bootstrapped (fun q H => H) 7%N). Qed.

(** C19 *)
Theorem C19_finish_matches_commitments :
  forall (S : Suite) (L : SuiteLaws S) (st : DkgState) (comms : bmap Vss) (shares : bmap SecretShare),
  ds_comms st = Some comms -> ds_shares st = Some shares ->
  good_indices (bkeys comms) -> NoDup (bkeys shares) ->
  (forall j c, bget j comms = Some c -> vss_index c = j /\ vss_points c <> []) ->
  (forall j, In j (bkeys shares) <-> In j (bkeys comms)) ->
  (forall j s c, bget j shares = Some s -> bget j comms = Some c -> on_commitment c (ds_index st) (sh_value s)) ->
  exists gk sk, finish (R2 st) = Ok (gk, sk) /\ sk_index sk = ds_index st /\
    first_points comms gk /\
    ivk_generate (ds_index st) (map snd comms) = Ok (to_public sk) /\
    ivk_verify (to_public sk) (map snd comms) = Ok tt.
Proof.
  intros S L st comms shares Hc Hs Hgi Hnd Hix Hk Hv.
  assert (Hne : forall j c, In (j, c) comms -> vss_points c <> []).
  { intros j c Hin. apply in_bget in Hin; [|apply Hgi]. apply (Hix j c Hin). }
  assert (Hgs : good_indices (bkeys shares)).
  { split; [exact Hnd|]. intros Hz. apply Hk in Hz. apply Hgi, Hz. }
  exists (dealt_point comms F0), (MkSK (ds_index st) (interp0 (share_points shares))).
  split; [apply finish_ok; assumption|]. split; [reflexivity|]. split; [apply first_points_ex, Hne|].
  assert (HB : by_index (map snd comms) = comms).
  { unfold by_index. rewrite map_map. rewrite <- (map_id comms) at 2. apply map_ext_in. intros [j c] Hin. cbn.
    apply in_bget in Hin; [|apply Hgi]. destruct (Hix j c Hin) as [-> _]. reflexivity. }
  assert (Hgi' : good_indices (map vss_index (map snd comms))).
  { replace (map vss_index (map snd comms)) with (bkeys comms); [exact Hgi|].
    rewrite <- HB at 1. unfold by_index, bkeys. rewrite !map_map. reflexivity. }
  assert (E : dealt_point (by_index (map snd comms)) (of_u32 (ds_index st)) = (gen * interp0 (share_points shares))%G).
  { rewrite HB. symmetry. apply share_points_match; auto.
    intros j s Hj. assert (Hin : In j (bkeys comms)).
    { apply Hk. apply bget_in, (in_map fst) in Hj. exact Hj. }
    apply in_map_iff in Hin. destruct Hin as ([j' c] & Ej & Hin). cbn in Ej. subst j'.
    apply in_bget in Hin; [|apply Hgi]. exists c. split; [exact Hin|]. eapply Hv; eassumption. }
  pose proof (ivk_generate_ok (ds_index st) _ Hgi') as Eg. rewrite E in Eg.
  split; [exact Eg|]. unfold ivk_verify, to_public. cbn [vk_index vk_share sk_index sk_key].
  rewrite ivk_loops. unfold ivk_generate in Eg. destruct (ivk_generate_loop _ _ _ _) as [z| |]; try discriminate.
  cbn in Eg. injection Eg as Eg. cbn [bind]. rewrite Eg, Geqb_refl. reflexivity.
Qed.
Print Assumptions C19_finish_matches_commitments.

(** the hypotheses on the shares hold after a round two without complaints in which every retained dealer's
    share arrived, addressed to the state's owner *)
Theorem C19_complete_round_two_suffices :
  forall (S : Suite) (L : SuiteLaws S) (m : build) (st : DkgState) (comms : bmap Vss) (es : list EncShare) (r r' : Rng) s2,
  ds_comms st = Some comms -> NoDup (bkeys comms) ->
  (forall e, In e es -> es_receiver e = ds_index st /\ In (es_sender e) (bkeys comms)) ->
  (forall j, In j (bkeys comms) -> exists e, In e es /\ es_sender e = j) ->
  to_round_two m (R1 st) es r = Ok (s2, [], r') ->
  exists shares, ds_comms (st2 s2) = Some comms /\ ds_shares (st2 s2) = Some shares /\ NoDup (bkeys shares) /\
    ds_index (st2 s2) = ds_index st /\
    (forall j, In j (bkeys shares) <-> In j (bkeys comms)) /\
    (forall j s c, bget j shares = Some s -> bget j comms = Some c -> on_commitment c (ds_index st) (sh_value s)).
Proof.
  intros S L m st comms es r r' s2 Hc Hnd He Hall E.
  destruct (to_round_two_inv m st comms es r s2 [] r' Hc Hnd E) as (_ & HL & ->). cbn [st2].
  destruct (round_two_state_spec st es) as [A1 A2 A3 A4 A5 A6 A7 (shares & B1 & B2 & B3)].
  assert (Hgood : forall e, In e es -> exists v c, opens st e v /\ bget (es_sender e) comms = Some c /\ on_commitment c (ds_index st) v).
  { intros e Hin. destruct (He e Hin) as [Hr Hj]. apply in_map_iff in Hj. destruct Hj as ([j c] & Ej & Hjc).
    cbn in Ej. subst j. apply in_bget in Hjc; [|exact Hnd].
    destruct (not_bad_good st comms e c Hc Hjc (complaint_list_nil _ _ HL e Hin)) as (v & H1 & H2).
    rewrite Hr in H2. eauto. }
  exists shares. split; [exact Hc|]. split; [exact B1|]. split; [exact B2|]. split; [reflexivity|]. split.
  - intros j. split.
    + intros Hj. apply in_map_iff in Hj. destruct Hj as ([j' s] & Ej & Hin). cbn in Ej. subst j'.
      apply in_bget in Hin; [|exact B2]. apply B3 in Hin. destruct Hin as (e & (l1 & l2 & -> & [P1 P2] & _) & _).
      rewrite <- P1. apply He. apply in_or_app. right; left; reflexivity.
    + intros Hj. destruct (Hall j Hj) as (e & Hin & Hse).
      destruct (last_such_ex (fun e => es_sender e = j /\ exists v, opens st e v)
        ltac:(intros x; destruct (u32_eq_dec (es_sender x) j), (opens_dec st x); tauto) es e Hin) as (e' & HX).
      { destruct (Hgood e Hin) as (v & c & Ho & _). eauto. }
      pose proof HX as (l1 & l2 & _ & [P1 (v & P2)] & _).
      assert (Hb : bget j shares = Some (MkShare j (es_receiver e') v)) by (apply B3; eauto).
      apply bget_in, (in_map fst) in Hb. exact Hb.
  - intros j s c Hs Hj. apply B3 in Hs. destruct Hs as (e & (l1 & l2 & -> & [P1 _] & _) & v & Hv & ->). cbn.
    destruct (Hgood e) as (v' & c' & G1 & G2 & G3); [apply in_or_app; right; left; reflexivity|].
    rewrite P1, Hj in G2. injection G2 as <-. rewrite (opens_fun _ _ _ _ Hv G1). exact G3.
Qed.
Print Assumptions C19_complete_round_two_suffices.

(** dealer 2 is not honest: its commitment and shares follow a polynomial of its own choice, not from new_dealer *)
Definition C19_bad_co : list F := [mk 123456; mk 0].
Definition C19_state : DkgState :=
  MkState demo_params (u 3) (dealer_x 3 2 3 30) (pt_dh_pk (dealer 3 2 3 30))
    (Some [(u 1, MkVss (u 1) (committed (dealer_co 3 2 1 10))); (u 2, MkVss (u 2) (committed C19_bad_co))])
    [] None
    (Some [(u 1, MkShare (u 1) (u 3) (poly_value (dealer_co 3 2 1 10) (mk 3)));
           (u 2, MkShare (u 2) (u 3) (mk 123456))]).
Example C19_ex :
  good_indices [u 1; u 2] /\
  (toy_gen * mk 123456)%G = gpoly_value (committed C19_bad_co) (of_u32 (u 3)) /\
  (let* (gk, sk) := finish (R2 C19_state) in
   ivk_verify (to_public sk) [MkVss (u 2) (committed C19_bad_co); MkVss (u 1) (committed (dealer_co 3 2 1 10))]) = Ok tt.
Proof. split; [good|]. vms. Qed.

(** C20 *)
Theorem C20_any_t_keys_give_group_key :
  forall (S : Suite) (L : SuiteLaws S) (cs : list Vss) (t : nat) (ks : list SigningKey),
  good_indices (map vss_index cs) ->
  (forall c, In c cs -> length (vss_points c) <= t) ->
  NoDup (map sk_index ks) -> t <= length ks ->
  (forall k, In k ks -> ivk_generate (sk_index k) cs = Ok (to_public k)) ->
  (gen * interp0 (key_points ks))%G = dealt_point (by_index cs) F0.
Proof.
  intros S L cs t ks Hgi Ht Hnd Hl Hk. apply (keys_interpolate (by_index cs) t); auto.
  - intros j c Hin. apply in_map_iff in Hin. destruct Hin as (c' & [= <- <-] & Hc). apply Ht, Hc.
  - intros k Hin. specialize (Hk k Hin). rewrite ivk_generate_ok in Hk by exact Hgi. injection Hk as Hk. symmetry. exact Hk.
Qed.
Print Assumptions C20_any_t_keys_give_group_key.

(** the group key returned by finish is the interpolation of the dealers' public keys, which is
    the value at zero of the commitments *)
Theorem C20_finish_group_key :
  forall (S : Suite) (L : SuiteLaws S) (st : DkgState) (comms : bmap Vss) gk sk,
  ds_comms st = Some comms -> NoDup (bkeys comms) ->
  finish (R2 st) = Ok (gk, sk) ->
  good_indices (bkeys comms) /\ first_points comms gk /\ gk = dealt_point comms F0.
Proof.
  intros S L st comms gk sk Hc Hnd H. unfold finish in H. cbn [st2] in H.
  destruct (calculate_signing_key st) as [k| |]; try discriminate. cbn [bind] in H.
  destruct (calculate_group_key st) as [g| |] eqn:Eg; try discriminate. cbn [bind] in H. injection H as -> ->.
  unfold calculate_group_key in Eg. rewrite Hc in Eg.
  assert (A : comms = [] \/ good_indices (bkeys comms)).
  { destruct comms as [|[j c] comms]; [left; reflexivity|right]. cbn [group_key_loop] in Eg.
    destruct (in_dec u32_eq_dec u32_zero (bkeys ((j, c) :: comms))) as [Hz|Hz]; [|split; assumption].
    rewrite lagrange_zero_index in Eg by assumption. discriminate. }
  assert (Hgi : good_indices (bkeys comms)).
  { destruct A as [->|A]; [|exact A]. split; [constructor|intros []]. }
  assert (Hne : forall j c, In (j, c) comms -> vss_points c <> []).
  { revert Eg. generalize (bkeys comms) at 1. intros idx. generalize Gzero. clear -L. induction comms as [|[j0 c0] comms IH]; intros g0 Eg j c Hin; [contradiction|].
    cbn [group_key_loop] in Eg. destruct (lagrange j0 idx); try discriminate. cbn [bind] in Eg. unfold vss_public_key in Eg.
    destruct (vss_points c0) as [|P rest] eqn:Ec; [discriminate|].
    destruct Hin as [[= <- <-]|Hin]; [rewrite Ec; discriminate|]. eapply IH; eassumption. }
  pose proof (calculate_group_key_ok st comms Hc Hgi Hne) as E2. unfold calculate_group_key in E2. rewrite Hc, Eg in E2.
  injection E2 as ->. split; [exact Hgi|]. split; [apply first_points_ex, Hne|reflexivity].
Qed.
Print Assumptions C20_finish_group_key.

Definition demo_cs : list Vss := map (fun p => MkVss (y_index p) (committed (y_co p))) demo_parties.
Definition demo_key (i : N) : SigningKey := MkSK (u i) (interp0 (dealt_values demo_parties (of_u32 (u i)))).
Example C20_ex :
  good_indices (map vss_index demo_cs) /\ NoDup (map sk_index [demo_key 3; demo_key 1]) /\
  map (fun c => length (vss_points c)) demo_cs = [2; 2; 2] /\
  ivk_generate (u 3) demo_cs = Ok (to_public (demo_key 3)) /\ ivk_generate (u 1) demo_cs = Ok (to_public (demo_key 1)) /\
  (toy_gen * interp0 (key_points [demo_key 3; demo_key 1]))%G = dealt_point (by_index demo_cs) (mk 0).
Proof. split; [good|]. split; [nodup|]. vms. Qed.

(** C21: participant 3 of the honest run receives the shares of 1 and 3 only (t = 2 of them) *)
Definition C21_senders : list Party := [demo_party 1; demo_party 3].
Theorem C21_withheld_share_desynchronises :
  exists (S : Suite) (L : SuiteLaws S) (m : build) (params : Params) (parties senders : list Party) (q : Party)
         (es : list EncShare) (r r' : Rng) s2 gk sk vk,
    honest_parties params parties /\ all_bootstrapped m params parties /\ In q parties /\
    (forall p, In p senders -> In p parties) /\ delivered senders q es /\
    to_round_two m (y_st q) es r = Ok (s2, [], r') /\ finish s2 = Ok (gk, sk) /\
    ivk_generate (y_index q) (map (fun p => MkVss (y_index p) (committed (y_co p))) parties) = Ok vk /\
    vk <> to_public sk /\ ivk_verify (to_public sk) (map (fun p => MkVss (y_index p) (committed (y_co p))) parties) = Err ShareVerificationError.
Proof.
  set (es := shares_to 3 (map (demo_r1 demo_ps) [1; 3]%N)).
  destruct (to_round_two Debug (demo_r1 demo_ps 3) es 7%N) as [[[s2 cs] r']|e|] eqn:E.
  2,3: exfalso; assert (X : is_ok (to_round_two Debug (demo_r1 demo_ps 3) es 7%N) = true) by vmr; rewrite E in X; discriminate.
  assert (Hcs : cs = []).
  { assert (X : match to_round_two Debug (demo_r1 demo_ps 3) es 7%N with Ok (_, cs, _) => length cs | _ => 9 end = 0) by vmr.
    rewrite E in X. destruct cs; [reflexivity|discriminate]. }
  subst cs. exists Toy, ToyLaws, Debug, demo_params, demo_parties, C21_senders, (demo_party 3), es, 7%N, r', s2.
  exists (dealt_point (by_index demo_cs) (mk 0)),
    (MkSK (u 3) (interp0 (dealt_values C21_senders (mk 3)))), (to_public (demo_key 3)).
  split; [exact C18_ex_honest|]. split; [exact C18_ex_bootstrapped|].
  split; [right; right; left; reflexivity|].
  split; [intros p [<-|[<-|[]]]; [left|right; right; left]; reflexivity|].
  split.
  { unfold es, shares_to, delivered, C21_senders. cbn [map flat_map]. 
    assert (X : forall i, In (demo_party i) demo_parties -> exists l e, their_encrypted_secret_shares (demo_r1 demo_ps i) = Ok l /\
        bget (u 3) l = Some e /\ bget (y_index (demo_party 3)) (y_es (demo_party i)) = Some e).
    { intros i Hi. 
      destruct (C18_round_one_succeeds Toy ToyLaws Debug demo_params demo_parties (demo_party i) demo_ps (1000 + i)%N
        C18_ex_honest Hi (Permutation_refl _)) as (st & l & r1 & E1 & E2 & E3).
      destruct (E3 (demo_party 3)) as [e He]; [right; right; left; reflexivity|].
      cbn [y_x y_co y_index demo_party] in E1.
      assert (Es : demo_r1 demo_ps i = st) by (unfold demo_r1; rewrite E1; reflexivity).
      exists l, e. cbn [y_es demo_party]. rewrite Es, E2. auto. }
    destruct (X 1%N) as (l1 & e1 & A1 & A2 & A3); [left; reflexivity|].
    destruct (X 3%N) as (l3 & e3 & B1 & B2 & B3); [right; right; left; reflexivity|].
    rewrite A1, B1, A2, B2. cbn [app]. repeat constructor; assumption. }
  split; [exact E|]. split.
  { assert (X : (let* (s2, _, _) := to_round_two Debug (demo_r1 demo_ps 3) es 7%N in finish s2) =
      Ok (dealt_point (by_index demo_cs) (mk 0), MkSK (u 3) (interp0 (dealt_values C21_senders (mk 3))))) by vmr.
    rewrite E in X. exact X. }
  split; [vmr|]. split; [|vmr].
  intros H. apply (f_equal (@vk_share Toy)) in H. apply (f_equal fv) in H. vm_compute in H. discriminate.
Qed.
Print Assumptions C21_withheld_share_desynchronises.

(** dropping the commitments of the dealers whose share is missing (what blame does) restores agreement *)
Theorem C21_removal_restores_agreement :
  forall (S : Suite) (L : SuiteLaws S) (st : DkgState) (comms : bmap Vss) (shares : bmap SecretShare),
  ds_comms st = Some comms -> ds_shares st = Some shares ->
  good_indices (bkeys comms) -> NoDup (bkeys shares) ->
  (forall j c, bget j comms = Some c -> vss_index c = j /\ vss_points c <> []) ->
  (forall j s, bget j shares = Some s -> exists c, bget j comms = Some c /\ on_commitment c (ds_index st) (sh_value s)) ->
  let comms' := filter (fun jc => existsb (u32_eqb (fst jc)) (bkeys shares)) comms in
  exists gk sk,
    finish (R2 (MkState (ds_params st) (ds_index st) (ds_dh_sk st) (ds_dh_pk st) (Some comms') (ds_dhs st)
                  (ds_enc st) (ds_shares st))) = Ok (gk, sk) /\
    ivk_generate (ds_index st) (map snd comms') = Ok (to_public sk).
Proof.
  intros S L st comms shares Hc Hs [Hg1 Hg2] Hnd Hix Hv comms'.
  assert (Hin : forall j c, In (j, c) comms' <-> In (j, c) comms /\ In j (bkeys shares)).
  { intros j c. unfold comms'. rewrite filter_In, existsb_exists. cbn [fst]. split.
    - intros [H1 (x & H2 & H3)]. apply u32_eqb_spec in H3. subst x. auto.
    - intros [H1 H2]. split; [exact H1|]. exists j. split; [exact H2|apply u32_eqb_refl]. }
  assert (Hnd' : NoDup (bkeys comms')).
  { unfold comms'. clear -Hg1. unfold bkeys in *. induction comms as [|[j c] comms IH]; [constructor|].
    cbn in Hg1. inversion Hg1 as [|? ? H1 H2]; subst. cbn [filter fst]. destruct (existsb _ _); [|apply IH, H2].
    cbn. constructor; [|apply IH, H2]. intros X. apply H1. apply in_map_iff in X. destruct X as ([j' c'] & E & X). cbn in E. subst j'.
    apply filter_In in X. destruct X as [X _]. apply (in_map fst) in X. exact X. }
  assert (Hget : forall j c, bget j comms' = Some c -> bget j comms = Some c /\ In j (bkeys shares)).
  { intros j c H. apply bget_in, Hin in H. destruct H as [H1 H2]. split; [apply in_bget; assumption|exact H2]. }
  destruct (C19_finish_matches_commitments S L
    (MkState (ds_params st) (ds_index st) (ds_dh_sk st) (ds_dh_pk st) (Some comms') (ds_dhs st) (ds_enc st) (ds_shares st))
    comms' shares) as (gk & sk & E1 & _ & _ & E2 & _); auto.
  - split; [exact Hnd'|]. intros Hz. apply Hg2. apply in_map_iff in Hz. destruct Hz as ([j c] & E & Hz). cbn in E. subst j.
    apply Hin in Hz. destruct Hz as [Hz _]. apply (in_map fst) in Hz. exact Hz.
  - intros j c H. apply Hget in H. apply Hix, H.
  - intros j. split.
    + intros Hj. apply in_map_iff in Hj as X. destruct X as ([j' s] & E & X). cbn in E. subst j'. apply in_bget in X; [|exact Hnd].
      destruct (Hv j s X) as (c & H1 & _). apply bget_in in H1.
      assert (Y : In (j, c) comms') by (apply Hin; auto). apply (in_map fst) in Y. exact Y.
    + intros Hj. apply in_map_iff in Hj. destruct Hj as ([j' c] & E & X). cbn in E. subst j'. apply Hin in X. apply X.
  - intros j s c H1 H2. destruct (Hv j s H1) as (c' & H3 & H4). apply Hget in H2. destruct H2 as [H2 _].
    rewrite H2 in H3. injection H3 as <-. exact H4.
  - exists gk, sk. auto.
Qed.
Print Assumptions C21_removal_restores_agreement.

(** C35 *)
Theorem C35_verify_equals_regeneration :
  forall (S : Suite) (L : SuiteLaws S) (k : VerifyingKey) (cs : list Vss),
  (ivk_verify k cs = Ok tt <-> ivk_generate (vk_index k) cs = Ok k) /\
  (ivk_verify k cs = Err ShareVerificationError <-> exists k', ivk_generate (vk_index k) cs = Ok k' /\ k' <> k) /\
  (forall P, ivk_generate (vk_index k) cs = Ok P -> vk_index P = vk_index k) /\
  (good_indices (map vss_index cs) ->
     ivk_generate (vk_index k) cs = Ok (MkVK (vk_index k) (dealt_point (by_index cs) (of_u32 (vk_index k))))) /\
  (cs <> [] -> ~ NoDup (map vss_index cs) ->
     ivk_generate (vk_index k) cs = Err (Custom "Duplicate indices provided") /\
     ivk_verify k cs = Err (Custom """Duplicate indices provided""")) /\
  (NoDup (map vss_index cs) -> In u32_zero (map vss_index cs) ->
     ivk_generate (vk_index k) cs = Err IndexIsZero /\
     ivk_verify k cs = Err (Custom "The indexs of a participant cannot be 0.")).
Proof.
  intros S L k cs. unfold ivk_verify, ivk_generate. rewrite ivk_loops.
  assert (EQ : forall g, Geqb (vk_share k) g = true <-> MkVK (vk_index k) g = k).
  { intros g. rewrite Geqb_spec. destruct k as [i s]. cbn. split; [intros ->; reflexivity|intros [= ->]; reflexivity]. }
  repeat split.
  - destruct (ivk_generate_loop _ _ _ _) as [g| |]; cbn [bind]; try discriminate.
    destruct (Geqb (vk_share k) g) eqn:E; [|discriminate]. intros _. f_equal. apply EQ, E.
  - destruct (ivk_generate_loop _ _ _ _) as [g| |]; cbn [bind]; try discriminate.
    intros [= H]. apply EQ in H. rewrite H. reflexivity.
  - destruct (ivk_generate_loop _ _ _ _) as [g| |]; cbn [bind]; try discriminate.
    destruct (Geqb (vk_share k) g) eqn:E; [discriminate|]. intros _. eexists. split; [reflexivity|].
    intros H. apply EQ in H. congruence.
  - intros (k' & H & Hne). destruct (ivk_generate_loop _ _ _ _) as [g| |]; cbn [bind] in *; try discriminate.
    injection H as <-. destruct (Geqb (vk_share k) g) eqn:E; [|reflexivity]. apply EQ in E. contradiction.
  - intros P H. destruct (ivk_generate_loop _ _ _ _) as [g| |]; cbn [bind] in *; try discriminate. injection H as <-. reflexivity.
  - apply (ivk_generate_ok (vk_index k) cs).
  - destruct cs as [|c cs]; [congruence|]. cbn [ivk_generate_loop]. rewrite lagrange_dup by assumption. reflexivity.
  - destruct cs as [|c cs]; [congruence|]. cbn [ivk_generate_loop]. rewrite lagrange_dup by assumption. reflexivity.
  - destruct cs as [|c cs]; [contradiction|]. cbn [ivk_generate_loop]. rewrite lagrange_zero_index by assumption. reflexivity.
  - destruct cs as [|c cs]; [contradiction|]. cbn [ivk_generate_loop]. rewrite lagrange_zero_index by assumption. reflexivity.
Qed.
Print Assumptions C35_verify_equals_regeneration.

Example C35_ex :
  ivk_verify (to_public (demo_key 2)) demo_cs = Ok tt /\
  ivk_verify (MkVK (u 2) (mk 5)) demo_cs = Err ShareVerificationError /\
  ivk_verify (MkVK (u 2) (mk 5)) (demo_cs ++ demo_cs) = Err (Custom """Duplicate indices provided""").
Proof. vms. Qed.
