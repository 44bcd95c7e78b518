(** C85: resharing keeps the group key if the caller compares the dealers' commitments with the old verifying keys. *)
From Coq Require Import String Strings.Byte Arith NArith ZArith Bool List Permutation Sorted Lia Field.
From Verif Require Import Base Suite Spec SpecDkg SpecSign SpecRobust SpecEnd Types ModelDkg ModelSign Algebra BaseLemmas LemmasShare LemmasRound1
  LemmasRound2 LemmasFinish LemmasBlame LemmasSign LemmasAgg Toy Demo DemoDkg DemoSign PropsRound1 PropsFinish PropsBlame PropsReshare PropsSign
  PropsAgg PropsRobust PropsView PropsEnd.
Import ListNotations.

Section Handover.
  Context {S : Suite} {L : SuiteLaws S}.

  (** a new signer that called new on the dealers' list ps, in its own order, passed only shares addressed to itself to
      round two, and at least one of every accepted dealer *)
  Record receives (m : build) (params : Params) (ps : list Participant) (h : Follower) : Prop := {
    rv_begins : exists x my ps' r l q, Permutation ps ps' /\ dkg_new m params x my ps' r = Ok (R1 (h_st h), l, q);
    rv_mine : forall e, In e (h_es h) -> es_receiver e = ds_index (h_st h);
    rv_all : forall p, In p ps -> ok_new p -> exists e, In e (h_es h) /\ es_sender e = pt_index p;
    rv_run : to_round_two m (R1 (h_st h)) (h_es h) (h_r h) = Ok (h_s2 h, h_cs h, h_r' h) }.
  (** what the caller checks of an accepted dealer: it is an old participant, the first point of its commitment is its
      old verifying key, and the commitment has at most t points *)
  Definition vouched (olds : list u32) (book : u32 -> G) (t : nat) (p : Participant) : Prop :=
    In (pt_index p) olds /\
    exists c rest, pt_comm p = Some c /\ vss_points c = book (pt_index p) :: rest /\ length (vss_points c) <= t.

  Lemma receives_view m params ps h : good_indices (map pt_index ps) -> receives m params ps h ->
    exists comms, ds_comms (h_st h) = Some comms /\ good_indices (bkeys comms) /\
      (forall j c, bget j comms = Some c <-> exists p, In p ps /\ ok_new p /\ pt_index p = j /\ pt_comm p = Some c) /\
      (forall j, In j (bkeys comms) <-> exists p, In p ps /\ ok_new p /\ pt_index p = j) /\
      (forall j pk, bget j (ds_dhs (h_st h)) = Some pk -> In j (bkeys comms)) /\
      (forall valid mis, splits ok_new ps valid mis -> u32v (p_n (ds_params (h_st h))) = N.of_nat (length valid)).
  Proof.
    intros [Hnd H0] [(x & my & ps' & r & l & q & HP & E) _ _ _].
    assert (Hnd' : NoDup (map pt_index ps')) by (eapply Permutation_NoDup; [apply Permutation_map, HP|exact Hnd]).
    destruct (round_one_ok m params x my None ps' false r _ l q ltac:(discriminate) E) as (_ & _ & _ & _ & _ & s1 & Es & R & K & comms & HC & KC & LC).
    injection Es as <-. exists comms.
    set (v := filter (okb false true (p_t params)) ps') in *.
    assert (Hps : forall p, In p ps' <-> In p ps).
    { intros p. split; apply Permutation_in; [apply Permutation_sym|]; exact HP. }
    assert (Hv : NoDup (map pt_index v)) by (apply filter_nodup_idx, Hnd').
    assert (Hin : forall p, In p v <-> In p ps /\ ok_new p).
    { intros p. unfold v. rewrite filter_In, okb_new, Hps. tauto. }
    assert (Hnc : NoDup (bkeys comms)) by (apply increasing_NoDup, KC).
    assert (Hget : forall j c, bget j comms = Some c <-> exists p, In p ps /\ ok_new p /\ pt_index p = j /\ pt_comm p = Some c).
    { intros j c. rewrite (LC j c). split; intros (p & A).
      - exists p. destruct A as [A B]. apply (last_with_distinct j v p Hv) in A. rewrite Hin in A. tauto.
      - exists p. split; [apply last_with_distinct; [exact Hv|]; rewrite Hin; tauto|tauto]. }
    assert (Hk : forall j, In j (bkeys comms) <-> exists p, In p ps /\ ok_new p /\ pt_index p = j).
    { intros j. split.
      - intros Hj. apply in_map_iff in Hj. destruct Hj as ([j' c] & Ej & Hj). cbn in Ej. subst j'.
        apply in_bget in Hj; [|exact Hnc]. apply Hget in Hj. destruct Hj as (p & A & B & C & _). exists p. tauto.
      - intros (p & A & B & C). pose proof B as (B1 & c & P & rest & pr & B2 & _).
        assert (X : bget j comms = Some c) by (apply Hget; exists p; tauto).
        apply bget_in, (in_map fst) in X. exact X. }
    split; [exact HC|]. split; [|split; [exact Hget|split; [exact Hk|split]]].
    - split; [exact Hnc|]. intros Z. apply Hk in Z. destruct Z as (p & A & _ & B). apply H0. rewrite <- B. apply in_map, A.
    - intros j pk Hj. apply (rec_dhs _ _ _ _ _ R) in Hj. destruct Hj as (p & (l1 & l2 & El & Hi & _) & _).
      apply Hk. exists p. assert (X : In p v) by (rewrite El; apply in_elt). apply Hin in X. tauto.
    - intros valid mis HS. rewrite (rec_n _ _ _ _ _ R). f_equal.
      rewrite (PropsEnd.splits_length _ ps valid (filter (okb false true (p_t params)) ps) mis _ HS
                 (PropsEnd.splits_filter _ _ ps (okb_new (p_t params)))).
      unfold v. clear -HP. induction HP; cbn [filter]; auto.
      + destruct (okb false true (p_t params) x); cbn [length]; auto.
      + destruct (okb false true (p_t params) x), (okb false true (p_t params) y); reflexivity.
      + congruence.
  Qed.

  Lemma book_of_recovers t s ks (book : u32 -> G) : recovers t s ks -> (forall k, In k ks -> book (sk_index k) = (gen * sk_key k)%G) ->
    key_book t (gen * s)%G (map sk_index ks) book.
  Proof.
    intros [_ HR] HB sub Hn Hi Hl.
    assert (X : exists ks', map sk_index ks' = sub /\ forall k, In k ks' -> In k ks).
    { clear Hn Hl. induction sub as [|i sub IH]; [exists []; split; [reflexivity|intros ? []]|].
      destruct IH as (ks' & E & H); [intros j Hj; apply Hi; right; exact Hj|].
      assert (Y : In i (map sk_index ks)) by (apply Hi; left; reflexivity). apply in_map_iff in Y. destruct Y as (k & Ek & Y).
      exists (k :: ks'). split; [cbn [map]; congruence|]. intros k' [<-|Hk]; auto. }
    destruct X as (ks' & <- & Hin). rewrite map_map. rewrite map_length in Hl. rewrite <- (HR ks' Hin Hn Hl).
    rewrite <- ginterp0_gen. unfold key_points. rewrite map_map. f_equal. apply map_ext_in. intros k Hk. cbn [fst snd]. rewrite HB; auto.
  Qed.
End Handover.

(** C85: the new signers keep the old group key with threshold t2, whatever the dealers did, if every accepted dealer is vouched for
    and t1 of them are not convicted *)
Theorem C85_checked_resharing_keeps_the_key :
  forall (S : Suite) (L : SuiteLaws S) (m : build) (params : Params) (ps valid : list Participant) (mis : list u32)
         (hs : list Follower) (all : list Complaint) (t1 t2 : nat) (gk0 : G) (olds kept : list u32) (book : u32 -> G)
         (p : Params) (msg : list byte),
  good_indices (map pt_index ps) -> splits ok_new ps valid mis ->
  (* they complain about nobody whose index is above the number of accepted dealers (see C26) *)
  (forall h c, In h hs -> In c (h_cs h) -> (u32v (accused c) <= N.of_nat (length valid))%N) ->
  (forall h, In h hs -> receives m params ps h) -> hs <> [] -> settle_together hs all ->
  (* the old sharing, and the checks of the caller *)
  key_book t1 gk0 olds book -> 1 <= t2 ->
  (forall q, In q valid -> vouched olds book t2 q) ->
  NoDup kept -> incl kept (map pt_index valid) -> t1 <= length kept ->
  (forall h j, In h hs -> In j kept -> ~ convicted (h_st h) all j) ->
  exists keys comms',
    (forall h, In h hs -> exists sk, ends h keys comms' gk0 sk /\ (gen * sk_key sk)%G = dealt_point comms' (of_u32 (sk_index sk))) /\
    (* the next epoch's book *)
    (forall news, key_book t2 gk0 news (fun i => dealt_point comms' (of_u32 i))) /\
    forall qs : list Cosigner,
    (forall q, In q qs -> cosigner_ok q /\ exists h, In h hs /\ ends h keys comms' gk0 (q_key q)) ->
    good_indices (map (fun q => sk_index (q_key q)) qs) ->
    t2 <= length qs -> (N.of_nat (length qs) <= u32v (p_n p))%N ->
    exists a1 pss, agg_run (agg_new p gk0 msg) (announce qs) a1 /\
      signed m (h4 msg) gk0 (ag_signers (ai_state a1)) qs pss /\
      forall ps', Permutation ps' pss -> exists a2 f sig, agg_run a1 (deliver ps') a2 /\ finalize a2 = Ok f /\
        aggregate f = Ok sig /\ verify_signature gk0 sig (h4 msg) = Ok tt.
Proof.
  intros S L m params ps valid mis hs all t1 t2 gk0 olds kept book p msg Hg HS Hsmall Hh Hne Hset HB Ht2 HV Hkn Hki Hkl Hkc.
  destruct hs as [|h0 hs0]; [contradiction|]. set (hs := h0 :: hs0) in *.
  assert (Hval : forall q, In q valid <-> In q ps /\ ok_new q).
  { clear -HS. induction HS as [|q ps v mis Hq HS IH|q ps v mis Hq HS IH]; intros y; cbn [In]; [tauto| |]; rewrite IH; intuition congruence. }
  destruct (receives_view m params ps h0 Hg (Hh h0 (or_introl eq_refl))) as (comms & C1 & C2 & C3 & C4 & C5 & C7).
  assert (HF : forall h, In h hs -> follows m (ds_params (h_st h0)) (ds_dhs (h_st h0)) comms h).
  { intros h Hin. destruct (Hh h Hin) as [(x & my & ps1 & r & l & q & P & E) M A R].
    pose proof (Hh h0 (or_introl eq_refl)) as [(x0 & my0 & ps0 & r0 & l0 & q0 & P0 & E0) _ _ _].
    assert (HN1 : NoDup (map pt_index ps1)).
    { eapply Permutation_NoDup; [apply Permutation_map, P|apply Hg]. }
    destruct (C62_same_list_same_view S L m m params x x0 my my0 [] [] ps1 ps0 r r0 q q0 (h_st h) (h_st h0) l l0 HN1
      ltac:(etransitivity; [apply Permutation_sym, P|exact P0]) (or_intror (conj E E0))) as (V1 & V2 & V3 & _).
    assert (C1' : ds_comms (h_st h) = Some comms) by (rewrite V3; exact C1).
    constructor; auto.
    - intros e He. split; [apply M, He|].
      destruct (to_round_two_inv m (h_st h) comms (h_es h) (h_r h) _ _ _ C1' (proj1 C2) R) as (FA & _).
      rewrite Forall_forall in FA. destruct (FA e He) as (_ & pk & Hpk). rewrite V2 in Hpk. apply (C5 _ _ Hpk).
    - intros j Hj. apply C4 in Hj. destruct Hj as (y & Y1 & Y2 & <-). apply A; assumption. }
  assert (HQ : forall j c, bget j comms = Some c -> In j olds /\ (exists rest, vss_points c = book j :: rest) /\ length (vss_points c) <= t2).
  { intros j c Hj. apply C3 in Hj. destruct Hj as (y & Y1 & Y2 & <- & Y4). destruct (HV y) as (V1 & c' & rest & V2 & V3 & V4); [apply Hval; tauto|].
    rewrite Y4 in V2. injection V2 as <-. split; [exact V1|]. split; [exists rest; exact V3|exact V4]. }
  destruct (C61_followers_agree_and_hold_keys S L m (ds_params (h_st h0)) (ds_dhs (h_st h0)) comms hs all C2) as (keys & comms' & gk & K1 & K2 & K3 & K4); auto.
  { intros h c Hin Hc. rewrite (C7 _ _ HS). exact (Hsmall h c Hin Hc). }
  { intros j c Hj X. apply HQ in Hj. destruct Hj as (_ & (rest & Y) & _). congruence. }
  pose proof (K2 h0 (or_introl eq_refl)) as W.
  assert (HW : forall j c, In (j, c) comms' -> In j olds /\ (exists rest, vss_points c = book j :: rest) /\ length (vss_points c) <= t2).
  { intros j c Hj. apply (without_in _ _ _ W) in Hj. destruct Hj as [Hj _]. apply in_bget in Hj; [|apply C2]. apply HQ, Hj. }
  assert (Hnd' : NoDup (bkeys comms')) by (apply (without_nodup _ _ _ W), C2).
  assert (Egk0 : gk = gk0).
  { destruct K1 as (pks & F & ->).
    assert (X : pks = map (fun i => (i, book i)) (bkeys comms')).
    { clear -F HW. induction F as [|[j c] [j' P] l l' [E (rest & Ep)] F IH]; [reflexivity|]. cbn [bkeys map fst snd] in *. subst j'.
      destruct (HW j c (or_introl eq_refl)) as (_ & (rest' & Eb) & _). rewrite Eb in Ep. injection Ep as -> _. f_equal.
      apply IH. intros j' c' Hj. apply HW. right. exact Hj. }
    rewrite X. apply HB; [exact Hnd'| |].
    - intros j Hj. apply in_map_iff in Hj. destruct Hj as ([j' c] & <- & Hj). apply HW in Hj. apply Hj.
    - etransitivity; [exact Hkl|]. apply NoDup_incl_length; [exact Hkn|]. intros j Hj. apply (without_keys _ _ _ W). split.
      + apply C4. apply Hki, in_map_iff in Hj. destruct Hj as (y & E & Y). apply Hval in Y. exists y. tauto.
      + apply Hkc; [left; reflexivity|exact Hj]. }
  subst gk. exists keys, comms'. split; [|split].
  - intros h Hin. destruct (K3 h Hin) as (sk & X & Y & _). exists sk. auto.
  - intros news sub Hsub _ Hl. rewrite (first_points_dealt _ _ K1).
    destruct (dealt_polyfun comms' t2) as (f & Hf & Ef); [intros j c Hj; apply HW in Hj; apply Hj|]. rewrite Ef.
    replace (map (fun i => (i, dealt_point comms' (of_u32 i))) sub) with
      (map (fun iv : u32 * F => (fst iv, (gen * snd iv)%G)) (map (fun i => (i, f (of_u32 i))) sub)).
    2:{ rewrite map_map. apply map_ext. intros i. cbn [fst snd]. rewrite Ef. reflexivity. }
    rewrite ginterp0_gen. f_equal.
    rewrite (lagrange_zero sub f Hsub) by (eapply polyfun_mono; [exact Hl|exact Hf]).
    unfold interp0. rewrite !map_map. cbn [fst snd]. rewrite map_id. reflexivity.
  - intros qs Hq Hgq Htq Hnq.
    assert (HI : forall sub, (forall k, In k sub -> In k (map q_key qs)) -> NoDup (map sk_index sub) -> t2 <= length sub ->
      (gen * interp0 (key_points sub))%G = gk0).
    { intros sub Hs Hnd Hl. apply (K4 t2 sub); auto.
      - intros j c Hj. apply bget_in, HW in Hj. apply Hj.
      - intros k Hk. apply Hs, in_map_iff in Hk. destruct Hk as (q & <- & Hk). apply (Hq q Hk). }
    assert (Eks : map sk_index (map q_key qs) = map (fun q => sk_index (q_key q)) qs) by (rewrite map_map; reflexivity).
    assert (Egk : (gen * interp0 (key_points (map q_key qs)))%G = gk0).
    { apply HI; auto; [rewrite Eks; apply Hgq|]. rewrite map_length. lia. }
    assert (HR : recovers t2 (interp0 (key_points (map q_key qs))) (map q_key qs)).
    { split; [rewrite Eks; exact Hgq|]. intros sub H1 H2 H3. apply gen_inj. rewrite Egk. apply HI; assumption. }
    rewrite <- Egk.
    destruct (C43_honest_signers_produce_a_valid_signature S L m p msg _ _ _ qs HR ltac:(lia) ltac:(lia) Hnq) as (a1 & pss & B1 & B2 & B3).
    + intros q Hin. split; [apply in_map, Hin|apply (Hq q Hin)].
    + apply Hgq.
    + exists a1, pss. split; [exact B1|]. split; [exact B2|]. intros ps' Hps. destruct (B3 ps' Hps) as (a2 & f & sig & D1 & D2 & D3 & D4 & _).
      exists a2, f, sig. auto.
Qed.
Print Assumptions C85_checked_resharing_keeps_the_key.

(** what reshare publishes for the true old key passes the check and is accepted by new *)
Theorem C85_honest_dealers_pass_the_check :
  forall (S : Suite) (L : SuiteLaws S) (m : build) (params : Params) (sk : SigningKey) (ps : list Participant) (r r' : Rng) d es l
         (olds : list u32) (book : u32 -> G),
  (1 <= u32v (p_t params))%N -> reshare m params sk ps r = Ok (d, es, l, r') ->
  ok_new d /\
  (vouched olds book (N.to_nat (u32v (p_t params))) d <-> In (sk_index sk) olds /\ book (sk_index sk) = (gen * sk_key sk)%G).
Proof.
  intros S L m params sk ps r r' d es l olds book Ht E. assert (Hi : sk_index sk <> u32_zero).
  { intros Hi. unfold reshare, new_internal in E. rewrite Hi in E. discriminate E. }
  destruct (C13_reshare_outcome S L m params sk ps r Hi Ht) as [H1 H2].
  destruct (N.eq_dec (N.of_nat (length ps)) (u32v (p_n params))) as [Hn|Hn]; [|rewrite (H1 Hn) in E; discriminate].
  destruct (H2 Hn) as (valid & mis & _ & A & B).
  destruct (N.lt_ge_cases (N.of_nat (length valid)) (u32v (p_t params))) as [Hl|Hl]; [rewrite (A Hl) in E; discriminate|].
  destruct (B Hl) as (d' & es' & q & E' & co & x & [F1 F2 F3 F4 F5 (pr & a0 & F6 & F7 & F8)] & Hh & _). rewrite E in E'. injection E' as <- <- _ _.
  rewrite Hh in F7. injection F7 as <-. destruct co as [|a0 co]; [discriminate Hh|]. injection Hh as ->.
  assert (Ec : committed (sk_key sk :: co) = (gen * sk_key sk)%G :: committed co) by reflexivity.
  split.
  - split; [unfold dh_proof_ok; rewrite F1; exact F5|]. unfold key_proof_ok. rewrite F1. do 4 eexists. split; [exact F4|]. split; [exact Ec|]. split; [exact F6|exact F8].
  - unfold vouched. rewrite F1. split.
    + intros (V1 & c & rest & V2 & V3 & _). split; [exact V1|]. rewrite F4 in V2. injection V2 as <-. cbn in V3. injection V3 as X _. symmetry. exact X.
    + intros (V1 & V2). split; [exact V1|]. do 2 eexists. split; [exact F4|]. cbn [vss_points]. split; [rewrite V2; exact Ec|].
      unfold committed. rewrite map_length. lia.
Qed.
Print Assumptions C85_honest_dealers_pass_the_check.

(** dealers 1, 2, 3 of the demo key generation (threshold two) reshare to 5, 6, 7, 8 (threshold three); dealer 2 garbles its share for 5;
    5 and 6 settle the complaint of 5 and keep the group key with dealers 1 and 3 *)
Definition ho_donors : list Donor := [re_donor re_params (demo_key 1) 72%N; re_donor re_params (demo_key 2) 73%N; re_donor re_params (demo_key 3) 71%N].
Definition ho_ps : list Participant := map w_d ho_donors.
Definition ho_params : Params := MkParams (u 3) (u 2).
Definition ho_run (i : N) : result (RoundOne * PartList * Rng) := dkg_new Debug ho_params (z_x (re_heir i)) (z_index (re_heir i)) ho_ps (800 + i)%N.
Definition ho_r1 (i : N) : RoundOne := state_of (ho_run i).
Definition ho_shares (i : N) : list EncShare :=
  map (fun e => if N.eqb i 5 && u32_eqb (es_sender e) (u 2) then garbled e else e) (re_shares ho_donors (re_heir i)).
Definition ho_cs : list Complaint := complaints_of (to_round_two Debug (ho_r1 5) (ho_shares 5) 905%N).
Definition ho_followers : list Follower :=
  [follower_of (ho_r1 5) 905 (ho_shares 5) ho_cs; follower_of (ho_r1 6) 906 (ho_shares 6) ho_cs].
Definition ho_book (i : u32) : G := (@gen Toy * interp0 (dealt_values demo_parties (of_u32 i)))%G.
Definition ho_gk : G := (@gen Toy * interp0 (dealt_values demo_parties (mk 0)))%G.

Lemma ho_state_ok params x my ps r : is_ok (dkg_new Debug params x my ps r) = true ->
  exists l q, dkg_new Debug params x my ps r = Ok (R1 (st1 (state_of (dkg_new Debug params x my ps r))), l, q).
Proof. destruct (dkg_new Debug params x my ps r) as [[[s l] q]| |]; cbn; try discriminate. intros _. rewrite r1_eta. eauto. Qed.
Lemma follower_of_receives params ps x my r0 s1 r es cs :
  is_ok (dkg_new Debug params x my ps r0) = true -> s1 = state_of (dkg_new Debug params x my ps r0) ->
  is_ok (to_round_two Debug s1 es r) = true ->
  forallb (fun e => u32_eqb (es_receiver e) (ds_index (st1 s1))) es = true ->
  forallb (fun p => implb (okb false true (p_t params) p) (existsb (fun e => u32_eqb (es_sender e) (pt_index p)) es)) ps = true ->
  receives Debug params ps (follower_of s1 r es cs).
Proof.
  intros H1 Es H2 H3 H4. unfold follower_of.
  destruct (to_round_two Debug s1 es r) as [[[s c] r']| |] eqn:E; try discriminate.
  constructor; cbn [h_st h_es h_r h_s2 h_cs h_r'].
  - destruct (ho_state_ok _ _ _ _ _ H1) as (l & q & X). exists x, my, ps, r0, l, q. split; [apply Permutation_refl|].
    cbn [h_st]. rewrite Es. exact X.
  - intros e He. apply (proj1 (forallb_forall _ _) H3) in He. apply u32_eqb_spec, He.
  - intros p Hp Ho. apply (proj1 (forallb_forall _ _) H4) in Hp. apply (okb_new (p_t params)) in Ho. rewrite Ho in Hp. cbn [implb] in Hp.
    apply existsb_exists in Hp. destruct Hp as (e & A & B). exists e. split; [exact A|apply u32_eqb_spec, B].
  - rewrite r1_eta. exact E.
Qed.
Lemma ho_run_eq i : ho_run i = dkg_new Debug ho_params (z_x (re_heir i)) (z_index (re_heir i)) ho_ps (800 + i)%N.
Proof. reflexivity. Qed.
Lemma ho_r1_eq i : ho_r1 i = state_of (dkg_new Debug ho_params (z_x (re_heir i)) (z_index (re_heir i)) ho_ps (800 + i)%N).
Proof. reflexivity. Qed.
Lemma ho_run_5 : is_ok (ho_run 5) = true. Proof. vmr. Qed.
Lemma ho_run_6 : is_ok (ho_run 6) = true. Proof. vmr. Qed.
Lemma ho_two_5 : is_ok (to_round_two Debug (ho_r1 5) (ho_shares 5) 905%N) = true. Proof. vmr. Qed.
Lemma ho_two_6 : is_ok (to_round_two Debug (ho_r1 6) (ho_shares 6) 906%N) = true. Proof. vmr. Qed.
Lemma ho_mine_5 : forallb (fun e => u32_eqb (es_receiver e) (ds_index (st1 (ho_r1 5)))) (ho_shares 5) = true. Proof. vmr. Qed.
Lemma ho_mine_6 : forallb (fun e => u32_eqb (es_receiver e) (ds_index (st1 (ho_r1 6)))) (ho_shares 6) = true. Proof. vmr. Qed.
Lemma ho_all_5 : forallb (fun p => implb (okb false true (p_t ho_params) p) (existsb (fun e => u32_eqb (es_sender e) (pt_index p)) (ho_shares 5))) ho_ps = true.
Proof. vmr. Qed.
Lemma ho_all_6 : forallb (fun p => implb (okb false true (p_t ho_params) p) (existsb (fun e => u32_eqb (es_sender e) (pt_index p)) (ho_shares 6))) ho_ps = true.
Proof. vmr. Qed.
Lemma ho_nobody : h_cs (follower_of (ho_r1 6) 906 (ho_shares 6) ho_cs) = []. Proof. vmr. Qed.
Lemma ho_valid : filter (okb false true (p_t ho_params)) ho_ps = ho_ps. Proof. vmr. Qed.
Lemma ho_mis : map pt_index (filter (fun p => negb (okb false true (p_t ho_params) p)) ho_ps) = []. Proof. vmr. Qed.
Lemma ho_old_keys : map sk_index (map demo_key [1; 2; 3]%N) = [u 1; u 2; u 3]. Proof. reflexivity. Qed.
Lemma ho_book_key i : ho_book (sk_index (demo_key i)) = (@gen Toy * sk_key (demo_key i))%G.
Proof. unfold demo_key, ho_book. cbn [sk_index sk_key]. reflexivity. Qed.
Definition ho_vouchedb (p : Participant) : bool :=
  match pt_comm p with
  | Some c => match vss_points c with
              | P :: rest => Geqb P (ho_book (pt_index p)) && Nat.leb (length (P :: rest)) 3 && existsb (u32_eqb (pt_index p)) [u 1; u 2; u 3]
              | [] => false end
  | None => false end.
Lemma ho_vouchedb_ok p : ho_vouchedb p = true -> vouched [u 1; u 2; u 3] ho_book 3 p.
Proof.
  unfold ho_vouchedb. destruct (pt_comm p) as [c|] eqn:E; [|discriminate]. destruct (vss_points c) as [|P rest] eqn:Ep; [discriminate|].
  intros H. apply andb_prop in H. destruct H as [H H3]. apply andb_prop in H. destruct H as [H1 H2].
  apply (@Geqb_spec Toy ToyLaws) in H1. apply Nat.leb_le in H2. apply existsb_exists in H3. destruct H3 as (i & I & H3). apply u32_eqb_spec in H3.
  split; [rewrite H3; exact I|]. exists c, rest. rewrite Ep. rewrite <- H1. auto.
Qed.
Lemma ho_vouched : forallb ho_vouchedb ho_ps = true. Proof. vmr. Qed.
Definition ho_accused : list (u32 * u32) := map (fun c => (accused c, maker c)) ho_cs.
Lemma ho_accused_eq : ho_accused = [(u 2, u 5)]. Proof. vmr. Qed.
Example C85_ex :
  good_indices (map pt_index ho_ps) /\ splits ok_new ho_ps ho_ps [] /\
  (forall h, In h ho_followers -> receives Debug ho_params ho_ps h) /\ settle_together ho_followers ho_cs /\
  key_book 2 ho_gk [u 1; u 2; u 3] ho_book /\ (forall q, In q ho_ps -> vouched [u 1; u 2; u 3] ho_book 3 q) /\
  incl [u 1; u 3] (map pt_index ho_ps) /\
  (forall h j, In h ho_followers -> In j [u 1; u 3] -> ~ convicted (h_st h) ho_cs j).
Proof.
  split; [good|]. split; [|split; [|split; [|split; [|split; [|split]]]]].
  - rewrite <- ho_valid at 2. rewrite <- ho_mis. apply PropsEnd.splits_filter. intros p. apply okb_new.
  - intros h Hh. cbn [ho_followers In] in Hh. destruct Hh as [<-|[<-|[]]].
    + eapply follower_of_receives.
      * pose proof ho_run_5 as X. rewrite ho_run_eq in X. exact X.
      * exact (ho_r1_eq 5).
      * exact ho_two_5.
      * exact ho_mine_5.
      * exact ho_all_5.
    + eapply follower_of_receives.
      * pose proof ho_run_6 as X. rewrite ho_run_eq in X. exact X.
      * exact (ho_r1_eq 6).
      * exact ho_two_6.
      * exact ho_mine_6.
      * exact ho_all_6.
  - intros h Hh. cbn [ho_followers In] in Hh. destruct Hh as [<-|[<-|[]]]; split.
    + intros c. rewrite follower_of_settles by exact ho_two_5. exact (iff_refl _).
    + unfold ho_cs. exact (own_settled (ho_r1 5) 905%N (ho_shares 5) ho_two_5).
    + intros c. rewrite follower_of_settles by exact ho_two_6. exact (iff_refl _).
    + rewrite ho_nobody. intros c [].
  - rewrite <- ho_old_keys. apply (@book_of_recovers Toy ToyLaws 2 _ (map demo_key [1; 2; 3]%N) ho_book C32_ex_old).
    intros k Hk. apply in_map_iff in Hk. destruct Hk as (i & <- & _). exact (ho_book_key i).
  - intros q Hq. apply ho_vouchedb_ok. exact (proj1 (forallb_forall _ _) ho_vouched q Hq).
  - intros j [<-|[<-|[]]].
    + replace (map pt_index ho_ps) with [u 1; u 2; u 3] by (symmetry; vmr). left. reflexivity.
    + replace (map pt_index ho_ps) with [u 1; u 2; u 3] by (symmetry; vmr). right. right. left. reflexivity.
  - intros h j _ Hj (c & Hc & X). assert (Y : In (accused c, maker c) ho_accused) by (apply (in_map (fun c => (accused c, maker c))), Hc).
    rewrite ho_accused_eq in Y. destruct Y as [Y|[]]. pose proof (f_equal fst Y) as Y1. pose proof (f_equal snd Y) as Y2. cbn [fst snd] in Y1, Y2.
    assert (Z : j = u 2 \/ j = u 5) by (destruct X as [[_ E]|[_ E]]; [left; rewrite E; symmetry; exact Y1|right; rewrite E; symmetry; exact Y2]). clear - Hj Z.
    destruct Hj as [<-|[<-|[]]], Z as [Z|Z]; apply u32_eqb_spec in Z; revert Z; vm_compute; discriminate.
Qed.
Example C85_ex_accused : map (fun c => u32v (accused c)) ho_cs = [2]%N /\ length ho_ps = 3.
Proof. vms. Qed.
Example C85_ex_run :
  map (fun h => let* (l, g, _) := end_view h in Ok (l, g)) ho_followers = [Ok ([u 1; u 3], fv ho_gk); Ok ([u 1; u 3], fv ho_gk)].
Proof. vmr. Qed.
