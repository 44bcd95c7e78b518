(** C61: the followers of the protocol agree and obtain usable keys whatever the dealers did. *)
From Coq Require Import String Strings.Byte Arith NArith ZArith Bool List Lia Permutation Sorted.
From Verif Require Import Base Suite Spec SpecDkg SpecRobust Types Algebra BaseLemmas ModelDkg LemmasShare LemmasRound1
  LemmasRound2 LemmasFinish LemmasBlame ModelSign SpecSign LemmasSign LemmasAgg Toy Demo DemoDkg DemoSign PropsFinish PropsBlame PropsAgg.
Import ListNotations.

Lemma complaint_list_in {S : Suite} (st : DkgState) es cs : complaint_list st es cs ->
  forall e, In e es -> bad_for st e -> exists c, In c cs /\ c_share c = e.
Proof.
  intros H. induction H as [|e0 es c0 cs Hb Hc H IH|e0 es cs Hb H IH]; intros e Hin Hbad; [contradiction| |].
  - destruct Hin as [->|Hin]; [exists c0; split; [left; reflexivity|apply Hc]|].
    destruct (IH e Hin Hbad) as (c & A & B). exists c. split; [right; exact A|exact B].
  - destruct Hin as [->|Hin]; [contradiction|]. apply IH; assumption.
Qed.

(** a follower complains about retained dealers only *)
Lemma follows_accused {S : Suite} (L : SuiteLaws S) m params dhs comms h c : NoDup (bkeys comms) -> follows m params dhs comms h ->
  In c (h_cs h) -> In (accused c) (bkeys comms).
Proof.
  intros Hnd [_ _ Fc Fm _ Fr] Hc. destruct (to_round_two_inv m _ comms _ _ _ _ _ Fc Hnd Fr) as (_ & HL & _).
  assert (X : exists e, In e (h_es h) /\ c_share c = e).
  { clear -HL Hc. induction HL as [|e es c0 cs Hb [Hs _] _ IH|e es cs Hb _ IH]; [destruct Hc| |].
    - destruct Hc as [->|Hc]; [exists e; split; [left; reflexivity|exact Hs]|]. destruct (IH Hc) as (e' & A & B). exists e'. split; [right; exact A|exact B].
    - destruct (IH Hc) as (e' & A & B). exists e'. split; [right; exact A|exact B]. }
  destruct X as (e & He & <-). apply Fm, He.
Qed.

(** what one follower ends with *)
Lemma follower_ends {S : Suite} (L : SuiteLaws S) m params dhs comms h :
  good_indices (bkeys comms) ->
  (forall c, In c (h_cs h) -> (u32v (accused c) <= u32v (p_n params))%N) ->
  (forall j c, bget j comms = Some c -> vss_points c <> []) ->
  follows m params dhs comms h ->
  (forall c, In c (h_cs h) -> In c (h_settles h)) ->
  exists keys comms' sk, ends h keys comms' (dealt_point comms' F0) sk /\
    without (convicted (h_st h) (h_settles h)) comms comms' /\
    first_points comms' (dealt_point comms' F0) /\
    (gen * sk_key sk)%G = dealt_point comms' (of_u32 (sk_index sk)).
Proof.
  intros Hgi Hn Hne [Fp Fd Fc Fm Fa Fr] Hown. destruct h as [st es r s2 cs r' all]. cbn [h_st h_es h_r h_s2 h_cs h_r' h_settles] in *.
  pose proof (proj1 Hgi) as Hnd.
  destruct (to_round_two_inv m st comms es r s2 cs r' Fc Hnd Fr) as (_ & HL & Es2).
  destruct (round_two_state_spec st es) as [A1 A2 A3 A4 A5 A6 A7 (shares & B1 & B2 & B3)].
  set (stB := round_two_state st es) in *.
  assert (HcB : ds_comms stB = Some comms) by congruence.
  destruct (C22_blame_outcome S L stB comms shares all HcB B1) as (l & keys & st' & Eb & _ & _ & _ & HP).
  destruct HP as [P1 P2 P3 P4 P5 P6 (m1 & comms' & Q1 & Q2 & Q3) (m2 & shares' & R1' & R2' & R3)].
  assert (m1 = comms) by congruence. assert (m2 = shares) by congruence. subst m1 m2.
  assert (Hcv : forall j, convicted st all j <-> convicted stB all j).
  { intros j. unfold convicted, convicts, upheld, registered. rewrite A1, A5, A6. tauto. }
  (* shares of dealers that stay are good *)
  assert (Hgood : forall e, In e es -> ~ convicted stB all (es_sender e) ->
    exists v c, opens st e v /\ bget (es_sender e) comms = Some c /\ on_commitment c (ds_index st) v).
  { intros e Hin Hnc. destruct (Fm e Hin) as [Hr Hj]. pose proof Hj as Hj'. apply in_map_iff in Hj. destruct Hj as ([j c] & Ej & Hjc).
    cbn in Ej. subst j. apply in_bget in Hjc; [|exact Hnd].
    assert (Hb : ~ bad_for st e).
    { intros Hb. destruct (complaint_list_in st es cs HL e Hin Hb) as (k & K1 & K2).
      assert (Eac : accused k = es_sender e) by (unfold accused; rewrite K2; reflexivity).
      destruct (C24_genuine_complaint_removes_cheater S L m st stB comms shares es r cs all k Fc Hnd
        (or_intror (ex_intro _ _ (ex_intro _ _ Fr))) K1 HcB A6 B1) as [CV _].
      - rewrite Eac. intros Z. apply Hgi. rewrite <- Z. exact Hj'.
      - rewrite A1, Fp. apply Hn, K1.
      - apply Hown, K1.
      - apply Hnc. exists k. split; [apply Hown, K1|]. apply CV. symmetry. exact Eac. }
    destruct (not_bad_good st comms e c Fc Hjc Hb) as (v & H1 & H2). rewrite Hr in H2. eauto. }
  assert (Hgi' : good_indices (bkeys comms')).
  { split; [eapply without_nodup; eassumption|]. intros Z. apply (without_keys _ _ _ Q3) in Z. apply Hgi, Z. }
  assert (Hnd' : NoDup (bkeys shares')) by (eapply without_nodup; eassumption).
  assert (Hk : forall j, In j (bkeys shares') <-> In j (bkeys comms')).
  { intros j. rewrite (without_keys _ _ _ R3 j), (without_keys _ _ _ Q3 j). split; intros [H Hnc]; (split; [|exact Hnc]).
    - apply in_map_iff in H. destruct H as ([j' s] & Ej & Hin). cbn in Ej. subst j'.
      apply in_bget in Hin; [|exact B2]. apply B3 in Hin. destruct Hin as (e & (l1 & l2 & -> & [X1 X2] & _) & _).
      rewrite <- X1. apply Fm. apply in_or_app. right; left; reflexivity.
    - destruct (Fa j H) as (e & Hin & Hse).
      destruct (last_such_ex (fun e => es_sender e = j /\ exists v, opens st e v)
        ltac:(intros x; destruct (u32_eq_dec (es_sender x) j), (opens_dec st x); tauto) es e Hin) as (e' & HX).
      { destruct (Hgood e Hin) as (v & c & Ho & _); [rewrite Hse; exact Hnc|]. eauto. }
      pose proof HX as (l1 & l2 & _ & [X1 (v & X2)] & _).
      assert (Hb : bget j shares = Some (MkShare j (es_receiver e') v)) by (apply B3; eauto).
      apply bget_in, (in_map fst) in Hb. exact Hb. }
  assert (Hv : forall j s, bget j shares' = Some s -> exists c, bget j comms' = Some c /\ on_commitment c (ds_index st') (sh_value s)).
  { intros j s Hj. pose proof Hj as Hin. apply bget_in in Hin. apply (without_in _ _ _ R3) in Hin. destruct Hin as [Hin Hnc].
    apply in_bget in Hin; [|exact B2]. apply B3 in Hin. destruct Hin as (e & (l1 & l2 & -> & [X1 _] & _) & v & Hv & ->). cbn [sh_value].
    destruct (Hgood e) as (v' & c' & G1 & G2 & G3); [apply in_or_app; right; left; reflexivity|rewrite X1; exact Hnc|].
    exists c'. split.
    - rewrite <- G2, X1. apply (without_bget _ _ _ Q3 j), Hnc.
    - rewrite (opens_fun _ _ _ _ Hv G1), P2, A2. exact G3. }
  assert (Hne' : forall j c, In (j, c) comms' -> vss_points c <> []).
  { intros j c Hin. apply (without_in _ _ _ Q3) in Hin. destruct Hin as [Hin _]. apply in_bget in Hin; [|exact Hnd]. eapply Hne, Hin. }
  assert (Hgs : good_indices (bkeys shares')).
  { split; [exact Hnd'|]. intros Z. apply Hk in Z. apply Hgi', Z. }
  exists keys, comms', (MkSK (ds_index st') (interp0 (share_points shares'))). split; [|split; [|split]].
  - exists (R2 st'). cbn [st2 h_s2 h_settles h_st]. subst s2. split; [exact Eb|]. split; [exact Q2|].
    split; [apply finish_ok; assumption|]. cbn [sk_index]. congruence.
  - clear -Q3 Hcv. induction Q3; constructor; auto; rewrite Hcv; assumption.
  - apply first_points_ex, Hne'.
  - cbn [sk_key sk_index]. apply share_points_match; assumption.
Qed.

Theorem C61_followers_agree_and_hold_keys :
  forall (S : Suite) (L : SuiteLaws S) (m : build) (params : Params) (dhs : bmap G) (comms : bmap Vss)
         (hs : list Follower) (all : list Complaint),
  good_indices (bkeys comms) ->
  (* no follower complains about a dealer whose index is above n (see C26) *)
  (forall h c, In h hs -> In c (h_cs h) -> (u32v (accused c) <= u32v (p_n params))%N) ->
  (forall j c, bget j comms = Some c -> vss_points c <> []) ->
  (forall h, In h hs -> follows m params dhs comms h) ->
  settle_together hs all ->
  exists keys comms' gk,
    first_points comms' gk /\
    (forall h, In h hs -> without (convicted (h_st h) all) comms comms') /\
    (forall h, In h hs -> exists sk, ends h keys comms' gk sk /\
       (gen * sk_key sk)%G = dealt_point comms' (of_u32 (sk_index sk)) /\
       ((forall j c, bget j comms = Some c -> vss_index c = j) ->
        ivk_generate (sk_index sk) (map snd comms') = Ok (to_public sk))) /\
    (forall (t : nat) (sks : list SigningKey),
       (forall j c, bget j comms' = Some c -> length (vss_points c) <= t) ->
       (forall sk, In sk sks -> exists h, In h hs /\ ends h keys comms' gk sk) ->
       NoDup (map sk_index sks) -> t <= length sks ->
       (gen * interp0 (key_points sks))%G = gk).
Proof.
  intros S L m params dhs comms hs all Hgi Hn Hne Hf Hset.
  assert (X : forall h, In h hs -> exists keys comms' sk, ends h keys comms' (dealt_point comms' F0) sk /\
    without (convicted (h_st h) (h_settles h)) comms comms' /\
    first_points comms' (dealt_point comms' F0) /\
    (gen * sk_key sk)%G = dealt_point comms' (of_u32 (sk_index sk))).
  { intros h Hh. destruct (Hset h Hh) as [S1 S2]. apply (follower_ends L m params dhs comms h Hgi (fun c => Hn h c Hh) Hne (Hf h Hh)).
    intros c Hc. apply S1, S2, Hc. }
  assert (Hcv : forall h h' j, In h hs -> In h' hs -> convicted (h_st h) (h_settles h) j <-> convicted (h_st h') (h_settles h') j).
  { intros h h' j H H'. destruct (Hf h H) as [A1 A2 A3 _ _ _], (Hf h' H') as [B1 B2 B3 _ _ _].
    destruct (Hset h H) as [S1 _], (Hset h' H') as [S1' _].
    unfold convicted, convicts, upheld, registered. rewrite A1, A2, A3, B1, B2, B3.
    split; intros (c & C1 & C2); exists c; (split; [|exact C2]); [apply S1', S1, C1|apply S1, S1', C1]. }
  assert (Hcs : forall h j, In h hs -> convicted (h_st h) (h_settles h) j <-> convicted (h_st h) all j).
  { intros h j H. destruct (Hset h H) as [S1 _]. unfold convicted.
    split; intros (c & C1 & C2); exists c; (split; [apply S1, C1|exact C2]). }
  destruct hs as [|h0 hs0].
  { (* nobody: any view will do *)
    exists [], comms, (dealt_point comms F0). split.
    - apply first_points_ex. intros j c Hin. apply in_bget in Hin; [|apply Hgi]. eapply Hne, Hin.
    - split; [intros h []|]. split; [intros h []|]. intros t sks Ht Hin Hnd Hl.
      destruct sks as [|k sks]; [|destruct (Hin k (or_introl eq_refl)) as (h & [] & _)].
      apply (keys_interpolate comms t []); auto; [|intros k []].
      intros j c Hjc. apply in_bget in Hjc; [|apply Hgi]. eapply Ht, Hjc. }
  set (hs := h0 :: hs0) in *. assert (H0 : In h0 hs) by (left; reflexivity).
  destruct (X h0 H0) as (keys & comms' & sk0 & (s0 & E0 & _) & W0 & FP0 & _).
  assert (U : forall h, In h hs -> exists sk, ends h keys comms' (dealt_point comms' F0) sk /\
    (gen * sk_key sk)%G = dealt_point comms' (of_u32 (sk_index sk))).
  { intros h Hh. destruct (X h Hh) as (ks & cm & sk & En & W & _ & Hsk).
    assert (cm = comms') by (eapply without_fun; [exact W|intros j; apply (Hcv h h0 j Hh H0)|exact W0]). subst cm.
    assert (ks = keys).
    { destruct En as (s1 & E1 & _). destruct (Hf h Hh) as [A1 A2 A3 _ _ A6], (Hf h0 H0) as [B1 B2 B3 _ _ B6].
      destruct (to_round_two_inv _ _ comms _ _ _ _ _ A3 (proj1 Hgi) A6) as (_ & _ & Es).
      destruct (to_round_two_inv _ _ comms _ _ _ _ _ B3 (proj1 Hgi) B6) as (_ & _ & Es0).
      destruct (round_two_state_spec (h_st h) (h_es h)) as [C1 _ _ _ C5 C6 _ (sh & C8 & _)].
      destruct (round_two_state_spec (h_st h0) (h_es h0)) as [D1 _ _ _ D5 D6 _ (sh0 & D8 & _)].
      destruct (C31_same_complaints_same_view S L (round_two_state (h_st h) (h_es h)) (round_two_state (h_st h0) (h_es h0))
        comms sh sh0 (h_settles h) (h_settles h0)) as (kk & sA & sB & K1 & K2 & _); try congruence; try apply Hgi.
      - intros c. destruct (Hset h Hh) as [S1 _], (Hset h0 H0) as [S2 _]. rewrite S1, S2. reflexivity. }
    subst ks. exists sk. split; assumption. }
  assert (Hgi' : good_indices (bkeys comms')).
  { split; [eapply without_nodup; [exact W0|apply Hgi]|]. intros Z. apply (without_keys _ _ _ W0) in Z. apply Hgi, Z. }
  exists keys, comms', (dealt_point comms' F0). split; [exact FP0|]. split; [|split].
  - intros h Hh. assert (Y : forall j, convicted (h_st h0) (h_settles h0) j <-> convicted (h_st h) all j).
    { intros j. rewrite <- (Hcs h j Hh). apply (Hcv h0 h j H0 Hh). }
    clear -W0 Y. induction W0; constructor; auto; rewrite <- Y; assumption.
  - intros h Hh. destruct (U h Hh) as (sk & En & Hsk). exists sk. split; [exact En|]. split; [exact Hsk|]. intros Hix.
    assert (HB : by_index (map snd comms') = comms').
    { unfold by_index. rewrite map_map. rewrite <- (map_id comms') at 2. apply map_ext_in. intros [j c] Hin. cbn.
      apply (without_in _ _ _ W0) in Hin. destruct Hin as [Hin _]. apply in_bget in Hin; [|apply Hgi].
      rewrite (Hix j c Hin). reflexivity. }
    rewrite ivk_generate_ok.
    + rewrite HB. unfold to_public. rewrite Hsk. reflexivity.
    + replace (map vss_index (map snd comms')) with (bkeys comms'); [exact Hgi'|].
      rewrite <- HB at 1. unfold by_index, bkeys. rewrite !map_map. reflexivity.
  - intros t sks Ht Hin Hnd Hl. apply (keys_interpolate comms' t); auto.
    + intros j c Hjc. apply in_bget in Hjc; [|apply Hgi']. eapply Ht, Hjc.
    + intros k Hk. destruct (Hin k Hk) as (h & Hh & (s1 & E1 & _ & E3 & _)).
      destruct (U h Hh) as (sk & (s2 & E1' & _ & E3' & _) & Hsk). rewrite E1 in E1'. injection E1' as <-.
      rewrite E3 in E3'. injection E3' as <-. exact Hsk.
Qed.
Print Assumptions C61_followers_agree_and_hold_keys.

(** dealer 2 garbles its share for 3 (and only that one); 1 and 3 follow the protocol and settle 3's complaint *)
Definition no_follower : Follower := MkFollower no_state [] 0%N (R2 no_state) [] 0%N [].
Definition follower_of (s1 : RoundOne) (r : N) (es : list EncShare) (settles : list Complaint) : Follower :=
  match to_round_two Debug s1 es r with
  | Ok (s, cs, r') => MkFollower (st1 s1) es r s cs r' settles
  | _ => no_follower
  end.

Definition demo_followers : list Follower :=
  [follower_of (demo_r1 demo_ps 1) 501 (demo_shares 1) (victim_cs 2 3); follower_of (demo_r1 demo_ps 3) 503 (garbled_from 2 3) (victim_cs 2 3)].
Definition demo_comms : bmap Vss := match ds_comms (st1 (demo_r1 demo_ps 1)) with Some m => m | None => [] end.

Lemma r1_eta (s : RoundOne) : R1 (st1 s) = s.
Proof. destruct s. reflexivity. Qed.
Lemma follower_of_follows s1 r es cs params dhs comms : is_ok (to_round_two Debug s1 es r) = true ->
  ds_params (st1 s1) = params ->
  ds_dhs (st1 s1) = dhs ->
  ds_comms (st1 s1) = Some comms ->
  forallb (fun e => u32_eqb (es_receiver e) (ds_index (st1 s1)) && existsb (u32_eqb (es_sender e)) (bkeys comms)) es = true ->
  forallb (fun j => existsb (fun e => u32_eqb (es_sender e) j) es) (bkeys comms) = true ->
  follows Debug params dhs comms (follower_of s1 r es cs).
Proof.
  intros H1 H2 H3 H4 H5 H6. unfold follower_of.
  destruct (to_round_two Debug s1 es r) as [[[s c] r']| |] eqn:E; try discriminate.
  constructor; cbn [h_st h_es h_r h_s2 h_cs h_r']; auto.
  - intros e He. apply (proj1 (forallb_forall _ _) H5) in He. apply andb_prop in He. destruct He as [A B].
    split; [apply u32_eqb_spec, A|]. apply existsb_exists in B. destruct B as (x & B1 & B2). apply u32_eqb_spec in B2. congruence.
  - intros j Hj. apply (proj1 (forallb_forall _ _) H6) in Hj. apply existsb_exists in Hj. destruct Hj as (e & A & B).
    exists e. split; [exact A|apply u32_eqb_spec, B].
Qed.
Lemma follower_of_settles s1 r es cs : is_ok (to_round_two Debug s1 es r) = true ->
  h_settles (follower_of s1 r es cs) = cs.
Proof. unfold follower_of. destruct (to_round_two _ _ _ _) as [[[s c] r']| |]; intros H; try discriminate. reflexivity. Qed.
Definition end_view (h : Follower) : result (list u32 * Z * Z) :=
  let* (_, s) := blame (h_s2 h) (h_settles h) in let* (gk, sk) := finish s in
  Ok (match ds_comms (st2 s) with Some m => bkeys m | None => [] end, fv gk, fv (sk_key sk)).
Example C61_ex :
  good_indices (bkeys demo_comms) /\
  (forall h, In h demo_followers -> follows Debug demo_params (ds_dhs (st1 (demo_r1 demo_ps 1))) demo_comms h) /\
  settle_together demo_followers (victim_cs 2 3) /\
  map (fun jc => length (vss_points (snd jc))) demo_comms = [2; 2; 2] /\
  map (fun h => map (fun c => u32v (accused c)) (h_cs h)) demo_followers = [[]; [2%N]] /\
  map (fun h => let* (l, g, _) := end_view h in Ok (l, g)) demo_followers =
    let gk := fv (dealt_point (filter (fun jc => negb (u32_eqb (fst jc) (u 2))) demo_comms) (mk 0)) in
    [Ok ([u 1; u 3], gk); Ok ([u 1; u 3], gk)].
Proof.
  split; [good|]. split; [|split].
  - intros h [<-|[<-|[]]]; apply follower_of_follows; vmr.
  - intros h Hh. split; [destruct Hh as [<-|[<-|[]]]; intros c; rewrite follower_of_settles by vmr; tauto|].
    destruct Hh as [<-|[<-|[]]]; intros c.
    + assert (E : h_cs (follower_of (demo_r1 demo_ps 1) 501 (demo_shares 1) (victim_cs 2 3)) = []) by vmr. rewrite E. intros [].
    + assert (E : h_cs (follower_of (demo_r1 demo_ps 3) 503 (garbled_from 2 3) (victim_cs 2 3)) = victim_cs 2 3).
      { unfold follower_of, victim_cs, demo_r2. change (500 + 3)%N with 503%N. generalize (demo_r1 demo_ps 3), (garbled_from 2 3). intros s1 es. destruct (to_round_two Debug s1 es 503%N) as [[[s k] r]| |]; reflexivity. }
      rewrite E. exact (fun H => H).
  - vms.
Qed.

(** C61, signing: any t or more followers sign under the group key *)
Theorem C61_followers_can_sign :
  forall (S : Suite) (L : SuiteLaws S) (m : build) (params : Params) (dhs : bmap G) (comms : bmap Vss)
         (hs : list Follower) (all : list Complaint) (t : nat) (p : Params) (msg : list byte),
  good_indices (bkeys comms) ->
  (forall h c, In h hs -> In c (h_cs h) -> (u32v (accused c) <= u32v (p_n params))%N) ->
  (forall j c, bget j comms = Some c -> 1 <= length (vss_points c) <= t) -> 1 <= t ->
  (forall h, In h hs -> follows m params dhs comms h) ->
  settle_together hs all ->
  exists keys comms' gk, first_points comms' gk /\
    (forall h, In h hs -> exists sk, ends h keys comms' gk sk) /\
    forall qs : list Cosigner,
    (forall q, In q qs -> cosigner_ok q /\ exists h, In h hs /\ ends h keys comms' gk (q_key q)) ->
    good_indices (map (fun q => sk_index (q_key q)) qs) ->
    t <= length qs -> (N.of_nat (length qs) <= u32v (p_n p))%N ->
    exists a1 ps, agg_run (agg_new p gk msg) (announce qs) a1 /\
      signed m (h4 msg) gk (ag_signers (ai_state a1)) qs ps /\
      forall ps', Permutation ps' ps -> exists a2 f sig, agg_run a1 (deliver ps') a2 /\ finalize a2 = Ok f /\
        aggregate f = Ok sig /\ verify_signature gk sig (h4 msg) = Ok tt /\ schnorr gk (h4 msg) (ts_R sig) (ts_z sig).
Proof.
  intros S L m params dhs comms hs all t p msg Hgi Hn Hlen Ht1 Hf Hset.
  destruct (C61_followers_agree_and_hold_keys S L m params dhs comms hs all Hgi Hn) as (keys & comms' & gk & FP & W & E & I); auto.
  { intros j c Hj X. specialize (Hlen j c Hj). rewrite X in Hlen. cbn in Hlen. lia. }
  exists keys, comms', gk. split; [exact FP|]. split; [intros h Hh; destruct (E h Hh) as (sk & X & _); exists sk; exact X|]. intros qs Hq Hgq Htq Hnq.
  assert (Hlen' : forall j c, bget j comms' = Some c -> length (vss_points c) <= t).
  { destruct qs as [|q0 qs0]; [cbn in Htq; lia|]. destruct (Hq q0 (or_introl eq_refl)) as (_ & h & Hh & _).
    intros j c Hj. apply bget_in, (without_in _ _ _ (W h Hh)) in Hj. destruct Hj as [Hj _].
    apply in_bget in Hj; [|apply Hgi]. apply (Hlen j c Hj). }
  set (ks := map q_key qs).
  assert (HI : forall sub, (forall k, In k sub -> In k ks) -> NoDup (map sk_index sub) -> t <= length sub ->
    (gen * interp0 (key_points sub))%G = gk).
  { intros sub Hs Hnd Hl. apply (I t sub Hlen'); auto. intros k Hk. apply Hs, in_map_iff in Hk. destruct Hk as (q & <- & Hk).
    apply (Hq q Hk). }
  assert (Eks : map sk_index ks = map (fun q => sk_index (q_key q)) qs) by (unfold ks; rewrite map_map; reflexivity).
  assert (Egk : (gen * interp0 (key_points ks))%G = gk).
  { apply HI; auto; [rewrite Eks; apply Hgq|]. unfold ks. rewrite map_length. exact Htq. }
  assert (HR : recovers t (interp0 (key_points ks)) ks).
  { split; [rewrite Eks; exact Hgq|]. intros sub H1 H2 H3. apply gen_inj. rewrite Egk. apply HI; assumption. }
  rewrite <- Egk. apply (C43_honest_signers_produce_a_valid_signature S L m p msg t _ ks qs HR Ht1 Htq Hnq).
  - intros q Hin. split; [apply in_map, Hin|apply (Hq q Hin)].
  - apply Hgq.
Qed.
Print Assumptions C61_followers_can_sign.

(** followers 1 and 3 sign with the keys they obtained in the run above *)
Definition demo_end (h : Follower) : G * SigningKey :=
  got (mk 0, MkSK (u 0) (mk 0)) (let* (_, s) := blame (h_s2 h) (h_settles h) in finish s).
Definition demo_cosigner (h : Follower) (i : Z) : Cosigner := MkCo (snd (demo_end h)) (snonces i) 0%N (spair i 0).
Definition demo_cosigners : list Cosigner :=
  [demo_cosigner (nth 1 demo_followers no_follower) 3; demo_cosigner (nth 0 demo_followers no_follower) 1].
Definition demo_gk : G := fst (demo_end (nth 0 demo_followers no_follower)).
Definition demo_announced : AggInitial :=
  fold_left (fun a q => snd (include_signer a (sk_index (q_key q)) (published (q_pair q)) (to_public (q_key q))))
    demo_cosigners (agg_new demo_params demo_gk [x68; x69]).
Definition demo_partials : list PartialSig :=
  map (fun q => got (MkPSig (u 0) (mk 0))
    (fst (sign Debug (q_key q) shash demo_gk (q_list q) (q_pos q) (ag_signers (ai_state demo_announced))))) demo_cosigners.
Example C61_ex_sign :
  map (fun q => sk_index (q_key q)) demo_cosigners = [u 3; u 1] /\
  map (fun q => fv (sk_key (q_key q))) demo_cosigners =
    map (fun x => fv (interp0 [(u 1, poly_value (dealer_co 3 2 1 10) (mk x)); (u 3, poly_value (dealer_co 3 2 3 30) (mk x))])) [3; 1]%Z /\
  (let* s := sfinal (fold_left include_partial_signature demo_partials demo_announced) in verify_signature demo_gk s shash) = Ok tt.
Proof. vms. Qed.
