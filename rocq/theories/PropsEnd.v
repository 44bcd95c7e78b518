(** C68-C71: complete key generations with misbehaving participants, repeated signing attempts, wrong dealer keys
    in a resharing, what one partial signature says about the key. *)
From Coq Require Import String Strings.Byte Arith NArith ZArith Bool List Lia Permutation.
From Verif Require Import Base Suite Spec SpecDkg SpecSign SpecRobust SpecEnd Types Algebra BaseLemmas ModelDkg ModelSign
  LemmasShare LemmasRound1 LemmasRound2 LemmasFinish LemmasBlame LemmasSign LemmasAgg Toy Demo DemoDkg DemoSign
  PropsRound1 PropsFinish PropsReshare PropsSign PropsAgg PropsRobust PropsView.
Import ListNotations.

(** ** C68 *)
Section Whole.
  Context {S : Suite} {L : SuiteLaws S}.
  Lemma splits_length ok : forall ps (valid valid' : list Participant) mis mis',
    splits ok ps valid mis -> splits ok ps valid' mis' -> valid = valid'.
  Proof.
    induction ps as [|p ps IH]; intros v v' m m' H H'; inversion H; inversion H'; subst; try contradiction; try reflexivity.
    - f_equal. eauto.
    - eauto.
  Qed.
  Lemma splits_filter f ok ps : (forall p, f p = true <-> ok p) ->
    splits ok ps (filter f ps) (map pt_index (filter (fun p => negb (f p)) ps)).
  Proof.
    intros H. induction ps as [|p ps IH]; cbn [filter]; [constructor|].
    destruct (f p) eqn:E; cbn [negb map]; constructor; auto.
    - apply H, E.
    - intros X. apply H in X. congruence.
  Qed.
  Lemma begins_view m params ps h : good_indices (map pt_index ps) -> begins m params ps h ->
    exists comms, ds_comms (h_st h) = Some comms /\ good_indices (bkeys comms) /\
      (forall j c, bget j comms = Some c -> N.of_nat (length (vss_points c)) = u32v (p_t params)) /\
      (forall j, In j (bkeys comms) <-> exists p, In p ps /\ ok_bootstrap (p_t params) p /\ pt_index p = j) /\
      (forall j pk, bget j (ds_dhs (h_st h)) = Some pk -> In j (bkeys comms)) /\
      (1 <= u32v (p_t params))%N /\
      (forall valid mis, splits (ok_bootstrap (p_t params)) ps valid mis -> u32v (p_n (ds_params (h_st h))) = N.of_nat (length valid)).
  Proof.
    intros [Hnd H0] (x & my & co & ps' & r & l & q & HP & E).
    assert (Hg' : good_indices (map pt_index ps')).
    { split; [eapply Permutation_NoDup; [apply Permutation_map, HP|exact Hnd]|].
      intros Z. apply H0. eapply Permutation_in; [apply Permutation_map, Permutation_sym, HP|exact Z]. }
    destruct (C62_view_is_usable S L m params x my co ps' r q (h_st h) l Hg' E) as (comms & A1 & A2 & A3 & A4 & _).
    destruct (round_one_ok m params x my (Some co) ps' true r _ l q ltac:(eauto) E) as (_ & T & _ & _ & _ & s1 & Es & R & _ & _).
    injection Es as <-.
    set (v := filter (okb true true (p_t params)) ps') in *.
    assert (Hin : forall p, In p v <-> In p ps' /\ ok_bootstrap (p_t params) p).
    { intros p. unfold v. rewrite filter_In, okb_bootstrap. tauto. }
    assert (Hps : forall p, In p ps' <-> In p ps).
    { intros p. split; apply Permutation_in; [apply Permutation_sym|]; exact HP. }
    exists comms. split; [exact A1|]. split; [exact A2|]. split; [exact A3|]. split; [|split; [|split; [exact T|]]].
    - intros j. rewrite A4. split; intros (p & B & C); exists p; (split; [apply Hps, B|exact C]).
    - intros j pk Hj. apply (rec_dhs _ _ _ _ _ R) in Hj. destruct Hj as (p & (l1 & l2 & El & Hi & _) & _).
      apply A4. exists p. assert (X : In p v) by (rewrite El; apply in_elt). apply Hin in X. tauto.
    - intros valid mis HS. rewrite (rec_n _ _ _ _ _ R). f_equal.
      rewrite (splits_length _ ps valid (filter (okb true true (p_t params)) ps) mis _ HS
                 (splits_filter _ _ ps (okb_bootstrap (p_t params)))).
      unfold v. clear -HP. induction HP; cbn [filter]; auto.
      + destruct (okb true true (p_t params) x); cbn [length]; auto.
      + destruct (okb true true (p_t params) x), (okb true true (p_t params) y); reflexivity.
      + congruence.
  Qed.
End Whole.

(** whatever the other listed participants publish and send: participants that follow the protocol from the same
    list finish with the same keys, and any t of them sign *)
Theorem C68_key_generation_and_signing_despite_misbehaviour :
  forall (S : Suite) (L : SuiteLaws S) (m : build) (params : Params) (ps valid : list Participant) (mis : list u32)
         (hs : list Follower) (all : list Complaint) (p : Params) (msg : list byte),
  good_indices (map pt_index ps) ->
  splits (ok_bootstrap (p_t params)) ps valid mis ->
  (* they complain about nobody whose index is above the number of accepted participants (see C26) *)
  (forall h c, In h hs -> In c (h_cs h) -> (u32v (accused c) <= N.of_nat (length valid))%N) ->
  (forall h, In h hs -> takes_part m params ps h) -> hs <> [] ->
  settle_together hs all ->
  exists keys comms' gk, first_points comms' gk /\
    (forall h, In h hs -> exists sk, ends h keys comms' gk sk /\ (gen * sk_key sk)%G = dealt_point comms' (of_u32 (sk_index sk))) /\
    (forall members, key_book (N.to_nat (u32v (p_t params))) gk members (fun i => dealt_point comms' (of_u32 i))) /\
    forall qs : list Cosigner,
    (forall q, In q qs -> cosigner_ok q /\ exists h, In h hs /\ ends h keys comms' gk (q_key q)) ->
    good_indices (map (fun q => sk_index (q_key q)) qs) ->
    (u32v (p_t params) <= N.of_nat (length qs))%N -> (N.of_nat (length qs) <= u32v (p_n p))%N ->
    exists a1 pss, agg_run (agg_new p gk msg) (announce qs) a1 /\
      signed m (h4 msg) gk (ag_signers (ai_state a1)) qs pss /\
      forall ps', Permutation ps' pss -> exists a2 f sig, agg_run a1 (deliver ps') a2 /\ finalize a2 = Ok f /\
        aggregate f = Ok sig /\ verify_signature gk sig (h4 msg) = Ok tt.
Proof.
  intros S L m params ps valid mis hs all p msg Hg HS Hsmall Hh Hne Hset.
  destruct hs as [|h0 hs0]; [contradiction|]. set (hs := h0 :: hs0) in *.
  destruct (begins_view m params ps h0 Hg (tp_begins _ _ _ _ (Hh h0 (or_introl eq_refl)))) as (comms & C1 & C2 & C3 & C4 & C5 & C6 & C7).
  assert (Hval : forall q, In q ps -> ok_bootstrap (p_t params) q -> In q valid).
  { clear -HS. induction HS; intros q Hq Ho; [destruct Hq| |]; destruct Hq as [<-|Hq]; try contradiction; auto using in_cons, in_eq. }
  assert (HF : forall h, In h hs -> follows m (ds_params (h_st h0)) (ds_dhs (h_st h0)) comms h).
  { intros h Hin. destruct (Hh h Hin) as [(x & my & co & ps1 & r & l & q & P & E) M A R].
    pose proof (Hh h0 (or_introl eq_refl)) as [(x0 & my0 & co0 & ps0 & r0 & l0 & q0 & P0 & E0) _ _ _].
    assert (HN1 : NoDup (map pt_index ps1)).
    { eapply Permutation_NoDup; [apply Permutation_map, P|apply Hg]. }
    destruct (C62_same_list_same_view S L m m params x x0 my my0 co co0 ps1 ps0 r r0 q q0 (h_st h) (h_st h0) l l0 HN1
      ltac:(etransitivity; [apply Permutation_sym, P|exact P0]) (or_introl (conj E E0))) as (V1 & V2 & V3 & _).
    assert (C1' : ds_comms (h_st h) = Some comms) by (rewrite V3; exact C1).
    constructor; auto.
    - intros e He. split; [apply M, He|].
      destruct (to_round_two_inv m (h_st h) comms (h_es h) (h_r h) _ _ _ C1' (proj1 C2) R) as (FA & _).
      rewrite Forall_forall in FA. destruct (FA e He) as (_ & pk & Hpk). rewrite V2 in Hpk. apply (C5 _ _ Hpk).
    - intros j Hj. apply C4 in Hj. destruct Hj as (y & Y1 & Y2 & <-). apply A; assumption. }
  destruct (C61_followers_agree_and_hold_keys S L m (ds_params (h_st h0)) (ds_dhs (h_st h0)) comms hs all C2) as (keys & comms' & gk & K1 & K2 & K3 & K4); auto.
  { intros h c Hin Hc. rewrite (C7 _ _ HS). exact (Hsmall h c Hin Hc). }
  { intros j c Hj X. apply C3 in Hj. rewrite X in Hj. cbn in Hj. lia. }
  assert (Hlen' : forall j c, In (j, c) comms' -> length (vss_points c) <= N.to_nat (u32v (p_t params))).
  { intros j c Hj. apply (without_in _ _ _ (K2 h0 (or_introl eq_refl))) in Hj. destruct Hj as [Hj _].
    apply in_bget in Hj; [|apply C2]. apply C3 in Hj. lia. }
  assert (Hnd' : NoDup (bkeys comms')).
  { destruct (K3 h0 (or_introl eq_refl)) as (sk & (s3 & _ & _ & _) & _).
    pose proof (K2 h0 (or_introl eq_refl)) as W. apply (without_nodup _ _ _ W), C2. }
  exists keys, comms', gk. split; [exact K1|]. split; [|split].
  - intros h Hin. destruct (K3 h Hin) as (sk & X & Y & _). exists sk. auto.
  - intros members sub Hsub _ Hl. rewrite (first_points_dealt _ _ K1).
    destruct (dealt_polyfun comms' _ Hlen') as (f & Hf & Ef). rewrite Ef.
    replace (map (fun i => (i, dealt_point comms' (of_u32 i))) sub) with
      (map (fun iv : u32 * F => (fst iv, (gen * snd iv)%G)) (map (fun i => (i, f (of_u32 i))) sub)).
    2:{ rewrite map_map. apply map_ext. intros i. cbn [fst snd]. rewrite Ef. reflexivity. }
    rewrite ginterp0_gen. f_equal.
    rewrite (lagrange_zero sub f Hsub) by (eapply polyfun_mono; [exact Hl|exact Hf]).
    unfold interp0. rewrite !map_map. cbn [fst snd]. rewrite map_id. reflexivity.
  - intros qs Hq Hgq Htq Hnq.
    assert (HI : forall sub, (forall k, In k sub -> In k (map q_key qs)) -> NoDup (map sk_index sub) -> N.to_nat (u32v (p_t params)) <= length sub ->
      (gen * interp0 (key_points sub))%G = gk).
    { intros sub Hs Hnd Hl. apply (K4 (N.to_nat (u32v (p_t params))) sub); auto.
      - intros j c Hj. eapply Hlen', bget_in, Hj.
      - intros k Hk. apply Hs, in_map_iff in Hk. destruct Hk as (q & <- & Hk). apply (Hq q Hk). }
    assert (Eks : map sk_index (map q_key qs) = map (fun q => sk_index (q_key q)) qs) by (rewrite map_map; reflexivity).
    assert (Egk : (gen * interp0 (key_points (map q_key qs)))%G = gk).
    { apply HI; auto; [rewrite Eks; apply Hgq|]. rewrite map_length. lia. }
    assert (HR : recovers (N.to_nat (u32v (p_t params))) (interp0 (key_points (map q_key qs))) (map q_key qs)).
    { split; [rewrite Eks; exact Hgq|]. intros sub H1 H2 H3. apply gen_inj. rewrite Egk. apply HI; assumption. }
    rewrite <- Egk.
    destruct (C43_honest_signers_produce_a_valid_signature S L m p msg _ _ _ qs HR ltac:(lia) ltac:(lia) Hnq) as (a1 & pss & B1 & B2 & B3).
    + intros q Hin. split; [apply in_map, Hin|apply (Hq q Hin)].
    + apply Hgq.
    + exists a1, pss. split; [exact B1|]. split; [exact B2|]. intros ps' Hps. destruct (B3 ps' Hps) as (a2 & f & sig & D1 & D2 & D3 & D4 & _).
      exists a2, f, sig. auto.
Qed.
Print Assumptions C68_key_generation_and_signing_despite_misbehaviour.

(** four participants listed, threshold two: 4 has no valid DH proof, dealer 2 garbles its share for 3;
    1 and 3 follow the protocol, listing the others in different orders *)
Definition whole_params : Params := MkParams (u 4) (u 2).
Definition whole_ps : list Participant :=
  [dealer 4 2 1 10; dealer 4 2 2 20; dealer 4 2 3 30; without_dh_proof (dealer 4 2 4 40)].
Definition whole_ps' : list Participant :=
  [dealer 4 2 2 20; dealer 4 2 1 10; dealer 4 2 3 30; without_dh_proof (dealer 4 2 4 40)].
Definition whole_run (ps : list Participant) (i : N) : result (RoundOne * PartList * Rng) :=
  bootstrap Debug whole_params (dealer_x 4 2 i (10 * i)) (u i) (dealer_co 4 2 i (10 * i)) ps (1000 + i)%N.
Definition state_of (x : result (RoundOne * PartList * Rng)) : RoundOne :=
  let '(s, _, _) := got (R1 no_state, MkPList [] None, 0%N) x in s.
Definition whole_r1 (i : N) : RoundOne := state_of (whole_run (if N.eqb i 3 then whole_ps' else whole_ps) i).
Definition whole_shares (j : N) : list EncShare :=
  map (fun e => if N.eqb j 3 && u32_eqb (es_sender e) (u 2) then garbled e else e) (shares_to j (map whole_r1 [1; 2; 3]%N)).
Definition complaints_of (x : result (RoundTwo * list Complaint * Rng)) : list Complaint :=
  match x with Ok (_, cs, _) => cs | _ => [] end.
Definition whole_cs : list Complaint := complaints_of (to_round_two Debug (whole_r1 3) (whole_shares 3) 503%N).
Definition whole_followers : list Follower :=
  [follower_of (whole_r1 1) 501 (whole_shares 1) whole_cs; follower_of (whole_r1 3) 503 (whole_shares 3) whole_cs].

Lemma state_of_ok params x my co ps r : is_ok (bootstrap Debug params x my co ps r) = true ->
  exists l q, bootstrap Debug params x my co ps r = Ok (R1 (st1 (state_of (bootstrap Debug params x my co ps r))), l, q).
Proof.
  destruct (bootstrap Debug params x my co ps r) as [[[s l] q]| |]; cbn; try discriminate. intros _. rewrite r1_eta. eauto.
Qed.
Lemma follower_of_takes_part params ps ps' x my co r0 s1 r es cs :
  is_ok (bootstrap Debug params x my co ps' r0) = true -> s1 = state_of (bootstrap Debug params x my co ps' r0) ->
  is_ok (to_round_two Debug s1 es r) = true -> Permutation ps ps' ->
  forallb (fun e => u32_eqb (es_receiver e) (ds_index (st1 s1))) es = true ->
  forallb (fun p => implb (okb true true (p_t params) p) (existsb (fun e => u32_eqb (es_sender e) (pt_index p)) es)) ps = true ->
  takes_part Debug params ps (follower_of s1 r es cs).
Proof.
  intros H1 Es H2 HP H3 H4. unfold follower_of.
  destruct (to_round_two Debug s1 es r) as [[[s c] r']| |] eqn:E; try discriminate.
  constructor; cbn [h_st h_es h_r h_s2 h_cs h_r'].
  - destruct (state_of_ok _ _ _ _ _ _ H1) as (l & q & X). exists x, my, co, ps', r0, l, q. split; [exact HP|].
    cbn [h_st]. rewrite Es. exact X.
  - intros e He. apply (proj1 (forallb_forall _ _) H3) in He. apply u32_eqb_spec, He.
  - intros p Hp Ho. apply (proj1 (forallb_forall _ _) H4) in Hp. apply okb_bootstrap in Ho. rewrite Ho in Hp. cbn [implb] in Hp.
    apply existsb_exists in Hp. destruct Hp as (e & A & B). exists e. split; [exact A|apply u32_eqb_spec, B].
  - rewrite r1_eta. exact E.
Qed.
Lemma whole_1 : is_ok (whole_run whole_ps 1) = true. Proof. vmr. Qed.
Lemma whole_3 : is_ok (whole_run whole_ps' 3) = true. Proof. vmr. Qed.
Lemma whole_r1_1 : whole_r1 1 = state_of (whole_run whole_ps 1). Proof. unfold whole_r1. replace (N.eqb 1 3) with false by reflexivity. reflexivity. Qed.
Lemma whole_r1_3 : whole_r1 3 = state_of (whole_run whole_ps' 3). Proof. unfold whole_r1. replace (N.eqb 3 3) with true by reflexivity. reflexivity. Qed.
Lemma whole_run_eq ps i : whole_run ps i = bootstrap Debug whole_params (dealer_x 4 2 i (10 * i)) (u i) (dealer_co 4 2 i (10 * i)) ps (1000 + i)%N.
Proof. reflexivity. Qed.
Lemma whole_2_1 : is_ok (to_round_two Debug (whole_r1 1) (whole_shares 1) 501%N) = true. Proof. vmr. Qed.
Lemma whole_2_3 : is_ok (to_round_two Debug (whole_r1 3) (whole_shares 3) 503%N) = true. Proof. vmr. Qed.
Lemma whole_mine_1 : forallb (fun e => u32_eqb (es_receiver e) (ds_index (st1 (whole_r1 1)))) (whole_shares 1) = true. Proof. vmr. Qed.
Lemma whole_mine_3 : forallb (fun e => u32_eqb (es_receiver e) (ds_index (st1 (whole_r1 3)))) (whole_shares 3) = true. Proof. vmr. Qed.
Lemma whole_all_1 : forallb (fun p => implb (okb true true (p_t whole_params) p) (existsb (fun e => u32_eqb (es_sender e) (pt_index p)) (whole_shares 1))) whole_ps = true.
Proof. vmr. Qed.
Lemma whole_all_3 : forallb (fun p => implb (okb true true (p_t whole_params) p) (existsb (fun e => u32_eqb (es_sender e) (pt_index p)) (whole_shares 3))) whole_ps = true.
Proof. vmr. Qed.
Lemma whole_nobody : h_cs (follower_of (whole_r1 1) 501 (whole_shares 1) whole_cs) = []. Proof. vmr. Qed.
Lemma follower_complaints s1 r es cs : is_ok (to_round_two Debug s1 es r) = true -> h_cs (follower_of s1 r es cs) = complaints_of (to_round_two Debug s1 es r).
Proof. unfold follower_of. destruct (to_round_two Debug s1 es r) as [[[s k] q]| |]; cbn; intros H; [reflexivity|discriminate|discriminate]. Qed.
Lemma own_settled s1 r es : is_ok (to_round_two Debug s1 es r) = true ->
  forall c, In c (h_cs (follower_of s1 r es (complaints_of (to_round_two Debug s1 es r)))) -> In c (complaints_of (to_round_two Debug s1 es r)).
Proof. intros H c. rewrite follower_complaints by exact H. exact (fun X => X). Qed.
Lemma whole_splits_filter : filter (okb true true (p_t whole_params)) whole_ps = [dealer 4 2 1 10; dealer 4 2 2 20; dealer 4 2 3 30]. Proof. vmr. Qed.
Lemma whole_splits_rest : map pt_index (filter (fun p => negb (okb true true (p_t whole_params) p)) whole_ps) = [u 4]. Proof. vmr. Qed.

Example C68_ex :
  good_indices (map pt_index whole_ps) /\
  splits (ok_bootstrap (p_t whole_params)) whole_ps [dealer 4 2 1 10; dealer 4 2 2 20; dealer 4 2 3 30] [u 4] /\
  (forall h, In h whole_followers -> takes_part Debug whole_params whole_ps h) /\
  settle_together whole_followers whole_cs /\
  map pt_index [dealer 4 2 1 10; dealer 4 2 2 20; dealer 4 2 3 30] = [u 1; u 2; u 3] /\
  map accused whole_cs = [u 2] /\
  map (fun h => let* (l, g, _) := end_view h in Ok (l, g)) whole_followers =
    let gk := fv (toy_gen * interp0 [(u 1, hd (mk 0) (dealer_co 4 2 1 10)); (u 3, hd (mk 0) (dealer_co 4 2 3 30))])%G in
    [Ok ([u 1; u 3], gk); Ok ([u 1; u 3], gk)].
Proof.
  split; [good|]. split; [|split; [|split]].
  - rewrite <- whole_splits_filter at 1. rewrite <- whole_splits_rest. apply splits_filter. intros p. apply okb_bootstrap.
  - intros h Hh. cbn [whole_followers In] in Hh. destruct Hh as [<-|[<-|[]]].
    + eapply follower_of_takes_part with (ps' := whole_ps).
      * pose proof whole_1 as X. rewrite whole_run_eq in X. exact X.
      * rewrite whole_r1_1, whole_run_eq. reflexivity.
      * exact whole_2_1.
      * apply Permutation_refl.
      * exact whole_mine_1.
      * exact whole_all_1.
    + eapply follower_of_takes_part with (ps' := whole_ps').
      * pose proof whole_3 as X. rewrite whole_run_eq in X. exact X.
      * rewrite whole_r1_3, whole_run_eq. reflexivity.
      * exact whole_2_3.
      * apply perm_swap.
      * exact whole_mine_3.
      * exact whole_all_3.
  - intros h Hh. cbn [whole_followers In] in Hh. destruct Hh as [<-|[<-|[]]]; split.
    + intros c. rewrite follower_of_settles by exact whole_2_1. exact (iff_refl _).
    + rewrite whole_nobody. intros c [].
    + intros c. rewrite follower_of_settles by exact whole_2_3. exact (iff_refl _).
    + unfold whole_cs. exact (own_settled (whole_r1 3) 503%N (whole_shares 3) whole_2_3).
  - vms.
Qed.

(** ** C69 *)
Theorem C69_attempt_succeeds_or_names_culprits :
  forall (S : Suite) (L : SuiteLaws S) (m : build) (p : Params) (gk : G) (msg : list byte) (book : u32 -> G)
         (t : nat) (all H LL : list u32) (a : AggInitial),
  key_book t gk all book -> 1 <= t ->
  good_indices LL -> incl LL all -> NoDup H -> incl H LL -> t <= length H ->
  honest_attempt m p gk msg book H LL a ->
  (exists sig, outcome a = Ok sig /\ verify_signature gk sig (h4 msg) = Ok tt) \/
  (exists bad, outcome a = Err (MisbehavingParticipants bad) /\
     (exists i, In i bad /\ In i LL) /\ (forall i, In i bad -> i = u32_zero \/ In i LL) /\ (forall i, In i bad -> ~ In i H)).
Proof.
  intros S L m p gk msg book t all H LL a HB Ht HG HA HN HI HL (tr & [R1 R2 R3] & HC).
  pose proof (holds_run _ _ _ _ _ R1) as HH.
  assert (Hss : forall i, In i (map sg_index (ag_signers (ai_state a))) <-> In i LL).
  { intros i. rewrite signer_in_index, R2. split; intros (com & X); exists com; apply (hs_pairs _ _ _ _ _ HH), X. }
  assert (HZ : forall i, In i H -> i <> u32_zero) by (intros i X ->; apply (proj2 HG), HI, X).
  assert (Hz : ~ In u32_zero (map sg_index (ag_signers (ai_state a)))) by (rewrite Hss; apply HG).
  assert (Hne : ag_signers (ai_state a) <> []).
  { destruct H as [|i0 H0]; [cbn in HL; lia|]. assert (X : In i0 LL) by (apply HI; left; reflexivity). apply Hss in X.
    intros E. rewrite E in X. exact X. }
  destruct (C47_finalize S L p gk msg tr a R1) as (un & kl & U1 & _ & U2 & K2 & F1 & _ & F3).
  assert (kl = []).
  { destruct kl as [|i kl]; [reflexivity|]. exfalso. destruct (proj1 (K2 i) (or_introl eq_refl)) as (X & Y). apply (Y (book i)), R3, R2, X. }
  subst kl. unfold outcome. destruct un as [|i0 un].
  - rewrite (F1 eq_refl eq_refl). cbn [bind]. specialize (F1 eq_refl eq_refl). set (f := MkFinal (ai_state a) (h4 msg)) in *.
    destruct (C45_blame_is_exact S L p gk msg tr a f R1 F1 Hne Hz) as [(sig & X)|(bad & X & _ & Y)].
    + left. exists sig. split; [exact X|]. eapply C44_result_is_for_the_given_message_and_key; eassumption.
    + right. exists bad. split; [exact X|].
      assert (Hin : forall i, In i bad -> In i LL).
      { intros i Hi. apply Y in Hi. destruct Hi as (s & pk & z & A & <- & _). apply Hss, in_map, A. }
      split; [|split; [intros i Hi; right; apply Hin, Hi|]].
      * assert (Hb : bad <> []).
        { apply (C45_blame_is_not_empty S L p gk msg tr a f bad (map (fun i => (i, book i)) (map sg_index (ag_signers (ai_state a)))) R1 F1 X Hne Hz).
          - rewrite map_map. apply map_id.
          - intros i P HiP. apply in_map_iff in HiP. destruct HiP as (j & [= <- <-] & Hj). apply R3, Hss, Hj.
          - apply HB.
            + apply increasing_NoDup, HH.
            + intros i Hi. apply HA, Hss, Hi.
            + etransitivity; [exact HL|]. apply NoDup_incl_length; [exact HN|]. intros i Hi. apply Hss, HI, Hi. }
        destruct bad as [|b bad']; [contradiction|]. exists b. split; [left; reflexivity|]. apply Hin. left. reflexivity.
      * intros i Hi HiH. destruct (HC i HiH) as (k & l & pos & cs & q & l' & Ek & Epk & Es & Ec & E1 & E2). subst i.
        refine (C45_honest_signer_never_blamed S L p gk msg tr a f bad m k l pos cs q l' R1 F1 X Hz Es Ec E1 _ E2 Hi).
        rewrite Epk. apply R3, HI, HiH.
  - right. rewrite F3 by discriminate. cbn [bind]. rewrite app_nil_r. eexists. split; [reflexivity|].
    assert (Hun : forall i, In i (i0 :: un) -> In i LL /\ ~ In i H).
    { intros i Hi. apply U2 in Hi. destruct Hi as (X & Y). split; [apply R2, X|]. intros Z. destruct (HC i Z) as (k & l & pos & cs & q & l' & _ & _ & _ & _ & _ & E2).
      apply (Y _ E2). }
    split; [|split].
    + exists i0. split; [right; left; reflexivity|]. apply Hun. left. reflexivity.
    + intros i [<-|Hi]; [left; reflexivity|]. right. apply Hun, Hi.
    + intros i [<-|Hi]; [intros X; exact (HZ _ X eq_refl)|]. apply Hun, Hi.
Qed.
Print Assumptions C69_attempt_succeeds_or_names_culprits.

(** every failed attempt costs at least one misbehaving signer and no honest one *)
Theorem C69_failures_are_bounded :
  forall (S : Suite) (L : SuiteLaws S) (m : build) (p : Params) (gk : G) (msg : list byte) (book : u32 -> G)
         (t : nat) (all H : list u32) (LL LL' : list u32) (k : nat),
  key_book t gk all book -> 1 <= t ->
  good_indices LL -> incl LL all -> NoDup H -> incl H LL -> t <= length H ->
  retries m p gk msg book H LL k LL' ->
  k + length LL' <= length LL /\ k + length H <= length LL /\ good_indices LL' /\ incl H LL' /\ incl LL' LL.
Proof.
  intros S L m p gk msg book t all H LL LL' k HB Ht HG HA HN HI HL HR.
  induction HR as [LL|LL a bad L1 k L2 Hh Ho Hnd HL1 HR IH].
  - split; [lia|]. split; [|split; [exact HG|split; [exact HI|apply incl_refl]]]. cbn [Nat.add]. apply NoDup_incl_length; assumption.
  - destruct (C69_attempt_succeeds_or_names_culprits S L m p gk msg book t all H LL a HB Ht HG HA HN HI HL Hh) as [(sig & X & _)|(bad' & X & (i & Y1 & Y2) & Y3 & Y4)]; [congruence|].
    rewrite Ho in X. injection X as <-.
    assert (Hi1 : incl L1 LL) by (intros j Hj; apply HL1, Hj).
    assert (Hlt : Datatypes.S (length L1) <= length LL).
    { change (length (i :: L1) <= length LL). apply NoDup_incl_length.
      - constructor; [|exact Hnd]. intros Z. apply HL1 in Z. destruct Z as [_ Z]. contradiction.
      - intros j [<-|Hj]; [exact Y2|apply Hi1, Hj]. }
    destruct IH as (A & B & C & D & E).
    + split; [exact Hnd|]. intros Z. apply (proj2 HG), Hi1, Z.
    + intros j Hj. apply HA, Hi1, Hj.
    + intros j Hj. apply HL1. split; [apply HI, Hj|]. intros Z. exact (Y4 j Z Hj).
    + split; [lia|]. split; [lia|]. split; [exact C|]. split; [exact D|]. intros j Hj. apply Hi1, E, Hj.
Qed.
Print Assumptions C69_failures_are_bounded.

(** so after as many failures as there were misbehaving signers, the next attempt gives a valid signature *)
Theorem C69_signature_within_bound :
  forall (S : Suite) (L : SuiteLaws S) (m : build) (p : Params) (gk : G) (msg : list byte) (book : u32 -> G)
         (t : nat) (all H : list u32) (LL LL' : list u32) (a : AggInitial),
  key_book t gk all book -> 1 <= t ->
  good_indices LL -> incl LL all -> NoDup H -> incl H LL -> t <= length H ->
  retries m p gk msg book H LL (length LL - length H) LL' -> honest_attempt m p gk msg book H LL' a ->
  exists sig, outcome a = Ok sig /\ verify_signature gk sig (h4 msg) = Ok tt.
Proof.
  intros S L m p gk msg book t all H LL LL' a HB Ht HG HA HN HI HL HR Hh.
  destruct (C69_failures_are_bounded S L m p gk msg book t all H LL LL' _ HB Ht HG HA HN HI HL HR) as (B1 & B2 & B3 & B4 & B5).
  assert (HA' : incl LL' all) by (intros j Hj; apply HA, B5, Hj).
  destruct (C69_attempt_succeeds_or_names_culprits S L m p gk msg book t all H LL' a HB Ht B3 HA' HN B4 HL Hh) as [X|(bad & _ & (i & Y1 & Y2) & _ & Y4)]; [exact X|].
  exfalso. assert (HD : length H <= length LL) by (apply NoDup_incl_length; assumption).
  assert (X : length (i :: H) <= length LL').
  { apply NoDup_incl_length; [constructor; [apply Y4, Y1|exact HN]|]. intros j [<-|Hj]; [exact Y2|apply B4, Hj]. }
  cbn [length] in X. lia.
Qed.
Print Assumptions C69_signature_within_bound.

(** deciding the hypotheses of C69 for given calls *)
Section Check.
  Context {S : Suite} {L : SuiteLaws S}.
  Fixpoint calls_run (a : AggInitial) (cs : list ACall) : trace * AggInitial :=
    match cs with
    | [] => ([], a)
    | CInc i com pk :: cs' => let '(o, a1) := include_signer a i com pk in
                              let '(tr, a2) := calls_run a1 cs' in ((CInc i com pk, o) :: tr, a2)
    | CPart q :: cs' => let '(tr, a2) := calls_run (include_partial_signature a q) cs' in ((CPart q, Ok tt) :: tr, a2)
    end.
  Lemma calls_run_ok cs : forall a, agg_run a (fst (calls_run a cs)) (snd (calls_run a cs)).
  Proof.
    induction cs as [|[i com pk|q] cs IH]; intros a; cbn [calls_run]; [constructor| |].
    - destruct (include_signer a i com pk) as [o a1] eqn:E. specialize (IH a1). destruct (calls_run a1 cs) as [tr a2]. cbn [fst snd] in *.
      econstructor; eassumption.
    - specialize (IH (include_partial_signature a q)). destruct (calls_run _ cs) as [tr a2]. cbn [fst snd] in *. constructor. exact IH.
  Qed.
  Definition included_as (i : u32) (P : G) (e : ACall * result unit) : bool :=
    match e with (CInc j _ pk, Ok tt) => u32_eqb j i && u32_eqb (vk_index pk) i && Geqb (vk_share pk) P | _ => false end.
  Definition within (LL : list u32) (e : ACall * result unit) : bool :=
    match fst e with CInc j _ _ => existsb (u32_eqb j) LL | CPart _ => true end.
  Lemma attempt_check p gk msg book LL tr a : agg_run (agg_new p gk msg) tr a ->
    nodupb (flat_map inc_of (map fst tr)) = true ->
    forallb (fun i => existsb (included_as i (book i)) tr) LL = true -> forallb (within LL) tr = true ->
    attempt p gk msg book LL tr a.
  Proof.
    intros R N0 A B. apply nodupb_sound in N0. rewrite forallb_forall in A, B.
    assert (X : forall i, In i LL -> exists com, In (CInc i com (MkVK i (book i)), Ok tt) tr).
    { intros i Hi. apply A, existsb_exists in Hi. destruct Hi as ([[j com [k P]|q] [[]| |]] & I & E); cbn in E; try discriminate.
      apply andb_prop in E. destruct E as [E E3]. apply andb_prop in E. destruct E as [E1 E2].
      apply u32_eqb_spec in E1, E2. apply Geqb_spec in E3. subst. eauto. }
    constructor; [exact R| |].
    - intros i. split.
      + intros Hi. destruct (X i Hi) as (com & Y). exists com. apply first_pair_distinct; [exact N0|eauto].
      + intros (com & Hi). apply first_pair_distinct in Hi; [|exact N0]. destruct Hi as (P & o & Hi). apply B in Hi. cbn in Hi.
        apply existsb_exists in Hi. destruct Hi as (j & Hj & E). apply u32_eqb_spec in E. subst. exact Hj.
    - intros i Hi. apply last_key_distinct; [exact N0|]. apply X, Hi.
  Qed.
  Definition announced_with (i : u32) (com : G * G) (e : ACall * result unit) : bool :=
    match fst e with CInc j c pk => u32_eqb j i && u32_eqb (vk_index pk) i && (Geqb (fst c) (fst com) && Geqb (snd c) (snd com)) | _ => false end.
  Definition sent (i : u32) (z : F) (e : ACall * result unit) : bool :=
    match e with (CPart q, Ok tt) => u32_eqb (ps_index q) i && Feqb (ps_z q) z | _ => false end.
  Lemma cooperates_check m gk msg book tr a i k l pos cs :
    nodupb (flat_map inc_of (map fst tr)) = true -> nodupb (flat_map part_of (map fst tr)) = true ->
    u32_eqb (sk_index k) i && Geqb (gen * sk_key k)%G (book i) = true ->
    nth_error (sl_commitments l) (N.to_nat pos) = Some cs ->
    (match fst (sign m k (h4 msg) gk l pos (ag_signers (ai_state a))) with
     | Ok q => existsb (announced_with i (published cs)) tr && existsb (sent i (ps_z q)) tr | _ => false end) = true ->
    cooperates m gk msg book tr a i.
  Proof.
    intros N1 N2 E1 E2 E3. apply nodupb_sound in N1, N2. apply andb_prop in E1. destruct E1 as [E1 E4]. apply u32_eqb_spec in E1. apply Geqb_spec in E4.
    destruct (sign m k (h4 msg) gk l pos (ag_signers (ai_state a))) as [[q| |] l'] eqn:Es; cbn [fst] in E3; try discriminate.
    apply andb_prop in E3. destruct E3 as [E3 E5].
    exists k, l, pos, cs, q, l'. split; [exact E1|]. split; [exact E4|]. split; [exact Es|]. split; [exact E2|]. split.
    - apply existsb_exists in E3. destruct E3 as ([[j c [k' P]|q'] o] & I & E); cbn in E; [|discriminate].
      apply andb_prop in E. destruct E as [E G1]. apply andb_prop in E. destruct E as [G2 G3]. apply andb_prop in G1. destruct G1 as [G4 G5].
      apply u32_eqb_spec in G2, G3. apply Geqb_spec in G4, G5. subst. apply first_pair_distinct; [exact N1|]. exists P, o.
      replace (published cs) with c; [exact I|]. apply injective_projections; assumption.
    - apply existsb_exists in E5. destruct E5 as ([[j c k'|q'] [[]| |]] & I & E); cbn in E; try discriminate.
      apply andb_prop in E. destruct E as [G1 G2]. apply u32_eqb_spec in G1. apply Feqb_spec in G2. destruct q' as [j z]. cbn in G1, G2. subst.
      apply last_partial_distinct; [exact N2|exact I].
  Qed.
End Check.

(** signers 1, 2, 3 with threshold two; in the first attempt 2 sends a wrong value, in the second 1 and 3 sign alone *)
Definition c69_book (i : u32) : G := (@gen Toy * poly_value [mk 1000; mk 77] (of_u32 i))%G.
Definition c69_params : Params := MkParams (u 3) (u 2).
Definition c69_incs (ids : list Z) (k : nat) : list ACall :=
  map (fun i => CInc (u (Z.to_N i)) (published (spair i k)) (MkVK (u (Z.to_N i)) (c69_book (u (Z.to_N i))))) ids.
Definition c69_parts (ids : list Z) (k : nat) (bad : Z) : list ACall :=
  let ss := ag_signers (ai_state (snd (calls_run (agg_new c69_params sgroup [x68; x69]) (c69_incs ids k)))) in
  map (fun i => let q := spartial i (N.of_nat k) ss in CPart (MkPSig (ps_index q) (ps_z q + mk (if Z.eqb i bad then 1 else 0))%F)) ids.
Definition c69_run (ids : list Z) (k : nat) (bad : Z) : trace * AggInitial :=
  calls_run (agg_new c69_params sgroup [x68; x69]) (c69_incs ids k ++ c69_parts ids k bad).
Lemma poly_book {S : Suite} {L : SuiteLaws S} (a : list F) all gk : gk = (gen * poly_value a F0)%G ->
  key_book (length a) gk all (fun i => (gen * poly_value a (of_u32 i))%G).
Proof.
  intros -> sub Hn _ Hl.
  replace (map (fun i => (i, (gen * poly_value a (of_u32 i))%G)) sub) with
    (map (fun iv : u32 * F => (fst iv, (gen * snd iv)%G)) (map (fun i => (i, poly_value a (of_u32 i))) sub)).
  2:{ rewrite map_map. reflexivity. }
  rewrite ginterp0_gen, interp0_poly by assumption. rewrite poly_value_0. destruct a; reflexivity.
Qed.
Lemma c69_group : sgroup = (@gen Toy * poly_value [mk 1000; mk 77] (@F0 Toy))%G. Proof. vmr. Qed.
Lemma c69_book_ok : key_book 2 sgroup [u 1; u 2; u 3] c69_book.
Proof. exact (@poly_book Toy ToyLaws [mk 1000; mk 77] [u 1; u 2; u 3] sgroup c69_group). Qed.
Lemma c69_run_ok ids k bad : agg_run (agg_new c69_params sgroup [x68; x69]) (fst (c69_run ids k bad)) (snd (c69_run ids k bad)).
Proof. apply calls_run_ok. Qed.
Lemma c69_first : honest_attempt Debug c69_params sgroup [x68; x69] c69_book [u 1; u 3] [u 1; u 2; u 3] (snd (c69_run [2; 1; 3]%Z 0 2)).
Proof.
  exists (fst (c69_run [2; 1; 3]%Z 0 2)). split.
  - apply (@attempt_check Toy ToyLaws); [apply c69_run_ok| | |]; vmr.
  - intros i [<-|[<-|[]]].
    + apply (@cooperates_check Toy ToyLaws _ _ _ _ _ _ _ (skey 1) (snonces 1) 0%N (spair 1 0)); vmr.
    + apply (@cooperates_check Toy ToyLaws _ _ _ _ _ _ _ (skey 3) (snonces 3) 0%N (spair 3 0)); vmr.
Qed.
Lemma c69_second : honest_attempt Debug c69_params sgroup [x68; x69] c69_book [u 1; u 3] [u 3; u 1] (snd (c69_run [1; 3]%Z 1 2)).
Proof.
  exists (fst (c69_run [1; 3]%Z 1 2)). split.
  - apply (@attempt_check Toy ToyLaws); [apply c69_run_ok| | |]; vmr.
  - intros i [<-|[<-|[]]].
    + apply (@cooperates_check Toy ToyLaws _ _ _ _ _ _ _ (skey 1) (snonces 1) 1%N (spair 1 1)); vmr.
    + apply (@cooperates_check Toy ToyLaws _ _ _ _ _ _ _ (skey 3) (snonces 3) 1%N (spair 3 1)); vmr.
Qed.
Lemma c69_first_fails : outcome (snd (c69_run [2; 1; 3]%Z 0 2)) = Err (MisbehavingParticipants [u 2]). Proof. vmr. Qed.
Example C69_ex :
  key_book 2 sgroup [u 1; u 2; u 3] c69_book /\
  retries Debug c69_params sgroup [x68; x69] c69_book [u 1; u 3] [u 1; u 2; u 3] 1 [u 3; u 1] /\
  honest_attempt Debug c69_params sgroup [x68; x69] c69_book [u 1; u 3] [u 3; u 1] (snd (c69_run [1; 3]%Z 1 2)) /\
  is_ok (outcome (snd (c69_run [1; 3]%Z 1 2))) = true.
Proof.
  split; [exact c69_book_ok|]. split; [|split; [exact c69_second|vmr]].
  refine (rt_again _ _ _ _ _ _ _ _ [u 2] [u 3; u 1] 0 _ c69_first c69_first_fails _ _ (rt_start _ _ _ _ _ _ _)).
  - nodup.
  - intros i. cbn [In]. assert (u 1 <> u 2 /\ u 3 <> u 2) as [A B] by (split; apply u32_eqb_neq; vmr). split.
    + intros [<-|[<-|[]]]; (split; [tauto|]); intros [X|[]]; congruence.
    + intros [[<-|[<-|[<-|[]]]] X]; tauto.
Qed.
