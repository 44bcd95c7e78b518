(** C92: where the threshold parameters are looked at, also for values outside 1 <= t <= n. The fields of
    ThresholdParameters are public (src/parameters.rs 15-18) and from_bytes does not check them, so every
    pair (n, t) can reach the calls below. *)
From Coq Require Import String Strings.Byte NArith ZArith Bool List Lia Permutation.
From Verif Require Import Base Suite Spec SpecDkg Types ModelDkg ModelSign Toy Algebra BaseLemmas LemmasShare Demo
  LemmasRound1 DemoDkg SpecSign LemmasSign LemmasAgg DemoSign PropsSign PropsAgg.
Import ListNotations.

Section Range.
  Context {S : Suite} {L : SuiteLaws S}.

  (** the parameters the constructor accepts *)
  Definition in_range (n t : u32) : Prop := (1 <= u32v t /\ u32v t <= u32v n)%N.

  Lemma ns_in_range m params x my co ps fd fs r st pl r' :
    (fd = true \/ fs = true) -> (fd = true -> exists cs, co = Some cs) ->
    new_state_internal m params x my co ps fd fs r = Ok (st, pl, r') ->
    in_range (p_n (ds_params (st1 st))) (p_t (ds_params (st1 st))) /\
    p_t (ds_params (st1 st)) = p_t params /\ (u32v (p_n (ds_params (st1 st))) <= u32v (p_n params))%N /\
    u32v (p_n (ds_params (st1 st))) = N.of_nat (length (pl_valid pl)).
  Proof.
    intros Hf Hco H.
    destruct (N.eq_dec (N.of_nat (length ps)) (u32v (p_n params))) as [E|E].
    2:{ rewrite ns_count in H by assumption. discriminate. }
    destruct (fs && existsb crashb ps) eqn:Ec.
    { rewrite ns_panic in H by assumption. discriminate. }
    destruct (N.eq_dec (u32v (p_t params)) 0) as [Z|Z].
    { rewrite ns_t0 in H by assumption. destruct m; discriminate. }
    destruct (N.lt_ge_cases (N.of_nat (length (filter (okb fd fs (p_t params)) ps))) (u32v (p_t params))) as [Hl|Hl].
    { rewrite ns_toofew in H by assumption. discriminate. }
    destruct (ns_success m params x my co ps fd fs r Hf Hco ltac:(lia) E Ec Hl) as (st0 & r0 & E0 & HR & _).
    rewrite E0 in H. injection H as <- <- <-. cbn [st1 pl_valid].
    assert (HL : length ps = length (filter (okb fd fs (p_t params)) ps) + length (map pt_index (filter (fun p => negb (okb fd fs (p_t params) p)) ps))).
    { apply (splits_length (fun p => okb fd fs (p_t params) p = true)). apply splits_filter. tauto. }
    destruct HR as [Hn Ht' _ _ _ _ _].
    unfold in_range. rewrite Hn, Ht'. repeat split; try lia.
  Qed.
End Range.

(** C92: every state of the key generation carries parameters the constructor accepts, with the threshold
    given and as many participants as were found valid *)
Theorem C92_states_carry_accepted_parameters :
  forall (S : Suite) (L : SuiteLaws S) (m : build) (params : Params) (x : F) (my : u32) (cs : list F)
         (ps : list Participant) (r : Rng) st pl r',
    bootstrap m params x my cs ps r = Ok (st, pl, r') \/ dkg_new m params x my ps r = Ok (st, pl, r') ->
    in_range (p_n (ds_params (st1 st))) (p_t (ds_params (st1 st))) /\
    p_t (ds_params (st1 st)) = p_t params /\ (u32v (p_n (ds_params (st1 st))) <= u32v (p_n params))%N /\
    u32v (p_n (ds_params (st1 st))) = N.of_nat (length (pl_valid pl)).
Proof.
  intros S L m params x my cs ps r st pl r' [H|H].
  - eapply (ns_in_range m params x my (Some cs) ps true true); [auto|eauto|exact H].
  - eapply (ns_in_range m params x my None ps false true); [auto|discriminate|exact H].
Qed.
Print Assumptions C92_states_carry_accepted_parameters.

(** what bootstrap and new return for parameters the constructor would reject *)
Theorem C92_refused_outside_the_range :
  forall (S : Suite) (L : SuiteLaws S) (m : build) (params : Params) (x : F) (my : u32) (cs : list F)
         (ps : list Participant) (r : Rng),
    ~ in_range (p_n params) (p_t params) ->
    (N.of_nat (length ps) <> u32v (p_n params) ->
       bootstrap m params x my cs ps r = Err (InvalidNumberOfParticipants (length ps) (p_n params)) /\
       dkg_new m params x my ps r = Err (InvalidNumberOfParticipants (length ps) (p_n params))) /\
    (N.of_nat (length ps) = u32v (p_n params) -> (exists p, In p ps /\ crashing p) ->
       bootstrap m params x my cs ps r = Panic /\ dkg_new m params x my ps r = Panic) /\
    (N.of_nat (length ps) = u32v (p_n params) -> (forall p, In p ps -> ~ crashing p) -> u32v (p_t params) = 0%N ->
       let out := match m with Debug => Panic | Release => Err InvalidThresholdParams end in
       bootstrap m params x my cs ps r = out /\ dkg_new m params x my ps r = out) /\
    (N.of_nat (length ps) = u32v (p_n params) -> (forall p, In p ps -> ~ crashing p) -> (1 <= u32v (p_t params))%N ->
       exists v1 mis1 v2 mis2, splits (ok_bootstrap (p_t params)) ps v1 mis1 /\ splits ok_new ps v2 mis2 /\
         bootstrap m params x my cs ps r = Err (TooManyInvalidParticipants mis1) /\
         dkg_new m params x my ps r = Err (TooManyInvalidParticipants mis2)).
Proof.
  intros S L m params x my cs ps r HB. unfold bootstrap, dkg_new.
  assert (H1 : true = true \/ true = true) by auto. assert (H2 : false = true \/ true = true) by auto.
  assert (H3 : true = true -> exists cs0, Some cs = Some cs0) by eauto.
  assert (H4 : false = true -> exists cs0, @None (list F) = Some cs0) by discriminate.
  split; [|split; [|split]].
  - intros E. rewrite !ns_count by assumption. auto.
  - intros E Hc. apply existsb_crash in Hc. rewrite !ns_panic; auto.
  - intros E Hc Ht. cbv zeta. apply existsb_crash_false in Hc. rewrite !ns_t0; auto.
  - intros E Hc Ht. apply existsb_crash_false in Hc.
    assert (HT : (u32v (p_n params) < u32v (p_t params))%N) by (unfold in_range in HB; lia).
    assert (HS : forall fd fs, (N.of_nat (length (filter (okb fd fs (p_t params)) ps)) < u32v (p_t params))%N).
    { intros fd fs.
      assert (HL : length ps = length (filter (okb fd fs (p_t params)) ps) + length (map pt_index (filter (fun p => negb (okb fd fs (p_t params) p)) ps))).
      { apply (splits_length (fun p => okb fd fs (p_t params) p = true)). apply splits_filter. tauto. }
      lia. }
    do 4 eexists. split; [apply (splits_filter _ (okb true true (p_t params))); intros p; apply okb_bootstrap|].
    split; [apply (splits_filter _ (okb false true (p_t params))); intros p; apply okb_new|].
    split; apply ns_toofew; auto.
Qed.
Print Assumptions C92_refused_outside_the_range.

(** a threshold of zero makes dealing panic, whatever the index and the randomness; a threshold above the
    number of participants makes resharing fail *)
Theorem C92_dealing_outside_the_range :
  forall (S : Suite) (L : SuiteLaws S) (m : build) (params : Params) (i : u32) (r : Rng) (k : F) (ps : list Participant),
    i <> u32_zero ->
    (u32v (p_t params) = 0%N ->
       new_dealer params i r = Panic /\ reshare m params (MkSK i k) ps r = Panic) /\
    ((1 <= u32v (p_t params))%N -> (u32v (p_n params) < u32v (p_t params))%N ->
       (exists d co dh r', new_dealer params i r = Ok (d, co, dh, r')) /\
       exists v mis, splits ok_reshare ps v mis /\
         reshare m params (MkSK i k) ps r =
           if N.eqb (N.of_nat (length ps)) (u32v (p_n params)) then Err (TooManyInvalidParticipants mis)
           else Err (InvalidNumberOfParticipants (length ps) (p_n params))).
Proof.
  intros S L m params i r k ps Hi.
  assert (EI : u32_eqb i u32_zero = false) by (apply u32_eqb_neq; exact Hi).
  split.
  - intros Ht. unfold new_dealer, reshare, new_internal. cbn [sk_index sk_key]. rewrite EI.
    assert (ET : u32_nat (p_t params) = 0) by (unfold u32_nat; rewrite Ht; reflexivity).
    rewrite ET. destruct (rand_scalar r) as [dh r1]. destruct (nizk_prove i dh (gen * dh)%G r1) as [pr r2].
    destruct (rand_scalar r2) as [a0 r3]. cbn. split; reflexivity.
  - intros Ht HT. unfold new_dealer, reshare, new_internal. cbn [sk_index sk_key]. rewrite EI.
    assert (ET : exists n, u32_nat (p_t params) = Datatypes.S n) by (unfold u32_nat; destruct (N.to_nat (u32v (p_t params))) eqn:E; [lia|eauto]).
    destruct ET as [n ET]. rewrite ET.
    destruct (rand_scalar r) as [dh r1]. destruct (nizk_prove i dh (gen * dh)%G r1) as [pr r2].
    replace (Datatypes.S n - 1) with n by lia. cbn [firstn map vss_public_key vss_points nth_error].
    split.
    + destruct (rand_scalar r2) as [a0 r3]. destruct (rand_scalars n r3) as [rest r4].
      cbn [firstn map vss_public_key vss_points nth_error hd_error].
      destruct (nizk_prove i a0 (gen * a0)%G r4) as [sp r5]. cbn [bind]. eauto 6.
    + do 2 eexists. split; [apply (splits_filter _ (okb true false (p_t params))); intros p; apply okb_reshare|].
      destruct (rand_scalars n r2) as [rest r4]. cbn [firstn map vss_public_key vss_points nth_error hd_error].
      destruct (nizk_prove i k (gen * k)%G r4) as [sp r5]. cbn [bind].
      destruct (N.eqb_spec (N.of_nat (length ps)) (u32v (p_n params))) as [E|E].
      * rewrite ns_toofew; [reflexivity|auto|exact E|reflexivity|].
        assert (HL : length ps = length (filter (okb true false (p_t params)) ps) + length (map pt_index (filter (fun p => negb (okb true false (p_t params) p)) ps))).
        { apply (splits_length (fun p => okb true false (p_t params) p = true)). apply splits_filter. tauto. }
        lia.
      * rewrite ns_count by exact E. reflexivity.
Qed.
Print Assumptions C92_dealing_outside_the_range.

(** creating a signer does not look at the parameters *)
Theorem C92_signers_ignore_the_parameters :
  forall (S : Suite) (p p' : Params) (i : u32) (r : Rng), new_signer p i r = new_signer p' i r.
Proof. intros S p p' i r. reflexivity. Qed.
Print Assumptions C92_signers_ignore_the_parameters.

Section Ignore.
  Context {S : Suite}.

  (** the aggregator with other parameters *)
  Definition other_params (p : Params) (a : AggInitial) : AggInitial :=
    let st := ai_state a in
    MkInit (MkAgg p (ag_signers st) (ag_keys st) (ag_partials st) (ag_group_key st)) (ai_message a).

  Lemma include_other p a i com pk o a1 : p_n p = p_n (ag_params (ai_state a)) ->
    include_signer a i com pk = (o, a1) ->
    include_signer (other_params p a) i com pk = (o, other_params p a1) /\ ag_params (ai_state a1) = ag_params (ai_state a).
  Proof.
    intros Hn H. unfold include_signer in *. cbn [other_params ai_state ag_signers ag_keys ag_partials ag_params ag_group_key ai_message].
    rewrite Hn. destruct (negb (u32_eqb i (vk_index pk))); [injection H as <- <-; auto|].
    cbv zeta in *. destruct (N.ltb _ _); injection H as <- <-; auto.
  Qed.

  Lemma run_other p : forall tr a a2, agg_run a tr a2 -> p_n p = p_n (ag_params (ai_state a)) ->
    agg_run (other_params p a) tr (other_params p a2) /\ ag_params (ai_state a2) = ag_params (ai_state a).
  Proof.
    induction 1 as [a|a i com pk o a1 tr a2 H HR IH|a q tr a2 HR IH]; intros Hn.
    - split; [apply ag_nil|reflexivity].
    - destruct (include_other p a i com pk o a1 Hn H) as [E1 E2]. rewrite <- E2 in Hn. destruct (IH Hn) as [R1 R2].
      split; [eapply ag_inc; eauto|congruence].
    - destruct (IH Hn) as [R1 R2]. split; [apply ag_part; exact R1|exact R2].
  Qed.
End Ignore.

(** the aggregator never looks at the threshold: with the same n, the same calls give the same outcomes *)
Theorem C92_aggregator_ignores_the_threshold :
  forall (S : Suite) (p p' : Params) (gk : G) (msg : list byte) tr a,
    p_n p = p_n p' -> agg_run (agg_new p gk msg) tr a ->
    exists a', agg_run (agg_new p' gk msg) tr a' /\ remaining_signers a' = remaining_signers a /\
      (forall e, finalize a = Err e -> finalize a' = Err e) /\
      forall f, finalize a = Ok f -> exists f', finalize a' = Ok f' /\ aggregate f' = aggregate f.
Proof.
  intros S p p' gk msg tr a Hn H. exists (other_params p' a).
  destruct (run_other p' tr _ _ H) as [HR _]; [symmetry; exact Hn|].
  split; [exact HR|]. split; [reflexivity|]. unfold finalize. cbv zeta.
  change (remaining_signers (other_params p' a)) with (remaining_signers a).
  cbn [other_params ai_state ag_signers ag_keys ag_partials ag_params ag_group_key ai_message].
  destruct (_ ++ _); split; try discriminate; try (intros e E; exact E).
  intros f E. injection E as <-. eexists. split; [reflexivity|]. unfold aggregate. cbn [af_state af_hash ag_signers ag_keys ag_partials ag_group_key].
  destruct (compute_binding_factors (h4 (ai_message a)) (ag_signers (ai_state a))) as [bf|e|]; cbn [bind]; try reflexivity.
  destruct (compute_group_commitment (ag_signers (ai_state a)) bf) as [R|e|]; cbn [bind]; try reflexivity.
  destruct (sum_partials (ag_partials (ai_state a)) (ag_signers (ai_state a)) F0) as [z|e|]; cbn [bind]; try reflexivity.
  destruct (is_ok _); [reflexivity|].
  match goal with |- bind (find_bad ?st ?h ?c ?idx ?l ?mis) _ = bind (find_bad ?st' _ _ _ _ _) _ =>
    assert (E : forall l' mis', find_bad st h c idx l' mis' = find_bad st' h c idx l' mis') end.
  { induction l' as [|s l' IH]; intros mis'; cbn [find_bad ag_partials ag_keys ag_signers]; [reflexivity|].
    destruct (lagrange _ _) as [lm|e|]; cbn [bind]; try reflexivity.
    destruct (bget _ (ag_partials _)); [|reflexivity]. destruct (bget _ (ag_keys _)); [|reflexivity].
    destruct (commitment_for_participant _ _ _) as [Ri|e|]; cbn [bind]; try reflexivity. apply IH. }
  rewrite E. reflexivity.
Qed.
Print Assumptions C92_aggregator_ignores_the_threshold.

(** concrete cases: (3,0) with fresh signers' data, and (3,4), which flags everybody in a key generation (the
    commitments have two points) and nobody in a resharing *)
Example C92_ex_zero :
  new_dealer (S := Toy) (MkParams (u 3) (u 0)) (u 1) 10%N = Panic /\
  is_ok (new_signer (S := Toy) (MkParams (u 3) (u 0)) (u 1) 10%N) = true /\
  bootstrap Release (MkParams (u 3) (u 0)) (dealer_x 3 2 1 10) (u 1) (dealer_co 3 2 1 10) demo_ps 7%N = Err InvalidThresholdParams /\
  bootstrap Debug (MkParams (u 3) (u 0)) (dealer_x 3 2 1 10) (u 1) (dealer_co 3 2 1 10) demo_ps 7%N = Panic.
Proof. vms. Qed.

Example C92_ex_high :
  bootstrap Release (MkParams (u 3) (u 4)) (dealer_x 3 2 1 10) (u 1) (dealer_co 3 2 1 10) demo_ps 7%N
    = Err (TooManyInvalidParticipants [u 1; u 2; u 3]) /\
  dkg_new Release (MkParams (u 3) (u 4)) (dealer_x 3 2 1 10) (u 1) demo_ps 7%N = Err (TooManyInvalidParticipants []) /\
  reshare Release (MkParams (u 3) (u 4)) (MkSK (u 1) (mk 5%Z)) demo_ps 7%N = Err (TooManyInvalidParticipants []).
Proof. vms. Qed.

(** two signers of the demonstration session, aggregated under thresholds 0, 2 and 9 *)
Definition C92_case (t : N) : AggInitial := other_params (MkParams (u 3) (u t)) (sdone [1; 3]%Z [1; 3]%Z).
Example C92_ex_aggregator :
  is_ok (sfinal (C92_case 0)) = true /\ is_ok (sfinal (C92_case 2)) = true /\ is_ok (sfinal (C92_case 9)) = true.
Proof. vms. Qed.
