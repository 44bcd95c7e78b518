(** C112: which errors every public call can return, and which no call returns. *)
From Coq Require Import String Strings.Byte Arith NArith ZArith Bool List Permutation Sorted Lia Field.
From Verif Require Import Base Suite Spec SpecDkg SpecSign SpecCodec Types ModelDkg ModelSign ModelCodec Algebra BaseLemmas LemmasShare LemmasRound1
  LemmasRound2 LemmasFinish LemmasBlame LemmasSign LemmasAgg LemmasCodec Toy Demo DemoDkg DemoSign PropsShare PropsRound1 PropsFinish PropsAgg PropsCodec PropsHash PropsRestore.
Import ListNotations.
Local Open Scope string_scope.
Local Open Scope list_scope.

(** texts that occur in errors *)
Definition duplicate_text : string := "Duplicate indices provided".
Definition quoted_duplicate_text : string := """Duplicate indices provided""".
Definition zero_text : string := "The indexs of a participant cannot be 0.".
Definition unknown_sender_text : string := "to_round_two() was called with encrypted secret shares containing invalid indices".

Section Errors.
  Context {S : Suite} {L : SuiteLaws S}.

  (** [returned e]: some call of the public interface returns [e]. Second-round sessions are those that can be read from bytes,
      aggregators those that a sequence of calls can reach; everything else is arbitrary. *)
  Inductive returned : Error -> Prop :=
  | ret_params m n t e : params_new m n t = Err e -> returned e
  | ret_dealer p i r e : new_dealer p i r = Err e -> returned e
  | ret_signer p i r e : new_signer p i r = Err e -> returned e
  | ret_reshare m p k ps r e : reshare m p k ps r = Err e -> returned e
  | ret_bootstrap m p x i co ps r e : bootstrap m p x i co ps r = Err e -> returned e
  | ret_new m p x i ps r e : dkg_new m p x i ps r = Err e -> returned e
  | ret_shares s e : their_encrypted_secret_shares s = Err e -> returned e
  | ret_round_two m s es r e : to_round_two m s es r = Err e -> returned e
  | ret_blame s cs e : blame s cs = Err e -> returned e
  | ret_finish bs s e : from_bytes de_round_two bs = Ok s -> finish s = Err e -> returned e
  | ret_degree c p e : check_degree c p = Err e -> returned e
  | ret_nizk p i P e : nizk_verify p i P = Err e -> returned e
  | ret_complaint c P e : complaint_verify c P = Err e -> returned e
  | ret_ivk_verify k cs e : ivk_verify k cs = Err e -> returned e
  | ret_ivk_generate i cs e : ivk_generate i cs = Err e -> returned e
  | ret_sign m k h gk l i ss e : fst (sign m k h gk l i ss) = Err e -> returned e
  | ret_include p gk msg tr a i com pk e : agg_run (agg_new p gk msg) tr a -> fst (include_signer a i com pk) = Err e -> returned e
  | ret_finalize p gk msg tr a e : agg_run (agg_new p gk msg) tr a -> finalize a = Err e -> returned e
  | ret_aggregate p gk msg tr a f e : agg_run (agg_new p gk msg) tr a -> finalize a = Ok f -> aggregate f = Err e -> returned e
  | ret_sig_verify s gk h e : sig_verify s gk h = Err e -> returned e
  | ret_verify_signature gk s h e : verify_signature gk s h = Err e -> returned e
  | ret_from_bytes A (d : decoder A) bs e : from_bytes d bs = Err e -> returned e.

  (** the errors that can occur, with what is known about the values they carry *)
  Definition possible (e : Error) : Prop :=
    match e with
    | SerializationError | CompressionError | DecompressionError | DecryptionError | EncryptionError
    | InvalidMSMParameters | InvalidChallenge => False
    | IndexMismatch a b => a <> b
    | InvalidNumberOfParticipants len n => N.of_nat len <> u32v n
    | TooManySigners len n => (u32v n < N.of_nat len)%N
    | Custom s => In s [duplicate_text; quoted_duplicate_text; zero_text; unknown_sender_text]
    | _ => True
    end.

  (** equality of errors up to the lists carried *)
  Definition alike (e e' : Error) : Prop :=
    match e, e' with
    | ComplaintErr _, ComplaintErr _ | TooManyInvalidParticipants _, TooManyInvalidParticipants _
    | MisbehavingParticipants _, MisbehavingParticipants _ | TooManySigners _ _, TooManySigners _ _ => True
    | _, _ => e = e'
    end.

  Lemma lagrange_err i l e : lagrange (S := S) i l = Err e -> e = Custom duplicate_text \/ e = IndexIsZero.
  Proof.
    unfold lagrange. cbv zeta. destruct (negb _); [intros E; injection E as <-; left; reflexivity|].
    destruct (existsb _ _); [intros E; injection E as <-; right; reflexivity|].
    destruct (lagrange_loop _ _ _ _) as [num den]. destruct (Finverse den); [discriminate|]. intros E. injection E as <-. left. reflexivity.
  Qed.
  Lemma new_internal_err p b i s r e : new_internal p b i s r = Err e -> e = IndexIsZero.
  Proof.
    unfold new_internal. destruct (u32_eqb i u32_zero); [intros E; injection E as <-; reflexivity|]. cbv zeta.
    destruct (rand_scalar r) as [x r1]. destruct (nizk_prove _ _ _ _) as [pr r2]. destruct b; [discriminate|].
    destruct s as [k|]; [|destruct (rand_scalar r2) as [a r3]].
    - destruct (rand_scalars _ _) as [rest r4]. destruct (vss_public_key _); [|discriminate]. destruct (nizk_prove _ _ _ _). discriminate.
    - destruct (rand_scalars _ _) as [rest r4]. destruct (vss_public_key _); [|discriminate]. destruct (nizk_prove _ _ _ _). discriminate.
  Qed.
  Lemma check_one_err m p fd fs q a e : check_one (S := S) m p fd fs q a <> Err e.
  Proof.
    unfold check_one. destruct (is_ok _); [|discriminate]. destruct fs.
    - destruct (part_public_key q); [|discriminate]. destruct (pt_sk_proof q); [|discriminate]. destruct (is_ok _); [|discriminate].
      destruct (pt_comm q); [|discriminate]. destruct (fd && _); discriminate.
    - destruct (is_debug m && _); discriminate.
  Qed.
  Lemma check_all_err m p fd fs ps : forall a e, check_all (S := S) m p fd fs ps a <> Err e.
  Proof.
    induction ps as [|q ps IH]; intros a e; cbn [check_all]; [discriminate|].
    destruct (check_one m p fd fs q a) as [a'|e'|] eqn:E; cbn [bind]; [apply IH|destruct (check_one_err _ _ _ _ _ _ _ E)|discriminate].
  Qed.
  Lemma encrypt_all_err i x co ps : forall acc r e, encrypt_all i x co ps acc r <> Err e.
  Proof.
    induction ps as [|q ps IH]; intros acc r e; cbn [encrypt_all]; [discriminate|]. destruct co as [cs|]; [|discriminate]. cbv zeta.
    destruct (encrypt_share_ok (evaluate_polynomial i (pt_index q) cs) (enc_point (pt_dh_pk q * x)%G) r) as (e1 & r1 & -> & _). cbn [bind]. apply IH.
  Qed.
  Lemma u32_sub_err {E} m a b (e : E) : u32_sub m a b <> Err e.
  Proof. unfold u32_sub. destruct (u32_ltb a b); [destruct m; discriminate|discriminate]. Qed.
  Lemma params_err m n t e : params_new (S := S) m n t = Err e -> e = InvalidThresholdParams.
  Proof. unfold params_new. destruct (is_debug m && _); [discriminate|]. destruct (_ || _ || _); [intros E; injection E as <-; reflexivity|discriminate]. Qed.

  Definition round_one_error (len : nat) (p : Params) (e : Error) : Prop :=
    (e = InvalidNumberOfParticipants len (p_n p) /\ N.of_nat len <> u32v (p_n p)) \/ (exists l, e = TooManyInvalidParticipants l) \/
    (e = InvalidThresholdParams /\ u32v (p_t p) = 0%N).
  Lemma ns_err m p x i co ps fd fs r e : (fd = true -> exists cs, co = Some cs) -> new_state_internal m p x i co ps fd fs r = Err e ->
    (e = InvalidNumberOfParticipants (length ps) (p_n p) /\ N.of_nat (length ps) <> u32v (p_n p)) \/ (exists l, e = TooManyInvalidParticipants l) \/ e = InvalidThresholdParams.
  Proof.
    intros Hco. unfold new_state_internal. cbv zeta. destruct (N.eqb _ _) eqn:En; cbn [negb].
    2:{ intros E. injection E as <-. left. split; [reflexivity|]. apply N.eqb_neq, En. }
    destruct (check_all _ _ _ _ _ _) as [a|e'|] eqn:E; cbn [bind]; [|destruct (check_all_err _ _ _ _ _ _ _ E)|discriminate].
    destruct (N.ltb _ _); [intros X; injection X as <-; right; left; eauto|].
    assert (T : forall (st : Params -> option (bmap Vss) * RoundOne) (r' : Rng), 
      forall e, (let* n' := u32_sub m (p_n p) (u32_of_N (N.of_nat (length (acc_mis a)))) in let* params' := params_new m n' (p_t p) in
        Ok (snd (st params'), MkPList (acc_valid a) (opt_list (acc_mis a)), r')) = Err e -> e = InvalidThresholdParams).
    { intros st r' e0. destruct (u32_sub _ _ _) as [n'|e1|] eqn:Es; cbn [bind]; [|destruct (u32_sub_err _ _ _ _ Es)|discriminate].
      destruct (params_new m n' (p_t p)) as [p'|e1|] eqn:Ep; cbn [bind]; [discriminate| |discriminate]. intros X. injection X as <-. apply (params_err _ _ _ _ Ep). }
    destruct (negb fd && fs).
    - intros X. right. right.
      apply (T (fun params' => (None, R1 (MkState params' i x (gen * x)%G (Some (acc_comms a)) (acc_dhs a) None None))) r e X).
    - destruct (encrypt_all _ _ _ _ _ _) as [[es r']|e'|] eqn:Ee; cbn [bind]; [|destruct (encrypt_all_err _ _ _ _ _ _ _ Ee)|discriminate].
      intros X. right. right.
      apply (T (fun params' => (None, R1 (MkState params' i x (gen * x)%G (if fs then Some (acc_comms a) else None) (acc_dhs a) (Some es) None))) r' e X).
  Qed.

  Lemma not_threshold l : @TooManyInvalidParticipants S l <> InvalidThresholdParams.
  Proof. discriminate. Qed.
  Lemma zero_or (t : u32) : u32v t = 0%N \/ (1 <= u32v t)%N.
  Proof. lia. Qed.
  (** an error of round one about the parameters means threshold zero *)
  Lemma bootstrap_err m p x i co ps r e : bootstrap m p x i co ps r = Err e -> round_one_error (length ps) p e.
  Proof.
    intros E. destruct (ns_err m p x i (Some co) ps true true r e) as [H|[H|H]]; [eauto|exact E|left; exact H|right; left; exact H|].
    right. right. split; [exact H|]. destruct (zero_or (p_t p)) as [Z|Z]; [exact Z|]. exfalso. subst e.
    destruct (N.eq_dec (N.of_nat (length ps)) (u32v (p_n p))) as [En|En].
    2:{ destruct (C13_count_mismatch S m p x i co ps r En) as [X _]. rewrite X in E. discriminate. }
    destruct (C13_bootstrap_outcome S L m p x i co ps r En Z) as (v & mis & _ & H1 & H2).
    { intros q Hq Hc. pose proof (proj2 (proj1 (C14_round_one_panics_exactly S L m p x i co ps r Z))) as X. rewrite E in X. discriminate X; eauto. }
    destruct (N.lt_ge_cases (N.of_nat (length v)) (u32v (p_t p))) as [Q|Q].
    - rewrite (H1 Q) in E. discriminate.
    - destruct (H2 Q) as (st & r' & X & _). rewrite X in E. discriminate.
  Qed.
  Lemma dkg_new_err m p x i ps r e : dkg_new m p x i ps r = Err e -> round_one_error (length ps) p e.
  Proof.
    intros E. destruct (ns_err m p x i None ps false true r e) as [H|[H|H]]; [discriminate|exact E|left; exact H|right; left; exact H|].
    right. right. split; [exact H|]. destruct (zero_or (p_t p)) as [Z|Z]; [exact Z|]. exfalso. subst e.
    destruct (N.eq_dec (N.of_nat (length ps)) (u32v (p_n p))) as [En|En].
    2:{ destruct (C13_count_mismatch S m p x i [] ps r En) as [_ X]. rewrite X in E. discriminate. }
    destruct (C13_new_outcome S L m p x i ps r En Z) as (v & mis & _ & H1 & H2).
    { intros q Hq Hc. pose proof (proj2 (proj2 (C14_round_one_panics_exactly S L m p x i [] ps r Z))) as X. rewrite E in X. discriminate X; eauto. }
    destruct (N.lt_ge_cases (N.of_nat (length v)) (u32v (p_t p))) as [Q|Q].
    - rewrite (H1 Q) in E. discriminate.
    - destruct (H2 Q) as (st & r' & X & _). rewrite X in E. discriminate.
  Qed.
  Lemma reshare_err m p k ps r e : reshare m p k ps r = Err e ->
    (e = IndexIsZero /\ sk_index k = u32_zero) \/ (e = InvalidNumberOfParticipants (length ps) (p_n p) /\ N.of_nat (length ps) <> u32v (p_n p)) \/ (exists l, e = TooManyInvalidParticipants l).
  Proof.
    intros E. destruct (u32_eq_dec (sk_index k) u32_zero) as [Z|Z].
    - left. split; [|exact Z]. unfold reshare, new_internal in E. rewrite Z in E. cbn in E. injection E as <-. reflexivity.
    - right. destruct (zero_or (p_t p)) as [T|T].
      + exfalso. unfold reshare, new_internal in E. rewrite (proj2 (u32_eqb_neq _ _) Z) in E. cbv zeta in E.
        assert (T0 : u32_nat (p_t p) = 0%nat) by (unfold u32_nat; rewrite T; reflexivity). rewrite T0 in E.
        destruct (rand_scalar r) as [y r1]. destruct (nizk_prove _ _ _ _) as [pr r2]. cbn [Nat.sub rand_scalars firstn map vss_public_key vss_points hd_error bind] in E. discriminate.
      + destruct (C13_reshare_outcome S L m p k ps r Z T) as [H1 H2].
        destruct (N.eq_dec (N.of_nat (length ps)) (u32v (p_n p))) as [En|En].
        * destruct (H2 En) as (v & mis & _ & H3 & H4). right. destruct (N.lt_ge_cases (N.of_nat (length v)) (u32v (p_t p))) as [Q|Q].
          -- rewrite (H3 Q) in E. injection E as <-. eauto.
          -- destruct (H4 Q) as (st & es & r' & X & _). rewrite X in E. discriminate.
        * rewrite (H1 En) in E. injection E as <-. left. auto.
  Qed.
  Lemma round_two_loop_err m st es : forall sh cs r e, round_two_loop m st es sh cs r = Err e -> e = Custom unknown_sender_text.
  Proof.
    induction es as [|e0 es IH]; intros sh cs r e; cbn [round_two_loop]; [discriminate|].
    destruct (is_debug m && _); [discriminate|]. destruct (bget _ _); [|intros E; injection E as <-; reflexivity]. cbv zeta.
    destruct (ds_comms st); [|discriminate]. destruct (find _ _).
    - destruct (complaint_new _ _ _ _ _). apply IH.
    - apply IH.
  Qed.
  Lemma round_two_err m s es r e : to_round_two m s es r = Err e ->
    e = MissingShares \/ e = Custom unknown_sender_text \/ exists cs, e = ComplaintErr cs.
  Proof.
    unfold to_round_two. cbv zeta. destruct (N.ltb _ _); [intros E; injection E as <-; auto|].
    destruct (round_two_loop _ _ _ _ _ _) as [[[sh cs] r']|e'|] eqn:E; cbn [bind]; [|intros X; injection X as <-; right; left; apply (round_two_loop_err _ _ _ _ _ _ _ E)|discriminate].
    destruct (u32_sub _ _ _) as [n'|e1|] eqn:Es; cbn [bind]; [|destruct (u32_sub_err _ _ _ _ Es)|discriminate].
    destruct (u32_ltb _ _); [intros X; injection X as <-; eauto|discriminate].
  Qed.
  Lemma finish_err bs s e : from_bytes de_round_two bs = Ok s -> finish s = Err e ->
    e = Custom zero_text \/ e = IndexIsZero \/ (e = InvalidGroupKey /\ ds_comms (st2 s) = None).
  Proof.
    intros Hb E. destruct (C103_outcome_of_finish S L bs s Hb) as [H1 H2].
    destruct (ds_shares (st2 s)) as [sh|] eqn:Es; [|rewrite (H1 eq_refl) in E; discriminate].
    destruct (H2 sh eq_refl) as [H3 H4]. destruct (in_dec u32_eq_dec u32_zero (bkeys sh)) as [I|I].
    - rewrite (H3 I) in E. injection E as <-. left. reflexivity.
    - destruct (H4 I) as [H5 H6]. destruct (ds_comms (st2 s)) as [cm|] eqn:Ec.
      + destruct (H6 cm eq_refl) as (H7 & H8 & H9). destruct (in_dec u32_eq_dec u32_zero (bkeys cm)) as [J|J].
        * rewrite (H7 J) in E. injection E as <-. auto.
        * destruct (hole_dec cm) as [K|K]; [rewrite (H8 J K) in E; discriminate|rewrite (H9 J K) in E; discriminate].
      + rewrite (H5 eq_refl) in E. injection E as <-. auto.
  Qed.
  Lemma ivk_verify_err k cs e : ivk_verify k cs = Err e -> e = ShareVerificationError \/ e = Custom quoted_duplicate_text \/ e = Custom zero_text.
  Proof.
    unfold ivk_verify. destruct (ivk_verify_loop _ _ _ _) as [g|e'|] eqn:E; cbn [bind]; [destruct (Geqb _ _); [discriminate|intros X; injection X as <-; auto]| |discriminate].
    intros X. injection X as <-. right. revert E. generalize (Gzero (Suite := S)). generalize (map vss_index cs). intros idx. induction cs as [|c cs IH]; intros g; cbn [ivk_verify_loop]; [discriminate|].
    cbv zeta. destruct (lagrange _ _) as [co|e1|] eqn:El; [apply IH| |discriminate]. intros X. injection X as <-.
    destruct (lagrange_err _ _ _ El) as [-> | ->]; [left|right]; reflexivity.
  Qed.
  Lemma ivk_generate_err i cs e : ivk_generate i cs = Err e -> e = Custom duplicate_text \/ e = IndexIsZero.
  Proof.
    unfold ivk_generate. destruct (ivk_generate_loop _ _ _ _) as [g|e'|] eqn:E; cbn [bind]; [discriminate| |discriminate].
    intros X. injection X as <-. revert E. generalize (Gzero (Suite := S)). generalize (map vss_index cs). intros idx. induction cs as [|c cs IH]; intros g; cbn [ivk_generate_loop]; [discriminate|].
    cbv zeta. destruct (lagrange _ _) as [co|e1|] eqn:El; cbn [bind]; [apply IH| |discriminate]. intros X. injection X as <-. apply (lagrange_err _ _ _ El).
  Qed.
  Lemma binding_err h ss e : compute_binding_factors (S := S) h ss <> Err e.
  Proof. unfold compute_binding_factors. cbv zeta. destruct (commitment_list ss); discriminate. Qed.
  Lemma group_commitment_err ss bf : forall g e, group_commitment_loop (S := S) ss bf g = Err e -> e = InvalidBindingFactor.
  Proof.
    induction ss as [|s ss IH]; intros g e; cbn [group_commitment_loop]; [discriminate|]. unfold binding_factor_for_participant.
    destruct (bget _ bf); cbn [bind]; [apply IH|]. intros X. injection X as <-. reflexivity.
  Qed.
  Lemma sign_err m k h gk l i ss e : fst (sign m k h gk l i ss) = Err e ->
    e = MissingCommitmentShares \/ e = InvalidBindingFactor \/ e = Custom duplicate_text \/ e = IndexIsZero.
  Proof.
    unfold sign. unfold usize_succ at 1. destruct (N.ltb (i + 1) _).
    2:{ destruct m; [discriminate|]. cbn [fst].
        destruct (N.ltb _ _); [cbn [fst]; intros X; injection X as <-; auto|].
        destruct (compute_binding_factors _ _) as [bf|e1|] eqn:E1; [|destruct (binding_err _ _ _ E1)|discriminate].
        destruct (binding_factor_for_participant _ _) as [rho|e2|] eqn:E2; [| |discriminate].
        2:{ cbn [fst]. intros X. injection X as <-. unfold binding_factor_for_participant in E2. destruct (bget _ _); [discriminate|injection E2 as <-]. auto. }
        destruct (compute_group_commitment _ _) as [R|e3|] eqn:E3; [| |discriminate].
        2:{ cbn [fst]. intros X. injection X as <-. right. left. apply (group_commitment_err _ _ _ _ E3). }
        destruct (lagrange _ _) as [la|e4|] eqn:E4; [| |discriminate].
        2:{ cbn [fst]. intros X. injection X as <-. destruct (lagrange_err _ _ _ E4); auto. }
        destruct (nthN _ _); discriminate. }
    destruct (N.ltb _ _); [cbn [fst]; intros X; injection X as <-; auto|].
    destruct (compute_binding_factors _ _) as [bf|e1|] eqn:E1; [|destruct (binding_err _ _ _ E1)|discriminate].
    destruct (binding_factor_for_participant _ _) as [rho|e2|] eqn:E2; [| |discriminate].
    2:{ cbn [fst]. intros X. injection X as <-. unfold binding_factor_for_participant in E2. destruct (bget _ _); [discriminate|injection E2 as <-]. auto. }
    destruct (compute_group_commitment _ _) as [R|e3|] eqn:E3; [| |discriminate].
    2:{ cbn [fst]. intros X. injection X as <-. right. left. apply (group_commitment_err _ _ _ _ E3). }
    destruct (lagrange _ _) as [la|e4|] eqn:E4; [| |discriminate].
    2:{ cbn [fst]. intros X. injection X as <-. destruct (lagrange_err _ _ _ E4); auto. }
    destruct (nthN _ _); discriminate.
  Qed.
  Lemma aggregate_err p gk msg tr a f e : agg_run (agg_new p gk msg) tr a -> finalize a = Ok f -> aggregate f = Err e ->
    (exists l, e = MisbehavingParticipants l) \/ (e = IndexIsZero /\ exists com, first_pair tr u32_zero com).
  Proof.
    intros H HF E. pose proof (holds_run _ _ _ _ _ H) as HH.
    destruct (finalize_inv a f (hs_inc _ _ _ _ _ HH) HF) as (-> & P1 & P2).
    destruct (list_eq_nil_dec (ag_signers (ai_state a))) as [Es|Hne].
    { unfold aggregate in E. cbn [af_state af_hash] in E. rewrite Es in E. discriminate. }
    rewrite aggregate_eq in E; [|exact Hne|exact P1]. cbv zeta in E. cbn [af_state af_hash] in E.
    destruct (is_ok _); [discriminate|]. pose proof (increasing_NoDup _ (hs_inc _ _ _ _ _ HH)) as Hnd.
    destruct (in_dec u32_eq_dec u32_zero (map sg_index (ag_signers (ai_state a)))) as [I|I].
    - rewrite find_bad_zero in E by assumption. injection E as <-. right. split; [reflexivity|].
      apply in_map_iff in I. destruct I as ([j com] & Ej & Ij). cbn [sg_index] in Ej. subst j. exists com. apply (hs_pairs _ _ _ _ _ HH). exact Ij.
    - rewrite find_bad_ok in E; [|split; assumption|auto|exact P1|exact P2]. cbn [bind] in E. injection E as <-. eauto.
  Qed.
End Errors.

(** the errors of every call, function by function *)
Theorem C112_errors_of_each_call :
  forall (S : Suite) (L : SuiteLaws S) (e : Error),
  (forall m n t, params_new m n t = Err e -> e = InvalidThresholdParams) /\
  (forall p i r, new_dealer p i r = Err e \/ new_signer p i r = Err e -> e = IndexIsZero /\ i = u32_zero) /\
  (forall m p x i co ps r, bootstrap m p x i co ps r = Err e \/ dkg_new m p x i ps r = Err e ->
     (e = InvalidNumberOfParticipants (length ps) (p_n p) /\ N.of_nat (length ps) <> u32v (p_n p)) \/
     (exists l, e = TooManyInvalidParticipants l) \/ (e = InvalidThresholdParams /\ u32v (p_t p) = 0%N)) /\
  (forall m p k ps r, reshare m p k ps r = Err e ->
     (e = IndexIsZero /\ sk_index k = u32_zero) \/
     (e = InvalidNumberOfParticipants (length ps) (p_n p) /\ N.of_nat (length ps) <> u32v (p_n p)) \/
     (exists l, e = TooManyInvalidParticipants l)) /\
  (forall s, their_encrypted_secret_shares s = Err e -> e = NoEncryptedShares) /\
  (forall m s es r, to_round_two m s es r = Err e ->
     e = MissingShares \/ e = Custom unknown_sender_text \/ exists cs, e = ComplaintErr cs) /\
  (forall s cs, blame s cs <> Err e) /\
  (forall bs s, from_bytes de_round_two bs = Ok s -> finish s = Err e ->
     e = Custom zero_text \/ e = IndexIsZero \/ (e = InvalidGroupKey /\ ds_comms (st2 s) = None)) /\
  (forall c p, check_degree c p = Err e -> e = InvalidCommitmentLength) /\
  (forall p i P, nizk_verify p i P = Err e -> e = InvalidProofOfKnowledge) /\
  (forall c P, complaint_verify c P = Err e -> e = ComplaintVerificationError) /\
  (forall k cs, ivk_verify k cs = Err e -> e = ShareVerificationError \/ e = Custom quoted_duplicate_text \/ e = Custom zero_text) /\
  (forall i cs, ivk_generate i cs = Err e -> e = Custom duplicate_text \/ e = IndexIsZero) /\
  (forall m k h gk l i ss, fst (sign m k h gk l i ss) = Err e ->
     e = MissingCommitmentShares \/ e = InvalidBindingFactor \/ e = Custom duplicate_text \/ e = IndexIsZero) /\
  (forall a i com pk, fst (include_signer a i com pk) = Err e ->
     (e = IndexMismatch i (vk_index pk) /\ i <> vk_index pk) \/
     exists k, e = TooManySigners k (p_n (ag_params (ai_state a))) /\ (u32v (p_n (ag_params (ai_state a))) < N.of_nat k)%N) /\
  (forall a, finalize a = Err e -> exists i l, e = MisbehavingParticipants (i :: l)) /\
  (forall p gk msg tr a f, agg_run (agg_new p gk msg) tr a -> finalize a = Ok f -> aggregate f = Err e ->
     (exists l, e = MisbehavingParticipants l) \/ (e = IndexIsZero /\ exists com, first_pair tr u32_zero com)) /\
  (forall s gk h, sig_verify s gk h = Err e \/ verify_signature gk s h = Err e -> e = InvalidSignature) /\
  (forall A (d : decoder A) bs, from_bytes d bs = Err e -> e = DeserializationError).
Proof.
  intros S L e. split; [intros m n t H; apply (params_err _ _ _ _ H)|]. split.
  { intros p i r H. assert (X : e = IndexIsZero /\ u32_eqb i u32_zero = true).
    { destruct H as [H|H].
      - unfold new_dealer in H. destruct (new_internal p false i None r) as [[[[d co] x] r']|e'|] eqn:E; cbn [bind] in H; [destruct co; discriminate| |discriminate].
        injection H as <-. split; [apply (new_internal_err _ _ _ _ _ _ E)|]. destruct (u32_eqb i u32_zero) eqn:Ei; [reflexivity|]. exfalso.
        unfold new_internal in E. rewrite Ei in E. cbv zeta in E. destruct (rand_scalar r) as [y r1]. destruct (nizk_prove _ _ _ _) as [pr r2]. destruct (rand_scalar r2) as [a r3].
        destruct (rand_scalars _ _) as [rest r4]. destruct (vss_public_key _); [|discriminate]. destruct (nizk_prove _ _ _ _). discriminate.
      - unfold new_signer in H. destruct (new_internal p true i None r) as [[[[d co] x] r']|e'|] eqn:E; cbn [bind] in H; [discriminate| |discriminate].
        injection H as <-. split; [apply (new_internal_err _ _ _ _ _ _ E)|]. destruct (u32_eqb i u32_zero) eqn:Ei; [reflexivity|]. exfalso.
        unfold new_internal in E. rewrite Ei in E. cbv zeta in E. destruct (rand_scalar r) as [y r1]. destruct (nizk_prove _ _ _ _) as [pr r2]. discriminate. }
    destruct X as [X1 X2]. split; [exact X1|]. apply u32_eqb_spec, X2. }
  split. { intros m p x i co ps r [H|H]; [apply (bootstrap_err _ _ _ _ _ _ _ _ H)|apply (dkg_new_err _ _ _ _ _ _ _ H)]. }
  split; [intros m p k ps r H; apply (reshare_err _ _ _ _ _ _ H)|].
  split. { intros s. unfold their_encrypted_secret_shares. destruct (ds_enc _); [discriminate|]. intros X. injection X as <-. reflexivity. }
  split; [intros m s es r H; apply (round_two_err _ _ _ _ _ H)|].
  split. { intros [st] cs. apply (proj1 (proj2 (C103_blame_panics_exactly S L st cs))). }
  split; [intros bs s Hb H; apply (finish_err _ _ _ Hb H)|].
  split. { intros c p. unfold check_degree. destruct (negb _); [|discriminate]. intros X. injection X as <-. reflexivity. }
  split. { intros p i P. unfold nizk_verify. cbv zeta. destruct (Feqb _ _); [discriminate|]. intros X. injection X as <-. reflexivity. }
  split. { intros c P. unfold complaint_verify. cbv zeta. destruct (negb _); [intros X; injection X as <-; reflexivity|].
    destruct (negb _); [intros X; injection X as <-; reflexivity|discriminate]. }
  split; [intros k cs H; apply (ivk_verify_err _ _ _ H)|]. split; [intros i cs H; apply (ivk_generate_err _ _ _ H)|]. split; [intros m k h gk l i ss H; apply (sign_err _ _ _ _ _ _ _ _ H)|].
  split. { intros a i com pk. unfold include_signer. cbv zeta. destruct (u32_eqb i (vk_index pk)) eqn:Ei; cbn [negb].
    - destruct (N.ltb _ _) eqn:El; cbn [fst]; [|discriminate]. intros X. injection X as <-. right. eexists. split; [reflexivity|]. apply N.ltb_lt, El.
    - cbn [fst]. intros X. injection X as <-. left. split; [reflexivity|]. apply u32_eqb_neq, Ei. }
  split. { intros a. unfold finalize. cbv zeta. destruct (_ ++ _) as [|i l]; [discriminate|]. intros X. injection X as <-. eauto. }
  split; [intros p gk msg tr a f HR HF H; apply (aggregate_err _ _ _ _ _ _ _ HR HF H)|].
  split. { intros s gk h [H|H]; revert H; [unfold sig_verify|unfold verify_signature]; cbv zeta; (destruct (Geqb _ _); [discriminate|]; intros X; injection X as <-; reflexivity). }
  intros A d bs. unfold from_bytes. destruct (d bs) as [[v r]|]; [discriminate|]. intros X. injection X as <-. reflexivity.
Qed.
Print Assumptions C112_errors_of_each_call.

Section Reach.
  Context {S : Suite} {L : SuiteLaws S}.
  Lemma gen_neq_zero : gen <> Gzero.
  Proof.
    intros E. apply F1_neq_0. apply gen_inj. rewrite E, !Gmul_0_l. reflexivity.
  Qed.
  Lemma zero_neq_gen : Gzero <> (gen * F1)%G.
  Proof. rewrite Gzero_gen. intros E. apply gen_inj in E. apply F1_neq_0. symmetry. exact E. Qed.
  Definition idle : Participant := MkPart (u 1) Gzero None None (MkNizk F0 F0).
  Definition any_nonce : Nonce := MkNonce (pad nonce_len []) (pad_length nonce_len []).
  (** a session with one registered dealer, whose commitment is the identity, with the given maps *)
  Definition small (cm : option (bmap Vss)) (sh : option (bmap SecretShare)) : DkgState :=
    MkState (MkParams (u 1) (u 1)) (u 1) F1 gen cm [(u 1, gen)] None sh.
  Lemma real_small : real_state (small None (Some [])).
  Proof.
    split; cbn [small ds_comms ds_dhs ds_enc ds_shares].
    - intros a E. discriminate.
    - split; [|intros k v _; exact I]. constructor; constructor.
    - intros a E. discriminate.
    - intros a E. injection E as <-. split; [constructor|intros k v []].
  Qed.
  (** a share that does not fit the commitment, in a session that tolerates no missing dealer *)
  Lemma small_complains r : exists e cs, to_round_two Debug (R1 (small (Some [(u 1, MkVss (u 1) [])]) None)) [e] r = Err (ComplaintErr cs).
  Proof.
    destruct (encrypt_share_ok (MkShare (u 1) (u 1) F1) (enc_point (gen * F1)%G) r) as (e & r1 & _ & H1 & H2 & H3). cbn [sh_sender sh_receiver] in H1, H2.
    exists e. unfold to_round_two. cbv zeta. cbn [st1 small ds_params ds_index ds_dh_sk ds_dh_pk ds_comms ds_dhs ds_shares p_t p_n]. change (N.ltb _ _) with false. cbv iota.
    cbn [round_two_loop ds_index ds_dhs ds_comms ds_dh_sk]. rewrite H1, H2. change (is_debug Debug && negb (u32_eqb (u 1) (u 1))) with false. cbv iota.
    change (bget (u 1) [(u 1, gen)]) with (Some (gen (Suite := S))). cbv iota zeta. rewrite H3. cbn [find fst snd bad_share]. unfold share_verify, evaluate_hiding. cbv zeta.
    cbn [vss_points length rev hiding_loop sh_value]. change (u32_eqb (u 1) (u 1)) with true.
    assert (Ez : Geqb (gen * F1)%G Gzero = false) by (apply Geqb_neq; intros X; apply zero_neq_gen; symmetry; exact X).
    rewrite Ez. cbn [is_ok negb andb]. destruct (complaint_new _ _ _ _ _) as [c r2]. cbn [app bind length]. eexists. reflexivity.
  Qed.
  Lemma small_refused m r : dkg_new m (MkParams (u 1) (u 1)) F1 (u 1) [idle] r = Err (TooManyInvalidParticipants [u 1]).
  Proof.
    unfold dkg_new, new_state_internal. cbv zeta. change (N.eqb _ _) with true. cbn [negb check_all]. unfold check_one at 1.
    destruct (is_ok _); reflexivity.
  Qed.
End Reach.

(** the errors that occur at all, in every suite: the seven errors about serialization, compression, encryption, multiplication and
    challenges never leave the library, all others do *)
Theorem C112_exactly_these_errors :
  forall (S : Suite) (L : SuiteLaws S) (r : Rng),
  (forall e, returned e -> possible e) /\ (forall e, possible e -> exists e', returned e' /\ alike e e').
Proof.
  intros S L r0. split.
  - intros e H. destruct H as [m n t e H|p i r e H|p i r e H|m p k ps r e H|m p x i co ps r e H|m p x i ps r e H|s e H|m s es r e H|s cs e H|bs s e Hb H|c p e H|p i P e H|c P e H|k cs e H|i cs e H|m k h gk l i ss e H|p gk msg tr a i com pk e HR H|p gk msg tr a e HR H|p gk msg tr a f e HR HF H|s gk h e H|gk s h e H|A d bs e H];
      destruct (C112_errors_of_each_call S L e) as (T1 & T2 & T3 & T4 & T5 & T6 & T7 & T8 & T9 & T10 & T11 & T12 & T13 & T14 & T15 & T16 & T17 & T18 & T19).
    + rewrite (T1 _ _ _ H). exact I.
    + destruct (T2 p i r (or_introl H)) as [-> _]. exact I.
    + destruct (T2 p i r (or_intror H)) as [-> _]. exact I.
    + destruct (T4 _ _ _ _ _ H) as [[-> _]|[[-> X]|[l ->]]]; [exact I|exact X|exact I].
    + destruct (T3 _ _ _ _ _ _ _ (or_introl H)) as [[-> X]|[[l ->]|[-> _]]]; [exact X|exact I|exact I].
    + destruct (T3 m p x i [] ps r (or_intror H)) as [[-> X]|[[l ->]|[-> _]]]; [exact X|exact I|exact I].
    + rewrite (T5 _ H). exact I.
    + destruct (T6 _ _ _ _ H) as [-> |[-> |[l ->]]]; [exact I|right; right; right; left; reflexivity|exact I].
    + destruct (T7 s cs H).
    + destruct (T8 _ _ Hb H) as [-> |[-> |[-> _]]]; [right; right; left; reflexivity|exact I|exact I].
    + rewrite (T9 _ _ H). exact I.
    + rewrite (T10 _ _ _ H). exact I.
    + rewrite (T11 _ _ H). exact I.
    + destruct (T12 _ _ H) as [-> |[-> | ->]]; [exact I|right; left; reflexivity|right; right; left; reflexivity].
    + destruct (T13 _ _ H) as [-> | ->]; [left; reflexivity|exact I].
    + destruct (T14 _ _ _ _ _ _ _ H) as [-> |[-> |[-> | ->]]]; [exact I|exact I|left; reflexivity|exact I].
    + destruct (T15 _ _ _ _ H) as [[-> X]|(n & -> & X)]; exact X.
    + destruct (T16 _ H) as (i & l & ->). exact I.
    + destruct (T17 _ _ _ _ _ _ HR HF H) as [[l ->]|[-> _]]; exact I.
    + rewrite (T18 s gk h (or_introl H)). exact I.
    + rewrite (T18 s gk h (or_intror H)). exact I.
    + rewrite (T19 _ _ _ H). exact I.
  - intros e He.
    assert (one : forall e', returned e' -> alike e e' -> exists e'', returned e'' /\ alike e e'') by eauto.
    destruct e as [| | | | | | | | |a b| | | | | |l|len n| |l|len n| | | | |l| |s]; cbn [possible] in He; try exact (False_ind _ He).
    + refine (one DeserializationError _ _); [|reflexivity]. apply (ret_from_bytes Params de_params []). reflexivity.
    + refine (one ShareVerificationError _ _); [|reflexivity]. apply (ret_ivk_verify (MkVK (u 1) gen) []). unfold ivk_verify. cbn [map ivk_verify_loop bind vk_share].
      rewrite (proj2 (Geqb_neq gen Gzero) gen_neq_zero). reflexivity.
    + refine (one ComplaintVerificationError _ _); [|reflexivity].
      apply (ret_complaint (MkComplaint Gzero Gzero (MkEnc (u 1) (u 1) any_nonce []) (MkCProof Gzero Gzero F1)) Gzero).
      unfold complaint_verify. cbv zeta. cbn [c_proof c_pk c_shared c_share cp_a1 cp_a2 cp_z]. rewrite Gmul_0_l, Gadd_0_l, (proj2 (Geqb_neq Gzero _) zero_neq_gen). reflexivity.
    + refine (one IndexIsZero _ _); [|reflexivity]. apply (ret_signer (MkParams (u 1) (u 1)) u32_zero r0). reflexivity.
    + refine (one (IndexMismatch a b) _ _); [|reflexivity].
      apply (ret_include (MkParams (u 1) (u 1)) gen [] [] (agg_new (MkParams (u 1) (u 1)) gen []) a (gen, gen) (MkVK b gen)); [constructor|].
      unfold include_signer. cbv zeta. cbn [vk_index]. rewrite (proj2 (u32_eqb_neq a b) He). reflexivity.
    + refine (one InvalidGroupKey _ _); [|reflexivity]. destruct (proj2 (C54_dkg_states_round_trip S L) (R2 (small None (Some []))) real_small) as (b & _ & Hb & _).
      apply (ret_finish (b ++ []) (R2 (small None (Some []))) _ (Hb [])). reflexivity.
    + refine (one InvalidProofOfKnowledge _ _); [|reflexivity].
      destruct (F_dec (h0 (nizk_message (u 1) Gzero (gen * F0)%G)) F0) as [Eh|Eh].
      * apply (ret_nizk (MkNizk F1 F0) (u 1) Gzero). unfold nizk_verify. cbv zeta. cbn [nz_r nz_s]. rewrite Gmul_0_l, Gadd_0_r, Eh, (proj2 (Feqb_neq F1 F0) F1_neq_0). reflexivity.
      * apply (ret_nizk (MkNizk F0 F0) (u 1) Gzero). unfold nizk_verify. cbv zeta. cbn [nz_r nz_s]. rewrite Gmul_0_l, Gadd_0_r, (proj2 (Feqb_neq F0 _) (fun X => Eh (eq_sym X))). reflexivity.
    + refine (one InvalidCommitmentLength _ _); [|reflexivity]. apply (ret_degree (MkVss (u 1) []) (MkParams (u 1) (u 1))). reflexivity.
    + refine (one MissingShares _ _); [|reflexivity]. apply (ret_round_two Debug (R1 (small (Some []) None)) [] r0). reflexivity.
    + refine (one NoEncryptedShares _ _); [|reflexivity]. apply (ret_shares (R1 (small (Some []) None))). reflexivity.
    + destruct (small_complains r0) as (e & cs & E). refine (one (ComplaintErr cs) _ _); [|exact I]. apply (ret_round_two _ _ _ _ _ E).
    + refine (one (InvalidNumberOfParticipants len n) _ _); [|reflexivity].
      apply (ret_new Debug (MkParams n (u 1)) F1 (u 1) (repeat idle len) r0).
      rewrite <- (repeat_length idle len) at 2. apply (C13_count_mismatch S Debug (MkParams n (u 1)) F1 (u 1) [] (repeat idle len) r0).
      rewrite repeat_length. exact He.
    + refine (one (TooManyInvalidParticipants [u 1]) _ _); [|exact I]. apply (ret_new Debug (MkParams (u 1) (u 1)) F1 (u 1) [idle] r0).
      apply small_refused.
    + refine (one (TooManySigners 1 (u 0)) _ _); [|exact I].
      apply (ret_include (MkParams (u 0) (u 0)) gen [] [] (agg_new (MkParams (u 0) (u 0)) gen []) (u 1) (gen, gen) (MkVK (u 1) gen)); [constructor|reflexivity].
    + refine (one MissingCommitmentShares _ _); [|reflexivity]. apply (ret_sign Debug (MkSK (u 1) F1) [] gen (MkSecList []) 0%N []). reflexivity.
    + refine (one InvalidBindingFactor _ _); [|reflexivity].
      apply (ret_sign Debug (MkSK (u 1) F1) [] gen (MkSecList [commitment_share F1 F1]) 0%N [MkSigner (u 2) (gen, gen)]). reflexivity.
    + refine (one InvalidSignature _ _); [|reflexivity]. apply (ret_sig_verify (MkTSig Gzero F1) Gzero []).
      unfold sig_verify. cbv zeta. cbn [ts_R ts_z].
      replace ((- Gzero) * compute_challenge Gzero Gzero [])%G with (Gzero (Suite := S)).
      2:{ rewrite <- (Gadd_0_l (- Gzero)%G), Gadd_opp_r, Gmul_0_l. reflexivity. }
      rewrite Gadd_0_r, (proj2 (Geqb_neq Gzero _) zero_neq_gen). reflexivity.
    + refine (one (MisbehavingParticipants [u 0; u 1]) _ _); [|exact I].
      destruct (include_signer (agg_new (MkParams (u 1) (u 1)) gen []) (u 1) (gen, gen) (MkVK (u 1) gen)) as [o a] eqn:Ea.
      apply (ret_finalize (MkParams (u 1) (u 1)) gen [] [(CInc (u 1) (gen, gen) (MkVK (u 1) gen), o)] a); [apply (ag_inc _ _ _ _ _ _ _ _ Ea); constructor|].
      assert (X : a = snd (include_signer (agg_new (MkParams (u 1) (u 1)) gen []) (u 1) (gen, gen) (MkVK (u 1) gen))) by (rewrite Ea; reflexivity).
      rewrite X. reflexivity.
    + refine (one InvalidThresholdParams _ _); [|reflexivity]. apply (ret_params Release (u 0) (u 0)). reflexivity.
    + destruct He as [<-|[<-|[<-|[<-|[]]]]].
      * refine (one (Custom duplicate_text) _ _); [|reflexivity]. apply (ret_ivk_generate (u 1) [MkVss (u 1) []; MkVss (u 1) []]). reflexivity.
      * refine (one (Custom quoted_duplicate_text) _ _); [|reflexivity]. apply (ret_ivk_verify (MkVK (u 1) gen) [MkVss (u 1) []; MkVss (u 1) []]). reflexivity.
      * refine (one (Custom zero_text) _ _); [|reflexivity]. apply (ret_ivk_verify (MkVK (u 1) gen) [MkVss u32_zero []]). reflexivity.
      * refine (one (Custom unknown_sender_text) _ _); [|reflexivity]. apply (ret_round_two Debug (R1 (small (Some []) None)) [MkEnc (u 2) (u 1) any_nonce []] r0). reflexivity.
Qed.
Print Assumptions C112_exactly_these_errors.

(** one faulty list of commitments, two different errors; and three further errors on concrete inputs *)
Example C112_ex :
  (ivk_verify (S := Toy) (MkVK (u 3) toy_gen) [@MkVss Toy (u 0) [toy_gen]; @MkVss Toy (u 2) [toy_gen]] = Err (Custom zero_text) /\
   ivk_generate (S := Toy) (u 3) [@MkVss Toy (u 0) [toy_gen]; @MkVss Toy (u 2) [toy_gen]] = Err IndexIsZero) /\
  (ivk_verify (S := Toy) (MkVK (u 3) toy_gen) [@MkVss Toy (u 2) [toy_gen]; @MkVss Toy (u 2) [toy_gen]] = Err (Custom quoted_duplicate_text) /\
   ivk_generate (S := Toy) (u 3) [@MkVss Toy (u 2) [toy_gen]; @MkVss Toy (u 2) [toy_gen]] = Err (Custom duplicate_text)) /\
  new_dealer (S := Toy) (MkParams (u 3) (u 2)) (u 0) 7%N = Err IndexIsZero /\
  bootstrap (S := Toy) Release (MkParams (u 0) (u 0)) (mk 3) (u 1) [mk 4] [] 7%N = Err InvalidThresholdParams /\
  fst (sign (S := Toy) Debug (MkSK (u 1) (mk 5)) [] toy_gen (MkSecList [commitment_share (S := Toy) (mk 3) (mk 4)]) 0%N
        [@MkSigner Toy (u 1) (toy_gen, toy_gen); @MkSigner Toy (u 0) (toy_gen, toy_gen)]) = Err IndexIsZero.
Proof. vms. Qed.
Print Assumptions C112_ex.
