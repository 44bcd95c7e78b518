(** C120: a hash output type of another length than the digest. *)
From Coq Require Import String Strings.Byte Arith NArith ZArith Bool List Lia Permutation.
From Verif Require Import Base Suite Spec SpecDkg SpecSign Types BaseLemmas ModelDkg ModelSign ModelHash ModelDoc Toy Demo DemoDkg.
Import ListNotations.

Section Length.
  Context {S : Suite}.
  Hypothesis fit : forall m, length (inner_digest m) = hash_len.
  Lemma fit_array c m : hash_to_array c m = Ok (inner_digest (c ++ m)).
  Proof. unfold hash_to_array. rewrite fit, Nat.eqb_refl. reflexivity. Qed.
  Lemma fit_binding mh ss : call_binding_factors mh ss = compute_binding_factors mh ss.
  Proof.
    unfold call_binding_factors, compute_binding_factors, call_h4, call_h5. rewrite fit_array. cbn [bind].
    destruct (encode_group_commitment_list (commitment_list ss)) as [enc| |]; cbn [bind]; [|reflexivity|reflexivity].
    rewrite fit_array. reflexivity.
  Qed.
  Lemma fit_commitment i mh ss : call_commitment_for_participant i mh ss = commitment_for_participant i mh ss.
  Proof.
    unfold call_commitment_for_participant, commitment_for_participant, call_h4, call_h5. rewrite fit_array. cbn [bind].
    destruct (pair_of i ss (Gzero, Gzero)) as [a b].
    destruct (encode_group_commitment_list (commitment_list ss)) as [enc| |]; cbn [bind]; [|reflexivity|reflexivity].
    rewrite fit_array. reflexivity.
  Qed.
  Lemma fit_bad st mh c idx ss : forall mis, call_find_bad st mh c idx ss mis = find_bad st mh c idx ss mis.
  Proof.
    induction ss as [|s ss IH]; intros mis; cbn [call_find_bad find_bad]; [reflexivity|].
    destruct (lagrange (sg_index s) idx); cbn [bind]; [|reflexivity|reflexivity].
    destruct (bget (sg_index s) (ag_partials st)); [|reflexivity]. destruct (bget (sg_index s) (ag_keys st)); [|reflexivity].
    rewrite fit_commitment. destruct (commitment_for_participant _ _ _); cbn [bind]; [|reflexivity|reflexivity]. apply IH.
  Qed.
End Length.

(** with matching lengths, the calls are those of the other theorems *)
Theorem C120_matching_lengths_are_never_noticed :
  forall (S : Suite), (forall m, length (inner_digest m) = hash_len) ->
  (forall m k h gk l i ss, call_sign m k h gk l i ss = sign m k h gk l i ss) /\
  (forall a, call_finalize a = finalize a) /\ (forall f, call_aggregate f = aggregate f) /\
  (forall msg, call_h4 msg = Ok (h4 msg)) /\ (forall msg, call_h5 msg = Ok (h5 msg)).
Proof.
  intros S fit. split; [|split; [|split; [|split]]].
  - intros m k h gk l i ss. unfold call_sign, sign. rewrite (fit_binding fit).
    destruct (usize_succ m i); [|reflexivity|reflexivity]. destruct (N.ltb _ _); [reflexivity|].
    destruct (compute_binding_factors h ss) as [bf| |]; cbn [bind]; [|reflexivity|reflexivity].
    destruct (binding_factor_for_participant (sk_index k) bf); cbn [bind]; [|reflexivity|reflexivity].
    destruct (compute_group_commitment ss bf); cbn [bind]; [|reflexivity|reflexivity].
    destruct (lagrange (sk_index k) (map sg_index ss)); cbn [bind]; [|reflexivity|reflexivity].
    destruct (nthN (sl_commitments l) i); reflexivity.
  - intros a. unfold call_finalize, finalize, call_h4. rewrite (fit_array fit). cbn [bind]. reflexivity.
  - intros f. unfold call_aggregate, aggregate. rewrite (fit_binding fit).
    destruct (compute_binding_factors _ _) as [bf| |]; cbn [bind]; [|reflexivity|reflexivity].
    destruct (compute_group_commitment _ _); cbn [bind]; [|reflexivity|reflexivity].
    destruct (sum_partials _ _ _); cbn [bind]; [|reflexivity|reflexivity].
    destruct (is_ok _); [reflexivity|]. rewrite (fit_bad fit). reflexivity.
  - intros msg. apply (fit_array fit).
  - intros msg. apply (fit_array fit).
Qed.
Print Assumptions C120_matching_lengths_are_never_noticed.

(** with another length no message can be hashed, no call of sign gives a signature, and an aggregator with everything it
    needs panics in finalize.  The nonces stay in the list *)
Theorem C120_other_lengths_stop_every_signature :
  forall (S : Suite), (forall m, length (inner_digest m) <> hash_len) ->
  (forall msg, call_h4 msg = Panic /\ call_h5 msg = Panic) /\
  (forall m k h gk l i ss, (i < 2 ^ 64)%N ->
     call_sign m k h gk l i ss =
       ((if N.ltb (i + 1) (2 ^ 64) then
           if N.leb (i + 1) (N.of_nat (length (sl_commitments l))) then Panic else Err MissingCommitmentShares
         else Panic), l)) /\
  (forall a e, call_finalize a = Err e <-> finalize a = Err e) /\
  (forall a, call_finalize a = Panic <-> exists f, finalize a = Ok f) /\
  (forall f, call_aggregate f = Panic).
Proof.
  intros S no.
  assert (A : forall c m, hash_to_array c m = Panic).
  { intros c m. unfold hash_to_array. rewrite (proj2 (Nat.eqb_neq _ _) (no (c ++ m))). reflexivity. }
  assert (B : forall mh ss, call_binding_factors mh ss = Panic).
  { intros mh ss. unfold call_binding_factors, call_h4. rewrite A. reflexivity. }
  split; [intros msg; split; apply A|]. split; [|split; [|split]].
  - intros m k h gk l i ss Hi. unfold call_sign. rewrite B. cbn [bind]. unfold usize_succ.
    change 18446744073709551616%N with (2 ^ 64)%N.
    destruct (N.ltb_spec (i + 1) (2 ^ 64)) as [Hl|Hl].
    + destruct (N.ltb_spec (N.of_nat (length (sl_commitments l))) (i + 1)), (N.leb_spec (i + 1) (N.of_nat (length (sl_commitments l)))); try lia; reflexivity.
    + destruct m; [reflexivity|].
      assert (E : (i + 1 = 2 ^ 64)%N) by lia. rewrite E, N.mod_same by discriminate.
      destruct (N.ltb_spec (N.of_nat (length (sl_commitments l))) 0); [lia|reflexivity].
  - intros a e. unfold call_finalize, finalize, call_h4. rewrite A. cbn [bind]. destruct (_ ++ _); split; intros H; congruence.
  - intros a. unfold call_finalize, finalize, call_h4. rewrite A. cbn [bind]. destruct (_ ++ _); split; intros H; try congruence; eauto.
    destruct H as [f H]. discriminate.
  - intros f. unfold call_aggregate. rewrite B. reflexivity.
Qed.
Print Assumptions C120_other_lengths_stop_every_signature.

(** the toy suite with a digest of one byte more: the documented key generation succeeds, the precomputation too; then the
    message cannot be hashed and signing panics *)
Definition longer (S : Suite) : Suite := {|
  F := @F S; F0 := @F0 S; F1 := @F1 S; Fadd := @Fadd S; Fsub := @Fsub S; Fmul := @Fmul S; Fopp := @Fopp S; Finv := @Finv S;
  Feqb := @Feqb S; of_u32 := @of_u32 S; G := @G S; Gzero := @Gzero S; Gadd := @Gadd S; Gopp := @Gopp S; Gmul := @Gmul S;
  gen := @gen S; Geqb := @Geqb S; enc_scalar := @enc_scalar S; dec_scalar := @dec_scalar S; enc_point := @enc_point S;
  dec_point := @dec_point S; context_string := @context_string S; inner_h2f := @inner_h2f S; sha256_h2f := @sha256_h2f S;
  inner_digest := fun m => x00 :: @inner_digest S m; hash_len := @hash_len S; hkdf := @hkdf S; nonce_len := @nonce_len S;
  aead_enc := @aead_enc S; aead_dec := @aead_dec S; Rng := @Rng S; rand_scalar := @rand_scalar S; rand_bytes := @rand_bytes S |}.
Lemma longer_misfits : forall m, length (@inner_digest (longer Toy) m) <> @hash_len (longer Toy).
Proof.
  intros m. change (Datatypes.S (length (@inner_digest Toy m)) <> @hash_len Toy). rewrite (@inner_digest_len Toy ToyLaws). apply Nat.neq_succ_diag_l.
Qed.
Definition panics {E A} (r : res E A) : bool := match r with Panic => true | _ => false end.
Definition keys_of {S : Suite} (r : result (Params * list Participant * list (G * SigningKey) * Rng)) : list (G * SigningKey) :=
  match r with Ok (_, _, outs, _) => outs | _ => [] end.
Definition long_keys : list (@G (longer Toy) * @SigningKey (longer Toy)) :=
  @keys_of (longer Toy) (@doc_generation (longer Toy) Debug (u 3) (u 2) [u 1; u 2; u 3] 5%N).
(** for each key: the number of nonce pairs before and after the call of sign, and whether h4 and sign panic *)
Definition long_views : list (nat * nat * bool * bool) :=
  map (fun o => let '(_, sec, _) := @generate_commitment_share_lists (longer Toy) 9%N (snd o) 2 in
                let pub := @MkSigner (longer Toy) (@sk_index (longer Toy) (snd o)) (@gen (longer Toy), @gen (longer Toy)) in
                let '(q, l) := @call_sign (longer Toy) Debug (snd o) [x68] (fst o) sec 0 [pub] in
                (length (@sl_commitments (longer Toy) sec), length (@sl_commitments (longer Toy) l), panics (@call_h4 (longer Toy) [x68]), panics q))
      long_keys.
Example C120_ex : long_views = repeat (2, 2, true, true) 3.
Proof. vmr. Qed.
