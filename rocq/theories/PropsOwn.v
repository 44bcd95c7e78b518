(** Property C136: to which keys and messages a signature belongs, and what signatures sharing a commitment give away. *)
From Coq Require Import String Strings.Byte Arith NArith ZArith Bool List Lia Field.
From Verif Require Import Base Suite Spec SpecDkg SpecSign Types ModelDkg ModelSign Algebra BaseLemmas LemmasShare LemmasFinish LemmasSign
  Toy Demo DemoSign PropsSign.
Import ListNotations.

Section Own.
  Context {S : Suite} {L : SuiteLaws S}.
  Add Field F_fld : F_field.

  Lemma own_eq gk sig h : verify_signature gk sig h = Ok tt <-> (gen * ts_z sig)%G = (ts_R sig + gk * chal (ts_R sig) gk h)%G.
  Proof.
    destruct (C36_verification_is_schnorr S L gk sig h) as (E & H & _). rewrite E, H. reflexivity.
  Qed.
  Lemma own_dlog x r z h : verify_signature (gen * x)%G (MkTSig (gen * r)%G z) h = Ok tt <->
    z = (r + x * chal (gen * r)%G (gen * x)%G h)%F.
  Proof.
    rewrite own_eq. cbn [ts_R ts_z]. rewrite Gmul_mul, gen_mul_add, gen_mul_iff. reflexivity.
  Qed.
  Lemma Gmul_eq_cases P a b : (P * a = P * b)%G <-> P = Gzero \/ a = b.
  Proof.
    split.
    - intros H. destruct (gen_span P) as [x ->]. rewrite !Gmul_mul in H. apply gen_inj in H.
      destruct (F_dec x F0) as [->|Hx]; [left; apply gen_mul_0|right; exact (Fmul_cancel_l _ _ _ Hx H)].
    - intros [->| ->]; [rewrite !Gmul_0_l|]; reflexivity.
  Qed.
  Lemma own_div x y c c' : c <> F0 -> (y * c' = x * c)%F -> x = (y * c' * Finv c)%F.
  Proof. intros Hc E. rewrite E. field. exact Hc. Qed.
  Lemma own_two r x c c' : c <> c' -> x = (((r + x * c) - (r + x * c')) * Finv (c - c'))%F.
  Proof. intros Hc. field. intros X. apply Hc. apply Fsub_0. exact X. Qed.
  Lemma own_tie r x x' c c' : c <> F0 -> x = (((r + x * c) - (r + x' * c') + x' * c') * Finv c)%F.
  Proof. intros Hc. field. exact Hc. Qed.
End Own.

(** A signature accepted under one key for one message hash is accepted under another key for another one exactly when the two
    keys, each times its challenge, are the same point. *)
Theorem C136_accepted_under_another_key :
  forall (S : Suite) (L : SuiteLaws S) (gk gk' : G) (sig : ThresholdSig) (h h' : list byte),
    verify_signature gk sig h = Ok tt ->
    (verify_signature gk' sig h' = Ok tt <-> (gk' * chal (ts_R sig) gk' h')%G = (gk * chal (ts_R sig) gk h)%G).
Proof.
  intros S L gk gk' sig h h' H. apply own_eq in H. rewrite own_eq, H. split; [|intros ->; reflexivity].
  intros E. symmetry. exact (Gadd_cancel_l _ _ _ E).
Qed.
Print Assumptions C136_accepted_under_another_key.

(** Under the same key it is accepted for another message hash exactly when the key is the identity or the two challenges are equal. *)
Theorem C136_accepted_for_another_message :
  forall (S : Suite) (L : SuiteLaws S) (gk : G) (sig : ThresholdSig) (h h' : list byte),
    verify_signature gk sig h = Ok tt ->
    (verify_signature gk sig h' = Ok tt <->
       gk = Gzero \/ h2 (enc_point (ts_R sig) ++ enc_point gk ++ h') = h2 (enc_point (ts_R sig) ++ enc_point gk ++ h)).
Proof.
  intros S L gk sig h h' H. rewrite (C136_accepted_under_another_key S L gk gk sig h h' H). apply Gmul_eq_cases.
Qed.
Print Assumptions C136_accepted_for_another_message.

(** Who knows the secret of a second key under which a signature is accepted as well knows the secret of the first one, unless the
    first challenge is zero. *)
Theorem C136_a_second_owner_knows_the_first_secret :
  forall (S : Suite) (L : SuiteLaws S) (gk : G) (x' : F) (sig : ThresholdSig) (h h' : list byte),
    verify_signature gk sig h = Ok tt -> verify_signature (gen * x')%G sig h' = Ok tt ->
    let c := chal (ts_R sig) gk h in
    let c' := chal (ts_R sig) (gen * x')%G h' in
    c <> F0 -> gk = (gen * (x' * c' * Finv c)%F)%G.
Proof.
  intros S L gk x' sig h h' H H' c c' Hc.
  apply (C136_accepted_under_another_key S L gk (gen * x')%G sig h h' H) in H'. fold c c' in H'.
  destruct (gen_span gk) as [x Ex]. rewrite Ex in H'. rewrite !Gmul_mul in H'. apply gen_inj in H'. rewrite Ex. f_equal. exact (own_div _ _ _ _ Hc H').
Qed.
Print Assumptions C136_a_second_owner_knows_the_first_secret.

(** Moving a signature to a key shifted by a known amount, by shifting its second half accordingly, works exactly when the challenge
    stays the same or the first key is the identity. *)
Theorem C136_shifted_keys :
  forall (S : Suite) (L : SuiteLaws S) (gk : G) (d : F) (R : G) (z : F) (h h' : list byte),
    verify_signature gk (MkTSig R z) h = Ok tt ->
    let gk' := (gk + gen * d)%G in
    (verify_signature gk' (MkTSig R (z + d * chal R gk' h')%F) h' = Ok tt <-> gk = Gzero \/ chal R gk' h' = chal R gk h).
Proof.
  intros S L gk d R z h h' H gk'.
  apply own_eq in H. cbn [ts_R ts_z] in H. rewrite own_eq. cbn [ts_R ts_z]. rewrite <- gen_mul_add, H.
  set (c' := chal R gk' h'). set (c := chal R gk h). unfold gk'. rewrite Gmul_add_l, Gmul_mul, <- Gmul_eq_cases. split.
  - intros E. rewrite <- Gadd_assoc in E. apply Gadd_cancel_l in E. rewrite (Gadd_comm (gk * c)%G), (Gadd_comm (gk * c')%G) in E.
    apply Gadd_cancel_l in E. symmetry. exact E.
  - intros ->. rewrite <- Gadd_assoc. reflexivity.
Qed.
Print Assumptions C136_shifted_keys.

(** Two accepted signatures with the same first half and different challenges reveal the secret of the group key. *)
Theorem C136_one_commitment_two_challenges_reveal_the_key :
  forall (S : Suite) (L : SuiteLaws S) (gk R : G) (z z' : F) (h h' : list byte),
    verify_signature gk (MkTSig R z) h = Ok tt -> verify_signature gk (MkTSig R z') h' = Ok tt ->
    let c := chal R gk h in
    let c' := chal R gk h' in
    c <> c' -> gk = (gen * ((z - z') * Finv (c - c'))%F)%G.
Proof.
  intros S L gk R z z' h h' H H' c c' Hc.
  destruct (gen_span gk) as [x Ex]. destruct (gen_span R) as [r Er].
  assert (E : z = (r + x * c)%F).
  { unfold c. rewrite Ex, Er. apply own_dlog. rewrite <- Ex, <- Er. exact H. }
  assert (E' : z' = (r + x * c')%F).
  { unfold c'. rewrite Ex, Er. apply own_dlog. rewrite <- Ex, <- Er. exact H'. }
  rewrite Ex at 1. f_equal. rewrite E, E'. apply own_two, Hc.
Qed.
Print Assumptions C136_one_commitment_two_challenges_reveal_the_key.

(** Two accepted signatures with the same first half under two keys: the secret of either key is computed from the other's. *)
Theorem C136_one_commitment_two_keys_tie_their_secrets :
  forall (S : Suite) (L : SuiteLaws S) (gk R : G) (x' z z' : F) (h h' : list byte),
    verify_signature gk (MkTSig R z) h = Ok tt -> verify_signature (gen * x')%G (MkTSig R z') h' = Ok tt ->
    let c := chal R gk h in
    let c' := chal R (gen * x')%G h' in
    c <> F0 -> gk = (gen * ((z - z' + x' * c') * Finv c)%F)%G.
Proof.
  intros S L gk R x' z z' h h' H H' c c' Hc.
  destruct (gen_span gk) as [x Ex]. destruct (gen_span R) as [r Er].
  assert (E : z = (r + x * c)%F).
  { unfold c. rewrite Ex, Er. apply own_dlog. rewrite <- Ex, <- Er. exact H. }
  assert (E' : z' = (r + x' * c')%F).
  { unfold c'. rewrite Er. apply own_dlog. rewrite <- Er. exact H'. }
  rewrite Ex at 1. f_equal. rewrite E, E'. apply own_tie, Hc.
Qed.
Print Assumptions C136_one_commitment_two_keys_tie_their_secrets.

(** * Examples *)
Definition own_R : G := (toy_gen * mk 5)%G.
Definition own_z (h : list byte) : F := (mk 5 + mk 1000 * chal own_R sgroup h)%F.

(** a signature accepted for one message hash, refused for another one and under another key *)
Example C136_ex_owner :
  verify_signature sgroup (MkTSig own_R (own_z shash)) shash = Ok tt /\
  verify_signature sgroup (MkTSig own_R (own_z shash)) (x00 :: shash) = Err InvalidSignature /\
  verify_signature (toy_gen * mk 1001)%G (MkTSig own_R (own_z shash)) shash = Err InvalidSignature.
Proof. vms. Qed.

(** under the identity one signature is accepted for two messages *)
Example C136_ex_identity :
  verify_signature (toy_gen * mk 0)%G (MkTSig own_R (mk 5)) shash = Ok tt /\
  verify_signature (toy_gen * mk 0)%G (MkTSig own_R (mk 5)) (x00 :: shash) = Ok tt.
Proof. vms. Qed.

(** the secret from two signatures with one commitment *)
Example C136_ex_secret :
  let h' := x00 :: shash in
  let c := chal own_R sgroup shash in
  let c' := chal own_R sgroup h' in
  verify_signature sgroup (MkTSig own_R (own_z shash)) shash = Ok tt /\ verify_signature sgroup (MkTSig own_R (own_z h')) h' = Ok tt /\
  Feqb c c' = false /\ ((own_z shash - own_z h') * Finv (c - c'))%F = mk 1000.
Proof. vms. Qed.

(** moving the signature to a shifted key fails here *)
Example C136_ex_shift :
  let gk' := (sgroup + toy_gen * mk 7)%G in
  verify_signature gk' (MkTSig own_R (own_z shash + mk 7 * chal own_R gk' shash)%F) shash = Err InvalidSignature.
Proof. vms. Qed.
