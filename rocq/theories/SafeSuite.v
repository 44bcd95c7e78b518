(** A second concrete ciphersuite satisfying all laws of [SuiteLaws]: the group of the integers modulo the safe prime 8589935363 = 2q+1, up to
    sign, written additively in the model; scalars modulo the prime q = 4294967681. Unlike in Toy.v, multiplying a point by a scalar is a
    modular power and points are not scalars. Hashing, encryption and the generator are those of Toy.v, taken modulo q. It models no part of /repo
    (the crate is generic in the suite, src/ciphersuite.rs 19-39) and has no cryptographic strength. *)
From Coq Require Import String Strings.Byte NArith ZArith Znumtheory Zpow_facts Bool List Lia Field_theory.
From Verif Require Import Base Suite Toy SafeField Spec SpecDkg SpecSign Types ModelDkg ModelSign ModelDoc Demo PropsDoc.
Import ListNotations.
Local Open Scope Z_scope.

Definition Q : Z := 4294967681.
Definition QQ : Z := 8589935363.
Lemma Q_prime : prime Q.
Proof.
  apply (prime_by_trial Q (Z.to_nat 10924)); [reflexivity|discriminate|discriminate|vm_compute; reflexivity|].
  rewrite Z2Nat.id by lia. reflexivity.
Qed.
Lemma QQ_prime : prime QQ.
Proof.
  apply (prime_by_trial QQ (Z.to_nat 15447)); [reflexivity|discriminate|discriminate|vm_compute; reflexivity|].
  rewrite Z2Nat.id by lia. reflexivity.
Qed.
Definition Q0 : zrange Q 0 = true := eq_refl.
Definition Q1 : grange Q 1 = true := eq_refl.

Definition sf (z : Z) : Zq Q := zmk Q Q0 z.
Definition sp (z : Z) : Gq Q := gmk Q QQ Q1 z.
Definition safe_gen : Gq Q := @MkGq Q 2 eq_refl.
Definition safe_mul (P : Gq Q) (a : Zq Q) : Gq Q := gexp Q QQ Q1 P (zv a).

Definition safe_enc_scalar (x : Zq Q) : list byte := le_bytes 5 (Z.to_N (zv x)).
Definition safe_dec_scalar (l : list byte) : option (Zq Q * list byte) :=
  if Nat.ltb (List.length l) 5 then None
  else let v := Z.of_N (le_value (firstn 5 l)) in if v <? Q then Some (sf v, skipn 5 l) else None.
Definition safe_enc_point (P : Gq Q) : list byte := x03 :: le_bytes 5 (Z.to_N (gv P)).
Definition safe_dec_point (l : list byte) : option (Gq Q * list byte) :=
  match l with
  | x03 :: l' =>
      if Nat.ltb (List.length l') 5 then None
      else let v := Z.of_N (le_value (firstn 5 l')) in if grange Q v then Some (sp v, skipn 5 l') else None
  | _ => None
  end.
Definition safe_rand (s : N) : Zq Q * N := (sf (Z.of_N (N.shiftr (toy_next s) 20)), toy_next s).

Definition Safe : Suite := {|
  F := Zq Q; F0 := sf 0; F1 := sf 1; Fadd := zadd Q Q0; Fsub := zsub Q Q0; Fmul := zmul Q Q0; Fopp := zopp Q Q0;
  Finv := zinv Q Q0; Feqb := zeqb Q; of_u32 := fun i => sf (Z.of_N (u32v i));
  G := Gq Q; Gzero := gone Q Q1; Gadd := gadd Q QQ Q1; Gopp := gopp Q QQ Q1; Gmul := safe_mul; gen := safe_gen; Geqb := geqb Q;
  enc_scalar := safe_enc_scalar; dec_scalar := safe_dec_scalar; enc_point := safe_enc_point; dec_point := safe_dec_point;
  context_string := bytes_of_string "SAFE";
  inner_h2f := fun dst msg => sf (toy_mix Q (dst ++ x00 :: msg) 17); sha256_h2f := fun dst msg => sf (toy_mix Q (dst ++ x01 :: msg) 23);
  inner_digest := toy_digest; hash_len := 8;
  hkdf := toy_hkdf; nonce_len := 12; aead_enc := toy_aead_enc; aead_dec := toy_aead_dec;
  Rng := N; rand_scalar := safe_rand; rand_bytes := toy_rand_bytes
|}.

Lemma safe_scalar_dec x r : safe_dec_scalar (safe_enc_scalar x ++ r) = Some (x, r).
Proof.
  unfold safe_dec_scalar, safe_enc_scalar. pose proof (zv_bound Q x) as Hb.
  assert (L : List.length (le_bytes 5 (Z.to_N (zv x))) = 5%nat) by apply le_bytes_length.
  rewrite app_length, L. change (Nat.ltb (5 + List.length r) 5) with false. cbv iota.
  rewrite (firstn_exact 5 _ r L), (skipn_exact 5 _ r L), le_value_bytes.
  - rewrite Z2N.id by lia. destruct (Z.ltb_spec (zv x) Q); [|lia]. repeat f_equal. apply zmk_zv.
  - change (256 ^ N.of_nat 5)%N with 1099511627776%N. unfold Q in *. lia.
Qed.
Lemma sp_gv P : sp (gv P) = P.
Proof.
  apply gq_eq. pose proof (gv_bound Q P) as Hb. unfold sp.
  assert (E : gv P mod QQ = gv P) by (apply Z.mod_small; unfold Q, QQ in *; lia).
  rewrite (gv_gmk Q QQ Q1 eq_refl) by (rewrite E; lia). unfold sign_fold. cbv zeta. rewrite E. destruct (Z.leb_spec (gv P) Q); lia.
Qed.
Lemma safe_point_dec P r : safe_dec_point (safe_enc_point P ++ r) = Some (P, r).
Proof.
  unfold safe_dec_point, safe_enc_point. cbn [app]. pose proof (gv_bound Q P) as Hb.
  assert (L : List.length (le_bytes 5 (Z.to_N (gv P))) = 5%nat) by apply le_bytes_length.
  rewrite app_length, L. change (Nat.ltb (5 + List.length r) 5) with false. cbv iota.
  rewrite (firstn_exact 5 _ r L), (skipn_exact 5 _ r L), le_value_bytes.
  - rewrite Z2N.id by lia. rewrite (gok P), sp_gv. reflexivity.
  - change (256 ^ N.of_nat 5)%N with 1099511627776%N. unfold Q in *. lia.
Qed.

#[export] Instance SafeLaws : SuiteLaws Safe.
Proof.
  pose proof Q_prime as HQ. pose proof QQ_prime as HQQ. assert (HE : QQ = 2 * Q + 1) by reflexivity.
  constructor; cbn [F F0 F1 Fadd Fsub Fmul Fopp Finv Feqb of_u32 G Gzero Gadd Gopp Gmul gen Geqb
    enc_scalar dec_scalar enc_point dec_point inner_digest hash_len aead_enc aead_dec nonce_len rand_bytes Safe].
  - exact (zq_field Q Q0 HQ eq_refl).
  - exact (zeqb_spec Q).
  - intros i j H. apply u32_val_inj. apply (f_equal zv) in H. unfold sf in H. rewrite !zv_zmk in H.
    destruct i as [i Hi], j as [j Hj]. cbn in *. apply N.ltb_lt in Hi, Hj. rewrite !Z.mod_small in H by (unfold Q; lia). lia.
  - reflexivity.
  - exact (gadd_comm Q QQ Q1 HE HQQ).
  - exact (gadd_assoc Q QQ Q1 HE HQQ).
  - exact (gadd_one Q QQ Q1 HE HQQ).
  - exact (gopp_r Q QQ Q1 HE HQQ).
  - intros P. unfold safe_mul. unfold sf. rewrite zv_zmk. exact (gexp_1 Q QQ Q1 HE HQQ P).
  - intros P R a. pose proof (zv_bound Q a). apply (gexp_both Q QQ Q1 HE HQQ). lia.
  - intros P a b. unfold safe_mul, zadd. pose proof (zv_bound Q a). pose proof (zv_bound Q b).
    rewrite zv_zmk, (gexp_mod Q QQ Q1 HE HQQ) by lia. apply (gexp_add Q QQ Q1 HE HQQ); lia.
  - intros P a b. unfold safe_mul, zmul. pose proof (zv_bound Q a). pose proof (zv_bound Q b).
    rewrite zv_zmk, (gexp_mod Q QQ Q1 HE HQQ) by nia. apply (gexp_mul Q QQ Q1 HE HQQ); lia.
  - intros P. destruct (gexp_span Q QQ Q1 HE HQQ HQ safe_gen ltac:(discriminate) P) as (k & Hk & ->).
    exists (sf k). unfold safe_mul, sf. rewrite zv_zmk, Z.mod_small by exact Hk. reflexivity.
  - intros a b E. apply zq_eq. apply (gexp_inj Q QQ Q1 HE HQQ HQ safe_gen ltac:(discriminate)); [apply zv_bound|apply zv_bound|exact E].
  - exact (geqb_spec Q).
  - exact safe_scalar_dec.
  - intros x y. unfold safe_enc_scalar. rewrite !le_bytes_length. reflexivity.
  - exact safe_point_dec.
  - intros x y. unfold safe_enc_point. cbn [List.length]. rewrite !le_bytes_length. reflexivity.
  - intros m. apply le_bytes_length.
  - intros k n x _. eexists. reflexivity.
  - exact toy_aead_ok.
  - exact toy_rand_bytes_len.
Qed.
Print Assumptions SafeLaws.

(** * The documented session (C107) on this suite: key generation, signing, resharing, signing *)
Section Tour.
  Context {S : Suite}.
  Definition tour_of (r : Rng) : result (G * ThresholdSig * ThresholdSig) :=
    doc_tour Debug (u 3) (u 2) tour_ids [0%nat; 2%nat] (u 4) (u 3) tour_ids' [3%nat; 0%nat; 1%nat] [x68; x69] r.
  Definition tour_facts (r : Rng) : option (list bool) :=
    match tour_of r with
    | Ok (gk, sig, sig') => Some [Geqb gk Gzero; is_ok (verify_signature gk sig (h4 [x68; x69])); is_ok (verify_signature gk sig' (h4 [x68; x69]));
        is_ok (verify_signature gk sig (h4 [x68])); Geqb (ts_R sig) (ts_R sig')]
    | _ => None
    end.
End Tour.
Example safe_tour_ok : @tour_facts Safe 77%N = Some [false; true; true; false; false].
Proof. vmr. Qed.
(** multiplying by a scalar is a power: 2^40 modulo 8589935363, up to sign *)
Example safe_power : gv (safe_mul safe_gen (sf 40)) = Z.min (2 ^ 40 mod QQ) (QQ - 2 ^ 40 mod QQ).
Proof. vm_compute. reflexivity. Qed.
