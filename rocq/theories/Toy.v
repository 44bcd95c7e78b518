(** A concrete ciphersuite satisfying all laws of [SuiteLaws]: the prime field of order
    4294967311 (the first prime above 2^32), its additive group as [G], and simple executable stand-ins for
    hashing, key derivation, authenticated encryption and the generator. It has no
    cryptographic strength; it shows that the laws are satisfiable and makes the model executable for the
    examples and counterexamples. It models no part of /repo (the crate is generic in the suite,
    src/ciphersuite.rs 19-39). *)
From Coq Require Import String Strings.Byte NArith ZArith Znumtheory Bool List Lia Field_theory Field Eqdep_dec.
From Verif Require Import Base Suite.
Import ListNotations.
Local Open Scope Z_scope.

Definition P : Z := 4294967311.

(** trial division by the numbers 6k-1 and 6k+1 *)
Fixpoint no_divisor (k : nat) (d : Z) (n : Z) : bool :=
  match k with
  | O => true
  | S k' => negb (n mod d =? 0) && (negb (n mod (d + 2) =? 0) && no_divisor k' (d + 6) n)
  end.

Lemma no_divisor_spec k : forall d n, no_divisor k d n = true ->
  forall x, d <= x < d + 6 * Z.of_nat k -> (x - d) mod 6 = 0 \/ (x - d) mod 6 = 2 -> n mod x <> 0.
Proof.
  induction k as [|k IH]; intros d n H x Hx Hm; [lia|].
  cbn [no_divisor] in H. apply andb_prop in H. destruct H as [H1 H2].
  apply andb_prop in H2. destruct H2 as [H2 H3].
  apply negb_true_iff, Z.eqb_neq in H1. apply negb_true_iff, Z.eqb_neq in H2.
  destruct (Z.eq_dec x d) as [->|Hne]; [exact H1|].
  destruct (Z.eq_dec x (d + 2)) as [->|Hne2]; [exact H2|].
  assert (Hsix : d + 6 <= x).
  { destruct (Z.lt_ge_cases x (d + 6)); [|lia]. rewrite Z.mod_small in Hm by lia. lia. }
  apply (IH (d + 6) n H3); [lia|].
  replace (x - (d + 6)) with ((x - d) + (-1) * 6) by lia.
  rewrite Z.mod_add by lia. exact Hm.
Qed.

Lemma P_no_divisor : no_divisor (Z.to_nat 10923) 5 P = true.
Proof. vm_compute. reflexivity. Qed.

Lemma P_small_divisor x : 1 < x < 65543 -> P mod x <> 0.
Proof.
  intros Hx E.
  assert (Hdiv : (x | P)) by (apply Z.mod_divide; [lia|exact E]).
  destruct (Z.eq_dec (x mod 2) 0) as [E2|N2].
  { assert (D : (2 | P)) by (apply Z.divide_trans with x; [apply Z.mod_divide; [lia|exact E2]|exact Hdiv]).
    apply Z.mod_divide in D; [vm_compute in D; discriminate|lia]. }
  destruct (Z.eq_dec (x mod 3) 0) as [E3|N3].
  { assert (D : (3 | P)) by (apply Z.divide_trans with x; [apply Z.mod_divide; [lia|exact E3]|exact Hdiv]).
    apply Z.mod_divide in D; [vm_compute in D; discriminate|lia]. }
  revert E. apply (no_divisor_spec _ _ _ P_no_divisor x).
  - rewrite Z2Nat.id by lia. Z.div_mod_to_equations; lia.
  - Z.div_mod_to_equations; lia.
Qed.

Lemma prime_P : prime P.
Proof.
  apply prime_alt. split; [unfold P; lia|].
  intros n [Hn1 Hn2] [q Hq].
  assert (Hq0 : 1 < q) by (unfold P in *; nia).
  destruct (Z.le_ge_cases n q).
  - apply (P_small_divisor n).
    + unfold P in *; nia.
    + rewrite Hq. apply Z.mod_mul. lia.
  - apply (P_small_divisor q).
    + unfold P in *; nia.
    + rewrite Hq, Z.mul_comm. apply Z.mod_mul. lia.
Qed.

(** field elements *)
Definition fp_range (z : Z) : bool := (0 <=? z) && (z <? P).
Record Fp := MkFp { fv : Z; fok : fp_range fv = true }.

Lemma fp_eq a b : fv a = fv b -> a = b.
Proof.
  destruct a as [a Ha], b as [b Hb]; cbn. intros ->. f_equal.
  apply UIP_dec, bool_dec.
Qed.

Definition mk (z : Z) : Fp :=
  let m := z mod P in
  match fp_range m as b return (fp_range m = b -> Fp) with
  | true => fun H => MkFp m H
  | false => fun _ => MkFp 0 eq_refl
  end eq_refl.

Lemma range_mod z : fp_range (z mod P) = true.
Proof.
  unfold fp_range. pose proof (Z.mod_pos_bound z P ltac:(unfold P; lia)).
  apply andb_true_intro; split; [apply Z.leb_le|apply Z.ltb_lt]; lia.
Qed.

Lemma fv_mk z : fv (mk z) = z mod P.
Proof.
  unfold mk. generalize (eq_refl (fp_range (z mod P))).
  generalize (fp_range (z mod P)) at 2 3. intros [|] H; [reflexivity|].
  rewrite range_mod in H. discriminate.
Qed.

Lemma fv_bound a : 0 <= fv a < P.
Proof.
  destruct a as [a H]; cbn. unfold fp_range in H. apply andb_prop in H. destruct H as [H1 H2].
  apply Z.leb_le in H1. apply Z.ltb_lt in H2. lia.
Qed.

Lemma fv_mod a : fv a mod P = fv a.
Proof. apply Z.mod_small, fv_bound. Qed.

Definition fadd a b := mk (fv a + fv b).
Definition fsub a b := mk (fv a - fv b).
Definition fmul a b := mk (fv a * fv b).
Definition fopp a := mk (- fv a).

(** extended Euclid *)
Fixpoint egcd (k : nat) (r0 r1 s0 s1 : Z) : Z :=
  match k with
  | O => s0
  | S k' => if r1 =? 0 then s0
            else egcd k' r1 (r0 mod r1) s1 ((s0 - (r0 / r1) * s1) mod P)
  end.
Definition finv a := mk (egcd 70 P (fv a) 0 1).

Lemma egcd_spec x k : forall r0 r1 s0 s1,
  0 <= r1 < r0 -> r0 * r1 < 2 ^ (Z.of_nat k - 1) -> (0 < k)%nat ->
  Zis_gcd r0 r1 1 ->
  (s0 * x - r0) mod P = 0 -> (s1 * x - r1) mod P = 0 ->
  (egcd k r0 r1 s0 s1 * x - 1) mod P = 0.
Proof.
  induction k as [|k IH]; intros r0 r1 s0 s1 Hr Hf Hk Hg H0 H1; [lia|].
  cbn [egcd]. destruct (Z.eqb_spec r1 0) as [->|Hne].
  - assert (Hr0 : r0 = 1).
    { destruct Hg as [_ _ Hd]. specialize (Hd r0 (Z.divide_refl _) (Z.divide_0_r _)).
      apply Z.divide_1_r_nonneg in Hd; lia. }
    rewrite Hr0 in H0. exact H0.
  - pose proof (Z.mod_pos_bound r0 r1 ltac:(lia)) as Hm.
    pose proof (Z.div_mod r0 r1 Hne) as Hdm.
    assert (Hq1 : 1 <= r0 / r1) by (apply Z.div_le_lower_bound; lia).
    assert (Hhalf : 2 * (r0 mod r1) < r0) by nia.
    assert (Hk0 : (0 < k)%nat).
    { destruct k; [|lia]. exfalso. cbn in Hf. nia. }
    apply IH; auto; try lia.
    + replace (Z.of_nat (S k) - 1) with ((Z.of_nat k - 1) + 1) in Hf by lia.
      rewrite Z.pow_add_r in Hf by lia. change (2^1) with 2 in Hf. nia.
    + destruct Hg as [_ _ Hd]. constructor; try apply Z.divide_1_l.
      intros d Hd1 Hd2. apply Hd; [|exact Hd1]. rewrite Hdm. apply Z.divide_add_r; [|exact Hd2].
      apply Z.divide_mul_l. exact Hd1.
    + replace (r0 mod r1) with (r0 - r1 * (r0/r1)) by lia.
      rewrite <- Zminus_mod_idemp_l, Z.mul_mod_idemp_l, Zminus_mod_idemp_l by (unfold P; lia).
      replace ((s0 - r0 / r1 * s1) * x - (r0 - r1 * (r0 / r1)))
        with ((s0 * x - r0) - (r0/r1) * (s1 * x - r1)) by ring.
      rewrite <- Zminus_mod_idemp_l, <- Zminus_mod_idemp_r, <- Z.mul_mod_idemp_r, H0, H1 by (unfold P; lia).
      rewrite Z.mul_0_r. reflexivity.
Qed.

Lemma finv_l a : a <> mk 0 -> fmul (finv a) a = mk 1.
Proof.
  intros Ha. apply fp_eq. unfold fmul, finv. rewrite !fv_mk.
  assert (H0 : fv a <> 0) by (intros E; apply Ha, fp_eq; rewrite fv_mk, E; reflexivity).
  pose proof (fv_bound a) as Hb.
  rewrite Z.mul_mod_idemp_l by (unfold P; lia).
  assert (E : (egcd 70 P (fv a) 0 1 * fv a - 1) mod P = 0).
  { apply egcd_spec; try lia.
    - change (2 ^ (Z.of_nat 70 - 1)) with 590295810358705651712. unfold P in *; nia.
    - apply Zis_gcd_sym. apply Zgcd_1_rel_prime. rewrite Z.gcd_comm. apply Zgcd_1_rel_prime.
      apply rel_prime_sym.  apply rel_prime_le_prime; [apply prime_P|lia].
    - rewrite Z.mul_0_l, Z.sub_0_l, Z.mod_opp_l_z; [reflexivity|unfold P; lia|apply Z.mod_same; unfold P; lia].
    - replace (1 * fv a - fv a) with 0 by ring. reflexivity. }
  apply Z.mod_divide in E; [|unfold P; lia]. destruct E as [q Hq].
  replace (egcd 70 P (fv a) 0 1 * fv a) with (1 + q * P) by lia.
  apply Z.mod_add. unfold P; lia.
Qed.

Ltac fp := apply fp_eq; unfold fadd, fsub, fmul, fopp; rewrite ?fv_mk;
  rewrite ?Z.add_mod_idemp_l, ?Z.add_mod_idemp_r, ?Z.mul_mod_idemp_l, ?Z.mul_mod_idemp_r,
    ?Zminus_mod_idemp_l, ?Zminus_mod_idemp_r by (unfold P; lia).

Lemma fp_field : field_theory (mk 0) (mk 1) fadd fmul fsub fopp (fun x y => fmul x (finv y)) finv (@eq Fp).
Proof.
  constructor.
  - constructor; intros.
    + fp. rewrite Z.add_0_l. apply fv_mod.
    + fp. f_equal; ring.
    + fp. f_equal; ring.
    + fp. rewrite Z.mul_1_l. apply fv_mod.
    + fp. f_equal; ring.
    + fp. f_equal; ring.
    + fp. f_equal; ring.
    + fp. f_equal; ring.
    + fp. rewrite Z.add_opp_diag_r. reflexivity.
  - intros E. apply (f_equal fv) in E. vm_compute in E. discriminate.
  - reflexivity.
  - intros a Ha. apply finv_l; exact Ha.
Qed.

Definition feqb (a b : Fp) : bool := fv a =? fv b.
Definition toy_of_u32 (i : u32) : Fp := mk (Z.of_N (u32v i)).

(** bytes *)
Definition toy_num (l : list byte) (acc : Z) : Z :=
  fold_left (fun a b => 256 * a + Z.of_N (Byte.to_N b)) l acc.
Definition toy_mix (m : Z) (l : list byte) (acc : Z) : Z :=
  let v := toy_num l acc mod m in (v * (v + 65599) + 1) mod m.
Definition toy_h2f (dst msg : list byte) : Fp := mk (toy_mix P (dst ++ x00 :: msg) 17).
Definition toy_sha2f (dst msg : list byte) : Fp := mk (toy_mix P (dst ++ x01 :: msg) 23).
Definition toy_digest (msg : list byte) : list byte := le_bytes 8 (Z.to_N (toy_mix 18446744073709551557 msg 31)).
Definition toy_hkdf (k : list byte) : list byte := le_bytes 8 (Z.to_N (toy_mix 18446744073709551557 k 37)).

Definition toy_enc_scalar (x : Fp) : list byte := le_bytes 5 (Z.to_N (fv x)).
Definition toy_dec_scalar (l : list byte) : option (Fp * list byte) :=
  if Nat.ltb (length l) 5 then None
  else let v := Z.of_N (le_value (firstn 5 l)) in
       if v <? P then Some (mk v, skipn 5 l) else None.
Definition toy_enc_point (x : Fp) : list byte := x02 :: toy_enc_scalar x.
Definition toy_dec_point (l : list byte) : option (Fp * list byte) :=
  match l with
  | x02 :: l' => toy_dec_scalar l'
  | _ => None
  end.

Definition toy_tag (k n m : list byte) : list byte := toy_digest (k ++ n ++ m).
Definition toy_stream (k n : list byte) : N := Z.to_N (toy_mix 251 (k ++ n) 3).
Definition toy_aead_enc (k n m : list byte) : option (list byte) :=
  Some (toy_tag k n m ++ map (fun b => byte_of_N (Byte.to_N b + toy_stream k n)) m).
Definition bytes_eqb (a b : list byte) : bool :=
  if list_eq_dec Byte.byte_eq_dec a b then true else false.
Definition toy_aead_dec (k n c : list byte) : option (list byte) :=
  let m := map (fun b => byte_of_N (Byte.to_N b + 256 - toy_stream k n)) (skipn 8 c) in
  if bytes_eqb (firstn 8 c) (toy_tag k n m) then Some m else None.

Definition toy_next (s : N) : N := (N.land (s * 6364136223846793005 + 1442695040888963407) 18446744073709551615)%N.
Definition toy_rand_scalar (s : N) : Fp * N := (mk (Z.of_N (N.shiftr (toy_next s) 20)), toy_next s).
Fixpoint toy_rand_bytes (k : nat) (s : N) : list byte * N :=
  match k with
  | O => ([], s)
  | S k' => let s' := toy_next s in
            let (l, s'') := toy_rand_bytes k' s' in
            (byte_of_N (N.shiftr s' 40) :: l, s'')
  end.

Definition toy_gen : Fp := mk 7.

Definition Toy : Suite := {|
  F := Fp; F0 := mk 0; F1 := mk 1; Fadd := fadd; Fsub := fsub; Fmul := fmul; Fopp := fopp;
  Finv := finv; Feqb := feqb; of_u32 := toy_of_u32;
  G := Fp; Gzero := mk 0; Gadd := fadd; Gopp := fopp; Gmul := fmul; gen := toy_gen; Geqb := feqb;
  enc_scalar := toy_enc_scalar; dec_scalar := toy_dec_scalar;
  enc_point := toy_enc_point; dec_point := toy_dec_point;
  context_string := bytes_of_string "TOY";
  inner_h2f := toy_h2f; sha256_h2f := toy_sha2f; inner_digest := toy_digest; hash_len := 8;
  hkdf := toy_hkdf; nonce_len := 12; aead_enc := toy_aead_enc; aead_dec := toy_aead_dec;
  Rng := N; rand_scalar := toy_rand_scalar; rand_bytes := toy_rand_bytes
|}.

Lemma le_bytes_length k n : length (le_bytes k n) = k.
Proof. revert n; induction k; intros; cbn; auto. Qed.

Lemma byte_of_N_val n : Byte.to_N (byte_of_N n) = (n mod 256)%N.
Proof.
  unfold byte_of_N. destruct (Byte.of_N (n mod 256)) eqn:E.
  - apply Byte.to_of_N in E. exact E.
  - apply Byte.of_N_None_iff in E. pose proof (N.mod_lt n 256). lia.
Qed.

Lemma byte_of_N_to_N b : byte_of_N (Byte.to_N b) = b.
Proof.
  unfold byte_of_N. pose proof (Byte.to_N_bounded b). rewrite N.mod_small by lia.
  rewrite Byte.of_to_N. reflexivity.
Qed.

Lemma byte_of_N_mod n m : (n mod 256 = m mod 256)%N -> byte_of_N n = byte_of_N m.
Proof. unfold byte_of_N. intros ->. reflexivity. Qed.

Lemma le_value_bytes k : forall n, (n < 256 ^ N.of_nat k)%N -> le_value (le_bytes k n) = n.
Proof.
  induction k; intros n Hn.
  - cbn in *. lia.
  - cbn [le_bytes le_value]. rewrite byte_of_N_val, IHk.
    + rewrite N.add_comm. symmetry. apply N.div_mod. lia.
    + apply N.div_lt_upper_bound; [lia|]. rewrite Nat2N.inj_succ, N.pow_succ_r' in Hn. exact Hn.
Qed.

Lemma firstn_exact {A} k (l r : list A) : length l = k -> firstn k (l ++ r) = l.
Proof. intros <-. rewrite firstn_app, Nat.sub_diag, firstn_all. apply app_nil_r. Qed.

Lemma skipn_exact {A} k (l r : list A) : length l = k -> skipn k (l ++ r) = r.
Proof. intros <-. rewrite skipn_app, Nat.sub_diag, skipn_all. reflexivity. Qed.

Lemma toy_rand_bytes_len k : forall s, length (fst (toy_rand_bytes k s)) = k.
Proof.
  induction k; intros s; [reflexivity|]. cbn [toy_rand_bytes].
  specialize (IHk (toy_next s)). destruct (toy_rand_bytes k (toy_next s)). cbn in *. congruence.
Qed.

Lemma toy_scalar_dec x r : toy_dec_scalar (toy_enc_scalar x ++ r) = Some (x, r).
Proof.
  unfold toy_dec_scalar, toy_enc_scalar.
  pose proof (fv_bound x) as Hb.
  assert (L : length (le_bytes 5 (Z.to_N (fv x))) = 5%nat) by apply le_bytes_length.
  rewrite app_length, L.
  change (Nat.ltb (5 + length r) 5) with false. cbv iota.
  rewrite (firstn_exact 5 _ r L), (skipn_exact 5 _ r L).
  rewrite le_value_bytes.
  - rewrite Z2N.id by lia. destruct (Z.ltb_spec (fv x) P); [|lia].
    repeat f_equal. apply fp_eq. rewrite fv_mk. apply fv_mod.
  - change (256 ^ N.of_nat 5)%N with 1099511627776%N. unfold P in *. lia.
Qed.

Lemma toy_mix_bound m l acc : 0 < m -> 0 <= toy_mix m l acc < m.
Proof. intros Hm. unfold toy_mix. cbv zeta. apply Z.mod_pos_bound. exact Hm. Qed.

Lemma toy_aead_ok k n m c : toy_aead_enc k n m = Some c -> toy_aead_dec k n c = Some m.
Proof.
  unfold toy_aead_enc. set (body := map _ m). intros H. assert (Hc : c = toy_tag k n m ++ body) by congruence. clear H. subst c. unfold toy_aead_dec. cbv zeta.
  assert (L : length (toy_tag k n m) = 8%nat) by apply le_bytes_length.
  rewrite !(firstn_exact 8) by exact L. rewrite !(skipn_exact 8) by exact L. subst body.
  assert (Hs : (toy_stream k n < 256)%N).
  { unfold toy_stream. pose proof (toy_mix_bound 251 (k ++ n) 3 ltac:(lia)). lia. }
  rewrite map_map.
  assert (E : map (fun x => byte_of_N (Byte.to_N (byte_of_N (Byte.to_N x + toy_stream k n)) + 256 - toy_stream k n)) m = m).
  { rewrite <- (map_id m) at 2. apply map_ext. intros b. rewrite byte_of_N_val.
    rewrite <- (byte_of_N_to_N b) at 2. apply byte_of_N_mod.
    set (s := toy_stream k n) in *. set (v := Byte.to_N b).
    pose proof (Byte.to_N_bounded b) as Hb. fold v in Hb.
    destruct (N.lt_ge_cases (v + s) 256).
    - rewrite (N.mod_small (v + s)) by lia. replace (v + s + 256 - s)%N with (v + 1 * 256)%N by lia.
      apply N.mod_add. lia.
    - replace ((v + s) mod 256)%N with (v + s - 256)%N.
      + f_equal. lia.
      + apply N.mod_unique with (q := 1%N); lia. }
  rewrite E. unfold bytes_eqb. destruct (list_eq_dec byte_eq_dec (toy_tag k n m) (toy_tag k n m)); congruence.
Qed.

Lemma feqb_spec a b : feqb a b = true <-> a = b.
Proof.
  unfold feqb. split; intros H.
  - apply fp_eq, Z.eqb_eq, H.
  - subst. apply Z.eqb_refl.
Qed.

Lemma u32_val_inj i j : u32v i = u32v j -> i = j.
Proof.
  destruct i as [i Hi], j as [j Hj]; cbn. intros ->. f_equal. apply UIP_dec, bool_dec.
Qed.

Lemma toy_gen_nz : toy_gen <> mk 0.
Proof. intros E. apply (f_equal fv) in E. vm_compute in E. discriminate. Qed.

Add Field toy_field : fp_field.

#[export] Instance ToyLaws : SuiteLaws Toy.
Proof.
  constructor; cbn [F F0 F1 Fadd Fsub Fmul Fopp Finv Feqb of_u32 G Gzero Gadd Gopp Gmul gen Geqb
    enc_scalar dec_scalar enc_point dec_point inner_digest hash_len aead_enc aead_dec nonce_len rand_bytes Toy].
  - exact fp_field.
  - exact feqb_spec.
  - intros i j H. apply u32_val_inj. apply (f_equal fv) in H. unfold toy_of_u32 in H.
    rewrite !fv_mk in H.
    destruct i as [i Hi], j as [j Hj]. cbn in *. apply N.ltb_lt in Hi, Hj.
    rewrite !Z.mod_small in H by (unfold P; lia). lia.
  - reflexivity.
  - intros; ring.
  - intros; ring.
  - intros; ring.
  - intros; ring.
  - intros; ring.
  - intros; ring.
  - intros; ring.
  - intros; ring.
  - intros Q. exists (fmul Q (finv toy_gen)). field. exact toy_gen_nz.
  - intros a b H.
    assert (E : fmul (finv toy_gen) (fmul toy_gen a) = fmul (finv toy_gen) (fmul toy_gen b)) by congruence.
    replace a with (fmul (finv toy_gen) (fmul toy_gen a)) by (field; exact toy_gen_nz).
    rewrite E. field; exact toy_gen_nz.
  - exact feqb_spec.
  - exact toy_scalar_dec.
  - intros x y. unfold toy_enc_scalar. rewrite !le_bytes_length. reflexivity.
  - intros Q r. unfold toy_enc_point, toy_dec_point. cbn [app]. apply toy_scalar_dec.
  - intros x y. unfold toy_enc_point, toy_enc_scalar. cbn [length]. rewrite !le_bytes_length. reflexivity.
  - intros m. apply le_bytes_length.
  - intros k n x _. eexists. reflexivity.
  - exact toy_aead_ok.
  - exact toy_rand_bytes_len.
Qed.
