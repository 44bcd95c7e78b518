(** Arithmetic for a second concrete ciphersuite (SafeSuite.v): prime fields, and the group of the integers modulo a safe prime p = 2q+1, up to
    sign. It models no part of /repo; it shows that the laws of [SuiteLaws] hold in a group that is not the scalar field itself. *)
From Coq Require Import NArith ZArith Znumtheory Zpow_facts Bool List Permutation Lia Field_theory Eqdep_dec.
From Verif Require Import Toy.
Import ListNotations.
Local Open Scope Z_scope.

(** * Primality by trial division *)
Lemma prime_by_trial n k : 5 < n -> n mod 2 <> 0 -> n mod 3 <> 0 -> no_divisor k 5 n = true -> n < (5 + 6 * Z.of_nat k) * (5 + 6 * Z.of_nat k) -> prime n.
Proof.
  intros Hn H2 H3 HD Hk.
  assert (Small : forall x, 1 < x < 5 + 6 * Z.of_nat k -> n mod x <> 0).
  { intros x Hx E. assert (Hdiv : (x | n)) by (apply Z.mod_divide; [lia|exact E]).
    destruct (Z.eq_dec (x mod 2) 0) as [E2|N2].
    { apply H2. apply Z.mod_divide; [lia|]. apply Z.divide_trans with x; [apply Z.mod_divide; [lia|exact E2]|exact Hdiv]. }
    destruct (Z.eq_dec (x mod 3) 0) as [E3|N3].
    { apply H3. apply Z.mod_divide; [lia|]. apply Z.divide_trans with x; [apply Z.mod_divide; [lia|exact E3]|exact Hdiv]. }
    revert E. apply (no_divisor_spec _ _ _ HD x); Z.div_mod_to_equations; lia. }
  apply prime_alt. split; [lia|]. intros m [Hm1 Hm2] [r Hr].
  assert (Hr0 : 1 < r) by nia.
  destruct (Z.le_ge_cases m r).
  - apply (Small m); [nia|]. rewrite Hr. apply Z.mod_mul. lia.
  - apply (Small r); [nia|]. rewrite Hr, Z.mul_comm. apply Z.mod_mul. lia.
Qed.

(** * The field of integers modulo a prime *)
Definition zrange (q z : Z) : bool := (0 <=? z) && (z <? q).
Record Zq (q : Z) := MkZq { zv : Z; zok : zrange q zv = true }.
Arguments MkZq {q}. Arguments zv {q}. Arguments zok {q}.

Section Field.
  Context (q : Z) (q0 : zrange q 0 = true).

  Lemma zq_pos : 0 < q.
  Proof. unfold zrange in q0. apply andb_prop in q0. destruct q0 as [_ H]. apply Z.ltb_lt in H. exact H. Qed.
  Lemma zq_eq (a b : Zq q) : zv a = zv b -> a = b.
  Proof. destruct a as [a Ha], b as [b Hb]; cbn. intros ->. f_equal. apply UIP_dec, bool_dec. Qed.
  Definition zmk (z : Z) : Zq q :=
    let m := z mod q in
    match zrange q m as b return (zrange q m = b -> Zq q) with
    | true => fun H => MkZq m H
    | false => fun _ => MkZq 0 q0
    end eq_refl.
  Lemma zrange_mod z : zrange q (z mod q) = true.
  Proof.
    unfold zrange. pose proof (Z.mod_pos_bound z q zq_pos). apply andb_true_intro; split; [apply Z.leb_le|apply Z.ltb_lt]; lia.
  Qed.
  Lemma zv_zmk z : zv (zmk z) = z mod q.
  Proof.
    unfold zmk. generalize (eq_refl (zrange q (z mod q))). generalize (zrange q (z mod q)) at 2 3. intros [|] H; [reflexivity|].
    rewrite zrange_mod in H. discriminate.
  Qed.
  Lemma zv_bound (a : Zq q) : 0 <= zv a < q.
  Proof.
    destruct a as [a H]; cbn. unfold zrange in H. apply andb_prop in H. destruct H as [H1 H2]. apply Z.leb_le in H1. apply Z.ltb_lt in H2. lia.
  Qed.
  Lemma zv_mod (a : Zq q) : zv a mod q = zv a.
  Proof. apply Z.mod_small, zv_bound. Qed.
  Lemma zmk_zv (a : Zq q) : zmk (zv a) = a.
  Proof. apply zq_eq. rewrite zv_zmk. apply zv_mod. Qed.

  Definition zadd (a b : Zq q) := zmk (zv a + zv b).
  Definition zsub (a b : Zq q) := zmk (zv a - zv b).
  Definition zmul (a b : Zq q) := zmk (zv a * zv b).
  Definition zopp (a : Zq q) := zmk (- zv a).
  Fixpoint zgcd (k : nat) (r0 r1 s0 s1 : Z) : Z :=
    match k with
    | O => s0
    | S k' => if r1 =? 0 then s0 else zgcd k' r1 (r0 mod r1) s1 ((s0 - (r0 / r1) * s1) mod q)
    end.
  Definition zinv (a : Zq q) := zmk (zgcd 70 q (zv a) 0 1).
  Definition zeqb (a b : Zq q) : bool := zv a =? zv b.
  Lemma zeqb_spec a b : zeqb a b = true <-> a = b.
  Proof. unfold zeqb. split; intros H; [apply zq_eq, Z.eqb_eq, H|subst; apply Z.eqb_refl]. Qed.

  Lemma zgcd_spec x k : forall r0 r1 s0 s1,
    0 <= r1 < r0 -> r0 * r1 < 2 ^ (Z.of_nat k - 1) -> (0 < k)%nat -> Zis_gcd r0 r1 1 ->
    (s0 * x - r0) mod q = 0 -> (s1 * x - r1) mod q = 0 -> (zgcd k r0 r1 s0 s1 * x - 1) mod q = 0.
  Proof.
    pose proof zq_pos as Hq.
    induction k as [|k IH]; intros r0 r1 s0 s1 Hr Hf Hk Hg H0 H1; [lia|].
    cbn [zgcd]. destruct (Z.eqb_spec r1 0) as [->|Hne].
    - assert (Hr0 : r0 = 1).
      { destruct Hg as [_ _ Hd]. specialize (Hd r0 (Z.divide_refl _) (Z.divide_0_r _)). apply Z.divide_1_r_nonneg in Hd; lia. }
      rewrite Hr0 in H0. exact H0.
    - pose proof (Z.mod_pos_bound r0 r1 ltac:(lia)) as Hm.
      pose proof (Z.div_mod r0 r1 Hne) as Hdm.
      assert (Hq1 : 1 <= r0 / r1) by (apply Z.div_le_lower_bound; lia).
      assert (Hhalf : 2 * (r0 mod r1) < r0) by nia.
      assert (Hk0 : (0 < k)%nat) by (destruct k; [exfalso; cbn in Hf; nia|lia]).
      apply IH; auto; try lia.
      + replace (Z.of_nat (S k) - 1) with ((Z.of_nat k - 1) + 1) in Hf by lia.
        rewrite Z.pow_add_r in Hf by lia. change (2^1) with 2 in Hf. nia.
      + destruct Hg as [_ _ Hd]. constructor; try apply Z.divide_1_l.
        intros d Hd1 Hd2. apply Hd; [|exact Hd1]. rewrite Hdm. apply Z.divide_add_r; [|exact Hd2]. apply Z.divide_mul_l. exact Hd1.
      + replace (r0 mod r1) with (r0 - r1 * (r0/r1)) by lia.
        rewrite <- Zminus_mod_idemp_l, Z.mul_mod_idemp_l, Zminus_mod_idemp_l by lia.
        replace ((s0 - r0 / r1 * s1) * x - (r0 - r1 * (r0 / r1))) with ((s0 * x - r0) - (r0/r1) * (s1 * x - r1)) by ring.
        rewrite <- Zminus_mod_idemp_l, <- Zminus_mod_idemp_r, <- Z.mul_mod_idemp_r, H0, H1 by lia.
        rewrite Z.mul_0_r. reflexivity.
  Qed.

  Context (qprime : prime q) (qsmall : q < 2 ^ 34).
  Lemma zq_one : 1 < q.
  Proof. apply prime_ge_2 in qprime. lia. Qed.
  Lemma zinv_l a : a <> zmk 0 -> zmul (zinv a) a = zmk 1.
  Proof.
    intros Ha. pose proof zq_one as Hq. apply zq_eq. unfold zmul, zinv. rewrite !zv_zmk.
    assert (H0 : zv a <> 0) by (intros E; apply Ha, zq_eq; rewrite zv_zmk, E; reflexivity).
    pose proof (zv_bound a) as Hb. rewrite Z.mul_mod_idemp_l by lia.
    assert (E : (zgcd 70 q (zv a) 0 1 * zv a - 1) mod q = 0).
    { apply zgcd_spec; try lia.
      - change (2 ^ (Z.of_nat 70 - 1)) with 590295810358705651712. change (2 ^ 34) with 17179869184 in qsmall. nia.
      - apply Zis_gcd_sym. apply Zgcd_1_rel_prime. rewrite Z.gcd_comm. apply Zgcd_1_rel_prime.
        apply rel_prime_sym. apply rel_prime_le_prime; [exact qprime|lia].
      - rewrite Z.mul_0_l, Z.sub_0_l, Z.mod_opp_l_z; [reflexivity|lia|apply Z.mod_same; lia].
      - replace (1 * zv a - zv a) with 0 by ring. apply Z.mod_0_l. lia. }
    apply Z.mod_divide in E; [|lia]. destruct E as [r Hr].
    replace (zgcd 70 q (zv a) 0 1 * zv a) with (1 + r * q) by lia. apply Z.mod_add. lia.
  Qed.
  Lemma zq_field : field_theory (zmk 0) (zmk 1) zadd zmul zsub zopp (fun x y => zmul x (zinv y)) zinv (@eq (Zq q)).
  Proof.
    pose proof zq_one as Hq.
    assert (I : q <> 0) by lia.
    constructor.
    - constructor; intros; apply zq_eq; unfold zadd, zsub, zmul, zopp; rewrite ?zv_zmk;
        rewrite ?Z.add_mod_idemp_l, ?Z.add_mod_idemp_r, ?Z.mul_mod_idemp_l, ?Z.mul_mod_idemp_r, ?Zminus_mod_idemp_l, ?Zminus_mod_idemp_r by exact I.
      + rewrite Z.add_0_l. apply zv_mod.
      + f_equal; ring.
      + f_equal; ring.
      + rewrite Z.mul_1_l. apply zv_mod.
      + f_equal; ring.
      + f_equal; ring.
      + f_equal; ring.
      + f_equal; ring.
      + rewrite Z.add_opp_diag_r. reflexivity.
    - intros E. apply (f_equal zv) in E. rewrite !zv_zmk, Z.mod_0_l, Z.mod_1_l in E by lia. discriminate.
    - reflexivity.
    - exact zinv_l.
  Qed.
End Field.

(** * The units modulo p = 2q+1, up to sign: represented by the numbers from 1 to q *)
Definition grange (q y : Z) : bool := (1 <=? y) && (y <=? q).
Record Gq (q : Z) := MkGq { gv : Z; gok : grange q gv = true }.
Arguments MkGq {q}. Arguments gv {q}. Arguments gok {q}.

Section Group.
  Context (q p : Z) (q1 : grange q 1 = true).

  Definition sign_fold (z : Z) : Z := let m := z mod p in if m <=? q then m else p - m.
  Definition gmk (z : Z) : Gq q :=
    let m := sign_fold z in
    match grange q m as b return (grange q m = b -> Gq q) with
    | true => fun H => MkGq m H
    | false => fun _ => MkGq 1 q1
    end eq_refl.
  Definition gadd (a b : Gq q) : Gq q := gmk (gv a * gv b).
  Definition gexp (a : Gq q) (k : Z) : Gq q := gmk (Zpow_mod (gv a) k p).
  Definition gopp (a : Gq q) : Gq q := gexp a (q - 1).
  Definition gone : Gq q := MkGq 1 q1.
  Definition geqb (a b : Gq q) : bool := gv a =? gv b.

  Lemma gq_eq (a b : Gq q) : gv a = gv b -> a = b.
  Proof. destruct a as [a Ha], b as [b Hb]; cbn. intros ->. f_equal. apply UIP_dec, bool_dec. Qed.
  Lemma geqb_spec a b : geqb a b = true <-> a = b.
  Proof. unfold geqb. split; intros H; [apply gq_eq, Z.eqb_eq, H|subst; apply Z.eqb_refl]. Qed.
  Lemma gv_bound (a : Gq q) : 1 <= gv a <= q.
  Proof.
    destruct a as [a H]; cbn. unfold grange in H. apply andb_prop in H. destruct H as [H1 H2]. apply Z.leb_le in H1. apply Z.leb_le in H2. lia.
  Qed.

  Context (pq : p = 2 * q + 1) (pprime : prime p).
  Lemma q_pos : 1 <= q.
  Proof. pose proof (gv_bound gone). cbn [gone gv] in H. lia. Qed.
  Lemma fold_range z : z mod p <> 0 -> 1 <= sign_fold z <= q.
  Proof.
    intros Hz. pose proof q_pos. unfold sign_fold. cbv zeta. pose proof (Z.mod_pos_bound z p ltac:(lia)).
    destruct (Z.leb_spec (z mod p) q); lia.
  Qed.
  Lemma gv_gmk z : z mod p <> 0 -> gv (gmk z) = sign_fold z.
  Proof.
    intros Hz. pose proof (fold_range z Hz) as Hr. unfold gmk. generalize (eq_refl (grange q (sign_fold z))).
    generalize (grange q (sign_fold z)) at 2 3. intros [|] H; [reflexivity|]. exfalso.
    unfold grange in H. apply andb_false_iff in H. destruct H as [H|H]; apply Z.leb_gt in H; lia.
  Qed.
  Lemma unit_g (a : Gq q) : gv a mod p <> 0.
  Proof. pose proof (gv_bound a). rewrite Z.mod_small by lia. lia. Qed.
  Lemma unit_mul x y : x mod p <> 0 -> y mod p <> 0 -> (x * y) mod p <> 0.
  Proof.
    intros Hx Hy E. pose proof (prime_ge_2 _ pprime). apply Z.mod_divide in E; [|lia]. apply prime_mult in E; [|exact pprime].
    destruct E as [E|E]; apply Z.mod_divide in E; try lia; contradiction.
  Qed.
  Lemma unit_pow x k : 0 <= k -> x mod p <> 0 -> (x ^ k) mod p <> 0.
  Proof.
    intros Hk Hx. pose proof (prime_ge_2 _ pprime). revert k Hk. apply natlike_ind.
    - rewrite Z.pow_0_r, Z.mod_1_l; lia.
    - intros k Hk IH. rewrite Z.pow_succ_r by exact Hk. apply unit_mul; assumption.
  Qed.
  (** the square of an element, modulo p, says which element it is *)
  Definition sq (z : Z) : Z := (z * z) mod p.
  Lemma sq_fold z : sq (sign_fold z) = sq z.
  Proof.
    pose proof (prime_ge_2 _ pprime). unfold sq, sign_fold. cbv zeta. destruct (z mod p <=? q).
    - rewrite <- Z.mul_mod by lia. reflexivity.
    - replace ((p - z mod p) * (p - z mod p)) with (z mod p * (z mod p) + (p - 2 * (z mod p)) * p) by ring.
      rewrite Z.mod_add, <- Z.mul_mod by lia. reflexivity.
  Qed.
  Lemma sq_inj (a b : Gq q) : sq (gv a) = sq (gv b) -> a = b.
  Proof.
    intros E. apply gq_eq. pose proof (gv_bound a). pose proof (gv_bound b). pose proof (prime_ge_2 _ pprime). unfold sq in E.
    assert (D : (p | (gv a - gv b) * (gv a + gv b))).
    { apply Z.mod_divide; [lia|]. replace ((gv a - gv b) * (gv a + gv b)) with (gv a * gv a - gv b * gv b) by ring.
      rewrite Zminus_mod, E, Z.sub_diag. apply Z.mod_0_l. lia. }
    apply prime_mult in D; [|exact pprime]. destruct D as [[c D]|[c D]].
    - assert (c = 0) by nia. lia.
    - exfalso. assert (0 < c) by nia. nia.
  Qed.
  Lemma sq_mul x y : sq (x * y) = (sq x * sq y) mod p.
  Proof. pose proof (prime_ge_2 _ pprime). unfold sq. rewrite <- Z.mul_mod by lia. f_equal. ring. Qed.
  Lemma sq_mod x : sq (x mod p) = sq x.
  Proof. pose proof (prime_ge_2 _ pprime). unfold sq. rewrite <- Z.mul_mod by lia. reflexivity. Qed.
  Lemma sq_gmk z : z mod p <> 0 -> sq (gv (gmk z)) = sq z.
  Proof. intros H. rewrite gv_gmk by exact H. apply sq_fold. Qed.
  Lemma sq_gadd a b : sq (gv (gadd a b)) = sq (gv a * gv b).
  Proof. apply sq_gmk, unit_mul; apply unit_g. Qed.
  Lemma sq_gexp a k : 0 <= k -> sq (gv (gexp a k)) = sq (gv a ^ k).
  Proof.
    intros Hk. pose proof (prime_ge_2 _ pprime). unfold gexp. rewrite Zpow_mod_correct by lia. rewrite sq_gmk, sq_mod; [reflexivity|].
    rewrite Z.mod_mod by lia. apply unit_pow; [exact Hk|apply unit_g].
  Qed.
  Lemma sq_cong x y z : sq x = sq y -> sq (x * z) = sq (y * z).
  Proof. intros E. rewrite !sq_mul, E. reflexivity. Qed.

  Lemma gadd_comm a b : gadd a b = gadd b a.
  Proof. apply sq_inj. rewrite !sq_gadd. f_equal. ring. Qed.
  Lemma gadd_assoc a b c : gadd a (gadd b c) = gadd (gadd a b) c.
  Proof.
    apply sq_inj. rewrite !sq_gadd. rewrite (Z.mul_comm (gv a)). rewrite (sq_cong _ _ _ (sq_gadd b c)), (sq_cong _ _ _ (sq_gadd a b)). f_equal. ring.
  Qed.
  Lemma gadd_one a : gadd gone a = a.
  Proof. apply sq_inj. rewrite sq_gadd. cbn [gone gv]. f_equal. ring. Qed.
  Lemma gexp_0 a : gexp a 0 = gone.
  Proof. apply sq_inj. rewrite sq_gexp by lia. reflexivity. Qed.
  Lemma gexp_1 a : gexp a 1 = a.
  Proof. apply sq_inj. rewrite sq_gexp by lia. rewrite Z.pow_1_r. reflexivity. Qed.
  Lemma gexp_add a k l : 0 <= k -> 0 <= l -> gexp a (k + l) = gadd (gexp a k) (gexp a l).
  Proof.
    intros Hk Hl. apply sq_inj. rewrite sq_gadd, !sq_gexp by lia. rewrite (sq_mul (gv (gexp a k))), !sq_gexp, <- sq_mul by lia.
    f_equal. apply Z.pow_add_r; assumption.
  Qed.
  Lemma sq_pow x y k : 0 <= k -> sq x = sq y -> sq (x ^ k) = sq (y ^ k).
  Proof.
    intros Hk E. revert k Hk. apply natlike_ind; [reflexivity|]. intros k Hk IH. rewrite !Z.pow_succ_r by exact Hk. rewrite !sq_mul, E, IH. reflexivity.
  Qed.
  Lemma gexp_mul a k l : 0 <= k -> 0 <= l -> gexp (gexp a k) l = gexp a (k * l).
  Proof.
    intros Hk Hl. apply sq_inj. rewrite !sq_gexp by nia. rewrite (sq_pow _ _ l Hl (sq_gexp a k Hk)). f_equal. symmetry. apply Z.pow_mul_r; assumption.
  Qed.
  Lemma gexp_both a b k : 0 <= k -> gexp (gadd a b) k = gadd (gexp a k) (gexp b k).
  Proof.
    intros Hk. apply sq_inj. rewrite sq_gadd, sq_gexp by exact Hk. rewrite (sq_pow _ _ k Hk (sq_gadd a b)).
    rewrite (sq_mul (gv (gexp a k))), !sq_gexp, <- sq_mul by exact Hk. f_equal. apply Z.pow_mul_l.
  Qed.
  Lemma gadd_cancel a b c : gadd a b = gadd a c -> b = c.
  Proof.
    intros E. apply (f_equal (fun x => sq (gv x))) in E. rewrite !sq_gadd in E. apply sq_inj. pose proof (prime_ge_2 _ pprime).
    unfold sq in E. unfold sq.
    assert (D : (p | (gv a * gv a) * (gv b * gv b - gv c * gv c))).
    { apply Z.mod_divide; [lia|]. replace (gv a * gv a * (gv b * gv b - gv c * gv c)) with (gv a * gv b * (gv a * gv b) - gv a * gv c * (gv a * gv c)) by ring.
      rewrite Zminus_mod, E, Z.sub_diag. apply Z.mod_0_l. lia. }
    apply prime_mult in D; [|exact pprime]. destruct D as [D|D].
    - exfalso. apply Z.mod_divide in D; [|lia]. exact (unit_mul _ _ (unit_g a) (unit_g a) D).
    - apply Z.mod_divide in D; [|lia].
      rewrite Zminus_mod in D. pose proof (Z.mod_pos_bound (gv b * gv b) p ltac:(lia)). pose proof (Z.mod_pos_bound (gv c * gv c) p ltac:(lia)).
      apply Z.mod_divide in D; [|lia]. destruct D as [d D]. assert (d = 0) by nia. lia.
  Qed.

  (** the elements, and their number *)
  Definition gall : list (Gq q) := map (fun k => gmk (Z.of_nat k)) (seq 1 (Z.to_nat q)).
  Lemma gall_value k : (1 <= k <= Z.to_nat q)%nat -> gv (gmk (Z.of_nat k)) = Z.of_nat k.
  Proof.
    intros Hk. pose proof q_pos. assert (E : Z.of_nat k mod p = Z.of_nat k) by (apply Z.mod_small; lia).
    rewrite gv_gmk by (rewrite E; lia). unfold sign_fold. cbv zeta. rewrite E. destruct (Z.leb_spec (Z.of_nat k) q); lia.
  Qed.
  Lemma gall_in a : In a gall.
  Proof.
    pose proof (gv_bound a). pose proof q_pos. unfold gall. apply in_map_iff. exists (Z.to_nat (gv a)). split.
    - apply gq_eq. rewrite gall_value by lia. lia.
    - apply in_seq. lia.
  Qed.
  Lemma nodup_map {A B} (f : A -> B) l : (forall x y, In x l -> In y l -> f x = f y -> x = y) -> NoDup l -> NoDup (map f l).
  Proof.
    intros H N. induction N as [|x l N1 N2 IH]; cbn [map]; constructor.
    - intros X. apply in_map_iff in X as (y & E & Hy). apply N1. rewrite (H x y); auto; [left; reflexivity|right; exact Hy].
    - apply IH. intros y z Hy Hz. apply H; right; assumption.
  Qed.
  Lemma gall_nodup : NoDup gall.
  Proof.
    unfold gall. apply nodup_map; [|apply seq_NoDup]. intros x y Hx Hy E. apply in_seq in Hx, Hy.
    apply (f_equal gv) in E. rewrite !gall_value in E by lia. lia.
  Qed.
  Lemma gall_length : length gall = Z.to_nat q.
  Proof. unfold gall. rewrite map_length, seq_length. reflexivity. Qed.

  (** raised to the number of elements everything is one: multiplying by a permutes the elements *)
  Fixpoint gprod (l : list (Gq q)) : Gq q := match l with [] => gone | a :: l => gadd a (gprod l) end.
  Lemma gprod_perm l l' : Permutation l l' -> gprod l = gprod l'.
  Proof.
    induction 1 as [|a l l' _ IH|a b l|l l' l'' _ IH1 _ IH2]; cbn [gprod]; [reflexivity|rewrite IH; reflexivity| |congruence].
    rewrite !gadd_assoc, (gadd_comm b a). reflexivity.
  Qed.
  Lemma gprod_scale a l : gprod (map (gadd a) l) = gadd (gexp a (Z.of_nat (length l))) (gprod l).
  Proof.
    induction l as [|b l IH]; cbn [map gprod length]; [rewrite gexp_0, gadd_one; reflexivity|].
    rewrite IH. rewrite Nat2Z.inj_succ, <- Z.add_1_l, gexp_add, gexp_1 by lia. rewrite !gadd_assoc. f_equal.
    rewrite <- !gadd_assoc. f_equal. apply gadd_comm.
  Qed.
  Lemma gexp_order a : gexp a q = gone.
  Proof.
    pose proof q_pos. assert (HP : Permutation (map (gadd a) gall) gall).
    { apply NoDup_Permutation_bis.
      - apply nodup_map; [|exact gall_nodup]. intros x y _ _. apply gadd_cancel.
      - rewrite map_length. apply le_n.
      - intros x _. apply gall_in. }
    apply gprod_perm in HP. rewrite gprod_scale, gall_length, Z2Nat.id in HP by lia.
    apply (gadd_cancel (gprod gall)). rewrite gadd_comm, HP, gadd_comm, gadd_one. reflexivity.
  Qed.
  Lemma gexp_mod a k : 0 <= k -> gexp a (k mod q) = gexp a k.
  Proof.
    intros Hk. pose proof q_pos. pose proof (Z.mod_pos_bound k q ltac:(lia)). rewrite (Z.div_mod k q) at 2 by lia.
    pose proof (Z.div_pos k q Hk ltac:(lia)). rewrite gexp_add, <- gexp_mul, gexp_order by nia.
    assert (E : forall n, 0 <= n -> gexp gone n = gone).
    { intros n Hn. apply sq_inj. rewrite sq_gexp by exact Hn. cbn [gone gv]. rewrite Z.pow_1_l by exact Hn. reflexivity. }
    rewrite E, gadd_one by lia. reflexivity.
  Qed.
  Lemma gopp_r a : gadd a (gopp a) = gone.
  Proof.
    pose proof q_pos. unfold gopp. rewrite <- (gexp_1 a) at 1. rewrite <- gexp_add by lia. replace (1 + (q - 1)) with q by lia. apply gexp_order.
  Qed.

  Context (qprime : prime q) (g : Gq q) (gnot1 : gv g <> 1).
  Lemma gexp_one k : 0 < k < q -> gexp g k <> gone.
  Proof.
    intros Hk E. apply gnot1.
    assert (R : rel_prime k q) by (apply rel_prime_le_prime; [exact qprime|lia]).
    apply rel_prime_bezout in R. destruct R as [u v Hb].
    assert (E1 : forall n, 0 <= n -> gexp gone n = gone).
    { intros n Hn. apply sq_inj. rewrite sq_gexp by exact Hn. cbn [gone gv]. rewrite Z.pow_1_l by exact Hn. reflexivity. }
    assert (X : gexp g ((u mod q) * k) = g).
    { rewrite <- (gexp_mod g). 2:{ pose proof (Z.mod_pos_bound u q ltac:(lia)). nia. }
      rewrite Z.mul_mod_idemp_l by lia. replace (u * k) with (1 + (- v) * q) by lia. rewrite Z.mod_add by lia.
      rewrite gexp_mod by lia. apply gexp_1. }
    pose proof (Z.mod_pos_bound u q ltac:(lia)). rewrite Z.mul_comm, <- gexp_mul, E, E1 in X by lia. rewrite <- X. reflexivity.
  Qed.
  Lemma gexp_inj k l : 0 <= k < q -> 0 <= l < q -> gexp g k = gexp g l -> k = l.
  Proof.
    assert (A : forall k l, 0 <= k < q -> 0 <= l < q -> k < l -> gexp g k <> gexp g l).
    { intros k' l' Hk Hl Hlt E. apply (gexp_one (l' - k')); [lia|]. apply (gadd_cancel (gexp g k')). rewrite <- gexp_add by lia.
      replace (k' + (l' - k')) with l' by lia. rewrite <- E, gadd_comm, gadd_one. reflexivity. }
    intros Hk Hl E. destruct (Z.lt_trichotomy k l) as [H|[H|H]]; [|exact H|].
    - destruct (A k l Hk Hl H E).
    - destruct (A l k Hl Hk H (eq_sym E)).
  Qed.
  Lemma gexp_span a : exists k, 0 <= k < q /\ a = gexp g k.
  Proof.
    pose proof q_pos.
    set (l := map (fun k => gexp g (Z.of_nat k)) (seq 0 (Z.to_nat q))).
    assert (N : NoDup l).
    { apply nodup_map; [|apply seq_NoDup]. intros x y Hx Hy E. apply in_seq in Hx, Hy. apply gexp_inj in E; lia. }
    assert (I : incl gall l).
    { apply NoDup_length_incl; [exact N| |intros x _; apply gall_in]. unfold l. rewrite gall_length, map_length, seq_length. apply le_n. }
    specialize (I a (gall_in a)). unfold l in I. apply in_map_iff in I as (k & E & Hk). apply in_seq in Hk. exists (Z.of_nat k). split; [lia|auto].
  Qed.
End Group.
