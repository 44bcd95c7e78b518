(** Scalars, points, polynomials and interpolation. *)
From Coq Require Import Arith NArith Bool List Lia Field Field_theory Permutation Eqdep_dec.
From Verif Require Import Base Suite Spec.
Import ListNotations.

Lemma u32_ext i j : u32v i = u32v j -> i = j.
Proof.
  destruct i as [i Hi], j as [j Hj]; cbn. intros ->. f_equal. apply UIP_dec, bool_dec.
Qed.

Lemma u32_eqb_spec i j : u32_eqb i j = true <-> i = j.
Proof.
  unfold u32_eqb. rewrite N.eqb_eq. split; [apply u32_ext|intros ->; reflexivity].
Qed.
Lemma u32_eqb_refl i : u32_eqb i i = true.
Proof. apply u32_eqb_spec; reflexivity. Qed.
Lemma u32_eqb_neq i j : u32_eqb i j = false <-> i <> j.
Proof. rewrite <- u32_eqb_spec. destruct (u32_eqb i j); intuition congruence. Qed.
Lemma u32_eqb_sym i j : u32_eqb i j = u32_eqb j i.
Proof. unfold u32_eqb. apply N.eqb_sym. Qed.
Definition u32_eq_dec (i j : u32) : {i = j} + {i <> j}.
Proof.
  destruct (u32_eqb i j) eqn:E; [left; apply u32_eqb_spec; exact E|right; apply u32_eqb_neq; exact E].
Defined.
Lemma u32_bound (i : u32) : (u32v i < 4294967296)%N.
Proof. destruct i as [i Hi]; cbn. apply N.ltb_lt, Hi. Qed.
Lemma u32_of_N_val n : u32v (u32_of_N n) = (n mod 4294967296)%N.
Proof.
  unfold u32_of_N. set (m := (n mod 4294967296)%N).
  assert (Hm : (m <? 4294967296)%N = true) by (apply N.ltb_lt; apply N.mod_lt; lia).
  generalize (eq_refl (m <? 4294967296)%N). generalize (m <? 4294967296)%N at 2 3.
  intros [|] H; [reflexivity|congruence].
Qed.
Lemma u32_of_N_small n : (n < 4294967296)%N -> u32v (u32_of_N n) = n.
Proof. intros H. rewrite u32_of_N_val. apply N.mod_small; exact H. Qed.
Lemma u32_of_N_v i : u32_of_N (u32v i) = i.
Proof. apply u32_ext. apply u32_of_N_small, u32_bound. Qed.

Section Algebra.
  Context {S : Suite} {L : SuiteLaws S}.
  Add Field F_fld : F_field.

  Lemma F1_neq_0 : F1 <> F0.
  Proof. exact (F_1_neq_0 F_field). Qed.

  Lemma Feqb_refl x : Feqb x x = true.
  Proof. apply Feqb_spec; reflexivity. Qed.
  Lemma Feqb_neq x y : Feqb x y = false <-> x <> y.
  Proof. rewrite <- Feqb_spec. destruct (Feqb x y); intuition congruence. Qed.
  Lemma Geqb_refl x : Geqb x x = true.
  Proof. apply Geqb_spec; reflexivity. Qed.
  Lemma Geqb_neq x y : Geqb x y = false <-> x <> y.
  Proof. rewrite <- Geqb_spec. destruct (Geqb x y); intuition congruence. Qed.
  Definition F_dec (x y : F) : {x = y} + {x <> y}.
  Proof.
    destruct (Feqb x y) eqn:E; [left; apply Feqb_spec; exact E|right; apply Feqb_neq; exact E].
  Defined.
  Definition G_dec (x y : G) : {x = y} + {x <> y}.
  Proof.
    destruct (Geqb x y) eqn:E; [left; apply Geqb_spec; exact E|right; apply Geqb_neq; exact E].
  Defined.

  Lemma Fmul_eq_0 x y : (x * y = F0)%F -> x = F0 \/ y = F0.
  Proof.
    intros H. destruct (F_dec x F0) as [|Hx]; [left; assumption|right].
    replace y with (Finv x * (x * y))%F by (field; exact Hx). rewrite H. ring.
  Qed.
  Lemma Fmul_neq_0 x y : x <> F0 -> y <> F0 -> (x * y)%F <> F0.
  Proof. intros Hx Hy H. apply Fmul_eq_0 in H. tauto. Qed.
  Lemma Fsub_eq_0 x y : (x - y = F0)%F <-> x = y.
  Proof.
    split; intros H.
    - replace x with ((x - y) + y)%F by ring. rewrite H. ring.
    - subst. ring.
  Qed.
  Lemma Fsub_0 x y : (x - y = F0)%F -> x = y.
  Proof. apply Fsub_eq_0. Qed.
  Lemma Fadd_cancel_l x y z : (x + y = x + z)%F -> y = z.
  Proof. intros H. replace y with ((x + y) - x)%F by ring. rewrite H. ring. Qed.
  Lemma Fmul_cancel_l x y z : x <> F0 -> (x * y = x * z)%F -> y = z.
  Proof.
    intros Hx H. replace y with (Finv x * (x * y))%F by (field; exact Hx). rewrite H. field. exact Hx.
  Qed.

  (** ** points *)
  Lemma Gadd_0_r P : (P + Gzero = P)%G.
  Proof. rewrite Gadd_comm. apply Gadd_0_l. Qed.
  Lemma Gadd_cancel_l P Q R : (P + Q = P + R)%G -> Q = R.
  Proof.
    intros H. rewrite <- (Gadd_0_l Q), <- (Gadd_0_l R), <- (Gadd_opp_r P).
    rewrite (Gadd_comm P (- P)%G), <- !Gadd_assoc, H. reflexivity.
  Qed.
  Lemma Gmul_0_r P : (P * F0 = Gzero)%G.
  Proof.
    apply (Gadd_cancel_l (P * F0)%G). rewrite <- Gmul_add_r, Gadd_0_r. f_equal. ring.
  Qed.
  Lemma gen_mul_0 : (gen * F0 = Gzero)%G.
  Proof. apply Gmul_0_r. Qed.
  Lemma gen_mul_add a b : (gen * a + gen * b = gen * (a + b)%F)%G.
  Proof. symmetry. apply Gmul_add_r. Qed.
  Lemma gen_mul_opp a : (- (gen * a) = gen * (- a)%F)%G.
  Proof.
    apply (Gadd_cancel_l (gen * a)%G). rewrite Gadd_opp_r, gen_mul_add.
    rewrite <- gen_mul_0. f_equal. ring.
  Qed.
  Lemma gen_mul_iff a b : (gen * a = gen * b)%G <-> a = b.
  Proof. split; [apply gen_inj|intros ->; reflexivity]. Qed.
  Lemma Gzero_gen : Gzero = (gen * F0)%G.
  Proof. symmetry; apply gen_mul_0. Qed.

  (** pushes point expressions in multiples of [gen] to a single multiple *)
  Ltac gnorm :=
    rewrite ?Gzero_gen, ?Gmul_mul, ?gen_mul_opp, ?gen_mul_add, ?Gmul_mul, ?gen_mul_opp, ?gen_mul_add;
    repeat (rewrite ?Gmul_mul, ?gen_mul_opp, ?gen_mul_add).

  Lemma Gmul_0_l a : (Gzero * a = Gzero)%G.
  Proof. rewrite Gzero_gen, Gmul_mul. f_equal. ring. Qed.
  Lemma Gopp_mul P a : ((- P) * a = - (P * a))%G.
  Proof. destruct (gen_span P) as [p ->]. gnorm. f_equal. ring. Qed.
  Lemma Gmul_opp P a : (P * (- a)%F = - (P * a))%G.
  Proof. destruct (gen_span P) as [p ->]. gnorm. f_equal. ring. Qed.
  Lemma Gmul_comm P a b : ((P * a) * b = (P * b) * a)%G.
  Proof. rewrite !Gmul_mul. f_equal. ring. Qed.
  Lemma Gmul_eq_0 P a : (P * a = Gzero)%G -> P = Gzero \/ a = F0.
  Proof.
    destruct (gen_span P) as [p ->]. rewrite Gmul_mul, Gzero_gen. intros H. apply gen_inj in H.
    apply Fmul_eq_0 in H. destruct H as [->| ->]; auto.
  Qed.

  Lemma dlog_list (Ps : list G) : exists a, Ps = committed a.
  Proof.
    induction Ps as [|Q Ps [a IH]]; [exists []; reflexivity|].
    destruct (gen_span Q) as [q ->]. exists (q :: a). cbn. f_equal. exact IH.
  Qed.
  Lemma committed_length a : length (committed a) = length a.
  Proof. apply map_length. Qed.
  Lemma committed_inj a b : committed a = committed b -> a = b.
  Proof.
    revert b; induction a as [|x a IH]; intros [|y b] H; try discriminate; [reflexivity|].
    cbn in H. injection H as H1 H2. apply gen_inj in H1. apply IH in H2. congruence.
  Qed.

  (** ** sums *)
  Lemma fsum_app a b : fsum (a ++ b) = (fsum a + fsum b)%F.
  Proof. induction a as [|x a IH]; cbn; [ring|]. rewrite IH. ring. Qed.
  Lemma fsum_cons a b : fsum (a :: b) = (a + fsum b)%F.
  Proof. reflexivity. Qed.
  Lemma fsum_perm a b : Permutation a b -> fsum a = fsum b.
  Proof.
    induction 1; cbn in *; [reflexivity|congruence|ring|congruence].
  Qed.
  Lemma fsum_map_add {A} (f g : A -> F) l :
    fsum (map (fun x => f x + g x)%F l) = (fsum (map f l) + fsum (map g l))%F.
  Proof. induction l; cbn; [ring|]. rewrite IHl. ring. Qed.
  Lemma fsum_map_scale {A} (f : A -> F) c l :
    fsum (map (fun x => c * f x)%F l) = (c * fsum (map f l))%F.
  Proof. induction l; cbn; [ring|]. rewrite IHl. ring. Qed.
  Lemma fsum_map_scale_r {A} (f : A -> F) c l :
    fsum (map (fun x => f x * c)%F l) = (fsum (map f l) * c)%F.
  Proof. induction l; cbn; [ring|]. rewrite IHl. ring. Qed.
  Lemma fsum_map_zero {A} (f : A -> F) l : (forall x, In x l -> f x = F0) -> fsum (map f l) = F0.
  Proof.
    induction l; intros H; cbn; [reflexivity|]. rewrite H by (left; reflexivity).
    rewrite IHl by (intros; apply H; right; assumption). ring.
  Qed.
  Lemma map_ext_in' {A B} (f g : A -> B) l : (forall x, In x l -> f x = g x) -> map f l = map g l.
  Proof. apply map_ext_in. Qed.

  Lemma fprod_perm a b : Permutation a b -> fprod a = fprod b.
  Proof. induction 1; cbn in *; [reflexivity|congruence|ring|congruence]. Qed.
  Lemma fprod_neq_0 l : (forall x, In x l -> x <> F0) -> fprod l <> F0.
  Proof.
    induction l as [|x l IH]; intros H; cbn; [apply F1_neq_0|].
    apply Fmul_neq_0; [apply H; left; reflexivity|apply IH; intros; apply H; right; assumption].
  Qed.
  Lemma fprod_zero l : In F0 l -> fprod l = F0.
  Proof.
    induction l as [|x l IH]; intros H; [contradiction|].
    destruct H as [H|H]; cbn; [subst; ring|rewrite IH by assumption; ring].
  Qed.

  Lemma gsum_app a b : gsum (a ++ b) = (gsum a + gsum b)%G.
  Proof.
    induction a as [|x a IH]; cbn; [rewrite Gadd_0_l; reflexivity|]. rewrite IH. apply Gadd_assoc.
  Qed.
  Lemma gsum_gen {A} (f : A -> F) l : gsum (map (fun x => gen * f x)%G l) = (gen * fsum (map f l))%G.
  Proof. induction l; cbn; [apply Gzero_gen|]. rewrite IHl. apply gen_mul_add. Qed.
  Lemma gsum_perm a b : Permutation a b -> gsum a = gsum b.
  Proof.
    induction 1; cbn in *; try congruence.
    rewrite !Gadd_assoc. f_equal. apply Gadd_comm.
  Qed.
  Lemma gsum_map_add {A} (f g : A -> G) l :
    gsum (map (fun x => f x + g x)%G l) = (gsum (map f l) + gsum (map g l))%G.
  Proof.
    induction l; cbn; [rewrite Gadd_0_l; reflexivity|]. rewrite IHl.
    rewrite !Gadd_assoc. f_equal. rewrite <- !Gadd_assoc. f_equal. apply Gadd_comm.
  Qed.
  Lemma gsum_map_mul {A} (f : A -> G) c l :
    gsum (map (fun x => f x * c)%G l) = (gsum (map f l) * c)%G.
  Proof. induction l; cbn; [rewrite Gmul_0_l; reflexivity|]. rewrite IHl. symmetry; apply Gmul_add_l. Qed.

  (** ** polynomials *)
  (** Horner form, used in proofs *)
  Fixpoint pv (a : list F) (x : F) : F :=
    match a with [] => F0 | c :: a' => (c + x * pv a' x)%F end.

  Lemma terms_from_pv a : forall k x, terms_from k a x = (fpow x k * pv a x)%F.
  Proof.
    induction a as [|c a IH]; intros k x; cbn; [ring|]. rewrite IH. cbn. ring.
  Qed.
  Lemma poly_value_pv a x : poly_value a x = pv a x.
  Proof. unfold poly_value. rewrite terms_from_pv. cbn. ring. Qed.
  Lemma poly_value_0 a : poly_value a F0 = hd F0 a.
  Proof. rewrite poly_value_pv. destruct a; cbn; ring. Qed.

  Lemma gterms_from_committed a : forall k x, gterms_from k (committed a) x = (gen * terms_from k a x)%G.
  Proof.
    induction a as [|c a IH]; intros k x; cbn; [apply Gzero_gen|].
    unfold committed in IH. rewrite IH. gnorm. reflexivity.
  Qed.
  Lemma gpoly_committed a x : gpoly_value (committed a) x = (gen * poly_value a x)%G.
  Proof. apply gterms_from_committed. Qed.

  Fixpoint padd (a b : list F) : list F :=
    match a, b with
    | [], _ => b
    | _, [] => a
    | x :: a', y :: b' => (x + y)%F :: padd a' b'
    end.
  Lemma padd_length a : forall b, length (padd a b) = Nat.max (length a) (length b).
  Proof. induction a; intros [|y b]; cbn; auto. Qed.
  Lemma pv_padd a : forall b x, pv (padd a b) x = (pv a x + pv b x)%F.
  Proof. induction a; intros [|y b] x; cbn; try ring. rewrite IHa. ring. Qed.

  (** functions given by polynomials with at most n coefficients *)
  Definition polyfun (n : nat) (f : F -> F) : Prop :=
    exists a, length a <= n /\ forall x, f x = pv a x.

  Lemma polyfun_ext n f g : (forall x, f x = g x) -> polyfun n f -> polyfun n g.
  Proof. intros H [a [Ha Hf]]. exists a. split; [exact Ha|]. intros x. rewrite <- H. apply Hf. Qed.
  Lemma polyfun_mono n m f : n <= m -> polyfun n f -> polyfun m f.
  Proof. intros H [a [Ha Hf]]. exists a. split; [lia|exact Hf]. Qed.
  Lemma polyfun_zero n : polyfun n (fun _ => F0).
  Proof. exists []. split; [cbn; lia|reflexivity]. Qed.
  Lemma polyfun_const n c : polyfun (Datatypes.S n) (fun _ => c).
  Proof. exists [c]. split; [cbn; lia|]. intros x; cbn; ring. Qed.
  Lemma polyfun_add n f g : polyfun n f -> polyfun n g -> polyfun n (fun x => f x + g x)%F.
  Proof.
    intros [a [Ha Hf]] [b [Hb Hg]]. exists (padd a b). split.
    - rewrite padd_length. lia.
    - intros x. rewrite pv_padd, Hf, Hg. reflexivity.
  Qed.
  Lemma pv_scale c a x : pv (map (Fmul c) a) x = (c * pv a x)%F.
  Proof. induction a; cbn; [ring|]. rewrite IHa. ring. Qed.
  Lemma polyfun_scale n c f : polyfun n f -> polyfun n (fun x => c * f x)%F.
  Proof.
    intros [a [Ha Hf]]. exists (map (Fmul c) a). split; [rewrite map_length; exact Ha|].
    intros x. rewrite pv_scale, Hf. reflexivity.
  Qed.
  Lemma polyfun_sub n f g : polyfun n f -> polyfun n g -> polyfun n (fun x => f x - g x)%F.
  Proof.
    intros Hf Hg. apply polyfun_ext with (f := fun x => (f x + (- F1) * g x)%F); [intros; ring|].
    apply polyfun_add; [exact Hf|]. apply polyfun_scale. exact Hg.
  Qed.
  Lemma polyfun_lin n r f : polyfun n f -> polyfun (Datatypes.S n) (fun x => (x - r) * f x)%F.
  Proof.
    intros [a [Ha Hf]]. exists (padd (F0 :: a) (map (Fmul (- r)%F) a)). split.
    - rewrite padd_length, map_length. cbn [length]. lia.
    - intros x. rewrite pv_padd, pv_scale, Hf. cbn. ring.
  Qed.
  Lemma polyfun_sum {A} n (f : A -> F -> F) l :
    (forall i, In i l -> polyfun n (f i)) -> polyfun n (fun x => fsum (map (fun i => f i x) l)).
  Proof.
    induction l as [|i l IH]; intros H.
    - exact (polyfun_zero n).
    - apply (polyfun_add n (f i) (fun x => fsum (map (fun i => f i x) l))).
      + apply H; left; reflexivity.
      + apply IH. intros; apply H; right; assumption.
  Qed.
  Lemma polyfun_prod l : polyfun (Datatypes.S (length l)) (fun x => fprod (map (fun r => x - r)%F l)).
  Proof.
    induction l as [|r l IH].
    - exact (polyfun_const 0 F1).
    - exact (polyfun_lin _ r _ IH).
  Qed.
  (** exact number of coefficients, by padding with zeros *)
  Lemma pv_app_zeros a k x : pv (a ++ repeat F0 k) x = pv a x.
  Proof.
    induction a; cbn; [|rewrite IHa; reflexivity].
    induction k; cbn; [reflexivity|]. rewrite IHk. ring.
  Qed.
  Lemma polyfun_exact n f : polyfun n f -> exists a, length a = n /\ forall x, f x = pv a x.
  Proof.
    intros [a [Ha Hf]]. exists (a ++ repeat F0 (n - length a)). split.
    - rewrite app_length, repeat_length. lia.
    - intros x. rewrite pv_app_zeros. apply Hf.
  Qed.

  (** synthetic division *)
  Lemma pv_divide a r : exists q, length q <= pred (length a) /\
    forall x, (pv a x - pv a r = (x - r) * pv q x)%F.
  Proof.
    induction a as [|c a [q [Hq IH]]].
    - exists []. split; [cbn; lia|]. intros; cbn; ring.
    - exists (padd a (map (Fmul r) q)). split.
      + rewrite padd_length, map_length. cbn [length pred]. apply Nat.max_lub; lia.
      + intros x. rewrite pv_padd, pv_scale. cbn.
        replace (c + x * pv a x - (c + r * pv a r))%F
          with ((x - r) * pv a x + r * (pv a x - pv a r))%F by ring.
        rewrite IH. ring.
  Qed.

  Lemma pv_roots n : forall a xs, length a <= n -> length xs = n -> NoDup xs ->
    (forall x, In x xs -> pv a x = F0) -> forall y, pv a y = F0.
  Proof.
    induction n as [|n IH]; intros a xs Ha Hxs Hnd Hr y.
    - destruct a; [reflexivity|cbn in Ha; lia].
    - destruct xs as [|r xs]; [discriminate|]. cbn in Hxs.
      inversion Hnd as [|? ? Hnin Hnd']; subst.
      destruct (pv_divide a r) as [q [Hq Hdiv]].
      assert (Hr0 : pv a r = F0) by (apply Hr; left; reflexivity).
      assert (Hq0 : forall z, pv q z = F0).
      { apply (IH q xs); [lia|lia|exact Hnd'|].
        intros x Hx. assert (E : ((x - r) * pv q x)%F = F0).
        { rewrite <- Hdiv, Hr0, (Hr x) by (right; exact Hx). ring. }
        apply Fmul_eq_0 in E. destruct E as [E|E]; [|exact E].
        apply Fsub_0 in E. rewrite E in Hx. exfalso. exact (Hnin Hx). }
      specialize (Hdiv y). rewrite Hr0, Hq0 in Hdiv.
      replace (pv a y) with ((pv a y - F0)%F) by ring. rewrite Hdiv. ring.
  Qed.

  Lemma polyfun_roots n f xs : polyfun n f -> n <= length xs -> NoDup xs ->
    (forall x, In x xs -> f x = F0) -> forall y, f y = F0.
  Proof.
    intros [a [Ha Hf]] Hn Hnd Hr y. rewrite Hf.
    apply (pv_roots (length xs) a xs); auto; [lia|]. intros x Hx. rewrite <- Hf. apply Hr, Hx.
  Qed.

  Lemma polyfun_agree n f g xs : polyfun n f -> polyfun n g -> n <= length xs -> NoDup xs ->
    (forall x, In x xs -> f x = g x) -> forall y, f y = g y.
  Proof.
    intros Hf Hg Hn Hnd Hr y. apply Fsub_0.
    apply (polyfun_roots n (fun y => f y - g y)%F xs); auto.
    - apply polyfun_sub; assumption.
    - intros x Hx. apply Fsub_eq_0. apply Hr, Hx.
  Qed.

  (** ** interpolation *)
  Lemma in_others j i l : In j (others i l) <-> In j l /\ j <> i.
  Proof.
    unfold others. rewrite filter_In, negb_true_iff, u32_eqb_neq. tauto.
  Qed.
  Lemma others_length i l : NoDup l -> In i l -> Datatypes.S (length (others i l)) = length l.
  Proof.
    induction l as [|j l IH]; intros Hnd Hin; [contradiction|].
    inversion Hnd as [|? ? Hnin Hnd']; subst. cbn.
    destruct (u32_eqb j i) eqn:E; cbn.
    - apply u32_eqb_spec in E. subst. f_equal.
      assert (forall k, In k l -> negb (u32_eqb k i) = true) as Hall.
      { intros k Hk. apply negb_true_iff, u32_eqb_neq. intros ->. contradiction. }
      clear -Hall. induction l as [|k l IH]; cbn; [reflexivity|].
      rewrite (Hall k (or_introl eq_refl)). cbn. f_equal. apply IH. intros; apply Hall; right; assumption.
    - f_equal. apply IH; [exact Hnd'|]. destruct Hin as [->|]; [|assumption].
      rewrite u32_eqb_refl in E. discriminate.
  Qed.

  (** Lagrange basis polynomial of i over l, evaluated at y *)
  Definition basis (l : list u32) (i : u32) (y : F) : F :=
    (fprod (map (fun j => y - of_u32 j)%F (others i l)) *
     Finv (fprod (map (fun j => of_u32 i - of_u32 j)%F (others i l))))%F.

  Lemma basis_den_neq_0 l i : fprod (map (fun j => of_u32 i - of_u32 j)%F (others i l)) <> F0.
  Proof.
    apply fprod_neq_0. intros x Hx. apply in_map_iff in Hx. destruct Hx as [j [<- Hj]].
    apply in_others in Hj. intros E. apply Fsub_0 in E. apply of_u32_inj in E. intuition congruence.
  Qed.
  Lemma weight_den_neq_0 l i : fprod (map (fun j => of_u32 j - of_u32 i)%F (others i l)) <> F0.
  Proof.
    apply fprod_neq_0. intros x Hx. apply in_map_iff in Hx. destruct Hx as [j [<- Hj]].
    apply in_others in Hj. intros E. apply Fsub_0 in E. apply of_u32_inj in E. intuition congruence.
  Qed.

  Lemma basis_same l i : basis l i (of_u32 i) = F1.
  Proof.
    unfold basis. set (d := fprod _). field. apply basis_den_neq_0.
  Qed.
  Lemma basis_other l i k : In k l -> k <> i -> basis l i (of_u32 k) = F0.
  Proof.
    intros Hk Hne. unfold basis. rewrite fprod_zero; [ring|].
    apply in_map_iff. exists k. split; [ring|]. apply in_others. auto.
  Qed.
  Lemma basis_polyfun l i : NoDup l -> In i l -> polyfun (length l) (basis l i).
  Proof.
    intros Hnd Hin. unfold basis.
    apply polyfun_ext with (f := fun y => (Finv (fprod (map (fun j => of_u32 i - of_u32 j)%F (others i l))) *
       fprod (map (fun r => y - r)%F (map of_u32 (others i l))))%F).
    - intros y. rewrite map_map. ring.
    - apply polyfun_scale. rewrite <- (others_length i l Hnd Hin), <- (map_length of_u32 (others i l)).
      apply polyfun_prod.
  Qed.

  Lemma basis_0_weight l i : basis l i F0 = weight i l.
  Proof.
    unfold basis, weight.
    assert (H : forall xs,
      (fprod (map (fun j => F0 - of_u32 j)%F xs) * fprod (map (fun j => of_u32 j - of_u32 i)%F xs) =
       fprod (map of_u32 xs) * fprod (map (fun j => of_u32 i - of_u32 j)%F xs))%F).
    { induction xs as [|x xs IH]; cbn; [ring|].
      transitivity ((- of_u32 x) * (of_u32 x - of_u32 i) *
        (fprod (map (fun j => F0 - of_u32 j)%F xs) * fprod (map (fun j => of_u32 j - of_u32 i)%F xs)))%F; [ring|].
      rewrite IH. ring. }
    specialize (H (others i l)).
    pose proof (basis_den_neq_0 l i) as H1. pose proof (weight_den_neq_0 l i) as H2.
    set (a := fprod (map (fun j => F0 - of_u32 j)%F (others i l))) in *.
    set (b := fprod (map (fun j => of_u32 j - of_u32 i)%F (others i l))) in *.
    set (c := fprod (map of_u32 (others i l))) in *.
    set (d := fprod (map (fun j => of_u32 i - of_u32 j)%F (others i l))) in *.
    replace (a * Finv d)%F with ((a * b) * (Finv d * Finv b))%F by (field; auto).
    rewrite H. field; auto.
  Qed.

  (** the interpolating polynomial through (i, v i), i in l *)
  Definition interp (l : list u32) (v : u32 -> F) (y : F) : F :=
    fsum (map (fun i => v i * basis l i y)%F l).

  Lemma interp_polyfun l v : NoDup l -> polyfun (length l) (interp l v).
  Proof.
    intros Hnd. unfold interp. apply (polyfun_sum (length l) (fun i y => v i * basis l i y)%F).
    intros i Hi. apply polyfun_scale. apply basis_polyfun; assumption.
  Qed.

  Lemma fsum_single (l : list u32) (g : u32 -> F) i : NoDup l -> In i l ->
    (forall j, In j l -> j <> i -> g j = F0) -> fsum (map g l) = g i.
  Proof.
    induction l as [|k l IH]; intros Hnd Hin H; [contradiction|].
    inversion Hnd as [|? ? Hnin Hnd']; subst. cbn.
    destruct (u32_eq_dec k i) as [->|Hne].
    - rewrite fsum_map_zero; [ring|]. intros j Hj. apply H; [right; exact Hj|]. intros ->. contradiction.
    - rewrite (H k) by (auto; left; reflexivity). rewrite IH; [ring|exact Hnd'| |].
      + destruct Hin; [contradiction|assumption].
      + intros; apply H; auto; right; assumption.
  Qed.

  Lemma interp_value l v i : NoDup l -> In i l -> interp l v (of_u32 i) = v i.
  Proof.
    intros Hnd Hi. unfold interp.
    rewrite (fsum_single l (fun j => v j * basis l j (of_u32 i))%F i Hnd Hi).
    - rewrite basis_same. ring.
    - intros j Hj Hne. rewrite basis_other; [ring|exact Hi|congruence].
  Qed.

  Lemma NoDup_of_u32 l : NoDup l -> NoDup (map of_u32 l).
  Proof.
    induction 1; cbn; constructor; auto. intros Hin. apply in_map_iff in Hin.
    destruct Hin as [y [E Hy]]. apply of_u32_inj in E. subst. contradiction.
  Qed.

  Lemma interp_unique l f : NoDup l -> polyfun (length l) f ->
    forall y, f y = interp l (fun i => f (of_u32 i)) y.
  Proof.
    intros Hnd Hf. apply (polyfun_agree (length l) f _ (map of_u32 l)); auto.
    - apply interp_polyfun, Hnd.
    - rewrite map_length. lia.
    - apply NoDup_of_u32, Hnd.
    - intros x Hx. apply in_map_iff in Hx. destruct Hx as [i [<- Hi]].
      symmetry. apply (interp_value l (fun i => f (of_u32 i))); assumption.
  Qed.

  Lemma lagrange_zero l f : NoDup l -> polyfun (length l) f ->
    f F0 = fsum (map (fun i => f (of_u32 i) * weight i l)%F l).
  Proof.
    intros Hnd Hf. rewrite (interp_unique l f Hnd Hf F0). unfold interp.
    f_equal. apply map_ext. intros i. rewrite basis_0_weight. reflexivity.
  Qed.

  Lemma polyfun_poly_value n a : length a <= n -> polyfun n (poly_value a).
  Proof. intros H. exists a. split; [exact H|]. intros; apply poly_value_pv. Qed.

  (** main interpolation theorem in the vocabulary of Spec.v *)
  Lemma interp0_poly l a : NoDup l -> length a <= length l ->
    interp0 (map (fun i => (i, poly_value a (of_u32 i))) l) = poly_value a F0.
  Proof.
    intros Hnd Ha. rewrite (lagrange_zero l (poly_value a) Hnd (polyfun_poly_value _ _ Ha)).
    unfold interp0. rewrite !map_map. cbn. f_equal. rewrite map_id. reflexivity.
  Qed.

  Lemma others_perm i l l' : Permutation l l' -> Permutation (others i l) (others i l').
  Proof.
    induction 1; cbn; auto.
    - destruct (negb (u32_eqb x i)); auto.
    - destruct (negb (u32_eqb y i)), (negb (u32_eqb x i)); auto. apply perm_swap.
    - eapply perm_trans; eauto.
  Qed.
  Lemma weight_perm i l l' : Permutation l l' -> weight i l = weight i l'.
  Proof.
    intros H. unfold weight. apply (others_perm i) in H.
    rewrite (fprod_perm _ _ (Permutation_map of_u32 H)).
    rewrite (fprod_perm _ _ (Permutation_map (fun j => of_u32 j - of_u32 i)%F H)). reflexivity.
  Qed.
  Lemma interp0_perm p p' : Permutation p p' -> interp0 p = interp0 p'.
  Proof.
    intros H. unfold interp0.
    rewrite (fsum_perm _ _ (Permutation_map _ H)). f_equal. apply map_ext. intros [i v]. cbn.
    rewrite (weight_perm i _ _ (Permutation_map fst H)). reflexivity.
  Qed.
  Lemma ginterp0_perm p p' : Permutation p p' -> ginterp0 p = ginterp0 p'.
  Proof.
    intros H. unfold ginterp0.
    rewrite (gsum_perm _ _ (Permutation_map _ H)). f_equal. apply map_ext. intros [i v]. cbn.
    rewrite (weight_perm i _ _ (Permutation_map fst H)). reflexivity.
  Qed.
  Lemma ginterp0_gen (p : list (u32 * F)) :
    ginterp0 (map (fun iv => (fst iv, gen * snd iv)%G) p) = (gen * interp0 p)%G.
  Proof.
    unfold ginterp0, interp0. rewrite !map_map. cbn. rewrite <- gsum_gen. f_equal.
    apply map_ext. intros [i v]. cbn. apply Gmul_mul.
  Qed.
End Algebra.

Ltac gnorm :=
  repeat (rewrite ?Gmul_mul, ?gen_mul_opp, ?gen_mul_add).
