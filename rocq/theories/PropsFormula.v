(** C113: the formula for verifying keys in the documentation is not the one computed. *)
From Coq Require Import String Strings.Byte Arith NArith ZArith Bool List Permutation Sorted Lia Field.
From Verif Require Import Base Suite Spec SpecDkg SpecSign Types ModelDkg ModelSign Algebra BaseLemmas LemmasShare LemmasRound1
  LemmasRound2 LemmasFinish Toy Demo DemoDkg PropsFinish.
Import ListNotations.

Section Formula.
  Context {S : Suite} {L : SuiteLaws S}.
  Add Field F_fld : F_field.

  (** the formula of src/keys.rs 78-84 and 135-141: the product over all dealers j and all k of phi_jk to the power i^k *)
  Definition documented (cs : list Vss) (i : u32) : G :=
    gsum (map (fun c => gpoly_value (vss_points c) (of_u32 i)) cs).
  (** by how much the computed key exceeds the documented one *)
  Definition excess (cs : list Vss) (i : u32) : G :=
    gsum (map (fun c => (gpoly_value (vss_points c) (of_u32 i) * (weight (vss_index c) (map vss_index cs) - F1)%F)%G) cs).

  Lemma computed_eq cs i : dealt_point (by_index cs) (of_u32 i) = (documented cs i + excess cs i)%G.
  Proof.
    unfold dealt_point, by_index, documented, excess, ginterp0. rewrite <- gsum_map_add. rewrite !map_map. cbn [fst snd]. f_equal.
    change (map (fun x : Vss => vss_index x) cs) with (map vss_index cs).
    apply map_ext. intros c. destruct (gen_span (gpoly_value (vss_points c) (of_u32 i))) as [y ->].
    rewrite !Gmul_mul. rewrite gen_mul_add. f_equal. ring.
  Qed.
  Lemma add_same P Q : P = (P + Q)%G <-> Q = Gzero.
  Proof.
    split; [|intros ->; symmetry; apply Gadd_0_r]. destruct (gen_span P) as [x ->], (gen_span Q) as [y ->]. rewrite gen_mul_add, Gzero_gen.
    intros E. apply gen_inj in E. f_equal. transitivity (x + y - x)%F; [ring|]. rewrite <- E. ring.
  Qed.
  Lemma zeros_value k n x : gterms_from k (repeat Gzero n) x = Gzero.
  Proof. revert k. induction n as [|n IH]; intros k; cbn [repeat gterms_from]; [reflexivity|]. rewrite IH, Gmul_0_l, Gadd_0_l. reflexivity. Qed.
  (** the dealer j commits to the constant 1, all others to zero *)
  Definition lone (t : nat) (j : u32) (i : u32) : Vss := MkVss i (if u32_eqb i j then gen :: repeat Gzero (t - 1) else repeat Gzero t).
  Lemma lone_value t j i x : gpoly_value (vss_points (lone t j i)) x = if u32_eqb i j then gen else Gzero.
  Proof.
    unfold lone, gpoly_value. cbn [vss_points]. destruct (u32_eqb i j); [|apply zeros_value]. cbn [gterms_from]. rewrite zeros_value, Gadd_0_r.
    destruct (gen_span gen) as [g E]. rewrite E at 1. rewrite Gmul_mul. transitivity (gen * g)%G; [f_equal; cbn [fpow]; ring|]. symmetry. exact E.
  Qed.
  Lemma lone_excess t j ids i : NoDup ids -> In j ids -> excess (map (lone t j) ids) i = (gen * (weight j ids - F1)%F)%G.
  Proof.
    intros Hn Hj. unfold excess. rewrite !map_map. cbn [lone vss_index]. rewrite map_id.
    assert (X : forall l, NoDup l -> gsum (map (fun k => (gpoly_value (vss_points (lone t j k)) (of_u32 i) * (weight k ids - F1)%F)%G) l) =
      if in_dec u32_eq_dec j l then (gen * (weight j ids - F1)%F)%G else Gzero).
    { induction l as [|k l IH]; intros Hl; [reflexivity|]. apply NoDup_cons_iff in Hl. destruct Hl as [H1 H2]. cbn [map gsum]. rewrite (IH H2), lone_value.
      destruct (u32_eqb k j) eqn:E.
      - apply u32_eqb_spec in E. subst k. destruct (in_dec u32_eq_dec j l); [contradiction|]. destruct (in_dec u32_eq_dec j (j :: l)) as [_|N]; [apply Gadd_0_r|destruct N; left; reflexivity].
      - apply u32_eqb_neq in E. rewrite Gmul_0_l, Gadd_0_l. destruct (in_dec u32_eq_dec j l) as [I|I], (in_dec u32_eq_dec j (k :: l)) as [I'|I']; try reflexivity.
        + destruct I'. right. exact I.
        + destruct I' as [X|X]; contradiction. }
    rewrite X by exact Hn. destruct (in_dec u32_eq_dec j ids); [reflexivity|contradiction].
  Qed.
  (** the weights of the dealers add up to one *)
  Lemma weights_sum ids : NoDup ids -> ids <> [] -> fsum (map (fun i => weight i ids) ids) = F1.
  Proof.
    intros Hn Hne. pose proof (interp0_poly ids [F1] Hn) as X. cbn [length] in X.
    assert (Hl : 1 <= length ids) by (destruct ids; [contradiction|cbn; lia]). specialize (X Hl). unfold interp0 in X. rewrite !map_map in X. cbn [fst snd] in X. rewrite map_id in X.
    transitivity (poly_value [F1] F0); [|unfold poly_value; cbn [terms_from fpow]; ring]. rewrite <- X. f_equal. apply map_ext. intros i.
    unfold poly_value. cbn [terms_from fpow]. ring.
  Qed.
  Lemma ones_or l (f : u32 -> F) : (exists j, In j l /\ f j <> F1) \/ fsum (map f l) = fsum (map (fun _ => F1) l).
  Proof.
    induction l as [|i l IH]; [right; reflexivity|]. destruct IH as [(j & I & X)|IH]; [left; exists j; split; [right; exact I|exact X]|].
    destruct (F_dec (f i) F1) as [E|E]; [right|left; exists i; split; [left; reflexivity|exact E]]. cbn [map fsum]. rewrite IH, E. reflexivity.
  Qed.
  Lemma excess_alone c i : excess [c] i = Gzero.
  Proof.
    unfold excess. cbn [map gsum]. rewrite Gadd_0_r. unfold weight. unfold others. cbn [filter]. rewrite u32_eqb_refl. cbn [negb map fprod].
    destruct (gen_span (gpoly_value (vss_points c) (of_u32 i))) as [y ->]. rewrite Gmul_mul, Gzero_gen. f_equal. field. apply F1_neq_0.
  Qed.
  Lemma weight_of_two a b : good_indices [a; b] -> weight a [a; b] <> F1.
  Proof.
    intros [Hn H0]. assert (Hab : a <> b) by (intros ->; apply NoDup_cons_iff in Hn; destruct Hn as [N _]; apply N; left; reflexivity).
    assert (Ha : of_u32 a <> F0) by (intros Z; apply H0; left; apply of_u32_inj; rewrite Z; symmetry; apply of_u32_zero).
    unfold weight, others. cbn [filter]. rewrite u32_eqb_refl. rewrite (proj2 (u32_eqb_neq b a) (fun Z => Hab (eq_sym Z))). cbn [negb map fprod].
    assert (Hd : (of_u32 b - of_u32 a)%F <> F0) by (intros Z; apply Hab; symmetry; apply of_u32_inj; apply Fsub_eq_0; exact Z).
    intros E. apply Ha. assert (Y : (of_u32 b = of_u32 b - of_u32 a)%F).
    { transitivity ((of_u32 b * F1) * Finv ((of_u32 b - of_u32 a) * F1) * (of_u32 b - of_u32 a))%F; [field; exact Hd|]. rewrite E. ring. }
    transitivity (of_u32 b - (of_u32 b - of_u32 a))%F; [ring|]. rewrite <- Y. ring.
  Qed.
End Formula.

(** when the documented formula gives the computed key *)
Theorem C113_computed_against_documented :
  forall (S : Suite) (L : SuiteLaws S) (cs : list Vss) (i : u32),
  good_indices (map vss_index cs) ->
  (ivk_generate i cs = Ok (MkVK i (documented cs i)) <-> excess cs i = Gzero) /\
  (ivk_verify (MkVK i (documented cs i)) cs = Ok tt <-> excess cs i = Gzero) /\
  (forall sk, sk_index sk = i -> ivk_verify (to_public sk) cs = Ok tt -> ((gen * sk_key sk)%G = documented cs i <-> excess cs i = Gzero)) /\
  (forall c, cs = [c] -> excess cs i = Gzero).
Proof.
  intros S L cs i Hg.
  assert (E : ivk_generate i cs = Ok (MkVK i (documented cs i + excess cs i)%G)).
  { rewrite <- computed_eq. apply (C35_verify_equals_regeneration S L (MkVK i gen) cs). exact Hg. }
  assert (Q : ivk_generate i cs = Ok (MkVK i (documented cs i)) <-> excess cs i = Gzero).
  { rewrite E. rewrite <- add_same with (P := documented cs i). split; [intros X; injection X as X; symmetry; exact X|]. intros X. do 2 f_equal. symmetry. exact X. }
  split; [exact Q|]. split; [|split].
  - rewrite (proj1 (C35_verify_equals_regeneration S L (MkVK i (documented cs i)) cs)). exact Q.
  - intros sk Hi Hv. apply (C35_verify_equals_regeneration S L) in Hv. cbn [to_public vk_index] in Hv. rewrite Hi, E in Hv. injection Hv as _ Hv.
    rewrite <- Hv. rewrite <- add_same with (P := documented cs i). split; intros X; symmetry; exact X.
  - intros c ->. apply excess_alone.
Qed.
Print Assumptions C113_computed_against_documented.

(** with several dealers there are always commitments for which the formulas differ *)
Theorem C113_documented_formula_refuted :
  forall (S : Suite) (L : SuiteLaws S) (ids : list u32) (t : nat) (i : u32),
  good_indices ids -> 1 <= t ->
  (length ids = 2 \/ (ids <> [] /\ fsum (map (fun _ => F1) ids) <> F1)) ->
  exists cs, map vss_index cs = ids /\ (forall c, In c cs -> length (vss_points c) = t) /\
    ivk_verify (MkVK i (documented cs i)) cs = Err ShareVerificationError.
Proof.
  intros S L ids t i Hg Ht Hl.
  assert (X : exists j, In j ids /\ weight j ids <> F1).
  { destruct Hl as [Hl|[Hne Hl]].
    - destruct ids as [|a [|b [|c l]]]; try discriminate. exists a. split; [left; reflexivity|].
      apply weight_of_two, Hg.
    - destruct (ones_or ids (fun j => weight j ids)) as [X|X]; [exact X|]. exfalso. apply Hl. rewrite <- X. apply weights_sum; [apply Hg|exact Hne]. }
  destruct X as (j & Hj & Hw). exists (map (lone t j) ids).
  assert (Ei : map vss_index (map (lone t j) ids) = ids) by (rewrite map_map; cbn [lone vss_index]; apply map_id).
  split; [exact Ei|]. split.
  - intros c Hc. apply in_map_iff in Hc. destruct Hc as (k & <- & _). unfold lone. cbn [vss_points]. destruct (u32_eqb k j); cbn [length]; rewrite repeat_length; lia.
  - assert (Hg' : good_indices (map vss_index (map (lone t j) ids))) by (rewrite Ei; exact Hg).
    apply (C35_verify_equals_regeneration S L). cbn [vk_index]. exists (MkVK i (documented (map (lone t j) ids) i + excess (map (lone t j) ids) i)%G).
    split; [rewrite <- computed_eq; apply (C35_verify_equals_regeneration S L (MkVK i gen) _); exact Hg'|].
    intros Z. injection Z as Z. symmetry in Z. apply add_same in Z. rewrite lone_excess in Z; [|apply Hg|exact Hj]. rewrite Gzero_gen in Z. apply gen_inj in Z.
    apply Hw. apply Fsub_eq_0. exact Z.
Qed.
Print Assumptions C113_documented_formula_refuted.

(** an honest key generation of three: participant 1 holds the key its documentation-following peer would reject *)
Definition f_comms : list (@Vss Toy) := map (fun p => match pt_comm (S := Toy) p with Some c => c | None => @MkVss Toy (u 0) [] end) demo_ps.
Definition f_end : result (@G Toy * @SigningKey Toy) :=
  let* (s, _, _) := to_round_two (S := Toy) Debug (demo_r1 demo_ps 1) (demo_shares 1) 5%N in finish s.
Definition f_key : @VerifyingKey Toy := to_public (S := Toy) (snd (got (A := @G Toy * @SigningKey Toy) (toy_gen, @MkSK Toy (u 0) (mk 0)) f_end)).
Lemma f_run : is_ok (S := Toy) f_end = true /\ vk_index f_key = u 1 /\
  ivk_verify (S := Toy) f_key f_comms = Ok tt /\
  Geqb (Suite := Toy) (vk_share f_key) (documented (S := Toy) f_comms (u 1)) = false /\
  Geqb (Suite := Toy) (excess (S := Toy) f_comms (u 1)) (Gzero (Suite := Toy)) = false /\ map vss_index f_comms = [u 1; u 2; u 3].
Proof. vms. Qed.
Example C113_ex : good_indices (map vss_index f_comms) /\ ivk_verify (S := Toy) f_key f_comms = Ok tt /\
  vk_share f_key <> documented (S := Toy) f_comms (u 1) /\ excess (S := Toy) f_comms (u 1) <> Gzero (Suite := Toy) /\
  (good_indices [u 4; u 9] /\ length [u 4; u 9] = 2) /\
  (good_indices [u 1; u 2; u 3] /\ fsum (S := Toy) (map (fun _ : u32 => F1 (Suite := Toy)) [u 1; u 2; u 3]) <> F1 (Suite := Toy)).
Proof.
  destruct f_run as (_ & _ & H1 & H2 & H3 & H4). rewrite H4. split; [good|]. split; [exact H1|].
  split; [apply (Geqb_neq (L := ToyLaws)), H2|]. split; [apply (Geqb_neq (L := ToyLaws)), H3|]. split; [split; [good|reflexivity]|]. split; [good|].
  apply (Feqb_neq (L := ToyLaws)). vms.
Qed.
Print Assumptions C113_ex.
