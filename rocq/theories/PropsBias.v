(** Property C147: a dealer that can get itself removed has two independent tries at the group key. *)
From Coq Require Import String Strings.Byte Arith NArith ZArith Bool List Permutation Lia Field.
From Verif Require Import Base Suite Spec SpecDkg Types ModelDkg Algebra BaseLemmas LemmasShare LemmasFinish
  Toy Demo DemoDkg PropsShare PropsFinish PropsAttack PropsSteer PropsLikely PropsChance PropsJoint.
Import ListNotations.

(** * specification *)
Section Vocabulary.
  Context {S : Suite}.
  (** the secret that dealers with these coefficients share *)
  Definition secret_shared (l : list (u32 * list F)) : F := interp0 (map (fun o => (fst o, poly_value (snd o) F0)) l).
End Vocabulary.

(** * counting *)
Section More.
  Lemma exactly_or {A} n m (P Q : A -> Prop) : (forall a, P a -> ~ Q a) -> exactly n P -> exactly m Q -> exactly (n + m) (fun a => P a \/ Q a).
  Proof.
    intros H (l & L1 & <- & L3) (k & K1 & <- & K3). exists (l ++ k). split; [|split].
    - apply nodup_both. split; [exact L1|]. split; [exact K1|]. intros x Hx Hk. apply L3 in Hx. apply K3 in Hk. exact (H x Hx Hk).
    - apply app_length.
    - intros a. rewrite in_app_iff, L3, K3. reflexivity.
  Qed.
  Lemma exactly_in {A} (l : list A) : NoDup l -> exactly (length l) (fun a => In a l).
  Proof. intros H. exists l. split; [exact H|]. split; [reflexivity|]. intros a. reflexivity. Qed.
  Lemma exactly_not_in {A} (dec : forall a b : A, {a = b} + {a <> b}) q (l : list A) : NoDup l -> exactly q (fun _ : A => True) ->
    exactly (q - length l) (fun a => ~ In a l).
  Proof.
    intros Hl (els & E1 & <- & E3). exists (filter (fun a => if in_dec dec a l then false else true) els). split; [|split].
    - apply NoDup_filter, E1.
    - assert (P1 : Permutation els (filter (fun a => if in_dec dec a l then false else true) els ++ l)).
      { apply NoDup_Permutation; [exact E1| |].
        - apply nodup_both. split; [apply NoDup_filter, E1|]. split; [exact Hl|]. intros x Hx. apply filter_In in Hx as [_ Hx].
          destruct (in_dec dec x l); [discriminate|assumption].
        - intros x. rewrite in_app_iff, filter_In. split; [|intros _; apply E3; exact I]. intros Hx.
          destruct (in_dec dec x l) as [K|K]; [right; exact K|left; split; [exact Hx|reflexivity]]. }
      apply Permutation_length in P1. rewrite app_length in P1. lia.
    - intros a. rewrite filter_In. split; [intros [_ H]; destruct (in_dec dec a l); [discriminate|assumption]|].
      intros H. split; [apply E3; exact I|]. destruct (in_dec dec a l); [contradiction|reflexivity].
  Qed.
End More.

Section Bias.
  Context {S : Suite} {L : SuiteLaws S}.
  Add Field F_fld : F_field.

  Lemma F_dec (a b : F) : {a = b} + {a <> b}.
  Proof. destruct (Feqb a b) eqn:E; [left; apply Feqb_spec, E|right; intros X; apply Feqb_spec in X; congruence]. Qed.

  (** two equations with two unknowns *)
  Lemma solve_two (u1 v1 u2 v2 : F) : (u1 * v2 - v1 * u2)%F <> F0 -> forall a b c1 c2 x1 x2 : F,
    ((a * u1 + (b * v1 + c1) = x1)%F /\ (a * u2 + (b * v2 + c2) = x2)%F) <->
    (a = (((x1 - c1) * v2 - v1 * (x2 - c2)) * Finv (u1 * v2 - v1 * u2))%F /\ b = ((u1 * (x2 - c2) - (x1 - c1) * u2) * Finv (u1 * v2 - v1 * u2))%F).
  Proof.
    intros H a b c1 c2 x1 x2. split.
    - intros [<- <-]. split; field; exact H.
    - intros [-> ->]. split; field; exact H.
  Qed.

  Lemma weight_more i d l : d <> i -> weight i (d :: l) = (weight i l * (of_u32 d * Finv (of_u32 d - of_u32 i)))%F.
  Proof.
    intros H. unfold weight, others. cbn [filter]. replace (u32_eqb d i) with false by (symmetry; apply u32_eqb_neq; exact H).
    cbn [negb map fprod]. pose proof (weight_den_neq_0 l i) as HD. unfold others in HD.
    assert (Hd : (of_u32 d - of_u32 i)%F <> F0) by (intros E; apply Fsub_0 in E; apply of_u32_inj in E; exact (H E)).
    field. split; assumption.
  Qed.

  Lemma ratio_det (w1 w2 i j d : F) : w1 <> F0 -> w2 <> F0 -> d <> F0 -> (d - i)%F <> F0 -> (d - j)%F <> F0 -> (i - j)%F <> F0 ->
    (w1 * (d * Finv (d - i)) * w2 - w2 * (d * Finv (d - j)) * w1)%F <> F0.
  Proof.
    intros H1 H2 H3 H4 H5 H6 E.
    assert (E2 : (w1 * (w2 * (d * (i - j))) = (w1 * (d * Finv (d - i)) * w2 - w2 * (d * Finv (d - j)) * w1) * ((d - i) * (d - j)))%F) by (field; split; assumption).
    rewrite E in E2. assert (E3 : (w1 * (w2 * (d * (i - j))) = F0)%F) by (rewrite E2; ring).
    revert E3. repeat apply Fmul_neq_0; assumption.
  Qed.

  (** the weights of two dealers with and without a further one *)
  Lemma det_weights i1 i2 d l : good_indices (d :: l) -> In i1 l -> In i2 l -> i1 <> i2 ->
    (weight i1 (d :: l) * weight i2 l - weight i2 (d :: l) * weight i1 l)%F <> F0.
  Proof.
    intros [Hn Hz] H1 H2 H12. inversion Hn as [|? ? N1 N2]; subst.
    assert (D1 : d <> i1) by (intros ->; exact (N1 H1)). assert (D2 : d <> i2) by (intros ->; exact (N1 H2)).
    assert (Hl : ~ In u32_zero l) by (intros K; apply Hz; right; exact K).
    rewrite (weight_more i1 d l D1), (weight_more i2 d l D2). apply ratio_det.
    - apply weight_neq_0, Hl.
    - apply weight_neq_0, Hl.
    - intros E. apply Hz. left. apply of_u32_inj. rewrite E. symmetry. apply of_u32_zero.
    - intros E. apply Fsub_0 in E. apply of_u32_inj in E. exact (D1 E).
    - intros E. apply Fsub_0 in E. apply of_u32_inj in E. exact (D2 E).
    - intros E. apply Fsub_0 in E. apply of_u32_inj in E. exact (H12 E).
  Qed.

  Lemma combine_fst {X Y} (l : list X) (k : list Y) : length k = length l -> map fst (combine l k) = l.
  Proof. revert k. induction l as [|x l IH]; intros [|y k] E; cbn in *; try discriminate; [reflexivity|]. f_equal. apply IH. lia. Qed.

  Definition rest_sum (l : list u32) (o : list (u32 * list F)) : F := fsum (map (fun o => poly_value (snd o) F0 * weight (fst o) l)%F o).
  Lemma secret_two i1 i2 hon a b rest o : length rest = length hon ->
    let l := i1 :: i2 :: hon ++ map fst o in
    secret_shared (combine (i1 :: i2 :: hon) (a :: b :: rest) ++ o) =
    (poly_value a F0 * weight i1 l + (poly_value b F0 * weight i2 l + rest_sum l (combine hon rest ++ o)))%F.
  Proof.
    intros E l. unfold secret_shared, interp0, rest_sum. cbn [combine app map fst snd fsum]. rewrite !map_map. cbn [fst snd].
    assert (El : map (fun x : u32 * list F => fst x) (combine hon rest ++ o) = hon ++ map fst o) by (rewrite map_app; f_equal; apply combine_fst, E).
    rewrite El. reflexivity.
  Qed.
  Lemma secret_perm l l' : Permutation l l' -> secret_shared l = secret_shared l'.
  Proof. intros H. apply interp0_perm, Permutation_map, H. Qed.

  Lemma count_head q t s : exactly q (fun _ : F => True) -> (N.of_nat t < 4294967296)%N -> 0 < t ->
    exactly (q ^ (t - 1)) (fun a : list F => length a = t /\ hd_error a = Some s).
  Proof.
    intros Hq Ht Hp. assert (G0 : good_indices []) by (split; [constructor|intros []]).
    pose proof (C139_shares_are_uniform S L q u32_zero [] t s (fun _ => F0) Hq Ht G0 Hp) as H. cbn [length] in H. rewrite Nat.sub_0_r in H.
    eapply exactly_iff; [|exact H]. intros a. cbv beta. split; [intros (H1 & H2 & _); auto|intros (H1 & H2); split; [exact H1|split; [exact H2|intros j []]]].
  Qed.
  Lemma count_any q t : exactly q (fun _ : F => True) -> (N.of_nat t < 4294967296)%N -> 0 < t -> exactly (q ^ t) (fun a : list F => length a = t).
  Proof.
    intros Hq Ht Hp. assert (G0 : good_indices []) by (split; [constructor|intros []]).
    pose proof (count_fits q t [] (fun _ _ => F0) u32_zero Hq Ht G0 Hp) as H. cbn [length] in H. rewrite Nat.sub_0_r in H.
    eapply exactly_iff; [|exact H]. intros a. unfold fits_shares. split; [intros (H1 & _); exact H1|intros H1; split; [exact H1|intros j []]].
  Qed.
  Lemma head_value t (a : list F) s : 0 < t -> length a = t -> (hd_error a = Some s <-> poly_value a F0 = s).
  Proof.
    intros Hp Hl. destruct a as [|c a]; [cbn [length] in Hl; lia|]. rewrite poly_value_0. cbn [hd_error hd]. split; congruence.
  Qed.

  Lemma count_two q t i1 i2 hon d cd o x1 x2 : exactly q (fun _ : F => True) -> (N.of_nat t < 4294967296)%N -> 0 < t ->
    good_indices (i1 :: i2 :: hon ++ d :: map fst o) ->
    exactly (q ^ (t * length (i1 :: i2 :: hon) - 2)) (fun cs => Forall2 (fun _ a => length a = t) (i1 :: i2 :: hon) cs /\
      secret_shared (combine (i1 :: i2 :: hon) cs ++ (d, cd) :: o) = x1 /\ secret_shared (combine (i1 :: i2 :: hon) cs ++ o) = x2).
  Proof.
    intros Hq Ht Hp Hg. set (l1 := i1 :: i2 :: hon ++ map fst ((d, cd) :: o)). set (l2 := i1 :: i2 :: hon ++ map fst o).
    assert (HP : Permutation l1 (d :: l2)) by (unfold l1, l2; cbn [map fst]; symmetry; apply (Permutation_middle (i1 :: i2 :: hon) (map fst o) d)).
    set (u1 := weight i1 l1). set (v1 := weight i2 l1). set (u2 := weight i1 l2). set (v2 := weight i2 l2).
    assert (Hdet : (u1 * v2 - v1 * u2)%F <> F0).
    { unfold u1, v1, u2, v2. rewrite (weight_perm i1 _ _ HP), (weight_perm i2 _ _ HP). apply det_weights.
      - destruct Hg as [G1 G2]. split; [apply (Permutation_NoDup HP), G1|]. intros K. apply G2. apply (Permutation_in _ (Permutation_sym HP)), K.
      - left. reflexivity.
      - right. left. reflexivity.
      - destruct Hg as [G1 _]. inversion G1 as [|? ? G3 G4]; subst. intros ->. apply G3. left. reflexivity. }
    set (c1 := fun rest => rest_sum l1 (combine hon rest ++ (d, cd) :: o)). set (c2 := fun rest => rest_sum l2 (combine hon rest ++ o)).
    set (A := fun rest => (((x1 - c1 rest) * v2 - v1 * (x2 - c2 rest)) * Finv (u1 * v2 - v1 * u2))%F).
    set (B := fun rest => ((u1 * (x2 - c2 rest) - (x1 - c1 rest) * u2) * Finv (u1 * v2 - v1 * u2))%F).
    apply (exactly_iff _ (fun cs => exists rest, Forall2 (fun _ a => length a = t) hon rest /\ exists b, (length b = t /\ hd_error b = Some (B rest)) /\
      exists a, (length a = t /\ hd_error a = Some (A rest)) /\ cs = a :: b :: rest)).
    - intros cs. split.
      + intros (rest & H1 & b & (B1 & B2) & a & (A1 & A2) & ->). split; [constructor; [exact A1|constructor; [exact B1|exact H1]]|].
        assert (El : length rest = length hon) by (symmetry; exact (Forall2_len _ _ _ H1)).
        rewrite (secret_two i1 i2 hon a b rest ((d, cd) :: o) El), (secret_two i1 i2 hon a b rest o El). apply (solve_two u1 v1 u2 v2 Hdet).
        split; [apply (head_value t a _ Hp A1), A2|apply (head_value t b _ Hp B1), B2].
      + intros (H & E). inversion H as [|? a ? cs1 H1 H2]; subst. inversion H2 as [|? b ? rest H3 H4]; subst. exists rest. split; [exact H4|].
        assert (El : length rest = length hon) by (symmetry; exact (Forall2_len _ _ _ H4)).
        rewrite (secret_two i1 i2 hon a b rest ((d, cd) :: o) El), (secret_two i1 i2 hon a b rest o El) in E. apply (solve_two u1 v1 u2 v2 Hdet) in E as [E1 E2].
        exists b. split; [split; [exact H3|apply (head_value _ b _ Hp H3), E2]|]. exists a. split; [|reflexivity].
        split; [reflexivity|apply (head_value _ a _ Hp eq_refl), E1].
    - replace (t * length (i1 :: i2 :: hon) - 2) with (t * length hon + ((t - 1) + (t - 1))).
      + rewrite Nat.pow_add_r, Nat.pow_mul_r. apply exactly_sum.
        * apply exactly_each. intros i _. apply count_any; assumption.
        * intros rest _. rewrite Nat.pow_add_r. apply exactly_sum.
          -- apply count_head; assumption.
          -- intros b _. apply (exactly_image _ (fun a => length a = t /\ hd_error a = Some (A rest)) _ (fun a => a :: b :: rest)); [congruence|reflexivity|].
             apply count_head; assumption.
          -- intros b b' cs _ _ (a & _ & E) (a' & _ & E'). congruence.
        * intros r r' cs _ _ (b & _ & a & _ & E) (b' & _ & a' & _ & E'). congruence.
      + cbn [length]. rewrite !Nat.mul_succ_r. generalize (t * length hon). intros z. lia.
  Qed.

  (** pairs of which one is wanted *)
  Lemma count_pairs q (P : list F) : exactly q (fun _ : F => True) -> NoDup P ->
    exactly (length P * q + (q - length P) * length P) (fun xy : F * F => In (fst xy) P \/ In (snd xy) P).
  Proof.
    intros Hq HP.
    apply (exactly_iff _ (fun xy => (In (fst xy) P) \/ (~ In (fst xy) P /\ In (snd xy) P))).
    { intros [x y]. cbn [fst snd]. destruct (in_dec F_dec x P); tauto. }
    apply exactly_or; [tauto| |].
    - apply (exactly_iff _ (fun xy => exists x, In x P /\ exists y, True /\ xy = (x, y))).
      + intros [x y]. cbn [fst]. split; [intros (x' & H & y' & _ & E); congruence|intros H; exists x; split; [exact H|]; exists y; auto].
      + apply exactly_sum; [apply exactly_in, HP| |].
        * intros x _. apply (exactly_image _ (fun _ : F => True) _ (fun y => (x, y))); [congruence|reflexivity|exact Hq].
        * intros x x' xy _ _ (y & _ & E) (y' & _ & E'). congruence.
    - apply (exactly_iff _ (fun xy => exists x, ~ In x P /\ exists y, In y P /\ xy = (x, y))).
      + intros [x y]. cbn [fst snd]. split.
        * intros (x' & H & y' & H' & E). injection E as -> ->. auto.
        * intros [H H']. exists x. split; [exact H|]. exists y. auto.
      + apply exactly_sum; [apply (exactly_not_in F_dec); assumption| |].
        * intros x _. apply (exactly_image _ (fun y => In y P) _ (fun y => (x, y))); [congruence|reflexivity|apply exactly_in, HP].
        * intros x x' xy _ _ (y & _ & E) (y' & _ & E'). congruence.
  Qed.
End Bias.

(** C147: with at least two honest dealers, the secret shared by all dealers and the one shared without dealer d are independent:
    over the choices of the honest dealers every pair of values occurs the same number of times. *)
Theorem C147_pairs_are_uniform :
  forall (S : Suite) (L : SuiteLaws S) (q t : nat) (i1 i2 : u32) (hon : list u32) (d : u32) (cd : list F) (others : list (u32 * list F)) (x1 x2 : F),
  exactly q (fun _ : F => True) -> (N.of_nat t < 4294967296)%N -> 0 < t -> good_indices (i1 :: i2 :: hon ++ d :: map fst others) ->
  exactly (q ^ (t * length (i1 :: i2 :: hon) - 2)) (fun cs => Forall2 (fun _ a => length a = t) (i1 :: i2 :: hon) cs /\
    secret_shared (combine (i1 :: i2 :: hon) cs ++ (d, cd) :: others) = x1 /\ secret_shared (combine (i1 :: i2 :: hon) cs ++ others) = x2).
Proof. intros. apply count_two; assumption. Qed.
Print Assumptions C147_pairs_are_uniform.

(** Hence, of a set of p secrets, one is reached with probability p/q by following the protocol, and with probability
    p/q + (1 - p/q) p/q by choosing between the two: as many choices of the honest dealers, out of q^(t h). *)
Theorem C147_choosing_nearly_doubles :
  forall (S : Suite) (L : SuiteLaws S) (q t : nat) (i1 i2 : u32) (hon : list u32) (d : u32) (cd : list F) (others : list (u32 * list F)) (P : list F),
  exactly q (fun _ : F => True) -> (N.of_nat t < 4294967296)%N -> 0 < t -> good_indices (i1 :: i2 :: hon ++ d :: map fst others) -> NoDup P ->
  let N := q ^ (t * length (i1 :: i2 :: hon) - 2) in
  let all cs := secret_shared (combine (i1 :: i2 :: hon) cs ++ (d, cd) :: others) in
  let without cs := secret_shared (combine (i1 :: i2 :: hon) cs ++ others) in
  let choice cs := Forall2 (fun _ a => length a = t) (i1 :: i2 :: hon) cs in
  exactly (q * q * N) choice /\
  exactly (length P * q * N) (fun cs => choice cs /\ In (all cs) P) /\
  exactly ((length P * q + (q - length P) * length P) * N) (fun cs => choice cs /\ (In (all cs) P \/ In (without cs) P)).
Proof.
  intros S L q t i1 i2 hon d cd others P Hq Ht Hp Hg HP N all without choice.
  assert (X : forall n (Q : F * F -> Prop), exactly n Q -> exactly (n * N) (fun cs => choice cs /\ Q (all cs, without cs))).
  { intros n Q HQ. apply (exactly_iff _ (fun cs => exists xy, Q xy /\ (choice cs /\ all cs = fst xy /\ without cs = snd xy))).
    - intros cs. split.
      + intros ((x & y) & H1 & H2 & H3 & H4). cbn [fst snd] in *. rewrite H3, H4. auto.
      + intros (H1 & H2). exists (all cs, without cs). auto.
    - apply exactly_sum; [exact HQ| |].
      + intros [x y] _. apply (C147_pairs_are_uniform S L q t i1 i2 hon d cd others x y); assumption.
      + intros [x y] [x' y'] cs _ _ (_ & E1 & E2) (_ & E3 & E4). cbn [fst snd] in *. congruence. }
  assert (HA : exactly (q * q) (fun _ : F * F => True)).
  { apply (exactly_iff _ (fun xy : F * F => exists x : F, True /\ exists y : F, True /\ xy = (x, y))).
    - intros [x y]. split; [auto|]. intros _. exists x. split; [exact I|]. exists y. auto.
    - apply exactly_sum; [exact Hq| |].
      + intros x _. apply (exactly_image _ (fun _ : F => True) _ (fun y => (x, y))); [congruence|reflexivity|exact Hq].
      + intros x x' xy _ _ (y & _ & E) (y' & _ & E'). congruence. }
  split; [|split].
  - eapply exactly_iff; [|exact (X _ _ HA)]. intros cs. cbv beta. tauto.
  - assert (HF : exactly (length P * q) (fun xy : F * F => In (fst xy) P)).
    { apply (exactly_iff _ (fun xy : F * F => exists x, In x P /\ exists y : F, True /\ xy = (x, y))).
      - intros [x y]. cbn [fst]. split; [intros (x' & H & y' & _ & E); congruence|intros H; exists x; split; [exact H|]; exists y; auto].
      - apply exactly_sum; [apply exactly_in, HP| |].
        + intros x _. apply (exactly_image _ (fun _ : F => True) _ (fun y => (x, y))); [congruence|reflexivity|exact Hq].
        + intros x x' xy _ _ (y & _ & E) (y' & _ & E'). congruence. }
    exact (X _ _ HF).
  - exact (X _ _ (count_pairs q P Hq HP)).
Qed.
Print Assumptions C147_choosing_nearly_doubles.

Section Api.
  Context {S : Suite} {L : SuiteLaws S}.
  Lemma party_unique (l : list Party) : NoDup (map y_index l) -> forall a b, In a l -> In b l -> y_index a = y_index b -> a = b.
  Proof.
    induction l as [|x l IH]; intros Hn a b Ha Hb E; [contradiction|]. cbn [map] in Hn. apply NoDup_cons_iff in Hn as [N1 N2].
    destruct Ha as [<-|Ha], Hb as [<-|Hb]; auto.
    - destruct N1. rewrite E. apply in_map, Hb.
    - destruct N1. rewrite <- E. apply in_map, Ha.
  Qed.
  Lemma filter_keep {X} (f : X -> bool) l : (forall x, In x l -> f x = true) -> filter f l = l.
  Proof.
    induction l as [|x l IH]; intros H; [reflexivity|]. cbn [filter]. rewrite (H x (or_introl eq_refl)). f_equal. apply IH. intros; apply H; right; assumption.
  Qed.
  Lemma filter_perm {X} (f : X -> bool) l l' : Permutation l l' -> Permutation (filter f l) (filter f l').
  Proof.
    induction 1; cbn [filter].
    - constructor.
    - destruct (f x); [constructor; assumption|assumption].
    - destruct (f x), (f y); try (apply Permutation_refl). constructor.
    - etransitivity; eassumption.
  Qed.
End Api.

(** In the API: dealer d follows the protocol, and decides at the end whether to send some participant q one more ciphertext that
    does not decrypt to its share. Everybody else follows the protocol and settles the complaint. The group keys of the two endings are those of the
    two secrets above, whichever participant computes them. *)
Theorem C147_the_two_endings :
  forall (S : Suite) (L : SuiteLaws S) (m : build) (params : Params) (parties ds : list Party) (pd qp : Party) (others : list (u32 * list F))
    (senders : list Party) (es : list EncShare) (e : EncShare) (r : Rng),
  honest_parties params parties -> all_bootstrapped m params parties ->
  Permutation (map (fun z => (y_index z, y_co z)) parties) (map (fun z => (y_index z, y_co z)) ds ++ (y_index pd, y_co pd) :: others) ->
  In pd parties -> In qp parties -> (forall p, In p parties -> (u32v (y_index p) <= u32v (p_n params))%N) -> (u32v (p_t params) < u32v (p_n params))%N ->
  Permutation senders parties -> delivered senders qp es ->
  es_sender e = y_index pd -> es_receiver e = y_index qp ->
  decrypt_share e (enc_point ((gen * y_x pd) * y_x qp)%G) <> Ok (MkShare (y_index pd) (y_index qp) (poly_value (y_co pd) (of_u32 (y_index qp)))) ->
  let gk1 := (gen * secret_shared (combine (map y_index ds) (map y_co ds) ++ (y_index pd, y_co pd) :: others))%G in
  let gk2 := (gen * secret_shared (combine (map y_index ds) (map y_co ds) ++ others))%G in
  (forall w sendersw esw rw, In w parties -> Permutation sendersw parties -> delivered sendersw w esw ->
     exists s2 r' sk, to_round_two m (y_st w) esw rw = Ok (s2, [], r') /\ finish s2 = Ok (gk1, sk)) /\
  exists s2 cs r' keys s3 sk, to_round_two m (y_st qp) (es ++ [e]) r = Ok (s2, cs, r') /\ blame s2 cs = Ok (keys, s3) /\ finish s3 = Ok (gk2, sk) /\
    forall w sendersw esw rw, In w parties -> Permutation sendersw parties -> delivered sendersw w esw ->
      exists s2w rw' s3w skw, to_round_two m (y_st w) esw rw = Ok (s2w, [], rw') /\ blame s2w cs = Ok (keys, s3w) /\ finish s3w = Ok (gk2, skw).
Proof.
  intros S L m params parties ds pd qp others senders es e r H HB HP Hpd Hq Hle Ht HPs HD E1 E2 Hbad gk1 gk2.
  assert (Ec : combine (map y_index ds) (map y_co ds) = map (fun z => (y_index z, y_co z)) ds).
  { clear. induction ds as [|x ds IH]; [reflexivity|]. cbn [map combine]. rewrite IH. reflexivity. }
  assert (Ed : forall l, interp0 (dealt_values l F0) = secret_shared (map (fun z => (y_index z, y_co z)) l)).
  { intros l. unfold dealt_values, secret_shared. rewrite map_map. reflexivity. }
  pose proof (proj1 (hp_indices _ _ H)) as Hnd.
  split.
  - intros w sendersw esw rw Hw HPw HDw. destruct (C18_honest_agreement S L m params parties H HB) as (s & Es & HA).
    destruct (HA w sendersw esw rw Hw HPw HDw) as (s2 & r' & sk & A1 & A2 & _). exists s2, r', sk. split; [exact A1|]. rewrite A2. unfold gk1.
    rewrite Es, Ed, Ec, (secret_perm _ _ HP). reflexivity.
  - set (f := fun i => negb (u32_eqb i (y_index pd))). set (rest := filter (fun p => f (y_index p)) parties).
    assert (Hrest : forall p, In p rest <-> In p parties /\ ~ In (y_index p) (map es_sender [e])).
    { intros p. unfold rest, f. rewrite filter_In, negb_true_iff, u32_eqb_neq. cbn [map In]. rewrite E1. split; intros [K1 K2]; (split; [exact K1|]).
      - intros [K|[]]. congruence.
      - intros K. apply K2. left. congruence. }
    assert (Hb : forall e', In e' [e] -> exists p, In p parties /\ es_sender e' = y_index p /\ es_receiver e' = y_index qp /\
      decrypt_share e' (enc_point ((gen * y_x p) * y_x qp)%G) <> Ok (MkShare (y_index p) (y_index qp) (poly_value (y_co p) (of_u32 (y_index qp))))).
    { intros e' [<-|[]]. exists pd. auto. }
    assert (Ht' : (u32v (p_t params) + N.of_nat (length [e]) <= u32v (p_n params))%N) by (cbn [length]; lia).
    assert (Hnr : NoDup rest) by (apply NoDup_filter, (NoDup_map_inv y_index), Hnd).
    assert (Eg : (gen * interp0 (dealt_values rest F0))%G = gk2).
    { unfold gk2. rewrite Ed, Ec. f_equal. apply secret_perm.
      assert (K : map (fun z => (y_index z, y_co z)) rest = filter (fun o => f (fst o)) (map (fun z => (y_index z, y_co z)) parties)).
      { unfold rest. clear. induction parties as [|p l IH]; [reflexivity|]. cbn [filter map fst]. destruct (f (y_index p)); cbn [map]; rewrite IH; reflexivity. }
      rewrite K. eapply Permutation_trans; [apply filter_perm, HP|].
      assert (N : NoDup (map fst (map (fun z => (y_index z, y_co z)) ds ++ (y_index pd, y_co pd) :: others))).
      { apply (Permutation_NoDup (Permutation_map fst HP)). rewrite map_map. exact Hnd. }
      rewrite map_app in N. cbn [map fst] in N. apply NoDup_remove in N as [_ N]. rewrite <- map_app in N.
      rewrite filter_app. cbn [filter fst]. unfold f at 2. rewrite u32_eqb_refl. cbn [negb]. rewrite <- filter_app, filter_keep; [apply Permutation_refl|].
      intros o Ho. unfold f. apply negb_true_iff, u32_eqb_neq. intros K1. apply N. rewrite <- K1. apply in_map, Ho. }
    destruct (C83_complaints_select_the_group_key S L m params parties rest qp senders es [e] r H HB Hq Hle HPs HD Hb Ht' Hnr Hrest)
      as (s2 & cs & r' & keys & s3 & sk & K1 & K2 & K3 & K4).
    rewrite Eg in K3, K4. exists s2, cs, r', keys, s3, sk. split; [exact K1|]. split; [exact K2|]. split; [exact K3|].
    intros w sendersw esw rw Hw HPw HDw. destruct (K4 w sendersw esw rw Hw HPw HDw) as (s2w & rw' & s3w & skw & W1 & W2 & W3 & _). eauto 10.
Qed.
Print Assumptions C147_the_two_endings.

(** Two honest dealers are needed: with one, the secret without d is a function of the secret with d. *)
Section Need.
  Context {S : Suite} {L : SuiteLaws S}.
  Add Field F_fld2 : F_field.
  Lemma one_function (a w1 w2 c1 c2 : F) : w1 <> F0 -> (a * w2 + c2 = (a * w1 + c1) * (w2 * Finv w1) + (c2 - c1 * (w2 * Finv w1)))%F.
  Proof. intros H. field. exact H. Qed.
  Lemma two_function (a b u2 v2 k c1 c2 : F) : (a * (u2 * k) + (b * (v2 * k) + c1) = (a * u2 + (b * v2 + c2)) * k + (c1 - c2 * k))%F.
  Proof. ring. Qed.
  Lemma ratio_equal (i1 i2 d1 d2 : F) : (i1 + i2 = d1 + d2)%F -> (d1 - i1)%F <> F0 -> (d2 - i1)%F <> F0 -> (d1 - i2)%F <> F0 -> (d2 - i2)%F <> F0 ->
    (d2 * Finv (d2 - i1) * (d1 * Finv (d1 - i1)) = d2 * Finv (d2 - i2) * (d1 * Finv (d1 - i2)))%F.
  Proof.
    intros E H1 H2 H3 H4. assert (E2 : i2 = (d1 + d2 - i1)%F) by (rewrite <- E; ring). subst i2. clear E.
    field. repeat split; assumption.
  Qed.
  Lemma Fmul_assoc' (a b c : F) : (a * b * c = a * (b * c))%F.
  Proof. ring. Qed.
End Need.

Theorem C147_one_honest_dealer_is_not_enough :
  forall (S : Suite) (L : SuiteLaws S) (i d : u32) (cd : list F) (others : list (u32 * list F)),
  good_indices (i :: d :: map fst others) ->
  exists k c : F, forall a, secret_shared ((i, a) :: others) = (secret_shared ((i, a) :: (d, cd) :: others) * k + c)%F.
Proof.
  intros S L i d cd others Hg. set (l1 := i :: d :: map fst others). set (l2 := i :: map fst others).
  set (c1 := rest_sum l1 ((d, cd) :: others)). set (c2 := rest_sum l2 others).
  exists (weight i l2 * Finv (weight i l1))%F, (c2 - c1 * (weight i l2 * Finv (weight i l1)))%F. intros a.
  assert (K : forall o l, l = i :: map fst o -> secret_shared ((i, a) :: o) = (poly_value a F0 * weight i l + rest_sum l o)%F).
  { intros o l ->. unfold secret_shared, interp0, rest_sum. cbn [map fst snd fsum]. rewrite !map_map. reflexivity. }
  rewrite (K others l2 eq_refl), (K ((d, cd) :: others) l1 eq_refl). apply one_function. apply weight_neq_0, Hg.
Qed.
Print Assumptions C147_one_honest_dealer_is_not_enough.

(** Removing one more does not give a third independent try in general: if the indices of the two removed dealers add up to those of
    the two honest ones, the secret of all is a function of the secret without both. *)
Theorem C147_removing_two_may_depend :
  forall (S : Suite) (L : SuiteLaws S) (i1 i2 d1 d2 : u32) (c1 c2 : list F) (others : list (u32 * list F)),
  good_indices (d1 :: d2 :: i1 :: i2 :: map fst others) -> (of_u32 i1 + of_u32 i2 = of_u32 d1 + of_u32 d2)%F ->
  exists k c : F, forall a b,
    secret_shared ((i1, a) :: (i2, b) :: (d1, c1) :: (d2, c2) :: others) = (secret_shared ((i1, a) :: (i2, b) :: others) * k + c)%F.
Proof.
  intros S L i1 i2 d1 d2 c1 c2 o [Hn Hz] Hs. set (l2 := i1 :: i2 :: map fst o). set (l1 := d1 :: d2 :: l2).
  assert (N : d1 <> i1 /\ d1 <> i2 /\ d2 <> i1 /\ d2 <> i2).
  { inversion Hn as [|? ? A1 A2]; subst. inversion A2 as [|? ? A3 A4]; subst. repeat split; intros ->; [apply A1|apply A1|apply A3|apply A3]; cbn [In]; tauto. }
  destruct N as (N1 & N2 & N3 & N4).
  set (ratio := fun i => (of_u32 d2 * Finv (of_u32 d2 - of_u32 i) * (of_u32 d1 * Finv (of_u32 d1 - of_u32 i)))%F).
  assert (W : forall i, d1 <> i -> d2 <> i -> weight i l1 = (weight i l2 * ratio i)%F).
  { intros i K1 K2. unfold l1, ratio. rewrite (weight_more i d1 _ K1), (weight_more i d2 _ K2). apply Fmul_assoc'. }
  assert (D : forall x y, x <> y -> (of_u32 x - of_u32 y)%F <> F0) by (intros x y K E; apply Fsub_0 in E; apply of_u32_inj in E; exact (K E)).
  assert (ER : ratio i2 = ratio i1) by (unfold ratio; symmetry; apply ratio_equal; auto).
  set (o1 := (d1, c1) :: (d2, c2) :: o).
  assert (HP : Permutation (i1 :: i2 :: map fst o1) l1).
  { unfold o1, l1, l2. cbn [map fst]. apply NoDup_Permutation.
    - apply (Permutation_NoDup (l := d1 :: d2 :: i1 :: i2 :: map fst o)); [|exact Hn].
      apply (Permutation_app_comm [d1; d2] [i1; i2]) || exact (Permutation_app (Permutation_app_comm [d1; d2] [i1; i2]) (Permutation_refl (map fst o))).
    - exact Hn.
    - intros x. cbn [In]. tauto. }
  exists (ratio i1), (rest_sum (i1 :: i2 :: map fst o1) o1 - rest_sum l2 o * ratio i1)%F. intros a b.
  pose proof (secret_two i1 i2 [] a b [] o1 eq_refl) as E1. pose proof (secret_two i1 i2 [] a b [] o eq_refl) as E2. cbv zeta in E1, E2. cbn [combine app] in E1, E2.
  rewrite E1, E2. rewrite (weight_perm i1 _ _ HP), (weight_perm i2 _ _ HP), (W i1 N1 N3), (W i2 N2 N4), ER. apply two_function.
Qed.
Print Assumptions C147_removing_two_may_depend.

(** two honest dealers 1 and 3 and dealer 2 of C83_ex, threshold 2; three wanted secrets *)
Example C147_ex : exists q, exactly q (fun _ : @F Toy => True) /\ good_indices ([u 1; u 3] ++ u 2 :: map fst (@nil (u32 * list (@F Toy)))) /\ NoDup [mk 5%Z; mk 6%Z; mk 7%Z] /\
  exactly (q * q * q ^ 2) (fun cs : list (list (@F Toy)) => Forall2 (fun _ a => length a = 2) [u 1; u 3] cs) /\
  exactly ((3 * q + (q - 3) * 3) * q ^ 2) (fun cs : list (list (@F Toy)) => Forall2 (fun _ a => length a = 2) [u 1; u 3] cs /\
    (In (secret_shared (S := Toy) (combine [u 1; u 3] cs ++ [(u 2, sq_co 2)])) [mk 5%Z; mk 6%Z; mk 7%Z] \/
     In (secret_shared (S := Toy) (combine [u 1; u 3] cs ++ [])) [mk 5%Z; mk 6%Z; mk 7%Z])).
Proof.
  destruct toy_count as (q & _ & H). exists q. split; [exact H|].
  assert (G : good_indices ([u 1; u 3] ++ u 2 :: map fst (@nil (u32 * list (@F Toy))))) by good. split; [exact G|].
  assert (N : NoDup [mk 5%Z; mk 6%Z; mk 7%Z]).
  { assert (D : forall a b : @F Toy, @Feqb Toy a b = false -> a <> b) by (intros a b E ->; rewrite (proj2 (@Feqb_spec Toy ToyLaws b b) eq_refl) in E; discriminate).
    constructor; [intros [K|[K|[]]]; symmetry in K; revert K; apply D; vmr|]. constructor; [intros [K|[]]; symmetry in K; revert K; apply D; vmr|].
    constructor; [intros []|constructor]. }
  split; [exact N|].
  destruct (C147_choosing_nearly_doubles Toy ToyLaws q 2 (u 1) (u 3) [] (u 2) (sq_co 2) [] [mk 5%Z; mk 6%Z; mk 7%Z] H ltac:(reflexivity) ltac:(lia) G N) as (A & _ & C).
  split; [exact A|exact C].
Qed.
(** and its group keys: the two endings of that run *)
Example C147_ex_keys : honest_parties demo_params (map sq_party [1; 2; 3]%N) /\
  C83_key [1; 2; 3]%N = (toy_gen * secret_shared (S := Toy) (combine [u 1; u 3] [sq_co 1; sq_co 3] ++ [(u 2, sq_co 2)]))%G /\
  C83_key [1; 3]%N = (toy_gen * secret_shared (S := Toy) (combine [u 1; u 3] [sq_co 1; sq_co 3] ++ []))%G.
Proof. split; [exact C83_ex_honest|]. split; vmr. Qed.
(** dealers 1 and 4 honest, 2 and 3 removed *)
Example C147_ex_two : good_indices [u 2; u 3; u 1; u 4] /\ (@of_u32 Toy (u 1) + of_u32 (u 4) = of_u32 (u 2) + of_u32 (u 3))%F.
Proof. split; [good|vmr]. Qed.
