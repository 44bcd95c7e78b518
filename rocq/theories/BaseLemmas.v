(** Facts about sorting, deduplication, ordered maps and byte encodings of integers. *)
From Coq Require Import String Strings.Byte Arith NArith Bool List Lia Permutation Sorted.
From Verif Require Import Base Suite Spec Algebra.
Import ListNotations.

Definition u32_lt (a b : u32) : Prop := (u32v a < u32v b)%N.
Definition u32_le_ (a b : u32) : Prop := (u32v a <= u32v b)%N.

Lemma u32_lt_irrefl a : ~ u32_lt a a.
Proof. unfold u32_lt. lia. Qed.
Lemma u32_lt_trans a b c : u32_lt a b -> u32_lt b c -> u32_lt a c.
Proof. unfold u32_lt. lia. Qed.
Lemma u32_lt_neq a b : u32_lt a b -> a <> b.
Proof. intros H ->. exact (u32_lt_irrefl _ H). Qed.
Lemma u32_trichotomy a b : u32_lt a b \/ a = b \/ u32_lt b a.
Proof.
  unfold u32_lt. destruct (N.lt_trichotomy (u32v a) (u32v b)) as [H|[H|H]]; auto.
  right; left. apply u32_ext, H.
Qed.
Lemma u32_ltb_spec a b : u32_ltb a b = true <-> u32_lt a b.
Proof. unfold u32_ltb, u32_lt. apply N.ltb_lt. Qed.
Lemma u32_leb_spec a b : u32_leb a b = true <-> u32_le_ a b.
Proof. unfold u32_leb, u32_le_. apply N.leb_le. Qed.

(** strictly increasing lists of indices *)
Definition increasing (l : list u32) : Prop := StronglySorted u32_lt l.

Lemma increasing_cons_inv a l : increasing (a :: l) -> increasing l /\ forall x, In x l -> u32_lt a x.
Proof.
  intros H. inversion H as [|? ? H1 H2]; subst. split; [exact H1|].
  intros x Hx. rewrite Forall_forall in H2. apply H2, Hx.
Qed.
Lemma increasing_cons a l : increasing l -> (forall x, In x l -> u32_lt a x) -> increasing (a :: l).
Proof. intros H1 H2. constructor; [exact H1|]. apply Forall_forall. exact H2. Qed.
Lemma increasing_NoDup l : increasing l -> NoDup l.
Proof.
  induction l as [|a l IH]; intros H; constructor.
  - apply increasing_cons_inv in H. destruct H as [_ H]. intros Hin.
    exact (u32_lt_irrefl _ (H _ Hin)).
  - apply IH. apply increasing_cons_inv in H. apply H.
Qed.
Lemma increasing_unique l : forall l', increasing l -> increasing l' ->
  (forall x, In x l <-> In x l') -> l = l'.
Proof.
  induction l as [|a l IH]; intros [|b l'] H H' E.
  - reflexivity.
  - exfalso. apply (E b). left; reflexivity.
  - exfalso. apply (E a). left; reflexivity.
  - apply increasing_cons_inv in H, H'. destruct H as [H1 H2], H' as [H1' H2'].
    assert (a = b).
    { destruct (proj1 (E a) (or_introl eq_refl)) as [|Ha]; [congruence|].
      destruct (proj2 (E b) (or_introl eq_refl)) as [|Hb]; [congruence|].
      exfalso. apply (u32_lt_irrefl a). eapply u32_lt_trans; [apply H2, Hb|apply H2', Ha]. }
    subst b. f_equal. apply IH; auto. intros x. split; intros Hx.
    + destruct (proj1 (E x) (or_intror Hx)) as [->|]; [|assumption].
      exfalso. exact (u32_lt_irrefl _ (H2 _ Hx)).
    + destruct (proj2 (E x) (or_intror Hx)) as [->|]; [|assumption].
      exfalso. exact (u32_lt_irrefl _ (H2' _ Hx)).
Qed.
Lemma increasing_perm_eq l l' : increasing l -> increasing l' -> Permutation l l' -> l = l'.
Proof.
  intros H H' P. apply increasing_unique; auto. intros x. split; apply Permutation_in; [exact P|].
  apply Permutation_sym, P.
Qed.
Lemma increasing_filter p l : increasing l -> increasing (filter p l).
Proof.
  induction l as [|a l IH]; intros H; [exact H|]. apply increasing_cons_inv in H. destruct H as [H1 H2].
  cbn. destruct (p a); [|apply IH, H1]. apply increasing_cons; [apply IH, H1|].
  intros x Hx. apply filter_In in Hx. apply H2, Hx.
Qed.

(** ** sort and dedup *)
Section Sorting.
  Context {A : Type} (key : A -> u32).

  Definition kle (a b : A) : Prop := u32_le_ (key a) (key b).

  Lemma insert_sorted_perm x l : Permutation (insert_sorted key x l) (x :: l).
  Proof.
    induction l as [|y l IH]; cbn; [reflexivity|].
    destruct (u32_leb (key y) (key x)); [|reflexivity].
    rewrite IH. apply perm_swap.
  Qed.
  Lemma insert_sorted_sorted x l : StronglySorted kle l -> StronglySorted kle (insert_sorted key x l).
  Proof.
    induction l as [|y l IH]; intros H; cbn.
    - constructor; constructor.
    - inversion H as [|? ? H1 H2]; subst. destruct (u32_leb (key y) (key x)) eqn:E.
      + constructor; [apply IH, H1|]. rewrite (insert_sorted_perm x l). constructor; [|exact H2].
        apply u32_leb_spec in E. exact E.
      + constructor; [exact H|]. assert (Hxy : kle x y).
        { unfold kle, u32_le_. unfold u32_leb in E. apply N.leb_gt in E. lia. }
        constructor; [exact Hxy|]. rewrite Forall_forall in *. intros z Hz.
        specialize (H2 z Hz). unfold kle, u32_le_ in *. lia.
  Qed.
  Lemma fold_insert_perm l : forall acc,
    Permutation (fold_left (fun acc x => insert_sorted key x acc) l acc) (l ++ acc).
  Proof.
    induction l as [|x l IH]; intros acc; cbn; [reflexivity|].
    rewrite IH, insert_sorted_perm. symmetry. apply Permutation_middle.
  Qed.
  Lemma fold_insert_sorted l : forall acc, StronglySorted kle acc ->
    StronglySorted kle (fold_left (fun acc x => insert_sorted key x acc) l acc).
  Proof.
    induction l as [|x l IH]; intros acc H; cbn; [exact H|]. apply IH, insert_sorted_sorted, H.
  Qed.
  Lemma sort_by_perm l : Permutation (sort_by key l) l.
  Proof. unfold sort_by. rewrite fold_insert_perm, app_nil_r. reflexivity. Qed.
  Lemma sort_by_sorted l : StronglySorted kle (sort_by key l).
  Proof. apply fold_insert_sorted. constructor. Qed.

  Lemma dedup_from_incl l : forall p x, In x (dedup_from key p l) -> In x l.
  Proof.
    induction l as [|y l IH]; intros p x H; cbn in *; [exact H|].
    destruct (u32_eqb (key y) (key p)); [right; eapply IH; exact H|].
    destruct H as [->|H]; [left; reflexivity|right; eapply IH; exact H].
  Qed.
  Lemma dedup_by_incl l x : In x (dedup_by key l) -> In x l.
  Proof.
    destruct l as [|y l]; cbn; [auto|]. intros [->|H]; [left; reflexivity|right].
    eapply dedup_from_incl, H.
  Qed.
  Lemma dedup_from_keys l : forall p k, (In k (map key (dedup_from key p l)) \/ k = key p) <->
    (In k (map key l) \/ k = key p).
  Proof.
    induction l as [|y l IH]; intros p k; cbn; [tauto|].
    destruct (u32_eqb (key y) (key p)) eqn:E.
    - apply u32_eqb_spec in E. rewrite IH. rewrite E. intuition congruence.
    - cbn. specialize (IH y k). intuition congruence.
  Qed.
  Lemma dedup_by_keys l k : In k (map key (dedup_by key l)) <-> In k (map key l).
  Proof.
    destruct l as [|y l]; cbn; [tauto|]. pose proof (dedup_from_keys l y k). intuition congruence.
  Qed.
  Lemma dedup_from_increasing l : forall p, StronglySorted kle (p :: l) ->
    increasing (map key (dedup_from key p l)) /\
    (forall x, In x (dedup_from key p l) -> u32_lt (key p) (key x)).
  Proof.
    induction l as [|y l IH]; intros p H; cbn.
    - split; [constructor|contradiction].
    - inversion H as [|? ? H1 H2]; subst. inversion H2 as [|? ? H3 H4]; subst.
      inversion H1 as [|? ? H5 H6]; subst.
      destruct (u32_eqb (key y) (key p)) eqn:E.
      + apply IH. constructor; assumption.
      + apply u32_eqb_neq in E. destruct (IH y H1) as [I1 I2].
        assert (Hpy : u32_lt (key p) (key y)).
        { unfold kle, u32_le_ in H3. unfold u32_lt.
          assert (u32v (key p) <> u32v (key y)) by (intros X; apply u32_ext in X; congruence). lia. }
        split.
        * apply increasing_cons; [exact I1|]. intros k Hk. apply in_map_iff in Hk.
          destruct Hk as [z [<- Hz]]. apply I2, Hz.
        * intros x [<-|Hx]; [exact Hpy|]. eapply u32_lt_trans; [exact Hpy|apply I2, Hx].
  Qed.
  Lemma dedup_by_increasing l : StronglySorted kle l -> increasing (map key (dedup_by key l)).
  Proof.
    destruct l as [|x l]; intros H; cbn; [constructor|].
    destruct (dedup_from_increasing l x H) as [H1 H2].
    apply increasing_cons; [exact H1|]. intros k Hk. apply in_map_iff in Hk.
    destruct Hk as [z [<- Hz]]. apply H2, Hz.
  Qed.

  (** sort followed by dedup *)
  Definition sd (l : list A) : list A := dedup_by key (sort_by key l).

  Lemma sd_increasing l : increasing (map key (sd l)).
  Proof. apply dedup_by_increasing, sort_by_sorted. Qed.
  Lemma sd_incl l x : In x (sd l) -> In x l.
  Proof. intros H. apply dedup_by_incl in H. eapply Permutation_in; [apply sort_by_perm|exact H]. Qed.
  Lemma sd_keys l k : In k (map key (sd l)) <-> In k (map key l).
  Proof.
    unfold sd. rewrite dedup_by_keys. split; apply Permutation_in; [|apply Permutation_sym];
      apply Permutation_map, sort_by_perm.
  Qed.

  Lemma dedup_from_NoDup l : forall p, NoDup (map key (p :: l)) -> dedup_from key p l = l.
  Proof.
    induction l as [|y l IH]; intros p H; cbn; [reflexivity|].
    inversion H as [|? ? H1 H2]; subst. cbn in H1.
    destruct (u32_eqb (key y) (key p)) eqn:E.
    - apply u32_eqb_spec in E. exfalso. apply H1. left. exact E.
    - f_equal. apply IH. exact H2.
  Qed.
  Lemma dedup_by_NoDup l : NoDup (map key l) -> dedup_by key l = l.
  Proof. destruct l as [|x l]; intros H; cbn; [reflexivity|]. f_equal. apply dedup_from_NoDup, H. Qed.
  Lemma sd_NoDup_perm l : NoDup (map key l) -> Permutation (sd l) l.
  Proof.
    intros H. unfold sd. rewrite dedup_by_NoDup; [apply sort_by_perm|].
    eapply Permutation_NoDup; [|exact H]. apply Permutation_map, Permutation_sym, sort_by_perm.
  Qed.
  Lemma dedup_from_length l : forall p, length (dedup_from key p l) <= length l.
  Proof.
    induction l as [|y l IH]; intros p; cbn; [lia|].
    destruct (u32_eqb (key y) (key p)); cbn; [specialize (IH p)|specialize (IH y)]; lia.
  Qed.
  Lemma sd_length_NoDup l : length (sd l) = length l -> NoDup (map key l).
  Proof.
    intros H. unfold sd in H. assert (E : dedup_by key (sort_by key l) = sort_by key l).
    { assert (Hl : length (dedup_by key (sort_by key l)) = length (sort_by key l))
        by (rewrite H; symmetry; apply Permutation_length, sort_by_perm).
      destruct (sort_by key l) as [|x s]; [reflexivity|]. cbn in *. f_equal. clear H.
      assert (forall s p, length (dedup_from key p s) = length s -> dedup_from key p s = s) as X.
      { clear. induction s as [|y s IH]; intros p H; cbn in *; [reflexivity|].
        destruct (u32_eqb (key y) (key p)).
        - pose proof (dedup_from_length s p). cbn in *. lia.
        - f_equal. apply IH. cbn in H. lia. }
      apply X. lia. }
    pose proof (sd_increasing l) as HI. unfold sd in HI. rewrite E in HI.
    apply increasing_NoDup in HI. eapply Permutation_NoDup; [|exact HI].
    apply Permutation_map, sort_by_perm.
  Qed.
  Lemma sd_length l : length (sd l) <= length l.
  Proof.
    unfold sd. pose proof (Permutation_length (sort_by_perm l)) as Hl. rewrite <- Hl.
    destruct (sort_by key l) as [|x s]; cbn; [lia|]. pose proof (dedup_from_length s x). lia.
  Qed.
End Sorting.

Lemma sd_id_increasing l : increasing (sd (fun x : u32 => x) l).
Proof. pose proof (sd_increasing (fun x => x) l) as H. rewrite map_id in H. exact H. Qed.
Lemma sd_id_in l x : In x (sd (fun x : u32 => x) l) <-> In x l.
Proof. pose proof (sd_keys (fun x => x) l x) as H. rewrite !map_id in H. exact H. Qed.
Lemma sd_id_ext l l' : (forall x, In x l <-> In x l') -> sd (fun x : u32 => x) l = sd (fun x => x) l'.
Proof.
  intros H. apply increasing_unique; try apply sd_id_increasing.
  intros x. rewrite !sd_id_in. apply H.
Qed.
Lemma sd_id_fix l : increasing l -> sd (fun x : u32 => x) l = l.
Proof.
  intros H. apply increasing_unique; [apply sd_id_increasing|exact H|]. intros x. apply sd_id_in.
Qed.

(** lists with distinct keys that are permutations and both increasing are equal *)
Lemma increasing_map_perm_eq {A} (key : A -> u32) : forall l l',
  increasing (map key l) -> increasing (map key l') -> Permutation l l' -> l = l'.
Proof.
  induction l as [|a l IH]; intros l' H H' P.
  - apply Permutation_nil in P. congruence.
  - destruct l' as [|b l']; [apply Permutation_sym, Permutation_nil in P; discriminate|].
    cbn in *. apply increasing_cons_inv in H, H'. destruct H as [H1 H2], H' as [H1' H2'].
    assert (a = b).
    { assert (Ha : In a (b :: l')) by (eapply Permutation_in; [exact P|left; reflexivity]).
      assert (Hb : In b (a :: l)) by (eapply Permutation_in; [apply Permutation_sym, P|left; reflexivity]).
      destruct Ha as [Ha|Ha]; [congruence|]. destruct Hb as [Hb|Hb]; [congruence|].
      exfalso. apply (u32_lt_irrefl (key a)).
      eapply u32_lt_trans; [apply H2, in_map, Hb|apply H2', in_map, Ha]. }
    subst b. f_equal. apply IH; auto. eapply Permutation_cons_inv, P.
Qed.

(** ** ordered maps *)
Section Maps.
  Context {V : Type}.
  Implicit Types m : bmap V.

  Definition ksorted m : Prop := increasing (bkeys m).

  Lemma ksorted_nil : ksorted [].
  Proof. constructor. Qed.
  Lemma bget_in k v m : bget k m = Some v -> In (k, v) m.
  Proof.
    induction m as [|[k' v'] m IH]; cbn; [discriminate|].
    destruct (u32_eqb k k') eqn:E.
    - apply u32_eqb_spec in E. intros [= ->]. left. congruence.
    - intros H. right. apply IH, H.
  Qed.
  Lemma bget_none k m : bget k m = None <-> ~ In k (bkeys m).
  Proof.
    induction m as [|[k' v'] m IH]; cbn; [tauto|].
    destruct (u32_eqb k k') eqn:E.
    - apply u32_eqb_spec in E. split; [discriminate|]. intros H. exfalso. apply H. auto.
    - apply u32_eqb_neq in E. rewrite IH. intuition congruence.
  Qed.
  Lemma bget_some_key k v m : bget k m = Some v -> In k (bkeys m).
  Proof. intros H. apply bget_in in H. apply (in_map fst) in H. exact H. Qed.
  Lemma bget_key_some k m : In k (bkeys m) -> exists v, bget k m = Some v.
  Proof.
    intros H. destruct (bget k m) eqn:E; [eauto|]. apply bget_none in E. contradiction.
  Qed.
  Lemma in_bget k v m : NoDup (bkeys m) -> In (k, v) m -> bget k m = Some v.
  Proof.
    induction m as [|[k' v'] m IH]; cbn; [contradiction|]. intros Hnd [H|H].
    - injection H as -> ->. rewrite u32_eqb_refl. reflexivity.
    - inversion Hnd as [|? ? Hn Hnd']; subst. destruct (u32_eqb k k') eqn:E.
      + apply u32_eqb_spec in E. subst. exfalso. apply Hn. apply (in_map fst) in H. exact H.
      + apply IH; assumption.
  Qed.

  Lemma bget_binsert k k' v m :
    bget k (binsert k' v m) = if u32_eqb k k' then Some v else bget k m.
  Proof.
    induction m as [|[j w] m IH]; cbn; [reflexivity|].
    destruct (u32_ltb k' j) eqn:E1; cbn; [reflexivity|].
    destruct (u32_eqb k' j) eqn:E2; cbn.
    - apply u32_eqb_spec in E2. subst j. destruct (u32_eqb k k') eqn:E3; reflexivity.
    - rewrite IH. destruct (u32_eqb k j) eqn:E3; [|reflexivity].
      destruct (u32_eqb k k') eqn:E4; [|reflexivity].
      apply u32_eqb_spec in E3, E4. apply u32_eqb_neq in E2. congruence.
  Qed.
  Lemma binsert_keys k v m x : In x (bkeys (binsert k v m)) <-> x = k \/ In x (bkeys m).
  Proof.
    induction m as [|[j w] m IH]; cbn; [intuition congruence|].
    destruct (u32_ltb k j); cbn; [intuition congruence|].
    destruct (u32_eqb k j) eqn:E; cbn.
    - apply u32_eqb_spec in E. intuition congruence.
    - unfold bkeys in *. rewrite IH. intuition congruence.
  Qed.
  Lemma ksorted_binsert k v m : ksorted m -> ksorted (binsert k v m).
  Proof.
    unfold ksorted. induction m as [|[j w] m IH]; cbn; intros H.
    - repeat constructor.
    - apply increasing_cons_inv in H. destruct H as [H1 H2].
      destruct (u32_ltb k j) eqn:E1; cbn.
      + apply u32_ltb_spec in E1. apply increasing_cons.
        * apply increasing_cons; assumption.
        * intros x [<-|Hx]; [exact E1|]. eapply u32_lt_trans; [exact E1|apply H2, Hx].
      + destruct (u32_eqb k j) eqn:E2; cbn.
        * apply u32_eqb_spec in E2. subst. apply increasing_cons; assumption.
        * apply increasing_cons; [apply IH, H1|]. intros x Hx.
          apply (proj1 (binsert_keys k v m x)) in Hx. destruct Hx as [->|Hx]; [|apply H2, Hx].
          destruct (u32_trichotomy j k) as [|[E|E]]; [assumption| |].
          -- subst. rewrite u32_eqb_refl in E2. discriminate.
          -- apply u32_ltb_spec in E. congruence.
  Qed.
  Lemma binsert_fresh_perm k v m : ~ In k (bkeys m) -> Permutation (binsert k v m) ((k, v) :: m).
  Proof.
    induction m as [|[j w] m IH]; cbn; intros H; [reflexivity|].
    destruct (u32_ltb k j); [reflexivity|].
    destruct (u32_eqb k j) eqn:E.
    - apply u32_eqb_spec in E. subst. tauto.
    - rewrite IH by tauto. apply perm_swap.
  Qed.
  Lemma ksorted_ext m m' : ksorted m -> ksorted m' -> (forall k, bget k m = bget k m') -> m = m'.
  Proof.
    intros H H' E. apply (increasing_map_perm_eq fst); auto.
    apply NoDup_Permutation.
    - apply (NoDup_map_inv fst). apply increasing_NoDup, H.
    - apply (NoDup_map_inv fst). apply increasing_NoDup, H'.
    - intros [k v]. split; intros Hin.
      + apply in_bget in Hin; [|apply increasing_NoDup, H]. rewrite E in Hin. apply bget_in, Hin.
      + apply in_bget in Hin; [|apply increasing_NoDup, H']. rewrite <- E in Hin. apply bget_in, Hin.
  Qed.
  Lemma binsert_comm k1 v1 k2 v2 m : ksorted m -> k1 <> k2 ->
    binsert k1 v1 (binsert k2 v2 m) = binsert k2 v2 (binsert k1 v1 m).
  Proof.
    intros H Hne. apply ksorted_ext; try (repeat apply ksorted_binsert; exact H).
    intros k. rewrite !bget_binsert.
    destruct (u32_eqb k k1) eqn:E1, (u32_eqb k k2) eqn:E2; try reflexivity.
    apply u32_eqb_spec in E1, E2. congruence.
  Qed.
  Lemma bget_bremove k k' m : bget k (bremove k' m) = if u32_eqb k k' then None else bget k m.
  Proof.
    unfold bremove. induction m as [|[j w] m IH]; cbn; [destruct (u32_eqb k k'); reflexivity|].
    destruct (u32_eqb k' j) eqn:E; cbn.
    - apply u32_eqb_spec in E. subst j. rewrite IH. destruct (u32_eqb k k'); reflexivity.
    - rewrite IH. destruct (u32_eqb k j) eqn:E1; [|reflexivity].
      apply u32_eqb_spec in E1. subst j. rewrite u32_eqb_sym, E. reflexivity.
  Qed.
  Lemma bkeys_filter (p : u32 -> bool) m :
    bkeys (filter (fun kv => p (fst kv)) m) = filter p (bkeys m).
  Proof.
    unfold bkeys. induction m as [|[k v] m IH]; cbn; [reflexivity|].
    destruct (p k); cbn; rewrite IH; reflexivity.
  Qed.
  Lemma ksorted_bremove k m : ksorted m -> ksorted (bremove k m).
  Proof.
    unfold ksorted, bremove. intros H.
    rewrite (bkeys_filter (fun x => negb (u32_eqb k x))). apply increasing_filter, H.
  Qed.

  (** inserting a whole association list *)
  Fixpoint binsert_all (l : list (u32 * V)) m : bmap V :=
    match l with [] => m | (k, v) :: l' => binsert_all l' (binsert k v m) end.
  Lemma ksorted_binsert_all l : forall m, ksorted m -> ksorted (binsert_all l m).
  Proof.
    induction l as [|[k v] l IH]; intros m H; cbn; [exact H|]. apply IH, ksorted_binsert, H.
  Qed.
  Lemma binsert_all_keys l : forall m x,
    In x (bkeys (binsert_all l m)) <-> In x (map fst l) \/ In x (bkeys m).
  Proof.
    induction l as [|[k v] l IH]; intros m x; cbn [binsert_all map fst In]; [tauto|].
    rewrite IH, binsert_keys. intuition congruence.
  Qed.
  Lemma binsert_all_perm l : forall m, NoDup (map fst l) ->
    (forall x, In x (map fst l) -> ~ In x (bkeys m)) -> Permutation (binsert_all l m) (l ++ m).
  Proof.
    induction l as [|[k v] l IH]; intros m Hnd H; cbn; [reflexivity|].
    inversion Hnd as [|? ? Hn Hnd']; subst. rewrite IH; [|exact Hnd'|].
    - rewrite binsert_fresh_perm by (apply H; left; reflexivity).
      symmetry. apply Permutation_middle.
    - intros x Hx Hin. apply binsert_keys in Hin. destruct Hin as [->|Hin]; [contradiction|].
      apply (H x); [right; exact Hx|exact Hin].
  Qed.
  Lemma bget_binsert_all_nil l k v : NoDup (map fst l) -> In (k, v) l ->
    bget k (binsert_all l []) = Some v.
  Proof.
    intros Hnd Hin. apply in_bget.
    - apply increasing_NoDup, ksorted_binsert_all, ksorted_nil.
    - eapply Permutation_in; [apply Permutation_sym, binsert_all_perm; auto|].
      rewrite app_nil_r. exact Hin.
  Qed.
End Maps.

(** ** little-endian integers *)
Lemma le_bytes_len k n : length (le_bytes k n) = k.
Proof. revert n; induction k; intros; cbn; auto. Qed.
Lemma to_N_byte_of_N n : Byte.to_N (byte_of_N n) = (n mod 256)%N.
Proof.
  unfold byte_of_N. destruct (Byte.of_N (n mod 256)) eqn:E.
  - apply Byte.to_of_N in E. exact E.
  - apply Byte.of_N_None_iff in E. pose proof (N.mod_lt n 256). lia.
Qed.
Lemma le_value_le_bytes k : forall n, (n < 256 ^ N.of_nat k)%N -> le_value (le_bytes k n) = n.
Proof.
  induction k; intros n Hn.
  - cbn in *. lia.
  - cbn [le_bytes le_value]. rewrite to_N_byte_of_N, IHk.
    + rewrite N.add_comm. symmetry. apply N.div_mod. lia.
    + apply N.div_lt_upper_bound; [lia|]. rewrite Nat2N.inj_succ, N.pow_succ_r' in Hn. exact Hn.
Qed.
Lemma u32_le_len i : length (Base.u32_le i) = 4.
Proof. apply le_bytes_len. Qed.
Lemma u32_le_inj i j : Base.u32_le i = Base.u32_le j -> i = j.
Proof.
  unfold Base.u32_le. intros H. apply u32_ext.
  rewrite <- (le_value_le_bytes 4 (u32v i)), <- (le_value_le_bytes 4 (u32v j)), H; [reflexivity| |];
    change (256 ^ N.of_nat 4)%N with 4294967296%N; apply u32_bound.
Qed.

(** ** lists *)
Lemma app_inj_len {A} (a b c d : list A) : length a = length c -> a ++ b = c ++ d -> a = c /\ b = d.
Proof.
  revert c. induction a as [|x a IH]; intros [|y c] Hl H; cbn in *; try discriminate; [auto|].
  injection H as -> H. destruct (IH c) as [-> ->]; auto.
Qed.
