(** Property C148: how far dealers that may be removed can bias the group key. *)
From Coq Require Import String Strings.Byte Arith NArith ZArith Bool List Permutation Lia Field.
From Verif Require Import Base Suite Spec SpecDkg Types ModelDkg Algebra BaseLemmas LemmasShare LemmasRound2 LemmasBlame LemmasFinish
  Toy Demo DemoDkg PropsShare PropsFinish PropsAttack PropsSteer PropsLikely PropsChance PropsJoint PropsBias.
Import ListNotations.

(** * specification *)
Section Vocabulary.
  Context {S : Suite}.
  (** at most n things have the property *)
  Definition at_most {A : Type} (n : nat) (P : A -> Prop) : Prop := exists l, length l <= n /\ forall a, P a -> In a l.
  (** the dealers whose index is in K *)
  Definition kept (K : list u32) (l : list (u32 * list F)) : list (u32 * list F) := filter (fun o => existsb (u32_eqb (fst o)) K) l.
End Vocabulary.

Section Counting.
  Lemma at_most_exists {A B} n m (l : list A) (Q : A -> B -> Prop) : length l <= n -> (forall a, In a l -> at_most m (Q a)) -> at_most (n * m) (fun b => exists a, In a l /\ Q a b).
  Proof.
    revert n. induction l as [|a l IH]; intros n Hn HQ.
    - exists []. split; [cbn [length]; apply Nat.le_0_l|]. intros b (a & [] & _).
    - destruct n as [|n]; [cbn [length] in Hn; lia|]. destruct (IH n) as (k & K1 & K2); [cbn [length] in Hn; lia|intros; apply HQ; right; assumption|].
      destruct (HQ a (or_introl eq_refl)) as (k' & M1 & M2). exists (k' ++ k). split.
      + rewrite app_length. cbn [Nat.mul]. apply Nat.add_le_mono; assumption.
      + intros b (a' & [<-|H1] & H2); apply in_or_app; [left; apply M2, H2|right; apply K2; exists a'; auto].
  Qed.
  Lemma at_most_exactly {A} n (P : A -> Prop) : exactly n P -> at_most n P.
  Proof. intros (l & _ & <- & H). exists l. split; [apply le_n|]. intros a. apply H. Qed.
  Lemma at_most_sub {A} n (P Q : A -> Prop) : (forall a, P a -> Q a) -> at_most n Q -> at_most n P.
  Proof. intros H (l & H1 & H2). exists l. split; [exact H1|]. intros a K. apply H2, H, K. Qed.
  Lemma at_most_le {A} n m (P : A -> Prop) : n <= m -> at_most n P -> at_most m P.
  Proof. intros H (l & H1 & H2). exists l. split; [lia|exact H2]. Qed.

  Lemma nodup_fst {A B} (l : list (A * B)) k a b : NoDup (map fst l) -> In (k, a) l -> In (k, b) l -> a = b.
  Proof.
    induction l as [|[x y] l IH]; intros Hn Ha Hb; [destruct Ha|]. cbn [map fst] in Hn. inversion Hn as [|? ? N1 N2]; subst.
    assert (X : forall c, In (k, c) l -> k <> x) by (intros c Hc ->; apply N1; exact (in_map fst _ _ Hc)).
    destruct Ha as [Ha|Ha], Hb as [Hb|Hb]; try congruence.
    - injection Ha as -> ->. destruct (X b Hb eq_refl).
    - injection Hb as -> ->. destruct (X a Ha eq_refl).
    - exact (IH N2 Ha Hb).
  Qed.
  (** all subsequences *)
  Fixpoint subs {A} (l : list A) : list (list A) := match l with [] => [[]] | x :: l' => subs l' ++ map (cons x) (subs l') end.
  Lemma subs_length {A} (l : list A) : length (subs l) = 2 ^ length l.
  Proof. induction l as [|x l IH]; [reflexivity|]. cbn [subs length Nat.pow]. rewrite app_length, map_length, IH. lia. Qed.
  Lemma subs_filter {A} (f : A -> bool) l : In (filter f l) (subs l).
  Proof.
    induction l as [|x l IH]; [left; reflexivity|]. cbn [filter subs]. apply in_or_app. destruct (f x); [right; apply in_map, IH|left; exact IH].
  Qed.
  Lemma in_existsb i K : existsb (u32_eqb i) K = true <-> In i K.
  Proof.
    rewrite existsb_exists. split; [intros (x & H1 & H2); apply u32_eqb_spec in H2; subst; exact H1|]. intros H. exists i. split; [exact H|apply u32_eqb_refl].
  Qed.
End Counting.

Section Bound.
  Context {S : Suite} {L : SuiteLaws S}.
  Add Field F_fld : F_field.

  (** a sum with weights, one of them not zero, takes each value equally often *)
  Definition wsum (w : u32 -> F) (hon : list u32) (cs : list (list F)) : F := fsum (map (fun o => poly_value (snd o) F0 * w (fst o))%F (combine hon cs)).
  Lemma skip_zero (a w x c : F) : w = F0 -> ((a * w + c = x)%F <-> c = x).
  Proof. intros ->. replace (a * F0 + c)%F with c by ring. reflexivity. Qed.
  Lemma move_const (a c x : F) : (a + c = x)%F <-> a = (x - c)%F.
  Proof. split; [intros <-; ring|intros ->; ring]. Qed.
  Lemma count_wsum q t w hon : exactly q (fun _ : F => True) -> (N.of_nat t < 4294967296)%N -> 0 < t -> (exists i, In i hon /\ w i <> F0) -> forall x,
    exactly (q ^ (t * length hon - 1)) (fun cs => Forall2 (fun _ a => length a = t) hon cs /\ wsum w hon cs = x).
  Proof.
    intros Hq Ht Hp. induction hon as [|i hon IH]; intros (k & Hk & Hw) x; [destruct Hk|].
    destruct (F_dec (w i) F0) as [E|E].
    - assert (Hk' : exists i, In i hon /\ w i <> F0).
      { destruct Hk as [->|Hk]; [contradiction|]. exists k. auto. }
      assert (Hh : 0 < length hon) by (destruct hon; [destruct Hk' as (? & [] & _)|cbn [length]; lia]).
      replace (t * length (i :: hon) - 1) with (t + (t * length hon - 1)) by (cbn [length]; rewrite Nat.mul_succ_r; assert (0 < t * length hon) by (apply Nat.mul_pos_pos; assumption); lia).
      rewrite Nat.pow_add_r. specialize (IH Hk' x).
      apply (exactly_iff _ (fun cs => exists a, length a = t /\ exists r, (Forall2 (fun _ a => length a = t) hon r /\ wsum w hon r = x) /\ cs = a :: r)).
      + intros cs. split.
        * intros (a & H1 & r & (H2 & H3) & ->). split; [constructor; assumption|]. unfold wsum in *. cbn [combine map fsum fst snd]. apply skip_zero; assumption.
        * intros (H1 & H2). inversion H1 as [|? a ? r K1 K2]; subst. exists a. split; [reflexivity|]. exists r. split; [split; [exact K2|]|reflexivity].
          unfold wsum. cbn [combine map fsum fst snd]. symmetry. apply skip_zero; [assumption|reflexivity].
      + apply exactly_sum; [apply count_any; assumption| |].
        * intros a _. apply (exactly_image _ (fun r => Forall2 (fun _ a => length a = t) hon r /\ wsum w hon r = x) _ (cons a)); [congruence|reflexivity|exact IH].
        * intros a a' cs _ _ (r & _ & E1) (r' & _ & E2). congruence.
    - replace (t * length (i :: hon) - 1) with (t * length hon + (t - 1)) by (cbn [length]; rewrite Nat.mul_succ_r; generalize (t * length hon); lia).
      rewrite Nat.pow_add_r, Nat.pow_mul_r.
      set (want := fun r => ((x - wsum w hon r) * Finv (w i))%F).
      apply (exactly_iff _ (fun cs => exists r, Forall2 (fun _ a => length a = t) hon r /\ exists a, (length a = t /\ hd_error a = Some (want r)) /\ cs = a :: r)).
      + intros cs. split.
        * intros (r & H1 & a & (H2 & H3) & ->). split; [constructor; assumption|]. apply (head_value t a _ Hp H2) in H3.
          unfold wsum. cbn [combine map fsum fst snd]. apply joint_solve; assumption.
        * intros (H1 & H2). inversion H1 as [|? a ? r K1 K2]; subst. exists r. split; [exact K2|]. exists a. split; [split; [reflexivity|]|reflexivity].
          apply (head_value (length a) a _ Hp eq_refl). unfold want. apply joint_solve; [assumption|]. reflexivity.
      + apply exactly_sum.
        * apply exactly_each. intros j _. apply count_any; assumption.
        * intros r _. apply (exactly_image _ (fun a => length a = t /\ hd_error a = Some (want r)) _ (fun a => a :: r)); [congruence|reflexivity|]. apply count_head; assumption.
        * intros r r' cs _ _ (a & _ & E1) (a' & _ & E2). congruence.
  Qed.

  Definition keeps (K : list u32) (i : u32) : bool := existsb (u32_eqb i) K.
  Lemma kept_fst K l : map fst (kept K l) = filter (keeps K) (map fst l).
  Proof. unfold kept. induction l as [|o l IH]; [reflexivity|]. cbn [filter map]. unfold keeps at 1. destruct (existsb (u32_eqb (fst o)) K); cbn [map]; rewrite IH; reflexivity. Qed.
  Lemma kept_sum (f : u32 -> F) K hon cs o : (forall i, In i hon -> keeps K i = false -> f i = F0) ->
    fsum (map (fun o => poly_value (snd o) F0 * f (fst o))%F (kept K (combine hon cs ++ o))) =
    (wsum f hon cs + fsum (map (fun o => poly_value (snd o) F0 * f (fst o))%F (kept K o)))%F.
  Proof.
    revert cs. induction hon as [|i hon IH]; intros cs Hf; [unfold wsum; cbn [combine app map fsum]; ring|].
    destruct cs as [|a cs]; [unfold wsum; cbn [combine app map fsum]; ring|].
    unfold wsum in *. unfold kept in *. cbn [combine app filter fst map fsum snd]. specialize (IH cs (fun j Hj => Hf j (or_intror Hj))).
    destruct (existsb (u32_eqb i) K) eqn:E.
    - cbn [map fsum fst snd]. rewrite IH. ring.
    - rewrite IH, (Hf i (or_introl eq_refl) E). ring.
  Qed.
  Lemma secret_kept K hon cs o : length cs = length hon ->
    let l := filter (keeps K) (hon ++ map fst o) in
    secret_shared (kept K (combine hon cs ++ o)) =
    (wsum (fun i => if keeps K i then weight i l else F0) hon cs + fsum (map (fun o => poly_value (snd o) F0 * weight (fst o) l)%F (kept K o)))%F.
  Proof.
    intros E l. unfold secret_shared, interp0. rewrite !map_map. cbn [fst snd].
    assert (El : map (fun x : u32 * list F => fst x) (kept K (combine hon cs ++ o)) = l).
    { transitivity (map fst (kept K (combine hon cs ++ o))); [reflexivity|]. rewrite kept_fst, map_app, combine_fst by exact E. reflexivity. }
    rewrite El. set (f := fun i => if keeps K i then weight i l else F0).
    assert (X : forall o', (forall d, In d o' -> keeps K (fst d) = true) -> map (fun o => poly_value (snd o) F0 * weight (fst o) l)%F o' = map (fun o => poly_value (snd o) F0 * f (fst o))%F o').
    { intros o' Ho. apply map_ext_in. intros d Hd. unfold f. rewrite (Ho d Hd). reflexivity. }
    assert (Y : forall l', forall d, In d (kept K l') -> keeps K (fst d) = true) by (intros l' d Hd; apply filter_In in Hd; apply Hd).
    rewrite (X _ (Y _)), (X (kept K o) (Y _)). apply kept_sum. intros i _ Hi. unfold f. rewrite Hi. reflexivity.
  Qed.
End Bound.

(** Whatever set of dealers is left in the end: if at least one of them is honest, every group secret occurs for the same number of choices of
    the honest dealers. *)
Theorem C148_each_set_of_dealers_is_unbiased :
  forall (S : Suite) (L : SuiteLaws S) (q t : nat) (hon : list u32) (others : list (u32 * list F)) (K : list u32) (x : F),
  exactly q (fun _ : F => True) -> (N.of_nat t < 4294967296)%N -> 0 < t -> good_indices (hon ++ map fst others) ->
  (exists i, In i hon /\ In i K) ->
  exactly (q ^ (t * length hon - 1)) (fun cs => Forall2 (fun _ a => length a = t) hon cs /\ secret_shared (kept K (combine hon cs ++ others)) = x).
Proof.
  intros S L q t hon others K x Hq Ht Hp Hg (i & Hi & HK).
  set (l := filter (keeps K) (hon ++ map fst others)). set (c := fsum (map (fun o => poly_value (snd o) F0 * weight (fst o) l)%F (kept K others))).
  assert (Hw : exists i, In i hon /\ (if keeps K i then weight i l else F0) <> F0).
  { exists i. split; [exact Hi|]. unfold keeps at 1. rewrite (proj2 (in_existsb i K) HK). apply weight_neq_0. intros Z. apply filter_In in Z as [Z _]. exact (proj2 Hg Z). }
  eapply exactly_iff; [|exact (count_wsum q t _ hon Hq Ht Hp Hw (x - c)%F)]. intros cs. cbv beta.
  assert (E : Forall2 (fun _ a => length a = t) hon cs -> secret_shared (kept K (combine hon cs ++ others)) = (wsum (fun i => if keeps K i then weight i l else F0) hon cs + c)%F).
  { intros H. apply secret_kept. symmetry. exact (Forall2_len _ _ _ H). }
  split; intros (H1 & H2); (split; [exact H1|]).
  - rewrite (E H1). apply move_const, H2.
  - rewrite (E H1) in H2. apply move_const, H2.
Qed.
Print Assumptions C148_each_set_of_dealers_is_unbiased.

(** If the set can be chosen at the end, knowing everything, among k sets: the chance of reaching one of p wanted secrets is at most k p / q. *)
Theorem C148_choosing_among_sets :
  forall (S : Suite) (L : SuiteLaws S) (q t : nat) (hon : list u32) (others : list (u32 * list F)) (Ks : list (list u32)) (P : list F),
  exactly q (fun _ : F => True) -> (N.of_nat t < 4294967296)%N -> 0 < t -> good_indices (hon ++ map fst others) ->
  (forall K, In K Ks -> exists i, In i hon /\ In i K) ->
  at_most (length Ks * (length P * q ^ (t * length hon - 1)))
    (fun cs => exists K, In K Ks /\ Forall2 (fun _ a => length a = t) hon cs /\ In (secret_shared (kept K (combine hon cs ++ others))) P).
Proof.
  intros S L q t hon others Ks P Hq Ht Hp Hg HK. apply at_most_exists; [apply le_n|]. intros K HKs.
  apply (at_most_sub _ _ (fun cs => exists x, In x P /\ Forall2 (fun _ a => length a = t) hon cs /\ secret_shared (kept K (combine hon cs ++ others)) = x)).
  { intros cs (H1 & H2). eexists. split; [exact H2|]. auto. }
  apply at_most_exists; [apply le_n|]. intros x _. apply at_most_exactly. apply (C148_each_set_of_dealers_is_unbiased S L); auto.
Qed.
Print Assumptions C148_choosing_among_sets.

(** However shares, complaints and their settlement go: the group key returned is that of some of the dealers. *)
Theorem C148_every_ending :
  forall (S : Suite) (L : SuiteLaws S) (m : build) (st : DkgState) (comms comms' : bmap Vss) (es : list EncShare) (r r' : Rng) s2 mine
    (complaints : list Complaint) keys s3 gk sk (dealers : list (u32 * list F)),
  ds_comms st = Some comms -> NoDup (bkeys comms) -> NoDup (map fst dealers) ->
  (forall k c, In (k, c) comms -> exists a, In (k, a) dealers /\ hd_error (vss_points c) = Some (gen * poly_value a F0)%G) ->
  to_round_two m (R1 st) es r = Ok (s2, mine, r') -> blame s2 complaints = Ok (keys, s3) -> finish s3 = Ok (gk, sk) ->
  ds_comms (st2 s3) = Some comms' ->
  (forall k, In k (bkeys comms') -> In k (bkeys comms)) /\ gk = (gen * secret_shared (kept (bkeys comms') dealers))%G.
Proof.
  intros S L m st comms comms' es r r' s2 mine complaints keys s3 gk sk dealers Hc Hn Hd Hh H2 HB HF Hc'.
  destruct (to_round_two_inv m st comms es r s2 mine r' Hc Hn H2) as (_ & _ & ->).
  pose proof (round_two_state_spec st es) as HR. set (st' := round_two_state st es) in *.
  destruct (ar_shares _ _ _ HR) as (shares & Hs & _). assert (Hcs : ds_comms st' = Some comms) by (rewrite (ar_comms _ _ _ HR); exact Hc).
  rewrite (blame_eq st' comms shares complaints Hcs Hs) in HB. injection HB as _ <-. cbn [st2] in Hc'.
  destruct (pr_comms _ _ _ (drop_state_pruned st' comms shares (verdicts st' complaints) (fun j => In j (verdicts st' complaints)) Hcs Hs (fun j => conj (fun H => H) (fun H => H))))
    as (m1 & m2 & E1 & E2 & HW).
  rewrite Hcs in E1. injection E1 as <-. rewrite Hc' in E2. injection E2 as <-.
  assert (Hin : forall k c, In (k, c) comms' -> In (k, c) comms) by (intros k c Hk; apply (without_in _ _ _ HW) in Hk; apply Hk).
  assert (Hn' : NoDup (bkeys comms')) by exact (without_nodup _ _ _ HW Hn).
  split; [intros k Hk; apply (without_keys _ _ _ HW) in Hk; apply Hk|].
  destruct (C20_finish_group_key S L _ comms' gk sk Hc' Hn' HF) as (_ & _ & ->).
  unfold dealt_point, secret_shared. rewrite <- ginterp0_gen, map_map. cbn [fst snd]. apply ginterp0_perm.
  apply pairs_perm; rewrite ?map_map; cbn [fst].
  - exact Hn'.
  - change (map (fun x : u32 * list F => fst x) (kept (bkeys comms') dealers)) with (map fst (kept (bkeys comms') dealers)). rewrite kept_fst. apply NoDup_filter, Hd.
  - intros [j v]. rewrite !in_map_iff. split.
    + intros ([k c] & E & Hk). cbn [fst snd] in E. injection E as <- <-. destruct (Hh k c (Hin k c Hk)) as (a & Ha & Hp). exists (k, a). cbn [fst snd]. split.
      * destruct (vss_points c) as [|p ps]; [discriminate Hp|]. injection Hp as ->. rewrite gpoly_at_0. reflexivity.
      * apply filter_In. split; [exact Ha|]. apply in_existsb. cbn [fst]. unfold bkeys. apply in_map_iff. exists (k, c). auto.
    + intros ([k a] & E & Hk). cbn [fst snd] in E. injection E as <- <-. apply filter_In in Hk as (Ha & Hk). apply in_existsb in Hk. cbn [fst] in Hk.
      unfold bkeys in Hk. apply in_map_iff in Hk as ([k' c] & Ek & Hk). cbn [fst] in Ek. subst k'. exists (k, c). cbn [fst snd]. split; [|exact Hk].
      destruct (Hh k c (Hin k c Hk)) as (a' & Ha' & Hp). rewrite (nodup_fst _ _ _ _ Hd Ha Ha').
      destruct (vss_points c) as [|p ps]; [discriminate Hp|]. injection Hp as ->. rewrite gpoly_at_0. reflexivity.
Qed.
Print Assumptions C148_every_ending.

(** So r dealers that may be removed, in every combination and knowing everything, multiply the chance by at most 2^r, as long as the honest
    dealers stay: of the q^(t h) choices of the honest dealers at most 2^r p q^(t h - 1) can end with one of p wanted secrets. *)
Theorem C148_at_most_doubling_per_dealer :
  forall (S : Suite) (L : SuiteLaws S) (q t : nat) (hon : list u32) (others : list (u32 * list F)) (P : list F),
  exactly q (fun _ : F => True) -> (N.of_nat t < 4294967296)%N -> 0 < t -> good_indices (hon ++ map fst others) -> hon <> [] ->
  exactly (q ^ (t * length hon)) (Forall2 (fun (_ : u32) (a : list F) => length a = t) hon) /\
  exists W : list (list F) -> Prop,
    at_most (2 ^ length others * (length P * q ^ (t * length hon - 1))) W /\
    forall (m : build) (cs : list (list F)) (st : DkgState) (comms comms' : bmap Vss) (es : list EncShare) (r r' : Rng) s2 mine
      (complaints : list Complaint) keys s3 gk sk (x : F),
    Forall2 (fun _ a => length a = t) hon cs -> ds_comms st = Some comms -> NoDup (bkeys comms) ->
    (forall k c, In (k, c) comms -> exists a, In (k, a) (combine hon cs ++ others) /\ hd_error (vss_points c) = Some (gen * poly_value a F0)%G) ->
    to_round_two m (R1 st) es r = Ok (s2, mine, r') -> blame s2 complaints = Ok (keys, s3) -> finish s3 = Ok (gk, sk) ->
    ds_comms (st2 s3) = Some comms' -> (forall i, In i hon -> In i (bkeys comms')) ->
    gk = (gen * x)%G -> In x P -> W cs.
Proof.
  intros S L q t hon others P Hq Ht Hp Hg Hne. split.
  { rewrite Nat.pow_mul_r. apply exactly_each. intros i _. apply count_any; assumption. }
  set (Ks := map (app hon) (subs (map fst others))).
  exists (fun cs => exists K, In K Ks /\ Forall2 (fun _ a => length a = t) hon cs /\ In (secret_shared (kept K (combine hon cs ++ others))) P). split.
  - replace (2 ^ length others) with (length Ks) by (unfold Ks; rewrite map_length, subs_length, map_length; reflexivity).
    apply (C148_choosing_among_sets S L); auto. intros K HK. apply in_map_iff in HK as (k & <- & _). destruct hon as [|i hon']; [contradiction|].
    exists i. split; [left; reflexivity|apply in_or_app; left; left; reflexivity].
  - intros m cs st comms comms' es r r' s2 mine complaints keys s3 gk sk x Hcs Hc Hn Hh H2 HB HF Hc' Hin Hx HP.
    assert (Ef : map fst (combine hon cs ++ others) = hon ++ map fst others) by (rewrite map_app, combine_fst by (symmetry; exact (Forall2_len _ _ _ Hcs)); reflexivity).
    assert (Hd : NoDup (map fst (combine hon cs ++ others))) by (rewrite Ef; apply Hg).
    destruct (C148_every_ending S L m st comms comms' es r r' s2 mine complaints keys s3 gk sk _ Hc Hn Hd Hh H2 HB HF Hc') as (_ & Eg).
    rewrite Hx in Eg. apply gen_mul_iff in Eg. exists (hon ++ filter (keeps (bkeys comms')) (map fst others)). split; [|split; [exact Hcs|]].
    + apply in_map, subs_filter.
    + replace (kept (hon ++ filter (keeps (bkeys comms')) (map fst others)) (combine hon cs ++ others)) with (kept (bkeys comms') (combine hon cs ++ others)); [rewrite <- Eg; exact HP|].
      unfold kept. apply filter_ext_in. intros o Ho. apply (in_map fst) in Ho. rewrite Ef in Ho. apply eq_true_iff_eq. rewrite !in_existsb, in_app_iff, filter_In. unfold keeps. rewrite in_existsb.
      apply in_app_iff in Ho. split; [intros K; destruct Ho as [Ho|Ho]; auto|]. intros [K|[_ K]]; auto.
Qed.
Print Assumptions C148_at_most_doubling_per_dealer.

(** The run of C83 seen by participant 3: dealers 1 and 3 honest, dealer 2 removed by a complaint; the hypotheses hold and the key that is
    reached is that of the dealers left. *)
Definition C148_comms : bmap Vss := match ds_comms (st1 (sq_r1 3)) with Some m => m | None => [] end.
Lemma C148_heads : map (fun kc => (fst kc, hd_error (vss_points (snd kc)))) C148_comms =
  map (fun i => (u i, Some (toy_gen * poly_value (S := Toy) (sq_co i) (mk 0%Z))%G)) [1; 2; 3]%N.
Proof. vmr. Qed.
Example C148_ex : exists q, exactly q (fun _ : @F Toy => True) /\ good_indices ([u 1; u 3] ++ map fst [(u 2, sq_co 2)]) /\
  Forall2 (fun (_ : u32) a => length a = 2) [u 1; u 3] [sq_co 1; sq_co 3] /\
  ds_comms (st1 (sq_r1 3)) = Some C148_comms /\ NoDup (bkeys C148_comms) /\
  (forall k c, In (k, c) C148_comms -> exists a, In (k, a) (combine [u 1; u 3] [sq_co 1; sq_co 3] ++ [(u 2, sq_co 2)]) /\
     hd_error (vss_points c) = Some (toy_gen * poly_value (S := Toy) a (mk 0%Z))%G) /\
  is_key (ended (to_round_two Debug (sq_r1 3) (sq_shares 3) 9%N) C83_cs) (C83_key [1; 3]%N) = true /\
  C83_key [1; 3]%N = (toy_gen * secret_shared (S := Toy) (kept (S := Toy) [u 1; u 3] (combine [u 1; u 3] [sq_co 1; sq_co 3] ++ [(u 2, sq_co 2)])))%G.
Proof.
  destruct toy_count as (q & _ & H). exists q. split; [exact H|]. split; [good|]. split; [repeat constructor; vmr|]. split; [vmr|].
  assert (E : bkeys C148_comms = [u 1; u 2; u 3]) by vmr. split; [rewrite E; nodup|]. split; [|split; [destruct C83_ex as (_ & _ & _ & _ & X & _); exact X|vmr]].
  intros k c Hk. apply (in_map (fun kc => (fst kc, hd_error (vss_points (snd kc))))) in Hk. rewrite C148_heads in Hk. cbn [fst snd map In] in Hk.
  destruct Hk as [Hk|[Hk|[Hk|[]]]]; pose proof (f_equal fst Hk) as E1; pose proof (f_equal snd Hk) as E2; cbn [fst snd] in E1, E2; subst k.
  - exists (sq_co 1). split; [left; reflexivity|exact (eq_sym E2)].
  - exists (sq_co 2). split; [right; right; left; reflexivity|exact (eq_sym E2)].
  - exists (sq_co 3). split; [right; left; reflexivity|exact (eq_sym E2)].
Qed.
