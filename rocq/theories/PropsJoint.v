(** Property C145: the shares that fewer than t participants receive from all honest dealers together, over all choices of all of them,
    say nothing about the group key and about the signing keys of further participants. *)
From Coq Require Import String Strings.Byte Arith NArith ZArith Bool List Permutation Lia Field.
From Verif Require Import Base Suite Spec SpecDkg SpecSign SpecEnd Types ModelDkg ModelSign Algebra BaseLemmas LemmasShare LemmasFinish LemmasSign
  Toy Demo DemoDkg DemoSign PropsShare PropsRound1 PropsFinish PropsReshare PropsSign PropsAttack PropsSpread PropsMix PropsSimDealer PropsLikely PropsSubset PropsChance
  PropsMixChance.
Import ListNotations.

(** * counting *)
Section Products.
  (** n choices of a, m choices of b for each of them, and b tells a *)
  Lemma exactly_sum {A B} n m (P : A -> Prop) (Q : A -> B -> Prop) : exactly n P -> (forall a, P a -> exactly m (Q a)) ->
    (forall a a' b, P a -> P a' -> Q a b -> Q a' b -> a = a') -> exactly (n * m) (fun b => exists a, P a /\ Q a b).
  Proof.
    intros (l & L1 & <- & L3) HQ HD. apply (exactly_iff _ (fun b => exists a, In a l /\ Q a b)).
    { intros b. split; intros (a & H1 & H2); exists a; split; auto; apply L3, H1. }
    assert (HP : forall a, In a l -> P a) by (intros a; apply L3). clear L3.
    induction L1 as [|a l N1 N2 IH].
    - exists []. split; [constructor|]. split; [reflexivity|]. intros b. split; [intros []|]. intros (a & [] & _).
    - destruct IH as (ls & K1 & K2 & K3); [intros; apply HP; right; assumption|].
      destruct (HQ a (HP a (or_introl eq_refl))) as (k & M1 & M2 & M3). exists (k ++ ls). split; [|split].
      + apply nodup_both. split; [exact M1|]. split; [exact K1|]. intros b Hb Hb'. apply M3 in Hb. apply K3 in Hb' as (a' & H1 & H2).
        apply N1. rewrite (HD a a' b); [exact H1| | |exact Hb|exact H2]; apply HP; [left; reflexivity|right; exact H1].
      + rewrite app_length, M2, K2. reflexivity.
      + intros b. rewrite in_app_iff, M3, K3. split.
        * intros [H|(a' & H1 & H2)]; [exists a; split; [left; reflexivity|exact H]|exists a'; split; [right; exact H1|exact H2]].
        * intros (a' & [<-|H1] & H2); [left; exact H2|right; exists a'; auto].
  Qed.
  (** a list of independent choices *)
  Lemma exactly_each {A B} m (Q : A -> B -> Prop) (l : list A) : (forall a, In a l -> exactly m (Q a)) -> exactly (m ^ length l) (Forall2 Q l).
  Proof.
    induction l as [|a l IH]; intros H.
    - exists [[]]. split; [constructor; [intros []|constructor]|]. split; [reflexivity|]. intros b. split; [intros [<-|[]]; constructor|].
      intros K. inversion K. left. reflexivity.
    - cbn [length Nat.pow]. apply (exactly_iff _ (fun bs => exists b, Q a b /\ exists r, Forall2 Q l r /\ bs = b :: r)).
      + intros bs. split.
        * intros (b & H1 & r & H2 & ->). constructor; assumption.
        * intros K. inversion K as [|? b ? r K1 K2]; subst. exists b. split; [exact K1|]. exists r. auto.
      + apply exactly_sum; [apply H; left; reflexivity| |].
        * intros b _. apply (exactly_image _ (Forall2 Q l) _ (cons b)); [congruence|reflexivity|]. apply IH. intros; apply H; right; assumption.
        * intros b b' bs _ _ (r & _ & E) (r' & _ & E'). congruence.
  Qed.
End Products.

Section Joint.
  Context {S : Suite} {L : SuiteLaws S}.
  Add Field F_fld : F_field.
  Lemma joint_solve (v lam c w : F) : lam <> F0 -> ((v * lam + c = w)%F <-> v = ((w - c) * Finv lam)%F).
  Proof.
    intros H. split; [intros <-; field; exact H|intros ->; field; exact H].
  Qed.
  (** a vector of t coefficients that deals the given values *)
  Definition fits_shares (t : nat) (js : list u32) (v : u32 -> u32 -> F) (i : u32) (a : list F) : Prop := length a = t /\ deals i js (v i) a.

  Lemma count_fits q t js v i : exactly q (fun _ : F => True) -> (N.of_nat t < 4294967296)%N -> good_indices js -> length js < t ->
    exactly (q ^ (t - length js)) (fits_shares t js v i).
  Proof.
    intros Hq Ht Hg Hl. apply (exactly_iff _ (fun a => exists s, True /\ (length a = t /\ hd_error a = Some s /\ deals i js (v i) a))).
    - intros a. unfold fits_shares. split; [intros (s & _ & H1 & _ & H2); auto|]. intros (H1 & H2).
      destruct a as [|c a]; [cbn [length] in H1; lia|]. exists c. auto.
    - replace (t - length js) with (Datatypes.S (t - 1 - length js)) by lia. cbn [Nat.pow].
      apply (exactly_sum q _ (fun _ : F => True)); [exact Hq| |].
      + intros s _. apply (C139_shares_are_uniform S L); assumption.
      + intros s s' a _ _ (_ & E & _) (_ & E' & _). congruence.
  Qed.
End Joint.

(** All choices of the honest dealers that give these shares to k < t receivers. *)
Theorem C145_choices_that_fit :
  forall (S : Suite) (L : SuiteLaws S) (q t : nat) (dealers js : list u32) (v : u32 -> u32 -> F),
  exactly q (fun _ : F => True) -> (N.of_nat t < 4294967296)%N -> good_indices js -> length js < t ->
  exactly (q ^ ((t - length js) * length dealers)) (Forall2 (fun i a => length a = t /\ deals i js (v i) a) dealers).
Proof.
  intros S L q t dealers js v Hq Ht Hg Hl. rewrite Nat.pow_mul_r. apply (exactly_each _ (fits_shares t js v)). intros i _. apply count_fits; assumption.
Qed.
Print Assumptions C145_choices_that_fit.

(** Of these choices, exactly one in q^(1 + number of further participants) leads to a given group key and given signing keys of the
    further participants: the same number for all of them. *)
Theorem C145_keys_are_uniform_given_all_shares :
  forall (S : Suite) (L : SuiteLaws S) (q : nat) (m : build) (params : Params) (j : u32) (hon : list u32) (others : list (u32 * list F))
    (js ms : list u32) (v : u32 -> u32 -> F) (x : F) (y : u32 -> F),
  let t := N.to_nat (u32v (p_t params)) in
  exactly q (fun _ : F => True) -> good_indices (j :: hon ++ map fst others) -> good_indices (js ++ ms) -> length (js ++ ms) < t ->
  exists W : list (list F) -> Prop,
    exactly (q ^ ((t - length js) * length (j :: hon) - (1 + length ms))) W /\
    (forall cs, W cs -> Forall2 (fun i a => length a = t /\ deals i js (v i) a) (j :: hon) cs) /\
    forall (parties ds zs : list Party) (outs : list (G * SigningKey)) (z0 : Party) (gk : G) (sk : SigningKey),
    honest_parties params parties -> all_bootstrapped m params parties ->
    map y_index ds = j :: hon -> Permutation (map (fun z => (y_index z, y_co z)) parties) (map (fun z => (y_index z, y_co z)) ds ++ others) ->
    (forall d, In d ds -> deals (y_index d) js (v (y_index d)) (y_co d)) ->
    (forall z, In z zs -> In z parties) -> map y_index zs = ms -> Forall2 (party_run m parties) zs outs ->
    In z0 parties -> party_run m parties z0 (gk, sk) ->
    (gk = (gen * x)%G /\ (forall k, In k (map snd outs) -> sk_key k = y (sk_index k)) <-> W (map y_co ds)).
Proof.
  intros S L q m params j hon others js ms v x y t Hq Hg Hj Hl.
  set (lam := weight j (j :: hon ++ map fst others)). assert (Hlam : lam <> F0) by (apply weight_neq_0, Hg).
  set (g := fun (rest : list (list F)) x => fsum (map (fun o => poly_value (snd o) x * weight (fst o) (j :: hon ++ map fst others))%F (combine hon rest ++ others))).
  set (want := fun (rest : list (list F)) (w x : F) => ((w - g rest x) * Finv lam)%F).
  set (first := fun (rest : list (list F)) (a : list F) => length a = t /\ hd_error a = Some (want rest x F0) /\
     deals j (js ++ ms) (fun i => if existsb (u32_eqb i) js then v j i else want rest (y i) (of_u32 i)) a).
  assert (Ht : (N.of_nat t < 4294967296)%N) by (unfold t; rewrite N2Nat.id; apply u32_bound).
  assert (Hgj : good_indices js /\ NoDup ms /\ forall i, In i ms -> ~ In i js).
  { destruct Hj as [Hj1 Hj2]. apply nodup_both in Hj1 as (N1 & N2 & N3). split; [split; [exact N1|intros K; apply Hj2, in_or_app; auto]|].
    split; [exact N2|]. intros i Hi K. exact (N3 i K Hi). }
  destruct Hgj as (Hgj & _ & Hd).
  assert (Ej : forall i, In i js -> existsb (u32_eqb i) js = true) by (intros i Hi; apply existsb_exists; exists i; split; [exact Hi|apply u32_eqb_refl]).
  assert (Em : forall i, In i ms -> existsb (u32_eqb i) js = false).
  { intros i Hi. apply Bool.not_true_iff_false. intros K. apply existsb_exists in K as (k & K1 & K2). apply u32_eqb_spec in K2. subst k. exact (Hd i Hi K1). }
  exists (fun cs => exists rest, Forall2 (fits_shares t js v) hon rest /\ exists a, first rest a /\ cs = a :: rest). split; [|split].
  - rewrite app_length in Hl. replace ((t - length js) * length (j :: hon) - (1 + length ms))
      with ((t - length js) * length hon + (t - 1 - length (js ++ ms))) by (cbn [length]; rewrite app_length, Nat.mul_succ_r; generalize ((t - length js) * length hon); lia).
    rewrite Nat.pow_add_r, Nat.pow_mul_r. apply exactly_sum.
    + apply exactly_each. intros i _. apply count_fits; auto. lia.
    + intros rest _. apply (exactly_image _ (first rest) _ (fun a => a :: rest)).
      * intros a a' _ _ E. congruence.
      * intros cs. reflexivity.
      * apply (C139_shares_are_uniform S L); auto. rewrite app_length. exact Hl.
    + intros r r' cs _ _ (a & _ & E) (a' & _ & E'). congruence.
  - intros cs (rest & H1 & a & (H2 & _ & H3) & ->). constructor; [|exact H1]. split; [exact H2|]. intros i Hi.
    rewrite (H3 i) by (apply in_or_app; left; exact Hi). rewrite (Ej i Hi). reflexivity.
  - intros parties ds zs outs z0 gk sk H1 H2 H3 H4 H5 Hz Hzs HO Hz0 Hr0.
    destruct ds as [|p ds]; [discriminate H3|]. cbn [map] in H3. injection H3 as E3 E3'.
    assert (Hin : forall d, In d (p :: ds) -> length (y_co d) = t).
    { intros d Hdd. assert (K : exists d', In d' parties /\ y_index d' = y_index d /\ y_co d' = y_co d).
      { assert (K : In (y_index d, y_co d) (map (fun z => (y_index z, y_co z)) parties)).
        { apply (Permutation_in _ (Permutation_sym H4)), in_or_app. left. apply (in_map (fun z => (y_index z, y_co z))), Hdd. }
        apply in_map_iff in K as (d' & K1 & K2). exists d'. injection K1 as K3 K4. auto. }
      destruct K as (d' & K1 & K2 & <-). exact (fd_len _ _ _ _ _ (honest_fresh params parties d' H1 K1)). }
    assert (HV : forall w, interp0 (dealt_values parties w) = (poly_value (y_co p) w * lam + g (map y_co ds) w)%F).
    { intros w. assert (HP : Permutation (dealt_values parties w)
        ((j, poly_value (y_co p) w) :: map (fun o => (fst o, poly_value (snd o) w)) (combine hon (map y_co ds) ++ others))).
      { apply (Permutation_map (fun o => (fst o, poly_value (snd o) w))) in H4. rewrite map_map in H4. cbn [map fst snd app] in H4. rewrite E3 in H4.
        assert (Ec : map (fun z => (y_index z, y_co z)) ds = combine hon (map y_co ds)).
        { rewrite <- E3'. clear. induction ds as [|d ds IH]; [reflexivity|]. cbn [map combine]. rewrite IH. reflexivity. }
        rewrite <- Ec. exact H4. }
      rewrite (interp0_perm _ _ HP). unfold interp0, g, lam. cbn [map fst snd fsum]. rewrite !map_map. cbn [fst snd].
      assert (Ei : map (fun o : u32 * list F => fst o) (combine hon (map y_co ds) ++ others) = hon ++ map fst others).
      { rewrite map_app. f_equal. rewrite <- E3'. clear. induction ds as [|d ds IH]; [reflexivity|]. cbn [map combine fst]. rewrite IH. reflexivity. }
      rewrite Ei. reflexivity. }
    destruct (C18_honest_agreement S L m params parties H1 H2) as (secret & Es & C).
    assert (Egk : gk = (gen * secret)%G).
    { destruct Hr0 as (senders & es & r & s2 & cs & r' & Z1 & Z2 & Z3 & Z4).
      destruct (C z0 senders es r Hz0 Z1 Z2) as (s2' & r'' & sk' & C1 & C2 & _). rewrite Z3 in C1. injection C1 as -> -> ->. congruence. }
    assert (HK : (forall k, In k (map snd outs) -> sk_key k = y (sk_index k)) <->
      (forall i, In i ms -> (poly_value (y_co p) (of_u32 i) * lam + g (map y_co ds) (of_u32 i))%F = y i)).
    { subst ms. clear - L HO Hz C HV. revert Hz. induction HO as [|z [gk0 sk0] zs outs Hz0 HO IH]; intros Hz; [split; intros _ ? []|].
      specialize (IH (fun y Hy => Hz y (or_intror Hy))).
      destruct Hz0 as (senders & es & r & s2 & cs & r' & Z1 & Z2 & Z3 & Z4).
      destruct (C z senders es r (Hz z (or_introl eq_refl)) Z1 Z2) as (s2' & r'' & sk' & C1 & C2 & C3 & C4 & _).
      rewrite Z3 in C1. injection C1 as -> -> ->. rewrite Z4 in C2. injection C2 as -> ->. cbn [map snd]. split.
      - intros K i [<-|Hi]; [|apply IH; [intros k Hk; apply K; right; exact Hk|exact Hi]].
        rewrite <- HV, <- C4, <- C3. apply K. left. reflexivity.
      - intros K k [<-|Hk]; [rewrite C3, C4, HV; apply K; left; reflexivity|]. apply IH; [intros i Hi; apply K; right; exact Hi|exact Hk]. }
    rewrite HK, Egk, gen_mul_iff, Es, HV, joint_solve by exact Hlam. split.
    + intros (K1 & K2). exists (map y_co ds). split.
      * rewrite <- E3'. clear - Hin H5. assert (K : forall d, In d ds -> fits_shares t js v (y_index d) (y_co d)).
        { intros d Hdd. split; [apply Hin; right; exact Hdd|apply H5; right; exact Hdd]. }
        clear - K. induction ds as [|d ds IH]; [constructor|]. cbn [map]. constructor; [apply K; left; reflexivity|apply IH; intros; apply K; right; assumption].
      * exists (y_co p). split; [|reflexivity]. split; [apply Hin; left; reflexivity|]. split.
        -- unfold want. rewrite <- K1, poly_value_0. pose proof (Hin p (or_introl eq_refl)) as Hp. destruct (y_co p); [cbn [length] in Hp; lia|reflexivity].
        -- intros i Hi. apply in_app_or in Hi as [Hi|Hi].
           ++ rewrite (Ej i Hi). rewrite <- E3. apply H5; [left; reflexivity|exact Hi].
           ++ rewrite (Em i Hi), evaluate_polynomial_eq. f_equal. apply joint_solve; [exact Hlam|]. apply K2, Hi.
    + intros (rest & K1 & a & (A1 & A2 & A3) & E). cbn [map] in E. injection E as <- <-. split.
      * apply poly_value_hd, A2.
      * intros i Hi. specialize (A3 i (in_or_app _ _ _ (or_intror Hi))). cbv beta in A3. rewrite (Em i Hi), evaluate_polynomial_eq in A3. injection A3 as A3.
        apply joint_solve; [exact Hlam|]. exact A3.
Qed.
Print Assumptions C145_keys_are_uniform_given_all_shares.

(** Resharing: given the shared keys, all choices of the honest dealers that give these shares to k < t2 of the new signers, and those of
    them that give further new signers given keys: one in q for each of these, the same number whatever the keys, old and new. *)
Theorem C145_resharing_refreshes :
  forall (S : Suite) (L : SuiteLaws S) (q : nat) (m : build) (params1 params2 : Params) (d0 : u32 * F) (hon : list (u32 * F)) (others : list (u32 * list F))
    (js ms : list u32) (v : u32 -> u32 -> F) (y : u32 -> F),
  let t := N.to_nat (u32v (p_t params2)) in
  let fits := fun (d : u32 * F) co => length co = t /\ hd_error co = Some (snd d) /\ deals (fst d) js (v (fst d)) co in
  exactly q (fun _ : F => True) -> good_indices (fst d0 :: map fst hon ++ map fst others) -> good_indices (js ++ ms) -> length (js ++ ms) < t ->
  exactly (q ^ ((t - 1 - length js) * length (d0 :: hon))) (Forall2 fits (d0 :: hon)) /\
  exists W : list (list F) -> Prop,
    exactly (q ^ ((t - 1 - length js) * length (d0 :: hon) - length ms)) W /\
    (forall cs, W cs -> Forall2 fits (d0 :: hon) cs) /\
    forall (hs zs : list Heir) (ws : list Donor) (cos cs : list (list F)) (outs : list (G * SigningKey)),
    honest_heirs params2 hs -> honest_donors m params2 hs ws ->
    N.of_nat (length ws) = u32v (p_n params1) -> (1 <= u32v (p_t params1) <= u32v (p_n params1))%N ->
    Forall2 commits ws cos ->
    Permutation (combine (map (fun w => sk_index (w_key w)) ws) cos) (combine (map fst (d0 :: hon)) cs ++ others) ->
    Forall2 fits (d0 :: hon) cs ->
    (forall z, In z zs -> In z hs) -> map z_index zs = ms -> Forall2 (heir_run m params1 ws) zs outs ->
    ((forall k, In k (map snd outs) -> sk_key k = y (sk_index k)) <-> W cs).
Proof.
  intros S L q m params1 params2 d0 hon others js ms v y t fits Hq Hg Hj Hl.
  set (j := fst d0) in *. set (lam := weight j (j :: map fst hon ++ map fst others)). assert (Hlam : lam <> F0) by (apply weight_neq_0, Hg).
  set (g := fun (rest : list (list F)) x => fsum (map (fun o => poly_value (snd o) x * weight (fst o) (j :: map fst hon ++ map fst others))%F
    (combine (map fst hon) rest ++ others))).
  set (want := fun (rest : list (list F)) (w x : F) => ((w - g rest x) * Finv lam)%F).
  set (first := fun (rest : list (list F)) (a : list F) => length a = t /\ hd_error a = Some (snd d0) /\
     deals j (js ++ ms) (fun i => if existsb (u32_eqb i) js then v j i else want rest (y i) (of_u32 i)) a).
  assert (Ht : (N.of_nat t < 4294967296)%N) by (unfold t; rewrite N2Nat.id; apply u32_bound).
  assert (Hgj : good_indices js /\ NoDup ms /\ forall i, In i ms -> ~ In i js).
  { destruct Hj as [Hj1 Hj2]. apply nodup_both in Hj1 as (N1 & N2 & N3). split; [split; [exact N1|intros K; apply Hj2, in_or_app; auto]|].
    split; [exact N2|]. intros i Hi K. exact (N3 i K Hi). }
  destruct Hgj as (Hgj & _ & Hd).
  assert (Ej : forall i, In i js -> existsb (u32_eqb i) js = true) by (intros i Hi; apply existsb_exists; exists i; split; [exact Hi|apply u32_eqb_refl]).
  assert (Em : forall i, In i ms -> existsb (u32_eqb i) js = false).
  { intros i Hi. apply Bool.not_true_iff_false. intros K. apply existsb_exists in K as (k & K1 & K2). apply u32_eqb_spec in K2. subst k. exact (Hd i Hi K1). }
  assert (Hl' := Hl). rewrite app_length in Hl'.
  assert (Hfits : forall l, exactly (q ^ ((t - 1 - length js) * length l)) (Forall2 fits l)).
  { intros l. rewrite Nat.pow_mul_r. apply exactly_each. intros d _. apply (C139_shares_are_uniform S L); auto. lia. }
  split; [apply Hfits|].
  exists (fun cs => exists rest, Forall2 fits hon rest /\ exists a, first rest a /\ cs = a :: rest). split; [|split].
  - replace ((t - 1 - length js) * length (d0 :: hon) - length ms)
      with ((t - 1 - length js) * length hon + (t - 1 - length (js ++ ms)))
      by (cbn [length]; rewrite app_length, Nat.mul_succ_r; generalize ((t - 1 - length js) * length hon); lia).
    rewrite Nat.pow_add_r. apply exactly_sum.
    + apply Hfits.
    + intros rest _. apply (exactly_image _ (first rest) _ (fun a => a :: rest)).
      * intros a a' _ _ E. congruence.
      * intros cs. reflexivity.
      * apply (C139_shares_are_uniform S L); auto.
    + intros r r' cs _ _ (a & _ & E) (a' & _ & E'). congruence.
  - intros cs (rest & H1 & a & (H2 & H3 & H4) & ->). constructor; [|exact H1]. split; [exact H2|]. split; [exact H3|]. fold j. intros i Hi.
    rewrite (H4 i) by (apply in_or_app; left; exact Hi). cbv beta. rewrite (Ej i Hi). reflexivity.
  - intros hs zs ws cos cs outs HH HD Hn Ht1 HC HP Hfit Hz Hzs HO.
    destruct (donors_list m params2 hs ws HH HD) as (ds & HF).
    assert (Ed : map (fun d => (fst (fst d), snd d)) ds = combine (map (fun w => sk_index (w_key w)) ws) cos).
    { clear - L HF HC. revert cos HC. induction HF as [|w [[j' x] co] ws ds Hd HF IH]; intros cos HC; inversion HC as [|? c ? cos' H1 H2]; subst; [reflexivity|].
      pose proof (donated_commits _ _ _ _ _ _ _ Hd H1) as ->. destruct Hd as (-> & _). cbn [map fst snd combine]. rewrite (IH cos' H2). reflexivity. }
    inversion Hfit as [|? a0 ? rest Hf0 Hfr]; subst.
    assert (Ei : forall r, Forall2 fits hon r -> map (fun o : u32 * list F => fst o) (combine (map fst hon) r ++ others) = map fst hon ++ map fst others).
    { intros r Hr. rewrite map_app. f_equal. clear - Hr. induction Hr as [|d c hon r _ _ IH]; [reflexivity|]. cbn [map combine fst]. rewrite IH. reflexivity. }
    assert (HV : forall i, new_key ds i = (poly_value a0 (of_u32 i) * lam + g rest (of_u32 i))%F).
    { intros i. unfold new_key.
      assert (E : map (fun d : u32 * F * list F => (fst (fst d), poly_value (snd d) (of_u32 i))) ds =
        map (fun o => (fst o, poly_value (snd o) (of_u32 i))) (map (fun d => (fst (fst d), snd d)) ds)) by (rewrite map_map; reflexivity).
      rewrite E, Ed. rewrite (interp0_perm _ _ (Permutation_map (fun o => (fst o, poly_value (snd o) (of_u32 i))) HP)).
      unfold interp0, g, lam. cbn [map fst snd fsum combine app]. rewrite !map_map. cbn [fst snd]. rewrite (Ei rest Hfr). reflexivity. }
    assert (HK : (forall k, In k (map snd outs) -> sk_key k = y (sk_index k)) <->
      (forall i, In i (map z_index zs) -> (poly_value a0 (of_u32 i) * lam + g rest (of_u32 i))%F = y i)).
    { clear - L HO Hz HV HH HD HF Hn Ht1. revert Hz. induction HO as [|z [gk0 sk0] zs outs Hz0 HO IH]; intros Hz; [split; intros _ ? []|].
      specialize (IH (fun y Hy => Hz y (or_intror Hy))).
      destruct Hz0 as (dd & senders & es & r & lists & r1 & s1 & r2 & s2 & cs & r3 & A1 & A2 & A3 & A4 & A5 & A6).
      destruct (heir_ok m params1 params2 hs ws ds z dd senders es r r2 HH (hd_indices _ _ _ _ HD) HF Hn Ht1 (Hz z (or_introl eq_refl)) A1 A2 A3)
        as (s1' & r1' & s2' & r3' & E1 & E2 & E3).
      rewrite A4 in E1. injection E1 as <- _ _. rewrite A5 in E2. injection E2 as <- _ _. rewrite A6 in E3. injection E3 as -> ->. cbn [map snd]. split.
      - intros K i [<-|Hi]; [|apply IH; [intros k Hk; apply K; right; exact Hk|exact Hi]].
        rewrite <- HV. exact (K _ (or_introl eq_refl)).
      - intros K k [<-|Hk]; [cbn [sk_key sk_index]; rewrite HV; apply K; left; reflexivity|]. apply IH; [intros i Hi; apply K; right; exact Hi|exact Hk]. }
    rewrite HK. split.
    + intros K. exists rest. split; [exact Hfr|]. exists a0. split; [|reflexivity]. destruct Hf0 as (F1' & F2' & F3'). split; [exact F1'|]. split; [exact F2'|].
      intros i Hi. cbv beta. apply in_app_or in Hi as [Hi|Hi]; [rewrite (Ej i Hi); exact (F3' i Hi)|].
      rewrite (Em i Hi), evaluate_polynomial_eq. f_equal. apply joint_solve; [exact Hlam|]. apply K, Hi.
    + intros (rest' & K1 & a & (A1 & A2 & A3) & E). injection E as -> ->. intros i Hi.
      specialize (A3 i (in_or_app _ _ _ (or_intror Hi))). cbv beta in A3. rewrite (Em i Hi), evaluate_polynomial_eq in A3. injection A3 as A3.
      apply joint_solve; [exact Hlam|]. exact A3.
Qed.
Print Assumptions C145_resharing_refreshes.

(** the demo key generation with threshold 2: dealers 1 and 2 are honest, 3 receives; the other way round, no receiver and the key of 3 *)
Example C145_ex :
  honest_parties demo_params demo_parties /\ all_bootstrapped Debug demo_params demo_parties /\
  map y_index [demo_party 1; demo_party 2] = [u 1; u 2] /\
  Permutation (map (fun z => (y_index z, y_co z)) demo_parties)
    (map (fun z => (y_index z, y_co z)) [demo_party 1; demo_party 2] ++ map (fun z => (y_index z, y_co z)) [demo_party 3]) /\
  good_indices (u 1 :: [u 2] ++ map fst (map (fun z => (y_index z, y_co z)) [demo_party 3])) /\ good_indices ([u 3] ++ []) /\ good_indices ([] ++ [u 3]) /\
  length [u 3] < N.to_nat (u32v (p_t demo_params)) /\
  (forall z, In z [demo_party 3] -> In z demo_parties) /\ map y_index [demo_party 3] = [u 3] /\
  (exists outs, Forall2 (party_run Debug demo_parties) [demo_party 3] outs) /\
  forall d, In d [demo_party 1; demo_party 2] -> exists v, deals (S := Toy) (y_index d) [u 3] v (y_co d).
Proof.
  assert (H : forall z, In z [demo_party 3] -> In z demo_parties) by (intros z [<-|[]]; right; right; left; reflexivity).
  split; [exact C18_ex_honest|]. split; [exact C18_ex_bootstrapped|]. split; [reflexivity|]. split; [apply Permutation_refl|].
  split; [cbn [map fst y_index demo_party app]; good|]. split; [cbn [app]; good|]. split; [cbn [app]; good|]. split; [apply Nat.ltb_lt; reflexivity|].
  split; [exact H|]. split; [reflexivity|].
  split; [exact (party_runs_exist Toy ToyLaws Debug demo_params demo_parties _ C18_ex_honest C18_ex_bootstrapped H 7%N)|].
  intros d _. exists (fun j => sh_value (evaluate_polynomial (y_index d) j (y_co d))). apply (deals_self (S := Toy)).
Qed.

Lemma fits_two (S : Suite) (L : SuiteLaws S) m params hs w1 w2 js : honest_heirs params hs -> honest_donors m params hs [w1; w2] ->
  sk_index (w_key w1) <> sk_index (w_key w2) ->
  exists cs v, Forall2 commits [w1; w2] cs /\
    Permutation (combine (map (fun w => sk_index (w_key w)) [w1; w2]) cs)
      (combine (map fst [(sk_index (w_key w1), sk_key (w_key w1)); (sk_index (w_key w2), sk_key (w_key w2))]) cs ++ []) /\
    Forall2 (fun d co => length co = N.to_nat (u32v (p_t params)) /\ hd_error co = Some (snd d) /\ deals (fst d) js (v (fst d)) co)
      [(sk_index (w_key w1), sk_key (w_key w1)); (sk_index (w_key w2), sk_key (w_key w2))] cs.
Proof.
  intros HH HD Hne. destruct (donors_list m params hs _ HH HD) as (ds & HF).
  inversion HF as [|? [[j1 x1] c1] ? ds1 (E1 & Hf1 & He1 & _) H1]; subst. inversion H1 as [|? [[j2 x2] c2] ? ds2 (E2 & Hf2 & He2 & _) H2]; subst. inversion H2; subst.
  exists [c1; c2], (fun i j => sh_value (evaluate_polynomial i j (if u32_eqb i (sk_index (w_key w1)) then c1 else c2))).
  split; [|split; [apply Permutation_refl|]].
  - constructor; [eexists; split; [exact (fd_comm _ _ _ _ _ Hf1)|reflexivity]|].
    constructor; [eexists; split; [exact (fd_comm _ _ _ _ _ Hf2)|reflexivity]|constructor].
  - constructor; [|constructor; [|constructor]]; cbn [fst snd].
    + split; [exact (fd_len _ _ _ _ _ Hf1)|]. split; [exact He1|]. intros j Hj. rewrite u32_eqb_refl, evaluate_polynomial_eq. reflexivity.
    + split; [exact (fd_len _ _ _ _ _ Hf2)|]. split; [exact He2|]. intros j Hj.
      replace (u32_eqb (sk_index (w_key w2)) (sk_index (w_key w1))) with false by (symmetry; apply u32_eqb_neq; congruence).
      rewrite evaluate_polynomial_eq. reflexivity.
Qed.
(** holders 3 and 1 reshare to 5, 6, 7, 8 with threshold 3; 8 shows the shares it received, the key asked about is that of 5 *)
Example C145_ex_reshare :
  exists q cs v, exactly q (fun _ : @F Toy => True) /\ good_indices ([u 3; u 1]) /\ good_indices ([u 8] ++ [u 5]) /\
    length ([u 8] ++ [u 5]) < N.to_nat (u32v (p_t re_params)) /\
    honest_heirs re_params re_heirs /\ honest_donors Debug re_params re_heirs re_donors /\ Forall2 commits re_donors cs /\
    Permutation (combine (map (fun w => sk_index (w_key w)) re_donors) cs)
      (combine (map fst [(u 3, sk_key (demo_key 3)); (u 1, sk_key (demo_key 1))]) cs ++ []) /\
    Forall2 (fun d co => length co = N.to_nat (u32v (p_t re_params)) /\ hd_error co = Some (snd d) /\ deals (S := Toy) (fst d) [u 8] (v (fst d)) co)
      [(u 3, sk_key (demo_key 3)); (u 1, sk_key (demo_key 1))] cs /\
    map z_index (map re_heir [5]%N) = [u 5] /\ (forall z, In z (map re_heir [5]%N) -> In z re_heirs) /\
    Forall2 (heir_run Debug two_two re_donors) (map re_heir [5]%N) (map (sub_out re_donors) [5]%N).
Proof.
  destruct toy_count as (q & _ & Hq).
  assert (K3 : w_key (re_donor re_params (demo_key 3) 71%N) = demo_key 3) by (unfold re_donor; destruct (reshare _ _ _ _ _) as [[[[d es] l] r]| |]; reflexivity).
  assert (K1 : w_key (re_donor re_params (demo_key 1) 72%N) = demo_key 1) by (unfold re_donor; destruct (reshare _ _ _ _ _) as [[[[d es] l] r]| |]; reflexivity).
  assert (I3 : sk_index (demo_key 3) = u 3) by vmr. assert (I1 : sk_index (demo_key 1) = u 1) by vmr.
  destruct (fits_two Toy ToyLaws Debug re_params re_heirs (re_donor re_params (demo_key 3) 71%N) (re_donor re_params (demo_key 1) 72%N) [u 8]
    C32_ex_heirs C32_ex_donors) as (cs & v & H1 & H2 & H3).
  { rewrite K3, K1, I3, I1. intros E. apply (f_equal u32v) in E. discriminate E. }
  rewrite K3, K1, I3, I1 in H2, H3.
  exists q, cs, v. split; [exact Hq|]. split; [good|]. split; [cbn [app]; good|]. split; [apply Nat.ltb_lt; reflexivity|].
  split; [exact C32_ex_heirs|]. split; [exact C32_ex_donors|]. split; [exact H1|]. split; [exact H2|]. split; [exact H3|]. split; [reflexivity|]. split.
  { intros z [<-|[]]; left; reflexivity. }
  cbn [map]. constructor; [apply re_key_run; vmr|constructor].
Qed.
