(** Property C142: how likely the coincidences named in other properties are. Over a field with q elements each of them happens for exactly
    one out of q choices of coefficients, keys or answers. *)
From Coq Require Import String Strings.Byte Arith NArith ZArith Bool List Permutation Lia Field.
From Verif Require Import Base Suite Spec SpecDkg SpecSign SpecEnd Types ModelDkg ModelSign Algebra BaseLemmas LemmasShare LemmasFinish LemmasSign
  Toy Demo DemoDkg DemoSign PropsShare PropsRound1 PropsFinish PropsSign PropsAttack PropsSpread PropsMix PropsSimDealer PropsLikely PropsOwn PropsEnd.
Import ListNotations.

(** * counting *)
Section Count.
  Context {A B : Type}.
  Lemma exactly_iff n (P Q : A -> Prop) : (forall a, P a <-> Q a) -> exactly n P -> exactly n Q.
  Proof. intros H (l & H1 & H2 & H3). exists l. split; [exact H1|]. split; [exact H2|]. intros a. rewrite H3. apply H. Qed.
  Lemma exactly_image n (P : A -> Prop) (Q : B -> Prop) (f : A -> B) :
    (forall a a', P a -> P a' -> f a = f a' -> a = a') -> (forall b, Q b <-> exists a, P a /\ b = f a) -> exactly n P -> exactly n Q.
  Proof.
    intros Hi HQ (l & H1 & H2 & H3). exists (map f l). split; [|split].
    - assert (HP : forall a, In a l -> P a) by (intros a; apply H3). clear H3 H2. induction H1 as [|a l N1 N2 IH]; cbn [map]; [constructor|].
      constructor; [|apply IH; intros b Hb; apply HP; right; exact Hb]. intros X. apply in_map_iff in X as (b & E & Hb).
      apply N1. rewrite <- (Hi b a); [exact Hb| | |exact E]; apply HP; [right; exact Hb|left; reflexivity].
    - rewrite map_length. exact H2.
    - intros b. rewrite HQ, in_map_iff. split.
      + intros (a & E & Ha). exists a. split; [apply H3, Ha|auto].
      + intros (a & Ha & E). exists a. split; [auto|apply H3, Ha].
  Qed.
  Lemma exactly_union n (els : list A) (P : A -> list A -> Prop) : NoDup els -> (forall x, In x els -> exactly n (P x)) ->
    exactly (length els * n) (fun l => exists x a, l = x :: a /\ In x els /\ P x a).
  Proof.
    intros N. induction N as [|x els N1 N2 IH]; intros H.
    - exists []. split; [constructor|]. split; [reflexivity|]. intros l. split; [intros []|]. intros (x & a & _ & [] & _).
    - destruct IH as (ls & L1 & L2 & L3); [intros y Hy; apply H; right; exact Hy|].
      destruct (H x (or_introl eq_refl)) as (k & K1 & K2 & K3). exists (map (cons x) k ++ ls). split; [|split].
      + apply nodup_both. split; [|split; [exact L1|]].
        * clear -K1. induction K1 as [|a k N1 N2 IH]; cbn [map]; constructor; [|exact IH]. intros X. apply in_map_iff in X as (b & E & Hb).
          injection E as ->. exact (N1 Hb).
        * intros l Hl Hl'. apply in_map_iff in Hl as (a & <- & _). apply L3 in Hl' as (y & b & E & Hy & _). injection E as -> ->. exact (N1 Hy).
      + rewrite app_length, map_length, K2, L2. reflexivity.
      + intros l. rewrite in_app_iff, in_map_iff. split.
        * intros [(a & <- & Ha)|Hl]; [exists x, a; split; [reflexivity|]; split; [left; reflexivity|apply K3, Ha]|].
          apply L3 in Hl as (y & b & E & Hy & Hb). exists y, b. split; [exact E|]. split; [right; exact Hy|exact Hb].
        * intros (y & a & -> & [<-|Hy] & Ha); [left; exists a; split; [reflexivity|apply K3, Ha]|]. right. apply L3. exists y, a. auto.
  Qed.
End Count.

Section Linear.
  Context {S : Suite} {L : SuiteLaws S}.
  Add Field F_fld : F_field.

  Fixpoint dot (w a : list F) : F := match w, a with c :: w', x :: a' => (c * x + dot w' a')%F | _, _ => F0 end.

  Lemma dot_zero w : forall a, (forall c, In c w -> c = F0) -> dot w a = F0.
  Proof.
    induction w as [|c w IH]; intros [|x a] H; cbn [dot]; try reflexivity. rewrite (H c (or_introl eq_refl)), IH by (intros d Hd; apply H; right; exact Hd). ring.
  Qed.
  Lemma some_nonzero (w : list F) : {exists c, In c w /\ c <> F0} + {forall c, In c w -> c = F0}.
  Proof.
    induction w as [|c w [IH|IH]].
    - right. intros c [].
    - left. destruct IH as (d & Hd & H). exists d. split; [right; exact Hd|exact H].
    - destruct (F_dec c F0) as [->|Hc]; [right|left; exists c; split; [left; reflexivity|exact Hc]]. intros d [<-|Hd]; [reflexivity|apply IH, Hd].
  Qed.
  Lemma dot_move c x d b : (c * x + d = b)%F <-> d = (b - c * x)%F.
  Proof. split; [intros <-; ring|intros ->; ring]. Qed.
  Lemma dot_solve c x b : c <> F0 -> ((c * x + F0 = b)%F <-> x = (b * Finv c)%F).
  Proof. intros Hc. split; [intros <-; field; exact Hc|intros ->; field; exact Hc]. Qed.

  Lemma count_dot q w : exactly q (fun _ : F => True) -> (exists c, In c w /\ c <> F0) -> forall b,
    exactly (q ^ (length w - 1)) (fun a => length a = length w /\ dot w a = b).
  Proof.
    intros (els & E1 & Eq & E3). assert (all : forall x, In x els) by (intros x; apply E3; exact I).
    induction w as [|c w IH]; intros Hw b; [destruct Hw as (c & [] & _)|]. cbn [length]. rewrite Nat.sub_succ, Nat.sub_0_r.
    destruct (some_nonzero w) as [Hn|Hz].
    - assert (Hl : length w = Datatypes.S (length w - 1)) by (destruct Hn as (d & Hd & _); destruct w; [destruct Hd|cbn [length]; lia]).
      rewrite Hl at 1. cbn [Nat.pow]. rewrite <- Eq at 1.
      apply (exactly_iff _ (fun l => exists x a, l = x :: a /\ In x els /\ (length a = length w /\ dot w a = (b - c * x)%F))).
      + intros l. split.
        * intros (x & a & -> & _ & H1 & H2). cbn [length dot]. split; [congruence|]. apply dot_move, H2.
        * intros (H1 & H2). destruct l as [|x a]; [discriminate H1|]. cbn [dot length] in *. exists x, a. split; [reflexivity|].
          split; [apply all|]. split; [congruence|]. apply dot_move, H2.
      + apply exactly_union; [exact E1|]. intros x _. apply IH, Hn.
    - destruct Hw as (d & [<-|Hd] & Hc); [|destruct (Hc (Hz d Hd))].
      apply (exactly_image _ (fun a => length a = length w) _ (cons (b * Finv c)%F)).
      + intros a a' _ _ E. congruence.
      + intros l. split.
        * intros (H1 & H2). destruct l as [|x a]; [discriminate H1|]. cbn [dot length] in *. exists a. split; [congruence|].
          rewrite (dot_zero w a Hz) in H2. apply dot_solve in H2; [|exact Hc]. congruence.
        * intros (a & Ha & ->). cbn [dot length]. split; [congruence|]. rewrite (dot_zero w a Hz). apply dot_solve; [exact Hc|reflexivity].
      + exists (tuples els (length w)). split; [apply tuples_nodup, E1|]. split; [rewrite tuples_length, Eq; reflexivity|].
        intros a. apply tuples_in, all.
  Qed.

  (** a linear function of coefficient vectors of length t *)
  Definition linear (t : nat) (f : list F -> F) : Prop := exists w, length w = t /\ forall a, length a = t -> f a = dot w a.

  Lemma linear_count q t f b : exactly q (fun _ : F => True) -> linear t f -> (exists a, length a = t /\ f a <> F0) ->
    exactly (q ^ (t - 1)) (fun a => length a = t /\ f a = b).
  Proof.
    intros Hq (w & <- & Hw) (a & Ha & Hn).
    apply (exactly_iff _ (fun a => length a = length w /\ dot w a = b)).
    { intros x. split; intros (H1 & H2); split; auto; [rewrite Hw|rewrite <- Hw]; auto. }
    apply count_dot; [exact Hq|]. destruct (some_nonzero w) as [H|H]; [exact H|]. exfalso. apply Hn. rewrite Hw by exact Ha. apply dot_zero, H.
  Qed.
  Lemma linear_zero t : linear t (fun _ => F0).
  Proof. exists (repeat F0 t). split; [apply repeat_length|]. intros a _. symmetry. apply dot_zero. intros c Hc. exact (repeat_spec _ _ _ Hc). Qed.
  Lemma linear_add t f g : linear t f -> linear t g -> linear t (fun a => f a + g a)%F.
  Proof.
    intros (w & W1 & W2) (v & V1 & V2). exists (map (fun p => (fst p + snd p)%F) (combine w v)). split.
    - rewrite map_length, combine_length. lia.
    - intros a Ha. rewrite W2, V2 by exact Ha. clear W2 V2. subst t. revert v a V1 Ha. induction w as [|c w IH]; intros [|d v] [|x a] Hv Ha; try discriminate; cbn [dot map combine fst snd].
      + ring.
      + cbn [length] in *. rewrite <- (IH v a) by congruence. ring.
  Qed.
  Lemma linear_scale t f c : linear t f -> linear t (fun a => f a * c)%F.
  Proof.
    intros (w & W1 & W2). exists (map (fun d => (d * c)%F) w). split; [rewrite map_length; exact W1|].
    intros a Ha. rewrite W2 by exact Ha. clear W2. subst t. revert a Ha. induction w as [|d w IH]; intros [|x a] Ha; try discriminate; cbn [dot map].
    - ring.
    - cbn [length] in *. rewrite <- (IH a) by congruence. ring.
  Qed.
  Lemma linear_poly t x : linear t (fun a => poly_value a x).
  Proof.
    exists (map (fpow x) (seq 0 t)). split; [rewrite map_length, seq_length; reflexivity|]. unfold poly_value. generalize 0.
    induction t as [|t IH]; intros k [|c a] Ha; try discriminate; cbn [seq map dot terms_from]; [reflexivity|].
    rewrite (IH (Datatypes.S k) a) by (cbn [length] in Ha; congruence). ring.
  Qed.
  Lemma linear_sum {X} t (f : X -> list F -> F) (l : list X) : (forall x, In x l -> linear t (f x)) -> linear t (fun a => fsum (map (fun x => f x a) l)).
  Proof.
    induction l as [|x l IH]; intros H; cbn [map fsum]; [apply linear_zero|]. apply (linear_add t (f x)); [apply H; left; reflexivity|].
    apply IH. intros y Hy. apply H. right. exact Hy.
  Qed.

  (** what the values at the indices [js] say about the value at zero, minus that value *)
  Definition miss (js : list u32) (f : F -> F) : F := (interp0 (map (fun i => (i, f (of_u32 i))) js) - f F0)%F.
  Lemma minus_as x y : (x - y = x + y * Fopp F1)%F.
  Proof. ring. Qed.
  Lemma linear_miss t js : linear t (fun a => miss js (poly_value a)).
  Proof.
    assert (E : linear t (fun a => fsum (map (fun i => (poly_value a (of_u32 i) * weight i js)%F) js) + poly_value a F0 * Fopp F1)%F).
    { apply linear_add; [|apply linear_scale, linear_poly]. apply (linear_sum t (fun i a => (poly_value a (of_u32 i) * weight i js)%F)).
      intros i _. apply linear_scale, linear_poly. }
    destruct E as (w & W1 & W2). exists w. split; [exact W1|]. intros a Ha. rewrite <- W2 by exact Ha. unfold miss, interp0. rewrite !map_map. cbn [fst snd].
    rewrite map_id. apply minus_as.
  Qed.
  Lemma miss_nonzero js t : good_indices js -> length js < t -> exists a, length a = t /\ miss js (poly_value a) <> F0.
  Proof.
    intros Hg Hl. destruct (through js t F1 (fun _ => F0) Hg Hl) as (a & A1 & A2 & A3). exists a. split; [exact A1|].
    unfold miss. rewrite (poly_value_hd _ _ A2). unfold interp0. rewrite !map_map. cbn [fst snd].
    rewrite fsum_map_zero; [|intros i Hi; rewrite A3 by exact Hi; ring]. intros E. apply F1_neq_0.
    replace F1 with (Fopp (F0 - F1))%F by ring. rewrite E. ring.
  Qed.
  Lemma miss_sum js lam f g : miss js (fun x => f x * lam + g x)%F = (miss js f * lam + miss js g)%F.
  Proof.
    unfold miss, interp0. rewrite !map_map. cbn [fst snd]. rewrite !map_id.
    assert (E : forall l, fsum (map (fun i => ((f (of_u32 i) * lam + g (of_u32 i)) * weight i js)%F) l) =
      (fsum (map (fun i => f (of_u32 i) * weight i js)%F l) * lam + fsum (map (fun i => g (of_u32 i) * weight i js)%F l))%F).
    { induction l as [|i l IH]; cbn [map fsum]; [ring|]. rewrite IH. ring. }
    rewrite E. ring.
  Qed.
  Lemma miss_solve x lam y : lam <> F0 -> ((x * lam + y = F0)%F <-> x = (Fopp y * Finv lam)%F).
  Proof.
    intros Hl. split; [|intros ->; field; exact Hl]. intros E. replace x with ((x * lam + y - y) * Finv lam)%F by (field; exact Hl). rewrite E. field. exact Hl.
  Qed.
  Lemma minus_zero x y : (x - y = F0)%F <-> x = y.
  Proof. split; [apply Fsub_0|intros ->; ring]. Qed.
  Lemma poly_const_one t x : poly_value (F1 :: repeat F0 t) x = F1.
  Proof.
    unfold poly_value. cbn [terms_from fpow]. assert (E : forall k, terms_from k (repeat F0 t) x = F0).
    { induction t as [|t IH]; intros k; cbn [repeat terms_from]; [reflexivity|]. rewrite IH. ring. }
    rewrite E. ring.
  Qed.
  Lemma challenge_solve x r z c : x <> F0 -> (z = (r + x * c)%F <-> c = ((z - r) * Finv x)%F).
  Proof. intros Hx. split; [intros ->; field; exact Hx|intros ->; field; exact Hx]. Qed.
End Linear.

(** * coefficients of one dealer *)

(** A polynomial has a given value at a given place for exactly one out of q coefficient vectors: the chance behind "opens to the right
    value" and the three values of C131. *)
Theorem C142_one_value :
  forall (S : Suite) (L : SuiteLaws S) (q t : nat) (x v : F),
  exactly q (fun _ : F => True) -> 1 <= t ->
  exactly (q ^ t) (fun a : list F => length a = t) /\ exactly (q ^ (t - 1)) (fun a => length a = t /\ poly_value a x = v).
Proof.
  intros S L q t x v Hq Ht. split.
  - destruct Hq as (els & E1 & <- & E3). exists (tuples els t). split; [apply tuples_nodup, E1|]. split; [apply tuples_length|].
    intros a. apply tuples_in. intros y. apply E3. exact I.
  - apply (linear_count q t (fun a => poly_value a x) v Hq (linear_poly t x)). exists (F1 :: repeat F0 (t - 1)). split.
    + cbn [length]. rewrite repeat_length. lia.
    + rewrite poly_const_one. apply F1_neq_0.
Qed.
Print Assumptions C142_one_value.

(** Fewer than t values of a polynomial with t coefficients interpolate to its value at zero for exactly one out of q coefficient
    vectors. *)
Theorem C142_few_values_combine :
  forall (S : Suite) (L : SuiteLaws S) (q t : nat) (js : list u32),
  exactly q (fun _ : F => True) -> good_indices js -> length js < t ->
  exactly (q ^ (t - 1)) (fun a => length a = t /\ interp0 (map (fun i => (i, poly_value a (of_u32 i))) js) = hd F0 a).
Proof.
  intros S L q t js Hq Hg Hl. apply (exactly_iff _ (fun a => length a = t /\ miss js (poly_value a) = F0)).
  - intros a. unfold miss. rewrite minus_zero, poly_value_0. reflexivity.
  - exact (linear_count q t _ F0 Hq (linear_miss t js) (miss_nonzero js t Hg Hl)).
Qed.
Print Assumptions C142_few_values_combine.

(** The same for the signing keys of a key generation by honest participants: whatever all other dealers chose, the keys of given
    participants, fewer than t, interpolate to the group secret for exactly one out of q coefficient vectors of one dealer; and
    a signing session of exactly these participants ends with a signature exactly for these vectors, or if its challenge is zero. *)
Theorem C142_few_keys_combine :
  forall (S : Suite) (L : SuiteLaws S) (q : nat) (m : build) (params : Params) (j : u32) (others : list (u32 * list F)) (js : list u32),
  exactly q (fun _ : F => True) -> good_indices (j :: map fst others) -> good_indices js -> (N.of_nat (length js) < u32v (p_t params))%N ->
  exists W : list F -> Prop, exactly (q ^ (N.to_nat (u32v (p_t params)) - 1)) W /\
    (forall a, W a -> length a = N.to_nat (u32v (p_t params))) /\
    forall (parties : list Party) (p : Party),
    honest_parties params parties -> all_bootstrapped m params parties -> In p parties -> y_index p = j ->
    Permutation (map (fun z => (y_index z, y_co z)) parties) ((j, y_co p) :: others) ->
    forall (zs : list Party) (outs : list (G * SigningKey)),
    (forall z, In z zs -> In z parties) -> map y_index zs = js -> Forall2 (party_run m parties) zs outs ->
    forall gk sk, In (gk, sk) outs ->
      (gk = (gen * interp0 (key_points (map snd outs)))%G <-> W (y_co p)) /\
      forall (p' : Params) (msg : list byte) tr a (x : u32 -> F),
      agg_run (agg_new p' gk msg) tr a -> Permutation (map sg_index (ag_signers (ai_state a))) js ->
      (forall k, In k (map snd outs) -> sk_key k = x (sk_index k)) ->
      (forall i, In i js -> took_part m gk msg tr a x x i) ->
      ((exists sig, outcome a = Ok sig) <-> W (y_co p) \/ session_chal (h4 msg) gk (ag_signers (ai_state a)) = F0).
Proof.
  intros S L q m params j others js Hq Hg Hj Hl. set (t := N.to_nat (u32v (p_t params))) in *.
  set (lam := weight j (j :: map fst others)). assert (Hlam : lam <> F0) by (apply weight_neq_0, Hg).
  set (g := fun x => fsum (map (fun o => poly_value (snd o) x * weight (fst o) (j :: map fst others))%F others)).
  exists (fun a => length a = t /\ miss js (poly_value a) = (Fopp (miss js g) * Finv lam)%F).
  split; [apply (linear_count q t _ _ Hq (linear_miss t js)), miss_nonzero; [exact Hj|lia]|]. split; [intros a H; apply H|].
  intros parties p H1 H2 H3 H4 H5 zs outs Hz Hzs HO gk sk Hin.
  assert (Hlen : length (y_co p) = t).
  { destruct (hp_dealt _ _ H1 p H3) as (r0 & r0' & D).
    assert (Hi : y_index p <> u32_zero) by (intros K; apply (proj2 (hp_indices _ _ H1)); rewrite <- K; apply in_map, H3).
    destruct (C12_new_dealer_well_formed S L params (y_index p) r0 Hi (proj1 (hp_threshold _ _ H1))) as (d & co & dh & r1 & D' & _ & D2 & _).
    assert (y_co p = co) as -> by congruence. exact D2. }
  assert (HV : forall x, interp0 (dealt_values parties x) = (poly_value (y_co p) x * lam + g x)%F).
  { intros x. assert (HP : Permutation (dealt_values parties x) ((j, poly_value (y_co p) x) :: map (fun o => (fst o, poly_value (snd o) x)) others)).
    { apply (Permutation_map (fun o => (fst o, poly_value (snd o) x))) in H5. rewrite map_map in H5. cbn [map fst snd] in H5. exact H5. }
    rewrite (interp0_perm _ _ HP). unfold interp0, g, lam. cbn [map fst snd fsum]. rewrite !map_map. cbn [fst snd]. reflexivity. }
  destruct (C18_honest_agreement S L m params parties H1 H2) as (secret & Es & C).
  assert (HK : key_points (map snd outs) = map (fun i => (i, (poly_value (y_co p) (of_u32 i) * lam + g (of_u32 i))%F)) js /\
    forall gk0 sk0, In (gk0, sk0) outs -> gk0 = (gen * secret)%G).
  { subst js. clear Hin Hj Hl. revert Hz. induction HO as [|z [gk0 sk0] zs outs Hz0 HO IH]; intros Hz; [split; [reflexivity|intros ? ? []]|].
    destruct IH as [IH1 IH2]; [intros y Hy; apply Hz; right; exact Hy|].
    destruct Hz0 as (senders & es & r & s2 & cs & r' & Z1 & Z2 & Z3 & Z4).
    destruct (C z senders es r (Hz z (or_introl eq_refl)) Z1 Z2) as (s2' & r'' & sk' & C1 & C2 & C3 & C4 & _).
    rewrite Z3 in C1. injection C1 as -> -> ->. rewrite Z4 in C2. injection C2 as -> ->. split.
    - unfold key_points in *. cbn [map fst snd]. rewrite IH1. rewrite C3, C4, HV. reflexivity.
    - intros gk1 sk1 [E|E]; [congruence|exact (IH2 gk1 sk1 E)]. }
  destruct HK as [HK HG]. pose proof (HG gk sk Hin) as Egk.
  assert (EQ : interp0 (key_points (map snd outs)) = secret <-> length (y_co p) = t /\ miss js (poly_value (y_co p)) = (Fopp (miss js g) * Finv lam)%F).
  { rewrite <- (miss_solve _ lam (miss js g) Hlam), <- miss_sum. unfold miss. rewrite minus_zero, <- HV, <- Es, HK. split; [auto|]. intros [_ E]. exact E. }
  split.
  - rewrite Egk, gen_mul_iff, <- EQ. split; auto.
  - intros p' msg tr a x HA HP Hx HT. rewrite <- EQ.
    set (ids := map sg_index (ag_signers (ai_state a))) in *.
    assert (Hids : ids <> []).
    { intros E. rewrite E in HP. apply Permutation_nil in HP. subst js. destruct zs; [|discriminate]. inversion HO. subst. destruct Hin. }
    assert (H0 : ~ In u32_zero ids) by (intros X; apply (proj2 Hj); exact (Permutation_in _ HP X)).
    assert (ES : secret_at x ids = interp0 (key_points (map snd outs))).
    { unfold secret_at. rewrite (interp0_perm _ (map (fun i => (i, x i)) js)) by (apply Permutation_map, HP). f_equal.
      assert (Ei : js = map sk_index (map snd outs)).
      { apply (f_equal (map fst)) in HK. unfold key_points in HK. rewrite !map_map in HK. cbn [fst] in HK. rewrite map_id in HK. rewrite map_map. symmetry. exact HK. }
      rewrite Ei, map_map. unfold key_points. apply map_ext_in. intros k Hk. rewrite (Hx k Hk). reflexivity. }
    destruct (C114_keys_used_decide S L m p' secret msg tr a x x) as [C1 C2].
    { rewrite <- Egk. exact HA. }
    { exact Hids. }
    { exact H0. }
    { intros i Hi. rewrite <- Egk. apply HT. exact (Permutation_in _ HP Hi). }
    rewrite <- Egk in C1, C2. fold ids in C1, C2. rewrite ES in C1, C2. split.
    + intros (sig & Hs). destruct (F_dec (interp0 (key_points (map snd outs))) secret) as [E|E]; [left; exact E|].
      destruct (F_dec (session_chal (h4 msg) gk (ag_signers (ai_state a))) F0) as [E'|E']; [right; exact E'|].
      rewrite (C2 (conj E E')) in Hs. discriminate Hs.
    + intros H. destruct (C1 H) as (sig & E & _). exists sig. exact E.
Qed.
Print Assumptions C142_few_keys_combine.

(** * signatures *)

(** Every group key accepts exactly q signatures for each message hash, one for each first half; and, the key not being the identity, a
    pair fixed before the challenge is known is accepted for exactly one of the q possible challenges. *)
Theorem C142_signatures_accepted :
  forall (S : Suite) (L : SuiteLaws S) (q : nat) (gk : G) (h : list byte),
  exactly q (fun _ : F => True) ->
  exactly q (fun sig => verify_signature gk sig h = Ok tt) /\
  (forall R, exactly 1 (fun z => verify_signature gk (MkTSig R z) h = Ok tt)) /\
  (forall R z, gk <> Gzero -> exactly 1 (fun c : F => (gen * z)%G = (R + gk * c)%G)).
Proof.
  intros S L q gk h Hq. destruct (gen_span gk) as [x Ex].
  assert (HR : forall r z, verify_signature gk (MkTSig (gen * r)%G z) h = Ok tt <-> z = (r + x * chal (gen * r)%G gk h)%F).
  { intros r z. rewrite Ex. apply own_dlog. }
  split; [|split].
  - apply (exactly_image q (fun _ : F => True) _ (fun r => MkTSig (gen * r)%G (r + x * chal (gen * r)%G gk h)%F)); [| |exact Hq].
    + intros r r' _ _ E. injection E as E _. exact (gen_inj _ _ E).
    + intros [R z]. destruct (gen_span R) as [r Er]. rewrite Er, HR. split.
      * intros ->. exists r. split; [exact I|reflexivity].
      * intros (r' & _ & E). assert (E1 : (gen * r)%G = (gen * r')%G) by congruence. apply gen_inj in E1. subst r'. congruence.
  - intros R. destruct (gen_span R) as [r Er]. exists [(r + x * chal (gen * r)%G gk h)%F]. split; [constructor; [intros []|constructor]|].
    split; [reflexivity|]. intros z. rewrite Er, HR. cbn [In]. split; [intros [E|[]]; auto|auto].
  - intros R z Hn. destruct (gen_span R) as [r Er].
    assert (Hx : x <> F0) by (intros E; apply Hn; rewrite Ex, E; apply gen_mul_0).
    exists [((z - r) * Finv x)%F]. split; [constructor; [intros []|constructor]|]. split; [reflexivity|]. intros c. cbn [In].
    rewrite Er, Ex, Gmul_mul, gen_mul_add, gen_mul_iff. rewrite (challenge_solve x r z c Hx). split; [intros [E|[]]; auto|auto].
Qed.
Print Assumptions C142_signatures_accepted.

(** * Examples *)
Example C142_ex_one_value : exists q, exactly q (fun _ : @F Toy => True) /\ 1 <= 2 /\
  exactly (q ^ 1) (fun a : list (@F Toy) => length a = 2 /\ @poly_value Toy a (mk 3%Z) = mk 7%Z).
Proof.
  destruct toy_count as (q & _ & H). exists q. split; [exact H|]. split; [lia|]. exact (proj2 (C142_one_value Toy ToyLaws q 2 (mk 3%Z) (mk 7%Z) H ltac:(lia))).
Qed.
Example C142_ex_few_values : exists q, exactly q (fun _ : @F Toy => True) /\ good_indices [u 1; u 3] /\
  exactly (q ^ 2) (fun a : list (@F Toy) => length a = 3 /\ @interp0 Toy (map (fun i => (i, @poly_value Toy a (of_u32 i))) [u 1; u 3]) = hd (mk 0%Z) a).
Proof.
  destruct toy_count as (q & _ & H). exists q. split; [exact H|]. assert (G : good_indices [u 1; u 3]) by good. split; [exact G|].
  exact (C142_few_values_combine Toy ToyLaws q 3 [u 1; u 3] H G ltac:(cbn [length]; lia)).
Qed.
(** two values which do not combine, and two which do by chance: the coefficient of x^2 is zero *)
Example C142_ex_chance :
  Feqb (Suite := Toy) (interp0 (map (fun i => (i, poly_value [mk 5%Z; mk 7%Z; mk 9%Z] (of_u32 i))) [u 1; u 3])) (mk 5%Z) = false /\
  @interp0 Toy (map (fun i => (i, @poly_value Toy [mk 5%Z; mk 7%Z; mk 0%Z] (of_u32 i))) [u 1; u 3]) = mk 5%Z.
Proof. vms. Qed.
(** the demo key generation with threshold 2: dealer 1, and participant 3 alone *)
Example C142_ex_keys :
  honest_parties demo_params demo_parties /\ all_bootstrapped Debug demo_params demo_parties /\ In (demo_party 1) demo_parties /\
  Permutation (map (fun z => (y_index z, y_co z)) demo_parties) ((u 1, y_co (demo_party 1)) :: map (fun z => (y_index z, y_co z)) [demo_party 2; demo_party 3]) /\
  good_indices (u 1 :: map fst (map (fun z => (y_index z, y_co z)) [demo_party 2; demo_party 3])) /\ good_indices [u 3] /\
  (N.of_nat (length [u 3]) < u32v (p_t demo_params))%N /\
  (forall z, In z [demo_party 3] -> In z demo_parties) /\ map y_index [demo_party 3] = [u 3] /\
  exists outs, Forall2 (party_run Debug demo_parties) [demo_party 3] outs.
Proof.
  assert (H : forall z, In z [demo_party 3] -> In z demo_parties) by (intros z [<-|[]]; right; right; left; reflexivity).
  split; [exact (proj1 C91_ex)|]. split; [exact (proj1 (proj2 C91_ex))|]. split; [exact (proj1 (proj2 (proj2 C91_ex)))|].
  split; [apply Permutation_refl|]. split; [cbn [map fst y_index demo_party]; good|]. split; [good|]. split; [reflexivity|]. split; [exact H|].
  split; [reflexivity|]. exact (party_runs_exist Toy ToyLaws Debug demo_params demo_parties _ C18_ex_honest C18_ex_bootstrapped H 7%N).
Qed.
(** a session of signer 3 alone where two are needed *)
Definition ch_inc : list ACall := [CInc (u 3) (published (spair 3 0)) (MkVK (u 3) (@gen Toy * mk 1231%Z)%G)].
Definition ch_signers : list (@Signer Toy) := ag_signers (ai_state (snd (calls_run (agg_new c69_params sgroup [x68; x69]) ch_inc))).
Definition ch_sig : @PartialSig Toy :=
  or_else (A := @PartialSig Toy) (@MkPSig Toy (u 0) (mk 0%Z)) (fst (sign (S := Toy) Debug (skey 3) shash sgroup (snonces 3) 0 ch_signers)).
Definition ch_run : trace * AggInitial := calls_run (agg_new c69_params sgroup [x68; x69]) (ch_inc ++ [CPart ch_sig]).
Lemma ch_run_ok : agg_run (agg_new c69_params sgroup [x68; x69]) (fst ch_run) (snd ch_run).
Proof. exact (calls_run_ok _ _). Qed.
Example C142_ex_session :
  map sg_index (ag_signers (ai_state (snd ch_run))) = [u 3] /\ outcome (snd ch_run) = Err (MisbehavingParticipants []) /\
  (forall i, In i [u 3] -> took_part Debug sgroup [x68; x69] (fst ch_run) (snd ch_run) (fun _ => mk 1231%Z) (fun _ => mk 1231%Z) i).
Proof.
  split; [vmr|]. split; [vmr|]. intros i [<-|[]].
  apply (@took_part_check Toy ToyLaws _ _ _ _ _ _ _ _ _ (snonces 3) 0%N (spair 3 0) ch_sig ch_run_ok); [vmr|vmr| |vmr|vmr].
  apply (nth_error_In _ 0). vmr.
Qed.
Example C142_ex_signature : verify_signature sgroup (MkTSig own_R (own_z shash)) shash = Ok tt /\ Geqb (Suite := Toy) sgroup (@Gzero Toy) = false.
Proof. vms. Qed.
