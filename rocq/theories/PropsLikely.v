(** Property C139: fewer than t shares, and published partial signatures, are not only possible with every secret but equally likely. *)
From Coq Require Import String Strings.Byte Arith NArith ZArith Bool List Lia Permutation Field.
From Verif Require Import Base Suite Spec SpecDkg SpecSign SpecHist Types ModelDkg ModelSign ModelCodec Algebra BaseLemmas LemmasShare LemmasSign
  Toy Demo DemoDkg DemoSign PropsShare PropsFinish PropsSign PropsHist PropsSpread PropsSimDealer PropsVolume.
Import ListNotations.

(** ** specification: counting *)
Section Vocabulary.
  (** exactly n things have the property *)
  Definition exactly {A : Type} (n : nat) (P : A -> Prop) : Prop := exists l, NoDup l /\ length l = n /\ forall a, In a l <-> P a.
  Context {S : Suite}.
  (** the coefficients deal these values to these receivers *)
  Definition deals (from : u32) (js : list u32) (v : u32 -> F) (a : list F) : Prop :=
    forall j, In j js -> evaluate_polynomial from j a = MkShare from j (v j).
End Vocabulary.

(** ** lists of all vectors *)
Section Tuples.
  Context {A : Type} (els : list A).
  Fixpoint tuples (n : nat) : list (list A) :=
    match n with O => [[]] | Datatypes.S n' => flat_map (fun x => map (cons x) (tuples n')) els end.
  Lemma tuples_length n : length (tuples n) = length els ^ n.
  Proof.
    induction n as [|n IH]; [reflexivity|]. cbn [tuples Nat.pow]. rewrite <- IH. clear IH. generalize (tuples n) as T. intros T.
    induction els as [|x l IHl]; [reflexivity|]. cbn [flat_map length]. rewrite app_length, map_length, IHl. reflexivity.
  Qed.
  Lemma tuples_in n : (forall x, In x els) -> forall a, In a (tuples n) <-> length a = n.
  Proof.
    intros H. induction n as [|n IH]; intros a; cbn [tuples].
    - split; [intros [<-|[]]; reflexivity|]. destruct a; [left; reflexivity|discriminate].
    - rewrite in_flat_map. split.
      + intros (x & _ & Ha). apply in_map_iff in Ha as (b & <- & Hb). cbn [length]. f_equal. apply IH, Hb.
      + destruct a as [|x b]; [discriminate|]. intros E. injection E as E. exists x. split; [apply H|]. apply in_map, IH, E.
  Qed.
  Lemma tuples_nodup n : NoDup els -> NoDup (tuples n).
  Proof.
    intros H. induction n as [|n IH]; cbn [tuples]; [constructor; [intros []|constructor]|].
    revert H IH. generalize (tuples n) as T. intros T H IH. induction H as [|x l Hx Hl IHl]; cbn [flat_map]; [constructor|].
    assert (Hi : NoDup (map (cons x) T)) by (apply FinFun.Injective_map_NoDup; [intros p q E; congruence|exact IH]).
    revert Hi. assert (D : forall b, In b (map (cons x) T) -> ~ In b (flat_map (fun x => map (cons x) T) l)).
    { intros b Hb Hc. apply in_map_iff in Hb as (b' & <- & _). apply in_flat_map in Hc as (y & Hy & Hc). apply in_map_iff in Hc as (c & E & _). congruence. }
    revert D. generalize (map (cons x) T) as M. intros M D HM. induction HM as [|b M Hb HM IHM]; [exact IHl|]. cbn [app]. constructor.
    - rewrite in_app_iff. intros [K|K]; [exact (Hb K)|]. exact (D b (or_introl eq_refl) K).
    - apply IHM. intros c Hc. apply D. right. exact Hc.
  Qed.
  (** one b for each a *)
  Lemma choose {B} (Q : A -> B -> Prop) : (forall a, In a els -> exists b, Q a b) -> exists bs, Forall2 Q els bs.
  Proof.
    intros H. induction els as [|a l IH]; [exists []; constructor|]. destruct (H a (or_introl eq_refl)) as [b Hb].
    destruct IH as [bs Hbs]; [intros; apply H; right; assumption|]. exists (b :: bs). constructor; assumption.
  Qed.
End Tuples.

Lemma forall2_nodup {A B} (Q : A -> B -> Prop) l bs : (forall a a' b, Q a b -> Q a' b -> a = a') -> Forall2 Q l bs -> NoDup l -> NoDup bs.
Proof.
  intros Hq H. induction H as [|a b l bs Hab H IH]; intros N; [constructor|]. inversion N as [|? ? N1 N2]; subst. constructor; [|exact (IH N2)].
  intros K. apply N1. clear IH N N2 N1. induction H as [|a' b' l bs Hab' H IH]; [destruct K|]. destruct K as [->|K]; [left; exact (Hq _ _ _ Hab' Hab)|right; exact (IH K)].
Qed.
Lemma forall2_right {A B} (Q : A -> B -> Prop) l bs b : Forall2 Q l bs -> In b bs -> exists a, In a l /\ Q a b.
Proof. intros H. induction H as [|a b' l bs Hab H IH]; intros []; [subst; exists a; split; [left|]; auto|]. destruct (IH H0) as (a' & H1 & H2). exists a'. split; [right|]; auto. Qed.
Lemma forall2_left {A B} (Q : A -> B -> Prop) l bs a : Forall2 Q l bs -> In a l -> exists b, In b bs /\ Q a b.
Proof. intros H. induction H as [|a' b l bs Hab H IH]; intros []; [subst; exists b; split; [left|]; auto|]. destruct (IH H0) as (b' & H1 & H2). exists b'. split; [right|]; auto. Qed.

Lemma nodup_both {A} (l l' : list A) : NoDup (l ++ l') <-> NoDup l /\ NoDup l' /\ forall x, In x l -> ~ In x l'.
Proof.
  induction l as [|a l IH]; cbn [app].
  - split; [intros H; repeat split; [constructor|exact H|intros x []]|intros (_ & H & _); exact H].
  - split.
    + intros H. inversion H as [|? ? H1 H2]; subst. apply IH in H2 as (H2 & H3 & H4). rewrite in_app_iff in H1. repeat split; [constructor; tauto|exact H3|].
      intros x [<-|Hx]; [tauto|apply H4, Hx].
    + intros (H1 & H2 & H3). inversion H1 as [|? ? H4 H5]; subst. constructor.
      * rewrite in_app_iff. intros [K|K]; [exact (H4 K)|exact (H3 a (or_introl eq_refl) K)].
      * apply IH. repeat split; [exact H5|exact H2|]. intros x Hx. apply H3. right. exact Hx.
Qed.

(** ** more indices *)
Lemma u32_of_N_inj a b : (a < 4294967296)%N -> (b < 4294967296)%N -> u32_of_N a = u32_of_N b -> a = b.
Proof. intros Ha Hb E. apply (f_equal u32v) in E. rewrite !u32_of_N_small in E by assumption. exact E. Qed.
Lemma more_indices (js : list u32) (t : nat) : (N.of_nat t < 4294967296)%N -> good_indices js -> length js < t ->
  exists ex, good_indices (js ++ ex) /\ Datatypes.S (length (js ++ ex)) = t.
Proof.
  intros Ht [Hn H0] Hl. set (l := map (fun k => u32_of_N (N.of_nat k)) (seq 1 t)).
  set (e := filter (fun i => negb (existsb (u32_eqb i) js)) l).
  assert (He : forall i, In i e <-> In i l /\ ~ In i js).
  { intros i. unfold e. rewrite filter_In, negb_true_iff. split; intros [H1 H2]; (split; [exact H1|]).
    - intros K. apply Bool.not_true_iff_false in H2. apply H2, existsb_exists. exists i. split; [exact K|apply u32_eqb_refl].
    - apply Bool.not_true_iff_false. intros K. apply existsb_exists in K as (k & K1 & K2). apply u32_eqb_spec in K2. subst k. exact (H2 K1). }
  assert (Nl : NoDup l).
  { unfold l. assert (K : forall s n, (N.of_nat (s + n) <= 4294967296)%N -> NoDup (map (fun k => u32_of_N (N.of_nat k)) (seq s n))).
    { intros s n. revert s. induction n as [|n IH]; intros s Hs; [constructor|]. cbn [seq map]. constructor.
      - intros K. apply in_map_iff in K as (k & K1 & K2). apply in_seq in K2. apply u32_of_N_inj in K1; lia.
      - apply IH. lia. }
    apply K. lia. }
  assert (Z : ~ In u32_zero l).
  { unfold l. intros K. apply in_map_iff in K as (k & K1 & K2). apply in_seq in K2. apply (f_equal u32v) in K1. rewrite u32_of_N_small in K1 by lia.
    change (u32v u32_zero) with 0%N in K1. lia. }
  assert (Le : t - length js <= length e).
  { assert (length l <= length (js ++ e)).
    { apply NoDup_incl_length; [exact Nl|]. intros i Hi. apply in_or_app. destruct (existsb (u32_eqb i) js) eqn:K; [left; apply existsb_exists in K as (k & K1 & K2); apply u32_eqb_spec in K2; subst k; exact K1|right; unfold e; apply filter_In; rewrite K; auto]. }
    rewrite app_length in H. unfold l in H. rewrite map_length, seq_length in H. lia. }
  exists (firstn (t - 1 - length js) e).
  assert (Sub : forall i, In i (firstn (t - 1 - length js) e) -> In i e).
  { intros i Hi. rewrite <- (firstn_skipn (t - 1 - length js) e). apply in_or_app. left. exact Hi. }
  split.
  - split.
    + apply nodup_both. split; [exact Hn|split].
      * assert (NoDup e) by (apply NoDup_filter, Nl). rewrite <- (firstn_skipn (t - 1 - length js) e) in H. apply nodup_both in H. apply H.
      * intros i Hi K. apply Sub, He in K. tauto.
    + rewrite in_app_iff. intros [K|K]; [exact (H0 K)|]. apply Sub, He in K. tauto.
  - rewrite app_length, firstn_length. lia.
Qed.

(** ** polynomials with prescribed values *)
Section Polys.
  Context {S : Suite} {L : SuiteLaws S} (els : list F) (all : forall x, In x els) (nodup_els : NoDup els).

  Lemma value_of (l : list u32) : NoDup l -> forall w : list F, length w = length l -> exists v : u32 -> F, map v l = w.
  Proof.
    induction 1 as [|i l Hi Hl IH]; intros [|x w] E; try discriminate; [exists (fun _ => F0); reflexivity|]. injection E as E.
    destruct (IH w E) as [v Hv]. exists (fun j => if u32_eqb j i then x else v j). cbn [map]. rewrite u32_eqb_refl. f_equal. rewrite <- Hv.
    apply map_ext_in. intros j Hj. destruct (u32_eqb j i) eqn:K; [|reflexivity]. apply u32_eqb_spec in K. subst j. destruct (Hi Hj).
  Qed.
  Lemma map_values (v v' : u32 -> F) l : map v l = map v' l -> forall j, In j l -> v j = v' j.
  Proof. induction l as [|i l IH]; intros E j []; cbn [map] in E; injection E as E1 E2; [subst; exact E1|]. apply IH; assumption. Qed.

  Lemma count_polys from (js : list u32) (t : nat) (s : F) (v : u32 -> F) : (N.of_nat t < 4294967296)%N -> good_indices js -> length js < t ->
    exactly (length els ^ (t - 1 - length js)) (fun a => length a = t /\ hd_error a = Some s /\ deals from js v a).
  Proof.
    intros Ht Hg Hl. destruct (more_indices js t Ht Hg Hl) as (ex & Hgx & Hlx).
    pose proof Hgx as [Nx _]. apply nodup_both in Nx as (_ & Nx & Dx).
    set (Q := fun (w : list F) (a : list F) => length a = t /\ hd_error a = Some s /\ (forall j, In j js -> poly_value a (of_u32 j) = v j) /\
      map (fun j => poly_value a (of_u32 j)) ex = w).
    destruct (choose (tuples els (length ex)) Q) as [ls Hls].
    { intros w Hw. apply tuples_in in Hw; [|exact all]. destruct (value_of ex Nx w Hw) as [u Hu].
      destruct (through (js ++ ex) t s (fun j => if existsb (u32_eqb j) ex then u j else v j) Hgx) as (a & A1 & A2 & A3); [lia|].
      exists a. split; [exact A1|split; [exact A2|split]].
      - intros j Hj. rewrite A3 by (apply in_or_app; left; exact Hj). destruct (existsb (u32_eqb j) ex) eqn:K; [|reflexivity].
        apply existsb_exists in K as (k & K1 & K2). apply u32_eqb_spec in K2. subst k. destruct (Dx j Hj K1).
      - rewrite <- Hu. apply map_ext_in. intros j Hj. rewrite A3 by (apply in_or_app; right; exact Hj).
        assert (K : existsb (u32_eqb j) ex = true) by (apply existsb_exists; exists j; split; [exact Hj|apply u32_eqb_refl]). rewrite K. reflexivity. }
    exists ls. split; [|split].
    - apply (forall2_nodup Q (tuples els (length ex)) ls); [|exact Hls|apply tuples_nodup, nodup_els].
      intros w w' a (_ & _ & _ & E) (_ & _ & _ & E'). congruence.
    - rewrite app_length in Hlx. replace (t - 1 - length js) with (length ex) by lia. rewrite <- tuples_length.
      clear - Hls. induction Hls; cbn [length]; auto.
    - intros a. split.
      + intros Ha. destruct (forall2_right _ _ _ _ Hls Ha) as (w & _ & A1 & A2 & A3 & _). split; [exact A1|split; [exact A2|]].
        intros j Hj. rewrite evaluate_polynomial_eq, (A3 j Hj). reflexivity.
      + intros (A1 & A2 & A3).
        assert (Hw : In (map (fun j => poly_value a (of_u32 j)) ex) (tuples els (length ex))) by (apply tuples_in; [exact all|apply map_length]).
        destruct (forall2_left _ _ _ _ Hls Hw) as (b & Hb & B1 & B2 & B3 & B4).
        assert (a = b) as ->; [|exact Hb].
        apply (C05_explaining_polynomial_unique S L from t a b (js ++ ex) Hgx A1 B1 Hlx); [congruence|].
        intros j Hj. rewrite !evaluate_polynomial_eq. cbn [sh_value]. apply in_app_or in Hj as [Hj|Hj].
        * specialize (A3 j Hj). rewrite evaluate_polynomial_eq in A3. injection A3 as A3. rewrite A3, B3 by exact Hj. reflexivity.
        * symmetry. exact (map_values _ _ _ B4 j Hj).
  Qed.
End Polys.

Section Keys.
  Context {S : Suite} {L : SuiteLaws S}.
  Add Field F_fld : F_field.
  Lemma hiding_unique h gk ss i d d' e x : partial_value h gk ss i d e x = partial_value h gk ss i d' e x -> d = d'.
  Proof.
    unfold partial_value. intros H.
    assert (A : forall c y : F, d = ((d + e * c + y) - e * c - y)%F) by (intros; ring).
    rewrite (A (binding h ss i) (weight i (map sg_index ss) * x * session_chal h gk ss)%F), H. ring.
  Qed.
End Keys.

(** Over a field with q elements exactly q^(t-1-k) of the coefficient vectors with a given secret deal given values to k < t receivers:
    with uniform coefficients the k values are uniform whatever the secret is. *)
Theorem C139_shares_are_uniform :
  forall (S : Suite) (L : SuiteLaws S) (q : nat) (from : u32) (js : list u32) (t : nat) (s : F) (v : u32 -> F),
  exactly q (fun _ : F => True) -> (N.of_nat t < 4294967296)%N -> good_indices js -> length js < t ->
  exactly (q ^ (t - 1 - length js)) (fun a => length a = t /\ hd_error a = Some s /\ deals from js v a).
Proof.
  intros S L q from js t s v (els & E1 & <- & E3) Ht Hg Hl. apply count_polys; auto. intros x. apply E3. exact I.
Qed.
Print Assumptions C139_shares_are_uniform.

(** Whatever the other dealers' secrets, exactly q^(t-1-k) of the coefficient vectors of one dealer that deal given values to k < t
    receivers lead to a given group key. *)
Theorem C139_group_key_is_uniform_given_the_shares :
  forall (S : Suite) (L : SuiteLaws S) (q : nat) (m : build) (params : Params) (j : u32) (others : list (u32 * F)) (x : F) (js : list u32) (v : u32 -> F),
  exactly q (fun _ : F => True) -> good_indices (j :: map fst others) -> good_indices js -> (N.of_nat (length js) < u32v (p_t params))%N ->
  exists W : list F -> Prop, exactly (q ^ (N.to_nat (u32v (p_t params)) - 1 - length js)) W /\
    (forall a, W a -> length a = N.to_nat (u32v (p_t params)) /\ deals j js v a) /\
    forall (parties : list Party) (p : Party),
    honest_parties params parties -> all_bootstrapped m params parties -> In p parties -> y_index p = j ->
    Permutation (map (fun z => (y_index z, hd F0 (y_co z))) parties) ((j, hd F0 (y_co p)) :: others) ->
    deals j js v (y_co p) ->
    forall z senders es r, In z parties -> Permutation senders parties -> delivered senders z es ->
    exists s2 r' gk sk, to_round_two m (y_st z) es r = Ok (s2, [], r') /\ finish s2 = Ok (gk, sk) /\ (gk = (gen * x)%G <-> W (y_co p)).
Proof.
  intros S L q m params j others x js v Hq Hg Hj Hl. destruct (C91_every_key_for_one_secret S L m params j others x Hg) as (a0 & H).
  exists (fun a => length a = N.to_nat (u32v (p_t params)) /\ hd_error a = Some a0 /\ deals j js v a). split; [|split].
  - apply (C139_shares_are_uniform S L q j js); auto; [|lia]. rewrite N2Nat.id. apply u32_bound.
  - intros a (A1 & _ & A3). auto.
  - intros parties p H1 H2 H3 H4 H5 H6 z senders es r Z1 Z2 Z3.
    destruct (H parties p H1 H2 H3 H4 H5 z senders es r Z1 Z2 Z3) as (s2 & r' & gk & sk & E1 & E2 & E3).
    exists s2, r', gk, sk. split; [exact E1|split; [exact E2|]]. rewrite E3.
    assert (Hlen : length (y_co p) = N.to_nat (u32v (p_t params))).
    { destruct (hp_dealt _ _ H1 p H3) as (r0 & r0' & D).
      assert (Hi : y_index p <> u32_zero) by (intros K; apply (proj2 (hp_indices _ _ H1)); rewrite <- K; apply in_map, H3).
      destruct (C12_new_dealer_well_formed S L params (y_index p) r0 Hi (proj1 (hp_threshold _ _ H1))) as (d & co & dh & r1 & D' & _ & D2 & _).
      assert (y_co p = co) as -> by congruence. exact D2. }
    pose proof (proj1 (hp_threshold _ _ H1)). destruct (y_co p) as [|c co]; cbn [hd hd_error length] in *; [lia|].
    split; [intros ->; auto|]. intros (_ & K & _). congruence.
Qed.
Print Assumptions C139_group_key_is_uniform_given_the_shares.

(** Two histories of signatures in which the same key answered the same request with the same partial signature, with the same binding
    nonce, used the same hiding nonce: each key is compatible with exactly one value of the hiding nonces (C78 has the existence). *)
Theorem C139_one_nonce_for_each_key :
  forall (S : Suite) (L : SuiteLaws S) (m : build) (l1 l1' l2 l2' : list CommitmentShare) (us1 us2 : list Use) (x y : Use),
  signings m l1 us1 l1' -> signings m l2 us2 l2' -> In x us1 -> In y us2 ->
  us_key x = us_key y -> us_hash x = us_hash y -> us_gk x = us_gk y -> us_signers x = us_signers y -> us_sig x = us_sig y ->
  co_secret (cs_binding (us_pair x)) = co_secret (cs_binding (us_pair y)) ->
  co_secret (cs_hiding (us_pair x)) = co_secret (cs_hiding (us_pair y)).
Proof.
  intros S L m l1 l1' l2 l2' us1 us2 x y H1 H2 X Y E1 E2 E3 E4 E5 E6.
  destruct (C40_pairs_used_and_left S L m _ _ _ H1) as [_ K1]. destruct (C40_pairs_used_and_left S L m _ _ _ H2) as [_ K2].
  specialize (K1 x X). specialize (K2 y Y). rewrite <- E1, <- E2, <- E3, <- E4, <- E5, <- E6, K1 in K2. injection K2 as K2. exact (hiding_unique _ _ _ _ _ _ _ _ K2).
Qed.
Print Assumptions C139_one_nonce_for_each_key.

Lemma deals_self {S : Suite} {L : SuiteLaws S} from js a : deals from js (fun j => sh_value (evaluate_polynomial from j a)) a.
Proof. intros j _. rewrite evaluate_polynomial_eq. reflexivity. Qed.

(** examples: the field of the toy suite; three coefficients, two receivers *)
Lemma toy_count_gen (p : nat) : Z.of_nat p = P -> exactly p (fun _ : Fp => True).
Proof.
  intros Hp. exists (map (fun k => mk (Z.of_nat k)) (seq 0 p)). split; [|split].
  - assert (K : forall s n, s + n <= p -> NoDup (map (fun k => mk (Z.of_nat k)) (seq s n))).
    { intros s n. revert s. induction n as [|n IH]; intros s Hs; [constructor|]. cbn [seq map]. constructor; [|apply IH; lia].
      intros K. apply in_map_iff in K as (k & K1 & K2). apply in_seq in K2. apply (f_equal fv) in K1. rewrite !fv_mk in K1.
      rewrite !Z.mod_small in K1 by lia. lia. }
    apply K. lia.
  - rewrite map_length, seq_length. reflexivity.
  - intros x. split; [intros _; exact I|]. intros _. pose proof (fv_bound x) as B. apply in_map_iff. exists (Z.to_nat (fv x)). split.
    + apply fp_eq. rewrite fv_mk, Z2Nat.id by lia. apply Z.mod_small. lia.
    + apply in_seq. lia.
Qed.
Lemma toy_count : exists p, Z.of_nat p = P /\ exactly p (fun _ : Fp => True).
Proof.
  assert (H : exists p, Z.of_nat p = P) by (exists (Z.to_nat P); apply Z2Nat.id; unfold P; lia).
  destruct H as [p H]. exists p. split; [exact H|exact (toy_count_gen p H)].
Qed.
Example C139_ex : exists q, exactly q (fun _ : @F Toy => True) /\ good_indices [u 3] /\
  exactly (q ^ 1) (fun a : list (@F Toy) => length a = 3 /\ hd_error a = Some (mk 5%Z) /\ deals (S := Toy) (u 1) [u 3] (fun _ => mk 7%Z) a).
Proof.
  destruct toy_count as (q & _ & H). exists q. split; [exact H|]. assert (G : good_indices [u 3]) by good. split; [exact G|].
  apply (C139_shares_are_uniform Toy ToyLaws q (u 1) [u 3] 3 (mk 5%Z) (fun _ => mk 7%Z) H); [reflexivity|exact G|cbn [length]; lia].
Qed.
Example C139_ex_group_key :
  honest_parties demo_params demo_parties /\ all_bootstrapped Debug demo_params demo_parties /\ In (demo_party 1) demo_parties /\
  deals (S := Toy) (u 1) [u 3] (fun j => sh_value (evaluate_polynomial (u 1) j (y_co (demo_party 1)))) (y_co (demo_party 1)) /\
  (N.of_nat (length [u 3]) < u32v (p_t demo_params))%N.
Proof.
  split; [exact (proj1 C91_ex)|]. split; [exact (proj1 (proj2 C91_ex))|]. split; [exact (proj1 (proj2 (proj2 C91_ex)))|]. split; [|reflexivity].
  exact (deals_self (S := Toy) (u 1) [u 3] (y_co (demo_party 1))).
Qed.
Example C139_ex_nonce :
  signings Release [spair 1 0; spair 1 1] [MkUse (skey 1) shash sgroup [ssigner 1 0; ssigner 3 0] (spair 1 0) (C77_psig shash [ssigner 1 0; ssigner 3 0] 0)]
    [spair 1 1].
Proof.
  assert (E : sign Release (skey 1) shash sgroup (MkSecList [spair 1 0; spair 1 1]) 0 [ssigner 1 0; ssigner 3 0] =
    (Ok (C77_psig shash [ssigner 1 0; ssigner 3 0] 0), MkSecList [spair 1 1])) by vmr.
  refine (sgs_ok _ _ _ _ _ _ _ _ _ _ _ _ E _ (sgs_nil _ _)). reflexivity.
Qed.
