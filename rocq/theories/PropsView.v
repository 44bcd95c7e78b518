(** C62-C64: what participants may assume about each other's view after round one: same list, same view; the
    index inside a commitment, equal indices and index zero are not looked at. *)
From Coq Require Import String Strings.Byte Arith NArith ZArith Bool List Lia Permutation Sorted.
From Verif Require Import Base Suite Spec SpecDkg SpecRobust Types Algebra BaseLemmas ModelDkg LemmasShare LemmasRound1
  LemmasRound2 LemmasFinish LemmasBlame Toy Demo DemoDkg PropsRound1 PropsFinish PropsBlame.
Import ListNotations.

Section View.
  Context {S : Suite} {L : SuiteLaws S}.

  (** a successful round one *)
  Lemma round_one_ok m params x my co ps fd r s1 l r' :
    (fd = true -> exists cs, co = Some cs) ->
    new_state_internal m params x my co ps fd true r = Ok (s1, l, r') ->
    let valid := filter (okb fd true (p_t params)) ps in
    N.of_nat (length ps) = u32v (p_n params) /\ (1 <= u32v (p_t params))%N /\ existsb crashb ps = false /\
    (u32v (p_t params) <= N.of_nat (length valid))%N /\
    l = MkPList valid (none_if_empty (map pt_index (filter (fun p => negb (okb fd true (p_t params) p)) ps))) /\
    exists st, s1 = R1 st /\ records params my x valid st /\ ksorted (ds_dhs st) /\
      exists comms, ds_comms st = Some comms /\ ksorted comms /\ holds_last pt_comm valid comms.
  Proof.
    intros Hco E. cbv zeta.
    destruct (N.eq_dec (N.of_nat (length ps)) (u32v (p_n params))) as [Hn|Hn]; [|rewrite ns_count in E by exact Hn; discriminate].
    destruct (true && existsb crashb ps) eqn:Ec; [rewrite ns_panic in E by auto; discriminate|].
    destruct (N.eq_dec (u32v (p_t params)) 0) as [Ht|Ht]; [rewrite ns_t0 in E by auto; destruct m; discriminate|].
    destruct (N.lt_ge_cases (N.of_nat (length (filter (okb fd true (p_t params)) ps))) (u32v (p_t params))) as [Hl|Hl].
    { rewrite ns_toofew in E by auto. discriminate. }
    destruct (ns_success m params x my co ps fd true r) as (st & r1 & E1 & H1 & H2 & H3 & _); auto; [lia|].
    rewrite E in E1. injection E1 as -> -> _. cbn in Ec.
    split; [exact Hn|]. split; [lia|]. split; [exact Ec|]. split; [exact Hl|]. split; [reflexivity|].
    exists st. auto.
  Qed.

  Lemma filter_nodup_idx f ps : NoDup (map (@pt_index S) ps) -> NoDup (map pt_index (filter f ps)).
  Proof.
    induction ps as [|p ps IH]; cbn; intros H; [constructor|]. inversion H as [|? ? H1 H2]; subst.
    destruct (f p); cbn; [|apply IH, H2]. constructor; [|apply IH, H2]. intros X. apply H1.
    apply in_map_iff in X. destruct X as (q & E & X). apply filter_In in X. apply in_map_iff. exists q. tauto.
  Qed.
  Lemma filter_perm {A} (f : A -> bool) l l' : Permutation l l' -> Permutation (filter f l) (filter f l').
  Proof.
    induction 1; cbn; auto.
    - destruct (f x); auto.
    - destruct (f x), (f y); auto. apply perm_swap.
    - eapply Permutation_trans; eassumption.
  Qed.

  Lemma holds_last_perm {V} (f : Participant -> option V) ps ps' m m' :
    NoDup (map pt_index ps) -> Permutation ps ps' -> holds_last f ps m -> holds_last f ps' m' -> forall j, bget j m = bget j m'.
  Proof.
    intros Hnd HP H H' j. assert (Hnd' : NoDup (map pt_index ps')) by (eapply Permutation_NoDup; [apply Permutation_map, HP|exact Hnd]).
    assert (X : forall v, bget j m = Some v <-> bget j m' = Some v).
    { intros v. rewrite (H j v), (H' j v). split; intros (p & A & B); exists p; (split; [|exact B]).
      - apply last_with_distinct; [exact Hnd'|]. apply (last_with_distinct j ps p Hnd) in A. destruct A as [A C].
        split; [eapply Permutation_in; eassumption|exact C].
      - apply last_with_distinct; [exact Hnd|]. apply (last_with_distinct j ps' p Hnd') in A. destruct A as [A C].
        split; [eapply Permutation_in; [apply Permutation_sym, HP|exact A]|exact C]. }
    destruct (bget j m) as [v|] eqn:E1, (bget j m') as [v'|] eqn:E2; auto.
    - symmetry. apply X. reflexivity.
    - discriminate (proj1 (X v) eq_refl).
    - discriminate (proj2 (X v') eq_refl).
  Qed.

  Lemma params_eq (p q : Params) : u32v (p_n p) = u32v (p_n q) -> p_t p = p_t q -> p = q.
  Proof. destruct p as [n t], q as [n' t']. cbn. intros H ->. f_equal. apply u32_ext, H. Qed.

  Lemma same_view fd m m' params x x' my my' co co' ps ps' r r' st st' l l' q q' :
    (fd = true -> exists cs, co = Some cs) -> (fd = true -> exists cs, co' = Some cs) ->
    NoDup (map pt_index ps) -> Permutation ps ps' ->
    new_state_internal m params x my co ps fd true r = Ok (R1 st, l, q) ->
    new_state_internal m' params x' my' co' ps' fd true r' = Ok (R1 st', l', q') ->
    ds_params st = ds_params st' /\ ds_dhs st = ds_dhs st' /\ ds_comms st = ds_comms st' /\
    Permutation (pl_valid l) (pl_valid l').
  Proof.
    intros C1 C2 Hnd HP E E'.
    destruct (round_one_ok _ _ _ _ _ _ _ _ _ _ _ C1 E) as (_ & _ & _ & _ & -> & s1 & Es & R & K & comms & HC & KC & LC).
    destruct (round_one_ok _ _ _ _ _ _ _ _ _ _ _ C2 E') as (_ & _ & _ & _ & -> & s2 & Es' & R' & K' & comms' & HC' & KC' & LC').
    injection Es as <-. injection Es' as <-. cbn [pl_valid].
    set (v := filter (okb fd true (p_t params)) ps) in *. set (v' := filter (okb fd true (p_t params)) ps') in *.
    assert (HV : Permutation v v') by (apply filter_perm, HP).
    assert (Hv : NoDup (map pt_index v)) by (apply filter_nodup_idx, Hnd).
    destruct R as [A1 A2 A3 A4 A5 A6 A7], R' as [B1 B2 B3 B4 B5 B6 B7].
    split; [apply params_eq; [rewrite A1, B1, (Permutation_length HV); reflexivity|congruence]|].
    split; [apply ksorted_ext; auto; eapply holds_last_perm; eassumption|].
    split; [|exact HV]. rewrite HC, HC'. f_equal. apply ksorted_ext; auto. eapply holds_last_perm; eassumption.
  Qed.

  Lemma existsb_perm {A} (f : A -> bool) l l' : Permutation l l' -> existsb f l = existsb f l'.
  Proof.
    induction 1; cbn; auto; [congruence| |congruence]. destruct (f x), (f y); reflexivity.
  Qed.
  Lemma same_success fd m m' params x x' my my' co co' ps ps' r r' :
    (fd = true -> exists cs, co = Some cs) -> (fd = true -> exists cs, co' = Some cs) -> Permutation ps ps' ->
    is_ok (new_state_internal m params x my co ps fd true r) = true ->
    is_ok (new_state_internal m' params x' my' co' ps' fd true r') = true.
  Proof.
    intros C1 C2 HP E. destruct (new_state_internal m _ _ _ _ ps _ _ _) as [[[s1 l] q]| |] eqn:E1; try discriminate.
    destruct (round_one_ok _ _ _ _ _ _ _ _ _ _ _ C1 E1) as (A & B & C & D & _).
    destruct (ns_success m' params x' my' co' ps' fd true r') as (st & r1 & E2 & _); auto.
    - rewrite <- A, (Permutation_length HP). reflexivity.
    - cbn. rewrite <- (existsb_perm _ _ _ HP). exact C.
    - rewrite <- (Permutation_length (filter_perm (okb fd true (p_t params)) _ _ HP)). exact D.
    - rewrite E2. reflexivity.
  Qed.
End View.

(** C62 *)
Theorem C62_same_list_same_outcome :
  forall (S : Suite) (L : SuiteLaws S) (m m' : build) (params : Params) (x x' : F) (my my' : u32) (co co' : list F)
         (ps ps' : list Participant) (r r' : Rng),
  Permutation ps ps' ->
  is_ok (bootstrap m params x my co ps r) = is_ok (bootstrap m' params x' my' co' ps' r') /\
  is_ok (dkg_new m params x my ps r) = is_ok (dkg_new m' params x' my' ps' r').
Proof.
  intros S L m m' params x x' my my' co co' ps ps' r r' HP. pose proof (Permutation_sym HP) as HP'.
  assert (B : forall a b : bool, (a = true -> b = true) -> (b = true -> a = true) -> a = b) by (intros [] []; intuition).
  split; apply B; apply same_success; auto; eauto; discriminate.
Qed.
Print Assumptions C62_same_list_same_outcome.

Theorem C62_same_list_same_view :
  forall (S : Suite) (L : SuiteLaws S) (m m' : build) (params : Params) (x x' : F) (my my' : u32) (co co' : list F)
         (ps ps' : list Participant) (r r' q q' : Rng) (st st' : DkgState) (l l' : PartList),
  NoDup (map pt_index ps) -> Permutation ps ps' ->
  (bootstrap m params x my co ps r = Ok (R1 st, l, q) /\ bootstrap m' params x' my' co' ps' r' = Ok (R1 st', l', q')) \/
  (dkg_new m params x my ps r = Ok (R1 st, l, q) /\ dkg_new m' params x' my' ps' r' = Ok (R1 st', l', q')) ->
  ds_params st = ds_params st' /\ ds_dhs st = ds_dhs st' /\ ds_comms st = ds_comms st' /\
  Permutation (pl_valid l) (pl_valid l').
Proof.
  intros S L m m' params x x' my my' co co' ps ps' r r' q q' st st' l l' Hnd HP [[E E']|[E E']].
  - eapply (same_view true); try exact E; try exact E'; eauto.
  - eapply (same_view false); try exact E; try exact E'; eauto; discriminate.
Qed.
Print Assumptions C62_same_list_same_view.

(** the view of one run satisfies what C61 asks of it, except that indices may exceed the reduced n (C26) *)
Theorem C62_view_is_usable :
  forall (S : Suite) (L : SuiteLaws S) (m : build) (params : Params) (x : F) (my : u32) (co : list F)
         (ps : list Participant) (r q : Rng) (st : DkgState) (l : PartList),
  good_indices (map pt_index ps) ->
  bootstrap m params x my co ps r = Ok (R1 st, l, q) ->
  exists comms, ds_comms st = Some comms /\ good_indices (bkeys comms) /\
    (forall j c, bget j comms = Some c -> N.of_nat (length (vss_points c)) = u32v (p_t params)) /\
    (forall j, In j (bkeys comms) <-> exists p, In p ps /\ ok_bootstrap (p_t params) p /\ pt_index p = j) /\
    (forall p c, In p ps -> ok_bootstrap (p_t params) p -> (bget (pt_index p) comms = Some c <-> pt_comm p = Some c)).
Proof.
  intros S L m params x my co ps r q st l [Hnd H0] E.
  destruct (round_one_ok m params x my (Some co) ps true r (R1 st) l q ltac:(eauto) E) as (_ & _ & _ & _ & -> & s1 & Es & R & K & comms & HC & KC & LC).
  injection Es as <-. exists comms. split; [exact HC|].
  set (v := filter (okb true true (p_t params)) ps) in *.
  assert (Hv : NoDup (map pt_index v)) by (apply filter_nodup_idx, Hnd).
  assert (Hin : forall p, In p v <-> In p ps /\ ok_bootstrap (p_t params) p).
  { intros p. unfold v. rewrite filter_In, okb_bootstrap. tauto. }
  assert (Hnc : NoDup (bkeys comms)) by (apply increasing_NoDup, KC).
  assert (Hget : forall j c, bget j comms = Some c <-> exists p, In p v /\ pt_index p = j /\ pt_comm p = Some c).
  { intros j c. rewrite (LC j c). split; intros (p & A).
    - exists p. destruct A as [A B]. apply (last_with_distinct j v p Hv) in A. tauto.
    - exists p. split; [apply last_with_distinct; tauto|tauto]. }
  assert (Hk : forall j, In j (bkeys comms) <-> exists p, In p ps /\ ok_bootstrap (p_t params) p /\ pt_index p = j).
  { intros j. split.
    - intros Hj. apply in_map_iff in Hj. destruct Hj as ([j' c] & Ej & Hj). cbn in Ej. subst j'.
      apply in_bget in Hj; [|exact Hnc]. apply Hget in Hj. destruct Hj as (p & A & B & _). apply Hin in A. exists p. tauto.
    - intros (p & A & B & C). destruct B as (B1 & B2 & B3). pose proof B3 as (c & B4 & _).
      assert (X : bget j comms = Some c).
      { apply Hget. exists p. split; [apply Hin; split; [exact A|]; unfold ok_bootstrap; tauto|]. tauto. }
      apply bget_in, (in_map fst) in X. exact X. }
  split; [|split; [|split; [exact Hk|]]].
  - split; [exact Hnc|]. intros Z. apply Hk in Z. destruct Z as (p & A & _ & B). apply H0. rewrite <- B. apply in_map, A.
  - intros j c Hj. apply Hget in Hj. destruct Hj as (p & A & _ & B). apply Hin in A. destruct A as [_ (_ & _ & c' & C1 & C2)].
    rewrite B in C1. injection C1 as <-. exact C2.
  - intros p c Hp Hok. rewrite (Hget (pt_index p) c). split.
    + intros (p' & A & B & C). rewrite <- C. f_equal. apply Hin in A.
      assert (X : forall l : list Participant, NoDup (map pt_index l) -> In p l -> In p' l -> p = p').
      { clear -B. induction l as [|y l IH]; [intros _ []|]. cbn. intros Hn [->|Hp] [->|Hp']; auto; inversion Hn as [|? ? H1 H2]; subst.
        - exfalso. apply H1. rewrite <- B. apply in_map, Hp'.
        - exfalso. apply H1. rewrite B. apply in_map, Hp.
        - apply IH; assumption. }
      apply (X ps Hnd Hp), A.
    + intros C. exists p. split; [apply Hin; tauto|]. tauto.
Qed.
Print Assumptions C62_view_is_usable.

(** participant 1 lists the others in order, 3 in another order; 2's DH proof is broken *)
Definition C62_list : list Participant := [dealer 3 2 1 10; without_dh_proof (dealer 3 2 2 20); dealer 3 2 3 30].
Definition C62_list' : list Participant := [dealer 3 2 3 30; dealer 3 2 1 10; without_dh_proof (dealer 3 2 2 20)].
Example C62_ex :
  Permutation C62_list C62_list' /\ good_indices (map pt_index C62_list) /\
  ds_params (st1 (demo_r1 C62_list 1)) = MkParams (u 2) (u 2) /\
  comm_view (st1 (demo_r1 C62_list 1)) = comm_view (st1 (demo_r1 C62_list' 3)) /\
  length (comm_view (st1 (demo_r1 C62_list' 3))) = 2 /\
  map (fun x => fst x) (ds_dhs (st1 (demo_r1 C62_list 1))) = [u 1; u 3].
Proof.
  split.
  { unfold C62_list, C62_list'. eapply Permutation_trans; [apply perm_skip, perm_swap|apply perm_swap]. }
  split; [good|]. vms.
Qed.

(** with an index registered twice, the order of the list decides: dealer 3 registers two commitments, sends each
    of 1 and 2 the shares of the one that participant keeps, and they finish without complaint under different keys *)
Definition dup_params : Params := MkParams (u 4) (u 2).
Definition dup_ps : list Participant := [dealer 4 2 1 10; dealer 4 2 2 20; dealer 4 2 3 30; dealer 4 2 3 31].
Definition dup_ps' : list Participant := [dealer 4 2 1 10; dealer 4 2 2 20; dealer 4 2 3 31; dealer 4 2 3 30].
Definition dup_r1 (ps : list Participant) (i seed : N) : result (RoundOne * PartList * Rng) :=
  bootstrap Debug dup_params (dealer_x 4 2 i seed) (u i) (dealer_co 4 2 i seed) ps (1000 + seed)%N.
Lemma dup_r1_eq ps i seed : dup_r1 ps i seed =
  bootstrap Debug dup_params (dealer_x 4 2 i seed) (u i) (dealer_co 4 2 i seed) ps (1000 + seed)%N.
Proof. reflexivity. Qed.
Definition dup_st (ps : list Participant) (i seed : N) : RoundOne :=
  match dup_r1 ps i seed with Ok (s, _, _) => s | _ => R1 no_state end.
(** the shares sent to j when 3 uses its dealer with the given seed *)
Definition dup_shares (j seed : N) : list EncShare :=
  shares_to j [dup_st dup_ps 1 10; dup_st dup_ps 2 20; dup_st dup_ps 3 seed].
Definition ends_with (run1 : result (RoundOne * PartList * Rng)) (es : list EncShare) : result (G * SigningKey * nat) :=
  let* (s1, _, _) := run1 in
  let* (s2, cs, _) := to_round_two Debug s1 es 7%N in
  let* (gk, sk) := finish s2 in Ok (gk, sk, length cs).

Lemma ends_with_inv run1 es : is_ok (ends_with run1 es) = true ->
  exists s1 l r1 s2 cs r2 gk sk, run1 = Ok (s1, l, r1) /\
    to_round_two Debug s1 es 7%N = Ok (s2, cs, r2) /\ finish s2 = Ok (gk, sk) /\
    ends_with run1 es = Ok (gk, sk, length cs).
Proof.
  unfold ends_with. destruct run1 as [[[s1 l] r1]| |]; try discriminate. cbn [bind].
  destruct (to_round_two Debug s1 es 7%N) as [[[s2 cs] r2]| |] eqn:E2; try discriminate. cbn [bind].
  destruct (finish s2) as [[gk sk]| |] eqn:E3; try discriminate. cbn [bind]. intros _. do 8 eexists. eauto.
Qed.
Definition dup_end (ps : list Participant) (i seed seed3 : N) : result (G * SigningKey * nat) :=
  ends_with (dup_r1 ps i seed) (dup_shares i seed3).
Lemma dup_end_eq ps i seed seed3 : dup_end ps i seed seed3 = ends_with (dup_r1 ps i seed) (dup_shares i seed3).
Proof. reflexivity. Qed.
Lemma len0 {A} (l : list A) : length l = 0 -> l = [].
Proof. destruct l; [reflexivity|discriminate]. Qed.

Lemma dup_V1 : (let* (g, _, n) := dup_end dup_ps 1 10 31 in Ok (n, Geqb g (fst (fst (got (mk 0, MkSK (u 0) (mk 0), 0) (dup_end dup_ps' 2 20 30)))))) = Ok (0, false).
Proof. vmr. Qed.
Lemma dup_V2 : (let* (_, _, n) := dup_end dup_ps' 2 20 30 in Ok n) = Ok 0.
Proof. vmr. Qed.
Lemma dup_V3 : (let* (s, k, _) := dup_r1 dup_ps 1 10 in Ok (pl_mis k, bkeys (ds_dhs (st1 s)))) = Ok (None, map es_sender (dup_shares 1 31)).
Proof. vmr. Qed.
Lemma dup_V4 : (let* (s, k, _) := dup_r1 dup_ps' 2 20 in Ok (pl_mis k, bkeys (ds_dhs (st1 s)))) = Ok (None, map es_sender (dup_shares 2 30)).
Proof. vmr. Qed.
Lemma dup_ok1 : is_ok (ends_with (dup_r1 dup_ps 1 10) (dup_shares 1 31)) = true.
Proof. vmr. Qed.
Lemma dup_ok2 : is_ok (ends_with (dup_r1 dup_ps' 2 20) (dup_shares 2 30)) = true.
Proof. vmr. Qed.

Theorem C62_equal_indices_split_the_view :
  exists (S : Suite) (L : SuiteLaws S) (m : build) (params : Params) (ps ps' : list Participant)
         (x x' : F) (my my' : u32) (co co' : list F) (r r' : Rng) s1 s1' l l' q q'
         (es es' : list EncShare) (r2 : Rng) s2 s2' (q2 q2' : Rng) gk gk' sk sk',
    Permutation ps ps' /\ my <> my' /\
    (* every listed participant passes all checks *)
    pl_mis l = None /\ pl_mis l' = None /\
    bootstrap m params x my co ps r = Ok (s1, l, q) /\ bootstrap m params x' my' co' ps' r' = Ok (s1', l', q') /\
    (* a share of every dealer arrives, nobody complains *)
    map es_sender es = bkeys (ds_dhs (st1 s1)) /\ map es_sender es' = bkeys (ds_dhs (st1 s1')) /\
    to_round_two m s1 es r2 = Ok (s2, [], q2) /\ to_round_two m s1' es' r2 = Ok (s2', [], q2') /\
    finish s2 = Ok (gk, sk) /\ finish s2' = Ok (gk', sk') /\ gk <> gk'.
Proof.
  destruct (ends_with_inv (dup_r1 dup_ps 1 10) (dup_shares 1 31)) as (s1 & l & q & s2 & cs & q2 & gk & sk & A1 & A2 & A3 & A4); [exact dup_ok1|].
  destruct (ends_with_inv (dup_r1 dup_ps' 2 20) (dup_shares 2 30)) as (s1' & l' & q' & s2' & cs' & q2' & gk' & sk' & B1 & B2 & B3 & B4); [exact dup_ok2|].
  pose proof dup_V1 as V1.
  pose proof dup_V2 as V2.
  pose proof dup_V3 as V3.
  pose proof dup_V4 as V4.
  rewrite !dup_end_eq in V1. rewrite dup_end_eq in V2. rewrite A4, B4 in V1. rewrite B4 in V2. rewrite A1 in V3. rewrite B1 in V4. cbn [bind got fst] in V1, V2, V3, V4.
  assert (C1 : length cs = 0) by congruence. assert (C2 : Geqb gk gk' = false) by congruence. assert (C3 : length cs' = 0) by congruence.
  apply len0 in C1, C3. subst cs cs'. rewrite dup_r1_eq in A1, B1.
  exists Toy, ToyLaws, Debug, dup_params, dup_ps, dup_ps', (dealer_x 4 2 1 10), (dealer_x 4 2 2 20), (u 1), (u 2),
    (dealer_co 4 2 1 10), (dealer_co 4 2 2 20), (1000 + 10)%N, (1000 + 20)%N, s1, s1', l, l', q, q', (dup_shares 1 31), (dup_shares 2 30), 7%N, s2, s2', q2, q2', gk, gk', sk, sk'.
  split; [unfold dup_ps, dup_ps'; do 2 apply perm_skip; apply perm_swap|].
  split; [intros X; apply (f_equal u32v) in X; discriminate X|].
  split; [congruence|]. split; [congruence|]. split; [exact A1|]. split; [exact B1|]. split; [congruence|]. split; [congruence|].
  split; [exact A2|]. split; [exact B2|]. split; [exact A3|]. split; [exact B3|].
  intros ->. rewrite (@Geqb_refl Toy ToyLaws) in C2. discriminate.
Qed.
Print Assumptions C62_equal_indices_split_the_view.

(** C63 *)
Section Relabel.
  Context {S : Suite} {L : SuiteLaws S}.
  Variable f : u32 -> u32.

  Lemma relabel_binsert k c m : relabel_map f (binsert k c m) = binsert k (relabel_vss f k c) (relabel_map f m).
  Proof.
    induction m as [|[j w] m IH]; cbn; [reflexivity|]. destruct (u32_ltb k j); [reflexivity|].
    destruct (u32_eqb k j); cbn; [reflexivity|]. f_equal. exact IH.
  Qed.
  Lemma relabel_keys m : bkeys (relabel_map f m) = bkeys m.
  Proof. unfold bkeys, relabel_map. rewrite map_map. reflexivity. Qed.
  Lemma relabel_bget k m : bget k (relabel_map f m) = option_map (relabel_vss f k) (bget k m).
  Proof.
    induction m as [|[j w] m IH]; cbn; [reflexivity|]. destruct (u32_eqb k j) eqn:E; [|exact IH].
    apply u32_eqb_spec in E. subst. reflexivity.
  Qed.
  Lemma relabel_bremove k m : relabel_map f (bremove k m) = bremove k (relabel_map f m).
  Proof.
    unfold bremove. induction m as [|[j w] m IH]; cbn; [reflexivity|]. destruct (u32_eqb k j); cbn; [exact IH|].
    f_equal. exact IH.
  Qed.

  Definition relabel_acc (a : Acc) : Acc :=
    MkAcc (relabel_map f (acc_comms a)) (acc_dhs a) (map (relabel_part f) (acc_valid a)) (acc_mis a).
  Lemma relabel_check_one m params fd fs p a :
    check_one m params fd fs (relabel_part f p) (relabel_acc a) = rmap relabel_acc (check_one m params fd fs p a).
  Proof.
    unfold check_one, part_public_key, vss_public_key, check_degree, acc_flag, relabel_acc.
    cbn [relabel_part pt_index pt_dh_pk pt_comm pt_sk_proof pt_dh_proof acc_comms acc_dhs acc_valid acc_mis].
    destruct (is_ok (nizk_verify (pt_dh_proof p) (pt_index p) (pt_dh_pk p))); [|reflexivity].
    destruct fs.
    - destruct (pt_comm p) as [c|] eqn:Ec; cbn [option_map]; [|reflexivity]. cbn [relabel_vss vss_points].
      destruct (vss_points c) as [|P rest] eqn:Ep; [reflexivity|].
      destruct (pt_sk_proof p) as [pr|]; [|reflexivity].
      destruct (is_ok (nizk_verify pr (pt_index p) P)); [|reflexivity].
      cbn [rmap]. destruct (fd && _); cbn [rmap acc_comms acc_dhs acc_valid acc_mis]; [reflexivity|].
      rewrite relabel_binsert, map_app. reflexivity.
    - destruct (is_debug m && negb fd); [reflexivity|]. cbn [rmap acc_comms acc_dhs acc_valid acc_mis].
      rewrite map_app. reflexivity.
  Qed.
  Lemma relabel_check_all m params fd fs ps : forall a,
    check_all m params fd fs (map (relabel_part f) ps) (relabel_acc a) = rmap relabel_acc (check_all m params fd fs ps a).
  Proof.
    induction ps as [|p ps IH]; intros a; [reflexivity|]. cbn [map check_all]. rewrite relabel_check_one.
    destruct (check_one m params fd fs p a) as [a'| |]; cbn [rmap bind]; auto.
  Qed.
  Lemma relabel_encrypt_all my x co ps : forall acc r,
    encrypt_all my x co (map (relabel_part f) ps) acc r = encrypt_all my x co ps acc r.
  Proof.
    induction ps as [|p ps IH]; intros acc r; [reflexivity|]. cbn [map encrypt_all]. destruct co as [cs|]; [|reflexivity].
    cbn [relabel_part pt_index pt_dh_pk]. destruct (encrypt_share _ _ _) as [[e r']| |]; cbn [bind]; auto.
  Qed.
  Definition relabel_run1 (y : RoundOne * PartList * Rng) : RoundOne * PartList * Rng :=
    let '(s, l, r) := y in (R1 (relabel_state f (st1 s)), relabel_list f l, r).
  Lemma relabel_new_state m params x my co ps fd fs r :
    new_state_internal m params x my co (map (relabel_part f) ps) fd fs r =
    rmap relabel_run1 (new_state_internal m params x my co ps fd fs r).
  Proof.
    unfold new_state_internal. rewrite map_length. destruct (negb _); [reflexivity|].
    change (MkAcc [] [] [] []) with (relabel_acc (MkAcc [] [] [] [])) at 1. rewrite relabel_check_all.
    destruct (check_all m params fd fs ps (MkAcc [] [] [] [])) as [a| |]; cbn [rmap bind]; [|reflexivity|reflexivity].
    cbn [relabel_acc acc_comms acc_dhs acc_valid acc_mis]. rewrite map_length.
    destruct (N.ltb _ _); [reflexivity|]. destruct (negb fd && fs).
    - destruct (u32_sub _ _ _) as [n'| |]; cbn [bind rmap]; [|reflexivity|reflexivity].
      destruct (params_new _ _ _) as [p'| |]; cbn [bind rmap]; reflexivity.
    - rewrite relabel_encrypt_all. destruct (encrypt_all _ _ _ _ _ _) as [[es r']| |]; cbn [bind rmap]; [|reflexivity|reflexivity].
      destruct (u32_sub _ _ _) as [n'| |]; cbn [bind rmap]; [|reflexivity|reflexivity].
      destruct (params_new _ _ _) as [p'| |]; cbn [bind rmap]; [|reflexivity|reflexivity].
      destruct fs; reflexivity.
  Qed.

  Lemma relabel_share_verify s j c : share_verify s (relabel_vss f j c) = share_verify s c.
  Proof. reflexivity. Qed.
  Lemma relabel_bad_share d j c : bad_share d (relabel_vss f j c) = bad_share d c.
  Proof. reflexivity. Qed.
  Lemma relabel_find k d m :
    match find (fun kc => u32_eqb (fst kc) k && bad_share d (snd kc)) (relabel_map f m) with Some _ => true | None => false end =
    match find (fun kc => u32_eqb (fst kc) k && bad_share d (snd kc)) m with Some _ => true | None => false end.
  Proof.
    induction m as [|[j w] m IH]; [reflexivity|]. cbn [relabel_map map find fst snd]. rewrite relabel_bad_share.
    destruct (u32_eqb j k && bad_share d w); [reflexivity|exact IH].
  Qed.
  Lemma relabel_round_two_loop m st es : forall shares cs r,
    round_two_loop m (relabel_state f st) es shares cs r = round_two_loop m st es shares cs r.
  Proof.
    induction es as [|e es IH]; intros shares cs r; [reflexivity|]. cbn [round_two_loop relabel_state ds_index ds_dhs ds_dh_sk ds_comms].
    destruct (is_debug m && _); [reflexivity|]. destruct (bget (es_sender e) (ds_dhs st)) as [pk|]; [|reflexivity].
    destruct (ds_comms st) as [comms|] eqn:Ec; cbn [option_map]; [|reflexivity].
    set (d := decrypt_share e _).
    pose proof (relabel_find (es_sender e) d comms) as HF.
    destruct (find _ (relabel_map f comms)), (find _ comms); try discriminate.
    - destruct (complaint_new _ _ _ _ _) as [c r1]. apply IH.
    - apply IH.
  Qed.
  Lemma relabel_to_round_two m st es r :
    to_round_two m (R1 (relabel_state f st)) es r =
    rmap (fun y => let '(s, cs, r') := y in (R2 (relabel_state f (st2 s)), cs, r')) (to_round_two m (R1 st) es r).
  Proof.
    unfold to_round_two. cbn [st1 relabel_state ds_params ds_index ds_dh_sk ds_dh_pk ds_comms ds_dhs ds_enc ds_shares].
    destruct (N.ltb _ _); [reflexivity|].
    set (st0 := MkState (ds_params st) (ds_index st) (ds_dh_sk st) (ds_dh_pk st) (ds_comms st) (ds_dhs st) None (ds_shares st)).
    change (MkState (ds_params st) (ds_index st) (ds_dh_sk st) (ds_dh_pk st) (option_map (relabel_map f) (ds_comms st)) (ds_dhs st) None (ds_shares st))
      with (relabel_state f st0).
    rewrite relabel_round_two_loop. destruct (round_two_loop m st0 es [] [] r) as [[[sh cs] r']| |]; cbn [bind rmap]; [|reflexivity|reflexivity].
    destruct (u32_sub _ _ _) as [n'| |]; cbn [bind rmap]; [|reflexivity|reflexivity].
    destruct (u32_ltb _ _); reflexivity.
  Qed.
  Lemma relabel_blame_one st c : blame_one (relabel_state f st) c = blame_one st c.
  Proof.
    unfold blame_one. cbn [relabel_state ds_params ds_comms ds_dhs]. destruct (_ || _); [reflexivity|].
    destruct (ds_comms st) as [comms|]; cbn [option_map]; [|reflexivity]. rewrite relabel_bget.
    destruct (bget _ comms) as [com|]; cbn [option_map]; reflexivity.
  Qed.
  Lemma relabel_blame_loop st cs : forall p, blame_loop (relabel_state f st) cs p = blame_loop st cs p.
  Proof.
    induction cs as [|c cs IH]; intros p; [reflexivity|]. cbn [blame_loop]. rewrite relabel_blame_one.
    destruct (blame_one st c); cbn [bind]; auto.
  Qed.
  Lemma relabel_remove_all l : forall st, remove_all (relabel_state f st) l = rmap (relabel_state f) (remove_all st l).
  Proof.
    induction l as [|i l IH]; intros st; [reflexivity|]. cbn [remove_all]. unfold remove_malicious.
    cbn [relabel_state ds_params ds_index ds_dh_sk ds_dh_pk ds_comms ds_dhs ds_enc ds_shares].
    destruct (ds_comms st) as [comms|]; cbn [option_map]; [|reflexivity]. destruct (ds_shares st) as [sh|]; [|reflexivity].
    cbn [bind]. rewrite <- relabel_bremove. rewrite <- IH. reflexivity.
  Qed.
  Lemma relabel_blame st cs :
    blame (R2 (relabel_state f st)) cs =
    rmap (fun y => (fst y, R2 (relabel_state f (st2 (snd y))))) (blame (R2 st) cs).
  Proof.
    unfold blame. cbn [st2]. rewrite relabel_blame_loop. destruct (blame_loop st cs []) as [p| |]; cbn [bind rmap]; [|reflexivity|reflexivity].
    rewrite relabel_remove_all. destruct (remove_all st _) as [st'| |]; reflexivity.
  Qed.
  Lemma relabel_group_key_loop idx m : forall k, group_key_loop idx (relabel_map f m) k = group_key_loop idx m k.
  Proof.
    induction m as [|[j c] m IH]; intros k; [reflexivity|]. cbn [relabel_map map group_key_loop fst snd].
    destruct (lagrange j idx); cbn [bind]; try reflexivity. unfold vss_public_key. cbn [relabel_vss vss_points].
    destruct (vss_points c); [reflexivity|]. apply IH.
  Qed.
  Lemma relabel_finish st : finish (R2 (relabel_state f st)) = finish (R2 st).
  Proof.
    unfold finish. cbn [st2]. change (calculate_signing_key (relabel_state f st)) with (calculate_signing_key st).
    destruct (calculate_signing_key st); cbn [bind]; [|reflexivity|reflexivity].
    unfold calculate_group_key. cbn [relabel_state ds_comms]. destruct (ds_comms st) as [comms|]; cbn [option_map]; [|reflexivity].
    rewrite relabel_keys, relabel_group_key_loop. reflexivity.
  Qed.
End Relabel.

(** no step of the key generation looks at the index inside a commitment *)
Theorem C63_commitment_labels_are_ignored :
  forall (S : Suite) (f : u32 -> u32) (m : build) (params : Params) (x : F) (my : u32) (co : list F) (sk : SigningKey)
         (ps : list Participant) (st : DkgState) (es : list EncShare) (cs : list Complaint) (r : Rng),
  bootstrap m params x my co (map (relabel_part f) ps) r =
    rmap (fun y => let '(s, l, q) := y in (R1 (relabel_state f (st1 s)), relabel_list f l, q)) (bootstrap m params x my co ps r) /\
  dkg_new m params x my (map (relabel_part f) ps) r =
    rmap (fun y => let '(s, l, q) := y in (R1 (relabel_state f (st1 s)), relabel_list f l, q)) (dkg_new m params x my ps r) /\
  reshare m params sk (map (relabel_part f) ps) r =
    rmap (fun y => let '(d, e, l, q) := y in (d, e, relabel_list f l, q)) (reshare m params sk ps r) /\
  to_round_two m (R1 (relabel_state f st)) es r =
    rmap (fun y => let '(s, c, q) := y in (R2 (relabel_state f (st2 s)), c, q)) (to_round_two m (R1 st) es r) /\
  blame (R2 (relabel_state f st)) cs = rmap (fun y => (fst y, R2 (relabel_state f (st2 (snd y))))) (blame (R2 st) cs) /\
  finish (R2 (relabel_state f st)) = finish (R2 st).
Proof.
  intros S f m params x my co sk ps st es cs r.
  split; [apply relabel_new_state|]. split; [apply relabel_new_state|]. split.
  { unfold reshare. destruct (new_internal _ _ _ _ _) as [[[[d c] y] r1]| |]; cbn [bind rmap]; [|reflexivity|reflexivity].
    destruct c as [c|]; [|reflexivity]. rewrite relabel_new_state.
    destruct (new_state_internal _ _ _ _ _ _ _ _ _) as [[[s l] q]| |]; cbn [bind rmap relabel_run1]; [|reflexivity|reflexivity].
    unfold their_encrypted_secret_shares. cbn [st1 relabel_state ds_enc]. destruct s as [st0]. cbn [st1].
    destruct (ds_enc st0); reflexivity. }
  split; [apply relabel_to_round_two|]. split; [apply relabel_blame|apply relabel_finish].
Qed.
Print Assumptions C63_commitment_labels_are_ignored.

(** ... but the key check does: dealer 2 labels its commitment 7 and the keys of all three participants are
    rejected against the published commitments, although nobody can complain *)
Definition mislabel (j : u32) : u32 := if u32_eqb j (u 2) then u 7 else j.
Definition label_ps : list Participant := map (relabel_part mislabel) demo_ps.
Definition label_comms : list Vss := flat_map (fun p => match pt_comm p with Some c => [c] | None => [] end) label_ps.
Definition label_run (i : N) : result (RoundOne * PartList * Rng) :=
  bootstrap Debug demo_params (dealer_x 3 2 i (10 * i)) (u i) (dealer_co 3 2 i (10 * i)) label_ps (1000 + i)%N.
Definition label_check (i : N) : bool :=
  match label_run i with
  | Ok (s1, l, _) =>
      match pl_mis l, to_round_two Debug s1 (demo_shares i) 7%N with
      | None, Ok (s2, [], _) =>
          match finish s2 with
          | Ok (gk, sk) =>
              match ivk_verify (to_public sk) demo_cs, ivk_verify (to_public sk) label_comms with
              | Ok _, Err ShareVerificationError => true
              | _, _ => false
              end
          | _ => false
          end
      | _, _ => false
      end
  | _ => false
  end.
Lemma label_check_all : forall i, In i [1; 2; 3]%N -> label_check i = true.
Proof. intros i [<-|[<-|[<-|[]]]]; vmr. Qed.
Lemma label_run_eq i : label_run i =
  bootstrap Debug demo_params (y_x (demo_party i)) (y_index (demo_party i)) (y_co (demo_party i)) label_ps (1000 + i)%N.
Proof. reflexivity. Qed.
Lemma label_check_inv i : label_check i = true -> exists r s1 l q es r2 s2 q2 gk sk,
  bootstrap Debug demo_params (y_x (demo_party i)) (y_index (demo_party i)) (y_co (demo_party i)) label_ps r = Ok (s1, l, q) /\
  pl_mis l = None /\ to_round_two Debug s1 es r2 = Ok (s2, [], q2) /\ finish s2 = Ok (gk, sk) /\
  ivk_verify (to_public sk) demo_cs = Ok tt /\ ivk_verify (to_public sk) label_comms = Err ShareVerificationError.
Proof.
  unfold label_check. rewrite label_run_eq. generalize (demo_shares i) as es, demo_cs as c1, label_comms as c2, label_ps as ps. intros es c1 c2 ps.
  set (run := bootstrap _ _ _ _ _ _ _). intros H. exists (1000 + i)%N. fold run. clearbody run.
  destruct run as [[[s1 l] q]| |]; try discriminate. exists s1, l, q, es, 7%N.
  destruct (pl_mis l); [discriminate|]. destruct (to_round_two Debug s1 es 7%N) as [[[s2 [|c cs]] q2]| |]; try discriminate. exists s2, q2.
  destruct (finish s2) as [[gk sk]| |]; try discriminate. exists gk, sk.
  destruct (ivk_verify (to_public sk) c1) as [[]| |]; try discriminate.
  destruct (ivk_verify (to_public sk) c2) as [|[]|]; try discriminate. repeat split.
Qed.
Definition published_comms {S : Suite} (ps : list Participant) : list Vss :=
  flat_map (fun p => match pt_comm p with Some c => [c] | None => [] end) ps.

Theorem C63_mislabelled_commitment_breaks_key_check :
  exists (S : Suite) (L : SuiteLaws S) (m : build) (params : Params) (parties : list Party) (f : u32 -> u32),
    honest_parties params parties /\
    let ps := map y_d parties in
    forall p, In p parties -> exists r s1 l q es r2 s2 q2 gk sk,
      bootstrap m params (y_x p) (y_index p) (y_co p) (map (relabel_part f) ps) r = Ok (s1, l, q) /\ pl_mis l = None /\
      to_round_two m s1 es r2 = Ok (s2, [], q2) /\ finish s2 = Ok (gk, sk) /\
      ivk_verify (to_public sk) (published_comms ps) = Ok tt /\
      ivk_verify (to_public sk) (published_comms (map (relabel_part f) ps)) = Err ShareVerificationError.
Proof.
  exists Toy, ToyLaws, Debug, demo_params, demo_parties, mislabel. split; [exact C18_ex_honest|]. cbv zeta.
  assert (E1 : published_comms (map y_d demo_parties) = demo_cs) by vmr.
  change (map (relabel_part mislabel) (map y_d demo_parties)) with label_ps. rewrite E1. change (published_comms label_ps) with label_comms.
  intros p Hp. assert (X : exists i, In i [1; 2; 3]%N /\ p = demo_party i).
  { destruct Hp as [<-|[<-|[<-|[]]]]; eexists; (split; [|reflexivity]); cbn; tauto. }
  destruct X as (i & Hi & ->). apply label_check_inv, label_check_all, Hi.
Qed.
Print Assumptions C63_mislabelled_commitment_breaks_key_check.
Example C63_ex : map vss_index label_comms = [u 1; u 7; u 3] /\ map (fun c => map fv (vss_points c)) label_comms = map (fun c => map fv (vss_points c)) demo_cs.
Proof. vms. Qed.

(** C64 *)
Lemma signing_key_loop_cases {S : Suite} {L : SuiteLaws S} idx shares : NoDup idx -> forall k,
  (exists v, signing_key_loop idx shares k = Ok v) \/
  signing_key_loop idx shares k = Err (Custom "The indexs of a participant cannot be 0.").
Proof.
  intros Hnd. induction shares as [|[i s] shares IH]; intros k; [left; eexists; reflexivity|]. cbn [signing_key_loop].
  destruct (in_dec u32_eq_dec u32_zero idx) as [Hz|Hz].
  - rewrite lagrange_zero_index by assumption. right. reflexivity.
  - rewrite lagrange_ok by (split; assumption). apply IH.
Qed.

(** a participant with index zero and valid proofs passes round one; it then blocks finish for everyone, and no
    complaint against it is ever upheld: only a complaint it makes itself can remove it *)
Theorem C64_index_zero_blocks_finish :
  forall (S : Suite) (L : SuiteLaws S) (m : build) (params : Params) (x : F) (my : u32) (co : list F) (ps : list Participant)
         (r q : Rng) (st : DkgState) (l : PartList) (p : Participant),
  In p ps -> pt_index p = u32_zero ->
  (bootstrap m params x my co ps r = Ok (R1 st, l, q) /\ ok_bootstrap (p_t params) p) \/
  (dkg_new m params x my ps r = Ok (R1 st, l, q) /\ ok_new p) ->
  forall (m' : build) (es : list EncShare) (r2 q2 : Rng) s2 (cs settled : list Complaint),
  to_round_two m' (R1 st) es r2 = Ok (s2, cs, q2) ->
  (forall c, In c settled -> maker c <> u32_zero) ->
  exists keys s3, blame s2 settled = Ok (keys, s3) /\
    (finish s3 = Err IndexIsZero \/ finish s3 = Err (Custom "The indexs of a participant cannot be 0.")).
Proof.
  intros S L m params x my co ps r q st l p Hp Hp0 HH m' es r2 q2 s2 cs settled E2 Hm.
  assert (X : exists comms c, ds_comms st = Some comms /\ NoDup (bkeys comms) /\ bget u32_zero comms = Some c).
  { assert (Y : exists fd c0, (fd = true -> exists k, c0 = Some k) /\ new_state_internal m params x my c0 ps fd true r = Ok (R1 st, l, q) /\
      okb fd true (p_t params) p = true).
    { destruct HH as [[E Hok]|[E Hok]]; [exists true, (Some co)|exists false, None]; (split; [first [discriminate|intros _; eexists; reflexivity]|]); (split; [exact E|]).
      - apply okb_bootstrap, Hok.
      - apply okb_new, Hok. }
    destruct Y as (fd & c0 & Hc0 & E & Hok).
    destruct (round_one_ok m params x my c0 ps fd r (R1 st) l q Hc0 E) as (_ & _ & _ & _ & _ & s1 & Es & _ & _ & comms & HC & KC & LC).
    injection Es as <-. set (v := filter (okb fd true (p_t params)) ps) in *.
    assert (Hv : In p v) by (apply filter_In; auto).
    destruct (last_with_ex v p Hv) as (p' & Hl). pose proof (proj1 (last_with_in _ _ _ Hl)) as Hin.
    destruct (pt_comm p') as [c|] eqn:Ec; [|apply comm_entries_none_free in Hin; contradiction].
    exists comms, c. split; [exact HC|]. split; [apply increasing_NoDup, KC|]. apply LC. exists p'. rewrite <- Hp0. auto. }
  destruct X as (comms & c & HC & Hnd & Hz).
  destruct (to_round_two_inv m' st comms es r2 s2 cs q2 HC Hnd E2) as (_ & _ & ->).
  destruct (round_two_state_spec st es) as [A1 A2 A3 A4 A5 A6 A7 (shares & B1 & B2 & B3)].
  set (stB := round_two_state st es) in *. rewrite HC in A5.
  destruct (C22_blame_outcome S L stB comms shares settled A5 B1) as (idx & keys & st' & Eb & _ & _ & _ & HP).
  exists keys, (R2 st'). split; [exact Eb|].
  destruct HP as [_ _ _ _ _ _ (m1 & comms' & Q1 & Q2 & Q3) (m2 & shares' & R1' & R2' & R3)].
  assert (m1 = comms) by congruence. assert (m2 = shares) by congruence. subst m1 m2.
  assert (Hz' : bget u32_zero comms' = Some c).
  { rewrite <- Hz. apply (without_bget _ _ _ Q3). intros (k & K1 & [[(K2 & _) K3]|[_ K3]]); [congruence|].
    apply (Hm k K1). symmetry. exact K3. }
  assert (Hnd' : NoDup (bkeys comms')) by (eapply without_nodup; eassumption).
  assert (Hin0 : In u32_zero (bkeys comms')) by (apply bget_in, (in_map fst) in Hz'; exact Hz').
  unfold finish, calculate_signing_key, calculate_group_key. cbn [st2]. rewrite R2', Q2.
  destruct (signing_key_loop_cases (bkeys shares') shares' (without_nodup _ _ _ R3 B2) F0) as [[v Ev]|Ev]; rewrite Ev; cbn [bind]; [|right; reflexivity].
  left. destruct comms' as [|[j w] rest]; [contradiction|]. cbn [group_key_loop]. rewrite lagrange_zero_index by assumption. reflexivity.
Qed.
Print Assumptions C64_index_zero_blocks_finish.

(** a dealer with index zero: its own code path forbids the index, so the proofs are made directly *)
Definition zero_part : Participant :=
  let co := [mk 5; mk 6] in
  MkPart u32_zero (toy_gen * mk 4)%G (Some (MkVss u32_zero (committed co)))
    (Some (fst (nizk_prove u32_zero (mk 5) (toy_gen * mk 5)%G 3%N))) (fst (nizk_prove u32_zero (mk 4) (toy_gen * mk 4)%G 4%N)).
Definition zero_ps : list Participant := [dealer 3 2 1 10; zero_part; dealer 3 2 3 30].
Definition zero_shares (i : N) : list EncShare := shares_to i (map (demo_r1 zero_ps) [1; 3]%N).
Definition zero_end (i : N) : result nat :=
  let* (s2, cs, _) := to_round_two Debug (demo_r1 zero_ps i) (zero_shares i) 7%N in
  let* _ := finish s2 in Ok (length cs).
Example C64_ex :
  ok_bootstrap (u 2) zero_part /\
  (let* (s2, cs, _) := to_round_two Debug (demo_r1 zero_ps 1) (zero_shares 1) 7%N in Ok (length cs)) = Ok 0 /\
  zero_end 1 = Err IndexIsZero /\ zero_end 3 = Err IndexIsZero /\
  (* 1 and 3 complaining about participant zero only remove themselves *)
  blamed_view (got no_state (let* (s2, _, _) := to_round_two Debug (demo_r1 zero_ps 1) (zero_shares 1) 7%N in Ok (st2 s2)))
    [against 0 (victim_c 2 3); against 0 (victim_c 2 1)] =
    ([fv (pt_dh_pk (dealer 3 2 1 10)); fv (pt_dh_pk (dealer 3 2 3 30))], [u 0], []).
Proof.
  split; [|vms]. apply okb_bootstrap. vmr.
Qed.
