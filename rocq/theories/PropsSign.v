(** C36-C42, C57: verification, nonce lists and partial signatures. *)
From Coq Require Import String Strings.Byte Arith NArith ZArith Bool List Permutation Sorted Lia Field.
From Verif Require Import Base Suite Spec SpecDkg SpecSign Types ModelDkg ModelSign Algebra BaseLemmas LemmasShare LemmasFinish LemmasSign
  Toy Demo DemoSign.
Import ListNotations.

(** C36 *)
Theorem C36_verification_is_schnorr :
  forall (S : Suite) (L : SuiteLaws S) (gk : G) (sig : ThresholdSig) (h : list byte),
    verify_signature gk sig h = sig_verify sig gk h /\
    (sig_verify sig gk h = Ok tt <-> schnorr gk h (ts_R sig) (ts_z sig)) /\
    (sig_verify sig gk h = Err InvalidSignature <-> ~ schnorr gk h (ts_R sig) (ts_z sig)).
Proof.
  intros S L gk sig h. split; [reflexivity|]. split; [apply sig_verify_iff|].
  rewrite sig_verify_cases. unfold schnorr. destruct (Geqb _ _) eqn:E.
  - apply Geqb_spec in E. split; [discriminate|tauto].
  - apply Geqb_neq in E. tauto.
Qed.
Print Assumptions C36_verification_is_schnorr.

Theorem C36_one_valid_response :
  forall (S : Suite) (L : SuiteLaws S) (gk R : G) (h : list byte),
    exists z, sig_verify (MkTSig R z) gk h = Ok tt /\
      forall z', sig_verify (MkTSig R z') gk h = Ok tt -> z' = z.
Proof.
  intros S L gk R h. destruct (gen_span (R + gk * chal R gk h)%G) as [z Hz]. exists z. split.
  - apply sig_verify_iff. symmetry. exact Hz.
  - intros z' H. apply sig_verify_iff in H. unfold schnorr in H. cbn in H. rewrite Hz in H. apply gen_inj, H.
Qed.
Print Assumptions C36_one_valid_response.

Example C36_ex :
  let R := (toy_gen * mk 5)%G in
  let z := (mk 5 + mk 1000 * chal R sgroup shash)%F in
  sig_verify (MkTSig R z) sgroup shash = Ok tt /\ verify_signature sgroup (MkTSig R z) shash = Ok tt /\
  sig_verify (MkTSig R (z + mk 1)%F) sgroup shash = Err InvalidSignature /\
  sig_verify (MkTSig R z) sgroup (x00 :: shash) = Err InvalidSignature.
Proof. vms. Qed.

(** C37 *)
Theorem C37_lists_are_consistent :
  forall (S : Suite) (L : SuiteLaws S) (r : Rng) (k : SigningKey) (n : nat),
    exists pub sec r', generate_commitment_share_lists r k n = (pub, sec, r') /\
      pl_index pub = sk_index k /\ length (sl_commitments sec) = n /\ length (pl_commitments pub) = n /\
      forall i cs, nth_error (sl_commitments sec) i = Some cs ->
        consistent cs /\ nth_error (pl_commitments pub) i = Some (published cs).
Proof.
  intros S L r k n. unfold generate_commitment_share_lists. destruct (gen_shares_spec k n r) as [ds [H1 H2]].
  destruct (gen_shares k n r) as [l r']. cbn in H2. subst l.
  eexists _, _, _. split; [reflexivity|]. cbn [pl_index sl_commitments pl_commitments]. rewrite !map_length.
  repeat split; auto; apply nth_error_In in H as Hin; apply in_map_iff in Hin; destruct Hin as [[d e] [<- _]].
  1,2: reflexivity.
  rewrite nth_error_map, H. reflexivity.
Qed.
Print Assumptions C37_lists_are_consistent.

(** each nonce comes from its own random string, drawn in order *)
Theorem C37_every_nonce_has_its_own_randomness :
  forall (S : Suite) (L : SuiteLaws S) (r : Rng) (k : SigningKey) (n : nat) pub sec r',
    generate_commitment_share_lists r k n = (pub, sec, r') ->
    exists bs, draws r bs r' /\ length bs = 2 * n /\ (forall b, In b bs -> length b = hash_len) /\
      paired k bs (sl_commitments sec).
Proof.
  intros S L r k n pub sec r'. unfold generate_commitment_share_lists. destruct (gen_shares k n r) as [l r1] eqn:E.
  intros X. injection X as <- <- <-. cbn [sl_commitments]. clear -E L. revert r l r1 E.
  induction n as [|n IH]; intros r l r1; cbn [gen_shares].
  - intros X. injection X as <- <-. exists []. repeat split; try constructor. intros b [].
  - unfold nonce_pair, nonce_generate. destruct (rand_bytes hash_len r) as [b1 ra] eqn:E1. destruct (rand_bytes hash_len ra) as [b2 rb] eqn:E2.
    destruct (gen_shares k n rb) as [l' rc] eqn:E3. intros X. injection X as <- <-.
    destruct (IH _ _ _ E3) as [bs [H1 [H2 [H3 H4]]]]. exists (b1 :: b2 :: bs).
    split; [econstructor; [exact E1|]; econstructor; [exact E2|exact H1]|]. split; [cbn; lia|]. split.
    + assert (X1 := rand_bytes_len hash_len r). assert (X2 := rand_bytes_len hash_len ra). rewrite E1 in X1. rewrite E2 in X2. cbn in X1, X2.
      intros b [<-|[<-|Hb]]; auto.
    + constructor; [reflexivity|reflexivity|exact H4].
Qed.
Print Assumptions C37_every_nonce_has_its_own_randomness.

Example C37_ex :
  length (sl_commitments (snonces 2)) = 3 /\ length (spub 2) = 3 /\
  nth_error (spub 2) 1 = Some (published (spair 2 1)) /\ nodupb (map (fun p => u (Z.to_N (fv (fst p)))) (spub 2)) = true.
Proof. vms. Qed.

(** C38 *)
Theorem C38_sign_outcome :
  forall (S : Suite) (L : SuiteLaws S) (m : build) (k : SigningKey) (h : list byte) (gk : G) (l : SecretList) (idx : N)
    (ss : list Signer),
    (idx + 1 < 2 ^ 64)%N ->
    let out := fst (sign m k h gk l idx ss) in
    ((N.of_nat (length (sl_commitments l)) <= idx)%N -> out = Err MissingCommitmentShares) /\
    ((idx < N.of_nat (length (sl_commitments l)))%N ->
      (ss = [] -> out = Panic) /\
      (ss <> [] -> ~ In (sk_index k) (map sg_index ss) -> out = Err InvalidBindingFactor) /\
      (In (sk_index k) (map sg_index ss) -> ~ NoDup (map sg_index ss) -> out = Err (Custom "Duplicate indices provided")) /\
      (In (sk_index k) (map sg_index ss) -> NoDup (map sg_index ss) -> In u32_zero (map sg_index ss) -> out = Err IndexIsZero) /\
      (In (sk_index k) (map sg_index ss) -> NoDup (map sg_index ss) -> ~ In u32_zero (map sg_index ss) ->
        exists z, out = Ok (MkPSig (sk_index k) z))).
Proof.
  intros S L m k h gk l idx ss Hi. cbv zeta. change (2 ^ 64)%N with 18446744073709551616%N in Hi.
  rewrite sign_eq, usize_succ_ok by exact Hi. split.
  - intros Hl. replace (N.ltb _ _) with true; [reflexivity|]. symmetry. apply N.ltb_lt. lia.
  - intros Hl. replace (N.ltb _ _) with false by (symmetry; apply N.ltb_ge; lia).
    split; [intros ->; reflexivity|]. unfold sign_outcome.
    split.
    { intros Hs Hn. destruct ss as [|s0 ss0]; [contradiction|]. set (ss := s0 :: ss0) in *.
      destruct (existsb _ ss) eqn:E; [|reflexivity]. apply index_existsb in E. contradiction. }
    assert (K : In (sk_index k) (map sg_index ss) -> ss <> [] /\ existsb (fun s => u32_eqb (sk_index k) (sg_index s)) ss = true).
    { intros H. split; [intros ->; exact H|]. apply index_existsb, H. }
    repeat split; intros Hin; destruct (K Hin) as [Hne E]; destruct ss as [|s0 ss0]; try contradiction; rewrite E.
    + intros Hd. rewrite lagrange_dup by exact Hd. reflexivity.
    + intros Hd Hz. rewrite lagrange_zero_index by assumption. reflexivity.
    + intros Hd Hz. rewrite lagrange_ok by (split; assumption).
      destruct (nth_error (sl_commitments l) (N.to_nat idx)) as [cs|] eqn:Ec; [eexists; reflexivity|].
      apply nth_error_None in Ec. lia.
Qed.
Print Assumptions C38_sign_outcome.

Theorem C38_failure_keeps_the_list :
  forall (S : Suite) (L : SuiteLaws S) (m : build) (k : SigningKey) (h : list byte) (gk : G) (l : SecretList) (idx : N)
    (ss : list Signer) o l',
    sign m k h gk l idx ss = (o, l') -> (forall p, o <> Ok p) -> l' = l.
Proof. intros. eapply sign_fail; eassumption. Qed.
Print Assumptions C38_failure_keeps_the_list.

(** the one position the range check does not cover: idx + 1 overflows *)
Theorem C38_largest_position_panics :
  forall (S : Suite) (L : SuiteLaws S) (k : SigningKey) (h : list byte) (gk : G) (l : SecretList) (ss : list Signer),
    (N.of_nat (length (sl_commitments l)) < 2 ^ 64)%N ->
    fst (sign Debug k h gk l (2 ^ 64 - 1)%N ss) = Panic /\
    (In (sk_index k) (map sg_index ss) -> good_indices (map sg_index ss) ->
      fst (sign Release k h gk l (2 ^ 64 - 1)%N ss) = Panic).
Proof.
  intros S L k h gk l ss Hl. split.
  - rewrite sign_eq. reflexivity.
  - intros Hin Hg. rewrite sign_eq. replace (usize_succ Release (2 ^ 64 - 1)%N) with (Ok (E := Error) 0%N) by reflexivity.
    replace (N.ltb _ _) with false by (symmetry; apply N.ltb_ge; lia).
    unfold sign_outcome. destruct ss as [|s0 ss0]; [contradiction|].
    assert (E : existsb (fun s => u32_eqb (sk_index k) (sg_index s)) (s0 :: ss0) = true) by (apply index_existsb; exact Hin).
    rewrite E, (lagrange_ok _ _ Hg).
    replace (nth_error (sl_commitments l) (N.to_nat (2 ^ 64 - 1))) with (@None CommitmentShare); [reflexivity|].
    symmetry. apply nth_error_None. lia.
Qed.
Print Assumptions C38_largest_position_panics.

Example C38_ex :
  let ss := [ssigner 1 0; ssigner 3 0] in
  let s k idx l := fst (sign Debug (skey k) shash sgroup (snonces k) idx l) in
  s 1%Z 3%N ss = Err MissingCommitmentShares /\ s 1%Z 2%N [] = Panic /\ s 2%Z 0%N ss = Err InvalidBindingFactor /\
  s 1%Z 0%N (ss ++ [ssigner 3 1]) = Err (Custom "Duplicate indices provided") /\
  s 1%Z 0%N (ss ++ [ssigner 0 1]) = Err IndexIsZero /\
  s 1%Z 0%N ss = Ok (MkPSig (u 1) (partial_value shash sgroup ss (u 1) (co_secret (cs_hiding (spair 1 0)))
                                     (co_secret (cs_binding (spair 1 0))) (mk 1077))) /\
  s 1%Z 18446744073709551615%N ss = Panic.
Proof. vms. Qed.

(** C39 *)
Theorem C39_sign_consumes_its_pair :
  forall (S : Suite) (L : SuiteLaws S) (m : build) (k : SigningKey) (h : list byte) (gk : G) (l : list CommitmentShare) (idx : N)
    (ss : list Signer) p l',
    sign m k h gk (MkSecList l) idx ss = (Ok p, MkSecList l') ->
    exists cs l1 l2, nth_error l (N.to_nat idx) = Some cs /\
      p = MkPSig (sk_index k)
            (partial_value h gk ss (sk_index k) (co_secret (cs_hiding cs)) (co_secret (cs_binding cs)) (sk_key k)) /\
      l = l1 ++ cs :: l2 /\ l' = l1 ++ l2 /\
      (NoDup l -> length l1 = N.to_nat idx /\ ~ In cs l').
Proof.
  intros S L m k h gk l idx ss p l' H. apply sign_ok_inv in H. destruct H as [cs [H1 [_ [_ [H2 H3]]]]]. cbn in H1.
  destruct (drop_share_in (MkSecList l) cs) as [l1 [l2 [E1 [E2 E3]]]]; [cbn; eapply nth_error_In, H1|]. cbn in E1.
  exists cs, l1, l2. split; [exact H1|]. split; [exact H2|]. split; [exact E1|]. split; [congruence|].
  intros Hn. split.
  - assert (E : nth_error l (length l1) = Some cs) by (rewrite E1, nth_error_app2, Nat.sub_diag by lia; reflexivity).
    eapply (proj1 (NoDup_nth_error l) Hn); [apply nth_error_Some; congruence|congruence].
  - assert (l' = l1 ++ l2) as -> by congruence. rewrite E1 in Hn. apply NoDup_remove_2 in Hn. exact Hn.
Qed.
Print Assumptions C39_sign_consumes_its_pair.

Example C39_ex :
  let ss := [ssigner 1 1; ssigner 3 0] in
  snd (sign Debug (skey 1) shash sgroup (snonces 1) 1 ss) = MkSecList [spair 1 0; spair 1 2] /\
  sl_commitments (snonces 1) = [spair 1 0; spair 1 1; spair 1 2].
Proof. vms. Qed.

(** C57 *)
Theorem C57_drop_share :
  forall (S : Suite) (L : SuiteLaws S) (l : list CommitmentShare) (c : CommitmentShare),
    (~ In c l -> drop_share (MkSecList l) c = MkSecList l) /\
    (In c l -> exists l1 l2, l = l1 ++ c :: l2 /\ ~ In c l2 /\ drop_share (MkSecList l) c = MkSecList (l1 ++ l2)).
Proof.
  intros S L l c. split.
  - intros H. apply drop_share_notin. exact H.
  - intros H. destruct (drop_share_in (MkSecList l) c H) as [l1 [l2 [E1 [E2 E3]]]]. exists l1, l2. auto.
Qed.
Print Assumptions C57_drop_share.

Example C57_ex :
  let a := spair 1 0 in let b := spair 1 1 in
  drop_share (MkSecList [a; b; a; b]) a = MkSecList [a; b; b] /\ drop_share (MkSecList [b; b]) a = MkSecList [b; b].
Proof. vms. Qed.

(** C40 *)
Theorem C40_pairs_used_and_left :
  forall (S : Suite) (L : SuiteLaws S) (m : build) (l l' : list CommitmentShare) (us : list Use),
    signings m l us l' ->
    Permutation l (map us_pair us ++ l') /\
    forall x, In x us -> us_sig x = MkPSig (sk_index (us_key x))
      (partial_value (us_hash x) (us_gk x) (us_signers x) (sk_index (us_key x)) (co_secret (cs_hiding (us_pair x)))
        (co_secret (cs_binding (us_pair x))) (sk_key (us_key x))).
Proof.
  intros S L m l l' us H. induction H as [l|l k h gk idx ss p l1 cs us l2 Hs Hc H [IH1 IH2]|l k h gk idx ss o l1 us l2 Hs Ho H [IH1 IH2]].
  - split; [apply Permutation_refl|intros x []].
  - destruct (C39_sign_consumes_its_pair _ _ _ _ _ _ _ _ _ _ _ Hs) as [cs' [a [b [E1 [E2 [E3 [E4 _]]]]]]].
    assert (cs' = cs) by congruence. subst cs' l l1. split.
    + cbn [map app us_pair]. rewrite <- Permutation_middle. constructor. exact IH1.
    + intros x [<-|Hx]; [exact E2|apply IH2, Hx].
  - apply sign_fail in Hs; [|exact Ho]. injection Hs as ->. auto.
Qed.
Print Assumptions C40_pairs_used_and_left.

Theorem C40_no_pair_used_twice :
  forall (S : Suite) (L : SuiteLaws S) (m : build) (l l' : list CommitmentShare) (us : list Use),
    signings m l us l' -> NoDup l ->
    NoDup (map us_pair us) /\ (forall x, In x us -> In (us_pair x) l /\ ~ In (us_pair x) l') /\ length us <= length l.
Proof.
  intros S L m l l' us H Hn. destruct (C40_pairs_used_and_left _ _ _ _ _ _ H) as [HP _].
  pose proof (Permutation_NoDup HP Hn) as Hn'. split; [|split].
  - clear -Hn'. induction (map us_pair us) as [|x q IH]; constructor; cbn in Hn'; apply NoDup_cons_iff in Hn'.
    + intros Hx. apply Hn', in_or_app. auto.
    + apply IH, Hn'.
  - intros x Hx. split.
    + eapply Permutation_in; [apply Permutation_sym, HP|]. apply in_or_app. left. apply in_map, Hx.
    + apply (in_map us_pair) in Hx. revert Hn' Hx. clear. induction (map us_pair us) as [|y q IH]; intros Hn' Hx; [contradiction|].
      cbn in Hn'. apply NoDup_cons_iff in Hn'. destruct Hx as [->|Hx]; [|apply IH; tauto].
      intros Hi. apply Hn', in_or_app. auto.
  - apply Permutation_length in HP. rewrite app_length, map_length in HP. lia.
Qed.
Print Assumptions C40_no_pair_used_twice.

(** two successes with a failure in between, the same position each time *)
Example C40_ex :
  let ss0 := [ssigner 1 0; ssigner 3 0] in let ss1 := [ssigner 1 1; ssigner 2 0] in
  let l0 := [spair 1 0; spair 1 1; spair 1 2] in
  signings Debug l0
    [MkUse (skey 1) shash sgroup ss0 (spair 1 0)
       (MkPSig (u 1) (partial_value shash sgroup ss0 (u 1) (co_secret (cs_hiding (spair 1 0))) (co_secret (cs_binding (spair 1 0))) (mk 1077)));
     MkUse (skey 1) [] sgroup ss1 (spair 1 1)
       (MkPSig (u 1) (partial_value [] sgroup ss1 (u 1) (co_secret (cs_hiding (spair 1 1))) (co_secret (cs_binding (spair 1 1))) (mk 1077)))]
    [spair 1 2].
Proof.
  cbv zeta. eapply (sgs_ok _ _ _ _ _ 0%N _ _ [spair 1 1; spair 1 2]); [vmr|reflexivity|].
  eapply (sgs_failed _ _ (skey 1) [] sgroup 7%N [] (Err MissingCommitmentShares) [spair 1 1; spair 1 2]); [vmr|discriminate|].
  eapply (sgs_ok _ _ _ _ _ 0%N _ _ [spair 1 2]); [vmr|reflexivity|]. apply sgs_nil.
Qed.
Example C40_ex_distinct : NoDup [spair 1 0; spair 1 1; spair 1 2].
Proof.
  apply (NoDup_map_inv (fun c : @CommitmentShare Toy => u (Z.to_N (fv (co_secret (cs_hiding c)))))). nodup.
Qed.

(** C41 *)
Theorem C41_reuse_reveals_key :
  forall (S : Suite) (L : SuiteLaws S) (m : build) (k : SigningKey) (cs : CommitmentShare)
    (h1 h2 h3 : list byte) (g1 g2 g3 : G) (l1 l2 l3 : SecretList) (i1 i2 i3 : N) (ss1 ss2 ss3 : list Signer) p1 p2 p3,
    fst (sign m k h1 g1 l1 i1 ss1) = Ok p1 -> nth_error (sl_commitments l1) (N.to_nat i1) = Some cs ->
    fst (sign m k h2 g2 l2 i2 ss2) = Ok p2 -> nth_error (sl_commitments l2) (N.to_nat i2) = Some cs ->
    fst (sign m k h3 g3 l3 i3 ss3) = Ok p3 -> nth_error (sl_commitments l3) (N.to_nat i3) = Some cs ->
    let i := sk_index k in
    let b1 := binding h1 ss1 i in let b2 := binding h2 ss2 i in let b3 := binding h3 ss3 i in
    let w1 := (weight i (map sg_index ss1) * session_chal h1 g1 ss1)%F in
    let w2 := (weight i (map sg_index ss2) * session_chal h2 g2 ss2)%F in
    let w3 := (weight i (map sg_index ss3) * session_chal h3 g3 ss3)%F in
    let det := ((b2 - b1) * (w3 - w1) - (b3 - b1) * (w2 - w1))%F in
    det <> F0 ->
    sk_key k = (((b2 - b1) * (ps_z p3 - ps_z p1) - (b3 - b1) * (ps_z p2 - ps_z p1)) * Finv det)%F.
Proof.
  intros S L m k cs h1 h2 h3 g1 g2 g3 l1 l2 l3 i1 i2 i3 ss1 ss2 ss3 p1 p2 p3 H1 N1 H2 N2 H3 N3. cbv zeta. intros Hd.
  assert (K : forall h g l i ss p, fst (sign m k h g l i ss) = Ok p -> nth_error (sl_commitments l) (N.to_nat i) = Some cs ->
    ps_z p = partial_value h g ss (sk_index k) (co_secret (cs_hiding cs)) (co_secret (cs_binding cs)) (sk_key k)).
  { intros h g l i ss p H Hc. destruct (sign m k h g l i ss) as [o l'] eqn:E. cbn in H. subst o.
    apply sign_ok_inv in E. destruct E as [cs' [E1 [_ [_ [-> _]]]]]. assert (cs' = cs) by congruence. subst. reflexivity. }
  rewrite (K _ _ _ _ _ _ H1 N1), (K _ _ _ _ _ _ H2 N2), (K _ _ _ _ _ _ H3 N3). unfold partial_value.
  revert Hd. generalize (binding h1 ss1 (sk_index k)) (binding h2 ss2 (sk_index k)) (binding h3 ss3 (sk_index k))
    (weight (sk_index k) (map sg_index ss1)) (weight (sk_index k) (map sg_index ss2)) (weight (sk_index k) (map sg_index ss3))
    (session_chal h1 g1 ss1) (session_chal h2 g2 ss2) (session_chal h3 g3 ss3).
  intros b1 b2 b3 a1 a2 a3 c1 c2 c3 Hd. apply cramer. exact Hd.
Qed.
Print Assumptions C41_reuse_reveals_key.

(** the same list (a restored copy) used for three messages *)
Example C41_ex :
  let ss := [ssigner 1 0; ssigner 3 0] in
  let z h := match fst (sign Debug (skey 1) h sgroup (snonces 1) 0 ss) with Ok p => ps_z p | _ => mk 0 end in
  let b h := binding h ss (u 1) in
  let w h := (weight (u 1) [u 1; u 3] * session_chal h sgroup ss)%F in
  let m1 := [x01] in let m2 := [x02] in let m3 := [x03] in
  let det := ((b m2 - b m1) * (w m3 - w m1) - (b m3 - b m1) * (w m2 - w m1))%F in
  Feqb det (mk 0) = false /\
  (((b m2 - b m1) * (z m3 - z m1) - (b m3 - b m1) * (z m2 - z m1)) * Finv det)%F = mk 1077.
Proof. vms. Qed.

(** C42 *)
Theorem C42_honest_signature_share_checks :
  forall (S : Suite) (L : SuiteLaws S) (m : build) (k : SigningKey) (h : list byte) (gk : G) (l : SecretList) (idx : N)
    (ss : list Signer) p l' cs s,
    sign m k h gk l idx ss = (Ok p, l') -> nth_error (sl_commitments l) (N.to_nat idx) = Some cs ->
    In s ss -> s = MkSigner (sk_index k) (published cs) ->
    ps_index p = sk_index k /\ partial_ok h gk ss s (gen * sk_key k)%G (ps_z p) /\
    forall z, partial_ok h gk ss s (gen * sk_key k)%G z -> z = ps_z p.
Proof.
  intros S L m k h gk l idx ss p l' cs s H Hc Hin Hs. apply sign_ok_inv in H. destruct H as [cs' [E1 [_ [_ [-> _]]]]].
  assert (cs' = cs) by congruence. subst cs'. cbn [ps_index ps_z].
  assert (K := partial_value_ok h gk ss (sk_index k) (co_secret (cs_hiding cs)) (co_secret (cs_binding cs)) (sk_key k) _ s Hs eq_refl).
  split; [reflexivity|]. split; [exact K|]. intros z Hz. eapply partial_ok_unique; eassumption.
Qed.
Print Assumptions C42_honest_signature_share_checks.

Example C42_ex :
  let ss := [ssigner 1 0; ssigner 3 0] in
  let p := spartial 3 0 ss in
  ps_index p = u 3 /\
  (toy_gen * ps_z p)%G = (nonce_point shash ss (ssigner 3 0) +
     (toy_gen * mk 1231) * (session_chal shash sgroup ss * weight (u 3) [u 1; u 3])%F)%G.
Proof. vms. Qed.
