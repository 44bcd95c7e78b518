(** C127: the signing functions against RFC 9591. *)
From Coq Require Import String Strings.Byte Arith NArith ZArith Bool List Permutation Sorted Lia Field.
From Verif Require Import Base Suite Spec SpecDkg SpecSign SpecRobust SpecEnd SpecRfc Types ModelDkg ModelSign Algebra BaseLemmas LemmasShare
  LemmasFinish LemmasSign LemmasAgg Toy Demo DemoDkg DemoSign PropsFinish PropsReshare PropsSign PropsAgg PropsHash PropsEnd PropsAttack PropsStale
  PropsSession.
Import ListNotations.

(** the list of commitments of a session, as the standard has it *)
Definition entries {S : Suite} (ss : list Signer) : list entry := map (fun s => (sg_index s, fst (sg_com s), snd (sg_com s))) ss.

Section Rfc.
  Context {S : Suite} {L : SuiteLaws S}.
  Add Field F_fld : F_field.

  Lemma one_mul (x : F) : (F1 * x = x)%F. Proof. ring. Qed.
  Lemma zero_add (x : F) : (F0 + x = x)%F. Proof. ring. Qed.
  Lemma mul_sub_0 (x c c' : F) : (x * c = x * c')%F -> (x * (c - c') = F0)%F.
  Proof. intros E. replace (x * (c - c'))%F with (x * c - x * c')%F by ring. rewrite E. ring. Qed.
  Lemma same_multiple (P : G) (c c' : F) : (P * c = P * c')%G <-> P = Gzero \/ c' = c.
  Proof.
    split.
    - destruct (gen_span P) as [x ->]. rewrite !Gmul_mul. intros E. apply gen_inj, mul_sub_0, Fmul_eq_0 in E.
      destruct E as [->|E]; [left; apply Gmul_0_r|right; symmetry; apply Fsub_eq_0, E].
    - intros [->| ->]; [rewrite !Gmul_0_l|]; reflexivity.
  Qed.
  Lemma rfc_fractions_eq i l : forall n d, rfc_fractions l i n d =
    ((n * fprod (map of_u32 (others i l)))%F, (d * fprod (map (fun j => of_u32 j - of_u32 i)%F (others i l)))%F).
  Proof.
    induction l as [|j l IH]; intros n d; cbn [rfc_fractions].
    - cbn. f_equal; ring.
    - unfold others in *. cbn [filter]. destruct (u32_eqb j i) eqn:E; cbn [negb map fprod]; [apply IH|]. rewrite IH. f_equal; ring.
  Qed.
  Lemma rfc_repeated_spec l : rfc_repeated l = false <-> NoDup l.
  Proof.
    induction l as [|x l IH]; cbn [rfc_repeated]; [split; [constructor|reflexivity]|].
    rewrite orb_false_iff, IH. split.
    - intros [A B]. constructor; [|exact B]. intros X. assert (existsb (u32_eqb x) l = true); [|congruence].
      apply existsb_exists. exists x. split; [exact X|apply u32_eqb_refl].
    - intros H. inversion H; subst. split; [|assumption]. destruct (existsb (u32_eqb x) l) eqn:E; [|reflexivity].
      apply existsb_exists in E. destruct E as (y & Y & E). apply u32_eqb_spec in E. subst y. contradiction.
  Qed.
  Lemma rfc_lambda l i v : rfc_derive_interpolating_value l i = Some v <-> In i l /\ NoDup l /\ v = weight i l.
  Proof.
    unfold rfc_derive_interpolating_value. destruct (existsb (u32_eqb i) l) eqn:E; cbn [negb].
    - apply existsb_exists in E. destruct E as (y & Y & E). apply u32_eqb_spec in E. subst y.
      destruct (rfc_repeated l) eqn:R.
      + split; [discriminate|]. intros (_ & N & _). apply rfc_repeated_spec in N. congruence.
      + apply rfc_repeated_spec in R. rewrite rfc_fractions_eq. unfold weight. split.
        * intros X. injection X as <-. split; [exact Y|]. split; [exact R|]. rewrite !one_mul. reflexivity.
        * intros (_ & _ & ->). rewrite !one_mul. reflexivity.
    - split; [discriminate|]. intros (X & _). assert (existsb (u32_eqb i) l = true); [|congruence].
      apply existsb_exists. exists i. split; [exact X|apply u32_eqb_refl].
  Qed.
  Lemma rfc_participants_eq ss : rfc_participants (entries ss) = map sg_index ss.
  Proof. unfold rfc_participants, entries. rewrite map_map. reflexivity. Qed.
  Lemma rfc_encode_eq ss : rfc_encode_group_commitment_list this_library (entries ss) = roll ss.
  Proof.
    unfold rfc_encode_group_commitment_list, entries, roll. rewrite flat_map_concat_map, map_map. reflexivity.
  Qed.
  Lemma rfc_H4_eq h : rfc_H4 this_library h = h4 h.
  Proof. unfold rfc_H4, h4, tag. cbn [pf_msg this_library]. rewrite app_assoc. reflexivity. Qed.
  Lemma rfc_H5_eq h : rfc_H5 this_library h = h5 h.
  Proof. unfold rfc_H5, h5, tag. cbn [pf_com this_library]. rewrite app_assoc. reflexivity. Qed.
  Lemma rfc_binding_eq gk ss h i : rfc_binding_factor this_library gk (entries ss) h i = binding h ss i.
  Proof. unfold rfc_binding_factor, binding. rewrite rfc_encode_eq, rfc_H4_eq, rfc_H5_eq. reflexivity. Qed.
  Lemma rfc_sum_eq (f : entry -> G) cl : forall a, fold_left (fun c e => (c + f e)%G) cl a = (a + gsum (map f cl))%G.
  Proof. induction cl as [|e cl IH]; intros a; cbn [fold_left map gsum]; [rewrite Gadd_0_r; reflexivity|]. rewrite IH, Gadd_assoc. reflexivity. Qed.
  Definition share_point pf gk cl h (e : entry) : G := let '(i, hi, bi) := e in (hi + bi * rfc_binding_factor pf gk cl h i)%G.
  Lemma rfc_commitment_sum pf gk cl h : rfc_group_commitment pf gk cl h = gsum (map (share_point pf gk cl h) cl).
  Proof.
    unfold rfc_group_commitment. transitivity (fold_left (fun c e => (c + share_point pf gk cl h e)%G) cl Gzero).
    - generalize Gzero. generalize cl at 2 4. intros l. induction l as [|[[i hi] bi] l IH]; intros a; cbn [fold_left]; [reflexivity|]. apply IH.
    - rewrite rfc_sum_eq, Gadd_0_l. reflexivity.
  Qed.
  Lemma rfc_commitment_eq gk ss h : rfc_group_commitment this_library gk (entries ss) h = group_nonce h ss.
  Proof.
    rewrite rfc_commitment_sum. unfold group_nonce, entries at 2. rewrite map_map. f_equal. apply map_ext. intros s.
    unfold share_point, nonce_point. rewrite rfc_binding_eq. reflexivity.
  Qed.
  Lemma rfc_verify_schnorr h R z pk : rfc_verify this_library h R z pk = true <-> schnorr pk h R z.
  Proof. unfold rfc_verify. apply Geqb_spec. Qed.
  Lemma rfc_sign_eq i sk gk d e h ss z : rfc_sign this_library i sk gk d e h (entries ss) = Some z <->
    In i (map sg_index ss) /\ NoDup (map sg_index ss) /\ z = partial_value h gk ss i d e sk.
  Proof.
    unfold rfc_sign. rewrite rfc_participants_eq. destruct (rfc_derive_interpolating_value _ _) as [w|] eqn:E.
    - apply rfc_lambda in E. destruct E as (A & B & ->). rewrite rfc_binding_eq, rfc_commitment_eq. unfold partial_value, session_chal.
      split; [intros X; injection X as <-; auto|intros (_ & _ & ->); reflexivity].
    - split; [discriminate|]. intros (A & B & _). assert (X : rfc_derive_interpolating_value (map sg_index ss) i = Some (weight i (map sg_index ss)))
        by (apply rfc_lambda; auto). congruence.
  Qed.
  Lemma rfc_verify_share_eq gk ss h s pk z : In s ss -> NoDup (map sg_index ss) ->
    rfc_verify_share this_library (sg_index s, fst (sg_com s), snd (sg_com s)) pk z (entries ss) gk h = true <-> partial_ok h gk ss s pk z.
  Proof.
    intros Hs Hn. unfold rfc_verify_share. rewrite rfc_participants_eq.
    rewrite (proj2 (rfc_lambda (map sg_index ss) (sg_index s) _) (conj (in_map _ _ _ Hs) (conj Hn eq_refl))).
    rewrite rfc_binding_eq, rfc_commitment_eq, Geqb_spec. reflexivity.
  Qed.
  Lemma fold_sum (l : list F) : forall a, fold_left (fun z x => (z + x)%F) l a = (a + fsum l)%F.
  Proof. induction l as [|x l IH]; intros a; cbn [fold_left fsum]; [ring|]. rewrite IH. ring. Qed.
  Lemma regroup (d e r w x c : F) : (d + e * r + w * x * c = (d + e * r) + x * w * c)%F. Proof. ring. Qed.
End Rfc.

(** * C127: sign is section 5.2 with the library's encodings, except that the identifier zero is refused *)
Theorem C127_sign_is_rfc_sign :
  forall (S : Suite) (L : SuiteLaws S) (m : build) (k : SigningKey) (h : list byte) (gk : G) (l : SecretList) (idx : N) (ss : list Signer) (z : F),
  (idx + 1 < 2 ^ 64)%N ->
  fst (sign m k h gk l idx ss) = Ok (MkPSig (sk_index k) z) <->
  ~ In u32_zero (map sg_index ss) /\ exists cs, nth_error (sl_commitments l) (N.to_nat idx) = Some cs /\
    rfc_sign this_library (sk_index k) (sk_key k) gk (co_secret (cs_hiding cs)) (co_secret (cs_binding cs)) h (entries ss) = Some z.
Proof.
  intros S L m k h gk l idx ss z Hi. split.
  - destruct (sign m k h gk l idx ss) as [o l'] eqn:E. cbn [fst]. intros ->.
    destruct (sign_ok_inv _ _ _ _ _ _ _ _ _ E) as (cs & C1 & C2 & C3 & C4 & _). split; [apply C3|]. exists cs. split; [exact C1|].
    apply rfc_sign_eq. split; [exact C2|]. split; [apply C3|]. injection C4 as ->. reflexivity.
  - intros (H0 & cs & C & E). apply rfc_sign_eq in E. destruct E as (A & B & ->).
    destruct (C38_sign_outcome S L m k h gk l idx ss Hi) as [_ X].
    assert (Hl : (idx < N.of_nat (length (sl_commitments l)))%N) by (assert (Y : N.to_nat idx < length (sl_commitments l)) by (apply nth_error_Some; congruence); lia).
    destruct (X Hl) as (_ & _ & _ & _ & Y). destruct (Y A B H0) as (z & E).
    destruct (sign m k h gk l idx ss) as [o l'] eqn:Es. cbn [fst] in *. subst o.
    destruct (sign_ok_inv _ _ _ _ _ _ _ _ _ Es) as (cs' & C1 & _ & _ & C4 & _). rewrite C in C1. injection C1 as <-. rewrite C4. reflexivity.
Qed.
Print Assumptions C127_sign_is_rfc_sign.

(** nonces are those of section 4.1 and 5.1 with the library's encodings *)
Theorem C127_nonces_are_rfc_commit :
  forall (S : Suite) (L : SuiteLaws S) (k : SigningKey) (n : nat) (r : Rng) pub sec r',
  generate_commitment_share_lists r k (Datatypes.S n) = (pub, sec, r') ->
  let '(d, e, com, r1) := rfc_commit this_library (sk_index k) (sk_key k) r in
  exists pub' sec', generate_commitment_share_lists r1 k n = (pub', sec', r') /\
    sl_commitments sec = MkCS (MkCom d (fst com)) (MkCom e (snd com)) :: sl_commitments sec' /\
    pl_commitments pub = com :: pl_commitments pub'.
Proof.
  intros S L k n r pub sec r'. unfold generate_commitment_share_lists. cbn [gen_shares]. unfold nonce_pair, nonce_generate, rfc_commit, rfc_nonce_generate.
  cbn [pf_random pf_secret this_library]. destruct (rand_bytes hash_len r) as [b r1]. destruct (rand_bytes hash_len r1) as [b' r2].
  cbv beta iota. unfold ser_signing_key. destruct (gen_shares k n r2) as [l r3]. intros E. injection E as <- <- <-.
  exists (MkPubList (sk_index k) (map publish l)), (MkSecList l). split; [reflexivity|]. split; reflexivity.
Qed.
Print Assumptions C127_nonces_are_rfc_commit.

(** the aggregator returns what section 5.3 returns and names whom section 5.4 refuses; its list of commitments is sorted
    as the standard demands *)
Theorem C127_aggregate_is_rfc_aggregate :
  forall (S : Suite) (L : SuiteLaws S) (p : Params) (gk : G) (msg : list byte) tr a f,
  agg_run (agg_new p gk msg) tr a -> finalize a = Ok f ->
  let h := h4 msg in let ss := ag_signers (ai_state a) in
  ss <> [] -> ~ In u32_zero (map sg_index ss) ->
  ascending (rfc_participants (entries ss)) /\
  exists zs, Forall2 (fun s z => last_partial tr (sg_index s) z) ss zs /\
  let (R, z) := rfc_aggregate this_library gk (entries ss) h zs in
  (rfc_verify this_library h R z gk = true -> aggregate f = Ok (MkTSig R z)) /\
  (rfc_verify this_library h R z gk = false -> exists bad, aggregate f = Err (MisbehavingParticipants bad) /\
     forall i, In i bad <-> exists e pk z, In e (entries ss) /\ fst (fst e) = i /\ last_key tr i pk /\ last_partial tr i z /\
       rfc_verify_share this_library e pk z (entries ss) gk h = false).
Proof.
  intros S L p gk msg tr a f H HF h ss Hne H0. pose proof (holds_run _ _ _ _ _ H) as HH.
  pose proof HF as HF'. apply finalize_inv in HF'; [|apply HH]. destruct HF' as (Ef & HP & _).
  assert (Hn : NoDup (map sg_index ss)) by (apply increasing_NoDup, HH).
  split; [rewrite rfc_participants_eq; apply HH|].
  exists (map (fun s => val F0 (ag_partials (ai_state a)) (sg_index s)) ss). split.
  { assert (X : forall l, (forall s, In s l -> In s ss) ->
      Forall2 (fun s z => last_partial tr (sg_index s) z) l (map (fun s => val F0 (ag_partials (ai_state a)) (sg_index s)) l)); [|apply X; auto].
    induction l as [|s l IH]; intros Hl; cbn [map]; constructor; [|apply IH; intros; apply Hl; right; assumption].
    apply (hs_parts _ _ _ _ _ HH). destruct (HP s (Hl s (or_introl eq_refl))) as (v & E). unfold val. rewrite E. reflexivity. }
  unfold rfc_aggregate. rewrite rfc_commitment_eq, fold_sum. rewrite zero_add.
  set (z := fsum _).
  assert (EA : forall sig, aggregate f = Ok sig -> sig = MkTSig (group_nonce h ss) z /\ rfc_verify this_library h (group_nonce h ss) z gk = true).
  { intros sig E. rewrite Ef in E. rewrite aggregate_eq in E by assumption. cbv zeta in E. cbn [af_state af_hash] in E.
    rewrite (hs_gk _ _ _ _ _ HH), (hs_msg _ _ _ _ _ HH) in E. fold h ss z in E.
    destruct (sig_verify _ gk h) as [[]|e|] eqn:Ev; cbn [is_ok] in E.
    - injection E as <-. split; [reflexivity|]. apply rfc_verify_schnorr, (sig_verify_iff (MkTSig (group_nonce h ss) z)), Ev.
    - destruct (find_bad _ _ _ _ _ _); discriminate.
    - destruct (find_bad _ _ _ _ _ _); discriminate. }
  destruct (C45_blame_is_exact S L p gk msg tr a f H HF Hne H0) as [(sig & HA)|(bad & HA & _ & HB)].
  - destruct (EA sig HA) as (-> & HV). split; [intros _; exact HA|]. intros X. congruence.
  - split.
    + intros V. exfalso. rewrite Ef in HA. rewrite aggregate_eq in HA by assumption. cbv zeta in HA. cbn [af_state af_hash] in HA.
      rewrite (hs_gk _ _ _ _ _ HH), (hs_msg _ _ _ _ _ HH) in HA. fold h ss z in HA.
      rewrite (proj2 (sig_verify_iff (MkTSig (group_nonce h ss) z) gk h)) in HA by (apply rfc_verify_schnorr, V). discriminate.
    + intros _. exists bad. split; [exact HA|]. intros i. rewrite HB. split.
      * intros (s & pk & v & A1 & A2 & A3 & A4 & A5). exists (sg_index s, fst (sg_com s), snd (sg_com s)), pk, v.
        split; [apply in_map_iff; exists s; auto|]. split; [exact A2|]. split; [exact A3|]. split; [exact A4|].
        apply not_true_is_false. intros X. apply rfc_verify_share_eq in X; auto.
      * intros (e & pk & v & A1 & A2 & A3 & A4 & A5). apply in_map_iff in A1. destruct A1 as (s & <- & A1). cbn [fst] in A2.
        exists s, pk, v. split; [exact A1|]. split; [exact A2|]. split; [exact A3|]. split; [exact A4|].
        intros X. apply (rfc_verify_share_eq gk ss h s pk v A1 Hn) in X. congruence.
Qed.
Print Assumptions C127_aggregate_is_rfc_aggregate.

(** verification is the standard's with the label "challenge"; with the standard's own label a signature that the library
    accepts is accepted exactly if the two labels give one challenge, or the key is the identity *)
Theorem C127_verification :
  forall (S : Suite) (L : SuiteLaws S) (gk : G) (sig : ThresholdSig) (h : list byte),
  (verify_signature gk sig h = Ok tt <-> rfc_verify this_library h (ts_R sig) (ts_z sig) gk = true) /\
  (verify_signature gk sig h = Ok tt ->
   (rfc_verify rfc9591 h (ts_R sig) (ts_z sig) gk = true <->
    gk = Gzero \/ rfc_challenge rfc9591 (ts_R sig) gk h = rfc_challenge this_library (ts_R sig) gk h)).
Proof.
  intros S L gk sig h. split.
  - rewrite rfc_verify_schnorr. apply (sig_verify_iff sig gk h).
  - intros V. apply (sig_verify_iff sig gk h) in V. unfold schnorr in V. unfold rfc_verify. rewrite Geqb_spec, V.
    change (chal (ts_R sig) gk h) with (rfc_challenge this_library (ts_R sig) gk h).
    rewrite <- same_multiple. split; [apply Gadd_cancel_l|intros ->; reflexivity].
Qed.
Print Assumptions C127_verification.

(** a group that follows the standard, or any other profile, gets signatures that are valid under the profile's own
    verification *)
Theorem C127_any_profile_signs :
  forall (S : Suite) (L : SuiteLaws S) (pf : profile) (t : nat) (s : F) (ks : list SigningKey) (qs : list (SigningKey * F * F)) (h : list byte),
  recovers t s ks -> t <= length qs -> (forall k d e, In (k, d, e) qs -> In k ks) -> NoDup (map (fun q => sk_index (fst (fst q))) qs) ->
  let gk := (gen * s)%G in
  let cl := map (fun '(k, d, e) => (sk_index k, (gen * d)%G, (gen * e)%G)) qs in
  exists zs, Forall2 (fun '(k, d, e) z => rfc_sign pf (sk_index k) (sk_key k) gk d e h cl = Some z) qs zs /\
    let (R, z) := rfc_aggregate pf gk cl h zs in
    rfc_verify pf h R z gk = true /\
    (verify_signature gk (MkTSig R z) h = Ok tt <-> gk = Gzero \/ rfc_challenge pf R gk h = rfc_challenge this_library R gk h).
Proof.
  intros S L pf t s ks qs h [Hks Hrec] Ht Hq Hn gk cl.
  assert (Ei : rfc_participants cl = map (fun q => sk_index (fst (fst q))) qs).
  { unfold rfc_participants, cl. rewrite map_map. apply map_ext. intros [[k d] e]. reflexivity. }
  set (ids := map (fun q : SigningKey * F * F => sk_index (fst (fst q))) qs) in *.
  set (R := rfc_group_commitment pf gk cl h). set (c := rfc_challenge pf R gk h). set (rho := rfc_binding_factor pf gk cl h).
  pose (zs := map (fun '(k, d, e) => (d + e * rho (sk_index k) + weight (sk_index k) ids * sk_key k * c)%F) qs).
  assert (HZ : Forall2 (fun '(k, d, e) z => rfc_sign pf (sk_index k) (sk_key k) gk d e h cl = Some z) qs zs).
  { assert (X : forall l, (forall q, In q l -> In q qs) ->
      Forall2 (fun '(k, d, e) z => rfc_sign pf (sk_index k) (sk_key k) gk d e h cl = Some z) l
        (map (fun '(k, d, e) => (d + e * rho (sk_index k) + weight (sk_index k) ids * sk_key k * c)%F) l)); [|apply X; auto].
    induction l as [|[[k d] e] l IH]; intros Hl; cbn [map]; constructor; [|apply IH; intros; apply Hl; right; assumption].
    unfold rfc_sign. rewrite Ei, (proj2 (rfc_lambda ids (sk_index k) (weight (sk_index k) ids))); [reflexivity|].
    split; [|split; [exact Hn|reflexivity]]. apply (in_map (fun q : SigningKey * F * F => sk_index (fst (fst q))) qs (k, d, e)), Hl. left. reflexivity. }
  exists zs. split; [exact HZ|]. unfold rfc_aggregate. fold R. rewrite fold_sum, zero_add.
  assert (HV : (gen * fsum zs = R + gk * c)%G).
  { unfold R. rewrite rfc_commitment_sum. unfold cl at 2. rewrite map_map.
    rewrite (map_ext _ (fun q : SigningKey * F * F => (gen * (snd (fst q) + snd q * rho (sk_index (fst (fst q))))%F)%G))
      by (intros [[k d] e]; cbn [share_point fst snd]; rewrite Gmul_mul, gen_mul_add; reflexivity).
    rewrite gsum_gen. unfold gk. rewrite Gmul_mul, gen_mul_add. f_equal.
    assert (Es : s = fsum (map (fun q : SigningKey * F * F => sk_key (fst (fst q)) * weight (sk_index (fst (fst q))) ids)%F qs)).
    { rewrite <- (Hrec (map (fun q : SigningKey * F * F => fst (fst q)) qs)).
      - unfold interp0, key_points. rewrite !map_map. cbn [fst snd]. reflexivity.
      - intros k Hk. apply in_map_iff in Hk. destruct Hk as ([[k' d] e] & <- & Hk). apply (Hq _ _ _ Hk).
      - rewrite map_map. exact Hn.
      - rewrite map_length. exact Ht. }
    rewrite Es, <- fsum_map_scale_r, <- fsum_map_add. unfold zs. f_equal. apply map_ext. intros [[k d] e]. cbn [fst snd]. apply regroup. }
  split.
  - unfold rfc_verify. apply Geqb_spec. exact HV.
  - split.
    + intros V. apply (sig_verify_iff (MkTSig R (fsum zs)) gk h) in V. unfold schnorr in V. cbn [ts_R ts_z] in V. rewrite HV in V.
      apply Gadd_cancel_l, same_multiple in V. destruct V as [V|V]; [left; exact V|right; symmetry; exact V].
    + intros V. apply (sig_verify_iff (MkTSig R (fsum zs)) gk h). unfold schnorr. cbn [ts_R ts_z]. rewrite HV. f_equal. apply same_multiple.
      destruct V as [V|V]; [left; exact V|right; symmetry; exact V].
Qed.
Print Assumptions C127_any_profile_signs.

(** in a session of the library, a signer that follows another profile, with the right key, nonces, message hash, group key
    and list of commitments, is named exactly if the two profiles ask for different values *)
Theorem C127_mixed_session :
  forall (S : Suite) (L : SuiteLaws S) (pf : profile) (p : Params) (gk : G) (msg : list byte) tr a f (pks : list (u32 * G)) (k : SigningKey) (d e z : F),
  agg_run (agg_new p gk msg) tr a -> finalize a = Ok f ->
  let ss := ag_signers (ai_state a) in let i := sk_index k in let h := h4 msg in
  ~ In u32_zero (map sg_index ss) ->
  map fst pks = map sg_index ss -> (forall j P, In (j, P) pks -> last_key tr j P) -> ginterp0 pks = gk ->
  (forall s pk v, In s ss -> sg_index s <> i -> last_key tr (sg_index s) pk -> last_partial tr (sg_index s) v ->
     rfc_verify_share this_library (sg_index s, fst (sg_com s), snd (sg_com s)) pk v (entries ss) gk h = true) ->
  first_pair tr i ((gen * d)%G, (gen * e)%G) -> last_key tr i (gen * sk_key k)%G ->
  rfc_sign pf i (sk_key k) gk d e h (entries ss) = Some z -> last_partial tr i z ->
  (rfc_sign this_library i (sk_key k) gk d e h (entries ss) = Some z -> exists sig, outcome a = Ok sig) /\
  (rfc_sign this_library i (sk_key k) gk d e h (entries ss) <> Some z -> outcome a = Err (MisbehavingParticipants [i])).
Proof.
  intros S L pf p gk msg tr a f pks k d e z H HF ss i h H0 Hi Hk Hgk Hok Hpair Hx Es Hz.
  pose proof (holds_run _ _ _ _ _ H) as HH. apply (hs_pairs _ _ _ _ _ HH) in Hpair. fold ss in Hpair.
  assert (Hn : NoDup (map sg_index ss)) by (apply increasing_NoDup, HH).
  assert (Hok' : forall s pk v, In s ss -> sg_index s <> i -> last_key tr (sg_index s) pk -> last_partial tr (sg_index s) v -> partial_ok h gk ss s pk v).
  { intros s pk v A1 A2 A3 A4. apply (rfc_verify_share_eq gk ss h s pk v A1 Hn), Hok; assumption. }
  pose proof (partial_ok_value h gk ss i d e (sk_key k) z) as X.
  destruct (one_left p gk msg tr a f pks (MkSigner i ((gen * d)%G, (gen * e)%G)) (gen * sk_key k)%G z H HF H0 Hpair Hi Hk Hgk Hx Hz Hok') as [A B].
  assert (Y : rfc_sign this_library i (sk_key k) gk d e h (entries ss) = Some z <-> z = partial_value h gk ss i d e (sk_key k)).
  { rewrite rfc_sign_eq. split; [tauto|]. intros E. split; [|split; [exact Hn|exact E]]. apply (in_map sg_index) in Hpair. exact Hpair. }
  rewrite Y. split; intros W.
  - apply A, X, W.
  - apply B. intros V. apply W, X, V.
Qed.
Print Assumptions C127_mixed_session.

(** signers 1 and 3; 3 follows the profile given *)
Definition c127_sig (pf : profile) : F :=
  match rfc_sign pf (u 3) (sk_key (skey 3)) sgroup (co_secret (cs_hiding (spair 3 0))) (co_secret (cs_binding (spair 3 0))) shash (entries [ssigner 1 0; ssigner 3 0]) with
  | Some z => z | None => mk 0 end.
Definition c127_run (pf : profile) : trace * AggInitial :=
  calls_run (agg_new c69_params sgroup [x68; x69]) (c69_incs [1; 3]%Z 0 ++ [CPart (spartial 1 0 c87_signers); CPart (@MkPSig Toy (u 3) (c127_sig pf))]).
Lemma c127_ok pf : agg_run (agg_new c69_params sgroup [x68; x69]) (fst (c127_run pf)) (snd (c127_run pf)).
Proof. exact (calls_run_ok _ _). Qed.
Lemma c127_order pf : ag_signers (ai_state (snd (c127_run pf))) = [ssigner 1 0; ssigner 3 0]. Proof. vmr. Qed.
Lemma c127_part pf : bget (u 3) (ag_partials (ai_state (snd (c127_run pf)))) = Some (c127_sig pf). Proof. reflexivity. Qed.
Lemma c127_fin : is_ok (finalize (snd (c127_run rfc9591))) = true. Proof. vmr. Qed.
Lemma c127_idx : map fst (ag_keys (ai_state (snd (c127_run rfc9591)))) = map sg_index (ag_signers (ai_state (snd (c127_run rfc9591)))). Proof. vmr. Qed.
Lemma c127_group : ginterp0 (ag_keys (ai_state (snd (c127_run rfc9591)))) = sgroup. Proof. vmr. Qed.
Lemma c127_rest : forallb (fun s => u32_eqb (sg_index s) (u 3) || negb (failing (ai_state (snd (c127_run rfc9591))) (h4 [x68; x69]) s))
  (ag_signers (ai_state (snd (c127_run rfc9591)))) = true.
Proof. vmr. Qed.
Lemma c127_reg : bget (u 3) (ag_keys (ai_state (snd (c127_run rfc9591)))) = Some (@gen Toy * sk_key (skey 3))%G. Proof. vmr. Qed.
Lemma c127_signs : rfc_sign rfc9591 (u 3) (sk_key (skey 3)) sgroup (co_secret (cs_hiding (spair 3 0))) (co_secret (cs_binding (spair 3 0))) shash
  (entries [ssigner 1 0; ssigner 3 0]) = Some (c127_sig rfc9591).
Proof. vmr. Qed.
Example C127_ex_mixed :
  let tr := fst (c127_run rfc9591) in let a := snd (c127_run rfc9591) in let ss := ag_signers (ai_state a) in
  agg_run (agg_new c69_params sgroup [x68; x69]) tr a /\ is_ok (finalize a) = true /\ ss = [ssigner 1 0; ssigner 3 0] /\
  map fst (ag_keys (ai_state a)) = map sg_index ss /\ (forall j P, In (j, P) (ag_keys (ai_state a)) -> last_key tr j P) /\
  ginterp0 (ag_keys (ai_state a)) = sgroup /\
  (forall s pk v, In s ss -> sg_index s <> u 3 -> last_key tr (sg_index s) pk -> last_partial tr (sg_index s) v ->
     rfc_verify_share this_library (sg_index s, fst (sg_com s), snd (sg_com s)) pk v (entries ss) sgroup (h4 [x68; x69]) = true) /\
  first_pair tr (u 3) (published (spair 3 0)) /\ last_key tr (u 3) (@gen Toy * sk_key (skey 3))%G /\ last_partial tr (u 3) (c127_sig rfc9591).
Proof.
  cbv zeta. pose proof (@holds_run Toy _ _ _ _ _ (c127_ok rfc9591)) as HH.
  split; [exact (c127_ok rfc9591)|]. split; [exact c127_fin|]. split; [exact (c127_order rfc9591)|]. split; [exact c127_idx|].
  split; [exact (@keys_check Toy ToyLaws _ _ _ _ _ (c127_ok rfc9591))|]. split; [exact c127_group|].
  split; [intros s pk v A1 A2 A3 A4; apply (@rfc_verify_share_eq Toy ToyLaws);
    [exact A1|apply increasing_NoDup, HH|exact (@others_ok_check Toy ToyLaws _ _ _ _ _ _ (c127_ok rfc9591) c127_rest s pk v A1 A2 A3 A4)]|].
  split; [apply (hs_pairs _ _ _ _ _ HH); rewrite (c127_order rfc9591); right; left; reflexivity|].
  split; [exact (proj1 (hs_keys _ _ _ _ _ HH _ _) c127_reg)|]. exact (proj1 (hs_parts _ _ _ _ _ HH _ _) (c127_part rfc9591)).
Qed.
(** the signer that follows the standard is named; with the library's profile the session succeeds *)
Example C127_ex_outcome :
  outcome (snd (c127_run rfc9591)) = Err (MisbehavingParticipants [u 3]) /\ is_ok (outcome (snd (c127_run this_library))) = true.
Proof. vms. Qed.
Example C127_ex_sign :
  fst (sign Debug (skey 3) shash sgroup (snonces 3) 0 [ssigner 1 0; ssigner 3 0]) = Ok (@MkPSig Toy (sk_index (skey 3)) (c127_sig this_library)) /\
  nth_error (sl_commitments (snonces 3)) (N.to_nat 0) = Some (spair 3 0) /\
  same_sig (fst (sign Debug (skey 3) shash sgroup (snonces 3) 0 [ssigner 1 0; ssigner 3 0])) (Ok (@MkPSig Toy (u 3) (c127_sig rfc9591))) = false.
Proof. vms. Qed.
(** a group that follows the standard alone, with the keys of C43_ex_recovers *)
Definition c127_qs : list (SigningKey * F * F) := [(skey 3, mk 11, mk 12); (skey 1, mk 13, mk 14)].
Definition c127_group_sig (pf : profile) : G * F :=
  let cl := map (fun '(k, d, e) => (sk_index k, (@gen Toy * d)%G, (@gen Toy * e)%G)) c127_qs in
  rfc_aggregate pf sgroup cl shash (map (fun '(k, d, e) =>
    match rfc_sign pf (sk_index k) (sk_key k) sgroup d e shash cl with Some z => z | None => mk 0 end) c127_qs).
Example C127_ex_any_profile_hypotheses :
  recovers 2 (mk 1000) [skey 1; skey 2; skey 3] /\ 2 <= length c127_qs /\ (forall k d e, In (k, d, e) c127_qs -> In k [skey 1; skey 2; skey 3]) /\
  NoDup (map (fun q => sk_index (fst (fst q))) c127_qs).
Proof.
  split; [exact C43_ex_recovers|]. split; [apply le_n|]. split; [|unfold c127_qs; nodup].
  intros k d e [E|[E|[]]]; injection E as <- <- <-; [right; right; left|left]; reflexivity.
Qed.
Example C127_ex_any_profile :
  (let (R, z) := c127_group_sig rfc9591 in (rfc_verify rfc9591 shash R z sgroup, is_ok (verify_signature sgroup (MkTSig R z) shash))) = (true, false) /\
  (let (R, z) := c127_group_sig this_library in (rfc_verify rfc9591 shash R z sgroup, is_ok (verify_signature sgroup (MkTSig R z) shash))) = (false, true).
Proof. vms. Qed.

Lemma two_bools (a b c d : bool) : (a, b) = (c, d) -> a = c /\ b = d.
Proof. intros E. injection E as -> ->. split; reflexivity. Qed.
Lemma is_ok_unit {S : Suite} (x : result unit) : is_ok x = true -> x = Ok tt.
Proof. destruct x as [[]|?|]; [reflexivity|discriminate|discriminate]. Qed.

(** signatures of the library are not signatures of the standard, nor the other way round *)
Theorem C127_signatures_are_rfc_signatures_refuted :
  ~ (forall (S : Suite) (L : SuiteLaws S) (gk : G) (R : G) (z : F) (h : list byte),
       verify_signature gk (MkTSig R z) h = Ok tt -> rfc_verify rfc9591 h R z gk = true) /\
  ~ (forall (S : Suite) (L : SuiteLaws S) (gk : G) (R : G) (z : F) (h : list byte),
       rfc_verify rfc9591 h R z gk = true -> verify_signature gk (MkTSig R z) h = Ok tt).
Proof.
  destruct C127_ex_any_profile as [A B]. split; intros H.
  - specialize (H Toy ToyLaws sgroup (fst (c127_group_sig this_library)) (snd (c127_group_sig this_library)) shash).
    destruct (c127_group_sig this_library) as [R z]. cbn [fst snd] in H. apply two_bools in B. destruct B as [B1 B2].
    apply is_ok_unit in B2. specialize (H B2). rewrite H in B1. discriminate B1.
  - specialize (H Toy ToyLaws sgroup (fst (c127_group_sig rfc9591)) (snd (c127_group_sig rfc9591)) shash).
    destruct (c127_group_sig rfc9591) as [R z]. cbn [fst snd] in H. apply two_bools in A. destruct A as [A1 A2].
    specialize (H A1). rewrite H in A2. discriminate A2.
Qed.
Print Assumptions C127_signatures_are_rfc_signatures_refuted.
