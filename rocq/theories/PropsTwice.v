(** C99: binding factors do not depend on the group key. *)
From Coq Require Import String Strings.Byte Arith NArith ZArith Bool List Permutation Sorted Lia Field.
From Verif Require Import Base Suite Spec SpecDkg SpecSign Types ModelDkg ModelSign Algebra BaseLemmas LemmasShare
  LemmasFinish LemmasSign LemmasAgg Toy Demo DemoSign PropsSign.
Import ListNotations.

Section Lem.
  Context {S : Suite} {L : SuiteLaws S}.
  Add Field F_fld : F_field.
  Lemma two_equations (a w c1 c2 x : F) : (w * (c1 - c2))%F <> F0 ->
    x = (((a + w * x * c1) - (a + w * x * c2)) * Finv (w * (c1 - c2)))%F.
  Proof.
    intros H. assert (Hw : w <> F0) by (intros ->; apply H; ring).
    assert (Hc : (c1 - c2)%F <> F0) by (intros X; apply H; rewrite X; ring).
    field. split; assumption.
  Qed.
  Lemma two_unknowns (b1 b2 z1 z2 v1 v2 : F) : b1 <> b2 ->
    let e := ((z1 - v1 - (z2 - v2)) * Finv (b1 - b2))%F in
    let d := (z1 - v1 - e * b1)%F in
    (d + e * b1 + v1 = z1)%F /\ (d + e * b2 + v2 = z2)%F.
  Proof.
    intros H. cbv zeta. assert (H' : (b1 - b2)%F <> F0).
    { intros X. apply H. replace b1 with ((b1 - b2) + b2)%F by ring. rewrite X. ring. }
    split; field; exact H'.
  Qed.
  Lemma sign_value m k h gk l i ss p cs : fst (sign m k h gk l i ss) = Ok p -> nth_error (sl_commitments l) (N.to_nat i) = Some cs ->
    p = MkPSig (sk_index k) (partial_value h gk ss (sk_index k) (co_secret (cs_hiding cs)) (co_secret (cs_binding cs)) (sk_key k)).
  Proof.
    intros H Hc. destruct (sign m k h gk l i ss) as [o l'] eqn:E. cbn in H. subst o.
    apply sign_ok_inv in E. destruct E as [cs' [E1 [_ [_ [-> _]]]]]. assert (cs' = cs) by congruence. subst. reflexivity.
  Qed.
End Lem.

(** one pair used for the same message and signers under two group keys: two signatures give the signing key. Neither the
    binding factor nor the nonce commitment of the group depends on the group key, only the challenge does *)
Theorem C99_two_group_keys_reveal_the_key :
  forall (S : Suite) (L : SuiteLaws S) (m : build) (k : SigningKey) (cs : CommitmentShare) (h : list byte) (g1 g2 : G)
    (l1 l2 : SecretList) (i1 i2 : N) (ss : list Signer) p1 p2,
    fst (sign m k h g1 l1 i1 ss) = Ok p1 -> nth_error (sl_commitments l1) (N.to_nat i1) = Some cs ->
    fst (sign m k h g2 l2 i2 ss) = Ok p2 -> nth_error (sl_commitments l2) (N.to_nat i2) = Some cs ->
    let R := group_nonce h ss in
    let w := (weight (sk_index k) (map sg_index ss) * (chal R g1 h - chal R g2 h))%F in
    w <> F0 -> sk_key k = ((ps_z p1 - ps_z p2) * Finv w)%F.
Proof.
  intros S L m k cs h g1 g2 l1 l2 i1 i2 ss p1 p2 H1 N1 H2 N2. cbv zeta. intros Hw.
  rewrite (sign_value _ _ _ _ _ _ _ _ _ H1 N1), (sign_value _ _ _ _ _ _ _ _ _ H2 N2). cbn [ps_z].
  unfold partial_value, session_chal. apply two_equations. exact Hw.
Qed.
Print Assumptions C99_two_group_keys_reveal_the_key.

(** with different binding factors (another message or other signers) two uses of a pair still fit every signing key; the
    third one reveals it (C41) *)
Theorem C99_two_binding_factors_fit_every_key :
  forall (S : Suite) (L : SuiteLaws S) (m : build) (k : SigningKey) (cs : CommitmentShare) (h1 h2 : list byte) (g1 g2 : G)
    (l1 l2 : SecretList) (i1 i2 : N) (ss1 ss2 : list Signer) p1 p2,
    fst (sign m k h1 g1 l1 i1 ss1) = Ok p1 -> nth_error (sl_commitments l1) (N.to_nat i1) = Some cs ->
    fst (sign m k h2 g2 l2 i2 ss2) = Ok p2 -> nth_error (sl_commitments l2) (N.to_nat i2) = Some cs ->
    binding h1 ss1 (sk_index k) <> binding h2 ss2 (sk_index k) ->
    forall x : F, exists d e,
      let k' := MkSK (sk_index k) x in
      let c' := MkCS (MkCom d (gen * d)%G) (MkCom e (gen * e)%G) in
      fst (sign m k' h1 g1 (MkSecList [c']) 0 ss1) = Ok p1 /\ fst (sign m k' h2 g2 (MkSecList [c']) 0 ss2) = Ok p2.
Proof.
  intros S L m k cs h1 h2 g1 g2 l1 l2 i1 i2 ss1 ss2 p1 p2 H1 N1 H2 N2 Hb x.
  set (i := sk_index k) in *.
  set (v1 := (weight i (map sg_index ss1) * x * session_chal h1 g1 ss1)%F).
  set (v2 := (weight i (map sg_index ss2) * x * session_chal h2 g2 ss2)%F).
  pose proof (two_unknowns (binding h1 ss1 i) (binding h2 ss2 i) (ps_z p1) (ps_z p2) v1 v2 Hb) as K. cbv zeta in K.
  set (e := ((ps_z p1 - v1 - (ps_z p2 - v2)) * Finv (binding h1 ss1 i - binding h2 ss2 i))%F) in *.
  set (d := (ps_z p1 - v1 - e * binding h1 ss1 i)%F) in *. destruct K as [K1 K2].
  exists d, e. cbv zeta.
  assert (A : forall h g l idx ss p, fst (sign m k h g l idx ss) = Ok p ->
    (d + e * binding h ss i + weight i (map sg_index ss) * x * session_chal h g ss)%F = ps_z p -> ps_index p = i ->
    fst (sign m (MkSK i x) h g (MkSecList [MkCS (MkCom d (gen * d)%G) (MkCom e (gen * e)%G)]) 0 ss) = Ok p).
  { intros h g l idx ss p Hs E Ei. destruct (sign m k h g l idx ss) as [o l'] eqn:X. cbn in Hs. subst o.
    apply sign_ok_inv in X. destruct X as [c0 [_ [X1 [X2 _]]]].
    rewrite (sign_succeeds m (MkSK i x) h g _ 0 ss (MkCS (MkCom d (gen * d)%G) (MkCom e (gen * e)%G))); [|cbn; lia|reflexivity|exact X1|exact X2].
    cbn [fst sk_index sk_key cs_hiding cs_binding co_secret]. unfold partial_value. rewrite E, <- Ei. destruct p. reflexivity. }
  split.
  - apply (A _ _ _ _ _ _ H1 K1). rewrite (sign_value _ _ _ _ _ _ _ _ _ H1 N1). reflexivity.
  - apply (A _ _ _ _ _ _ H2 K2). rewrite (sign_value _ _ _ _ _ _ _ _ _ H2 N2). reflexivity.
Qed.
Print Assumptions C99_two_binding_factors_fit_every_key.

(** a restored list used for one message under two group keys; and for two messages under one *)
Example C99_ex :
  let ss := [ssigner 1 0; ssigner 3 0] in
  let other := (toy_gen * mk 2024)%G in
  let z g h := match fst (sign Debug (skey 1) h g (snonces 1) 0 ss) with Ok p => ps_z p | _ => mk 0 end in
  let R := group_nonce shash ss in
  let w := (weight (u 1) [u 1; u 3] * (chal R sgroup shash - chal R other shash))%F in
  Feqb w (mk 0) = false /\ ((z sgroup shash - z other shash) * Finv w)%F = mk 1077 /\
  Feqb (binding shash ss (u 1)) (binding [x01] ss (u 1)) = false /\
  is_ok (fst (sign Debug (skey 1) [x01] sgroup (snonces 1) 0 ss)) = true.
Proof. vms. Qed.
