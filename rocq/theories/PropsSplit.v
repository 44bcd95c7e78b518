(** C121: a dealer that publishes different commitments to different participants. *)
From Coq Require Import String Strings.Byte Arith NArith ZArith Bool List Lia Permutation Field.
From Verif Require Import Base Suite Spec SpecDkg SpecSign SpecRobust SpecEnd Types Algebra BaseLemmas ModelDkg ModelSign
  LemmasShare LemmasRound1 LemmasRound2 LemmasFinish LemmasBlame LemmasSign LemmasAgg Toy Demo DemoDkg DemoSign
  PropsRound1 PropsRound2 PropsFinish PropsBlame PropsReshare PropsSign PropsAgg PropsRobust PropsView PropsEnd PropsReflect PropsLeak PropsAttack
  PropsSteer PropsMix.
Import ListNotations.

Section Split.
  Context {S : Suite} {L : SuiteLaws S}.
  Add Field F_fld : F_field.

  (** a participant that follows the protocol with the list ps, has nothing to complain about and finishes *)
  Definition undisturbed (m : build) (params : Params) (ps : list Participant) (h : Follower) (out : G * SigningKey) : Prop :=
    takes_part m params ps h /\ h_cs h = [] /\ finish (h_s2 h) = Ok out.

  Lemma without_none {V} (P : u32 -> Prop) (c c' : bmap V) : (forall j, ~ P j) -> without P c c' -> c' = c.
  Proof. intros H W. induction W; [reflexivity|destruct (H k); assumption|f_equal; assumption]. Qed.

  Lemma calm_ends m params ps h : good_indices (map pt_index ps) -> takes_part m params ps h -> h_cs h = [] ->
    exists comms sk, ds_comms (h_st h) = Some comms /\ finish (h_s2 h) = Ok (dealt_point comms F0, sk) /\
      sk_index sk = ds_index (h_st h) /\ (gen * sk_key sk)%G = dealt_point comms (of_u32 (sk_index sk)).
  Proof.
    intros Hg HT Hcs. destruct (begins_view m params ps h Hg (tp_begins _ _ _ _ HT)) as (comms & C1 & C2 & C3 & C4 & C5 & C6 & C7).
    destruct HT as [B M A R]. destruct h as [st es r s2 cs r' ss]. cbn [h_st h_es h_r h_s2 h_cs h_r' h_settles] in *. subst cs.
    set (h := MkFollower st es r s2 [] r' []).
    assert (HF : follows m (ds_params st) (ds_dhs st) comms h).
    { constructor; cbn [h h_st h_es h_r h_s2 h_cs h_r' h_settles]; auto.
      - intros e He. split; [apply M, He|].
        destruct (to_round_two_inv m st comms es r _ _ _ C1 (proj1 C2) R) as (FA & _).
        rewrite Forall_forall in FA. destruct (FA e He) as (_ & pk & Hpk). apply (C5 _ _ Hpk).
      - intros j Hj. apply C4 in Hj. destruct Hj as (y & Y1 & Y2 & <-). apply A; assumption. }
    destruct (follower_ends L m (ds_params st) (ds_dhs st) comms h C2) as (keys & comms' & sk & (s3 & E1 & E2 & E3 & E4) & W & _ & E5); auto.
    { intros c []. }
    { intros j c Hj X. apply C3 in Hj. rewrite X in Hj. cbn in Hj. lia. }
    cbn [h h_st h_s2 h_settles] in *.
    assert (comms' = comms).
    { apply (without_none _ _ _ (fun j (X : convicted st [] j) => match X with ex_intro _ _ (conj F _) => F end) W). }
    subst comms'. cbn in E1. destruct s2 as [st2']. injection E1 as _ <-. exists comms, sk. auto.
  Qed.

  Lemma undisturbed_key m params ps h gk sk : good_indices (map pt_index ps) -> undisturbed m params ps h (gk, sk) ->
    exists comms, ds_comms (h_st h) = Some comms /\ gk = dealt_point comms F0 /\
      sk_index sk = ds_index (h_st h) /\ (gen * sk_key sk)%G = dealt_point comms (of_u32 (sk_index sk)).
  Proof.
    intros Hg (HT & Hcs & HF). destruct (calm_ends m params ps h Hg HT Hcs) as (comms & sk' & A & B & C & D).
    rewrite HF in B. injection B as -> ->. eauto 6.
  Qed.

  (** the commitments recorded by a follower of a list *)
  Lemma view_of m params ps h comms : good_indices (map pt_index ps) -> begins m params ps h -> ds_comms (h_st h) = Some comms ->
    good_indices (bkeys comms) /\ (forall j c, In (j, c) comms -> length (vss_points c) <= N.to_nat (u32v (p_t params))) /\
    forall j c, In (j, c) comms <-> exists p, In p ps /\ ok_bootstrap (p_t params) p /\ pt_index p = j /\ pt_comm p = Some c.
  Proof.
    intros [Hnd H0] (x & my & co & ps' & r & l & q & HP & E) HC.
    assert (Hg' : good_indices (map pt_index ps')).
    { split; [eapply Permutation_NoDup; [apply Permutation_map, HP|exact Hnd]|].
      intros Z. apply H0. eapply Permutation_in; [apply Permutation_map, Permutation_sym, HP|exact Z]. }
    destruct (C62_view_is_usable S L m params x my co ps' r q (h_st h) l Hg' E) as (comms0 & A1 & A2 & A3 & A4 & A5).
    rewrite HC in A1. injection A1 as <-. split; [exact A2|]. split.
    { intros j c Hj. apply in_bget in Hj; [|apply A2]. apply A3 in Hj. lia. }
    assert (Hps : forall p, In p ps' <-> In p ps).
    { intros p. split; apply Permutation_in; [apply Permutation_sym|]; exact HP. }
    intros j c. split.
    - intros Hj. apply in_bget in Hj; [|apply A2]. destruct (proj1 (A4 j)) as (p & P1 & P2 & P3); [eapply bget_some_key, Hj|].
      exists p. split; [apply Hps, P1|]. split; [exact P2|]. split; [exact P3|]. apply (A5 p c P1 P2). rewrite P3. exact Hj.
    - intros (p & P1 & P2 & <- & P4). apply bget_in. apply (A5 p c); auto. apply Hps, P1.
  Qed.

  (** the views of the two camps *)
  Lemma camps m params d d' os h h' comms comms' c c' :
    good_indices (map pt_index (d :: os)) -> pt_index d' = pt_index d ->
    ok_bootstrap (p_t params) d -> ok_bootstrap (p_t params) d' -> pt_comm d = Some c -> pt_comm d' = Some c' ->
    begins m params (d :: os) h -> begins m params (d' :: os) h' ->
    ds_comms (h_st h) = Some comms -> ds_comms (h_st h') = Some comms' ->
    exists rest, ~ In u32_zero (bkeys ((pt_index d, c) :: rest)) /\
      Permutation comms ((pt_index d, c) :: rest) /\ Permutation comms' ((pt_index d, c') :: rest).
  Proof.
    intros Hg Hi Hok Hok' Hc Hc' B B' V V'.
    assert (Hg' : good_indices (map pt_index (d' :: os))) by (cbn [map]; rewrite Hi; exact Hg).
    destruct (view_of m params _ h comms Hg B V) as (A1 & _ & A3).
    destruct (view_of m params _ h' comms' Hg' B' V') as (A1' & _ & A3').
    assert (Hd : forall p, In p os -> pt_index p <> pt_index d).
    { intros p Hp E. destruct Hg as [N _]. cbn [map] in N. apply NoDup_cons_iff in N. apply (proj1 N). rewrite <- E. apply in_map, Hp. }
    exists (filter (fun jc => negb (u32_eqb (fst jc) (pt_index d))) comms).
    assert (Hrest : forall j c0, In (j, c0) (filter (fun jc => negb (u32_eqb (fst jc) (pt_index d))) comms) <->
      exists p, In p os /\ ok_bootstrap (p_t params) p /\ pt_index p = j /\ pt_comm p = Some c0).
    { intros j c0. rewrite filter_In, A3. cbn [fst]. rewrite Bool.negb_true_iff, u32_eqb_neq. split.
      - intros [(p & [<-|P1] & P2 & P3 & P4) N]; [destruct (N (eq_sym P3))|]. exists p. auto.
      - intros (p & P1 & P2 & P3 & P4). split; [exists p; cbn; auto|]. rewrite <- P3. apply Hd, P1. }
    set (rest := filter _ comms) in *.
    assert (Nr : NoDup (bkeys rest)).
    { destruct A1 as [N _]. unfold rest, bkeys. clear -N. unfold bkeys in N. induction comms as [|[j v] l IH]; cbn [filter map fst] in *; [constructor|].
      apply NoDup_cons_iff in N. destruct N as [N1 N2]. destruct (negb _); cbn [map fst]; auto. constructor; auto.
      intros X. apply N1. apply in_map_iff in X. destruct X as (y & E & Hy). apply filter_In in Hy. rewrite <- E. apply in_map, Hy. }
    assert (Nd : ~ In (pt_index d) (bkeys rest)).
    { intros X. unfold bkeys in X. apply in_map_iff in X. destruct X as ([j v] & E & Hy). unfold rest in Hy. apply filter_In in Hy. cbn [fst] in *. subst j.
      rewrite u32_eqb_refl in Hy. destruct Hy as [_ Hy]. discriminate Hy. }
    assert (Np : forall v, NoDup ((pt_index d, v) :: rest)).
    { intros v. apply (NoDup_map_inv fst). cbn [map fst]. constructor; [exact Nd|exact Nr]. }
    split.
    { intros X. cbn [bkeys map fst] in X. destruct X as [X|X].
      - destruct Hg as [_ Z]. apply Z. left. exact X.
      - apply (proj2 A1). unfold bkeys in *. apply in_map_iff in X. destruct X as (y & E & Hy). apply filter_In in Hy. rewrite <- E. apply in_map, Hy. }
    split; apply NoDup_Permutation; auto.
    - apply (NoDup_map_inv fst), A1.
    - intros [j v]. rewrite A3. cbn [In]. rewrite Hrest. split.
      + intros (p & [<-|P1] & P2 & P3 & P4); [left; rewrite Hc in P4; injection P4 as <-; rewrite P3; reflexivity|right; eauto].
      + intros [[= <- <-]|(p & P1 & P2)]; [exists d; auto|exists p; auto].
    - apply (NoDup_map_inv fst), A1'.
    - intros [j v]. rewrite A3'. cbn [In]. rewrite Hrest. split.
      + intros (p & [<-|P1] & P2 & P3 & P4); [left; rewrite Hc' in P4; injection P4 as <-; rewrite <- P3, Hi; reflexivity|right; eauto].
      + intros [[= <- <-]|(p & P1 & P2)]; [exists d'; auto|exists p; auto].
  Qed.

  Lemma Gmul_cancel (P Q : G) (w : F) : w <> F0 -> (P * w)%G = (Q * w)%G -> P = Q.
  Proof.
    intros Hw E. destruct (gen_span P) as [p ->], (gen_span Q) as [q ->]. rewrite !Gmul_mul in E. apply gen_inj in E. f_equal.
    assert (X : ((p - q) * w = F0)%F) by (transitivity (p * w - q * w)%F; [ring|rewrite E; ring]).
    assert (Y : (p - q = F0)%F).
    { transitivity ((p - q) * w * Finv w)%F; [field; exact Hw|]. rewrite X. ring. }
    apply Fsub_eq_0, Y.
  Qed.

  Lemma dealt_head j c rest comms x : Permutation comms ((j, c) :: rest) ->
    dealt_point comms x = (gpoly_value (vss_points c) x * weight j (j :: bkeys rest) +
      gsum (map (fun jc => gpoly_value (vss_points (snd jc)) x * weight (fst jc) (j :: bkeys rest)) rest))%G.
  Proof.
    intros HP. unfold dealt_point. erewrite ginterp0_perm by (apply Permutation_map, HP). unfold ginterp0. cbn [map fst snd gsum].
    rewrite !map_map. cbn [fst snd]. reflexivity.
  Qed.
  Lemma gpoly_dlog P : exists e, forall x, gpoly_value P x = (gen * e x)%G.
  Proof. destruct (dlog_list P) as [a ->]. exists (poly_value a). intros x. apply gpoly_committed. Qed.
  (** what the second view adds to the first *)
  Lemma dealt_diff j c c' rest comms comms' : Permutation comms ((j, c) :: rest) -> Permutation comms' ((j, c') :: rest) ->
    exists e e', (forall x, gpoly_value (vss_points c) x = (gen * e x)%G) /\ (forall x, gpoly_value (vss_points c') x = (gen * e' x)%G) /\
      forall x y y', dealt_point comms x = (gen * y)%G -> dealt_point comms' x = (gen * y')%G ->
        y' = (y + weight j (j :: bkeys rest) * (e' x - e x))%F.
  Proof.
    intros H H'. destruct (gpoly_dlog (vss_points c)) as [e He]. destruct (gpoly_dlog (vss_points c')) as [e' He'].
    exists e, e'. split; [exact He|]. split; [exact He'|]. intros x y y' Hy Hy'.
    rewrite (dealt_head _ _ _ _ _ H), He in Hy. rewrite (dealt_head _ _ _ _ _ H'), He' in Hy'.
    destruct (gen_span (gsum (map (fun jc => gpoly_value (vss_points (snd jc)) x * weight (fst jc) (j :: bkeys rest)) rest))%G) as [b Eb].
    rewrite Eb, Gmul_mul, <- Gmul_add_r in Hy, Hy'. apply gen_inj in Hy, Hy'. rewrite <- Hy, <- Hy'. ring.
  Qed.

  (** followers of one list record the same commitments *)
  Lemma same_camp m params ps h h0 comms comms0 : good_indices (map pt_index ps) -> begins m params ps h -> begins m params ps h0 ->
    ds_comms (h_st h) = Some comms -> ds_comms (h_st h0) = Some comms0 -> Permutation comms comms0.
  Proof.
    intros Hg B B0 V V0. destruct (view_of m params ps h comms Hg B V) as ([A1 _] & _ & A3).
    destruct (view_of m params ps h0 comms0 Hg B0 V0) as ([C1 _] & _ & C3).
    apply NoDup_Permutation; [apply (NoDup_map_inv fst), A1|apply (NoDup_map_inv fst), C1|]. intros [j c]. rewrite A3, C3. reflexivity.
  Qed.

  Lemma mixed_sum (ksA ksB : list SigningKey) (f : F -> F) (w : F) (e e' : F -> F) :
    (forall k, In k ksA -> sk_key k = f (of_u32 (sk_index k))) ->
    (forall k, In k ksB -> sk_key k = (f (of_u32 (sk_index k)) + w * (e' (of_u32 (sk_index k)) - e (of_u32 (sk_index k))))%F) ->
    let ids := map sk_index (ksA ++ ksB) in
    let part (q : F -> F) := fsum (map (fun k => (q (of_u32 (sk_index k)) * weight (sk_index k) ids)%F) ksB) in
    interp0 (key_points (ksA ++ ksB)) =
      (interp0 (map (fun i => (i, f (of_u32 i))) ids) + w * (part e' - part e))%F.
  Proof.
    intros HA HB ids part.
    assert (X : forall l1 l2, fsum (l1 ++ l2) = (fsum l1 + fsum l2)%F).
    { intros l1 l2. induction l1 as [|x l1 IH]; cbn [app fsum]; [ring|]. rewrite IH. ring. }
    assert (E1 : interp0 (key_points (ksA ++ ksB)) = (fsum (map (fun k => sk_key k * weight (sk_index k) ids) ksA) +
      fsum (map (fun k => sk_key k * weight (sk_index k) ids) ksB))%F).
    { unfold interp0, key_points. rewrite !map_map. cbn [fst snd]. fold ids. rewrite map_app, X. reflexivity. }
    assert (E2 : interp0 (map (fun i => (i, f (of_u32 i))) ids) =
      (fsum (map (fun k => f (of_u32 (sk_index k)) * weight (sk_index k) ids) ksA) +
       fsum (map (fun k => f (of_u32 (sk_index k)) * weight (sk_index k) ids) ksB))%F).
    { unfold interp0. rewrite !map_map. cbn [fst snd]. rewrite map_id. unfold ids at 2. rewrite map_map, map_app, X. reflexivity. }
    rewrite E1, E2.
    assert (EA : map (fun k => (sk_key k * weight (sk_index k) ids)%F) ksA = map (fun k => (f (of_u32 (sk_index k)) * weight (sk_index k) ids)%F) ksA).
    { apply map_ext_in. intros k Hk. rewrite (HA k Hk). reflexivity. }
    assert (EB : fsum (map (fun k => (sk_key k * weight (sk_index k) ids)%F) ksB) =
      (fsum (map (fun k => f (of_u32 (sk_index k)) * weight (sk_index k) ids) ksB) + w * (part e' - part e))%F).
    { unfold part. clear -HB L. generalize ids. intros l. induction ksB as [|k ks IH]; cbn [map fsum]; [ring|].
      rewrite IH by (intros k' Hk'; apply HB; right; exact Hk'). rewrite (HB k (or_introl eq_refl)). ring. }
    rewrite EA, EB. ring.
  Qed.
  Lemma Gadd_cancel_r (P Q R : G) : (P + R)%G = (Q + R)%G -> P = Q.
  Proof.
    destruct (gen_span P) as [p ->], (gen_span Q) as [q ->], (gen_span R) as [r ->]. rewrite <- !Gmul_add_r. intros E.
    apply gen_inj in E. f_equal. transitivity ((p + r) - r)%F; [ring|]. rewrite E. ring.
  Qed.
  Lemma scaled_zero w y a' a : w <> F0 -> (y + w * (a' - a) = y)%F -> a' = a.
  Proof.
    intros Hw E. transitivity (a + (y + w * (a' - a) - y) * Finv w)%F; [field; exact Hw|]. rewrite E. ring.
  Qed.
  Lemma cancel_same w y a : (y + w * (a - a) = y)%F.
  Proof. ring. Qed.
End Split.

(** the proof of knowledge covers the first point only: the others can be exchanged, and the same proofs pass *)
Theorem C121_the_proofs_cover_the_first_point_only :
  forall (S : Suite) (L : SuiteLaws S) (t : u32) (d : Participant) (c : Vss) (P : G) (rest rest' : list G) (k : u32),
  pt_comm d = Some c -> vss_points c = P :: rest -> length rest' = length rest ->
  ok_bootstrap t (MkPart (pt_index d) (pt_dh_pk d) (Some (MkVss k (P :: rest'))) (pt_sk_proof d) (pt_dh_proof d)) <-> ok_bootstrap t d.
Proof.
  intros S L t d c P rest rest' k Hc HP Hl. unfold ok_bootstrap, dh_proof_ok, key_proof_ok, commitment_length. cbn [pt_index pt_dh_pk pt_comm pt_sk_proof pt_dh_proof].
  split; intros (A & (c0 & P0 & r0 & pr & B1 & B2 & B3) & (c1 & D1 & D2)); (split; [exact A|]); split.
  - injection B1 as <-. cbn [vss_points] in B2. injection B2 as <- <-. exists c, P, rest, pr. auto.
  - injection D1 as <-. exists c. split; [exact Hc|]. rewrite HP. cbn [vss_points length] in *. rewrite <- Hl. exact D2.
  - rewrite Hc in B1. injection B1 as <-. rewrite HP in B2. injection B2 as <- <-. exists (MkVss k (P :: rest')), P, rest', pr. auto.
  - rewrite Hc in D1. injection D1 as <-. rewrite HP in D2. exists (MkVss k (P :: rest')). split; [reflexivity|].
    cbn [vss_points length] in *. rewrite Hl. exact D2.
Qed.
Print Assumptions C121_the_proofs_cover_the_first_point_only.

(** two camps: some participants received the entry d, others the entry d' of the same index. Whoever has no complaint
    finishes, and the camps agree on the group key exactly if d and d' have the same public key *)
Theorem C121_camps_agree_on_the_group_key_iff_the_public_key_is_the_same :
  forall (S : Suite) (L : SuiteLaws S) (m : build) (params : Params) (d d' : Participant) (os : list Participant) (h h' : Follower),
  good_indices (map pt_index (d :: os)) -> pt_index d' = pt_index d ->
  ok_bootstrap (p_t params) d -> ok_bootstrap (p_t params) d' ->
  takes_part m params (d :: os) h -> h_cs h = [] -> takes_part m params (d' :: os) h' -> h_cs h' = [] ->
  exists gk sk gk' sk', finish (h_s2 h) = Ok (gk, sk) /\ finish (h_s2 h') = Ok (gk', sk') /\
    sk_index sk = ds_index (h_st h) /\ sk_index sk' = ds_index (h_st h') /\
    (gk = gk' <-> part_public_key d = part_public_key d').
Proof.
  intros S L m params d d' os h h' Hg Hi Hok Hok' HT Hcs HT' Hcs'.
  assert (Hg' : good_indices (map pt_index (d' :: os))) by (cbn [map]; rewrite Hi; exact Hg).
  destruct (calm_ends m params _ h Hg HT Hcs) as (comms & sk & A1 & A2 & A3 & _).
  destruct (calm_ends m params _ h' Hg' HT' Hcs') as (comms' & sk' & B1 & B2 & B3 & _).
  assert (Hc := Hok). destruct Hc as (_ & (c & P & rs & pr & C1 & C2 & _) & _).
  assert (Hc := Hok'). destruct Hc as (_ & (c' & P' & rs' & pr' & C1' & C2' & _) & _).
  destruct (camps m params d d' os h h' comms comms' c c' Hg Hi Hok Hok' C1 C1' (tp_begins _ _ _ _ HT) (tp_begins _ _ _ _ HT') A1 B1)
    as (rest & Hz & HP & HP').
  exists (dealt_point comms F0), sk, (dealt_point comms' F0), sk'. do 4 (split; [assumption|]).
  rewrite (dealt_head _ _ _ _ _ HP), (dealt_head _ _ _ _ _ HP'), !gpoly_at_0, C2, C2'. cbn [hd_error].
  unfold part_public_key. rewrite C1, C1'. unfold vss_public_key. rewrite C2, C2'. cbn [hd_error]. split.
  - intros E. f_equal. apply (Gmul_cancel P P' (weight (pt_index d) (pt_index d :: bkeys rest))); [apply weight_neq_0; exact Hz|].
    eapply Gadd_cancel_r. exact E.
  - intros [= ->]. reflexivity.
Qed.
Print Assumptions C121_camps_agree_on_the_group_key_iff_the_public_key_is_the_same.

(** the keys of both camps together give the group key of the first camp only if the two commitments give the keys of the
    second camp the same combined share; for a single key of the second camp: the same share *)
Theorem C121_keys_of_both_camps :
  forall (S : Suite) (L : SuiteLaws S) (m : build) (params : Params) (d d' : Participant) (os : list Participant) (c c' : Vss)
    (h0 : Follower) (gk : G) (sk0 : SigningKey) (ksA ksB : list SigningKey),
  good_indices (map pt_index (d :: os)) -> pt_index d' = pt_index d ->
  ok_bootstrap (p_t params) d -> ok_bootstrap (p_t params) d' -> pt_comm d = Some c -> pt_comm d' = Some c' ->
  undisturbed m params (d :: os) h0 (gk, sk0) ->
  (forall k, In k ksA -> exists h g, undisturbed m params (d :: os) h (g, k)) ->
  (forall k, In k ksB -> exists h g, undisturbed m params (d' :: os) h (g, k)) ->
  NoDup (map sk_index (ksA ++ ksB)) -> (u32v (p_t params) <= N.of_nat (length (ksA ++ ksB)))%N ->
  let ids := map sk_index (ksA ++ ksB) in
  let combined (v : Vss) := gsum (map (fun k => (gpoly_value (vss_points v) (of_u32 (sk_index k)) * weight (sk_index k) ids)%G) ksB) in
  ((gen * interp0 (key_points (ksA ++ ksB)))%G = gk <-> combined c' = combined c) /\
  (forall k, ksB = [k] -> ~ In u32_zero ids ->
     ((gen * interp0 (key_points (ksA ++ ksB)))%G = gk <->
      gpoly_value (vss_points c') (of_u32 (sk_index k)) = gpoly_value (vss_points c) (of_u32 (sk_index k)))).
Proof.
  intros S L m params d d' os c c' h0 gk sk0 ksA ksB Hg Hi Hok Hok' Hc Hc' H0 HA HB Hnd Hl. cbv zeta.
  set (ids := map sk_index (ksA ++ ksB)) in *.
  assert (Hg' : good_indices (map pt_index (d' :: os))) by (cbn [map]; rewrite Hi; exact Hg).
  match goal with |- ?X /\ _ => assert (M : X) end.
  2:{ split; [exact M|]. intros k -> Hz. rewrite M. cbn [map gsum]. split.
      - intros E. apply (Gmul_cancel _ _ (weight (sk_index k) ids)); [apply weight_neq_0; exact Hz|]. eapply Gadd_cancel_r. exact E.
      - intros ->. reflexivity. }
  destruct (undisturbed_key m params _ h0 gk sk0 Hg H0) as (comms & V0 & -> & _ & _).
  destruct (view_of m params _ h0 comms Hg (tp_begins _ _ _ _ (proj1 H0)) V0) as (_ & Hlen & _).
  destruct (dealt_polyfun comms _ Hlen) as (f & Hf & Ef).
  assert (KA : forall k, In k ksA -> sk_key k = f (of_u32 (sk_index k))).
  { intros k Hk. destruct (HA k Hk) as (h & g & Hh). destruct (undisturbed_key m params _ h g k Hg Hh) as (cm & V & _ & _ & E).
    rewrite (dealt_point_perm cm comms) in E.
    2:{ apply (same_camp m params _ h h0 cm comms Hg (tp_begins _ _ _ _ (proj1 Hh)) (tp_begins _ _ _ _ (proj1 H0)) V V0). }
    rewrite Ef in E. apply gen_inj in E. exact E. }
  assert (Ez : interp0 (map (fun i => (i, f (of_u32 i))) ids) = f F0).
  { rewrite (lagrange_zero ids f Hnd).
    - unfold interp0. rewrite !map_map. cbn [fst snd]. rewrite map_id. reflexivity.
    - eapply polyfun_mono; [|exact Hf]. unfold ids. rewrite map_length. lia. }
  destruct ksB as [|k0 ksB0].
  { cbn [map gsum]. split; [reflexivity|]. intros _. rewrite Ef. f_equal. rewrite <- Ez. unfold ids, key_points.
    rewrite map_map, app_nil_r. f_equal. apply map_ext_in. intros k Hk. rewrite (KA k Hk). reflexivity. }
  set (ksB := k0 :: ksB0) in *. assert (Hk0 : In k0 ksB) by (left; reflexivity).
  destruct (HB k0 Hk0) as (h1 & g1 & H1). destruct (undisturbed_key m params _ h1 g1 k0 Hg' H1) as (comms' & V1 & _ & _ & _).
  destruct (camps m params d d' os h0 h1 comms comms' c c' Hg Hi Hok Hok' Hc Hc' (tp_begins _ _ _ _ (proj1 H0)) (tp_begins _ _ _ _ (proj1 H1)) V0 V1)
    as (rest & Hz & HP & HP').
  destruct (dealt_diff _ _ _ _ _ _ HP HP') as (e & e' & He & He' & D).
  set (w := weight (pt_index d) (pt_index d :: bkeys rest)) in *.
  assert (Hw : w <> F0) by (apply weight_neq_0; exact Hz).
  assert (KB : forall k, In k ksB -> sk_key k = (f (of_u32 (sk_index k)) + w * (e' (of_u32 (sk_index k)) - e (of_u32 (sk_index k))))%F).
  { intros k Hk. destruct (HB k Hk) as (h & g & Hh). destruct (undisturbed_key m params _ h g k Hg' Hh) as (cm & V & _ & _ & E).
    rewrite (dealt_point_perm cm comms') in E.
    2:{ apply (same_camp m params _ h h1 cm comms' Hg' (tp_begins _ _ _ _ (proj1 Hh)) (tp_begins _ _ _ _ (proj1 H1)) V V1). }
    apply (D _ _ _ (Ef _) (eq_sym E)). }
  pose proof (mixed_sum ksA ksB f w e e' KA KB) as X. cbv zeta in X. fold ids in X. rewrite X, Ez, Ef. clear X.
  assert (C : forall v q, (forall x, gpoly_value (vss_points v) x = (gen * q x)%G) ->
    gsum (map (fun k => (gpoly_value (vss_points v) (of_u32 (sk_index k)) * weight (sk_index k) ids)%G) ksB) =
    (gen * fsum (map (fun k => q (of_u32 (sk_index k)) * weight (sk_index k) ids)%F ksB))%G).
  { intros v q Hq. rewrite <- gsum_gen. f_equal. apply map_ext. intros k. rewrite Hq, Gmul_mul. reflexivity. }
  rewrite (C c' e' He'), (C c e He).
  set (a' := fsum (map (fun k => (e' (of_u32 (sk_index k)) * weight (sk_index k) ids)%F) ksB)).
  set (a := fsum (map (fun k => (e (of_u32 (sk_index k)) * weight (sk_index k) ids)%F) ksB)).
  split; intros E.
  - f_equal. apply gen_inj in E. apply (scaled_zero w _ _ _ Hw) in E. exact E.
  - apply gen_inj in E. rewrite E. f_equal. apply cancel_same.
Qed.
Print Assumptions C121_keys_of_both_camps.

(** if signers of both camps sign with these keys and announce their verifying keys truthfully, aggregation fails and names nobody *)
Theorem C121_signing_fails_and_names_nobody :
  forall (S : Suite) (L : SuiteLaws S) (m : build) (params : Params) (d d' : Participant) (os : list Participant) (c c' : Vss)
    (h0 : Follower) (s : F) (sk0 : SigningKey) (ksA ksB : list SigningKey) (p : Params) (msg : list byte) tr a (x : u32 -> F),
  good_indices (map pt_index (d :: os)) -> pt_index d' = pt_index d ->
  ok_bootstrap (p_t params) d -> ok_bootstrap (p_t params) d' -> pt_comm d = Some c -> pt_comm d' = Some c' ->
  undisturbed m params (d :: os) h0 ((gen * s)%G, sk0) ->
  (forall k, In k ksA -> exists h g, undisturbed m params (d :: os) h (g, k)) ->
  (forall k, In k ksB -> exists h g, undisturbed m params (d' :: os) h (g, k)) ->
  good_indices (map sk_index (ksA ++ ksB)) -> (1 <= u32v (p_t params) <= N.of_nat (length (ksA ++ ksB)))%N ->
  agg_run (agg_new p (gen * s)%G msg) tr a ->
  let ss := ag_signers (ai_state a) in let ids := map sg_index ss in
  Permutation ids (map sk_index (ksA ++ ksB)) -> (forall k, In k (ksA ++ ksB) -> x (sk_index k) = sk_key k) ->
  (forall i, In i ids -> took_part m (gen * s)%G msg tr a x x i) -> session_chal (h4 msg) (gen * s)%G ss <> F0 ->
  let combined (v : Vss) := gsum (map (fun k => (gpoly_value (vss_points v) (of_u32 (sk_index k)) *
    weight (sk_index k) (map sk_index (ksA ++ ksB)))%G) ksB) in
  (combined c' = combined c -> exists sig, outcome a = Ok sig /\ verify_signature (gen * s)%G sig (h4 msg) = Ok tt) /\
  (combined c' <> combined c -> outcome a = Err (MisbehavingParticipants [])).
Proof.
  intros S L m params d d' os c c' h0 s sk0 ksA ksB p msg tr a x Hg Hi Hok Hok' Hc Hc' H0 HA HB [Hnd Hz] [Ht1 Hl] HR ss ids HP Hx HT Hch combined.
  destruct (C121_keys_of_both_camps S L m params d d' os c c' h0 _ sk0 ksA ksB Hg Hi Hok Hok' Hc Hc' H0 HA HB Hnd Hl) as [M _].
  fold (combined c) in M. fold (combined c') in M. clearbody combined.
  assert (Hz' : ~ In u32_zero ids) by (intros X; apply Hz; eapply Permutation_in; [exact HP|exact X]).
  assert (Hne : ids <> []).
  { intros E. rewrite E in HP. apply Permutation_nil in HP. apply map_eq_nil in HP. rewrite HP in Hl. cbn in Hl. lia. }
  assert (Es : secret_at x ids = interp0 (key_points (ksA ++ ksB))).
  { unfold secret_at. rewrite (interp0_perm _ _ (Permutation_map (fun i => (i, x i)) HP)). unfold key_points. rewrite map_map. f_equal.
    apply map_ext_in. intros k Hk. rewrite (Hx k Hk). reflexivity. }
  destruct (C114_keys_used_decide S L m p s msg tr a x x HR Hne Hz' HT) as [K1 K2]. fold ss ids in K1, K2. rewrite Es in K1, K2. split.
  - intros E. apply K1. left. apply gen_inj, M, E.
  - intros E. rewrite K2.
    + do 2 f_equal. clear -L. induction ids as [|i l IH]; cbn [filter]; [reflexivity|]. rewrite Feqb_refl. exact IH.
    + split; [|exact Hch]. intros X. apply E, M. rewrite X. reflexivity.
Qed.
Print Assumptions C121_signing_fails_and_names_nobody.

(** three participants, threshold two: participant 3 sends another second point to 2 than to 1, and each the fitting share *)
Definition sp_co' : list F := [nth 0 (dealer_co 3 2 3 30) (mk 0); mk 5].
Definition sp_d : Participant := dealer 3 2 3 30.
Definition sp_d' : Participant :=
  @MkPart Toy (u 3) (pt_dh_pk sp_d) (Some (@MkVss Toy (u 3) (committed sp_co'))) (pt_sk_proof sp_d) (pt_dh_proof sp_d).
Definition sp_os : list Participant := [dealer 3 2 1 10; dealer 3 2 2 20].
Definition sp_run (e : Participant) (co : list F) (i : N) : result (RoundOne * PartList * Rng) :=
  bootstrap Debug demo_params (dealer_x 3 2 i (10 * i)) (u i) co (e :: sp_os) (1000 + i)%N.
Definition sp_r1 : RoundOne := state_of (sp_run sp_d (dealer_co 3 2 1 10) 1).
Definition sp_r2 : RoundOne := state_of (sp_run sp_d' (dealer_co 3 2 2 20) 2).
Definition sp_r3 : RoundOne := state_of (sp_run sp_d (dealer_co 3 2 3 30) 3).
Definition sp_r3' : RoundOne := state_of (sp_run sp_d' sp_co' 3).
Definition sp_shares1 : list EncShare := shares_to 1 [sp_r1; sp_r2; sp_r3].
Definition sp_shares2 : list EncShare := shares_to 2 [sp_r1; sp_r2; sp_r3'].
Definition sp_f1 : Follower := follower_of sp_r1 501 sp_shares1 [].
Definition sp_f2 : Follower := follower_of sp_r2 502 sp_shares2 [].
Definition sp_none : @G Toy * @SigningKey Toy := (mk 0, @MkSK Toy (u 0) (mk 0)).
Definition sp_out (h : Follower) : @G Toy * @SigningKey Toy := or_else sp_none (finish (h_s2 h)).
Definition sp_k1 : @SigningKey Toy := snd (sp_out sp_f1).
Definition sp_k2 : @SigningKey Toy := snd (sp_out sp_f2).
Definition sp_secret : @F Toy := interp0 (dealt_values demo_parties (mk 0)).

Lemma ok_else {A} (a : A) (x : result A) : is_ok x = true -> x = Ok (or_else a x).
Proof. destruct x; cbn; [reflexivity|discriminate|discriminate]. Qed.
Lemma sp_undisturbed_1 : undisturbed Debug demo_params (sp_d :: sp_os) sp_f1 (sp_out sp_f1).
Proof.
  split; [|split; [vmr|unfold sp_out; apply ok_else; vmr]]. unfold sp_f1.
  eapply follower_of_takes_part with (ps' := sp_d :: sp_os).
  - assert (X : is_ok (sp_run sp_d (dealer_co 3 2 1 10) 1) = true) by vmr. unfold sp_run in X. exact X.
  - unfold sp_r1, sp_run. reflexivity.
  - vmr.
  - apply Permutation_refl.
  - vmr.
  - vmr.
Qed.
Lemma sp_undisturbed_2 : undisturbed Debug demo_params (sp_d' :: sp_os) sp_f2 (sp_out sp_f2).
Proof.
  split; [|split; [vmr|unfold sp_out; apply ok_else; vmr]]. unfold sp_f2.
  eapply follower_of_takes_part with (ps' := sp_d' :: sp_os).
  - assert (X : is_ok (sp_run sp_d' (dealer_co 3 2 2 20) 2) = true) by vmr. unfold sp_run in X. exact X.
  - unfold sp_r2, sp_run. reflexivity.
  - vmr.
  - apply Permutation_refl.
  - vmr.
  - vmr.
Qed.
Lemma sp_gk : fst (sp_out sp_f1) = (@gen Toy * sp_secret)%G /\ fst (sp_out sp_f2) = (@gen Toy * sp_secret)%G.
Proof. vms. Qed.
Example C121_ex :
  good_indices (map pt_index (sp_d :: sp_os)) /\ pt_index sp_d' = pt_index sp_d /\
  ok_bootstrap (p_t demo_params) sp_d /\ ok_bootstrap (p_t demo_params) sp_d' /\
  undisturbed Debug demo_params (sp_d :: sp_os) sp_f1 ((@gen Toy * sp_secret)%G, sp_k1) /\
  undisturbed Debug demo_params (sp_d' :: sp_os) sp_f2 ((@gen Toy * sp_secret)%G, sp_k2) /\
  good_indices (map sk_index ([sp_k1] ++ [sp_k2])) /\ (1 <= u32v (p_t demo_params) <= N.of_nat (length ([sp_k1] ++ [sp_k2])))%N /\
  Feqb (interp0 (key_points [sp_k1; sp_k2])) sp_secret = false.
Proof.
  split; [good|]. split; [vmr|]. split; [apply okb_bootstrap; vmr|]. split; [apply okb_bootstrap; vmr|].
  destruct sp_gk as [G1 G2]. rewrite <- G1 at 1. rewrite <- G2 at 1. unfold sp_k1, sp_k2. rewrite <- !surjective_pairing.
  split; [exact sp_undisturbed_1|]. split; [exact sp_undisturbed_2|].
  split; [good|]. split; [split; vm_compute; discriminate|]. vmr.
Qed.

(** 1 and 2 sign together *)
Definition sp_gkey : @G Toy := (toy_gen * sp_secret)%G.
Definition sp_key (i : Z) : @SigningKey Toy := if Z.eqb i 1 then sp_k1 else sp_k2.
Definition sp_incs : list ACall := map (fun i => CInc (u (Z.to_N i)) (published (spair i 0)) (to_public (sp_key i))) [1; 2]%Z.
Definition sp_signers : list Signer := ag_signers (ai_state (snd (calls_run (agg_new demo_params sp_gkey [x68]) sp_incs))).
Definition sp_sig (i : Z) : @PartialSig Toy :=
  or_else (A := @PartialSig Toy) (@MkPSig Toy (u 0) (mk 0)) (fst (sign (S := Toy) Debug (sp_key i) (h4 (S := Toy) [x68]) sp_gkey (snonces i) 0 sp_signers)).
Definition sp_session : trace * AggInitial :=
  calls_run (agg_new demo_params sp_gkey [x68]) (sp_incs ++ map (fun i => CPart (sp_sig i)) [1; 2]%Z).
Definition sp_fun (i : u32) : @F Toy := sk_key (sp_key (Z.of_N (u32v i))).
Lemma sp_session_ok : agg_run (agg_new demo_params sp_gkey [x68]) (fst sp_session) (snd sp_session).
Proof. exact (calls_run_ok _ _). Qed.
Lemma sp_ids : map sg_index (ag_signers (ai_state (snd sp_session))) = [u 1; u 2] /\
  map sk_index ([sp_k1] ++ [sp_k2]) = [u 1; u 2] /\ map sp_fun [u 1; u 2] = map sk_key [sp_k1; sp_k2] /\
  Feqb (Suite := Toy) (session_chal (h4 [x68]) sp_gkey (ag_signers (ai_state (snd sp_session)))) (F0 (Suite := Toy)) = false.
Proof. vms. Qed.
Lemma sp_part i : In i [u 1; u 2] -> took_part Debug sp_gkey [x68] (fst sp_session) (snd sp_session) sp_fun sp_fun i.
Proof.
  intros [<-|[<-|[]]].
  - apply (@took_part_check Toy ToyLaws _ _ _ _ _ _ _ _ _ (snonces 1) 0%N (spair 1 0) (sp_sig 1) sp_session_ok); [vmr|vmr| |vmr|vmr].
    apply (nth_error_In _ 0). vmr.
  - apply (@took_part_check Toy ToyLaws _ _ _ _ _ _ _ _ _ (snonces 2) 0%N (spair 2 0) (sp_sig 2) sp_session_ok); [vmr|vmr| |vmr|vmr].
    apply (nth_error_In _ 1). vmr.
Qed.
Example C121_ex_session :
  let a := snd sp_session in let ids := map sg_index (ag_signers (ai_state a)) in
  agg_run (agg_new demo_params (@gen Toy * sp_secret)%G [x68]) (fst sp_session) a /\
  Permutation ids (map sk_index ([sp_k1] ++ [sp_k2])) /\
  (forall i, In i ids -> took_part Debug (@gen Toy * sp_secret)%G [x68] (fst sp_session) a sp_fun sp_fun i) /\
  session_chal (h4 [x68]) (@gen Toy * sp_secret)%G (ag_signers (ai_state a)) <> @F0 Toy /\
  outcome a = Err (MisbehavingParticipants []).
Proof.
  cbv zeta. destruct sp_ids as (-> & -> & _ & X). split; [exact sp_session_ok|]. split; [apply Permutation_refl|].
  split; [exact sp_part|]. split; [exact (proj1 (@Feqb_neq Toy ToyLaws _ _) X)|]. vmr.
Qed.
