(** C111: two of the repository's tests, for any number of participants, any values and every generator: bringing in a key
    from outside, and a resharing in which a dealer encrypts a wrong value for one new signer. *)
From Coq Require Import String Strings.Byte Arith NArith ZArith Bool List Lia Permutation Sorted Field.
From Verif Require Import Base BaseLemmas Suite Algebra Spec Types Toy ModelDkg ModelSign ModelDoc ModelTests SpecDkg SpecRobust SpecSign
  LemmasShare LemmasRound1 LemmasRound2 LemmasFinish LemmasBlame PropsShare PropsRound1 PropsRound2 PropsFinish PropsBlame PropsReshare LemmasSign PropsSign
  LemmasAgg PropsAgg PropsReflect PropsRobust PropsView PropsEnd SpecEnd PropsHandover PropsDoc PropsDocBad Demo DemoDkg DemoSign.
Import ListNotations.

Section Dealings.
  Context {S : Suite} {L : SuiteLaws S}.
  Add Field F_fld : F_field.
  Lemma nodup_firstn {A} n (l : list A) : NoDup l -> NoDup (firstn n l).
  Proof.
    revert n. induction l as [|a l IH]; intros [|n] H; cbn; try constructor; inversion H as [|? ? H1 H2]; subst.
    - intros X. apply H1. rewrite <- (firstn_skipn n l). apply in_or_app. left; exact X.
    - apply IH, H2.
  Qed.
  (** a state after round one that knows the given dealings (index, Diffie-Hellman secret, polynomial) *)
  Record sees (ds : list (u32 * F * list F)) (st : DkgState) (comms : bmap Vss) : Prop := {
    se_comms : ds_comms st = Some comms;
    se_nodup : NoDup (bkeys comms);
    se_get : forall j c, bget j comms = Some c <-> exists x co, In (j, x, co) ds /\ c = MkVss j (committed co);
    se_dhs : forall j x co, In (j, x, co) ds -> co <> [] /\ bget j (ds_dhs st) = Some (gen * x)%G;
    se_n : u32v (p_n (ds_params st)) = N.of_nat (length ds) }.
  (** e is what the dealing d has for the owner of st *)
  Definition right_for (st : DkgState) (d : u32 * F * list F) (e : EncShare) : Prop :=
    let '(j, x, co) := d in
    es_sender e = j /\ es_receiver e = ds_index st /\
    decrypt_share e (enc_point ((gen * x) * ds_dh_sk st)%G) = Ok (MkShare j (ds_index st) (poly_value co (of_u32 (ds_index st)))).

  Lemma same_dealing (ds : list (u32 * F * list F)) j x co x' co' : NoDup (map (fun d => fst (fst d)) ds) ->
    In (j, x, co) ds -> In (j, x', co') ds -> x = x' /\ co = co'.
  Proof.
    intros I Hp Hq. induction ds as [|a l IH]; [contradiction|]. cbn [map] in I. apply NoDup_cons_iff in I. destruct I as [I1 I2].
    destruct Hp as [->|Hp], Hq as [E|Hq]; auto.
    - injection E as -> ->. auto.
    - destruct I1. apply (in_map (fun d => fst (fst d))) in Hq. exact Hq.
    - subst a. destruct I1. apply (in_map (fun d => fst (fst d))) in Hp. exact Hp.
  Qed.

  Lemma quiet_dealing m st comms ds es r : good_indices (map (fun d => fst (fst d)) ds) -> sees ds st comms ->
    (u32v (p_t (ds_params st)) <= N.of_nat (length ds))%N -> Forall2 (right_for st) ds es ->
    exists s2 r', to_round_two m (R1 st) es r = Ok (s2, [], r').
  Proof.
    intros Hg [H1 H2 H3 H4 H5] Ht HF.
    destruct (dealing_ok m st comms ds ds es r Hg H1 H2 H3 H4) as (s2 & r' & E & _); auto; [rewrite H5; exact Ht|].
    exists s2, r'. exact E.
  Qed.

  Lemma bad_dealing m st comms ds1 bob x co ds2 e l1 l2 r :
    let ds := ds1 ++ (bob, x, co) :: ds2 in
    good_indices (map (fun d => fst (fst d)) ds) -> sees ds st comms ->
    (u32v (p_t (ds_params st)) < u32v (p_n (ds_params st)))%N -> (u32v bob <= u32v (p_n (ds_params st)))%N ->
    es_sender e = bob -> es_receiver e = ds_index st ->
    decrypt_share e (enc_point ((gen * x) * ds_dh_sk st)%G) <> Ok (MkShare bob (ds_index st) (poly_value co (of_u32 (ds_index st)))) ->
    Forall2 (right_for st) ds1 l1 -> Forall2 (right_for st) ds2 l2 ->
    exists s2 c r', to_round_two m (R1 st) (l1 ++ e :: l2) r = Ok (s2, [c], r') /\ accused c = bob /\
      (forall stw commsw, sees ds stw commsw -> forall j, convicted stw [c] j <-> j = bob) /\
      forall stw commsw es rw sw csw rw', sees ds stw commsw -> to_round_two m (R1 stw) es rw = Ok (sw, csw, rw') ->
        exists s', blame sw [c] = Ok ([(gen * x)%G], s').
  Proof.
    intros ds Hg [Hc Hnd Hcm Hdh Hpn] Ht Hn Es Er Hbad HF1 HF2.
    assert (Hb0 : In (bob, x, co) ds) by apply in_elt.
    assert (Hin : forall y, In y (l1 ++ l2) -> exists d, In d ds /\ right_for st d y).
    { intros y Hy. apply in_app_or in Hy. destruct Hy as [Hy|Hy].
      - destruct (forall2_in_r _ _ _ HF1 y Hy) as (d & Hd & X). exists d. split; [apply in_or_app; left; exact Hd|exact X].
      - destruct (forall2_in_r _ _ _ HF2 y Hy) as (d & Hd & X). exists d. split; [apply in_or_app; right; right; exact Hd|exact X]. }
    assert (Hok : forall y, In y (l1 ++ l2) -> acceptable m st y /\ ~ bad_for st y).
    { intros y Hy. destruct (Hin y Hy) as ([[j x'] co'] & Hz & E1 & E2 & E3). destruct (Hdh j x' co' Hz) as [Hne Hd]. split.
      - split; [intros _; exact E2|]. exists (gen * x')%G. rewrite E1. exact Hd.
      - intros (c0 & com & A1 & A2 & A3). apply A3. assert (c0 = comms) by congruence. subst c0.
        rewrite E1 in A2. apply Hcm in A2. destruct A2 as (x2 & co2 & Hz' & ->).
        destruct (same_dealing ds j x' co' x2 co2 (proj1 Hg) Hz Hz') as [<- <-].
        exists (poly_value co' (of_u32 (ds_index st))). split.
        + exists (gen * x')%G. rewrite E1, E2. split; [exact Hd|exact E3].
        + unfold on_commitment. cbn [vss_points]. rewrite gpoly_committed, E2. reflexivity. }
    assert (Hcp : bget bob comms = Some (MkVss bob (committed co))) by (apply Hcm; eauto).
    destruct (Hdh bob x co Hb0) as [_ Hdb].
    assert (Hb : bad_for st e).
    { exists comms, (MkVss bob (committed co)). split; [exact Hc|]. split; [rewrite Es; exact Hcp|].
      intros (v & (pk & O1 & O2) & O3). apply Hbad. rewrite Es, Hdb in O1. injection O1 as <-.
      rewrite Es, Er in O2. rewrite O2. unfold on_commitment in O3. cbn [vss_points] in O3.
      rewrite gpoly_committed, Er in O3. apply gen_inj in O3. rewrite O3. reflexivity. }
    assert (Hae : acceptable m st e).
    { split; [intros _; exact Er|]. exists (gen * x)%G. rewrite Es. exact Hdb. }
    assert (Hlen : length (l1 ++ e :: l2) = length ds).
    { unfold ds. rewrite !app_length. cbn [length]. rewrite (Forall2_len _ _ _ HF1), (Forall2_len _ _ _ HF2). reflexivity. }
    destruct (to_round_two_done m st comms (l1 ++ e :: l2) r Hc Hnd) as (cs & r' & HL & E).
    { lia. }
    { apply Forall_app. split; [|constructor; [exact Hae|]]; apply Forall_forall; intros y Hy; apply Hok, in_or_app; auto. }
    destruct (complaint_list_one st l1 e l2 cs HL Hb (fun y Hy => proj2 (Hok y Hy))) as (c & -> & C1 & C2 & pk & C3 & C4 & C5).
    rewrite Es, Hdb in C3. injection C3 as <-.
    assert (Hac : accused c = bob) by (unfold accused; rewrite C1; exact Es).
    assert (Hmk : maker c = ds_index st) by (unfold maker; rewrite C1; exact Er).
    cbn [length] in E. unfold remaining in E. change (N.of_nat 1 mod 4294967296)%N with 1%N in E.
    replace (u32v (p_n (ds_params st)) <? 1)%N with false in E by (symmetry; apply N.ltb_ge; lia).
    replace (u32v (p_n (ds_params st)) - 1 <? u32v (p_t (ds_params st)))%N with false in E by (symmetry; apply N.ltb_ge; lia).
    assert (Hcv : forall stw commsw, sees ds stw commsw -> forall j, convicted stw [c] j <-> j = bob).
    { intros stw commsw [Hcw Hndw Hcmw Hdhw Hpnw].
      assert (Hcpw : bget bob commsw = Some (MkVss bob (committed co))) by (apply Hcmw; eauto).
      destruct (Hdhw bob x co Hb0) as [_ Hdbw].
      assert (U : upheld stw c).
      { split; [rewrite Hac; intros Hz; apply (proj2 Hg); rewrite <- Hz; apply (in_map (fun d => fst (fst d)) ds (bob, x, co)), Hb0|].
        split; [rewrite Hac, Hpnw, <- Hpn; exact Hn|].
        exists commsw, (MkVss bob (committed co)), (gen * x)%G. split; [exact Hcw|].
        rewrite Hac, Hmk. split; [exact Hcpw|]. split; [left; exact Hdbw|]. split; [exact C5|].
        intros (v & V1 & V2). apply Hbad. rewrite C1, C4 in V1. rewrite V1.
        unfold on_commitment in V2. cbn [vss_points] in V2. rewrite gpoly_committed in V2. apply gen_inj in V2. rewrite V2. reflexivity. }
      intros j. unfold convicted, convicts. split.
      - intros (c0 & [<-|[]] & [[_ ->]|[N _]]); [exact Hac|contradiction].
      - intros ->. exists c. split; [left; reflexivity|]. left. auto. }
    eexists _, c, r'. split; [exact E|]. split; [exact Hac|]. split; [exact Hcv|].
    intros stw commsw es rw sw csw rw' Hsee Ew. pose proof Hsee as [Hcw Hndw Hcmw Hdhw Hpnw].
    destruct (proj1 (C16_complaints_exact S L m stw commsw es rw Hcw Hndw) sw csw rw' Ew) as [_ AR].
    destruct sw as [stw2]. cbn [st2] in AR. destruct AR as [A1 A2 A3 A4 A5 A6 A7 (shw & A8 & _)].
    destruct (Hdhw bob x co Hb0) as [_ Hdbw].
    specialize (Hcv stw2 commsw). assert (Hsee2 : sees ds stw2 commsw).
    { constructor; [rewrite A5|..|rewrite A1]; auto. intros j y cy Hj. rewrite A6. apply (Hdhw j y cy Hj). }
    specialize (Hcv Hsee2).
    destruct (C22_blame_outcome S L stw2 commsw shw [c]) as (l & keys & st' & E1 & Hl & Hs & Hk & HPr); [rewrite A5; exact Hcw|exact A8|].
    assert (El : l = [bob]).
    { assert (I0 : In bob l) by (apply Hl, Hcv; reflexivity).
      assert (I1 : forall j, In j l -> j = bob) by (intros j Hj; apply Hcv, Hl, Hj).
      clear - Hs I0 I1. destruct l as [|a [|b l]]; [contradiction| |].
      - rewrite (I1 a (or_introl eq_refl)). reflexivity.
      - exfalso. apply StronglySorted_inv in Hs. destruct Hs as [_ Hs]. apply Forall_inv in Hs.
        rewrite (I1 a), (I1 b) in Hs by (cbn; auto). lia. }
    subst l. exists (R2 st'). rewrite E1. do 2 f_equal. inversion Hk as [|i l0 k ks K1 K2 F1 F2|i l0 ks K1 K2 F1 F2]; subst.
    - inversion K2; subst. rewrite A6, Hdbw in K1. injection K1 as <-. reflexivity.
    - rewrite A6, Hdbw in K1. discriminate.
  Qed.

  Lemma calls_two {X A B} (f : X -> A) (P : X -> B -> Prop) l l' : Forall2 P l l' ->
    Forall2 (fun q x => fst x = f q /\ P q (snd x)) l (combine (map f l) l').
  Proof. induction 1; cbn [map combine]; constructor; auto. Qed.
  Lemma split_states {A B C} (P : A -> B -> Prop) (f : B -> C) l l' : Forall2 (fun z st => exists st', st = f st' /\ P z st') l l' ->
    exists gs : list (A * B), map fst gs = l /\ map (fun g => f (snd g)) gs = l' /\ forall g, In g gs -> P (fst g) (snd g).
  Proof.
    induction 1 as [|z st l l' (st' & -> & Hst) _ (gs & X & Y & Z)]; [exists []; cbn; repeat split; intros ? []|].
    exists ((z, st') :: gs). cbn [map fst snd]. rewrite X, Y. repeat split. intros g [<-|Hg]; [exact Hst|apply Z, Hg].
  Qed.
  (** round one of a new signer *)
  Lemma heir_view m params1 params hs ws ds x my r :
    honest_heirs params hs -> good_indices (map (fun w => sk_index (w_key w)) ws) ->
    Forall2 (donated params hs) ws ds ->
    N.of_nat (length ws) = u32v (p_n params1) -> (1 <= u32v (p_t params1) <= u32v (p_n params1))%N ->
    exists st comms r1, dkg_new m params1 x my (map w_d ws) r = Ok (R1 st, MkPList (map w_d ws) None, r1) /\
      sees ds st comms /\ ds_index st = my /\ ds_dh_sk st = x /\ p_t (ds_params st) = p_t params1.
  Proof.
    intros H Hgi HF Hn Ht. pose proof (Forall2_len _ _ _ HF) as Hlen.
    assert (Hnd : NoDup (map (fun wd => fst (fst (snd wd))) (combine ws ds))).
    { rewrite (combine_snd (fun d => fst (fst d))) by exact Hlen. rewrite (donated_indices _ _ _ _ HF). apply Hgi. }
    destruct (new_honest m params1 params hs (combine ws ds) x my r (map w_d ws)) as (st & comms & r1 & E & R & C1 & C2 & C3 & C4); auto.
    - apply H.
    - rewrite combine_length, <- Hlen, Nat.min_id. exact Hn.
    - intros w d Hwd. eapply Forall2_combine; eassumption.
    - rewrite combine_fst by exact Hlen. apply Permutation_refl.
    - assert (Hds : forall d, In d ds -> exists w, In (w, d) (combine ws ds)).
      { intros d Hd. apply in_split in Hd.
        assert (X : In d (map (fun ab => snd ab) (combine ws ds))).
        { rewrite (combine_snd (fun d => d)) by exact Hlen. rewrite map_id. destruct Hd as (l1 & l2 & ->). apply in_elt. }
        apply in_map_iff in X. destruct X as ([w d'] & <- & X). eauto. }
      exists st, comms, r1. split; [exact E|]. split; [|split; [apply R|split; [apply R|apply R]]].
      constructor; auto.
      + intros j c. rewrite C3. split.
        * intros (w & y & co & Hin & ->). exists y, co. split; [eapply in_combine_r, Hin|reflexivity].
        * intros (y & co & Hin & ->). destruct (Hds _ Hin) as [w Hw]. exists w, y, co. auto.
      + intros j y co Hin. destruct (Hds _ Hin) as [w Hw]. split; [|eapply C4, Hw].
        pose proof (Forall2_combine _ _ _ HF _ _ Hw) as (_ & _ & Ha & _). intros ->. discriminate.
      + rewrite (rec_n _ _ _ _ _ R), map_length, Hlen. reflexivity.
  Qed.
End Dealings.

(** bringing in a key: the new signers hold shares of it, and t of them sign under its old public key *)
Theorem C111_importing_a_key :
  forall (S : Suite) (L : SuiteLaws S) (m : build) (key : F) (n t : u32) (ids : list u32) (message : list byte) (r : Rng),
  good_indices ids -> N.of_nat (length ids) = u32v n -> (1 <= u32v t <= u32v n)%N ->
  exists outs sig r', test_import m key n t ids message r = Ok (outs, sig, r') /\
    holders ids (N.to_nat (u32v t)) key outs /\ verify_signature (gen * key)%G sig (h4 message) = Ok tt.
Proof.
  intros S L m key n t ids message r Hg Hn Ht. unfold test_import.
  rewrite params_ok by (cbn; lia). cbn [bind].
  destruct (C107_documented_resharing S L m (MkParams (u32_of_N 1) (u32_of_N 1)) [((gen * key)%G, from_single_key key)] [u32_of_N 1] key n t ids r)
    as (outs & r1 & E1 & HO).
  { split; [reflexivity|]. split; [apply (C33_single_key_is_a_sharing S L)|]. intros o [<-|[]]. reflexivity. }
  { reflexivity. } { cbn. lia. } { exact Hg. } { exact Hn. } { exact Ht. }
  rewrite E1. cbn [bind]. set (k := N.to_nat (u32v t)).
  assert (HO' : holders (firstn k ids) k key (firstn k outs)).
  { destruct HO as (A & (B1 & B2) & C). split; [rewrite <- A, firstn_map; reflexivity|]. split; [split|].
    - rewrite <- !firstn_map. destruct B1 as [B1 B3]. split; [apply nodup_firstn, B1|].
      intros X. apply B3. rewrite <- (firstn_skipn k (map sk_index (map snd outs))). apply in_or_app. left; exact X.
    - intros sub Hs. apply B2. intros q Hq. apply Hs in Hq. rewrite <- firstn_map in Hq.
      rewrite <- (firstn_skipn k (map snd outs)). apply in_or_app. left; exact Hq.
    - intros o Ho. apply C. rewrite <- (firstn_skipn k outs). apply in_or_app. left; exact Ho. }
  destruct (C107_documented_signing S L m (MkParams n t) (firstn k ids) key (firstn k outs) (seq 0 k) message r1) as (sig & r2 & E2 & V2).
  { exact HO'. } { rewrite firstn_length. cbn [p_n]. lia. } { apply Ht. } { apply seq_NoDup. }
  { intros i Hi. apply in_seq in Hi. rewrite firstn_length. unfold k in *. lia. }
  { rewrite seq_length. reflexivity. }
  rewrite E2. cbn [bind]. exists outs, sig, r2. auto.
Qed.
Print Assumptions C111_importing_a_key.

(** the test's resharing: either the value happens to be the right one (then nobody complains and the program stops at its
    assertion), or the victim complains, everybody convicts the dealer, and all finish with the old group key *)
Theorem C111_resharing_with_a_wrong_share :
  forall (S : Suite) (L : SuiteLaws S) (m : build) (params : Params) (outs : list (G * SigningKey)) (old : list u32) (s : F)
         (n t : u32) (before : list u32) (victim : u32) (after : list u32) (bob : u32) (value : F) (r : Rng),
  holders old (N.to_nat (u32v (p_t params))) s outs -> N.of_nat (length old) = u32v (p_n params) ->
  (1 <= u32v (p_t params))%N -> (u32v (p_t params) < u32v (p_n params))%N ->
  In bob old -> (u32v bob <= u32v (p_n params))%N ->
  good_indices (before ++ victim :: after) -> N.of_nat (length (before ++ victim :: after)) = u32v n -> (1 <= u32v t <= u32v n)%N ->
  exists ss r1 ds r2 b es x w e y,
    each (new_signer (MkParams n t)) (before ++ victim :: after) r = Ok (ss, r1) /\
    each (fun o r => let* (d, es, _, r') := reshare m (MkParams n t) (snd o) (map fst ss) r in Ok (d, es, r')) outs r1 = Ok (ds, r2) /\
    In (b, es) ds /\ pt_index b = bob /\ In (w, x) ss /\ pt_index w = victim /\
    (* the share the dealer should have passed on *)
    bget victim es = Some e /\ decrypt_share e (enc_point (pt_dh_pk b * x)%G) = Ok (MkShare bob victim y) /\
    (value = y /\ test_resharing m params outs n t before victim after bob value r = Panic \/
     value <> y /\ exists outs' r', test_resharing m params outs n t before victim after bob value r = Ok (outs', r') /\
       holders (before ++ after ++ [victim]) (N.to_nat (u32v t)) s outs').
Proof.
  intros S L m params outs old s n t before victim after bob value r (Ho & HR & HK) Hlen Ht1 Htn Hbob Hbn Hg Hn Ht.
  set (ids := before ++ victim :: after) in *. set (params2 := MkParams n t).
  destruct (each_ok (fun i i' => i = i' /\ In i ids) (fun i z => exists r r', new_signer params2 i r = Ok (z, r')) (new_signer params2) ids ids r)
    as (zs & r1 & E1 & HZ).
  { apply forall2_self. auto. }
  { intros i i' r0 [<- Hi]. destruct (C12_new_signer_well_formed S L params2 i r0) as (d & x & r' & E & _).
    - intros ->. apply Hg, Hi.
    - exists (d, x), r'. split; [exact E|]. exists r0, r'. exact E. }
  assert (H0 : exists hs, map z_index hs = ids /\ map (fun z => (z_p z, z_x z)) hs = zs /\
             forall z, In z hs -> exists r r', new_signer params2 (z_index z) r = Ok (z_p z, z_x z, r')).
  { clear -HZ. induction HZ as [|i [p x] ids zs (r & r' & E) _ (hs & A & B & C)]; [exists []; cbn; repeat split; intros ? []|].
    exists (MkHeir i p x :: hs). cbn [map z_index z_p z_x]. rewrite A, B. repeat split. intros z [<-|Hz]; [exists r, r'; exact E|apply C, Hz]. }
  destruct H0 as (hs & Zi & Zz & HZs).
  assert (HH : honest_heirs params2 hs).
  { constructor; cbn [p_n p_t params2].
    - rewrite <- Hn, <- Zi, map_length. reflexivity.
    - exact Ht.
    - rewrite Zi. exact Hg.
    - intros z Hz. left. apply HZs, Hz. }
  assert (Ezp : map fst zs = map z_p hs) by (rewrite <- Zz, map_map; reflexivity).
  assert (Hix : forall z, In z hs -> pt_index (z_p z) = z_index z) by (intros z Hz; apply (heir_facts params2 hs z HH Hz)).
  assert (Hold : good_indices old) by (destruct HR as [X _]; rewrite map_map in X; rewrite <- Ho; exact X).
  destruct (each_ok (fun o o' => o = o' /\ In o outs)
    (fun (o : G * SigningKey) (d : Participant * bmap EncShare) =>
       exists r lists r', reshare m params2 (snd o) (map fst zs) r = Ok (fst d, snd d, lists, r'))
    (fun o r => let* (d, es, _, r') := reshare m params2 (snd o) (map fst zs) r in Ok (d, es, r')) outs outs r1) as (ds & r2 & E2 & HD).
  { apply forall2_self. auto. }
  { intros o o' r0 [<- Hin]. destruct (C32_reshare_succeeds S L m params2 hs (snd o) (map fst zs) r0 HH) as (d & es & r' & E & X).
    - rewrite Ezp. apply Permutation_refl.
    - intros Q. apply Hold. rewrite <- Ho, <- Q. apply (in_map (fun o => sk_index (snd o))), Hin.
    - exists (d, es), r'. rewrite E. split; [reflexivity|]. exists r0, (MkPList (map fst zs) None), r'. exact E. }
  assert (H0 : exists ws, map w_key ws = map snd outs /\ map (fun w => (w_d w, w_es w)) ws = ds /\
             forall w, In w ws -> exists r lists r', reshare m params2 (w_key w) (map fst zs) r = Ok (w_d w, w_es w, lists, r')).
  { clear -HD. induction HD as [|o [d es] outs ds E _ (ws & A & B & C)]; [exists []; cbn; repeat split; intros; contradiction|].
    exists (MkDonor (snd o) d es :: ws). cbn [map w_key w_d w_es]. rewrite A, B. do 2 (split; [reflexivity|]).
    intros w [<-|Hw]; [exact E|apply C, Hw]. }
  destruct H0 as (ws & Wk & Wd & HW).
  assert (Wi : map (fun w => sk_index (w_key w)) ws = old) by (rewrite <- map_map, Wk, map_map; exact Ho).
  assert (HHD : honest_donors m params2 hs ws).
  { constructor.
    - rewrite Wi. exact Hold.
    - intros w Hw. destruct (HW w Hw) as (r0 & lists & r' & E). exists (map fst zs), r0, lists, r'. split; [rewrite Ezp; apply Permutation_refl|exact E]. }
  assert (EL : length ws = length old) by (rewrite <- Wi, map_length; reflexivity).
  destruct (donors_list m params2 hs ws HH HHD) as (dl & HF).
  assert (Hgi : good_indices (map (fun w => sk_index (w_key w)) ws)) by (rewrite Wi; exact Hold).
  assert (Hgd : good_indices (map (fun d => fst (fst d)) dl)) by (rewrite (donated_indices _ _ _ _ HF); exact Hgi).
  assert (Ewd : map fst ds = map w_d ws) by (rewrite <- Wd, map_map; reflexivity).
  (* the states *)
  set (good := fun (z : Heir) (st : DkgState) => In z hs /\ ds_index st = z_index z /\ ds_dh_sk st = z_x z /\ p_t (ds_params st) = p_t params /\
     (exists comms, sees dl st comms) /\ exists r l r', dkg_new m params (z_x z) (z_index z) (map w_d ws) r = Ok (R1 st, l, r')).
  destruct (each_ok (fun z s => In z hs /\ s = (z_p z, z_x z)) (fun z st => exists st', st = R1 st' /\ good z st')
    (fun s r => let* (st, _, r') := dkg_new m params (snd s) (pt_index (fst s)) (map fst ds) r in Ok (st, r')) hs zs r2) as (states & r3 & E3 & HS).
  { rewrite <- Zz. apply forall2_map_r. eapply forall2_impl; [|apply forall2_self with (P := fun g => In g hs)]; [|auto]. intros a b [<- Ha]. auto. }
  { intros z zz r0 [Hz ->]. cbn [fst snd].
    destruct (heir_view m params params2 hs ws dl (z_x z) (z_index z) r0 HH Hgi HF) as (st & comms & r' & A & B1 & B2 & B3 & B4).
    - rewrite EL. exact Hlen.
    - lia.
    - rewrite (Hix z Hz), Ewd, A. exists (R1 st), r'. split; [reflexivity|]. exists st. split; [reflexivity|].
      split; [exact Hz|]. split; [exact B2|]. split; [exact B3|]. split; [exact B4|]. split; [exists comms; exact B1|].
      exists r0, (MkPList (map w_d ws) None), r'. exact A. }
  assert (HG : exists gs : list (Heir * DkgState), map fst gs = hs /\ map (fun g => R1 (snd g)) gs = states /\ forall g, In g gs -> good (fst g) (snd g)).
  { apply (split_states good R1 hs states HS). }
  destruct HG as (gs & Gh & Gs & HGs).
  set (idx := fun g : Heir * DkgState => z_index (fst g)).
  assert (Gi : map idx gs = ids) by (unfold idx; rewrite <- Zi, <- Gh, map_map; reflexivity).
  destruct (map_eq_app idx gs _ _ Gi) as (g1 & g2' & Eg & I1 & I2').
  destruct (map_eq_cons idx g2' I2') as (gw & g2 & -> & Iw & I2).
  assert (Hgw : In gw gs) by (rewrite Eg; apply in_elt).
  set (rest := g1 ++ g2).
  assert (Hin : forall q, In q rest -> In q gs).
  { intros q Hq. rewrite Eg. apply in_or_app. apply in_app_or in Hq. destruct Hq; [left|right; right]; assumption. }
  assert (Hrest : map idx rest = before ++ after) by (unfold rest; rewrite map_app, I1, I2; reflexivity).
  destruct Hg as [Hnd Hz0]. pose proof (NoDup_remove_2 _ _ _ Hnd) as Hvic.
  assert (Hne : forall q, In q rest -> idx q <> victim).
  { intros q Hq X. apply Hvic. rewrite <- Hrest, <- X. apply in_map, Hq. }
  (* the bad dealer *)
  assert (Hb' := Hbob). rewrite <- Wi in Hb'. apply in_map_iff in Hb'. destruct Hb' as (wb & Ib & Hwb).
  destruct (in_split _ _ Hwb) as (w1 & w2 & Ew).
  assert (HF' := HF). rewrite Ew in HF'. apply Forall2_app_inv_l in HF'. destruct HF' as (d1 & d2' & HF1 & HF2' & Ed).
  destruct (forall2_cons_l _ _ _ _ HF2') as (db & d2 & -> & Hdb & HF2). destruct db as [[jb xb] cob].
  assert (Hdb' := Hdb). destruct Hdb' as (Ej & Hfb & Hab & Hsb). rewrite Ib in Ej. subst jb.
  pose proof (HGs gw Hgw) as (Hzw & Wx1 & Wx2 & Wx3 & (commsw & Hsw) & _).
  assert (Iw' : z_index (fst gw) = victim) by exact Iw.
  destruct (Hsb (fst gw) Hzw) as (e & Se1 & Se2 & Se3 & Se4). rewrite Iw' in Se1, Se3, Se4.
  exists zs, r1, ds, r2, (w_d wb), (w_es wb), (z_x (fst gw)), (z_p (fst gw)), e, (poly_value cob (of_u32 victim)).
  split; [exact E1|]. split; [exact E2|]. split; [rewrite <- Wd; apply (in_map (fun w => (w_d w, w_es w))), Hwb|].
  split; [rewrite (fd_index _ _ _ _ _ Hfb); reflexivity|].
  split; [rewrite <- Zz; apply (in_map (fun z => (z_p z, z_x z))), Hzw|]. split; [rewrite (Hix _ Hzw); exact Iw|]. split; [exact Se1|].
  assert (Epk : pt_dh_pk (w_d wb) = (gen * xb)%G) by apply (fd_pk _ _ _ _ _ Hfb).
  split; [rewrite Epk; exact Se4|].
  (* the forged message *)
  destruct (encrypt_share_ok (MkShare bob victim value) (enc_point (pt_dh_pk (w_d wb) * z_x (fst gw))%G) r3) as (wrong & r4 & E4 & Wr1 & Wr2 & Wr3).
  cbn [sh_sender sh_receiver] in Wr1, Wr2. rewrite Epk in Wr3.
  assert (Hwidx : forall w, In w ws -> pt_index (w_d w) = sk_index (w_key w)).
  { intros w Hw. destruct (forall2_in_l _ _ _ HF w Hw) as ([[j x] co] & _ & A & B & _). rewrite (fd_index _ _ _ _ _ B). exact A. }
  assert (Hwne : forall w, In w (w1 ++ w2) -> sk_index (w_key w) <> bob).
  { intros w Hw X. destruct Hgi as [Hgi _]. rewrite Ew, map_app in Hgi. cbn [map] in Hgi. apply NoDup_remove_2 in Hgi. apply Hgi.
    rewrite Ib, <- X, <- map_app. apply (in_map (fun w => sk_index (w_key w))), Hw. }
  assert (Ef : find (fun d => u32_eqb (pt_index d) bob) (map fst ds) = Some (w_d wb)).
  { rewrite Ewd, Ew, map_app. cbn [map].
    assert (X : forall w, In w w1 -> u32_eqb (pt_index (w_d w)) bob = false).
    { intros w Hw. apply u32_eqb_neq. rewrite Hwidx by (rewrite Ew; apply in_or_app; left; exact Hw). apply Hwne, in_or_app. left; exact Hw. }
    clear -X Ib Hfb. induction w1 as [|a l IH]; cbn [map app find].
    - rewrite (fd_index _ _ _ _ _ Hfb), u32_eqb_refl. reflexivity.
    - rewrite X by (left; reflexivity). apply IH. intros w Hw. apply X. right; exact Hw. }
  set (named := map (fun g : Heir * DkgState => (idx g, (z_x (fst g), R1 (snd g)))) gs).
  assert (En : combine (map pt_index (map fst zs)) (combine (map snd zs) states) = named).
  { assert (A1 : map pt_index (map fst zs) = map idx gs).
    { rewrite Gi, <- Zi, Ezp, map_map. apply map_ext_in. exact Hix. }
    assert (A2 : map snd zs = map (fun g => z_x (fst g)) gs).
    { rewrite <- Zz, map_map. cbn [snd]. rewrite <- Gh, map_map. reflexivity. }
    rewrite A1, A2, <- Gs, !combine_maps. reflexivity. }
  assert (Ev : find (fun x => u32_eqb (fst x) victim) named = Some (victim, (z_x (fst gw), R1 (snd gw)))).
  { unfold named. rewrite Eg, map_app. cbn [map]. assert (X : forall g, In g g1 -> u32_eqb (idx g) victim = false).
    { intros g Hg. apply u32_eqb_neq, Hne, in_or_app. left; exact Hg. }
    clear -X Iw. induction g1 as [|a l IH]; cbn [map app find fst].
    - rewrite Iw, u32_eqb_refl. reflexivity.
    - rewrite X by (left; reflexivity). apply IH. intros g Hg. apply X. right; exact Hg. }
  assert (Eo : filter (fun x => negb (u32_eqb (fst x) victim)) named = map (fun g => (idx g, (z_x (fst g), R1 (snd g)))) rest).
  { unfold named. rewrite filter_map_comm. cbn [fst]. f_equal. rewrite Eg, filter_app. cbn [filter]. rewrite Iw, u32_eqb_refl. cbn [negb].
    unfold rest. f_equal; apply filter_all; intros q Hq; apply negb_true_iff, u32_eqb_neq, Hne; apply in_or_app; auto. }
  (* what the victim receives *)
  assert (Hslot : forall ws' dl', Forall2 (donated params2 hs) ws' dl' -> (forall w, In w ws' -> In w (w1 ++ w2)) ->
    exists l, traverse (test_slot bob victim wrong) (map (fun w => (w_d w, w_es w)) ws') = Ok l /\ Forall2 (right_for (snd gw)) dl' l).
  { intros ws' dl' HF0 Hsub. induction HF0 as [|w [[j x] co] ws' dl' (A & B & C & D) HF0 IH]; [exists []; split; [reflexivity|constructor]|].
    destruct IH as (l & IH1 & IH2); [intros w' Hw'; apply Hsub; right; exact Hw'|].
    subst j. destruct (D (fst gw) Hzw) as (e0 & D1 & D2 & D3 & D4). rewrite Iw' in D1, D3, D4. exists (e0 :: l). cbn [map traverse].
    unfold test_slot at 1. cbn [fst snd]. rewrite (fd_index _ _ _ _ _ B), (proj2 (u32_eqb_neq _ _)) by (apply Hwne, Hsub; left; reflexivity).
    rewrite D1. cbn [unwrap bind]. rewrite IH1. split; [reflexivity|]. constructor; [|exact IH2].
    unfold right_for. rewrite Wx1, Wx2, Iw'. auto. }
  destruct (Hslot w1 d1 HF1 ltac:(intros w Hw; apply in_or_app; left; exact Hw)) as (l1 & T1 & R1').
  destruct (Hslot w2 d2 HF2 ltac:(intros w Hw; apply in_or_app; right; exact Hw)) as (l2 & T2 & R2').
  assert (Ebox : traverse (test_slot bob victim wrong) ds = Ok (l1 ++ wrong :: l2)).
  { rewrite <- Wd, Ew, map_app. cbn [map].
    assert (X : forall A B (f : A -> result B) a a' b b', traverse f a = Ok a' -> traverse f b = Ok b' -> traverse f (a ++ b) = Ok (a' ++ b')).
    { intros A B f a. induction a as [|x a IH]; intros a' b b' Ea Eb; cbn [traverse app] in *; [injection Ea as <-; exact Eb|].
      destruct (f x) as [y| |]; try discriminate Ea. cbn [bind] in *. destruct (traverse f a) as [ys| |]; try discriminate Ea. cbn [bind] in *.
      injection Ea as <-. rewrite (IH ys b b' eq_refl Eb). reflexivity. }
    apply X; [exact T1|]. cbn [traverse]. unfold test_slot at 1. cbn [fst].
    rewrite (fd_index _ _ _ _ _ Hfb), u32_eqb_refl. cbn [bind]. rewrite T2. reflexivity. }
  (* what the others receive *)
  assert (Eboxes : exists boxes, traverse (doc_box (map snd ds)) (map idx rest) = Ok boxes /\
    Forall2 (fun q box => In q rest /\ Forall2 (right_for (snd q)) dl box) rest boxes).
  { apply traverse_ok with (Q := fun q i => In q rest /\ i = idx q).
    - apply forall2_map_r. eapply forall2_impl; [|apply forall2_self with (P := fun p => In p rest)]; [|auto].
      intros a a' [<- Ha]. split; [exact Ha|reflexivity].
    - intros q i [Hq ->]. unfold doc_box. rewrite <- Wd, map_map. cbn [snd].
      pose proof (HGs q (Hin q Hq)) as (Hzq & Q1 & Q2 & _).
      assert (X : exists l, traverse (fun es => unwrap (bget (idx q) es)) (map w_es ws) = Ok l /\ Forall2 (right_for (snd q)) dl l).
      { clear -HF Hzq Q1 Q2. induction HF as [|w [[j x] co] ws dl (A & B & C & D) HF IH]; [exists []; split; [reflexivity|constructor]|].
        destruct IH as (l & IH1 & IH2). destruct (D (fst q) Hzq) as (e0 & D1 & D2 & D3 & D4). exists (e0 :: l). cbn [map traverse].
        unfold idx at 1. rewrite D1. cbn [unwrap bind]. rewrite IH1. split; [reflexivity|]. constructor; [|exact IH2].
        unfold right_for. rewrite Q1, Q2. auto. }
      destruct X as (l & X1 & X2). exists l. split; [exact X1|]. split; [exact Hq|exact X2]. }
  destruct Eboxes as (boxes & E5 & HB).
  (* their second round *)
  set (calls := combine (map (fun g : Heir * DkgState => R1 (snd g)) rest) boxes).
  set (ran := fun (q : Heir * DkgState) (s2 : RoundTwo) => exists box r0 r', In q rest /\ Forall2 (right_for (snd q)) dl box /\
      to_round_two m (R1 (snd q)) box r0 = Ok (s2, [], r')).
  assert (Hdl : N.of_nat (length dl) = u32v (p_n params)) by (rewrite <- (Forall2_len _ _ _ HF), EL; exact Hlen).
  destruct (each_ok (fun q x => fst x = R1 (snd q) /\ In q rest /\ Forall2 (right_for (snd q)) dl (snd x)) ran (test_round_two m) rest calls r4) as (s2s & r5 & E6 & HR2).
  { apply (calls_two (fun g => R1 (snd g)) _ rest boxes HB). }
  { intros q [st0 box] r0 (X1 & X2 & X3). cbn [fst snd] in *. subst st0. pose proof (HGs q (Hin q X2)) as (_ & _ & _ & Q3 & (cq & Q4) & _).
    destruct (quiet_dealing m (snd q) cq dl box r0 Hgd Q4) as (s2 & r' & E); [rewrite Q3, Hdl; lia|exact X3|].
    exists s2, r'. unfold test_round_two. cbn [fst snd]. rewrite E. cbn [bind]. split; [reflexivity|]. exists box, r0, r'. auto. }
  assert (Edoc : forall y, bind (to_round_two m (R1 (snd gw)) (l1 ++ wrong :: l2) r5)
      (fun z => let '(sv, cs, r6) := z in
       let* _ := assert_true (Nat.eqb (length cs) 1) in
       let* outs' := traverse (test_settle cs (pt_dh_pk (w_d wb))) (s2s ++ [sv]) in
       let* _ := doc_same_key (hd Gzero (map fst outs)) outs' in Ok (outs', r6)) = y ->
    test_resharing m params outs n t before victim after bob value r = y).
  { intros y <-. unfold test_resharing. rewrite params_ok by lia. cbn [bind]. fold params2 ids. rewrite E1. cbn [bind]. rewrite E2. cbn [bind].
    rewrite E3. cbn [bind]. rewrite Ef. cbn [unwrap bind]. rewrite En, Ev. cbn [unwrap bind fst snd]. rewrite Eo, E4. cbn [bind]. rewrite Ebox. cbn [bind].
    rewrite !map_map. cbn [fst snd]. change (map (fun x : Heir * DkgState => idx x) rest) with (map idx rest). rewrite E5. cbn [bind].
    fold calls. rewrite E6. cbn [bind]. reflexivity. }
  assert (Hdlw : dl = d1 ++ (bob, xb, cob) :: d2) by exact Ed.
  destruct (Feqb value (poly_value cob (of_u32 victim))) eqn:Ev2.
  - apply Feqb_spec in Ev2. left. split; [exact Ev2|]. apply Edoc.
    destruct (quiet_dealing m (snd gw) commsw dl (l1 ++ wrong :: l2) r5 Hgd Hsw) as (s2 & r' & E).
    + rewrite Wx3, Hdl. lia.
    + rewrite Hdlw. apply Forall2_app; [exact R1'|]. constructor; [|exact R2']. unfold right_for. rewrite Wx1, Wx2, Iw'.
      split; [exact Wr1|]. split; [exact Wr2|]. rewrite Wr3, Ev2. reflexivity.
    + rewrite E. reflexivity.
  - assert (Hv : value <> poly_value cob (of_u32 victim)) by (intros X; apply Feqb_spec in X; congruence).
    right. split; [exact Hv|].
    assert (Hsw' := Hsw). rewrite Hdlw in Hsw'. assert (Hgd' := Hgd). rewrite Hdlw in Hgd'.
    assert (Epn : u32v (p_n (ds_params (snd gw))) = u32v (p_n params)) by (rewrite (se_n _ _ _ Hsw); exact Hdl).
    destruct (bad_dealing m (snd gw) commsw d1 bob xb cob d2 wrong l1 l2 r5 Hgd' Hsw') as (sv & c & r6 & E7 & Hac & Hcon & Hbl); auto.
    { rewrite Wx3, Epn. exact Htn. }
    { rewrite Epn. exact Hbn. }
    { rewrite Wx1, Iw'. exact Wr2. }
    { rewrite Wx1, Wx2, Iw', Wr3. intros [= X]. contradiction. }
    rewrite <- Hdlw in Hbl, Hcon.
    (* everybody as followers *)
    set (all := [c]). set (every := rest ++ [gw]).
    assert (Hev : forall q, In q every -> In q gs).
    { intros q Hq. apply in_app_or in Hq. destruct Hq as [Hq|[<-|[]]]; [apply Hin, Hq|exact Hgw]. }
    set (comms := commsw).
    assert (Hview : forall q, In q gs -> ds_params (snd q) = ds_params (snd gw) /\ ds_dhs (snd q) = ds_dhs (snd gw) /\ ds_comms (snd q) = Some comms).
    { intros q Hq. destruct (HGs q Hq) as (_ & _ & _ & _ & _ & ra & la & ra' & Ea). destruct (HGs gw Hgw) as (_ & _ & _ & _ & _ & rb & lb & rb' & Eb).
      destruct (C62_same_list_same_view S L m m params (z_x (fst q)) (z_x (fst gw)) (z_index (fst q)) (z_index (fst gw)) [] []
        (map w_d ws) (map w_d ws) ra rb ra' rb' (snd q) (snd gw) la lb) as (V1 & V2 & V3 & _).
      - rewrite map_map. rewrite (map_ext_in _ (fun w => sk_index (w_key w)) ws Hwidx). apply Hgi.
      - apply Permutation_refl.
      - right. split; assumption.
      - rewrite V1, V2, V3. split; [reflexivity|]. split; [reflexivity|]. apply (se_comms _ _ _ Hsw). }
    set (fol := fun (q : Heir * DkgState) (h : Follower) => In q gs /\ h_st h = snd q /\ h_settles h = all /\ (forall x, In x (h_cs h) -> In x all) /\
       follows m (ds_params (snd gw)) (ds_dhs (snd gw)) comms h).
    assert (Hfol : forall q box r0 s2 cs r', In q gs -> Forall2 (fun d e => es_sender e = fst (fst d) /\ es_receiver e = ds_index (snd q)) dl box ->
        to_round_two m (R1 (snd q)) box r0 = Ok (s2, cs, r') -> (forall x, In x cs -> In x all) -> fol q (MkFollower (snd q) box r0 s2 cs r' all)).
    { intros q box r0 s2 cs r' Hq HFb Er Hcs. destruct (Hview q Hq) as (V1 & V2 & V3).
      split; [exact Hq|]. split; [reflexivity|]. split; [reflexivity|]. split; [exact Hcs|].
      constructor; cbn [h_st h_es h_r h_s2 h_cs h_r' h_settles]; auto.
      - intros y Hy. destruct (forall2_in_r _ _ _ HFb y Hy) as ([[j x] co] & Hd & A & B). cbn [fst] in A. split; [exact B|]. rewrite A.
        apply bget_some_key with (v := MkVss j (committed co)). apply (se_get _ _ _ Hsw). eauto.
      - intros j Hj. apply bget_key_some in Hj. destruct Hj as (v & Hj). apply (se_get _ _ _ Hsw) in Hj. destruct Hj as (x & co & Hd & _).
        destruct (forall2_in_l _ _ _ HFb _ Hd) as (y & Hy & A & _). exists y. split; [exact Hy|exact A]. }
    assert (Hrt : forall st d e, right_for st d e -> es_sender e = fst (fst d) /\ es_receiver e = ds_index st).
    { intros st [[j x] co] e0 (A & B & _). auto. }
    assert (F1 : Forall2 (fun q s2 => exists h, h_s2 h = s2 /\ fol q h) every (s2s ++ [sv])).
    { apply Forall2_app.
      - eapply forall2_impl; [|exact HR2]. intros q s2 (box & r0 & r' & X1 & X2 & X3).
        exists (MkFollower (snd q) box r0 s2 [] r' all). split; [reflexivity|]. apply Hfol; auto; [|intros ? []].
        eapply forall2_impl; [|exact X2]. apply Hrt.
      - constructor; [|constructor]. exists (MkFollower (snd gw) (l1 ++ wrong :: l2) r5 sv [c] r6 all). split; [reflexivity|]. apply Hfol; auto.
        rewrite Hdlw. apply Forall2_app; [|constructor].
        + eapply forall2_impl; [|exact R1']. apply Hrt.
        + rewrite Wx1, Iw'. auto.
        + eapply forall2_impl; [|exact R2']. apply Hrt. }
    assert (H2 : exists fs, Forall2 (fun h s2 => h_s2 h = s2) fs (s2s ++ [sv]) /\ Forall2 fol every fs).
    { clear -F1. induction F1 as [|q s2 l l' (h & A & B) _ (fs & C & D)]; [exists []; split; constructor|].
      exists (h :: fs). split; constructor; auto. }
    destruct H2 as (fs & F2 & F3).
    assert (Hfs : forall h, In h fs -> exists q, In q every /\ fol q h) by (intros h Hh; apply (forall2_in_r _ _ _ F3 h Hh)).
    assert (Hgc : good_indices (bkeys comms)).
    { split; [apply (se_nodup _ _ _ Hsw)|]. intros X. apply bget_key_some in X. destruct X as (v & X). apply (se_get _ _ _ Hsw) in X.
      destruct X as (x & co & Hd & _). apply (proj2 Hgd). apply (in_map (fun d => fst (fst d))) in Hd. exact Hd. }
    destruct (C61_followers_agree_and_hold_keys S L m (ds_params (snd gw)) (ds_dhs (snd gw)) comms fs all Hgc) as (keys & comms' & gk & K1 & K2 & K3 & K4).
    { intros h x Hi Hx. destruct (Hfs h Hi) as (q & _ & _ & _ & _ & X & _). apply X in Hx. destruct Hx as [<-|[]]. rewrite Hac, Epn. exact Hbn. }
    { intros j v Hj. apply (se_get _ _ _ Hsw) in Hj. destruct Hj as (x & co & Hd & ->). cbn [vss_points].
      destruct (se_dhs _ _ _ Hsw _ _ _ Hd) as [Hco _]. unfold committed. destruct co; [contradiction|discriminate]. }
    { intros h Hi. destruct (Hfs h Hi) as (q & _ & _ & _ & _ & _ & X). exact X. }
    { intros h Hi. destruct (Hfs h Hi) as (q & _ & _ & _ & X & Y & _). rewrite X. split; [reflexivity|exact Y]. }
    assert (Hkeys : forall h, In h fs -> keys = [(gen * xb)%G]).
    { intros h Hi. destruct (K3 h Hi) as (sk & (s3 & B1 & _) & _). destruct (Hfs h Hi) as (q & Hq & Hqg & X1 & X2 & _ & X4).
      destruct (HGs q Hqg) as (_ & _ & _ & _ & (cq & Hsq) & _).
      pose proof (fo_run _ _ _ _ _ X4) as Er. rewrite X1 in Er. destruct (Hbl _ _ _ _ _ _ _ Hsq Er) as (s' & B2).
      rewrite X2 in B1. unfold all in B1. rewrite B2 in B1. congruence. }
    assert (F4 : Forall2 (fun q s2 => exists h, In h fs /\ h_s2 h = s2 /\ fol q h) every (s2s ++ [sv])).
    { clear -F2 F3. assert (G : Forall2 (fun q h => In h fs /\ fol q h) every fs).
      { apply forall2_flip, forall2_with, forall2_flip in F3. exact F3. }
      revert G F2. apply forall2_compose. intros q h x (A & B) C. exists h. auto. }
    destruct (traverse_ok _ (fun q o => fst o = gk /\ sk_index (snd o) = idx q /\ exists h, In h fs /\ ends h keys comms' gk (snd o))
      (test_settle all (pt_dh_pk (w_d wb))) every (s2s ++ [sv]) F4) as (outs' & E8 & HO).
    { intros q s2 (h & Hi & X1 & X2). destruct (K3 h Hi) as (sk & E & _). assert (E0 := E). destruct E0 as (s3 & B1 & _ & B3 & B4).
      destruct X2 as (Y1 & Y2 & Y3 & _). destruct (HGs q Y1) as (_ & Yi & _).
      exists (gk, sk). cbn [fst snd]. split; [|split; [reflexivity|]; split; [unfold idx; congruence|eauto]].
      unfold test_settle. rewrite <- X1, <- Y3, B1. cbn [bind]. rewrite (Hkeys h Hi), Epk. cbn [nth_error unwrap bind].
      rewrite Geqb_refl. exact B3. }
    (* the group key is the old one *)
    assert (Hne0 : exists h0, In h0 fs).
    { destruct fs as [|h0 fs0]; [|exists h0; left; reflexivity]. exfalso. inversion F3 as [Z|]. unfold every in Z.
      destruct rest; discriminate Z. }
    destruct Hne0 as (h0 & Hh0). pose proof (K2 h0 Hh0) as W.
    assert (Hcv : forall j, convicted (h_st h0) all j <-> j = bob).
    { intros j. destruct (Hfs h0 Hh0) as (q & Hq & Hqg & X1 & _). destruct (HGs q Hqg) as (_ & _ & _ & _ & (cq & Hsq) & _).
      rewrite X1. apply (Hcon _ _ Hsq). }
    set (book := fun j => match bget j comms with Some v => hd Gzero (vss_points v) | None => Gzero end).
    assert (Hbk : forall k, In k (map snd outs) -> book (sk_index k) = (gen * sk_key k)%G /\ In (sk_index k) (bkeys comms)).
    { intros k Hk. rewrite <- Wk in Hk. apply in_map_iff in Hk. destruct Hk as (w & <- & Hw).
      destruct (forall2_in_l _ _ _ HF w Hw) as ([[j x] co] & Hd & A & _ & C & _). rewrite <- A.
      assert (X : bget j comms = Some (MkVss j (committed co))) by (apply (se_get _ _ _ Hsw); eauto).
      split; [|apply bget_some_key with (1 := X)]. unfold book. rewrite X. cbn [vss_points]. destruct co as [|a co]; [discriminate C|]. injection C as ->. reflexivity. }
    assert (Hkb : key_book (N.to_nat (u32v (p_t params))) (gen * s)%G (map sk_index (map snd outs)) book).
    { apply book_of_recovers; [exact HR|]. intros k Hk. apply Hbk, Hk. }
    assert (Hso : map sk_index (map snd outs) = old) by (rewrite map_map; exact Ho).
    assert (Egk : gk = (gen * s)%G).
    { destruct K1 as (pks & HP & ->).
      assert (Ep : pks = map (fun j => (j, book j)) (bkeys comms')).
      { assert (Hsub : forall j v, In (j, v) comms' -> bget j comms = Some v).
        { intros j v Hj. apply (without_in _ _ _ W) in Hj. apply in_bget; [apply Hgc|apply Hj]. }
        clear -HP Hsub. induction HP as [|[j v] [j' p'] l pks (A & rest & B) _ IH]; [reflexivity|]. cbn [fst snd] in *. cbn [bkeys map fst].
        rewrite IH by (intros i u Hu; apply Hsub; right; exact Hu). subst j'. unfold book at 2. rewrite (Hsub j v (or_introl eq_refl)), B. reflexivity. }
      rewrite Ep. apply Hkb.
      - apply (without_nodup _ _ _ W), Hgc.
      - intros j Hj. apply (without_keys _ _ _ W) in Hj. destruct Hj as [Hj _]. apply bget_key_some in Hj. destruct Hj as (v & Hj).
        apply (se_get _ _ _ Hsw) in Hj. destruct Hj as (x & co & Hd & _). rewrite Hso, <- Wi, <- (donated_indices _ _ _ _ HF).
        apply (in_map (fun d => fst (fst d))) in Hd. exact Hd.
      - assert (X : length old <= length (bob :: bkeys comms')).
        { apply NoDup_incl_length; [apply Hold|]. intros j Hj. destruct (u32_eq_dec j bob) as [->|Hjb]; [left; reflexivity|right].
          apply (without_keys _ _ _ W). rewrite Hcv. split; [|exact Hjb]. rewrite <- Hso in Hj. apply in_map_iff in Hj. destruct Hj as (k & <- & Hk). apply Hbk, Hk. }
        cbn [length] in X. unfold bkeys in *. lia. }
    exists outs', r6.
    assert (Hfst : forall o, In o outs' -> fst o = gk).
    { intros o Hi. destruct (forall2_in_r _ _ _ HO o Hi) as (q & _ & X & _). exact X. }
    assert (Hidx : map (fun o => sk_index (snd o)) outs' = before ++ after ++ [victim]).
    { transitivity (map idx every); [clear -HO; induction HO as [|q o every outs' (_ & X & _) _ IH]; cbn; congruence|].
      unfold every. rewrite map_app, Hrest. cbn [map]. rewrite Iw, <- app_assoc. reflexivity. }
    assert (Hpm : Permutation (before ++ after ++ [victim]) ids).
    { unfold ids. apply Permutation_app_head. symmetry. apply Permutation_cons_append. }
    assert (Hsk : map sk_index (map snd outs') = before ++ after ++ [victim]) by (rewrite map_map; exact Hidx).
    split.
    + apply Edoc. rewrite E7. cbn [bind length Nat.eqb assert_true]. fold all. rewrite E8. cbn [bind].
      rewrite (same_key_ok (hd Gzero (map fst outs)) outs'); [reflexivity|].
      intros o Hi. rewrite (Hfst o Hi), Egk. symmetry. apply hd_map_const; [|exact HK].
      intros X. rewrite X in Hso. cbn in Hso. rewrite <- Hso in Hbob. exact Hbob.
    + split; [exact Hidx|]. split.
      * split; [rewrite Hsk; split; [apply (Permutation_NoDup (Permutation_sym Hpm)), Hnd|intros X; apply Hz0, (Permutation_in _ Hpm), X]|].
        intros sub A1 A2 A3. apply gen_inj. rewrite <- Egk. apply (K4 (N.to_nat (u32v t)) sub); auto.
        -- intros j v Hj. apply bget_in, (without_in _ _ _ W) in Hj. destruct Hj as [Hj _]. apply in_bget in Hj; [|apply Hgc].
           apply (se_get _ _ _ Hsw) in Hj. destruct Hj as (x & co & Hd & ->). cbn [vss_points]. unfold committed. rewrite map_length.
           destruct (forall2_in_r _ _ _ HF _ Hd) as (w & _ & _ & B & _). pose proof (fd_len _ _ _ _ _ B) as B'. cbn [p_t params2] in B'. lia.
        -- intros k Hk. apply A1, in_map_iff in Hk. destruct Hk as (o & <- & Hi).
           destruct (forall2_in_r _ _ _ HO o Hi) as (q & _ & _ & _ & X). exact X.
      * intros o Hi. rewrite <- Egk. apply Hfst, Hi.
Qed.
Print Assumptions C111_resharing_with_a_wrong_share.

(** participants 2, 1, 3 generate a key with threshold 2 and reshare to 5, 1, 7, 2 with threshold 3; dealer 3 cheats on 7 *)
Definition rt_params : Params := MkParams (u 3) (u 2).
Definition outs_of {A B C D} (x : result (A * B * list C * D)) : list C := match x with Ok y => snd (fst y) | _ => [] end.
Definition rt_old : list (@G Toy * @SigningKey Toy) := outs_of (doc_generation (S := Toy) Debug (u 3) (u 2) [u 2; u 1; u 3] 5%N).
Definition rt_run (bob : N) (value : Fp) : result (list (G * SigningKey) * Rng) :=
  test_resharing (S := Toy) Debug rt_params rt_old (u 4) (u 3) [u 5; u 1] (u 7) [u 2] (u bob) value 91%N.
(** the value dealer 3 should have sent *)
Definition rt_right : result Fp :=
  let* (ss, r1) := each (new_signer (S := Toy) (MkParams (u 4) (u 3))) [u 5; u 1; u 7; u 2] 91%N in
  let* (ds, _) := each (fun o r => let* (d, es, _, r') := reshare (S := Toy) Debug (MkParams (u 4) (u 3)) (snd o) (map fst ss) r in Ok (d, es, r')) rt_old r1 in
  let* d := unwrap (nth_error ds 2) in
  let* x := unwrap (nth_error (map snd ss) 2) in
  let* e := unwrap (bget (u 7) (snd d)) in
  let* v := decrypt_share e (enc_point (pt_dh_pk (fst d) * x)%G) in
  Ok (sh_value v).
Definition rt_seen (x : result (list (G * SigningKey) * Rng)) : result (list u32 * bool * bool * bool) :=
  let* y := x in
  let outs := fst y in
  let keys := map snd outs in
  Ok (map sk_index keys, Geqb (hd Gzero (map fst outs)) (hd Gzero (map fst rt_old)),
      Feqb (interp0 (key_points (firstn 3 keys))) (interp0 (key_points (skipn 1 keys))),
      Feqb (interp0 (key_points (firstn 3 keys))) (interp0 (key_points (firstn 2 (map snd rt_old))))).
Example C111_ex_hypotheses : (exists s, holders [u 2; u 1; u 3] (N.to_nat (u32v (p_t rt_params))) s rt_old) /\
  N.of_nat (length [u 2; u 1; u 3]) = u32v (p_n rt_params) /\ (1 <= u32v (p_t rt_params))%N /\ (u32v (p_t rt_params) < u32v (p_n rt_params))%N /\
  In (u 3) [u 2; u 1; u 3] /\ (u32v (u 3) <= u32v (p_n rt_params))%N /\ good_indices ([u 5; u 1] ++ u 7 :: [u 2]) /\
  N.of_nat (length ([u 5; u 1] ++ u 7 :: [u 2])) = u32v (u 4) /\ (1 <= u32v (u 3) <= u32v (u 4))%N.
Proof.
  unfold rt_params. cbn [p_n p_t].
  assert (V : u32v (u 2) = 2%N /\ u32v (u 3) = 3%N /\ u32v (u 4) = 4%N) by (split; [|split]; reflexivity).
  destruct V as (V2 & V3 & V4). rewrite V2, V3, V4.
  repeat match goal with |- _ /\ _ => split end; try (cbn; lia); try good; try reflexivity; [|cbn; auto].
  destruct (C107_documented_key_generation Toy ToyLaws Debug (u 3) (u 2) [u 2; u 1; u 3] 5%N) as (ps & outs & r' & s & E & _ & HO & _).
  - good.
  - reflexivity.
  - rewrite V2, V3. lia.
  - exists s. unfold rt_old, outs_of. rewrite E. cbn [fst snd]. rewrite V2 in HO. exact HO.
Qed.
Example C111_ex_wrong_share : rt_seen (rt_run 3 (mk 42)) = Ok ([u 5; u 1; u 2; u 7], true, true, true).
Proof. vms. Qed.
Example C111_ex_right_value : (let* v := rt_right in rt_run 3 v) = Panic.
Proof. vms. Qed.
Definition im_run : result (list (G * SigningKey) * ThresholdSig * Rng) :=
  test_import (S := Toy) Debug (mk 4242) (u 4) (u 3) [u 5; u 1; u 7; u 2] [x01; x02] 17%N.
Definition im_seen : result (list u32 * bool * bool) :=
  let* y := im_run in
  let '(outs, sig, _) := y in
  Ok (map (fun o => sk_index (snd o)) outs, Feqb (interp0 (key_points (skipn 1 (map snd outs)))) (mk 4242),
      is_ok (verify_signature (@gen Toy * mk 4242)%G sig (h4 [x01; x02]))).
Example C111_ex_import : im_seen = Ok ([u 5; u 1; u 7; u 2], true, true).
Proof. vms. Qed.
