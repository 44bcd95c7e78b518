(** C70, C71: what resharing and aggregation do not check. *)
From Coq Require Import String Strings.Byte Arith NArith ZArith Bool List Permutation Sorted Lia Field.
From Verif Require Import Base Suite Spec SpecDkg SpecSign SpecRobust SpecEnd Types ModelDkg ModelSign Algebra BaseLemmas LemmasShare
  LemmasFinish LemmasSign LemmasAgg Toy Demo DemoDkg DemoSign PropsFinish PropsReshare PropsSign PropsAgg PropsEnd.
Import ListNotations.

(** C70: whatever keys the old participants put in, the new ones finish without any complaint, and hold a
    sharing of the interpolation of those keys *)
Theorem C70_resharing_accepts_any_keys :
  forall (S : Suite) (L : SuiteLaws S) (m : build) (params1 params2 : Params) (hs : list Heir) (ws : list Donor),
  honest_heirs params2 hs -> honest_donors m params2 hs ws ->
  N.of_nat (length ws) = u32v (p_n params1) -> (1 <= u32v (p_t params1) <= u32v (p_n params1))%N ->
  let s := interp0 (key_points (map w_key ws)) in
  exists key : u32 -> F,
    (forall z ps senders es r r2, In z hs -> Permutation ps (map w_d ws) -> Permutation senders ws -> received senders z es ->
       exists s1 r1 s2 r3, dkg_new m params1 (z_x z) (z_index z) ps r = Ok (s1, MkPList ps None, r1) /\
         to_round_two m s1 es r2 = Ok (s2, [], r3) /\
         finish s2 = Ok ((gen * s)%G, MkSK (z_index z) (key (z_index z)))) /\
    recovers (N.to_nat (u32v (p_t params2))) s (map (fun z => MkSK (z_index z) (key (z_index z))) hs).
Proof.
  intros S L m params1 params2 hs ws H HD Hn Ht s.
  destruct (donors_list m params2 hs ws H HD) as (ds & HF). exists (new_key ds). split.
  - intros z ps senders es r r2 Hz HPs HPw HR. eapply heir_ok; try eassumption. apply HD.
  - split; [rewrite map_map; apply H|]. intros sub Hsub Hnd Hl.
    apply (new_keys_recover params2 hs ws ds HF); auto.
    intros k Hk. apply Hsub, in_map_iff in Hk. destruct Hk as (z & <- & _). reflexivity.
Qed.
Print Assumptions C70_resharing_accepts_any_keys.

Section Interp.
  Context {S : Suite} {L : SuiteLaws S}.
  Add Field F_fld : F_field.
  Lemma weight_neq_0 i l : ~ In u32_zero l -> weight i l <> F0.
  Proof.
    intros Hz X. symmetry in X. apply weight_char in X.
    assert (HN : fprod (map of_u32 (others i l)) <> F0).
    { clear X. unfold others. induction l as [|j l IH]; cbn [filter map fprod]; [apply F1_neq_0|].
      assert (Hz' : ~ In u32_zero l) by (intros Y; apply Hz; right; exact Y).
      destruct (negb _); [|apply IH, Hz']. cbn [map fprod]. apply Fmul_neq_0; [|apply IH, Hz'].
      intros E. apply Hz. left. apply of_u32_inj. rewrite E. symmetry. apply of_u32_zero. }
    apply HN. rewrite <- X. ring.
  Qed.

  Lemma interp0_one i x rest : 
    interp0 (key_points (MkSK i x :: rest)) =
    (x * weight i (i :: map sk_index rest) +
     fsum (map (fun k => sk_key k * weight (sk_index k) (i :: map sk_index rest)) rest))%F.
  Proof.
    unfold interp0, key_points. cbn [map fsum fst snd sk_index sk_key].
    rewrite !map_map. cbn [fst snd]. reflexivity.
  Qed.

  Lemma solve_key i rest s' : good_indices (i :: map sk_index rest) ->
    exists x0, forall x, interp0 (key_points (MkSK i x :: rest)) = s' <-> x = x0.
  Proof.
    intros HG. pose proof (weight_neq_0 i _ (proj2 HG)) as Hw.
    exists ((s' - fsum (map (fun k => sk_key k * weight (sk_index k) (i :: map sk_index rest)) rest)) * Finv (weight i (i :: map sk_index rest)))%F.
    intros x. rewrite interp0_one. split.
    - intros <-. field. exact Hw.
    - intros ->. field. exact Hw.
  Qed.

  Lemma heir_group_key m params1 params2 hs ws z gk sk :
    honest_heirs params2 hs -> honest_donors m params2 hs ws ->
    N.of_nat (length ws) = u32v (p_n params1) -> (1 <= u32v (p_t params1) <= u32v (p_n params1))%N ->
    In z hs -> heir_run m params1 ws z (gk, sk) -> gk = (gen * interp0 (key_points (map w_key ws)))%G.
  Proof.
    intros H HD Hn Ht Hz (ds & senders & es & r & lists & r1 & s1 & r2 & s2 & cs & r3 & A1 & A2 & A3 & A4 & A5 & A6).
    destruct (C70_resharing_accepts_any_keys S L m params1 params2 hs ws H HD Hn Ht) as (key & K & _).
    destruct (K z ds senders es r r2 Hz A1 A2 A3) as (s1' & r1' & s2' & r3' & E1 & E2 & E3).
    rewrite A4 in E1. injection E1 as <- _ _. rewrite A5 in E2. injection E2 as <- _ _. rewrite A6 in E3. injection E3 as -> _. reflexivity.
  Qed.
End Interp.

(** the last dealer to choose its key decides the group key: every target is reached by exactly one value *)
Theorem C70_one_dealer_decides_the_group_key :
  forall (S : Suite) (L : SuiteLaws S) (i : u32) (rest : list SigningKey) (target : F),
  good_indices (i :: map sk_index rest) ->
  exists x0, forall (m : build) (params1 params2 : Params) (hs : list Heir) (ws : list Donor) (z : Heir) (gk : G) (sk : SigningKey) (x : F),
    honest_heirs params2 hs -> honest_donors m params2 hs ws -> Permutation (map w_key ws) (MkSK i x :: rest) ->
    N.of_nat (length ws) = u32v (p_n params1) -> (1 <= u32v (p_t params1) <= u32v (p_n params1))%N ->
    In z hs -> heir_run m params1 ws z (gk, sk) ->
    (gk = (gen * target)%G <-> x = x0).
Proof.
  intros S L i rest target HG. destruct (solve_key i rest target HG) as (x0 & Hx). exists x0.
  intros m params1 params2 hs ws z gk sk x H HD HP Hn Ht Hz HR.
  rewrite (heir_group_key m params1 params2 hs ws z gk sk H HD Hn Ht Hz HR).
  rewrite (interp0_perm (key_points (map w_key ws)) (key_points (MkSK i x :: rest))) by (unfold key_points; apply Permutation_map, HP).
  rewrite <- (Hx x). split; [apply gen_inj|intros ->; reflexivity].
Qed.
Print Assumptions C70_one_dealer_decides_the_group_key.

(** if all the others put in their old keys, the group key is kept exactly if the remaining one does too *)
Theorem C70_one_wrong_key_changes_the_group_key :
  forall (S : Suite) (L : SuiteLaws S) (m : build) (t : nat) (ks : list SigningKey) (s : F) (k : SigningKey) (rest : list SigningKey)
         (params1 params2 : Params) (hs : list Heir) (ws : list Donor) (z : Heir) (gk : G) (sk : SigningKey) (x : F),
  recovers t s ks -> (forall k', In k' (k :: rest) -> In k' ks) -> NoDup (map sk_index (k :: rest)) -> t <= length (k :: rest) ->
  honest_heirs params2 hs -> honest_donors m params2 hs ws -> Permutation (map w_key ws) (MkSK (sk_index k) x :: rest) ->
  N.of_nat (length ws) = u32v (p_n params1) -> (1 <= u32v (p_t params1) <= u32v (p_n params1))%N ->
  In z hs -> heir_run m params1 ws z (gk, sk) ->
  (gk = (gen * s)%G <-> x = sk_key k).
Proof.
  intros S L m t ks s k rest params1 params2 hs ws z gk sk x [[_ HZ] HR] Hin Hnd Hl H HD HP Hn Ht Hz Hrun.
  assert (HG : good_indices (sk_index k :: map sk_index rest)).
  { split; [exact Hnd|]. intros X. apply HZ. change (In u32_zero (map sk_index (k :: rest))) in X.
    apply in_map_iff in X. destruct X as (k' & E & X). apply in_map_iff. exists k'. auto. }
  destruct (solve_key (sk_index k) rest s HG) as (x0 & Hx).
  assert (E0 : sk_key k = x0).
  { apply Hx. destruct k as [i v]. cbn [sk_index sk_key] in *. apply HR; assumption. }
  rewrite (heir_group_key m params1 params2 hs ws z gk sk H HD Hn Ht Hz Hrun).
  rewrite (interp0_perm (key_points (map w_key ws)) (key_points (MkSK (sk_index k) x :: rest))) by (unfold key_points; apply Permutation_map, HP).
  rewrite E0, <- (Hx x). split; [apply gen_inj|intros ->; reflexivity].
Qed.
Print Assumptions C70_one_wrong_key_changes_the_group_key.

(** dealer 3 of the demo key generation puts in its key plus one: no participant is misbehaving, no complaint,
    and another group key; all hypotheses of the theorems above hold *)
Definition off_key : SigningKey := MkSK (u 3) (sk_key (demo_key 3) + mk 1)%F.
Definition off_donors : list Donor := [re_donor re_params off_key 71%N; re_donor re_params (demo_key 1) 72%N].
Example C70_ex_donors : honest_donors Debug re_params re_heirs off_donors.
Proof.
  constructor; [good|].
  assert (K : forall k seed, sk_index k <> u32_zero -> exists ps r lists r', Permutation ps (map z_p re_heirs) /\
    reshare Debug re_params (w_key (re_donor re_params k seed)) ps r =
      Ok (w_d (re_donor re_params k seed), w_es (re_donor re_params k seed), lists, r')).
  { intros k seed Hk.
    destruct (C32_reshare_succeeds Toy ToyLaws Debug re_params re_heirs k (map z_p re_heirs) seed C32_ex_heirs
      (Permutation_refl _) Hk) as (d & es & r' & E & _).
    exists (map z_p re_heirs), seed, (MkPList (map z_p re_heirs) None), r'. split; [apply Permutation_refl|].
    unfold re_donor. rewrite E. exact E. }
  intros w [<-|[<-|[]]]; apply K; apply u32_eqb_neq; vmr.
Qed.
Example C70_ex :
  re_run (MkParams (u 2) (u 2)) off_donors (re_heir 5) =
    Ok (None, 0, (toy_gen * interp0 (key_points [off_key; demo_key 1]))%G, re_key (MkParams (u 2) (u 2)) off_donors 5) /\
  u32_eqb (sk_index off_key) (sk_index (demo_key 3)) = true /\
  Geqb (toy_gen * interp0 (key_points [off_key; demo_key 1]))%G (toy_gen * interp0 (dealt_values demo_parties (mk 0)))%G = false /\
  interp0 (key_points (map (re_key (MkParams (u 2) (u 2)) off_donors) [8; 5; 7]%N)) = interp0 (key_points [off_key; demo_key 1]).
Proof. vms. Qed.

(** C71: partial signatures are not authenticated *)
Section Outcome.
  Context {S : Suite} {L : SuiteLaws S}.
  Add Field F_fld2 : F_field.

  Lemma sum_partials_ext (m1 m2 : bmap F) : forall l z, (forall s, In s l -> bget (sg_index s) m1 = bget (sg_index s) m2) ->
    sum_partials m1 l z = sum_partials m2 l z.
  Proof.
    induction l as [|s l IH]; intros z H; cbn [sum_partials]; [reflexivity|]. rewrite (H s (or_introl eq_refl)).
    destruct (bget _ m2); [|reflexivity]. apply IH. intros x Hx. apply H. right. exact Hx.
  Qed.
  Lemma find_bad_ext st1 st2 h c idx : ag_signers st1 = ag_signers st2 -> ag_keys st1 = ag_keys st2 ->
    forall l mis, (forall s, In s l -> bget (sg_index s) (ag_partials st1) = bget (sg_index s) (ag_partials st2)) ->
    find_bad st1 h c idx l mis = find_bad st2 h c idx l mis.
  Proof.
    intros E1 E2. induction l as [|s l IH]; intros mis H; cbn [find_bad]; [reflexivity|].
    rewrite (H s (or_introl eq_refl)), E1, E2. destruct (lagrange _ _); cbn [bind]; try reflexivity.
    destruct (bget _ (ag_partials st2)); [|reflexivity]. destruct (bget _ (ag_keys st2)); [|reflexivity].
    destruct (commitment_for_participant _ _ _); cbn [bind]; try reflexivity. apply IH. intros x Hx. apply H. right. exact Hx.
  Qed.
  Lemma filter_none {A} (f : A -> bool) l : (forall x, In x l -> f x = false) -> filter f l = [].
  Proof.
    induction l as [|x l IH]; intros H; cbn [filter]; [reflexivity|]. rewrite (H x (or_introl eq_refl)).
    apply IH. intros y Hy. apply H. right. exact Hy.
  Qed.
  Lemma bget_binsert_same {V} k (v : V) m : bget k (binsert k v m) = Some v.
  Proof. rewrite bget_binsert, u32_eqb_refl. reflexivity. Qed.
  Lemma bget_binsert_other {V} k k' (v : V) m : k' <> k -> bget k' (binsert k v m) = bget k' m.
  Proof. intros H. rewrite bget_binsert. apply u32_eqb_neq in H. rewrite H. reflexivity. Qed.
  Lemma shift_eq (x z z' : F) : (x - z + z' = x)%F -> z' = z.
  Proof. intros H. replace z' with ((x - z + z') - x + z)%F by ring. rewrite H. ring. Qed.

  (** the outcome only depends on the partial signatures of the signers *)
  Lemma outcome_ext a b : increasing (map sg_index (ag_signers (ai_state a))) ->
    ag_signers (ai_state a) = ag_signers (ai_state b) -> ag_keys (ai_state a) = ag_keys (ai_state b) ->
    ag_group_key (ai_state a) = ag_group_key (ai_state b) -> ai_message a = ai_message b ->
    (forall s, In s (ag_signers (ai_state a)) -> bget (sg_index s) (ag_partials (ai_state a)) = bget (sg_index s) (ag_partials (ai_state b))) ->
    outcome a = outcome b.
  Proof.
    intros HI E1 E2 E3 E4 HP. unfold outcome.
    rewrite (finalize_eq a HI), (finalize_eq b) by (rewrite <- E1; exact HI). cbv zeta. rewrite <- E1, <- E2, <- E4.
    assert (EF : filter (lacks (ag_partials (ai_state a))) (ag_signers (ai_state a)) = filter (lacks (ag_partials (ai_state b))) (ag_signers (ai_state a))).
    { apply filter_ext_in. intros s Hs. unfold lacks. rewrite (HP s Hs). reflexivity. }
    rewrite EF. destruct (map sg_index (filter (lacks (ag_partials _)) _)); [|reflexivity].
    destruct (map sg_index (filter (lacks (ag_keys _)) _)); [|reflexivity]. cbn [bind].
    unfold aggregate. cbn [af_state af_hash]. rewrite <- E1, <- E3.
    destruct (compute_binding_factors _ _); cbn [bind]; try reflexivity.
    destruct (compute_group_commitment _ _); cbn [bind]; try reflexivity.
    rewrite (sum_partials_ext _ _ _ F0 HP). destruct (sum_partials _ _ _); cbn [bind]; try reflexivity.
    destruct (is_ok _); [reflexivity|]. rewrite (find_bad_ext (ai_state a) (ai_state b)); auto.
  Qed.

  Lemma fsum_update (m : bmap F) i z z' : ksorted m -> bget i m = Some z -> forall l, NoDup (map sg_index l) -> In i (map sg_index l) ->
    fsum (map (fun s => val F0 (binsert i z' m) (sg_index s)) l) = (fsum (map (fun s => val F0 m (sg_index s)) l) - z + z')%F.
  Proof.
    intros Hs Hz l. induction l as [|s l IH]; intros Hnd Hin; [contradiction|]. cbn [map fsum]. inversion Hnd as [|? ? X Y]; subst.
    destruct Hin as [E|Hin].
    - rewrite E in *. assert (E2 : map (fun s => val F0 (binsert i z' m) (sg_index s)) l = map (fun s => val F0 m (sg_index s)) l).
      { apply map_ext_in. intros x Hx. unfold val. rewrite bget_binsert_other; [reflexivity|]. intros E3. apply X. rewrite <- E3. apply in_map, Hx. }
      rewrite E2. unfold val at 1 3. rewrite bget_binsert_same, Hz. ring.
    - rewrite (IH Y Hin). unfold val at 1 3. rewrite bget_binsert_other; [ring|]. intros E3. apply X. rewrite E3. exact Hin.
  Qed.

  Lemma ascending_one bad i : ascending bad -> (forall j, In j bad <-> j = i) -> bad = [i].
  Proof.
    intros HA HB. destruct bad as [|b bad]; [exfalso; exact (proj2 (HB i) eq_refl)|].
    pose proof (proj1 (HB b) (or_introl eq_refl)) as ->. destruct bad as [|b' bad]; [reflexivity|].
    pose proof (proj1 (HB b') (or_intror (or_introl eq_refl))) as ->. exfalso.
    inversion HA as [|? ? _ X]; subst. inversion X; subst. lia.
  Qed.
End Outcome.

(** anybody's message counts as the partial signature of the index it names, the last one wins: a value other than
    the recorded one turns a successful aggregation into an error naming the (honest) signer of that index alone;
    sending the right one again repairs it *)
Theorem C71_forged_message_frames_the_signer :
  forall (S : Suite) (L : SuiteLaws S) (p : Params) (gk : G) (msg : list byte) tr a sig i z z',
  agg_run (agg_new p gk msg) tr a -> outcome a = Ok sig ->
  let ss := ag_signers (ai_state a) in
  ~ In u32_zero (map sg_index ss) -> In i (map sg_index ss) ->
  (forall s pk v, In s ss -> last_key tr (sg_index s) pk -> last_partial tr (sg_index s) v -> partial_ok (h4 msg) gk ss s pk v) ->
  last_partial tr i z -> z' <> z ->
  let forged := include_partial_signature a (MkPSig i z') in
  outcome forged = Err (MisbehavingParticipants [i]) /\
  outcome (include_partial_signature forged (MkPSig i z)) = Ok sig.
Proof.
  intros S L p gk msg tr a sig i z z' H HO. cbv zeta. intros H0 Hi Hok Hz Hne.
  pose proof (holds_run _ _ _ _ _ H) as HH. pose proof (proj2 (hs_parts _ _ _ _ _ HH i z) Hz) as Ez.
  set (b := include_partial_signature a (MkPSig i z')).
  assert (Hb : agg_run (agg_new p gk msg) (tr ++ [(CPart (MkPSig i z'), Ok tt)]) b).
  { apply agg_run_app. exists a. split; [exact H|]. apply ag_part, ag_nil. }
  pose proof (holds_run _ _ _ _ _ Hb) as HHb.
  assert (Ess : ag_signers (ai_state b) = ag_signers (ai_state a)) by reflexivity.
  assert (Esk : ag_keys (ai_state b) = ag_keys (ai_state a)) by reflexivity.
  assert (Epart : ag_partials (ai_state b) = binsert i z' (ag_partials (ai_state a))) by reflexivity.
  assert (Egk : ag_group_key (ai_state b) = ag_group_key (ai_state a)) by reflexivity.
  assert (Emsg : ai_message b = ai_message a) by reflexivity.
  clearbody b.
  unfold outcome in HO. destruct (finalize a) as [f|e|] eqn:HF; try discriminate. cbn [bind] in HO.
  destruct (finalize_inv a f (hs_inc _ _ _ _ _ HH) HF) as (Ef & HP & HK).
  assert (Hne0 : ag_signers (ai_state a) <> []) by (intros X; rewrite X in Hi; exact Hi).
  assert (HFb : finalize b = Ok (MkFinal (ai_state b) (h4 (ai_message b)))).
  { rewrite finalize_eq by (rewrite Ess; apply HH). cbv zeta. rewrite Ess, Esk.
    assert (X1 : filter (lacks (ag_partials (ai_state b))) (ag_signers (ai_state a)) = []).
    { apply filter_none. intros s Hs. unfold lacks. rewrite Epart. destruct (HP s Hs) as [v Hv].
      destruct (u32_eq_dec (sg_index s) i) as [->|E]; [rewrite bget_binsert_same|rewrite bget_binsert_other, Hv by exact E]; reflexivity. }
    assert (X2 : filter (lacks (ag_keys (ai_state a))) (ag_signers (ai_state a)) = []).
    { apply filter_none. intros s Hs. unfold lacks. destruct (HK s Hs) as [v ->]. reflexivity. }
    rewrite X1, X2. reflexivity. }
  split.
  - unfold outcome. rewrite HFb. cbn [bind].
    destruct (C45_blame_is_exact S L p gk msg _ b _ Hb HFb) as [(sig' & X)|(bad & X & HA & HB)].
    + rewrite Ess. exact Hne0.
    + rewrite Ess. exact H0.
    + exfalso. destruct (C44_aggregate_returns_only_valid_signatures S L _ _ X) as (V' & _).
      destruct (C44_aggregate_returns_only_valid_signatures S L _ _ HO) as (V & _).
      rewrite Ef in HO, V.
      rewrite aggregate_eq in HO by (try exact Hne0; exact HP). cbv zeta in HO. cbn [af_state af_hash] in HO.
      destruct (is_ok _) in HO; [|destruct (find_bad _ _ _ _ _ _) in HO; discriminate]. injection HO as <-.
      rewrite aggregate_eq in X.
      2: { cbn [af_state]. rewrite Ess. exact Hne0. }
      2: { cbn [af_state]. rewrite Ess, Epart. intros s Hs. destruct (u32_eq_dec (sg_index s) i) as [->|E].
           - rewrite bget_binsert_same. eauto.
           - rewrite bget_binsert_other by exact E. apply HP, Hs. }
      cbv zeta in X. cbn [af_state af_hash] in X. destruct (is_ok _) in X; [|destruct (find_bad _ _ _ _ _ _) in X; discriminate].
      injection X as <-. cbn [af_state af_hash] in V, V'. rewrite Ess, Epart, Egk, Emsg in V'.
      rewrite (fsum_update (ag_partials (ai_state a)) i z z' (hs_psort _ _ _ _ _ HH) Ez (ag_signers (ai_state a))) in V'
        by (try exact Hi; apply increasing_NoDup, HH).
      destruct (C36_one_valid_response S L (ag_group_key (ai_state a)) (group_nonce (h4 (ai_message a)) (ag_signers (ai_state a))) (h4 (ai_message a))) as (z0 & _ & U).
      apply U in V, V'. rewrite <- V in V'. apply Hne, (shift_eq _ _ _ V').
    + rewrite X. do 2 f_equal. apply ascending_one; [exact HA|]. intros j. rewrite HB. split.
      * intros (s & pk & v & I1 & I2 & I3 & I4 & I5). destruct (u32_eq_dec j i) as [E|E]; [exact E|exfalso].
        rewrite Ess in *. apply I5. subst j. apply (hs_keys _ _ _ _ _ HHb) in I3. rewrite Esk in I3. apply (hs_keys _ _ _ _ _ HH) in I3.
        apply (hs_parts _ _ _ _ _ HHb) in I4. rewrite Epart, bget_binsert_other in I4 by exact E. apply (hs_parts _ _ _ _ _ HH) in I4.
        apply Hok; assumption.
      * intros ->. apply in_map_iff in Hi. destruct Hi as (s & Es & Hs). destruct (HK s Hs) as [pk Hpk]. rewrite Es in Hpk.
        exists s, pk, z'. rewrite Ess. split; [exact Hs|]. split; [exact Es|]. split; [apply (hs_keys _ _ _ _ _ HHb); rewrite Esk; exact Hpk|].
        split; [apply (hs_parts _ _ _ _ _ HHb); rewrite Epart; apply bget_binsert_same|].
        intros Y. apply Hne. eapply partial_ok_unique; [exact Y|]. apply Hok; [exact Hs| |]; rewrite Es; [apply (hs_keys _ _ _ _ _ HH), Hpk|exact Hz].
  - transitivity (outcome a); [symmetry|unfold outcome; rewrite HF; exact HO].
    apply outcome_ext; cbn [include_partial_signature ai_state ag_signers ag_keys ag_group_key ag_partials ai_message ps_index ps_z]; try (symmetry; assumption); [apply HH|].
    intros s Hs. rewrite Epart.
    destruct (u32_eq_dec (sg_index s) i) as [->|E]; [rewrite bget_binsert_same; exact Ez|].
    rewrite !bget_binsert_other by exact E. reflexivity.
Qed.
Print Assumptions C71_forged_message_frames_the_signer.

(** partial signatures for indices that are not signers never matter *)
Theorem C71_foreign_messages_are_ignored :
  forall (S : Suite) (L : SuiteLaws S) (p : Params) (gk : G) (msg : list byte) tr a q,
  agg_run (agg_new p gk msg) tr a -> ~ In (ps_index q) (map sg_index (ag_signers (ai_state a))) ->
  outcome (include_partial_signature a q) = outcome a.
Proof.
  intros S L p gk msg tr a q H Hn. pose proof (holds_run _ _ _ _ _ H) as HH. symmetry.
  apply outcome_ext; try reflexivity; [apply HH|]. intros s Hs.
  change (ag_partials (ai_state (include_partial_signature a q))) with (binsert (ps_index q) (ps_z q) (ag_partials (ai_state a))).
  rewrite bget_binsert_other; [reflexivity|]. intros E. apply Hn. rewrite <- E. apply in_map, Hs.
Qed.
Print Assumptions C71_foreign_messages_are_ignored.

Lemma all_ok_check {S : Suite} {L : SuiteLaws S} p gk msg tr a : agg_run (agg_new p gk msg) tr a ->
  forallb (fun s => negb (failing (ai_state a) (h4 msg) s)) (ag_signers (ai_state a)) = true ->
  forall s pk v, In s (ag_signers (ai_state a)) -> last_key tr (sg_index s) pk -> last_partial tr (sg_index s) v ->
    partial_ok (h4 msg) gk (ag_signers (ai_state a)) s pk v.
Proof.
  intros H HF s pk v Hs Hk Hp. pose proof (holds_run _ _ _ _ _ H) as HH. apply (hs_keys _ _ _ _ _ HH) in Hk. apply (hs_parts _ _ _ _ _ HH) in Hp.
  rewrite forallb_forall in HF. specialize (HF s Hs). pose proof (failing_spec (ai_state a) (h4 msg) s pk v Hp Hk) as X.
  rewrite (hs_gk _ _ _ _ _ HH) in X. rewrite negb_true_iff in HF. unfold partial_ok in *. apply Geqb_spec.
  destruct (Geqb _ _) eqn:E; [reflexivity|]. exfalso. apply Geqb_neq in E. apply X in E. congruence.
Qed.
Lemma last_partial_check {S : Suite} {L : SuiteLaws S} p gk msg tr a i z : agg_run (agg_new p gk msg) tr a ->
  bget i (ag_partials (ai_state a)) = Some z -> last_partial tr i z.
Proof. intros H. apply (hs_parts _ _ _ _ _ (holds_run _ _ _ _ _ H)). Qed.

(** signers 1 and 3 have signed; an outsider sends 5 as the partial signature of signer 3, and one for index 2 *)
Lemma c71_checks : forallb (fun s => negb (failing (ai_state (snd (c69_run [1; 3]%Z 1 2))) (h4 [x68; x69]) s))
  (ag_signers (ai_state (snd (c69_run [1; 3]%Z 1 2)))) = true.
Proof. vmr. Qed.
Lemma c71_recorded : bget (u 3) (ag_partials (ai_state (snd (c69_run [1; 3]%Z 1 2)))) =
  Some (ps_z (spartial 3 1 (ag_signers (ai_state (snd (c69_run [1; 3]%Z 1 2)))))).
Proof. vmr. Qed.
Example C71_ex :
  let tr := fst (c69_run [1; 3]%Z 1 2) in let a := snd (c69_run [1; 3]%Z 1 2) in
  agg_run (agg_new c69_params sgroup [x68; x69]) tr a /\
  (forall s pk v, In s (ag_signers (ai_state a)) -> last_key tr (sg_index s) pk -> last_partial tr (sg_index s) v ->
     partial_ok (h4 [x68; x69]) sgroup (ag_signers (ai_state a)) s pk v) /\
  last_partial tr (u 3) (ps_z (spartial 3 1 (ag_signers (ai_state a)))).
Proof.
  cbv zeta. split; [apply c69_run_ok|]. split.
  - exact (@all_ok_check Toy ToyLaws _ _ _ _ _ (c69_run_ok [1; 3]%Z 1 2%Z) c71_checks).
  - exact (@last_partial_check Toy ToyLaws _ _ _ _ _ _ _ (c69_run_ok [1; 3]%Z 1 2%Z) c71_recorded).
Qed.
Example C71_ex_outcome :
  let a := snd (c69_run [1; 3]%Z 1 2) in
  map sg_index (ag_signers (ai_state a)) = [u 1; u 3] /\
  is_ok (outcome a) = true /\
  outcome (include_partial_signature a (MkPSig (u 3) (mk 5))) = Err (MisbehavingParticipants [u 3]) /\
  outcome (include_partial_signature a (MkPSig (u 2) (mk 5))) = outcome a.
Proof. vms. Qed.
