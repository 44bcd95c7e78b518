(** C72: secrecy against an adversary that moves between epochs. *)
From Coq Require Import String Strings.Byte Arith NArith ZArith Bool List Permutation Sorted Lia Field.
From Verif Require Import Base Suite Spec SpecDkg SpecEpoch Types ModelDkg Algebra BaseLemmas LemmasShare LemmasFinish
  Toy Demo DemoDkg PropsFinish PropsReshare PropsAttack.
Import ListNotations.

Section Epochs.
  Context {S : Suite} {L : SuiteLaws S}.
  Add Field F_fld : F_field.

  Lemma key_polyfun e : well_dealt e ->
    exists f, polyfun (ep_t e) f /\ (forall i, key_of e i = f (of_u32 i)) /\ secret_of e = f F0.
  Proof.
    intros H. set (l := map dl_from (ep_deals e)).
    exists (fun x => fsum (map (fun d => weight (dl_from d) l * poly_value (dl_co d) x)%F (ep_deals e))). split.
    - apply (polyfun_sum (ep_t e) (fun d x => weight (dl_from d) l * poly_value (dl_co d) x)%F). intros d Hd.
      apply polyfun_scale, polyfun_poly_value. rewrite (wd_length _ H d Hd). lia.
    - unfold key_of, secret_of, interp0. split; [intros i|]; rewrite !map_map; cbn [fst snd]; change (map (fun x : Deal => dl_from x) (ep_deals e)) with l; f_equal; apply map_ext;
        intros d; ring.
  Qed.

  Lemma follows_secret e n : well_dealt e -> well_dealt n -> follows e n -> secret_of n = secret_of e.
  Proof.
    intros He Hn [Hl Hf]. destruct (key_polyfun e He) as (f & Pf & Kf & ->).
    rewrite (lagrange_zero (map dl_from (ep_deals n)) f).
    - unfold secret_of, interp0. rewrite !map_map. cbn [fst snd]. f_equal. apply map_ext_in. intros d Hd.
      rewrite <- Kf. f_equal. rewrite poly_value_0. apply Hf in Hd. destruct (dl_co d); [discriminate|]. cbn in *. congruence.
    - apply Hn.
    - eapply polyfun_mono; [|exact Pf]. rewrite map_length. exact Hl.
  Qed.

  (** every dealing that differs only in what the adversary does not see gives it the same keys *)
  Lemma same_keys A (ds ds' : list Deal) :
    Forall2 (fun d d' => dl_from d' = dl_from d /\ forall i, In i A -> poly_value (dl_co d') (of_u32 i) = poly_value (dl_co d) (of_u32 i)) ds ds' ->
    forall i, In i A -> map (fun d => (dl_from d, poly_value (dl_co d) (of_u32 i))) ds' = map (fun d => (dl_from d, poly_value (dl_co d) (of_u32 i))) ds.
  Proof. intros H i Hi. induction H as [|d d' ds ds' [H1 H2] H IH]; cbn [map]; [reflexivity|]. rewrite IH, H1, (H2 i Hi). reflexivity. Qed.

  Lemma redeal (e : Epoch) (A B : list u32) (v : u32 -> F) : well_dealt e -> good_indices A -> length A < ep_t e ->
    (forall d, In d (ep_deals e) -> In (dl_from d) B -> hd_error (dl_co d) = Some (v (dl_from d))) ->
    exists ds', Forall2 (fun d d' => dl_from d' = dl_from d /\ (In (dl_from d) B -> dl_co d' = dl_co d) /\
        forall i, In i A -> poly_value (dl_co d') (of_u32 i) = poly_value (dl_co d) (of_u32 i)) (ep_deals e) ds' /\
      (forall d, In d ds' -> length (dl_co d) = ep_t e /\ hd_error (dl_co d) = Some (v (dl_from d))).
  Proof.
    intros He [HA1 HA2] Hl Hb.
    assert (HL : forall d, In d (ep_deals e) -> length (dl_co d) = ep_t e) by apply He. clear He.
    induction (ep_deals e) as [|d ds IH]; [exists []; split; [constructor|intros ? []]|].
    destruct IH as (ds' & I1 & I2); [intros; apply Hb; auto using in_cons|intros; apply HL; auto using in_cons|].
    assert (X : exists co, length co = ep_t e /\ hd_error co = Some (v (dl_from d)) /\ (In (dl_from d) B -> co = dl_co d) /\
      forall i, In i A -> poly_value co (of_u32 i) = poly_value (dl_co d) (of_u32 i)).
    { destruct (in_dec u32_eq_dec (dl_from d) B) as [Hin|Hin].
      - exists (dl_co d). split; [apply HL; left; reflexivity|]. split; [apply Hb; [left; reflexivity|exact Hin]|]. auto.
      - destruct (secrecy_exists (ep_t e) (dl_co d) A (v (dl_from d))) as (b & B1 & B2 & B3); auto; [apply HL; left; reflexivity|].
        exists b. split; [exact B1|]. split; [|split; [contradiction|exact B3]].
        rewrite poly_value_0 in B2. destruct b; cbn in *; [lia|congruence]. }
    destruct X as (co & X1 & X2 & X3 & X4). exists (MkDeal (dl_from d) co :: ds'). split.
    - constructor; [cbn [dl_from dl_co]; auto|exact I1].
    - intros d' [<-|Hd']; [cbn [dl_from dl_co]; auto|apply I2, Hd'].
  Qed.
  Lemma redeal_from (R : Deal -> Deal -> Prop) ds ds' : Forall2 (fun d d' => dl_from d' = dl_from d /\ R d d') ds ds' -> map dl_from ds' = map dl_from ds.
  Proof. induction 1 as [|d d' ds ds' [H _] HF IH]; cbn; [reflexivity|]. rewrite IH, H. reflexivity. Qed.

  Lemma next_epoch e e' n A An : well_dealt e -> well_dealt e' -> ep_t e' = ep_t e -> (forall i, In i A -> key_of e' i = key_of e i) ->
    well_dealt n -> follows e n -> good_indices An -> length An < ep_t n ->
    exists n', well_dealt n' /\ follows e' n' /\ looks_same A An n n'.
  Proof.
    intros He He' Ht HK Hn [F1 F2] HA Hl.
    destruct (redeal n An A (key_of e') Hn HA Hl) as (ds' & R1 & R2).
    { intros d Hd Hin. rewrite (HK _ Hin). apply F2, Hd. }
    pose proof (redeal_from (fun d d' => (In (dl_from d) A -> dl_co d' = dl_co d) /\
        forall i, In i An -> poly_value (dl_co d') (of_u32 i) = poly_value (dl_co d) (of_u32 i)) _ _ R1) as HI.
    exists (MkEpoch (ep_t n) ds'). split; [|split].
    - constructor; cbn [ep_t ep_deals]; [apply Hn|rewrite HI; apply Hn|]. intros d Hd. apply R2, Hd.
    - split; cbn [ep_t ep_deals].
      + rewrite Ht. rewrite <- (map_length dl_from ds'), HI, map_length. exact F1.
      + intros d Hd. apply R2, Hd.
    - constructor; cbn [ep_t ep_deals]; [reflexivity|exact R1|]. intros i Hi. unfold key_of. cbn [ep_deals]. f_equal.
      apply (same_keys An); [|exact Hi]. clear -R1. induction R1 as [|d d' ds ds' (A1 & _ & A2) R IH]; constructor; auto.
  Qed.

  Lemma other_chain es : forall e e' A As, well_dealt e -> well_dealt e' -> ep_t e' = ep_t e -> (forall i, In i A -> key_of e' i = key_of e i) ->
    chain e es -> few As es -> exists es', chain e' es' /\ same_views A As es es' /\ forall x, In x es' -> secret_of x = secret_of e'.
  Proof.
    induction es as [|n es IH]; intros e e' A As He He' Ht HK HC HF.
    - inversion HF; subst. exists []. split; [exact I|]. split; [constructor|intros ? []].
    - destruct HC as (Hn & Hf & HC). inversion HF as [|An n0 As' es0 [G1 G2] HF']; subst.
      destruct (next_epoch e e' n A An He He' Ht HK Hn Hf G1 G2) as (n' & N1 & N2 & N3).
      destruct (IH n n' An As' Hn N1 (ls_t _ _ _ _ N3) (ls_keys _ _ _ _ N3) HC HF') as (es' & C1 & C2 & C3).
      exists (n' :: es'). split; [cbn [chain]; auto|]. split; [constructor; assumption|].
      intros x [<-|Hx]; [apply follows_secret; assumption|]. rewrite (C3 x Hx). apply follows_secret; assumption.
  Qed.

  Lemma outside (A l : list u32) : NoDup l -> length A < length l -> exists h, In h l /\ ~ In h A.
  Proof.
    intros Hn Hl. destruct (existsb (fun i => negb (if in_dec u32_eq_dec i A then true else false)) l) eqn:E.
    - apply existsb_exists in E. destruct E as (h & Hh & E). exists h. split; [exact Hh|]. destruct (in_dec _ h A); [discriminate|assumption].
    - exfalso. assert (X : incl l A).
      { intros i Hi. destruct (in_dec u32_eq_dec i A) as [Y|Y]; [exact Y|]. exfalso.
        assert (existsb (fun i => negb (if in_dec u32_eq_dec i A then true else false)) l = true); [|congruence].
        apply existsb_exists. exists i. split; [exact Hi|]. destruct (in_dec _ i A); [contradiction|reflexivity]. }
      apply NoDup_incl_length in X; [lia|exact Hn].
  Qed.
  Lemma fsum_one (ds : list Deal) h (w : u32 -> F) (v : Deal -> F) dl : NoDup (map dl_from ds) -> In h (map dl_from ds) ->
    fsum (map (fun d => (v d + (if u32_eqb (dl_from d) h then dl else F0)) * w (dl_from d))%F ds) =
    (fsum (map (fun d => v d * w (dl_from d)) ds) + dl * w h)%F.
  Proof.
    induction ds as [|d ds IH]; intros Hn Hin; [contradiction|]. cbn [map fsum]. inversion Hn as [|? ? X Y]; subst.
    destruct (u32_eqb (dl_from d) h) eqn:E.
    - apply u32_eqb_spec in E. subst h.
      assert (E2 : map (fun d0 => ((v d0 + (if u32_eqb (dl_from d0) (dl_from d) then dl else F0)) * w (dl_from d0))%F) ds = map (fun d0 => (v d0 * w (dl_from d0))%F) ds).
      { apply map_ext_in. intros d0 Hd0. replace (u32_eqb (dl_from d0) (dl_from d)) with false; [ring|].
        symmetry. apply u32_eqb_neq. intros E. apply X. rewrite <- E. apply in_map, Hd0. }
      rewrite E2. ring.
    - apply u32_eqb_neq in E. destruct Hin as [Hin|Hin]; [contradiction|]. rewrite (IH Y Hin). ring.
  Qed.
  Lemma Forall2_weaken {X Y} (P Q : X -> Y -> Prop) l l' : (forall x y, P x y -> Q x y) -> Forall2 P l l' -> Forall2 Q l l'.
  Proof. intros H. induction 1; constructor; auto. Qed.
  Lemma add_zero (x : F) : x = (x + F0)%F.
  Proof. ring. Qed.
  Lemma unshift (s a w : F) : w <> F0 -> (a + (s - a) * Finv w * w = s)%F.
  Proof. intros H. field. exact H. Qed.
End Epochs.

(** C72: in key generation and every later epoch fewer participants than the threshold of that epoch are corrupted,
    others in each. All they see - everything they deal, every share dealt to them, every key they hold - could
    have been seen with any other secret. (The commitments, which fix the secret up to a discrete logarithm,
    are not part of this view.) *)
Theorem C72_moving_adversary_learns_nothing :
  forall (S : Suite) (L : SuiteLaws S) (e : Epoch) (es : list Epoch) (A : list u32) (As : list (list u32)) (s : F),
  well_dealt e -> ep_t e <= length (ep_deals e) -> chain e es -> few (A :: As) (e :: es) ->
  exists e' es', well_dealt e' /\ chain e' es' /\ same_views A (A :: As) (e :: es) (e' :: es') /\
    forall x, In x (e' :: es') -> secret_of x = s.
Proof.
  intros S L e es A As s He Hl HC HF. inversion HF as [|A0 e0 As0 es0 [HA HAl] HF']; subst.
  destruct (outside A (map dl_from (ep_deals e))) as (h & Hh & HhA); [apply He|rewrite map_length; lia|].
  set (l := map dl_from (ep_deals e)) in *.
  pose proof (weight_neq_0 h l (proj2 (wd_dealers _ He))) as Hw.
  assert (Edl : exists dl, dl = ((s - secret_of e) * Finv (weight h l))%F) by eauto. destruct Edl as [dl Edl].
  set (B := A ++ filter (fun i => negb (u32_eqb i h)) l).
  assert (HAv : forall d, In d (ep_deals e) -> exists a0, hd_error (dl_co d) = Some a0 /\ poly_value (dl_co d) F0 = a0).
  { intros d Hd. pose proof (wd_length _ He d Hd). pose proof (wd_positive _ He). rewrite poly_value_0. destruct (dl_co d) as [|a0 co]; cbn in *; [lia|eauto]. }
  (* the new constant terms, looked up by dealer *)
  set (v := fun i => match find (fun d => u32_eqb (dl_from d) i) (ep_deals e) with
                     | Some d => (poly_value (dl_co d) F0 + (if u32_eqb i h then dl else F0))%F | None => F0 end).
  assert (Hv : forall d, In d (ep_deals e) -> v (dl_from d) = (poly_value (dl_co d) F0 + (if u32_eqb (dl_from d) h then dl else F0))%F).
  { intros d Hd. unfold v. assert (Hnd : NoDup (map dl_from (ep_deals e))) by apply He. clear -Hd Hnd.
    induction (ep_deals e) as [|d0 ds IH]; [contradiction|]. cbn [find]. inversion Hnd as [|? ? X Y]; subst.
    destruct Hd as [->|Hd]; [rewrite u32_eqb_refl; reflexivity|]. destruct (u32_eqb (dl_from d0) (dl_from d)) eqn:E; [|apply IH; assumption].
    apply u32_eqb_spec in E. exfalso. apply X. rewrite E. apply in_map, Hd. }
  destruct (redeal e A B v He HA HAl) as (ds' & R1 & R2).
  { intros d Hd HB. rewrite (Hv d Hd). assert (E : u32_eqb (dl_from d) h = false).
    { apply in_app_or in HB. destruct HB as [HB|HB]; [apply u32_eqb_neq; intros Y; rewrite Y in HB; contradiction|].
      apply filter_In in HB. destruct HB as [_ HB]. destruct (u32_eqb (dl_from d) h); [discriminate|reflexivity]. }
    rewrite E. destruct (HAv d Hd) as (a0 & -> & ->). f_equal. apply add_zero. }
  pose proof (redeal_from (fun d d' => (In (dl_from d) B -> dl_co d' = dl_co d) /\
      forall i, In i A -> poly_value (dl_co d') (of_u32 i) = poly_value (dl_co d) (of_u32 i)) _ _ R1) as HI.
  set (e' := MkEpoch (ep_t e) ds').
  assert (He' : well_dealt e').
  { constructor; cbn [e' ep_t ep_deals]; [apply He|rewrite HI; apply He|]. intros d Hd. apply R2, Hd. }
  assert (LS : looks_same A A e e').
  { constructor; cbn [e' ep_t ep_deals]; [reflexivity| |].
    - eapply Forall2_weaken; [|exact R1]. intros d d' (X1 & X2 & X3). split; [exact X1|]. split; [|exact X3].
      intros Hin. apply X2, in_or_app. left. exact Hin.
    - intros i Hi. unfold key_of. cbn [ep_deals]. f_equal.
      apply (same_keys A); [|exact Hi]. clear -R1. induction R1 as [|d d' ds ds' (A1 & _ & A2) R IH]; constructor; auto. }
  assert (HS : secret_of e' = s).
  { unfold secret_of. cbn [e' ep_deals].
    assert (E1 : map (fun d => (dl_from d, poly_value (dl_co d) F0)) ds' = map (fun i => (i, v i)) (map dl_from ds')).
    { rewrite map_map. apply map_ext_in. intros d Hd. f_equal. rewrite poly_value_0. destruct (R2 d Hd) as [_ X].
      destruct (dl_co d); [discriminate|]. cbn in *. congruence. }
    rewrite E1, HI. unfold interp0. rewrite !map_map. cbn [fst snd]. fold l. change (map (fun x : Deal => dl_from x) (ep_deals e)) with l.
    rewrite (map_ext_in _ (fun d => ((poly_value (dl_co d) F0 + (if u32_eqb (dl_from d) h then dl else F0)) * weight (dl_from d) l)%F))
      by (intros d Hd; rewrite (Hv d Hd); reflexivity).
    rewrite (fsum_one (ep_deals e) h (fun i => weight i l) (fun d => poly_value (dl_co d) F0) dl) by (try exact Hh; apply He).
    replace (fsum (map (fun d => (poly_value (dl_co d) F0 * weight (dl_from d) l)%F) (ep_deals e))) with (secret_of e)
      by (unfold secret_of, interp0; rewrite !map_map; reflexivity).
    rewrite Edl. apply unshift. exact Hw. }
  destruct (other_chain es e e' A As He He' eq_refl (ls_keys _ _ _ _ LS) HC HF') as (es' & C1 & C2 & C3).
  exists e', es'. split; [exact He'|]. split; [exact C1|]. split; [constructor; assumption|].
  intros x [<-|Hx]; [exact HS|]. rewrite (C3 x Hx). exact HS.
Qed.
Print Assumptions C72_moving_adversary_learns_nothing.

(** key generation and resharing through the API are such dealings: the keys that finish returns are the ones above *)
Definition generation {S : Suite} (params : Params) (parties : list Party) : Epoch :=
  MkEpoch (N.to_nat (u32v (p_t params))) (map (fun p => MkDeal (y_index p) (y_co p)) parties).
Theorem C72_key_generation_is_an_epoch :
  forall (S : Suite) (L : SuiteLaws S) (m : build) (params : Params) (parties : list Party),
  honest_parties params parties -> all_bootstrapped m params parties ->
  let e := generation params parties in
  well_dealt e /\ ep_t e <= length (ep_deals e) /\
  forall q senders es r, In q parties -> Permutation senders parties -> delivered senders q es ->
    exists s2 r', to_round_two m (y_st q) es r = Ok (s2, [], r') /\
      finish s2 = Ok ((gen * secret_of e)%G, MkSK (y_index q) (key_of e (y_index q))).
Proof.
  intros S L m params parties H HB. cbv zeta.
  assert (Hd : forall x, map (fun d => (dl_from d, poly_value (dl_co d) x)) (ep_deals (generation params parties)) = dealt_values parties x).
  { intros x. unfold generation, dealt_values. cbn [ep_deals]. rewrite map_map. reflexivity. }
  pose proof (hp_threshold _ _ H) as Ht. pose proof (hp_count _ _ H) as Hn.
  split; [|split].
  - constructor; cbn [generation ep_t ep_deals].
    + lia.
    + rewrite map_map. apply H.
    + intros d X. apply in_map_iff in X. destruct X as (p & <- & Hp). cbn [dl_co].
      destruct (honest_fresh params parties p H Hp) as [_ _ Hlen _ _ _]. exact Hlen.
  - cbn [generation ep_t ep_deals]. rewrite map_length. lia.
  - intros q senders es r Hq HP HD. destruct (C18_honest_agreement S L m params parties H HB) as (s & -> & K).
    destruct (K q senders es r Hq HP HD) as (s2 & r' & sk & K1 & K2 & K3 & K4 & _).
    exists s2, r'. split; [exact K1|]. rewrite K2. unfold secret_of, key_of. rewrite !Hd, <- K3. destruct sk as [i v]. cbn [sk_index sk_key] in *.
    rewrite K3, <- K4. reflexivity.
Qed.
Print Assumptions C72_key_generation_is_an_epoch.

Theorem C72_resharing_is_an_epoch :
  forall (S : Suite) (L : SuiteLaws S) (m : build) (e : Epoch) (ks : list SigningKey) (gks : list G) (t2 : nat) (ks' : list SigningKey),
  (forall k, In k ks -> sk_key k = key_of e (sk_index k)) -> resharing m (ep_t e) ks gks t2 ks' ->
  exists n, well_dealt n /\ follows e n /\ ep_t n = t2 /\
    (forall d, In d (ep_deals n) -> In (dl_from d) (map sk_index ks)) /\
    (forall k, In k ks' -> sk_key k = key_of n (sk_index k)) /\ (forall gk, In gk gks -> gk = (gen * secret_of n)%G).
Proof.
  intros S L m e ks gks t2 ks' HK (params1 & params2 & hs & ws & outs & A1 & A2 & A3 & A4 & A5 & A6 & A7 & A8 & -> & ->).
  destruct (donors_list m params2 hs ws A6 A7) as (ds & HF). pose proof (hd_indices _ _ _ _ A7) as HI.
  pose proof (Forall2_len _ _ _ HF) as HL. pose proof (hh_threshold _ _ A6) as Ht2.
  assert (E1 : old_points ds = key_points (map w_key ws)) by (eapply donated_points, HF).
  assert (E2 : map (fun d : u32 * F * list F => fst (fst d)) ds = map (fun w => sk_index (w_key w)) ws) by (eapply donated_indices, HF).
  set (n := MkEpoch t2 (map (fun d : u32 * F * list F => MkDeal (fst (fst d)) (snd d)) ds)).
  assert (HN : forall d, In d ds -> exists w, In w ws /\ donated params2 hs w d).
  { clear -HF. induction HF as [|w d ws ds H HF IH]; [intros ? []|]. intros d' [<-|Hd]; [exists w; cbn; auto|].
    destruct (IH d' Hd) as (w' & X & Y). exists w'. cbn; auto. }
  assert (EK : forall i, key_of n i = new_key ds i) by (intros i; unfold key_of, new_key, n; cbn [ep_deals]; rewrite map_map; reflexivity).
  assert (ES : secret_of n = interp0 (key_points (map w_key ws))).
  { rewrite <- E1. unfold secret_of, old_points, n. cbn [ep_deals]. rewrite map_map. reflexivity. }
  assert (HO : Forall2 (fun z out => out = ((gen * secret_of n)%G, MkSK (z_index z) (key_of n (z_index z)))) hs outs).
  { eapply Forall2_impl_in; [exact A8|].
    intros z out Hz (dd & senders & es & r & lists & r1 & s1 & r2 & s2 & cs & r3 & P1 & P2 & P3 & P4 & P5 & P6).
    destruct (heir_ok m params1 params2 hs ws ds z dd senders es r r2 A6 HI HF A1 A3 Hz P1 P2 P3) as (s1' & r1' & s2' & r3' & Q1 & Q2 & Q3).
    rewrite P4 in Q1. injection Q1 as <- _ _. rewrite P5 in Q2. injection Q2 as <- _ _. rewrite P6 in Q3. rewrite ES, EK. congruence. }
  exists n. split; [|split; [|split; [|split; [|split]]]].
  - constructor; cbn [n ep_t ep_deals]; [lia|rewrite map_map; cbn [dl_from]; rewrite E2; exact HI|].
    intros d X. apply in_map_iff in X. destruct X as ([[j x] co] & <- & Hd). destruct (HN _ Hd) as (w & _ & _ & Hf & _).
    cbn [dl_co snd]. rewrite (fd_len _ _ _ _ _ Hf). lia.
  - split; cbn [n ep_t ep_deals].
    + rewrite map_length. lia.
    + intros d X. apply in_map_iff in X. destruct X as ([[j x] co] & <- & Hd). destruct (HN _ Hd) as (w & Hw & -> & _ & Hh & _).
      cbn [dl_co dl_from fst snd]. rewrite Hh. f_equal. apply HK, A5, Hw.
  - reflexivity.
  - intros d X. cbn [n ep_deals] in X. apply in_map_iff in X. destruct X as ([[j x] co] & <- & Hd). destruct (HN _ Hd) as (w & Hw & -> & _).
    cbn [dl_from fst]. apply in_map, A5, Hw.
  - intros k Hk. apply in_map_iff in Hk. destruct Hk as ((g & k0) & <- & Hk). cbn [snd]. clear -HO Hk.
    induction HO as [|z out hs outs E HF IH]; [contradiction|]. destruct Hk as [->|Hk]; [injection E as _ ->; reflexivity|auto].
  - intros gk Hk. apply in_map_iff in Hk. destruct Hk as ((g & k0) & <- & Hk). cbn [fst]. clear -HO Hk.
    induction HO as [|z out hs outs E HF IH]; [contradiction|]. destruct Hk as [->|Hk]; [injection E as -> _; reflexivity|auto].
Qed.
Print Assumptions C72_resharing_is_an_epoch.

(** hence every history of resharings is a chain of epochs, to which the first theorem applies *)
Theorem C72_histories_are_chains :
  forall (S : Suite) (L : SuiteLaws S) (m : build) (t t' : nat) (ks ks' : list SigningKey) (rest : list (list G)),
  history m t ks rest t' ks' ->
  forall e, ep_t e = t -> (forall k, In k ks -> sk_key k = key_of e (sk_index k)) ->
  exists es, chain e es /\ length es = length rest /\ ep_t (last es e) = t' /\
    forall k, In k ks' -> sk_key k = key_of (last es e) (sk_index k).
Proof.
  intros S L m t t' ks ks' rest HH. induction HH as [t ks|t1 ks gks t2 ks2 rest t3 ks3 HR HH IH]; intros e Ht HK.
  - exists []. cbn. auto.
  - subst t1. destruct (C72_resharing_is_an_epoch S L m e ks gks t2 ks2 HK HR) as (n & N1 & N2 & N3 & _ & N4 & _).
    destruct (IH n N3 N4) as (es & C1 & C2 & C3 & C4). exists (n :: es).
    assert (E : forall d, last (n :: es) d = last es n).
    { clear. revert n. induction es as [|x es IH]; intros n d; [reflexivity|]. change (last (x :: es) d = last (x :: es) n). rewrite !IH. reflexivity. }
    rewrite E. cbn [chain length]. auto.
Qed.
Print Assumptions C72_histories_are_chains.

(** the demo key generation (2 of 3) with participant 2 corrupted, reshared by 1 and 3 to four signers with threshold 3, of whom
    5 and 7 are corrupted afterwards *)
Definition c72_first : Epoch := generation demo_params demo_parties.
Definition c72_second : Epoch :=
  MkEpoch 3 [MkDeal (u 1) [key_of c72_first (u 1); mk 11; mk 12]; MkDeal (u 3) [key_of c72_first (u 3); mk 13; mk 14]].
Lemma c72_first_ok : well_dealt c72_first /\ ep_t c72_first <= length (ep_deals c72_first).
Proof.
  split; [constructor|].
  - vm_compute. lia.
  - good.
  - intros d X. apply (in_map (fun d => Nat.eqb (length (dl_co d)) (ep_t c72_first))) in X.
    assert (E : map (fun d => Nat.eqb (length (dl_co d)) (ep_t c72_first)) (ep_deals c72_first) = [true; true; true]) by vmr.
    rewrite E in X. apply Nat.eqb_eq. destruct X as [X|[X|[X|[]]]]; symmetry; exact X.
  - vm_compute. lia.
Qed.
Example C72_ex : exists e' es', well_dealt e' /\ chain e' es' /\
  same_views [u 2] [[u 2]; [u 5; u 7]] [c72_first; c72_second] (e' :: es') /\
  forall x, In x (e' :: es') -> secret_of x = mk 99.
Proof.
  apply (C72_moving_adversary_learns_nothing Toy ToyLaws c72_first [c72_second] [u 2] [[u 5; u 7]] (mk 99)); [apply c72_first_ok|apply c72_first_ok| |].
  - split; [|split; [|exact I]].
    + constructor; [vm_compute; lia|good|]. intros d [<-|[<-|[]]]; reflexivity.
    + split; [vm_compute; lia|]. intros d [<-|[<-|[]]]; reflexivity.
  - constructor; [split; [good|vm_compute; lia]|]. constructor; [split; [good|vm_compute; lia]|constructor].
Qed.
