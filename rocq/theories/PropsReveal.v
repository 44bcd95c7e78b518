(** C101: complaints open the shares of the accused; in a resharing they give the old signing keys away. *)
From Coq Require Import String Strings.Byte Arith NArith ZArith Bool List Lia Permutation Sorted.
From Verif Require Import Base Suite Spec SpecDkg SpecReveal Types Algebra BaseLemmas ModelDkg LemmasShare LemmasRound1 LemmasRound2
  LemmasFinish LemmasBlame Toy Demo DemoDkg PropsRound2 PropsFinish PropsBlame PropsReshare PropsReflect PropsLeak.
Import ListNotations.

Section Reveal.
  Context {S : Suite} {L : SuiteLaws S}.

  Lemma heir_state m params1 params hs ws ds z ps r :
    honest_heirs params hs -> good_indices (map (fun w => sk_index (w_key w)) ws) -> Forall2 (donated params hs) ws ds ->
    N.of_nat (length ws) = u32v (p_n params1) -> (1 <= u32v (p_t params1) <= u32v (p_n params1))%N ->
    Permutation ps (map w_d ws) ->
    exists st comms r', dkg_new m params1 (z_x z) (z_index z) ps r = Ok (R1 st, MkPList ps None, r') /\
      records params1 (z_index z) (z_x z) ps st /\ ds_comms st = Some comms /\ NoDup (bkeys comms) /\
      (forall j c, bget j comms = Some c <-> exists w y co, In (w, (j, y, co)) (combine ws ds) /\ c = MkVss j (committed co)) /\
      (forall w j y co, In (w, (j, y, co)) (combine ws ds) -> bget j (ds_dhs st) = Some (gen * y)%G).
  Proof.
    intros H Hgi HF Hn Ht HPs. pose proof (Forall2_len _ _ _ HF) as Hlen.
    apply new_honest with (params := params) (hs := hs); auto.
    - apply H.
    - rewrite combine_length, <- Hlen, Nat.min_id. exact Hn.
    - rewrite (combine_snd (fun d => fst (fst d))) by exact Hlen. rewrite (donated_indices _ _ _ _ HF). apply Hgi.
    - intros w d Hwd. eapply Forall2_combine; eassumption.
    - rewrite combine_fst by exact Hlen. exact HPs.
  Qed.
  Lemma combine_has {A B} (R : A -> B -> Prop) l l' a : Forall2 R l l' -> In a l -> exists b, In (a, b) (combine l l').
  Proof.
    induction 1 as [|x y l l' H HF IH]; intros Hin; [contradiction|]. destruct Hin as [<-|Hin]; [exists y; left; reflexivity|].
    destruct (IH Hin) as [b Hb]. exists b. right. exact Hb.
  Qed.
  Lemma same_donor ws (w w' : Donor) : NoDup (map (fun w => sk_index (w_key w)) ws) -> In w ws -> In w' ws ->
    sk_index (w_key w) = sk_index (w_key w') -> w = w'.
  Proof.
    intros I Hw Hw' E. induction ws as [|a l IH]; [contradiction|]. cbn [map] in I. apply NoDup_cons_iff in I. destruct I as [I1 I2].
    destruct Hw as [->|Hw], Hw' as [->|Hw']; auto.
    - destruct I1. rewrite E. apply (in_map (fun w => sk_index (w_key w))), Hw'.
    - destruct I1. rewrite <- E. apply (in_map (fun w => sk_index (w_key w))), Hw.
  Qed.

  (** one complaint: the accused is a donor, and what it sent to the maker opens *)
  Lemma complaint_opens m params1 params hs ws ds z es cs c :
    honest_heirs params hs -> good_indices (map (fun w => sk_index (w_key w)) ws) -> Forall2 (donated params hs) ws ds ->
    N.of_nat (length ws) = u32v (p_n params1) -> (1 <= u32v (p_t params1) <= u32v (p_n params1))%N ->
    In z hs -> heir_complains m params1 ws z es cs -> In c cs ->
    exists w y co, In (w, (sk_index (w_key w), y, co)) (combine ws ds) /\ accused c = sk_index (w_key w) /\
      opens_with w z c (poly_value co (of_u32 (z_index z))).
  Proof.
    intros H Hgi HF Hn Ht Hz (ps & r & s1 & lists & r1 & r2 & HP & E1 & E2) Hc.
    destruct (heir_state m params1 params hs ws ds z ps r H Hgi HF Hn Ht HP) as (st & comms & r' & E & R & C1 & C2 & C3 & C4).
    rewrite E in E1. injection E1 as <- _ _.
    pose proof (round_two_complaints m st comms es r2 cs C1 C2 E2) as HL.
    destruct (complaint_list_in st es cs HL c Hc) as (e & _ & (c0 & com & B1 & B2 & _) & D1 & D2 & pk & D3 & D4 & _).
    assert (c0 = comms) by congruence. subst c0. apply C3 in B2. destruct B2 as (w & y & co & Hin & _).
    pose proof (Forall2_combine _ _ _ HF _ _ Hin) as (A1 & A2 & A3 & A4).
    rewrite (C4 _ _ _ _ Hin) in D3. injection D3 as <-.
    exists w, y, co. rewrite <- A1. split; [exact Hin|]. split; [unfold accused; rewrite D1; reflexivity|].
    destruct (A4 z Hz) as (e' & G1 & _ & _ & G4). exists e'. split; [exact G1|].
    rewrite D4, (rec_sk _ _ _ _ _ R), G4, A1. reflexivity.
  Qed.
  Lemma opens_with_unique w z c v v' : opens_with w z c v -> opens_with w z c v' -> v = v'.
  Proof. intros (e & A & B) (e' & A' & B'). rewrite A in A'. injection A' as <-. rewrite B in B'. injection B' as ->. reflexivity. Qed.
End Reveal.

(** what t new signers' complaints about one donor give: its old signing key; t' of these give the old group secret *)
Theorem C101_complaints_reveal_the_old_keys :
  forall (S : Suite) (L : SuiteLaws S) (m : build) (params1 params2 : Params) (hs : list Heir) (ws : list Donor)
    (published : Heir -> Complaint -> Prop),
  honest_heirs params2 hs -> honest_donors m params2 hs ws ->
  N.of_nat (length ws) = u32v (p_n params1) -> (1 <= u32v (p_t params1) <= u32v (p_n params1))%N ->
  (** whatever shares the new signers were given *)
  (forall z c, published z c -> In z hs /\ exists es cs, heir_complains m params1 ws z es cs /\ In c cs) ->
  (** every complaint opens what the accused sent to its maker, *)
  (forall z c, published z c -> exists w v, In w ws /\ accused c = sk_index (w_key w) /\ opens_with w z c v) /\
  (** enough of them give the old key of the accused, *)
  (forall w v, In w ws -> revealed (N.to_nat (u32v (p_t params2))) published w v -> v = sk_key (w_key w)) /\
  (** and the keys of enough donors the secret *)
  (forall old s sub ks, recovers (N.to_nat (u32v (p_t params1))) s old -> (forall w, In w ws -> In (w_key w) old) ->
     (forall w, In w sub -> In w ws) -> NoDup (map (fun w => sk_index (w_key w)) sub) ->
     (u32v (p_t params1) <= N.of_nat (length sub))%N ->
     Forall2 (fun w k => sk_index k = sk_index (w_key w) /\
       revealed (N.to_nat (u32v (p_t params2))) published w (sk_key k)) sub ks ->
     interp0 (key_points ks) = s).
Proof.
  intros S L m params1 params2 hs ws published H HD Hn Ht HP.
  destruct (donors_list m params2 hs ws H HD) as (ds & HF). pose proof (hd_indices _ _ _ _ HD) as Hgi.
  assert (A : forall z c, published z c -> exists w y co, In (w, (sk_index (w_key w), y, co)) (combine ws ds) /\
    accused c = sk_index (w_key w) /\ opens_with w z c (poly_value co (of_u32 (z_index z)))).
  { intros z c Hc. destruct (HP z c Hc) as (Hz & es & cs & E & Hin). eapply complaint_opens; eassumption. }
  assert (B : forall w v, In w ws -> revealed (N.to_nat (u32v (p_t params2))) published w v -> v = sk_key (w_key w)).
  { intros w v Hw (got & vs & G1 & G2 & G3 & G4 & ->).
    destruct (combine_has _ _ _ w HF Hw) as ([[j y] co] & Hin).
    pose proof (Forall2_combine _ _ _ HF _ _ Hin) as (A1 & A2 & A3 & A4).
    assert (E : combine (map (fun zc : Heir * Complaint => z_index (fst zc)) got) vs =
      map (fun i => (i, poly_value co (of_u32 i))) (map (fun zc => z_index (fst zc)) got)).
    { clear G2 G3. induction G4 as [|[z c] v got vs O HG IH]; [reflexivity|]. cbn [map combine fst snd].
      destruct (G1 z c (or_introl eq_refl)) as [P1 P2]. destruct (A z c P1) as (w' & y' & co' & I' & Ac & O').
      assert (w' = w). { eapply same_donor; [apply Hgi|eapply in_combine_l, I'|exact Hw|congruence]. } subst w'.
      assert (Eco : co' = co).
      { pose proof (Forall2_combine _ _ _ HF _ _ I') as (_ & A2' & _).
        pose proof (fd_comm _ _ _ _ _ A2') as X'. rewrite (fd_comm _ _ _ _ _ A2) in X'. injection X' as _ X'.
        clear -X' L. unfold committed in X'. revert co X'. induction co' as [|a l IH]; intros [|b l'] X; cbn [map] in X; try discriminate; auto.
        injection X as X1 X2. apply gen_inj in X1. rewrite X1. f_equal. apply IH, X2. }
      subst co'. rewrite (opens_with_unique _ _ _ _ _ O O'). f_equal. apply IH.
      intros z0 c0 Hzc. apply G1. right; exact Hzc. }
    rewrite E, interp0_poly; [|exact G2|rewrite map_length, (fd_len _ _ _ _ _ A2); lia].
    apply poly_value_hd, A3. }
  split; [|split; [exact B|]].
  - intros z c Hc. destruct (A z c Hc) as (w & y & co & Hin & Ac & O). exists w, (poly_value co (of_u32 (z_index z))).
    split; [eapply in_combine_l, Hin|]. split; assumption.
  - intros old s sub ks [_ R] Hold Hsub Hnd Hl HK.
    assert (E : ks = map w_key sub).
    { clear Hnd Hl. induction HK as [|w k sub ks [K1 K2] HK IH]; [reflexivity|]. cbn [map]. rewrite IH by (intros; apply Hsub; right; assumption).
      apply B in K2; [|apply Hsub; left; reflexivity]. destruct k as [i k]. cbn [sk_index sk_key] in *. subst i k.
      destruct (w_key w). reflexivity. }
    rewrite E. apply R.
    + intros k Hk. apply in_map_iff in Hk. destruct Hk as (w & <- & Hw). apply Hold, Hsub, Hw.
    + rewrite map_map. exact Hnd.
    + rewrite map_length. lia.
Qed.
Print Assumptions C101_complaints_reveal_the_old_keys.

(** the same in a key generation: the share of the accused for the maker opens, and t makers give the secret of the accused *)
Theorem C101_complaints_reveal_the_accused :
  forall (S : Suite) (L : SuiteLaws S) (m : build) (params : Params) (parties : list Party) (published : Party -> Complaint -> Prop),
  honest_parties params parties -> all_bootstrapped m params parties ->
  (forall q c, published q c -> In q parties /\ exists es r cs, In c cs /\
     (to_round_two m (y_st q) es r = Err (ComplaintErr cs) \/ exists s2 r', to_round_two m (y_st q) es r = Ok (s2, cs, r'))) ->
  (forall q c, published q c -> exists p e, In p parties /\ accused c = y_index p /\ bget (y_index q) (y_es p) = Some e /\
     decrypt_share e (enc_point (c_shared c)) =
       Ok (MkShare (y_index p) (y_index q) (poly_value (y_co p) (of_u32 (y_index q))))) /\
  (forall p got vs, In p parties -> (forall q c, In (q, c) got -> published q c /\ accused c = y_index p) ->
     NoDup (map (fun qc => y_index (fst qc)) got) -> (u32v (p_t params) <= N.of_nat (length got))%N ->
     Forall2 (fun qc v => exists e, bget (y_index (fst qc)) (y_es p) = Some e /\
       decrypt_share e (enc_point (c_shared (snd qc))) = Ok (MkShare (y_index p) (y_index (fst qc)) v)) got vs ->
     hd_error (y_co p) = Some (interp0 (combine (map (fun qc => y_index (fst qc)) got) vs))).
Proof.
  intros S L m params parties published H HB HP.
  assert (A : forall q c, published q c -> exists p e, In p parties /\ accused c = y_index p /\ bget (y_index q) (y_es p) = Some e /\
     decrypt_share e (enc_point (c_shared c)) =
       Ok (MkShare (y_index p) (y_index q) (poly_value (y_co p) (of_u32 (y_index q))))).
  { intros q c Hc. destruct (HP q c Hc) as (Hq & es & r & cs & Hin & E).
    destruct (honest_state m params parties q H HB Hq) as (st & comms & ps & Est & HPs & _ & R & Hcm0 & Hnd & Hcm & Hdh).
    rewrite Est in E. pose proof (round_two_complaints m st comms es r cs Hcm0 Hnd E) as HL.
    destruct (complaint_list_in st es cs HL c Hin) as (e & _ & (c0 & com & B1 & B2 & _) & C1 & C2 & pk & C3 & C4 & _).
    assert (c0 = comms) by congruence. subst c0. apply Hcm in B2. destruct B2 as (p & Hp & Ep & _).
    rewrite <- Ep, Hdh in C3 by exact Hp. injection C3 as <-.
    destruct (honest_state m params parties p H HB Hp) as (stp & commsp & psp & _ & HPp & [_ K2] & _).
    destruct (honest_fresh params parties q H Hq) as [Hi _ _ _ _ _].
    destruct (K2 (y_index q) (y_d q)) as (e' & G1 & _).
    { apply last_with_distinct; [eapply honest_nodup_ps; eassumption|]. split; [|exact Hi].
      eapply Permutation_in; [apply Permutation_sym, HPp|]. apply in_map, Hq. }
    exists p, e'. split; [exact Hp|]. split; [unfold accused; rewrite C1; congruence|]. split; [exact G1|].
    rewrite C4, (rec_sk _ _ _ _ _ R), dh_shared. eapply own_share; eassumption. }
  split; [exact A|]. intros p got vs Hp Hgot Hn Ht HF.
  assert (Ev : combine (map (fun qc : Party * Complaint => y_index (fst qc)) got) vs =
    map (fun i => (i, poly_value (y_co p) (of_u32 i))) (map (fun qc => y_index (fst qc)) got)).
  { clear Hn Ht. induction HF as [|[q c] v got vs (e & F1 & F2) HF IH]; [reflexivity|]. cbn [map combine fst snd] in *.
    destruct (Hgot q c (or_introl eq_refl)) as [G1 G2]. destruct (A q c G1) as (p' & e' & Hp' & E1 & E2 & E3).
    pose proof (same_index params parties p' p H Hp' Hp ltac:(congruence)) as ->.
    rewrite F1 in E2. injection E2 as <-. rewrite E3 in F2. injection F2 as F2. rewrite <- F2. f_equal. apply IH.
    intros q0 c0 Hc0. apply Hgot. right; exact Hc0. }
  destruct (honest_fresh params parties p H Hp) as [_ _ Hlen _ _ _].
  rewrite Ev, interp0_poly; [|exact Hn|rewrite map_length; lia].
  destruct (y_co p) as [|a0 co].
  - cbn in Hlen. destruct (hp_threshold _ _ H) as [T _]. lia.
  - cbn [hd_error]. f_equal. symmetry. apply poly_value_0.
Qed.
Print Assumptions C101_complaints_reveal_the_accused.

(** the network makes a new signer complain about any donors it likes, and the call returns *)
Section Provoke.
  Context {S : Suite} {L : SuiteLaws S}.
  (** a message in the name of w that does not open, for z, as what w sent *)
  Definition forged (w : Donor) (z : Heir) (e : EncShare) : Prop :=
    es_sender e = sk_index (w_key w) /\ es_receiver e = z_index z /\
    exists e0, bget (z_index z) (w_es w) = Some e0 /\
      decrypt_share e (enc_point (pt_dh_pk (w_d w) * z_x z)%G) <> decrypt_share e0 (enc_point (pt_dh_pk (w_d w) * z_x z)%G).
End Provoke.

Theorem C101_the_network_chooses_the_accused :
  forall (S : Suite) (L : SuiteLaws S) (m : build) (params1 params2 : Params) (hs : list Heir) (ws : list Donor) (z : Heir)
    (ds : list Participant) (senders : list Donor) (es bads : list EncShare) (r r2 : Rng),
  honest_heirs params2 hs -> honest_donors m params2 hs ws ->
  N.of_nat (length ws) = u32v (p_n params1) -> (1 <= u32v (p_t params1) <= u32v (p_n params1))%N -> In z hs ->
  Permutation ds (map w_d ws) -> Permutation senders ws -> received senders z es ->
  (forall e, In e bads -> exists w, In w ws /\ forged w z e) ->
  (u32v (p_t params1) + N.of_nat (length bads) <= u32v (p_n params1))%N ->
  exists s1 r1 s2 cs r3, dkg_new m params1 (z_x z) (z_index z) ds r = Ok (s1, MkPList ds None, r1) /\
    to_round_two m s1 (es ++ bads) r2 = Ok (s2, cs, r3) /\ map accused cs = map es_sender bads.
Proof.
  intros S L m params1 params2 hs ws z ps senders es bads r r2 H HD Hn Ht Hz HPs HPw HR Hbad Hl.
  destruct (donors_list m params2 hs ws H HD) as (ds & HF). pose proof (hd_indices _ _ _ _ HD) as Hgi.
  destruct (heir_state m params1 params2 hs ws ds z ps r H Hgi HF Hn Ht HPs) as (st & comms & r1 & E1 & R & C1 & C2 & C3 & C4).
  assert (Hpn : u32v (p_n (ds_params st)) = u32v (p_n params1)).
  { rewrite (rec_n _ _ _ _ _ R), (Permutation_length HPs), map_length. exact Hn. }
  assert (Hk : forall w j y co, In (w, (j, y, co)) (combine ws ds) -> pt_dh_pk (w_d w) = (gen * y)%G).
  { intros w j y co Hin. pose proof (Forall2_combine _ _ _ HF _ _ Hin) as (_ & A2 & _). apply (fd_pk _ _ _ _ _ A2). }
  assert (Hin : forall x, In x es -> exists w y co, In (w, (sk_index (w_key w), y, co)) (combine ws ds) /\
    bget (z_index z) (w_es w) = Some x).
  { assert (Hs : forall w, In w senders -> In w ws) by (intros w Hw; eapply Permutation_in; eassumption).
    intros x Hx. clear HPw. induction HR as [|w e senders es He HR IH]; [contradiction|]. destruct Hx as [<-|Hx].
    - destruct (combine_has _ _ _ w HF (Hs w (or_introl eq_refl))) as ([[j y] co] & Hin).
      pose proof (Forall2_combine _ _ _ HF _ _ Hin) as (A1 & _). subst j. eauto 6.
    - apply IH; [|exact Hx]. intros w' Hw'. apply Hs. right; exact Hw'. }
  assert (Hval : forall w j y co e, In (w, (j, y, co)) (combine ws ds) -> bget (z_index z) (w_es w) = Some e ->
    es_sender e = j /\ es_receiver e = z_index z /\
    decrypt_share e (enc_point ((gen * y) * z_x z)%G) = Ok (MkShare j (z_index z) (poly_value co (of_u32 (z_index z))))).
  { intros w j y co e I He. pose proof (Forall2_combine _ _ _ HF _ _ I) as (_ & _ & _ & A4).
    destruct (A4 z Hz) as (e' & G1 & G2 & G3 & G4). rewrite He in G1. injection G1 as <-. auto. }
  assert (Hok : forall x, In x es -> acceptable m st x /\ ~ bad_for st x).
  { intros x Hx. destruct (Hin x Hx) as (w & y & co & I & He). destruct (Hval _ _ _ _ _ I He) as (X1 & X2 & X3). split.
    - split; [intros _; rewrite (rec_index _ _ _ _ _ R); exact X2|]. exists (gen * y)%G. rewrite X1. apply (C4 _ _ _ _ I).
    - intros (c0 & com & A1 & A2 & A3). apply A3. assert (c0 = comms) by congruence. subst c0.
      rewrite X1 in A2. assert (Ec : com = MkVss (sk_index (w_key w)) (committed co)).
      { assert (Y : bget (sk_index (w_key w)) comms = Some (MkVss (sk_index (w_key w)) (committed co))) by (apply C3; eauto).
        rewrite A2 in Y. injection Y as ->. reflexivity. }
      rewrite Ec. exists (poly_value co (of_u32 (z_index z))). split.
      + exists (gen * y)%G. rewrite X1, X2, (rec_sk _ _ _ _ _ R). split; [apply (C4 _ _ _ _ I)|exact X3].
      + unfold on_commitment. cbn [vss_points]. rewrite gpoly_committed, X2. reflexivity. }
  assert (Hko : forall x, In x bads -> acceptable m st x /\ bad_for st x).
  { intros x Hx. destruct (Hbad x Hx) as (w & Hw & Es & Er & e0 & He & Hd).
    destruct (combine_has _ _ _ w HF Hw) as ([[j y] co] & I).
    pose proof (Forall2_combine _ _ _ HF _ _ I) as (A1 & _). subst j.
    destruct (Hval _ _ _ _ _ I He) as (X1 & X2 & X3). rewrite (Hk _ _ _ _ I), X3 in Hd. split.
    - split; [intros _; rewrite (rec_index _ _ _ _ _ R); exact Er|]. exists (gen * y)%G. rewrite Es. apply (C4 _ _ _ _ I).
    - exists comms, (MkVss (sk_index (w_key w)) (committed co)). split; [exact C1|]. split; [rewrite Es; apply C3; eauto|].
      intros (v & (pk & O1 & O2) & O3). apply Hd. rewrite Es, (C4 _ _ _ _ I) in O1. injection O1 as <-.
      rewrite (rec_sk _ _ _ _ _ R), Es, Er in O2. rewrite O2. unfold on_commitment in O3. cbn [vss_points] in O3.
      rewrite gpoly_committed, Er in O3. apply gen_inj in O3. rewrite O3. reflexivity. }
  destruct (to_round_two_done m st comms (es ++ bads) r2 C1 C2) as (cs & r' & HL & E).
  { rewrite (rec_t _ _ _ _ _ R). apply Forall2_len in HR. rewrite (Permutation_length HPw) in HR. rewrite app_length. lia. }
  { apply Forall_app. split; apply Forall_forall; intros x Hx; [apply Hok, Hx|apply Hko, Hx]. }
  pose proof (complaint_list_tail st es bads cs HL (fun x Hx => proj2 (Hok x Hx)) (fun x Hx => proj2 (Hko x Hx))) as M.
  assert (Hlen : length cs = length bads) by (rewrite <- (map_length accused cs), M, map_length; reflexivity).
  unfold remaining in E. rewrite Hlen, Hpn, (rec_t _ _ _ _ _ R) in E. pose proof (u32_bound (p_n params1)) as Hb.
  rewrite (N.mod_small (N.of_nat (length bads))) in E by lia.
  replace (u32v (p_n params1) <? N.of_nat (length bads))%N with false in E by (symmetry; apply N.ltb_ge; lia).
  replace (u32v (p_n params1) - N.of_nat (length bads) <? u32v (p_t params1))%N with false in E by (symmetry; apply N.ltb_ge; lia).
  eexists _, r1, _, cs, r'. split; [exact E1|]. split; [exact E|exact M].
Qed.
Print Assumptions C101_the_network_chooses_the_accused.

Section Assignment.
  (** [a b] slots over [n] heirs, donor [k / b], heir [k mod n] *)
  Lemma slots_per_heir n a N0 q : N0 <= n * q -> length (filter (fun k => k mod n =? a) (seq 0 N0)) <= q.
  Proof.
    intros Hq. rewrite <- (map_length (fun k => k / n)). rewrite <- (seq_length q 0). apply NoDup_incl_length.
    - assert (K : forall l, NoDup l -> NoDup (map (fun k => k / n) (filter (fun k => k mod n =? a) l))).
      { induction 1 as [|k l Hk Hl IH]; cbn [filter map]; [constructor|]. destruct (Nat.eqb_spec (k mod n) a) as [E|E]; [|exact IH].
        cbn [map]. constructor; [|exact IH]. intros X. apply in_map_iff in X. destruct X as (k' & E' & X). apply filter_In in X.
        destruct X as [X1 X2]. apply Nat.eqb_eq in X2. apply Hk. replace k with k'; [exact X1|].
        destruct n as [|n]; [cbn in *; congruence|].
        rewrite (Nat.div_mod k' (Datatypes.S n)), (Nat.div_mod k (Datatypes.S n)) by lia. congruence. }
      apply K, seq_NoDup.
    - intros x Hx. apply in_map_iff in Hx. destruct Hx as (k & <- & Hk). apply filter_In in Hk. destruct Hk as [Hk _].
      apply in_seq in Hk. apply in_seq. split; [lia|]. cbn. apply Nat.div_lt_upper_bound; [|lia].
      intros ->. lia.
  Qed.
  Lemma window_distinct n b j : b <= n -> NoDup (map (fun i => (j * b + i) mod n) (seq 0 b)).
  Proof.
    intros Hb. assert (K : forall l, NoDup l -> (forall i, In i l -> i < b) -> NoDup (map (fun i => (j * b + i) mod n) l)).
    { induction 1 as [|i l Hi Hl IH]; intros Hlt; cbn [map]; constructor; [|apply IH; intros; apply Hlt; right; assumption].
      intros X. apply in_map_iff in X. destruct X as (i' & E & X). apply Hi. replace i with i'; [exact X|].
      assert (A := Hlt i (or_introl eq_refl)). assert (A' := Hlt i' (or_intror X)).
      assert (n <> 0) by lia.
      pose proof (Nat.div_mod (j * b + i) n) as D. pose proof (Nat.div_mod (j * b + i') n) as D'.
      rewrite E in D'. set (q := (j * b + i) / n) in *. set (q' := (j * b + i') / n) in *.
      assert (q = q' \/ q < q' \/ q' < q) as [->|[X'|X']] by lia; [lia|nia|nia]. }
    apply K; [apply seq_NoDup|]. intros i Hi. apply in_seq in Hi. lia.
  Qed.
  Lemma choose {A B} (P : A -> B -> Prop) (l : list A) : (forall a, In a l -> exists b, P a b) -> exists l', Forall2 P l l'.
  Proof.
    induction l as [|a l IH]; intros H; [exists []; constructor|].
    destruct (H a (or_introl eq_refl)) as [b Hb]. destruct IH as [l' Hl']; [intros; apply H; right; assumption|].
    exists (b :: l'). constructor; assumption.
  Qed.
  Lemma Forall2_map_l {A A' B} (f : A -> A') (P : A' -> B -> Prop) l l' : Forall2 (fun a b => P (f a) b) l l' -> Forall2 P (map f l) l'.
  Proof. induction 1; cbn; constructor; assumption. Qed.
  Lemma map_nth_seq {A} (l : list A) d : map (fun i => nth i l d) (seq 0 (length l)) = l.
  Proof.
    induction l as [|a l IH]; [reflexivity|]. cbn [length seq map nth]. rewrite <- seq_shift, map_map. f_equal. exact IH.
  Qed.
  Lemma NoDup_firstn {A} n (l : list A) : NoDup l -> NoDup (firstn n l).
  Proof.
    intros H. revert n. induction H as [|a l Ha H IH]; intros [|n]; cbn; constructor; auto.
    intros X. apply Ha. rewrite <- (firstn_skipn n l). apply in_or_app. left; exact X.
  Qed.
End Assignment.

Theorem C101_the_network_learns_the_secret :
  forall (S : Suite) (L : SuiteLaws S) (m : build) (params1 params2 : Params) (hs : list Heir) (ws : list Donor)
    (old : list SigningKey) (s : F) (junk : Donor -> Heir -> EncShare),
  recovers (N.to_nat (u32v (p_t params1))) s old -> (forall w, In w ws -> In (w_key w) old) ->
  honest_heirs params2 hs -> honest_donors m params2 hs ws ->
  N.of_nat (length ws) = u32v (p_n params1) -> (1 <= u32v (p_t params1) <= u32v (p_n params1))%N ->
  (forall w z, In w ws -> In z hs -> forged w z (junk w z)) ->
  (u32v (p_t params1) * u32v (p_t params2) <= u32v (p_n params2) * (u32v (p_n params1) - u32v (p_t params1)))%N ->
  exists bads : Heir -> list EncShare,
    (forall z e, In e (bads z) -> exists w, In w ws /\ e = junk w z) /\
    (** every call of every new signer returns, *)
    (forall z ds senders es r r2, In z hs -> Permutation ds (map w_d ws) -> Permutation senders ws -> received senders z es ->
       exists s1 r1 s2 cs r3, dkg_new m params1 (z_x z) (z_index z) ds r = Ok (s1, MkPList ds None, r1) /\
         to_round_two m s1 (es ++ bads z) r2 = Ok (s2, cs, r3)) /\
    (** and the secret is read off the complaints they publish *)
    (forall cs : Heir -> list Complaint,
       (forall z, In z hs -> exists senders es, Permutation senders ws /\ received senders z es /\
          heir_complains m params1 ws z (es ++ bads z) (cs z)) ->
       exists sub ks, Forall2 (fun w k => In w ws /\ sk_index k = sk_index (w_key w) /\
           revealed (N.to_nat (u32v (p_t params2))) (fun z c => In z hs /\ In c (cs z)) w (sk_key k)) sub ks /\
         interp0 (key_points ks) = s).
Proof.
  intros S L m params1 params2 hs ws old s junk HO Hold H HD Hn Ht HJ Hle.
  pose proof (hd_indices _ _ _ _ HD) as Hgi. pose proof (hh_indices _ _ H) as Hhi.
  pose proof (hh_count _ _ H) as Hc2. pose proof (hh_threshold _ _ H) as Ht2.
  set (t1 := N.to_nat (u32v (p_t params1))) in *. set (t2 := N.to_nat (u32v (p_t params2))) in *.
  set (n1 := length ws) in *. set (n2 := length hs) in *.
  assert (Hle' : t1 * t2 <= n2 * (n1 - t1)) by (unfold t1, t2; lia).
  assert (Ht1 : 1 <= t1 <= n1) by (unfold t1; lia). assert (Ht2' : 1 <= t2 <= n2) by (unfold t2; lia).
  assert (exists dz, In dz hs) as [dz Hdz]. { unfold n2 in *. destruct hs as [|z0 l0]; [cbn in *; lia|]. exists z0. left; reflexivity. }
  assert (exists dw, In dw ws) as [dw Hdw]. { unfold n1 in *. destruct ws as [|w0 l0]; [cbn in *; lia|]. exists w0. left; reflexivity. }
  set (heir := fun k => nth (k mod n2) hs dz). set (donor := fun j => nth j ws dw).
  assert (Hheir : forall k, In (heir k) hs). { intros k. apply nth_In. apply Nat.mod_upper_bound. unfold n2 in *. lia. }
  assert (Hdonor : forall j, In (donor j) ws).
  { intros j. unfold donor. destruct (nth_in_or_default j ws dw) as [X|X]; [exact X|rewrite X; exact Hdw]. }
  assert (Hinj : forall k k', z_index (heir k) = z_index (heir k') -> k mod n2 = k' mod n2).
  { intros k k' E. destruct Hhi as [Hnd _]. eapply (proj1 (NoDup_nth (map z_index hs) (z_index dz)) Hnd).
    - rewrite map_length. apply Nat.mod_upper_bound. unfold n2 in *; lia.
    - rewrite map_length. apply Nat.mod_upper_bound. unfold n2 in *; lia.
    - rewrite !map_nth. exact E. }
  set (mine := fun z k => u32_eqb (z_index (heir k)) (z_index z)).
  set (bads := fun z => map (fun k => junk (donor (k / t2)) z) (filter (mine z) (seq 0 (t1 * t2)))).
  assert (Hlen : forall z, length (bads z) <= n1 - t1).
  { intros z. unfold bads. rewrite map_length. destruct (filter (mine z) (seq 0 (t1 * t2))) as [|k0 l0] eqn:E; [cbn; lia|].
    assert (K0 : mine z k0 = true).
    { assert (X : In k0 (filter (mine z) (seq 0 (t1 * t2)))) by (rewrite E; left; reflexivity). apply filter_In in X. apply X. }
    rewrite <- E. transitivity (length (filter (fun k => k mod n2 =? k0 mod n2) (seq 0 (t1 * t2)))); [|apply slots_per_heir, Hle'].
    assert (X : forall l, length (filter (mine z) l) <= length (filter (fun k => k mod n2 =? k0 mod n2) l)).
    { induction l as [|k l IH]; [reflexivity|]. cbn [filter]. destruct (mine z k) eqn:Ek.
      - replace (k mod n2 =? k0 mod n2) with true; [cbn [length]; lia|]. symmetry. apply Nat.eqb_eq, Hinj.
        unfold mine in *. apply u32_eqb_spec in Ek, K0. congruence.
      - destruct (k mod n2 =? k0 mod n2); cbn [length]; lia. }
    apply X. }
  assert (HB : forall z e, In e (bads z) -> exists w, In w ws /\ e = junk w z).
  { intros z e He. apply in_map_iff in He. destruct He as (k & <- & _). eauto. }
  assert (HR : forall z ds senders es r r2, In z hs -> Permutation ds (map w_d ws) -> Permutation senders ws -> received senders z es ->
    exists s1 r1 s2 cs r3, dkg_new m params1 (z_x z) (z_index z) ds r = Ok (s1, MkPList ds None, r1) /\
      to_round_two m s1 (es ++ bads z) r2 = Ok (s2, cs, r3) /\ map accused cs = map es_sender (bads z)).
  { intros z ds senders es r r2 Hz HPs HPw HRv.
    apply (C101_the_network_chooses_the_accused S L m params1 params2 hs ws z ds senders es (bads z) r r2); auto.
    - intros e He. destruct (HB z e He) as (w & Hw & ->). eauto.
    - specialize (Hlen z). unfold t1 in *. lia. }
  exists bads. split; [exact HB|]. split.
  { intros z ds senders es r r2 Hz HPs HPw HRv. destruct (HR z ds senders es r r2 Hz HPs HPw HRv) as (s1 & r1 & s2 & cs & r3 & A & B & _). eauto 10. }
  intros cs Hcs.
  assert (Hacc : forall z, In z hs -> map accused (cs z) = map es_sender (bads z)).
  { intros z Hz. destruct (Hcs z Hz) as (senders & es & HPw & HRv & ds & r & s1 & lists & r1 & r2 & HPs & E1 & E2).
    destruct (HR z ds senders es r r2 Hz HPs HPw HRv) as (s1' & r1' & s2 & cs' & r3 & A & B & C).
    rewrite A in E1. injection E1 as -> _ _. destruct E2 as [E2|(s2' & r3' & E2)]; rewrite B in E2; [discriminate|].
    injection E2 as _ -> _. exact C. }
  set (published := fun z c => In z hs /\ In c (cs z)).
  destruct (C101_complaints_reveal_the_old_keys S L m params1 params2 hs ws published H HD Hn Ht) as (P1 & P2 & P3).
  { intros z c [Hz Hc]. split; [exact Hz|]. destruct (Hcs z Hz) as (senders & es & _ & _ & X). eauto. }
  assert (HRev : forall j, j < t1 -> exists v, revealed t2 published (donor j) v).
  { intros j Hj.
    destruct (choose (fun i c => In c (cs (heir (j * t2 + i))) /\ accused c = sk_index (w_key (donor j))) (seq 0 t2)) as [lc Hlc].
    { intros i Hi. apply in_seq in Hi. set (k := j * t2 + i).
      assert (Hb : In (junk (donor j) (heir k)) (bads (heir k))).
      { unfold bads. apply in_map_iff. exists k. split.
        - do 2 f_equal. unfold k. rewrite Nat.add_comm, Nat.div_add by lia. rewrite Nat.div_small by lia. reflexivity.
        - apply filter_In. split; [apply in_seq; unfold k; nia|]. unfold mine. apply u32_eqb_spec. reflexivity. }
      destruct (HJ (donor j) (heir k) (Hdonor j) (Hheir k)) as (F1 & _).
      assert (X : In (sk_index (w_key (donor j))) (map accused (cs (heir k)))).
      { rewrite Hacc by apply Hheir. rewrite <- F1. apply in_map, Hb. }
      apply in_map_iff in X. destruct X as (c & Ec & Hc). exists c. auto. }
    assert (Hll : length lc = t2) by (apply Forall2_len in Hlc; rewrite seq_length in Hlc; lia).
    set (got := combine (map (fun i => heir (j * t2 + i)) (seq 0 t2)) lc).
    assert (Hgot : forall z c, In (z, c) got -> published z c /\ accused c = sk_index (w_key (donor j))).
    { unfold got. clear - Hlc Hheir. induction Hlc as [|i c li lc [A B] HF IH]; intros z c0 Hin; cbn [map combine] in Hin; [contradiction|].
      destruct Hin as [[= <- <-]|Hin]; [|apply IH, Hin]. split; [|exact B]. split; [apply Hheir|exact A]. }
    destruct (choose (fun zc v => opens_with (donor j) (fst zc) (snd zc) v) got) as [vs Hvs].
    { intros [z c] Hin. destruct (Hgot z c Hin) as [G1 G2]. destruct (P1 z c G1) as (w & v & Hw & Ea & O).
      assert (w = donor j) as ->. { eapply same_donor; [apply Hgi|exact Hw|apply Hdonor|congruence]. } exists v. exact O. }
    exists (interp0 (combine (map (fun zc => z_index (fst zc)) got) vs)), got, vs. split; [exact Hgot|].
    assert (Hlg : length (map (fun i => heir (j * t2 + i)) (seq 0 t2)) = length lc) by (rewrite map_length, seq_length; lia).
    split.
    { unfold got. rewrite (combine_fst (fun z => z_index z)) by exact Hlg. rewrite map_map.
      pose proof (window_distinct n2 t2 j (proj2 Ht2')) as W. clear - W Hinj.
      induction (seq 0 t2) as [|i l IH]; [constructor|]. cbn [map] in *. apply NoDup_cons_iff in W. destruct W as [W1 W2].
      constructor; [|apply IH, W2]. intros X. apply W1. apply in_map_iff in X. destruct X as (i' & E & X).
      apply Hinj in E. rewrite <- E. apply (in_map (fun i => (j * t2 + i) mod n2)), X. }
    split; [unfold got; rewrite combine_length, Hlg; lia|]. split; [exact Hvs|reflexivity]. }
  destruct (choose (fun j k => sk_index k = sk_index (w_key (donor j)) /\ revealed t2 published (donor j) (sk_key k)) (seq 0 t1)) as [ks Hks].
  { intros j Hj. apply in_seq in Hj. destruct (HRev j) as [v Hv]; [lia|]. exists (MkSK (sk_index (w_key (donor j))) v). auto. }
  exists (map donor (seq 0 t1)), ks. split.
  { apply Forall2_map_l. eapply Forall2_impl_in; [exact Hks|]. intros j k _ [A B]. split; [apply Hdonor|]. auto. }
  apply (P3 old s (map donor (seq 0 t1)) ks); auto.
  - intros w Hw. apply in_map_iff in Hw. destruct Hw as (j & <- & _). apply Hdonor.
  - replace (map donor (seq 0 t1)) with (firstn t1 ws).
    + rewrite <- firstn_map. apply NoDup_firstn, Hgi.
    + rewrite <- (map_nth_seq ws dw) at 1. rewrite firstn_map. fold n1. unfold donor. f_equal.
      replace n1 with (t1 + (n1 - t1)) by lia. rewrite seq_app, firstn_app, seq_length, Nat.sub_diag. cbn [firstn].
      rewrite app_nil_r. rewrite <- (seq_length t1 0) at 1. apply firstn_all.
  - rewrite map_length, seq_length. unfold t1. lia.
  - apply Forall2_map_l. exact Hks.
Qed.
Print Assumptions C101_the_network_learns_the_secret.

(** three holders of a key with threshold two hand it to the signers 5, 6, 7, 8, threshold two; the network adds one
    worthless message to what each new signer receives: in the name of 1 for 5 and 6, in the name of 2 for 7 and 8 *)
Definition rv_params : Params := MkParams (u 4) (u 2).
Definition rv_heir (i : N) : Heir := MkHeir (u i) (signer 4 2 i (60 + i)) (signer_x 4 2 i (60 + i)).
Definition rv_heirs : list Heir := map rv_heir [5; 6; 7; 8]%N.
Definition rv_donor (k : SigningKey) (seed : N) : Donor :=
  match reshare Debug rv_params k (map z_p rv_heirs) seed with
  | Ok (d, es, _, _) => MkDonor k d es
  | _ => MkDonor k no_part []
  end.
Definition rv_donors : list Donor := [rv_donor (demo_key 1) 72%N; rv_donor (demo_key 2) 73%N; rv_donor (demo_key 3) 71%N].
Definition rv_junk (w : Donor) (z : Heir) : EncShare := MkEnc (S := Toy) (sk_index (w_key w)) (z_index z) (fst (gen_nonce 0%N)) [].
Definition rv_target (i : N) : Donor := if (i <? 7)%N then rv_donor (demo_key 1) 72%N else rv_donor (demo_key 2) 73%N.
Definition rv_complaints (i : N) : list Complaint :=
  let z := rv_heir i in
  match dkg_new Debug demo_params (z_x z) (z_index z) (map w_d rv_donors) 3%N with
  | Ok (s1, _, r1) =>
      match to_round_two Debug s1 (re_shares rv_donors z ++ [rv_junk (rv_target i) z]) r1 with Ok (_, cs, _) => cs | _ => [] end
  | _ => []
  end.
Definition rv_value (i : N) : list (u32 * F) := flat_map (fun c => opened c (bget (u i) (w_es (rv_target i)))) (rv_complaints i).
Definition rv_keys : list SigningKey :=
  [MkSK (u 1) (interp0 (rv_value 5 ++ rv_value 6)); MkSK (u 2) (interp0 (rv_value 7 ++ rv_value 8))].
Example C101_ex :
  map (fun i => map accused (rv_complaints i)) [5; 6; 7; 8]%N = [[u 1]; [u 1]; [u 2]; [u 2]] /\
  interp0 (key_points rv_keys) = interp0 (dealt_values demo_parties (mk 0)).
Proof. vms. Qed.
Lemma rv_heirs_honest : honest_heirs rv_params rv_heirs.
Proof.
  constructor.
  - vmr.
  - split; vm_compute; discriminate.
  - good.
  - intros z [<-|[<-|[<-|[<-|[]]]]].
    + left. exists 65%N, (let '(_, _, r) := signer_run 4 2 5 65 in r). vmr.
    + left. exists 66%N, (let '(_, _, r) := signer_run 4 2 6 66 in r). vmr.
    + left. exists 67%N, (let '(_, _, r) := signer_run 4 2 7 67 in r). vmr.
    + left. exists 68%N, (let '(_, _, r) := signer_run 4 2 8 68 in r). vmr.
Qed.
Lemma rv_donors_honest : honest_donors Debug rv_params rv_heirs rv_donors.
Proof.
  constructor; [good|].
  assert (K : forall k seed, sk_index k <> u32_zero -> exists ps r lists r', Permutation ps (map z_p rv_heirs) /\
    reshare Debug rv_params (w_key (rv_donor k seed)) ps r = Ok (w_d (rv_donor k seed), w_es (rv_donor k seed), lists, r')).
  { intros k seed Hk.
    destruct (C32_reshare_succeeds Toy ToyLaws Debug rv_params rv_heirs k (map z_p rv_heirs) seed rv_heirs_honest
      (Permutation_refl _) Hk) as (d & es & r' & E & _).
    exists (map z_p rv_heirs), seed, (MkPList (map z_p rv_heirs) None), r'. split; [apply Permutation_refl|].
    unfold rv_donor. rewrite E. exact E. }
  intros w [<-|[<-|[<-|[]]]]; apply K; apply u32_eqb_neq; vmr.
Qed.
Definition rv_opens (w : Donor) (z : Heir) : bool :=
  match bget (z_index z) (w_es w) with
  | Some e0 => is_ok (decrypt_share e0 (enc_point (pt_dh_pk (w_d w) * z_x z)%G)) &&
      negb (is_ok (decrypt_share (rv_junk w z) (enc_point (pt_dh_pk (w_d w) * z_x z)%G)))
  | None => false
  end.
Lemma rv_all_open : forallb (fun w => forallb (rv_opens w) rv_heirs) rv_donors = true.
Proof. vmr. Qed.
Lemma rv_forged : forall w z, In w rv_donors -> In z rv_heirs -> forged w z (rv_junk w z).
Proof.
  intros w z Hw Hz. pose proof (proj1 (forallb_forall _ _) (proj1 (forallb_forall _ _) rv_all_open w Hw) z Hz) as E. cbv beta in E.
  unfold rv_opens in E. destruct (bget (z_index z) (w_es w)) as [e0|] eqn:Eb; [|discriminate].
  apply andb_true_iff in E. destruct E as [E1 E2]. apply negb_true_iff in E2.
  split; [reflexivity|]. split; [reflexivity|]. exists e0. split; [exact Eb|]. intros X. rewrite X in E2. congruence.
Qed.
Example C101_ex_hypotheses :
  recovers 2 (interp0 (dealt_values demo_parties (mk 0))) (map demo_key [1; 2; 3]%N) /\
  (forall w, In w rv_donors -> In (w_key w) (map demo_key [1; 2; 3]%N)) /\
  honest_heirs rv_params rv_heirs /\ honest_donors Debug rv_params rv_heirs rv_donors /\
  (forall w z, In w rv_donors -> In z rv_heirs -> forged w z (rv_junk w z)) /\
  (u32v (p_t demo_params) * u32v (p_t rv_params) <= u32v (p_n rv_params) * (u32v (p_n demo_params) - u32v (p_t demo_params)))%N.
Proof.
  split; [exact C32_ex_old|]. split.
  { assert (K : forall k seed, w_key (rv_donor k seed) = k).
    { intros k seed. unfold rv_donor. destruct (reshare Debug rv_params k (map z_p rv_heirs) seed) as [[[[d es] l] r]| |]; reflexivity. }
    intros w [<-|[<-|[<-|[]]]]; rewrite K; cbn; auto. }
  split; [exact rv_heirs_honest|]. split; [exact rv_donors_honest|]. split; [exact rv_forged|]. vm_compute. discriminate.
Qed.
(** in the key generation of three: a worthless message in the name of 1 for each of 2 and 3; their complaints give
    the secret of 1 (threshold two), and both calls return *)
Definition rv_dkg (i : N) : result (RoundTwo * list Complaint * Rng) :=
  to_round_two Debug (demo_r1 demo_ps i) (demo_shares i ++ [MkEnc (S := Toy) (u 1) (u i) (fst (gen_nonce 0%N)) []]) 7%N.
Definition rv_dkg_points : list (u32 * F) :=
  flat_map (fun i => flat_map (fun c => opened c (bget (u i) (y_es (demo_party 1)))) (complaints_in (rv_dkg i))) [2; 3]%N.
Example C101_ex_generation :
  map (fun i => is_ok (rv_dkg i)) [2; 3]%N = [true; true] /\
  map (fun i => map accused (complaints_in (rv_dkg i))) [2; 3]%N = [[u 1]; [u 1]] /\
  hd_error (y_co (demo_party 1)) = Some (interp0 rv_dkg_points).
Proof. vms. Qed.
