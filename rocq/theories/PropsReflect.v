(** C79: encrypted shares are not authenticated. *)
From Coq Require Import String Strings.Byte Arith NArith ZArith Bool List Lia Permutation Sorted.
From Verif Require Import Base Suite Spec SpecDkg SpecAuth Types Algebra BaseLemmas ModelDkg LemmasShare LemmasRound1 LemmasRound2
  LemmasFinish LemmasBlame Toy Demo DemoDkg PropsRound2 PropsFinish PropsBlame.
Import ListNotations.

Section Reflect.
  Context {S : Suite} {L : SuiteLaws S}.

  Lemma decrypt_relabel e k a b s i j : decrypt_share e k = Ok (MkShare a b s) -> decrypt_share (relabelled e i j) k = Ok (MkShare i j s).
  Proof.
    unfold decrypt_share, relabelled. cbn [es_nonce es_ct es_sender es_receiver].
    destruct (aead_dec _ _ _) as [bs|]; [|discriminate]. destruct (dec_scalar bs) as [[v x]|]; [|discriminate].
    intros [= _ _ ->]. reflexivity.
  Qed.
  Lemma decrypt_indices e k s : decrypt_share e k = Ok s -> exists v, s = MkShare (es_sender e) (es_receiver e) v.
  Proof.
    unfold decrypt_share. destruct (aead_dec _ _ _) as [bs|]; [|discriminate].
    destruct (dec_scalar bs) as [[v x]|]; [|discriminate]. intros [= <-]. exists v. reflexivity.
  Qed.
  Lemma complaint_list_one st l1 e l2 cs : complaint_list st (l1 ++ e :: l2) cs -> bad_for st e ->
    (forall x, In x (l1 ++ l2) -> ~ bad_for st x) -> exists c, cs = [c] /\ complains st e c.
  Proof.
    assert (K : forall l cs, complaint_list st l cs -> (forall x, In x l -> ~ bad_for st x) -> cs = []).
    { induction 1 as [|x l c cs' B C HL IH|x l cs' B HL IH]; intros H; [reflexivity| |].
      - destruct (H x (or_introl eq_refl) B).
      - apply IH. intros y Hy. apply H. right; exact Hy. }
    revert cs. induction l1 as [|x l1 IH]; intros cs HL HB HG; cbn [app] in HL.
    - inversion HL as [|e0 es c cs' B C HL' E1 E2|e0 es cs' B HL' E1 E2]; subst; [|contradiction].
      rewrite (K l2 cs' HL' HG). exists c. auto.
    - assert (Hx : ~ bad_for st x) by (apply HG; left; reflexivity).
      inversion HL as [|e0 es c cs' B C HL' E1 E2|e0 es cs' B HL' E1 E2]; subst; [contradiction|].
      apply IH; auto. intros y Hy. apply HG. right; exact Hy.
  Qed.
  (** a party's own share for another opens with the same key, in the other direction *)
  Lemma own_share m params parties p q e : honest_parties params parties -> all_bootstrapped m params parties ->
    In p parties -> In q parties -> bget (y_index p) (y_es q) = Some e ->
    decrypt_share e (enc_point ((gen * y_x p) * y_x q)%G) =
      Ok (MkShare (y_index q) (y_index p) (poly_value (y_co q) (of_u32 (y_index p)))).
  Proof.
    intros H HB Hp Hq He. destruct (honest_state m params parties q H HB Hq) as (st & comms & ps & _ & HPs & [K1 K2] & _).
    destruct (honest_fresh params parties p H Hp) as [Hi Hpk _ _ _ _].
    destruct (K2 (y_index p) (y_d p)) as (e' & G1 & G2 & G3 & G4).
    { apply last_with_distinct; [eapply honest_nodup_ps; eassumption|]. split; [|exact Hi].
      eapply Permutation_in; [apply Permutation_sym, HPs|]. apply in_map, Hp. }
    rewrite He in G1. injection G1 as <-. rewrite Hi, Hpk in G4. exact G4.
  Qed.
End Reflect.

(** a message that does not open to the dealer's value, with the shares of any other dealers *)
Lemma bad_message :
  forall (S : Suite) (L : SuiteLaws S) (m : build) (params : Params) (parties : list Party) (p q : Party) (e : EncShare)
    (senders : list Party) (l1 l2 : list EncShare) (r : Rng),
  honest_parties params parties -> all_bootstrapped m params parties -> In p parties -> In q parties ->
  (u32v (p_t params) < u32v (p_n params))%N -> (u32v (y_index p) <= u32v (p_n params))%N ->
  es_sender e = y_index p -> es_receiver e = y_index q ->
  decrypt_share e (enc_point ((gen * y_x p) * y_x q)%G) <>
    Ok (MkShare (y_index p) (y_index q) (poly_value (y_co p) (of_u32 (y_index q)))) ->
  (forall z, In z senders -> In z parties) -> (u32v (p_t params) <= N.of_nat (Datatypes.S (length senders)))%N -> delivered senders q (l1 ++ l2) ->
  exists s2 c r', to_round_two m (y_st q) (l1 ++ e :: l2) r = Ok (s2, [c], r') /\
    accused c = y_index p /\ maker c = y_index q /\
    forall w es rw sw csw rw', In w parties -> to_round_two m (y_st w) es rw = Ok (sw, csw, rw') ->
      exists s' comms', blame sw [c] = Ok ([(gen * y_x p)%G], s') /\
        ds_comms (st2 s') = Some comms' /\ bget (y_index p) comms' = None.
Proof.
  intros S L m params parties p q e senders l1 l2 r H HB Hp Hq Ht Hn Es Er Hbad Hsub Hlen HD.
  destruct (honest_state m params parties q H HB Hq) as (st & comms & ps & Est & HPs & _ & R & Hc & Hnd & Hcm & Hdh).
  pose proof (honest_delivered_some m params parties senders q (l1 ++ l2) H HB Hq Hsub HD) as HF.
  assert (Hpn : u32v (p_n (ds_params st)) = u32v (p_n params)).
  { rewrite (rec_n _ _ _ _ _ R), (Permutation_length HPs), map_length. apply H. }
  assert (Hin : forall x, In x (l1 ++ l2) -> exists z, In z parties /\ es_sender x = y_index z /\ es_receiver x = y_index q /\
    decrypt_share x (enc_point ((gen * y_x z) * y_x q)%G) = Ok (MkShare (y_index z) (y_index q) (poly_value (y_co z) (of_u32 (y_index q))))).
  { pose proof Hsub as Hs. clear - HF Hs. revert HF. generalize (l1 ++ l2). intros l. revert l. induction senders as [|z zs IH]; intros l HF x Hx; cbn [map] in HF.
    - inversion HF; subst. contradiction.
    - inversion HF as [|? x0 ? l0 A B]; subst. destruct Hx as [<-|Hx].
      + exists z. split; [apply Hs; left; reflexivity|]. exact A.
      + apply (IH (fun y Hy => Hs y (or_intror Hy)) l0 B x Hx). }
  assert (Hok : forall x, In x (l1 ++ l2) -> acceptable m st x /\ ~ bad_for st x).
  { intros x Hx. destruct (Hin x Hx) as (z & Hz & E1 & E2 & E3). split.
    - split; [intros _; rewrite (rec_index _ _ _ _ _ R); exact E2|]. exists (gen * y_x z)%G. rewrite E1. apply Hdh, Hz.
    - intros (c0 & com & A1 & A2 & A3). apply A3. assert (c0 = comms) by congruence. subst c0.
      rewrite E1 in A2. apply Hcm in A2. destruct A2 as (z' & Hz' & Ez & ->).
      assert (z' = z).
      { destruct (hp_indices _ _ H) as [I _]. clear - I Hz Hz' Ez. induction parties as [|a l IH]; [contradiction|].
        cbn [map] in I. apply NoDup_cons_iff in I. destruct I as [I1 I2].
        destruct Hz as [->|Hz], Hz' as [->|Hz']; auto.
        - destruct I1. rewrite <- Ez. apply in_map, Hz'.
        - destruct I1. rewrite Ez. apply in_map, Hz. }
      subst z'. exists (poly_value (y_co z) (of_u32 (y_index q))). split.
      + exists (gen * y_x z)%G. rewrite E1, E2, (rec_sk _ _ _ _ _ R). split; [apply Hdh, Hz|exact E3].
      + unfold on_commitment. cbn [vss_points]. rewrite gpoly_committed, E2. reflexivity. }
  assert (Hcp : bget (y_index p) comms = Some (MkVss (y_index p) (committed (y_co p)))) by (apply Hcm; eauto).
  assert (Hb : bad_for st e).
  { exists comms, (MkVss (y_index p) (committed (y_co p))). split; [exact Hc|]. split; [rewrite Es; exact Hcp|].
    intros (v & (pk & O1 & O2) & O3). apply Hbad. rewrite Es, Hdh in O1 by exact Hp. injection O1 as <-.
    rewrite (rec_sk _ _ _ _ _ R), Es, Er in O2. rewrite O2. unfold on_commitment in O3. cbn [vss_points] in O3.
    rewrite gpoly_committed, Er in O3. apply gen_inj in O3. rewrite O3. reflexivity. }
  assert (Hae : acceptable m st e).
  { split; [intros _; rewrite (rec_index _ _ _ _ _ R); exact Er|]. exists (gen * y_x p)%G. rewrite Es. apply Hdh, Hp. }
  destruct (to_round_two_done m st comms (l1 ++ e :: l2) r Hc Hnd) as (cs & r' & HL & E).
  { rewrite (rec_t _ _ _ _ _ R). apply Forall2_len in HF. rewrite map_length in HF.
    rewrite app_length in *. cbn [length] in *. lia. }
  { apply Forall_app. split; [|constructor; [exact Hae|]]; apply Forall_forall; intros x Hx; apply Hok, in_or_app; auto. }
  destruct (complaint_list_one st l1 e l2 cs HL Hb (fun x Hx => proj2 (Hok x Hx))) as (c & -> & C1 & C2 & pk & C3 & C4 & C5).
  rewrite Es, Hdh in C3 by exact Hp. injection C3 as <-.
  assert (Hac : accused c = y_index p) by (unfold accused; rewrite C1; exact Es).
  assert (Hmk : maker c = y_index q) by (unfold maker; rewrite C1; exact Er).
  cbn [length] in E. unfold remaining in E. change (N.of_nat 1 mod 4294967296)%N with 1%N in E.
  rewrite Hpn, (rec_t _ _ _ _ _ R) in E. destruct (hp_threshold _ _ H) as [T1 T2].
  replace (u32v (p_n params) <? 1)%N with false in E by (symmetry; apply N.ltb_ge; lia).
  replace (u32v (p_n params) - 1 <? u32v (p_t params))%N with false in E by (symmetry; apply N.ltb_ge; lia).
  rewrite Est. eexists _, c, r'. split; [exact E|]. split; [exact Hac|]. split; [exact Hmk|].
  intros w es rw sw csw rw' Hw Ew.
  destruct (honest_state m params parties w H HB Hw) as (stw & commsw & psw & Estw & HPsw & _ & Rw & Hcw & Hndw & Hcmw & Hdhw).
  rewrite Estw in Ew. destruct (proj1 (C16_complaints_exact S L m stw commsw es rw Hcw Hndw) sw csw rw' Ew) as [_ AR].
  destruct sw as [stw2]. cbn [st2] in AR. destruct AR as [A1 A2 A3 A4 A5 A6 A7 (shw & A8 & _)].
  assert (Hcpw : bget (y_index p) commsw = Some (MkVss (y_index p) (committed (y_co p)))) by (apply Hcmw; eauto).
  assert (U : upheld stw2 c).
  { split; [rewrite Hac; intros Hz; apply (proj2 (hp_indices _ _ H)); rewrite <- Hz; apply in_map, Hp|].
    split; [rewrite Hac, A1, (rec_n _ _ _ _ _ Rw), (Permutation_length HPsw), map_length, (hp_count _ _ H); exact Hn|].
    exists commsw, (MkVss (y_index p) (committed (y_co p))), (gen * y_x p)%G. split; [rewrite A5; exact Hcw|].
    rewrite Hac, Hmk. split; [exact Hcpw|]. split; [left; rewrite A6; apply Hdhw, Hp|]. split; [exact C5|].
    intros (v & V1 & V2). apply Hbad. rewrite C1, C4, (rec_sk _ _ _ _ _ R) in V1. rewrite V1.
    unfold on_commitment in V2. cbn [vss_points] in V2. rewrite gpoly_committed in V2. apply gen_inj in V2. rewrite V2. reflexivity. }
  assert (Hcv : forall j, convicted stw2 [c] j <-> j = y_index p).
  { intros j. unfold convicted, convicts. split.
    - intros (c0 & [<-|[]] & [[_ ->]|[N _]]); [exact Hac|contradiction].
    - intros ->. exists c. split; [left; reflexivity|]. left. auto. }
  destruct (C22_blame_outcome S L stw2 commsw shw [c]) as (l & keys & st' & E1 & Hl & Hs & Hk & HPr); [rewrite A5; exact Hcw|exact A8|].
  assert (El : l = [y_index p]).
  { assert (I0 : In (y_index p) l) by (apply Hl, Hcv; reflexivity).
    assert (I1 : forall j, In j l -> j = y_index p) by (intros j Hj; apply Hcv, Hl, Hj).
    clear - Hs I0 I1. destruct l as [|a [|b l]]; [contradiction| |].
    - rewrite (I1 a (or_introl eq_refl)). reflexivity.
    - exfalso. apply StronglySorted_inv in Hs. destruct Hs as [_ Hs]. apply Forall_inv in Hs.
      rewrite (I1 a), (I1 b) in Hs by (cbn; auto). lia. }
  subst l. exists (R2 st'). destruct HPr as [_ _ _ _ _ _ (m1 & m1' & P1 & P2 & P3) _].
  exists m1'. cbn [st2]. split; [|split; [exact P2|]].
  - rewrite E1. do 2 f_equal. inversion Hk as [|i l0 k ks K1 K2 F1 F2|i l0 ks K1 K2 F1 F2]; subst.
    + inversion K2; subst. rewrite A6, (Hdhw p Hp) in K1. injection K1 as <-. reflexivity.
    + rewrite A6, (Hdhw p Hp) in K1. discriminate.
  - apply (without_bget _ _ _ P3), Hcv. reflexivity.
Qed.

(** any message that does not open to the dealer's value makes the receiver complain, and everybody removes the dealer *)
Theorem C79_a_bad_message_removes_an_honest_dealer :
  forall (S : Suite) (L : SuiteLaws S) (m : build) (params : Params) (parties : list Party) (p q : Party) (e : EncShare)
    (senders : list Party) (l1 l2 : list EncShare) (r : Rng),
  honest_parties params parties -> all_bootstrapped m params parties -> In p parties -> In q parties ->
  (u32v (p_t params) < u32v (p_n params))%N -> (u32v (y_index p) <= u32v (p_n params))%N ->
  es_sender e = y_index p -> es_receiver e = y_index q ->
  decrypt_share e (enc_point ((gen * y_x p) * y_x q)%G) <>
    Ok (MkShare (y_index p) (y_index q) (poly_value (y_co p) (of_u32 (y_index q)))) ->
  Permutation senders parties -> delivered senders q (l1 ++ l2) ->
  exists s2 c r', to_round_two m (y_st q) (l1 ++ e :: l2) r = Ok (s2, [c], r') /\
    accused c = y_index p /\ maker c = y_index q /\
    forall w es rw sw csw rw', In w parties -> to_round_two m (y_st w) es rw = Ok (sw, csw, rw') ->
      exists s' comms', blame sw [c] = Ok ([(gen * y_x p)%G], s') /\
        ds_comms (st2 s') = Some comms' /\ bget (y_index p) comms' = None.
Proof.
  intros S L m params parties p q e senders l1 l2 r H HB Hp Hq Ht Hn Es Er Hbad HP HD.
  apply (bad_message S L m params parties p q e senders l1 l2 r); auto.
  - intros z Hz. eapply Permutation_in; eassumption.
  - rewrite (Permutation_length HP). destruct H as [H1 H2 _ _]. lia.
Qed.
Print Assumptions C79_a_bad_message_removes_an_honest_dealer.

(** no secret is needed to make one: the receiver's own share for the dealer, sent back under the other's name, opens
    (both directions use the same key), to the wrong value unless the two values happen to be equal *)
Theorem C79_reflected_share_is_accepted_by_decryption :
  forall (S : Suite) (L : SuiteLaws S) (m : build) (params : Params) (parties : list Party) (p q : Party) (e : EncShare),
  honest_parties params parties -> all_bootstrapped m params parties -> In p parties -> In q parties ->
  bget (y_index p) (y_es q) = Some e ->
  let f := relabelled e (y_index p) (y_index q) in
  es_sender f = y_index p /\ es_receiver f = y_index q /\
  decrypt_share f (enc_point ((gen * y_x p) * y_x q)%G) =
    Ok (MkShare (y_index p) (y_index q) (poly_value (y_co q) (of_u32 (y_index p)))) /\
  (poly_value (y_co q) (of_u32 (y_index p)) <> poly_value (y_co p) (of_u32 (y_index q)) ->
   (u32v (p_t params) < u32v (p_n params))%N -> (u32v (y_index p) <= u32v (p_n params))%N ->
   forall senders l1 l2 r, Permutation senders parties -> delivered senders q (l1 ++ l2) ->
   exists s2 c r', to_round_two m (y_st q) (l1 ++ f :: l2) r = Ok (s2, [c], r') /\
     accused c = y_index p /\ maker c = y_index q /\
     forall w es rw sw csw rw', In w parties -> to_round_two m (y_st w) es rw = Ok (sw, csw, rw') ->
       exists s' comms', blame sw [c] = Ok ([(gen * y_x p)%G], s') /\
         ds_comms (st2 s') = Some comms' /\ bget (y_index p) comms' = None).
Proof.
  intros S L m params parties p q e H HB Hp Hq He. cbv zeta. split; [reflexivity|]. split; [reflexivity|].
  assert (D : decrypt_share (relabelled e (y_index p) (y_index q)) (enc_point ((gen * y_x p) * y_x q)%G) =
    Ok (MkShare (y_index p) (y_index q) (poly_value (y_co q) (of_u32 (y_index p))))).
  { eapply decrypt_relabel, own_share; eassumption. }
  split; [exact D|]. intros Hv Ht Hn senders l1 l2 r HP HD.
  eapply C79_a_bad_message_removes_an_honest_dealer; try eassumption; try reflexivity.
  rewrite D. intros X. apply Hv. injection X as X. exact X.
Qed.
Print Assumptions C79_reflected_share_is_accepted_by_decryption.

(** participant 1 of the demo run gets its own share for 2 back, in 2's name; 3 removes 2 *)
Definition with_reflected (o : option EncShare) (es : list EncShare) : list EncShare :=
  match o with None => [] | Some e => es ++ [relabelled e (u 2) (u 1)] end.
Definition C79_shares : list EncShare := with_reflected (bget (u 2) (y_es (demo_party 1))) (demo_shares 1).
Definition C79_complaints : list Complaint := snd (demo_r2 1 C79_shares).
Definition C79_settled : result (list G * RoundTwo) :=
  let* (s3, _, _) := to_round_two Debug (demo_r1 demo_ps 3) (demo_shares 3) 8%N in blame s3 C79_complaints.
Example C79_ex :
  map (fun c => (accused c, maker c)) C79_complaints = [(u 2, u 1)] /\
  (let* (keys, s3) := C79_settled in Ok (keys, option_map (map fst) (ds_comms (st2 s3)))) =
    Ok ([pt_dh_pk (dealer 3 2 2 20)], Some [u 1; u 3]) /\
  Feqb (poly_value (y_co (demo_party 1)) (mk 2)) (poly_value (y_co (demo_party 2)) (mk 1)) = false /\
  map y_index demo_parties = [u 1; u 2; u 3].
Proof. vms. Qed.
