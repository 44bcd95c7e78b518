(** C83: complaints choose the group key among those of the sets of dealers. *)
From Coq Require Import String Strings.Byte Arith NArith ZArith Bool List Lia Permutation Sorted Field.
From Verif Require Import Base Suite Spec SpecDkg SpecRobust SpecAuth Types Algebra BaseLemmas ModelDkg LemmasShare LemmasRound1 LemmasRound2
  LemmasFinish LemmasBlame Toy Demo DemoDkg PropsRound2 PropsFinish PropsBlame PropsRobust PropsView PropsReflect PropsLeak PropsAttack.
Import ListNotations.

Section Steer.
  Context {S : Suite} {L : SuiteLaws S}.
  Add Field F_fld : F_field.

  (** the shares delivered to q cover all parties and are addressed to q *)
  Lemma delivered_cover m params parties senders q es : honest_parties params parties -> all_bootstrapped m params parties ->
    In q parties -> Permutation senders parties -> delivered senders q es ->
    (forall e, In e es -> es_receiver e = y_index q /\ exists p, In p parties /\ es_sender e = y_index p) /\
    (forall p, In p parties -> exists e, In e es /\ es_sender e = y_index p).
  Proof.
    intros H HB Hq HP HD. pose proof (honest_delivered m params parties senders q es H HB Hq HP HD) as HF.
    assert (Hs : forall p, In p senders <-> In p parties) by (intros p; split; apply Permutation_in; [|apply Permutation_sym]; exact HP).
    assert (A : (forall e, In e es -> es_receiver e = y_index q /\ exists p, In p senders /\ es_sender e = y_index p) /\
                (forall p, In p senders -> exists e, In e es /\ es_sender e = y_index p)).
    { clear - HF. remember (map dealing senders) as ds eqn:E. revert senders E.
      induction HF as [|d e ds es A HF IH]; intros [|p ps] E; try discriminate E.
      - split; intros ? [].
      - cbn [map] in E. injection E as -> ->. destruct A as (A1 & A2 & _). destruct (IH ps eq_refl) as [B1 B2]. split.
        + intros e0 [<-|I]; [split; [exact A2|exists p; cbn; auto]|]. destruct (B1 e0 I) as (C1 & p0 & C2 & C3). split; [exact C1|].
          exists p0. cbn; auto.
        + intros p0 [<-|I]; [exists e; cbn; auto|]. destruct (B2 p0 I) as (e0 & C1 & C2). exists e0. cbn; auto. }
    destruct A as [A1 A2]. split.
    - intros e I. destruct (A1 e I) as (B1 & p & B2 & B3). split; [exact B1|]. exists p. split; [apply Hs, B2|exact B3].
    - intros p I. apply A2, Hs, I.
  Qed.

  (** all honest participants record the same keys and commitments *)
  Lemma honest_same_view m params parties p q : honest_parties params parties -> all_bootstrapped m params parties ->
    In p parties -> In q parties ->
    ds_params (st1 (y_st p)) = ds_params (st1 (y_st q)) /\ ds_dhs (st1 (y_st p)) = ds_dhs (st1 (y_st q)) /\
    ds_comms (st1 (y_st p)) = ds_comms (st1 (y_st q)).
  Proof.
    intros H HB Hp Hq. destruct (HB p Hp) as (ps & HP & r & l & r' & E & _). destruct (HB q Hq) as (ps' & HP' & r1 & l' & r1' & E' & _).
    destruct (y_st p) as [st], (y_st q) as [st']. cbn [st1].
    destruct (C62_same_list_same_view S L m m params _ _ _ _ _ _ ps ps' _ _ _ _ st st' l l'
      (honest_nodup_ps params parties ps H HP) (Permutation_trans HP (Permutation_sym HP')) (or_introl (conj E E'))) as (A & B & C & _).
    auto.
  Qed.

  (** changing one value *)
  Lemma gpoly_at_0 (P : list G) : gpoly_value P F0 = match hd_error P with Some x => x | None => Gzero end.
  Proof.
    destruct (dlog_list P) as [a ->]. rewrite gpoly_committed, poly_value_0. destruct a as [|x a]; cbn; [apply gen_mul_0|reflexivity].
  Qed.
  Lemma interp0_head i s s' pts : interp0 ((i, s) :: pts) = (interp0 ((i, s') :: pts) + (s - s') * weight i (i :: map fst pts))%F.
  Proof. unfold interp0. cbn [map fst snd fsum]. ring. Qed.

  Lemma Fadd_zero_r x : (x + F0 = x)%F.
  Proof. ring. Qed.
  Lemma fzero_tail x w : (x + F0 * w = x)%F.
  Proof. ring. Qed.
  Lemma first_points_parties parties (rest : list Party) (comms' : bmap Vss) gk :
    NoDup (map y_index parties) -> (forall p, In p parties -> y_co p <> []) ->
    NoDup rest -> (forall p, In p rest -> In p parties) ->
    NoDup (bkeys comms') ->
    (forall j c, In (j, c) comms' <-> exists p, In p rest /\ j = y_index p /\ c = MkVss j (committed (y_co p))) ->
    first_points comms' gk -> gk = (gen * interp0 (dealt_values rest F0))%G.
  Proof.
    intros Hn Hco Hr Hsub Hnd Hin HF. apply first_points_dealt in HF. rewrite HF. unfold dealt_point.
    assert (Hnr : NoDup (map y_index rest)).
    { clear - Hn Hr Hsub. induction rest as [|a l IH]; cbn [map]; [constructor|]. apply NoDup_cons_iff in Hr. destruct Hr as [R1 R2].
      constructor; [|apply IH; [exact R2|intros p Hp; apply Hsub; right; exact Hp]].
      intros Hin. apply in_map_iff in Hin. destruct Hin as (b & E & Hb). apply R1.
      assert (Eab : forall l (a b : Party), NoDup (map y_index l) -> In a l -> In b l -> y_index a = y_index b -> a = b).
      { clear. intros l. induction l as [|x l IH]; intros a b Hn Ha Hb E; [contradiction|]. cbn [map] in Hn.
        apply NoDup_cons_iff in Hn. destruct Hn as [N1 N2]. destruct Ha as [<-|Ha], Hb as [<-|Hb]; auto.
        - destruct N1. rewrite E. apply in_map, Hb.
        - destruct N1. rewrite <- E. apply in_map, Ha. }
      rewrite <- (Eab parties b a); auto; apply Hsub; cbn; auto. }
    rewrite <- ginterp0_gen. unfold dealt_values. rewrite map_map. cbn [fst snd]. apply ginterp0_perm.
    apply NoDup_Permutation.
    - apply (NoDup_map_inv fst). rewrite map_map. cbn [fst]. exact Hnd.
    - apply (NoDup_map_inv fst). rewrite map_map. cbn [fst]. exact Hnr.
    - intros [j P]. rewrite !in_map_iff. split.
      + intros ([j0 c] & E & I). cbn [fst snd] in E. injection E as <- <-. apply Hin in I. destruct I as (p & I & -> & ->).
        exists p. split; [|exact I]. cbn [vss_points]. rewrite gpoly_committed. reflexivity.
      + intros (p & E & I). injection E as <- <-. exists (y_index p, MkVss (y_index p) (committed (y_co p))). split.
        * cbn [fst snd vss_points]. rewrite gpoly_committed. reflexivity.
        * apply Hin. exists p. auto.
  Qed.
End Steer.

(** C83: an adversary who injects messages to a single participant decides, after seeing every commitment, which dealers
    count; everybody ends with the group key of the remaining ones *)
Theorem C83_complaints_select_the_group_key :
  forall (S : Suite) (L : SuiteLaws S) (m : build) (params : Params) (parties rest : list Party) (q : Party)
    (senders : list Party) (es bads : list EncShare) (r : Rng),
  honest_parties params parties -> all_bootstrapped m params parties -> In q parties ->
  (forall p, In p parties -> (u32v (y_index p) <= u32v (p_n params))%N) ->
  Permutation senders parties -> delivered senders q es ->
  (forall e, In e bads -> exists p, In p parties /\ es_sender e = y_index p /\ es_receiver e = y_index q /\
     decrypt_share e (enc_point ((gen * y_x p) * y_x q)%G) <>
       Ok (MkShare (y_index p) (y_index q) (poly_value (y_co p) (of_u32 (y_index q))))) ->
  (u32v (p_t params) + N.of_nat (length bads) <= u32v (p_n params))%N ->
  NoDup rest -> (forall p, In p rest <-> In p parties /\ ~ In (y_index p) (map es_sender bads)) ->
  let gk := (gen * interp0 (dealt_values rest F0))%G in
  exists s2 cs r' keys s3 sk, to_round_two m (y_st q) (es ++ bads) r = Ok (s2, cs, r') /\
    blame s2 cs = Ok (keys, s3) /\ finish s3 = Ok (gk, sk) /\
    forall w sendersw esw rw, In w parties -> Permutation sendersw parties -> delivered sendersw w esw ->
      exists s2w rw' s3w skw, to_round_two m (y_st w) esw rw = Ok (s2w, [], rw') /\
        blame s2w cs = Ok (keys, s3w) /\ finish s3w = Ok (gk, skw) /\ sk_index skw = y_index w.
Proof.
  intros S L m params parties rest q senders es bads r H HB Hq Hle HP HD Hbad Ht Hnr Hrest. cbv zeta.
  destruct (C80_the_network_chooses_the_accused S L m params parties q senders es bads r H HB Hq HP HD Hbad Ht)
    as (s2 & cs & r' & E2 & Hac).
  destruct (honest_state m params parties q H HB Hq) as (st & comms & ps & Est & HPs & _ & R & Hc & Hnd & Hcm & Hdh).
  assert (Hpn : u32v (p_n (ds_params st)) = u32v (p_n params)).
  { rewrite (rec_n _ _ _ _ _ R), (Permutation_length HPs), map_length. apply H. }
  assert (Hkeys : forall j, In j (bkeys comms) <-> exists p, In p parties /\ y_index p = j).
  { intros j. split.
    - intros Hj. apply bget_key_some in Hj. destruct Hj as [c Hj]. apply Hcm in Hj. destruct Hj as (p & A & B & _). eauto.
    - intros (p & A & B). eapply bget_some_key, Hcm. exists p. eauto. }
  assert (Hco : forall p, In p parties -> y_co p <> []).
  { intros p Hp Eco. destruct (honest_fresh params parties p H Hp) as [_ _ Hlen _ _ _]. rewrite Eco in Hlen. cbn in Hlen.
    destruct (hp_threshold _ _ H). lia. }
  assert (Hgood : good_indices (bkeys comms)).
  { split; [exact Hnd|]. intros Hz. apply Hkeys in Hz. destruct Hz as (p & A & B). apply (proj2 (hp_indices _ _ H)). rewrite <- B. apply in_map, A. }
  rewrite Est in E2.
  pose proof (round_two_complaints m st comms (es ++ bads) r cs Hc Hnd (or_intror (ex_intro _ s2 (ex_intro _ r' E2)))) as HL.
  (* who is convicted *)
  set (stB := MkState (ds_params st) (ds_index st) (ds_dh_sk st) (ds_dh_pk st) (ds_comms st) (ds_dhs st) (ds_enc st) (Some [])).
  assert (Hcv1 : forall c, In c cs -> forall k, convicts st c k <-> k = accused c).
  { intros c Hin k. assert (Hb : In (accused c) (map es_sender bads)) by (rewrite <- Hac; apply in_map, Hin).
    apply in_map_iff in Hb. destruct Hb as (e & Ee & Hb). destruct (Hbad e Hb) as (p & Hp & Es & _).
    destruct (C24_genuine_complaint_removes_cheater S L m st stB comms [] (es ++ bads) r cs cs c Hc Hnd
      (or_intror (ex_intro _ s2 (ex_intro _ r' E2))) Hin Hc eq_refl eq_refl) as [A _].
    - rewrite <- Ee, Es. intros Hz. apply (proj2 (hp_indices _ _ H)). rewrite <- Hz. apply in_map, Hp.
    - cbn [stB ds_params]. rewrite Hpn, <- Ee, Es. apply Hle, Hp.
    - exact Hin.
    - exact (A k). }
  assert (Hcv : forall j, convicted st cs j <-> In j (map es_sender bads)).
  { intros j. unfold convicted. rewrite <- Hac, in_map_iff. split.
    - intros (c & A & B). apply Hcv1 in B; [|exact A]. exists c. auto.
    - intros (c & A & B). exists c. split; [exact B|]. apply Hcv1; auto. }
  (* one follower for q and one for w *)
  destruct (delivered_cover m params parties senders q es H HB Hq HP HD) as [Q1 Q2].
  set (hq := MkFollower st (es ++ bads) r s2 cs r' cs).
  assert (HFq : follows m (ds_params st) (ds_dhs st) comms hq).
  { split; cbn [hq h_st h_es h_r h_s2 h_cs h_r']; auto.
    - intros e He. apply in_app_or in He. rewrite (rec_index _ _ _ _ _ R), Hkeys. destruct He as [He|He].
      + destruct (Q1 e He) as (A & p & B & C). split; [exact A|]. exists p. auto.
      + destruct (Hbad e He) as (p & A & B & C & _). split; [exact C|]. exists p. auto.
    - intros j Hj. apply Hkeys in Hj. destruct Hj as (p & A & <-). destruct (Q2 p A) as (e & B & C). exists e.
      split; [apply in_or_app; left; exact B|exact C]. }
  assert (Fin : forall hs, (forall h, In h hs -> follows m (ds_params st) (ds_dhs st) comms h) -> In hq hs -> settle_together hs cs ->
    exists keys, forall h, In h hs -> exists comms' sk, ends h keys comms' (gen * interp0 (dealt_values rest F0))%G sk).
  { intros hs HF Hhq HS.
    destruct (C61_followers_agree_and_hold_keys S L m (ds_params st) (ds_dhs st) comms hs cs Hgood) as (keys & comms' & gk & K1 & K2 & K3 & _); auto.
    { intros h c Hh Hcc. pose proof (follows_accused L m _ _ _ h c (proj1 Hgood) (HF h Hh) Hcc) as Hj. apply Hkeys in Hj. destruct Hj as (p & A & <-). rewrite Hpn. apply Hle, A. }
    { intros j c Hj. apply Hcm in Hj. destruct Hj as (p & A & _ & ->). cbn [vss_points]. pose proof (Hco p A) as X. destruct (y_co p); [contradiction|discriminate]. }
    exists keys. intros h Hh. destruct (K3 h Hh) as (sk & K4 & _). exists comms', sk.
    replace (gen * interp0 (dealt_values rest F0))%G with gk; [exact K4|].
    specialize (K2 hq Hhq). cbn [hq h_st] in K2.
    eapply (first_points_parties parties rest comms' gk).
    - apply (hp_indices _ _ H).
    - exact Hco.
    - exact Hnr.
    - intros p Hp. apply Hrest, Hp.
    - eapply without_nodup; eassumption.
    - intros j c. rewrite (without_in _ _ _ K2), Hcv. split.
      + intros [A B]. apply in_bget in A; [|exact Hnd]. apply Hcm in A. destruct A as (p & A & <- & ->). exists p. split; [|auto]. apply Hrest. auto.
      + intros (p & A & -> & ->). apply Hrest in A. destruct A as [A B]. split; [|exact B]. apply bget_in, Hcm. exists p. auto.
    - exact K1. }
  assert (HSq : settle_together [hq] cs).
  { intros h [<-|[]]. split; [reflexivity|auto]. }
  destruct (Fin [hq]) as (keys & F1); [intros h [<-|[]]; exact HFq|left; reflexivity|exact HSq|].
  destruct (F1 hq (or_introl eq_refl)) as (comms' & sk & s3 & B1 & _ & B2 & _). cbn [hq h_s2 h_settles] in B1.
  exists s2, cs, r', keys, s3, sk. rewrite Est. split; [exact E2|]. split; [exact B1|]. split; [exact B2|].
  intros w sendersw esw rw Hw HPw HDw.
  destruct (C18_honest_agreement S L m params parties H HB) as (sec & _ & C18).
  destruct (C18 w sendersw esw rw Hw HPw HDw) as (s2w & rw' & _ & Ew & _).
  destruct (honest_state m params parties w H HB Hw) as (stw & commsw & psw & Estw & HPsw & _ & Rw & Hcw & _).
  destruct (honest_same_view m params parties w q H HB Hw Hq) as (V1 & V2 & V3). rewrite Est, Estw in V1, V2, V3. cbn [st1] in V1, V2, V3.
  destruct (delivered_cover m params parties sendersw w esw H HB Hw HPw HDw) as [W1 W2].
  rewrite Estw in Ew. set (hw := MkFollower stw esw rw s2w [] rw' cs).
  assert (HFw : follows m (ds_params st) (ds_dhs st) comms hw).
  { split; cbn [hw h_st h_es h_r h_s2 h_cs h_r']; auto.
    - congruence.
    - intros e He. rewrite (rec_index _ _ _ _ _ Rw), Hkeys. destruct (W1 e He) as (A & p & B & C). split; [exact A|]. exists p. auto.
    - intros j Hj. apply Hkeys in Hj. destruct Hj as (p & A & <-). apply W2, A. }
  destruct (Fin [hq; hw]) as (keys' & F2).
  { intros h [<-|[<-|[]]]; assumption. }
  { left; reflexivity. }
  { intros h [<-|[<-|[]]]; (split; [reflexivity|]); [auto|intros c []]. }
  destruct (F2 hq (or_introl eq_refl)) as (cq & skq & s3q & D1 & _). cbn [hq h_s2 h_settles] in D1. rewrite B1 in D1. injection D1 as <- _.
  destruct (F2 hw (or_intror (or_introl eq_refl))) as (cw & skw & s3w & D1 & _ & D2 & D3). cbn [hw h_s2 h_settles h_st] in D1, D3.
  exists s2w, rw', s3w, skw. rewrite Estw. split; [exact Ew|]. split; [exact D1|]. split; [exact D2|].
  rewrite D3. apply (rec_index _ _ _ _ _ Rw).
Qed.
Print Assumptions C83_complaints_select_the_group_key.

(** finish with and without one dealer: the group key changes unless the dealer's secret lies on the polynomial through the
    others' secrets *)
Theorem C83_the_keys_differ :
  forall (S : Suite) (L : SuiteLaws S) (st st' : DkgState) (comms comms' : bmap Vss) gk sk gk' sk' (j : u32) (y : u32 -> F) (a : list F),
  ds_comms st = Some comms -> NoDup (bkeys comms) -> ds_comms st' = Some comms' ->
  In j (bkeys comms) -> without (fun k => k = j) comms comms' ->
  finish (R2 st) = Ok (gk, sk) -> finish (R2 st') = Ok (gk', sk') ->
  (forall k c, In (k, c) comms -> exists rest, vss_points c = (gen * y k)%G :: rest) ->
  length a < length comms -> (forall k, In k (bkeys comms') -> y k = poly_value a (of_u32 k)) ->
  (gk = gk' <-> y j = poly_value a (of_u32 j)).
Proof.
  intros S L st st' comms comms' gk sk gk' sk' j y a Hc Hnd Hc' Hj HW HF HF' Hy Hl Ha.
  assert (HP : Permutation (bkeys comms) (j :: bkeys comms')).
  { apply NoDup_Permutation; [exact Hnd| |].
    - constructor; [|eapply without_nodup; eassumption]. intros X. apply (without_keys _ _ _ HW) in X. apply X; reflexivity.
    - intros k. cbn [In]. rewrite (without_keys _ _ _ HW k). destruct (u32_eq_dec k j) as [->|E]; intuition congruence. }
  assert (K : forall (cm : bmap Vss), (forall k c, In (k, c) cm -> In (k, c) comms) ->
    dealt_point cm F0 = (gen * interp0 (map (fun k => (k, y k)) (bkeys cm)))%G).
  { intros cm Hcm. unfold dealt_point. rewrite <- ginterp0_gen. f_equal. unfold bkeys. rewrite !map_map. apply map_ext_in. intros [k c] Hin.
    cbn [fst snd]. destruct (Hy k c (Hcm k c Hin)) as [rest ->]. rewrite gpoly_at_0. reflexivity. }
  destruct (C20_finish_group_key S L st comms gk sk Hc Hnd HF) as (Hg & _ & ->).
  destruct (C20_finish_group_key S L st' comms' gk' sk' Hc' (without_nodup _ _ _ HW Hnd) HF') as (Hg' & _ & ->).
  rewrite (K comms) by auto. rewrite (K comms') by (intros k c Hin; apply (without_in _ _ _ HW) in Hin; apply Hin).
  rewrite gen_mul_iff, (interp0_perm _ _ (Permutation_map (fun k => (k, y k)) HP)). cbn [map].
  set (ids := bkeys comms') in *.
  assert (HL : length a <= length ids).
  { pose proof (Permutation_length HP) as X. cbn [length] in X. unfold bkeys in X at 1. rewrite map_length in X. lia. }
  assert (Hn : NoDup ids) by apply Hg'.
  assert (Hnj : NoDup (j :: ids)) by (eapply Permutation_NoDup; eassumption).
  assert (Hz : ~ In u32_zero (j :: ids)).
  { intros X. apply (proj2 Hg). eapply Permutation_in; [apply Permutation_sym, HP|exact X]. }
  assert (E : map (fun k => (k, y k)) ids = map (fun i => (i, poly_value a (of_u32 i))) ids).
  { apply map_ext_in. intros k Hk. rewrite Ha by exact Hk. reflexivity. }
  assert (E1 : interp0 (map (fun k => (k, y k)) ids) = poly_value a F0) by (rewrite E; apply interp0_poly; assumption).
  assert (E2 : interp0 ((j, poly_value a (of_u32 j)) :: map (fun k => (k, y k)) ids) = poly_value a F0).
  { rewrite E. apply (interp0_poly (j :: ids) a Hnj). cbn [length]. lia. }
  rewrite (interp0_head _ _ (poly_value a (of_u32 j))), E1, E2.
  assert (Ew : map fst (map (fun k => (k, y k)) ids) = ids) by (rewrite map_map; apply map_id). rewrite Ew.
  pose proof (weight_neq_0 j (j :: ids) Hz) as Hw. split.
  - intros X. assert (Y : ((y j - poly_value a (of_u32 j)) * weight j (j :: ids) = F0)%F).
    { apply (Fadd_cancel_l (poly_value a F0)). rewrite X. symmetry. apply Fadd_zero_r. }
    apply Fmul_eq_0 in Y. destruct Y as [Y|Y]; [|contradiction]. apply Fsub_eq_0, Y.
  - intros ->. replace (poly_value a (of_u32 j) - poly_value a (of_u32 j))%F with F0 by (symmetry; apply Fsub_eq_0; reflexivity).
    apply fzero_tail.
Qed.
Print Assumptions C83_the_keys_differ.

(** a run with other secrets: participant 1 gets one garbled message under the name of 2; all three end with the key of
    dealers 1 and 3, which is not the key of all *)
Definition sq_x (i : N) : F := dealer_x 3 2 i (10 * i * i).
Definition sq_co (i : N) : list F := dealer_co 3 2 i (10 * i * i).
Definition sq_ps : list Participant := map (fun i => dealer 3 2 i (10 * i * i)) [1; 2; 3]%N.
Definition sq_r1 (i : N) : RoundOne :=
  let '(s, _, _) := got (R1 no_state, MkPList [] None, 0%N) (bootstrap Debug demo_params (sq_x i) (u i) (sq_co i) sq_ps (1000 + i)%N) in s.
Definition sq_party (i : N) : Party :=
  MkParty (u i) (dealer 3 2 i (10 * i * i)) (sq_co i) (sq_x i) (sq_r1 i) (got [] (their_encrypted_secret_shares (sq_r1 i))).
Definition sq_shares (j : N) : list EncShare := shares_to j (map sq_r1 [1; 2; 3]%N).
Definition ended (o : result (RoundTwo * list Complaint * Rng)) (cs : list Complaint) : result G :=
  let* (s2, _, _) := o in let* (_, s3) := blame s2 cs in let* (gk, _) := finish s3 in Ok gk.
Definition C83_bads : list EncShare := map garbled (firstn 1 (skipn 1 (sq_shares 1))).
Definition C83_cs : list Complaint := complaints_in (to_round_two Debug (sq_r1 1) (sq_shares 1 ++ C83_bads) 7%N).
Definition C83_key (l : list N) : G := (toy_gen * interp0 (dealt_values (map sq_party l) (mk 0)))%G.
Definition is_key (o : result G) (k : G) : bool := match o with Ok g => Geqb g k | _ => false end.
Example C83_ex :
  map es_sender C83_bads = [u 2] /\ map accused C83_cs = [u 2] /\
  is_key (ended (to_round_two Debug (sq_r1 1) (sq_shares 1 ++ C83_bads) 7%N) C83_cs) (C83_key [1; 3]%N) = true /\
  is_key (ended (to_round_two Debug (sq_r1 2) (sq_shares 2) 8%N) C83_cs) (C83_key [1; 3]%N) = true /\
  is_key (ended (to_round_two Debug (sq_r1 3) (sq_shares 3) 9%N) C83_cs) (C83_key [1; 3]%N) = true /\
  is_key (ended (to_round_two Debug (sq_r1 3) (sq_shares 3) 9%N) []) (C83_key [1; 2; 3]%N) = true /\
  Geqb (C83_key [1; 2; 3]%N) (C83_key [1; 3]%N) = false.
Proof. vms. Qed.
(** for this run the hypotheses hold *)
Example C83_ex_honest : honest_parties demo_params (map sq_party [1; 2; 3]%N).
Proof.
  constructor.
  - vmr.
  - split; vm_compute; discriminate.
  - good.
  - intros p [<-|[<-|[<-|[]]]]; unfold dealt_by.
    + exists 10%N, (let '(_, _, _, r) := dealer_run 3 2 1 10 in r). vmr.
    + exists 40%N, (let '(_, _, _, r) := dealer_run 3 2 2 40 in r). vmr.
    + exists 90%N, (let '(_, _, _, r) := dealer_run 3 2 3 90 in r). vmr.
Qed.
