(** C115, continued: the repository's test of complaints, for any number of participants, any tampering and every generator. *)
From Coq Require Import String Strings.Byte Arith NArith ZArith Bool List Lia Permutation Sorted Field.
From Verif Require Import Base BaseLemmas Suite Algebra Spec Types Toy ModelDkg ModelSign ModelDoc ModelTests SpecDkg SpecRobust SpecSign
  LemmasShare LemmasRound1 LemmasRound2 LemmasFinish LemmasBlame PropsShare PropsRound1 PropsRound2 PropsFinish PropsBlame PropsReshare
  PropsAgg PropsReflect PropsRobust PropsView PropsDoc PropsDocBad PropsAlter Demo DemoDkg.
Import ListNotations.

(** the complaint c is about the message e of the participant b to the participant w *)
Definition about {S : Suite} (b w : Party) (e : EncShare) (c : Complaint) : Prop :=
  c_share c = e /\ c_pk c = (gen * y_x w)%G /\ c_shared c = ((gen * y_x b) * y_x w)%G /\ complaint_verify c (gen * y_x b)%G = Ok tt.

Section TestComplaint.
  Context {S : Suite} {L : SuiteLaws S}.
  Add Field F_fld : F_field.

  Lemma complaint_in st es cs : complaint_list st es cs -> forall c, In c cs -> exists e, In e es /\ complains st e c.
  Proof.
    induction 1 as [|e es c cs B C HL IH|e es cs B HL IH]; intros c' Hc; [destruct Hc| |].
    - destruct Hc as [<-|Hc]; [exists e; split; [left; reflexivity|exact C]|]. destruct (IH c' Hc) as (e' & A & A'). exists e'. split; [right|]; assumption.
    - destruct (IH c' Hc) as (e' & A & A'). exists e'. split; [right|]; assumption.
  Qed.
  Lemma nodup_snoc {A} (l : list A) x : NoDup l -> ~ In x l -> NoDup (l ++ [x]).
  Proof. intros H N. apply (Permutation_NoDup (Permutation_cons_append l x)). constructor; assumption. Qed.
  Lemma find_named (parties : list Party) {V} (f : Party -> V) b : NoDup (map y_index parties) -> In b parties ->
    find (fun x => u32_eqb (fst x) (y_index b)) (map (fun p => (y_index p, f p)) parties) = Some (y_index b, f b).
  Proof.
    intros Hnd Hb. assert (Hu : forall p, In p parties -> y_index p = y_index b -> p = b)
      by (intros p Hp E; apply (same_party parties); auto).
    clear Hnd. induction parties as [|a l IH]; [contradiction|]. cbn [map find fst]. destruct (u32_eqb (y_index a) (y_index b)) eqn:E.
    - apply u32_eqb_spec in E. rewrite (Hu a (or_introl eq_refl) E). reflexivity.
    - destruct Hb as [->|Hb]; [rewrite u32_eqb_refl in E; discriminate|]. apply IH; auto. intros p Hp. apply Hu. right; exact Hp.
  Qed.

  Lemma scenario m params parties p1 b p2 w e l1 l2 (bx : Party -> list EncShare) r :
    honest_parties params parties -> all_bootstrapped m params parties ->
    (forall p, In p parties -> pt_index (y_d p) = y_index p) ->
    parties = p1 ++ b :: p2 -> In w parties -> (1 <= u32v (p_t params))%N ->
    (u32v (p_t params) < u32v (p_n params))%N -> (u32v (y_index b) <= u32v (p_n params))%N ->
    es_sender e = y_index b -> es_receiver e = y_index w ->
    delivered p1 w l1 -> delivered p2 w l2 -> bx w = l1 ++ e :: l2 ->
    (forall q, In q parties -> y_index q <> y_index w -> delivered parties q (bx q)) ->
    let calls := map (fun q => (y_index q, (y_st q, bx q))) parties in
    let opened := decrypt_share e (enc_point ((gen * y_x b) * y_x w)%G) in
    let right := Ok (MkShare (y_index b) (y_index w) (poly_value (y_co b) (of_u32 (y_index w)))) in
    let every := filter (fun i => negb (u32_eqb i (y_index w))) (map y_index parties) ++ [y_index w] in
    (opened = right /\ test_scenario m (pt_dh_pk (y_d b)) (y_index w) calls r = Panic) \/
    (opened <> right /\ exists outs c r' s, test_scenario m (pt_dh_pk (y_d b)) (y_index w) calls r = Ok (outs, [c], r') /\
       about b w e c /\ holders every (N.to_nat (u32v (p_t params))) s outs /\
       s = interp0 (dealt_values (p1 ++ p2) F0) /\
       forall o, In o outs -> sk_key (snd o) = interp0 (dealt_values (p1 ++ p2) (of_u32 (sk_index (snd o))))).
  Proof.
    intros H HB Hix Ep Hw Ht1 Htn Hbn Hs1 Hs2 D1 D2 Ew HBX calls opened right every.
    assert (Hb : In b parties) by (rewrite Ep; apply in_elt).
    pose proof (proj1 (hp_indices _ _ H)) as Hnd. pose proof (proj2 (hp_indices _ _ H)) as H0.
    assert (Hsp : forall p q, In p parties -> In q parties -> y_index p = y_index q -> p = q) by (intros; apply (same_party parties); auto).
    set (oth := filter (fun q => negb (u32_eqb (y_index q) (y_index w))) parties).
    assert (Hoth : forall q, In q oth <-> In q parties /\ y_index q <> y_index w).
    { intros q. unfold oth. rewrite filter_In, negb_true_iff, u32_eqb_neq. reflexivity. }
    assert (Eoth : filter (fun x => negb (u32_eqb (fst x) (y_index w))) calls = map (fun q => (y_index q, (y_st q, bx q))) oth)
      by (unfold calls; rewrite filter_map_comm; reflexivity).
    assert (Efind : find (fun x => u32_eqb (fst x) (y_index w)) calls = Some (y_index w, (y_st w, bx w)))
      by (apply (find_named parties (fun q => (y_st q, bx q))); assumption).
    assert (Hgood : forall q, In q parties -> y_index q <> y_index w -> Forall2 (opens_to q) parties (bx q)).
    { intros q Hq Hne. eapply forall2_impl_in; [|apply (HBX q Hq Hne)]. intros p y Hp Hy. eapply delivered_opens; eauto. }
    assert (Hmine : forall q, In q parties -> Forall2 (fun p y => es_sender y = y_index p /\ es_receiver y = y_index q) parties (bx q)).
    { intros q Hq. destruct (u32_eq_dec (y_index q) (y_index w)) as [E|E].
      - rewrite (Hsp q w Hq Hw E), Ew, Ep. apply Forall2_app; [|constructor; [auto|]]; (eapply forall2_impl_in; [|eassumption]); intros p y Hp Hy;
          (assert (Hp' : In p parties) by (rewrite Ep; apply in_or_app; cbn; auto));
          destruct (delivered_opens m params parties p w y H HB Hp' Hw Hy) as (A & B & _); auto.
      - eapply forall2_impl; [|apply (Hgood q Hq E)]. intros p y (A & B & _). auto. }
    set (quiet := fun (q : Party) (s2 : RoundTwo) => exists r0 r', to_round_two m (y_st q) (bx q) r0 = Ok (s2, [], r')).
    destruct (each_ok (fun q x => In q oth /\ x = (y_st q, bx q)) quiet (doc_round_two m) oth (map (fun q => (y_st q, bx q)) oth) r) as (s2s & r1 & E3 & HR).
    { apply forall2_map_r. eapply forall2_impl; [|apply forall2_self with (P := fun p => In p oth)]; [|auto].
      intros a a' [<- Ha]. split; [exact Ha|reflexivity]. }
    { intros q x r0 [Hq ->]. apply Hoth in Hq. destruct Hq as [Hq Hne].
      destruct (quiet_round_two m params parties q (bx q) r0 H HB Hq (Hgood q Hq Hne)) as (s2 & r' & E).
      exists s2, r'. unfold doc_round_two. cbn [fst snd]. rewrite E. split; [reflexivity|]. exists r0, r'. exact E. }
    assert (Etest : forall y, bind (to_round_two m (y_st w) (bx w) r1) (fun z => let '(sv, cs, r2) := z in
        let* _ := assert_true (Nat.eqb (length cs) 1) in
        let* outs := traverse (test_settle cs (pt_dh_pk (y_d b))) (s2s ++ [sv]) in
        let* _ := doc_same_key (hd Gzero (map fst outs)) outs in
        Ok (outs, cs, r2)) = y -> test_scenario m (pt_dh_pk (y_d b)) (y_index w) calls r = y).
    { intros y <-. unfold test_scenario. rewrite Efind. cbn [unwrap bind]. rewrite Eoth, map_map. cbn [snd fst]. rewrite E3. cbn [bind].
      destruct (to_round_two _ _ _ _) as [[[sv cs] r2]| |]; reflexivity. }
    destruct (decrypt_dec e (enc_point ((gen * y_x b) * y_x w)%G) (MkShare (y_index b) (y_index w) (poly_value (y_co b) (of_u32 (y_index w))))) as [Hacc|Hacc].
    - left. split; [exact Hacc|]. apply Etest.
      destruct (quiet_round_two m params parties w (bx w) r1 H HB Hw) as (s2 & r' & E); [|rewrite E; reflexivity].
      rewrite Ew, Ep. apply Forall2_app; [|constructor; [split; auto|]]; (eapply forall2_impl_in; [|eassumption]); intros p y Hp Hy;
          (assert (Hp' : In p parties) by (rewrite Ep; apply in_or_app; cbn; auto)); eapply delivered_opens; eauto.
    - right. split; [exact Hacc|].
      destruct (bad_message S L m params parties b w e (p1 ++ p2) l1 l2 r1 H HB Hb Hw Htn Hbn Hs1 Hs2 Hacc) as (sv & c & r2 & B1 & B2 & B3 & B4).
      { intros z Hz. rewrite Ep. apply in_or_app. apply in_app_or in Hz. destruct Hz; cbn; auto. }
      { pose proof (hp_count _ _ H) as Q. rewrite Ep, app_length in Q. cbn [length] in Q. rewrite app_length. lia. }
      { apply Forall2_app; assumption. }
      destruct (honest_state m params parties w H HB Hw) as (st & comms & ps & Est & HPs & _ & R & Hcm & Hnc & Hcs & Hdh).
      assert (Hab : about b w e c).
      { pose proof B1 as B. rewrite Est in B. destruct (to_round_two_inv m st comms _ _ _ _ _ Hcm Hnc B) as (_ & HL & _).
        destruct (complaint_in st _ _ HL c (or_introl eq_refl)) as (e0 & He0 & C1 & C2 & pk & C3 & C4 & C5).
        unfold accused in B2. rewrite C1 in B2.
        rewrite B2, Hdh in C3 by exact Hb. injection C3 as <-. rewrite (rec_sk _ _ _ _ _ R) in C2, C4.
        assert (e0 = e).
        { apply in_app_or in He0. destruct He0 as [He0|[He0|He0]]; [|symmetry; exact He0|]; exfalso;
          [destruct (forall2_in_r _ _ _ D1 e0 He0) as (z & Hz & E)|destruct (forall2_in_r _ _ _ D2 e0 He0) as (z & Hz & E)];
          (assert (Hz' : In z parties) by (rewrite Ep; apply in_or_app; cbn; auto));
          destruct (delivered_opens m params parties z w e0 H HB Hz' Hw E) as (X & _ & _);
          rewrite Ep, map_app in Hnd; apply NoDup_remove_2 in Hnd; apply Hnd, in_or_app; [left|right]; rewrite <- B2, X; apply in_map, Hz. }
        subst e0. repeat split; assumption. }
      assert (Hview : forall q, In q parties -> exists st', y_st q = R1 st' /\ ds_index st' = y_index q /\ ds_params st' = ds_params st /\ ds_dhs st' = ds_dhs st /\ ds_comms st' = Some comms).
      { intros q Hq. destruct (honest_state m params parties q H HB Hq) as (st' & comms' & ps' & Est' & _ & _ & R' & _).
        exists st'. split; [exact Est'|]. split; [apply (rec_index _ _ _ _ _ R')|].
        destruct (HB q Hq) as (psq & Pq & rq & lq & rq' & Eq & _). destruct (HB w Hw) as (psw & Pw & rw & lw & rw' & Ew' & _).
        rewrite Est' in Eq. rewrite Est in Ew'.
        destruct (C62_same_list_same_view S L m m params (y_x q) (y_x w) (y_index q) (y_index w) (y_co q) (y_co w) psq psw rq rw rq' rw' st' st lq lw) as (V1 & V2 & V3 & _).
        - apply (Permutation_NoDup (Permutation_map pt_index (Permutation_sym Pq))). rewrite map_map, (map_ext_in _ y_index) by exact Hix. exact Hnd.
        - etransitivity; [exact Pq|apply Permutation_sym, Pw].
        - left. split; assumption.
        - rewrite V1, V2, V3. auto. }
      set (rest := oth ++ [w]). set (all := [c]).
      assert (Hin : forall q, In q rest -> In q parties).
      { intros q Hq. apply in_app_or in Hq. destruct Hq as [Hq|[<-|[]]]; [apply Hoth, Hq|exact Hw]. }
      assert (HR' : Forall2 (fun q x => exists r0 r', In q rest /\ (snd x = [] \/ snd x = all) /\ to_round_two m (y_st q) (bx q) r0 = Ok (fst x, snd x, r'))
        rest (map (fun s => (s, [])) s2s ++ [(sv, all)])).
      { unfold rest. apply Forall2_app.
        - apply forall2_map_r. apply forall2_with in HR. eapply forall2_impl; [|exact HR]. intros q s2 (Hq & r0 & r' & E). exists r0, r'.
          split; [apply in_or_app; left; exact Hq|]. split; [left; reflexivity|exact E].
        - constructor; [|constructor]. exists r1, r2. cbn [fst snd]. split; [apply in_or_app; right; left; reflexivity|]. split; [right; reflexivity|].
          rewrite Ew. exact B1. }
      set (s2c := map (fun s => (s, [])) s2s ++ [(sv, all)]) in *.
      assert (Es2 : map fst s2c = s2s ++ [sv]) by (unfold s2c; rewrite map_app, map_map; cbn; rewrite map_id; reflexivity).
      assert (Hrest : map y_index rest = every).
      { unfold rest, every, oth. rewrite map_app. cbn [map]. f_equal. rewrite filter_map_comm. reflexivity. }
      destruct (followers_list (fun q h => In q rest /\ ds_index (h_st h) = y_index q /\ h_settles h = all /\ (h_cs h = [] \/ h_cs h = all) /\ follows m (ds_params st) (ds_dhs st) comms h /\
         to_round_two m (y_st q) (h_es h) (h_r h) = Ok (h_s2 h, h_cs h, h_r' h)) rest s2c) as (hs & F1 & F2).
      { eapply forall2_impl; [|exact HR']. intros q x (r0 & r' & Y1 & Y2 & Y3).
        destruct (Hview q (Hin q Y1)) as (st' & V0 & V1 & V2 & V3 & V4).
        exists (MkFollower st' (bx q) r0 (fst x) (snd x) r' all). cbn [h_st h_es h_r h_s2 h_cs h_r' h_settles].
        split; [reflexivity|]. split; [reflexivity|]. split; [exact Y1|]. split; [exact V1|]. split; [reflexivity|]. split; [exact Y2|]. split; [|exact Y3].
        pose proof (Hmine q (Hin q Y1)) as HM.
        constructor; cbn [h_st h_es h_r h_s2 h_cs h_r' h_settles]; auto.
        - intros y Hy. destruct (forall2_in_r _ _ _ HM y Hy) as (p & Hp & A & B).
          rewrite V1, B, A. split; [reflexivity|]. apply bget_some_key with (v := MkVss (y_index p) (committed (y_co p))). apply Hcs. exists p. auto.
        - intros j Hj. apply bget_key_some in Hj. destruct Hj as (v & Hj). apply Hcs in Hj. destruct Hj as (p & Hp & <- & _).
          destruct (forall2_in_l _ _ _ HM p Hp) as (y & Hy & E & _). exists y. auto.
        - rewrite <- V0. exact Y3. }
      assert (Hh : forall h, In h hs -> exists q, In q rest /\ ds_index (h_st h) = y_index q /\ h_settles h = all /\ (h_cs h = [] \/ h_cs h = all) /\
          follows m (ds_params st) (ds_dhs st) comms h /\ to_round_two m (y_st q) (h_es h) (h_r h) = Ok (h_s2 h, h_cs h, h_r' h)).
      { intros h Hh. destruct (forall2_in_r _ _ _ F2 h Hh) as (q & _ & X). exists q. exact X. }
      assert (Hcall : forall h x, In h hs -> In x (h_cs h) -> In x all).
      { intros h x Hi Hx. destruct (Hh h Hi) as (q & _ & _ & _ & [E|E] & _); rewrite E in Hx; [destruct Hx|exact Hx]. }
      assert (Hgc : good_indices (bkeys comms)).
      { split; [exact Hnc|]. intros X. apply bget_key_some in X. destruct X as (v & X). apply Hcs in X. destruct X as (p & Hp & E & _).
        apply H0. rewrite <- E. apply in_map, Hp. }
      destruct (C61_followers_agree_and_hold_keys S L m (ds_params st) (ds_dhs st) comms hs all Hgc) as (keys & comms' & gk & K1 & K2 & K3 & K4).
      { intros h x Hi Hx. apply (Hcall h x Hi) in Hx. destruct Hx as [<-|[]]. rewrite B2.
        rewrite (rec_n _ _ _ _ _ R), (Permutation_length HPs), map_length, (hp_count _ _ H). exact Hbn. }
      { intros j v Hj. apply Hcs in Hj. destruct Hj as (p & Hp & _ & ->). cbn [vss_points].
        destruct (honest_fresh params parties p H Hp) as [_ _ Hl _ _ _].
        unfold committed. destruct (y_co p); [cbn in Hl; lia|discriminate]. }
      { intros h Hi. destruct (Hh h Hi) as (q & _ & _ & _ & _ & X & _). exact X. }
      { intros h Hi. destruct (Hh h Hi) as (q & _ & _ & X & _). rewrite X. split; [reflexivity|]. intros x. apply (Hcall h x Hi). }
      assert (Hk : forall h, In h hs -> keys = [pt_dh_pk (y_d b)]).
      { intros h Hi. destruct (K3 h Hi) as (sk & (s3 & X0 & _) & _). destruct (Hh h Hi) as (q & X1 & X2 & X3 & _ & X4 & X5).
        rewrite X3 in X0. destruct (B4 q (h_es h) (h_r h) (h_s2 h) (h_cs h) (h_r' h) (Hin q X1) X5) as (s' & cm & X6 & _).
        destruct (honest_fresh params parties b H Hb) as [_ -> _ _ _ _]. fold all in X6. rewrite X6 in X0. congruence. }
      assert (F3 : Forall2 (fun q s2 => exists h, In h hs /\ h_s2 h = s2 /\ h_settles h = all /\ ds_index (h_st h) = y_index q) rest (s2s ++ [sv])).
      { rewrite <- Es2. apply forall2_map_r. clear -F1 F2. assert (G : Forall2 (fun q h => In h hs /\ h_settles h = all /\ ds_index (h_st h) = y_index q) rest hs).
        { apply forall2_flip, forall2_with, forall2_flip in F2. eapply forall2_impl; [|exact F2]. cbn beta. intros q h (A & _ & B & C & _). auto. }
        revert G F1. apply forall2_compose. intros q h x (A & B & C) (D & _). exists h. auto. }
      destruct (traverse_ok _ (fun q o => fst o = gk /\ sk_index (snd o) = y_index q /\ exists h, In h hs /\ ends h keys comms' gk (snd o))
        (test_settle all (pt_dh_pk (y_d b))) rest (s2s ++ [sv]) F3) as (outs & E4 & HO).
      { intros q x (h & Hi & X1 & X2 & X3). destruct (K3 h Hi) as (sk & E & _). assert (E0 := E). destruct E0 as (s3 & Y1 & _ & Y3 & Y4).
        exists (gk, sk). cbn [fst snd]. split; [|split; [reflexivity|]; split; [congruence|eauto]].
        unfold test_settle. rewrite <- X1, <- X2, Y1. cbn [bind]. rewrite (Hk h Hi). cbn [nth_error unwrap bind].
        rewrite Geqb_refl. cbn [assert_true bind]. exact Y3. }
      set (s := interp0 (key_points (map snd outs))). exists outs, c, r2, s.
      assert (Hlen : length outs = length rest) by (clear -HO; induction HO; cbn; congruence).
      assert (Hge : good_indices every /\ (u32v (p_t params) <= N.of_nat (length rest))%N).
      { assert (HP : Permutation parties rest).
        { apply NoDup_Permutation; [apply (NoDup_map_inv y_index), Hnd| |].
          - unfold rest, oth. apply nodup_snoc.
            + apply NoDup_filter, (NoDup_map_inv y_index), Hnd.
            + rewrite filter_In, u32_eqb_refl. intros [_ X]. discriminate.
          - intros q. split; [|apply Hin]. intros Hq. apply in_or_app. destruct (u32_eq_dec (y_index q) (y_index w)) as [E|E].
            + right. left. symmetry. apply Hsp; assumption.
            + left. apply Hoth. auto. }
        split.
        - rewrite <- Hrest. split; [apply (Permutation_NoDup (Permutation_map y_index HP) Hnd)|]. intros X. apply H0.
          apply (Permutation_in _ (Permutation_sym (Permutation_map y_index HP)) X).
        - rewrite <- (Permutation_length HP). pose proof (hp_count _ _ H). lia. }
      destruct Hge as [Hge Htr].
      assert (Hfst : forall o, In o outs -> fst o = gk).
      { intros o Ho. destruct (forall2_in_r _ _ _ HO o Ho) as (q & _ & X & _). exact X. }
      assert (Hidx : map (fun o => sk_index (snd o)) outs = every).
      { rewrite <- Hrest. clear -HO. induction HO as [|q o rest outs (_ & X & _) _ IH]; cbn; congruence. }
      assert (HI : forall sub, (forall k, In k sub -> In k (map snd outs)) -> NoDup (map sk_index sub) -> N.to_nat (u32v (p_t params)) <= length sub ->
        (gen * interp0 (key_points sub))%G = gk).
      { intros sub Hs Hnds Hl. apply (K4 (N.to_nat (u32v (p_t params))) sub); auto.
        - intros j v Hj. destruct hs as [|h0 hs0]; [unfold rest in F2; inversion F2 as [Z|]; destruct oth; discriminate|].
          pose proof (K2 h0 (or_introl eq_refl)) as W.
          apply bget_in, (without_in _ _ _ W) in Hj. destruct Hj as [Hj _]. apply in_bget in Hj; [|exact Hnc]. apply Hcs in Hj.
          destruct Hj as (p & Hp & _ & ->). cbn [vss_points]. unfold committed. rewrite map_length.
          destruct (honest_fresh params parties p H Hp) as [_ _ Hl' _ _ _]. lia.
        - intros k Hk'. apply Hs, in_map_iff in Hk'. destruct Hk' as (o & <- & Ho).
          destruct (forall2_in_r _ _ _ HO o Ho) as (q & _ & _ & _ & X). exact X. }
      assert (Hsk : map sk_index (map snd outs) = every) by (rewrite map_map; exact Hidx).
      assert (Egk : (gen * s)%G = gk).
      { apply HI; auto; [rewrite Hsk; apply Hge|]. rewrite map_length. lia. }
      assert (Hpt : forall x, dealt_point comms' x = (gen * interp0 (dealt_values (p1 ++ p2) x))%G).
      { destruct hs as [|h0 hs0]; [unfold rest in F2; inversion F2 as [Z|]; destruct oth; discriminate|].
        pose proof (K2 h0 (or_introl eq_refl)) as W. destruct (K3 h0 (or_introl eq_refl)) as (sk0 & (s3 & Y1 & Y2 & _) & _).
        destruct (Hh h0 (or_introl eq_refl)) as (q0 & X1 & _ & X3 & _ & _ & X5).
        destruct (B4 q0 _ _ _ _ _ (Hin q0 X1) X5) as (s' & cm & Z1 & Z2 & Z3). rewrite X3 in Y1. fold all in Z1. rewrite Z1 in Y1. injection Y1 as _ <-.
        rewrite Y2 in Z2. injection Z2 as <-.
        assert (Hcb : forall j, convicted (h_st h0) all j -> j = y_index b).
        { intros j (x & [<-|[]] & [[_ ->]|[Hu ->]]); [exact B2|]. rewrite B3. destruct (u32_eq_dec (y_index w) (y_index b)) as [E|E]; [exact E|]. exfalso.
          assert (Hbc : bget (y_index b) comms = Some (MkVss (y_index b) (committed (y_co b)))) by (apply Hcs; exists b; auto).
          assert (Hbc' : In (y_index b, MkVss (y_index b) (committed (y_co b))) comms').
          { apply (without_in _ _ _ W). split; [apply bget_in, Hbc|]. cbn [fst]. intros (x & [<-|[]] & [[Hu' _]|[_ E']]); [exact (Hu Hu')|].
            apply E. rewrite E', B3. reflexivity. }
          apply in_bget in Hbc'; [|apply (without_nodup _ _ _ W Hnc)]. rewrite Hbc' in Z3. discriminate. }
        intros x. rewrite <- ginterp0_gen. unfold dealt_point. apply ginterp0_perm. unfold dealt_values. rewrite map_map. cbn [fst snd].
        transitivity (map (fun jc : u32 * Vss => (fst jc, gpoly_value (vss_points (snd jc)) x)) (map (fun p => (y_index p, MkVss (y_index p) (committed (y_co p)))) (p1 ++ p2))).
        - apply Permutation_map, pairs_perm; [apply (without_nodup _ _ _ W Hnc)| |].
          + rewrite map_map. cbn [fst]. pose proof Hnd as N. rewrite Ep, map_app in N. apply NoDup_remove_1 in N. rewrite <- map_app in N. exact N.
          + intros [j v]. rewrite (without_in _ _ _ W), in_map_iff. cbn [fst]. split.
            * intros [Q1 Q2]. apply in_bget in Q1; [|exact Hnc]. apply Hcs in Q1. destruct Q1 as (p & Hp & <- & ->). exists p. split; [reflexivity|].
              rewrite Ep in Hp. apply in_app_or in Hp. apply in_or_app. destruct Hp as [Hp|[<-|Hp]]; auto. exfalso.
              assert (Hbc' : In (y_index b, MkVss (y_index b) (committed (y_co b))) comms').
              { apply (without_in _ _ _ W). cbn [fst]. split; [|exact Q2]. apply bget_in, Hcs. exists b. auto. }
              apply in_bget in Hbc'; [|apply (without_nodup _ _ _ W Hnc)]. rewrite Hbc' in Z3. discriminate.
            * intros (p & E & Hp). injection E as <- <-.
              assert (Hp' : In p parties) by (rewrite Ep; apply in_or_app; apply in_app_or in Hp; destruct Hp; cbn; auto).
              split; [apply bget_in, Hcs; exists p; auto|]. intros Q. apply Hcb in Q. pose proof Hnd as N. rewrite Ep, map_app in N.
              apply NoDup_remove_2 in N. apply N. rewrite <- map_app, <- Q. apply in_map, Hp.
        - rewrite map_map. cbn [fst snd vss_points]. rewrite (map_ext _ (fun p => (y_index p, (gen * poly_value (y_co p) x)%G))); [reflexivity|].
          intros p. rewrite gpoly_committed. reflexivity. }
      assert (Hks : forall o, In o outs -> sk_key (snd o) = interp0 (dealt_values (p1 ++ p2) (of_u32 (sk_index (snd o))))).
      { intros o Ho. destruct (forall2_in_r _ _ _ HO o Ho) as (q & _ & _ & _ & h & Hi & X). destruct (K3 h Hi) as (sk & X' & X'' & _).
        assert (snd o = sk) by (destruct X as (s3 & Y1 & _ & Y3 & _), X' as (s3' & Y1' & _ & Y3' & _); congruence). subst sk.
        apply gen_inj. rewrite X'', Hpt. reflexivity. }
      assert (Egk' : gk = (gen * interp0 (dealt_values (p1 ++ p2) F0))%G).
      { rewrite <- Hpt. apply first_points_dealt, K1. }
      split; [|split; [exact Hab|split; [split; [exact Hidx|]; split|]]].
      + apply Etest. rewrite Ew, B1. cbn [bind length Nat.eqb assert_true]. fold all. rewrite E4. cbn [bind].
        rewrite (same_key_ok (hd Gzero (map fst outs)) outs); [reflexivity|].
        intros o Ho. rewrite (Hfst o Ho). symmetry. apply hd_map_const; [intros ->; destruct Ho|exact Hfst].
      + split; [rewrite Hsk; exact Hge|]. intros sub A1 A2 A3. apply gen_inj. rewrite Egk. apply HI; assumption.
      + intros o Ho. rewrite Egk. apply Hfst, Ho.
      + split; [apply gen_inj; rewrite Egk; exact Egk'|exact Hks].
  Qed.

  Lemma traverse_app {A B} (f : A -> result B) a : forall a' b b', traverse f a = Ok a' -> traverse f b = Ok b' -> traverse f (a ++ b) = Ok (a' ++ b').
  Proof.
    induction a as [|x a IH]; intros a' b b' Ea Eb; cbn [traverse app] in *; [injection Ea as <-; exact Eb|].
    destruct (f x) as [y| |]; try discriminate Ea. cbn [bind] in *. destruct (traverse f a) as [ys| |]; try discriminate Ea. cbn [bind] in *.
    injection Ea as <-. rewrite (IH ys b b' eq_refl Eb). reflexivity.
  Qed.
  Lemma traverse_map_ok {X A B} (f : A -> result B) (g : X -> A) (h : X -> B) l : (forall x, In x l -> f (g x) = Ok (h x)) ->
    traverse f (map g l) = Ok (map h l).
  Proof.
    induction l as [|x l IH]; intros H; [reflexivity|]. cbn [map traverse]. rewrite H by (left; reflexivity). cbn [bind].
    rewrite IH by (intros y Hy; apply H; right; exact Hy). reflexivity.
  Qed.
  (** the share of every dealer for q *)
  Definition mail (parties : list Party) (q : Party) : list EncShare :=
    match doc_box (map y_es parties) (y_index q) with Ok l => l | _ => [] end.
  Lemma mail_ok parties q : (forall p, In p parties -> exists e, bget (y_index q) (y_es p) = Some e) ->
    doc_box (map y_es parties) (y_index q) = Ok (mail parties q) /\ delivered parties q (mail parties q).
  Proof.
    intros H. unfold mail, doc_box.
    destruct (traverse_ok (fun p es => In p parties /\ es = y_es p) (fun p x => bget (y_index q) (y_es p) = Some x)
        (fun es => unwrap (bget (y_index q) es)) parties (map y_es parties)) as (box & E & HF).
    - apply forall2_map_r. eapply forall2_impl; [|apply forall2_self with (P := fun p => In p parties)]; [|auto].
      intros a a' [<- Ha]. split; [exact Ha|reflexivity].
    - intros p es [Hp ->]. destruct (H p Hp) as (x & E). exists x. rewrite E. split; reflexivity.
    - rewrite E. split; [reflexivity|exact HF].
  Qed.
  Lemma slot_ok parties bob q wrong : (forall p, In p parties -> pt_index (y_d p) = y_index p) -> (forall p, In p parties -> y_index p <> bob) ->
    (forall p, In p parties -> exists e, bget (y_index q) (y_es p) = Some e) ->
    exists l, traverse (test_slot bob (y_index q) wrong) (map (fun p => (y_d p, y_es p)) parties) = Ok l /\ delivered parties q l.
  Proof.
    intros Hix Hne He. apply traverse_ok with (Q := fun p x => In p parties /\ x = (y_d p, y_es p)).
    - apply forall2_map_r. eapply forall2_impl; [|apply forall2_self with (P := fun p => In p parties)]; [|auto].
      intros a a' [<- Ha]. split; [exact Ha|reflexivity].
    - intros p x [Hp ->]. destruct (He p Hp) as (e & E). exists e. unfold test_slot. cbn [fst snd].
      rewrite (Hix p Hp), (proj2 (u32_eqb_neq _ _)) by (apply Hne, Hp). rewrite E. split; reflexivity.
  Qed.
  (** no tampering changes who the share is from and for *)
  Lemma tamper_ok k b x e r : exists wrong r', test_tamper k b x e r = Ok (wrong, r') /\ es_sender wrong = es_sender e /\ es_receiver wrong = es_receiver e.
  Proof.
    destruct k as [nonce|ct|v]; cbn [test_tamper]; [eexists _, _; split; [reflexivity|auto]..|].
    destruct (encrypt_share_ok (MkShare (es_sender e) (es_receiver e) v) (enc_point (pt_dh_pk b * x)%G) r) as (wrong & r' & E & A & B & _).
    exists wrong, r'. auto.
  Qed.
  (** the complaint with the doubled key passes only by coincidence *)
  Lemma doubled_rejected b w e c : about b w e c -> complaint_verify (test_doubled c) (gen * y_x b)%G = Ok tt ->
    y_x b = F0 \/ y_x w = F0 \/
    complaint_challenge c (gen * y_x b)%G = F0 /\ complaint_challenge (test_doubled c) (gen * y_x b)%G = F0.
  Proof.
    intros (A1 & A2 & A3 & A4) V. destruct (F_dec (y_x b) F0) as [|Hb]; [auto|]. destruct (F_dec (y_x w) F0) as [|Hw]; [auto|]. right. right.
    assert (Hz : forall x, (gen * x)%G = Gzero -> x = F0) by (intros x; rewrite <- gen_mul_0; apply gen_inj).
    assert (N1 : c_pk c <> Gzero) by (rewrite A2; intros X; apply Hw, Hz, X).
    assert (N2 : c_shared c <> Gzero).
    { rewrite A3, Gmul_mul. intros X. apply Hz, Fmul_eq_0 in X. destruct X; contradiction. }
    destruct (C115_one_field_altered S L c (gen * y_x b)%G A4 N1 N2) as (T & _).
    apply (T (c_shared c + c_shared c)%G) in V. change (with_shared c (c_shared c + c_shared c)%G) with (test_doubled c) in V.
    destruct V as [V1 [V2|V2]]; [|rewrite V1; auto]. exfalso. apply N2.
    revert V2. destruct (gen_span (c_shared c)) as [z ->]. rewrite <- Gmul_add_r. intros E. apply gen_inj in E.
    replace z with F0; [apply gen_mul_0|]. apply (Fadd_cancel_l z). rewrite E. ring.
  Qed.
End TestComplaint.

(** the repository's test: a tampering that changes the value is found, blamed on the dealer by all, and all finish with keys
    of one secret; the forged complaint is blamed on the victim unless hash values coincide. A tampering that keeps the value
    makes the program stop. *)
Theorem C115_complaint_test :
  forall (S : Suite) (L : SuiteLaws S) (m : build) (n t : u32) (ids : list u32) (bob victim third : u32) (k : tampering) (r : Rng),
  good_indices ids -> N.of_nat (length ids) = u32v n -> (1 <= u32v t)%N -> (u32v t < u32v n)%N -> (u32v bob <= u32v n)%N ->
  In bob ids -> In victim ids -> victim <> bob -> In third ids ->
  exists parties r1 r2 b w e wrong r3,
    each (new_dealer (MkParams n t)) ids r = Ok (map triple parties, r1) /\
    each (doc_round_one m (MkParams n t) (map y_d parties)) (map triple parties) r1 = Ok (map (fun p => (y_st p, y_es p)) parties, r2) /\
    In b parties /\ y_index b = bob /\ In w parties /\ y_index w = victim /\ bget victim (y_es b) = Some e /\
    test_tamper k (y_d b) (y_x b) e r2 = Ok (wrong, r3) /\
    let opened := decrypt_share wrong (enc_point ((gen * y_x b) * y_x w)%G) in
    let right := Ok (MkShare bob victim (poly_value (y_co b) (of_u32 victim))) in
    let run := test_complaint m n t ids bob victim third k r in
    (opened = right /\ run = Panic \/
     opened <> right /\ exists c s outs, about b w wrong c /\
       holders (filter (fun i => negb (u32_eqb i victim)) ids ++ [victim]) (N.to_nat (u32v t)) s outs /\
       (complaint_verify (test_doubled c) (gen * y_x b)%G <> Ok tt -> exists r', run = Ok (outs, r')) /\
       (complaint_verify (test_doubled c) (gen * y_x b)%G = Ok tt -> y_x b = F0 \/ y_x w = F0 \/
          complaint_challenge c (gen * y_x b)%G = F0 /\ complaint_challenge (test_doubled c) (gen * y_x b)%G = F0)).
Proof.
  intros S L m n t ids bob victim third k r Hg Hn Ht1 Htn Hbn Hbob Hvic Hvb Hthird. set (params := MkParams n t).
  destruct (doc_dealt m n t ids r Hg Hn ltac:(lia)) as (parties & r1 & r2 & E1 & E2 & Qi & H & HB & Hix & HQ).
  fold params in E1, E2, H, HB. pose proof (proj1 (hp_indices _ _ H)) as Hnd.
  assert (Hwho : forall i, In i ids -> exists p, y_index p = i /\ In p parties) by (intros i Hi; rewrite <- Qi in Hi; apply in_map_iff in Hi; exact Hi).
  destruct (Hwho bob Hbob) as (b & Ib & Hb). destruct (Hwho victim Hvic) as (w & Iw & Hw). destruct (Hwho third Hthird) as (y & Iy & Hy).
  assert (HQ' : forall q p, In q parties -> In p parties -> exists e, bget (y_index q) (y_es p) = Some e).
  { intros q p Hq Hp. apply HQ; [exact Hp|]. rewrite <- Qi. apply in_map, Hq. }
  destruct (HQ' w b Hw Hb) as (e & He). destruct (delivered_opens m params parties b w e H HB Hb Hw He) as (Hs1 & Hs2 & _).
  destruct (tamper_ok k (y_d b) (y_x b) e r2) as (wrong & r3 & Et & Ws & Wr).
  exists parties, r1, r2, b, w, e, wrong, r3. split; [exact E1|]. split; [exact E2|]. split; [exact Hb|]. split; [exact Ib|].
  split; [exact Hw|]. split; [exact Iw|]. split; [rewrite <- Iw; exact He|]. split; [exact Et|]. cbv zeta.
  destruct (in_split _ _ Hb) as (p1 & p2 & Ep).
  assert (Hsub : forall q, In q (p1 ++ p2) -> In q parties).
  { intros q Hq. rewrite Ep. apply in_or_app. apply in_app_or in Hq. destruct Hq; cbn; auto. }
  assert (Hne : forall q, In q (p1 ++ p2) -> y_index q <> bob).
  { intros q Hq X. pose proof Hnd as N. rewrite Ep, map_app in N. apply NoDup_remove_2 in N. apply N. rewrite <- map_app, Ib, <- X. apply in_map, Hq. }
  destruct (slot_ok p1 bob w wrong) as (l1 & T1 & D1); [intros q Hq..|]; [apply Hix, Hsub|apply Hne|apply HQ'; [exact Hw|apply Hsub]|]; try (apply in_or_app; left; exact Hq).
  destruct (slot_ok p2 bob w wrong) as (l2 & T2 & D2); [intros q Hq..|]; [apply Hix, Hsub|apply Hne|apply HQ'; [exact Hw|apply Hsub]|]; try (apply in_or_app; right; exact Hq).
  set (box := l1 ++ wrong :: l2).
  assert (Ebox : traverse (test_slot bob victim wrong) (map (fun p => (y_d p, y_es p)) parties) = Ok box).
  { rewrite Ep, map_app. cbn [map]. rewrite <- Iw. apply traverse_app; [exact T1|]. cbn [traverse]. unfold test_slot at 1. cbn [fst].
    rewrite (Hix b Hb), Ib, u32_eqb_refl. cbn [bind]. rewrite T2. reflexivity. }
  set (bx := fun q => if u32_eqb (y_index q) victim then box else mail parties q).
  assert (Hmail : forall q, In q parties -> doc_box (map y_es parties) (y_index q) = Ok (mail parties q) /\ delivered parties q (mail parties q)).
  { intros q Hq. apply mail_ok. intros p Hp. apply HQ'; assumption. }
  assert (Hproofs : exists l, traverse (fun p => let* pr := unwrap (pt_sk_proof p) in let* pk := unwrap (part_public_key p) in
      nizk_verify pr (pt_index p) pk) (map y_d parties) = Ok l).
  { destruct (traverse_ok (fun p d => In p parties /\ d = y_d p) (fun _ _ => True) (fun p => let* pr := unwrap (pt_sk_proof p) in let* pk := unwrap (part_public_key p) in
      nizk_verify pr (pt_index p) pk) parties (map y_d parties)) as (l & E & _); [| |exists l; exact E].
    - apply forall2_map_r. eapply forall2_impl; [|apply forall2_self with (P := fun p => In p parties)]; [|auto].
      intros a a' [<- Ha]. split; [exact Ha|reflexivity].
    - intros p d [Hp ->]. destruct (honest_fresh params parties p H Hp) as [F1 _ F3 F4 _ (pr & a0 & F5 & F6 & F7)].
      exists tt. split; [|exact I]. rewrite F5. cbn [unwrap bind]. unfold part_public_key. rewrite F4. unfold vss_public_key. cbn [vss_points].
      destruct (y_co p) as [|a co]; [discriminate F6|]. injection F6 as ->. cbn. rewrite F1. exact F7. }
  destruct Hproofs as (pl & Epl).
  set (calls0 := map (fun q => (y_index q, (y_st q, mail parties q))) parties).
  set (calls := map (fun q => (y_index q, (y_st q, bx q))) parties).
  assert (Erun : forall z, bind (test_scenario m (pt_dh_pk (y_d b)) victim calls r3) (fun v => let '(outs, cs, r4) := v in
      let* c := unwrap (nth_error cs 0) in
      let* (s2, _, r5) := to_round_two m (y_st y) (mail parties y) r4 in
      let* (keys, _) := blame s2 [test_doubled c] in
      let* key := unwrap (nth_error keys 0) in
      let* _ := assert_true (Geqb key (pt_dh_pk (y_d w))) in
      Ok (outs, r5)) = z -> test_complaint m n t ids bob victim third k r = z).
  { intros z <-. unfold test_complaint. rewrite params_ok by lia. cbn [bind]. fold params. rewrite E1. cbn [bind]. rewrite map_map.
    change (map (fun x => fst (fst (triple x))) parties) with (map y_d parties). rewrite Epl. cbn [bind]. rewrite E2. cbn [bind].
    rewrite !map_map. cbn [fst snd]. change (map (fun x : Party => y_es x) parties) with (map y_es parties). change (map (fun x : Party => y_st x) parties) with (map y_st parties).
    rewrite (map_ext_in (fun x : Party => pt_index (y_d x)) y_index) by exact Hix.
    rewrite (traverse_map_ok (doc_box (map y_es parties)) y_index (mail parties)) by (intros q Hq; apply Hmail, Hq). cbn [bind].
    rewrite !combine_maps. fold calls0. 
    assert (Ef : find (fun d : Participant * list F * F => u32_eqb (pt_index (fst (fst d))) bob) (map triple parties) = Some (triple b)).
    { pose proof (find_dealer parties b bob Hnd Hix Hb Ib) as X. clear -X Hix Hb Ib Hnd.
      assert (Hu : forall p, In p parties -> y_index p = bob -> p = b) by (intros p Hp E; apply (same_party parties); auto; congruence).
      clear X Hnd. induction parties as [|a l IH]; [contradiction|]. cbn [map find triple fst]. destruct (u32_eqb (pt_index (y_d a)) bob) eqn:E.
      - apply u32_eqb_spec in E. rewrite Hix in E by (left; reflexivity). rewrite (Hu a (or_introl eq_refl) E). reflexivity.
      - destruct Hb as [->|Hb]; [rewrite Hix, Ib, u32_eqb_refl in E by (left; reflexivity); discriminate|].
        apply IH; [intros p Hp; apply Hix; right; exact Hp|exact Hb|intros p Hp; apply Hu; right; exact Hp]. }
    rewrite Ef. cbn [unwrap bind triple fst snd].
    rewrite (find_dealer parties w victim Hnd Hix Hw Iw). cbn [unwrap bind].
    pose proof (find_named parties y_es b Hnd Hb) as Fb. rewrite Ib in Fb. rewrite Fb. cbn [unwrap bind snd].
    pose proof He as He'. rewrite Iw in He'. rewrite He'. cbn [unwrap bind].
    rewrite Et. cbn [bind]. rewrite Ebox. cbn [bind].
    replace (map (fun x : u32 * (RoundOne * list EncShare) => if u32_eqb (fst x) victim then (fst x, (fst (snd x), box)) else x) calls0) with calls.
    2:{ unfold calls, calls0. rewrite map_map. apply map_ext. intros q. cbn [fst snd]. unfold bx. destruct (u32_eqb (y_index q) victim); reflexivity. }
    pose proof (find_named parties (fun q => (y_st q, mail parties q)) y Hnd Hy) as Fy. rewrite Iy in Fy. fold calls0 in Fy. rewrite Fy. cbn [unwrap bind fst snd].
    destruct (test_scenario _ _ _ _ _) as [[[outs cs] r4]| |]; reflexivity. }
  destruct (scenario m params parties p1 b p2 w wrong l1 l2 bx r3 H HB Hix Ep Hw Ht1 Htn) as [(A1 & A2)|(A1 & outs & c & r4 & s & A2 & A3 & A4 & _)]; auto.
  { rewrite Ib. exact Hbn. }
  { congruence. }
  { congruence. }
  { unfold bx. rewrite Iw, u32_eqb_refl. reflexivity. }
  { intros q Hq Hnq. unfold bx. rewrite (proj2 (u32_eqb_neq _ _)) by (rewrite <- Iw; exact Hnq). apply Hmail, Hq. }
  - left. rewrite Ib, Iw in A1. split; [exact A1|]. apply Erun. fold calls in A2. rewrite Iw in A2. rewrite A2. reflexivity.
  - right. rewrite Ib, Iw in A1. split; [exact A1|]. exists c, s, outs. split; [exact A3|].
    split; [rewrite <- Qi, <- Iw; exact A4|]. split; [|apply doubled_rejected with (1 := A3)].
    intros V. destruct (quiet_round_two m params parties y (mail parties y) r4 H HB Hy) as (s2 & r5 & E).
    { eapply forall2_impl_in; [|apply (proj2 (Hmail y Hy))]. intros p x Hp Hx. eapply delivered_opens; eauto. }
    exists r5. apply Erun. fold calls in A2. rewrite Iw in A2. rewrite A2. cbn [bind nth_error unwrap]. rewrite E. cbn [bind].
    destruct (honest_state m params parties y H HB Hy) as (st & comms & ps & Est & HPs & _ & R & Hcm & Hnc & Hcs & Hdh).
    rewrite Est in E. destruct (proj1 (C16_complaints_exact S L m st comms _ _ Hcm Hnc) s2 [] r5 E) as [_ AR].
    destruct s2 as [st2']. cbn [st2] in AR. destruct AR as [_ _ _ _ R5 R6 _ (sh & R8 & _)].
    destruct A3 as (C1 & C2 & C3 & C4).
    destruct (C115_altered_complaint_convicts_the_named_receiver S L st2' comms sh (test_doubled c) (gen * y_x b)%G (gen * y_x w)%G) as (s' & cm' & sh' & Ebl & _).
    + rewrite R5. exact Hcm.
    + exact R8.
    + rewrite R6. unfold accused. cbn [test_doubled c_share]. rewrite C1, Ws, Hs1. apply Hdh, Hb.
    + exact V.
    + rewrite R6. unfold maker. cbn [test_doubled c_share]. rewrite C1, Wr, Hs2. apply Hdh, Hw.
    + rewrite Ebl. cbn [bind nth_error unwrap]. destruct (honest_fresh params parties w H Hw) as [_ -> _ _ _ _]. rewrite Geqb_refl. reflexivity.
Qed.
Print Assumptions C115_complaint_test.

(** four participants listed as 4, 1, 3, 2 with threshold 2: 3 tampers with the share for 2, and 1 settles the forged complaint *)
Definition tc_run (bob : N) (k : tampering) : result (list (G * SigningKey) * Rng) :=
  test_complaint (S := Toy) Debug bad_n bad_t [u 4; u 1; u bob; u 2] (u bob) (u 2) (u 1) k 77%N.
(** the ciphertext 3 has for 2 *)
Definition tc_cipher : result (list byte) :=
  let* (ds, r1) := each (new_dealer (S := Toy) (MkParams bad_n bad_t)) [u 4; u 1; u 3; u 2] 77%N in
  let* (ss, _) := each (doc_round_one (S := Toy) Debug (MkParams bad_n bad_t) (map (fun d => fst (fst d)) ds)) ds r1 in
  let* s := unwrap (nth_error ss 2) in
  let* e := unwrap (bget (u 2) (snd s)) in
  Ok (es_ct e).
Example C115_ex_hypotheses :
  good_indices [u 4; u 1; u 3; u 2] /\ N.of_nat (length [u 4; u 1; u 3; u 2]) = u32v bad_n /\
  (1 <= u32v bad_t)%N /\ (u32v bad_t < u32v bad_n)%N /\ (u32v (u 3) <= u32v bad_n)%N /\
  In (u 3) [u 4; u 1; u 3; u 2] /\ In (u 2) [u 4; u 1; u 3; u 2] /\ u 2 <> u 3 /\ In (u 1) [u 4; u 1; u 3; u 2].
Proof.
  unfold bad_n, bad_t. assert (V : u32v (u 2) = 2%N /\ u32v (u 3) = 3%N /\ u32v (u 4) = 4%N) by (split; [|split]; reflexivity).
  destruct V as (V2 & V3 & V4). rewrite V2, V3, V4.
  repeat match goal with |- _ /\ _ => split end; try (cbn; lia); try good; try reflexivity; try (cbn; auto; fail).
  intros X. apply (f_equal u32v) in X. rewrite V2, V3 in X. discriminate.
Qed.
Example C115_ex_nonce : seen (tc_run 3 (@TNonce Toy (@MkNonce Toy (repeat x2a 12) eq_refl))) = Ok ([u 4; u 1; u 3; u 2], false, true, true).
Proof. vms. Qed.
Example C115_ex_cipher : seen (tc_run 3 (@TCipher Toy (repeat x2a 42))) = Ok ([u 4; u 1; u 3; u 2], false, true, true).
Proof. vms. Qed.
Example C115_ex_value : seen (tc_run 3 (@TValue Toy (mk 42))) = Ok ([u 4; u 1; u 3; u 2], false, true, true).
Proof. vms. Qed.
(** no tampering at all: the assertion that there is one complaint fails *)
Example C115_ex_untouched : (let* ct := tc_cipher in tc_run 3 (@TCipher Toy ct)) = Panic.
Proof. vms. Qed.
(** the bound on Bob's index is needed: the victim would be convicted in their place (C26) *)
Theorem C115_complaint_test_unbounded_refuted : tc_run 9 (@TValue Toy (mk 42)) = Panic.
Proof. vms. Qed.
Print Assumptions C115_complaint_test_unbounded_refuted.
