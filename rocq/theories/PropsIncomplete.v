(** C124: the repository's test of a group that loses one participant in each round and signs all the same, for any
    number of participants, any set of victims and every generator. *)
From Coq Require Import String Strings.Byte Arith NArith ZArith Bool List Lia Permutation Sorted Field.
From Verif Require Import Base BaseLemmas Suite Algebra Spec Types Toy ModelDkg ModelSign ModelCompare ModelErase ModelDoc ModelIncomplete
  SpecDkg SpecSign SpecRobust LemmasShare LemmasRound1 LemmasRound2 LemmasFinish LemmasBlame PropsShare PropsRound1 PropsRound2 PropsFinish
  PropsReshare PropsBlame PropsRobust PropsView PropsReflect PropsSteer PropsAgg PropsDoc PropsDocBad PropsAlter PropsTestComplaint Demo DemoDkg.
Import ListNotations.

Section Incomplete.
  Context {S : Suite} {L : SuiteLaws S}.
  Add Field F_fld : F_field.

  (** q has accepted exactly the participants [parties] in round one *)
  Definition sees (params : Params) (parties : list Party) (q : Party) (st : DkgState) (comms : bmap Vss) : Prop :=
    y_st q = R1 st /\ records params (y_index q) (y_x q) (map y_d parties) st /\ ds_comms st = Some comms /\ NoDup (bkeys comms) /\
    (forall j c, bget j comms = Some c <-> exists p, In p parties /\ y_index p = j /\ c = MkVss j (committed (y_co p))) /\
    (forall p, In p parties -> bget (y_index p) (ds_dhs st) = Some (gen * y_x p)%G).

  (** all shares open: no complaint, and what finish gives *)
  Lemma sees_quiet m params parties q st comms box r :
    good_indices (map y_index parties) -> (forall p, In p parties -> y_co p <> []) ->
    (u32v (p_t params) <= N.of_nat (length parties))%N -> sees params parties q st comms -> Forall2 (opens_to q) parties box ->
    exists s2 r', to_round_two m (y_st q) box r = Ok (s2, [], r') /\
      finish s2 = Ok ((gen * interp0 (dealt_values parties F0))%G, MkSK (y_index q) (interp0 (dealt_values parties (of_u32 (y_index q))))).
  Proof.
    intros Hg Hco Ht (Est & R & Hc & Hnd & Hcm & Hdh) HF.
    destruct (dealing_ok m st comms (map dealing parties) (map dealing parties) box r) as (s2 & r' & E1 & _ & E2); auto.
    - rewrite map_map. exact Hg.
    - intros j c. rewrite Hcm. split.
      + intros (p & Hp & <- & ->). exists (y_x p), (y_co p). split; [|reflexivity]. apply (in_map dealing), Hp.
      + intros (x & co & Hin & ->). apply in_map_iff in Hin. destruct Hin as (p & [= <- <- <-] & Hp). exists p. auto.
    - intros j x co Hin. apply in_map_iff in Hin. destruct Hin as (p & [= <- <- <-] & Hp). split; [apply Hco, Hp|apply Hdh, Hp].
    - rewrite (rec_n _ _ _ _ _ R), (rec_t _ _ _ _ _ R), map_length. exact Ht.
    - rewrite (rec_t _ _ _ _ _ R), map_length. exact Ht.
    - rewrite (rec_index _ _ _ _ _ R), (rec_sk _ _ _ _ _ R). clear -HF. induction HF; cbn [map]; constructor; assumption.
    - rewrite Est. exists s2, r'. split; [exact E1|]. rewrite E2, (rec_index _ _ _ _ _ R), !map_map. reflexivity.
  Qed.

  (** one share does not open right: one complaint *)
  Lemma sees_one m params parties a1 b a2 q st comms l1 e l2 r :
    good_indices (map y_index parties) -> parties = a1 ++ b :: a2 ->
    (1 <= u32v (p_t params))%N -> (u32v (p_t params) < N.of_nat (length parties))%N -> sees params parties q st comms ->
    Forall2 (opens_to q) a1 l1 -> Forall2 (opens_to q) a2 l2 -> es_sender e = y_index b -> es_receiver e = y_index q ->
    decrypt_share e (enc_point ((gen * y_x b) * y_x q)%G) <>
      Ok (MkShare (y_index b) (y_index q) (poly_value (y_co b) (of_u32 (y_index q)))) ->
    exists s2 c r', to_round_two m (y_st q) (l1 ++ e :: l2) r = Ok (s2, [c], r') /\ accused c = y_index b.
  Proof.
    intros Hg Ep Ht1 Ht (Est & R & Hc & Hnd & Hcm & Hdh) F1 F2 Es Er Hbad.
    assert (Hin : forall x, In x (l1 ++ l2) -> exists z, In z parties /\ opens_to q z x).
    { intros x Hx. apply in_app_or in Hx. destruct Hx as [Hx|Hx];
        [destruct (forall2_in_r _ _ _ F1 x Hx) as (z & Hz & HO)|destruct (forall2_in_r _ _ _ F2 x Hx) as (z & Hz & HO)]; exists z;
        (split; [rewrite Ep; apply in_or_app|exact HO]); [left|right; right]; exact Hz. }
    assert (Hb : In b parties) by (rewrite Ep; apply in_elt).
    assert (Hok : forall x, In x (l1 ++ l2) -> acceptable m st x /\ ~ bad_for st x).
    { intros x Hx. destruct (Hin x Hx) as (z & Hz & E1 & E2 & E3). split.
      - split; [intros _; rewrite (rec_index _ _ _ _ _ R); exact E2|]. exists (gen * y_x z)%G. rewrite E1. apply Hdh, Hz.
      - intros (c0 & com & A1 & A2 & A3). apply A3. assert (c0 = comms) by congruence. subst c0.
        rewrite E1 in A2. apply Hcm in A2. destruct A2 as (z' & Hz' & Ez & ->).
        assert (z' = z) by (apply (same_party parties); auto; apply Hg). subst z'.
        exists (poly_value (y_co z) (of_u32 (y_index q))). split.
        + exists (gen * y_x z)%G. rewrite E1, E2, (rec_sk _ _ _ _ _ R). split; [apply Hdh, Hz|exact E3].
        + unfold on_commitment. cbn [vss_points]. rewrite gpoly_committed, E2. reflexivity. }
    assert (Hcp : bget (y_index b) comms = Some (MkVss (y_index b) (committed (y_co b)))) by (apply Hcm; eauto).
    assert (Hbf : bad_for st e).
    { exists comms, (MkVss (y_index b) (committed (y_co b))). split; [exact Hc|]. split; [rewrite Es; exact Hcp|].
      intros (v & (pk & O1 & O2) & O3). apply Hbad. rewrite Es, Hdh in O1 by exact Hb. injection O1 as <-.
      rewrite (rec_sk _ _ _ _ _ R), Es, Er in O2. rewrite O2. unfold on_commitment in O3. cbn [vss_points] in O3.
      rewrite gpoly_committed, Er in O3. apply gen_inj in O3. rewrite O3. reflexivity. }
    assert (Hae : acceptable m st e).
    { split; [intros _; rewrite (rec_index _ _ _ _ _ R); exact Er|]. exists (gen * y_x b)%G. rewrite Es. apply Hdh, Hb. }
    assert (Hlen : length (l1 ++ e :: l2) = length parties).
    { rewrite Ep, !app_length. cbn [length]. apply Forall2_len in F1, F2. congruence. }
    destruct (to_round_two_done m st comms (l1 ++ e :: l2) r Hc Hnd) as (cs & r' & HL & E).
    { rewrite (rec_t _ _ _ _ _ R), Hlen. lia. }
    { apply Forall_app. split; [|constructor; [exact Hae|]]; apply Forall_forall; intros x Hx; apply Hok, in_or_app; auto. }
    destruct (complaint_list_one st l1 e l2 cs HL Hbf (fun x Hx => proj2 (Hok x Hx))) as (c & -> & C1 & C2 & pk & C3 & C4 & C5).
    cbn [length] in E. unfold remaining in E. change (N.of_nat 1 mod 4294967296)%N with 1%N in E.
    rewrite (rec_n _ _ _ _ _ R), (rec_t _ _ _ _ _ R), map_length in E.
    replace (N.of_nat (length parties) <? 1)%N with false in E by (symmetry; apply N.ltb_ge; lia).
    replace (N.of_nat (length parties) - 1 <? u32v (p_t params))%N with false in E by (symmetry; apply N.ltb_ge; lia).
    rewrite Est. eexists _, c, r'. split; [exact E|]. unfold accused. rewrite C1. exact Es.
  Qed.

  (** settling complaints that all convict one participant *)
  Lemma blame_one st comms shares cs i pk : ds_comms st = Some comms -> ds_shares st = Some shares ->
    (forall j, convicted st cs j <-> j = i) -> bget i (ds_dhs st) = Some pk ->
    exists st', blame (R2 st) cs = Ok ([pk], R2 st').
  Proof.
    intros Hc Hs Hcv Hpk. destruct (C22_blame_outcome S L st comms shares cs Hc Hs) as (l & keys & st' & E1 & Hl & Hso & Hk & HPr).
    assert (El : l = [i]).
    { assert (I0 : In i l) by (apply Hl, Hcv; reflexivity).
      assert (I1 : forall j, In j l -> j = i) by (intros j Hj; apply Hcv, Hl, Hj).
      clear - Hso I0 I1. destruct l as [|a [|b l]]; [contradiction| |].
      - rewrite (I1 a (or_introl eq_refl)). reflexivity.
      - exfalso. apply StronglySorted_inv in Hso. destruct Hso as [_ Hs]. apply Forall_inv in Hs.
        rewrite (I1 a), (I1 b) in Hs by (cbn; auto). lia. }
    subst l. exists st'. rewrite E1. do 2 f_equal. inversion Hk as [|i0 l0 k ks K1 K2 F1 F2|i0 l0 ks K1 K2 F1 F2]; subst.
    - inversion K2; subst. rewrite Hpk in K1. injection K1 as <-. reflexivity.
    - rewrite Hpk in K1. discriminate.
  Qed.

  (** what the commitments of some parties say about a point *)
  Lemma dealt_parties (l : list Party) x :
    dealt_point (map (fun p => (y_index p, MkVss (y_index p) (committed (y_co p)))) l) x = (gen * interp0 (dealt_values l x))%G.
  Proof.
    unfold dealt_point. rewrite <- ginterp0_gen. unfold dealt_values. rewrite !map_map. cbn [fst snd vss_points]. f_equal.
    apply map_ext. intros p. rewrite gpoly_committed. reflexivity.
  Qed.
  Definition comm_of (p : Party) : Vss := MkVss (y_index p) (committed (y_co p)).
  Lemma generate_parties (l : list Party) i : good_indices (map y_index l) ->
    ivk_generate i (map comm_of l) = Ok (MkVK i (gen * interp0 (dealt_values l (of_u32 i)))%G).
  Proof.
    intros Hg. rewrite ivk_generate_ok; [|rewrite map_map; exact Hg]. unfold by_index. rewrite map_map. cbn [comm_of vss_index].
    unfold comm_of. rewrite dealt_parties. reflexivity.
  Qed.
  Lemma verify_parties (l : list Party) i k : good_indices (map y_index l) ->
    ivk_verify (to_public (MkSK i k)) (map comm_of l) =
      if Feqb k (interp0 (dealt_values l (of_u32 i))) then Ok tt else Err ShareVerificationError.
  Proof.
    intros Hg. destruct (C35_verify_equals_regeneration S L (to_public (MkSK i k)) (map comm_of l)) as (A & B & _).
    cbn [to_public vk_index sk_index sk_key] in A, B. rewrite (generate_parties l i Hg) in A.
    destruct (Feqb k (interp0 (dealt_values l (of_u32 i)))) eqn:E.
    - apply Feqb_spec in E. apply A. unfold to_public. cbn [sk_index sk_key]. rewrite E. reflexivity.
    - apply B. eexists. split; [apply generate_parties, Hg|]. intros X. injection X as X. apply gen_inj in X. rewrite X in E.
      rewrite (proj2 (Feqb_spec k k) eq_refl) in E. discriminate.
  Qed.
  Lemma interp_perm (l l' : list Party) x : Permutation l l' -> interp0 (dealt_values l x) = interp0 (dealt_values l' x).
  Proof. intros HP. apply interp0_perm. apply Permutation_map, HP. Qed.

  Lemma rev_removelast {A} (l : list A) : skipn 1 (rev l) = rev (removelast l).
  Proof.
    destruct l as [|a l] using rev_ind; [reflexivity|]. rewrite rev_app_distr. cbn [rev app skipn].
    rewrite removelast_last. reflexivity.
  Qed.

  (** the parties with the states and shares they obtained *)
  Lemma rebuild (P : Participant * list F * F -> RoundOne * bmap EncShare -> Prop) (l : list Party) ss :
    Forall2 (fun p s => P (triple p) s) l ss ->
    exists l', map triple l' = map triple l /\ map y_index l' = map y_index l /\ map (fun p => (y_st p, y_es p)) l' = ss /\
      forall p', In p' l' -> (exists p, In p l /\ triple p' = triple p /\ y_index p' = y_index p) /\ P (triple p') (y_st p', y_es p').
  Proof.
    induction 1 as [|p [st es] l ss H HF (l' & E1 & E2 & E3 & HP)]; [exists []; cbn; do 3 (split; [reflexivity|]); intros ? []|].
    exists (MkParty (y_index p) (y_d p) (y_co p) (y_x p) st es :: l'). cbn [map]. rewrite E1, E2, E3. cbn [y_index y_st y_es].
    do 3 (split; [reflexivity|]). intros p' [<-|Hp].
    - split; [exists p; split; [left; reflexivity|split; reflexivity]|exact H].
    - destruct (HP p' Hp) as ((p0 & A & B) & C). split; [exists p0; split; [right; exact A|exact B]|exact C].
  Qed.
  Lemma fresh_doubled params i d co x : fresh_dealer params i d co x -> (1 <= u32v (p_t params))%N ->
    pt_index (inc_double d) = i /\ ~ crashing (inc_double d) /\
    (ok_bootstrap (p_t params) (inc_double d) <-> nizk_verify (pt_dh_proof d) i (pt_dh_pk d + pt_dh_pk d)%G = Ok tt).
  Proof.
    intros H Ht. exact (fresh_swapped params i d co x (MkPart i (pt_dh_pk d + pt_dh_pk d)%G None None (pt_dh_proof d)) H Ht).
  Qed.
  Lemma fresh_sk_proof params i d co x : fresh_dealer params i d co x -> inc_sk_proof d = Ok tt /\ inc_sk_proof (inc_double d) = Ok tt.
  Proof.
    intros [H1 H2 H3 H4 H5 (pr & a0 & H6 & H7 & H8)]. unfold inc_sk_proof, inc_double, part_public_key, vss_public_key.
    cbn [pt_sk_proof pt_comm pt_index]. rewrite H6, H4, H1. cbn [unwrap bind vss_points option_map].
    destruct co as [|a co']; [discriminate H7|]. cbn in H7. injection H7 as ->. cbn [committed map unwrap bind]. split; exact H8.
  Qed.
  Lemma traverse_unit {A} (f : A -> result unit) l : (forall a, In a l -> f a = Ok tt) -> exists us, traverse f l = Ok us.
  Proof.
    induction l as [|a l IH]; intros H; [exists []; reflexivity|]. cbn [traverse]. rewrite (H a (or_introl eq_refl)). cbn [bind].
    destruct IH as (us & E); [intros b Hb; apply H; right; exact Hb|]. rewrite E. eexists; reflexivity.
  Qed.
  Lemma existsb_in i l : existsb (u32_eqb i) l = true <-> In i l.
  Proof.
    rewrite existsb_exists. split.
    - intros (x & Hx & E). apply u32_eqb_spec in E. subst. exact Hx.
    - intros H. exists i. split; [exact H|apply u32_eqb_refl].
  Qed.
  Lemma named_forall2 {A B I C} (f : A -> I) (g : B -> C) (P : A -> B -> Prop) l l' : Forall2 P l l' ->
    Forall2 (fun q y => exists x, P q x /\ y = (f q, g x)) l (combine (map f l) (map g l')).
  Proof. induction 1 as [|q x l l' H HF IH]; cbn [map combine]; constructor; [exists x; auto|exact IH]. Qed.
  Lemma dec_ex {A} (P : A -> Prop) (l : list A) : (forall a, In a l -> P a \/ ~ P a) -> (exists a, In a l /\ P a) \/ ~ (exists a, In a l /\ P a).
  Proof.
    induction l as [|a l IH]; intros H; [right; intros (x & [] & _)|].
    destruct (H a (or_introl eq_refl)) as [Ha|Ha]; [left; exists a; split; [left; reflexivity|exact Ha]|].
    destruct IH as [(x & Hx & Px)|N]; [intros x Hx; apply H; right; exact Hx|left; exists x; split; [right|]; assumption|].
    right. intros (x & [<-|Hx] & Px); [exact (Ha Px)|]. apply N. exists x. auto.
  Qed.
End Incomplete.

(** the share with the wrong nonce *)
Definition garbled {S : Suite} (e : EncShare) : EncShare := MkEnc (es_sender e) (es_receiver e) nonce_42 (es_ct e).
(** the garbled share of b for w opens to the right value all the same *)
Definition right_anyway {S : Suite} (b w : Party) : Prop :=
  exists e, bget (y_index w) (y_es b) = Some e /\
    decrypt_share (garbled e) (enc_point ((gen * y_x b) * y_x w)%G) =
      Ok (MkShare (y_index b) (y_index w) (poly_value (y_co b) (of_u32 (y_index w)))).
(** the coincidences that make the test fail: a garbled share opens, bob's contribution does not show in the group key,
    the last commitment does not show in the first public key *)
Definition accident {S : Suite} (parties rest : list Party) (b : Party) (victims : list u32) : Prop :=
  (exists w, In w rest /\ In (y_index w) victims /\ right_anyway b w) \/
  interp0 (dealt_values parties F0) = interp0 (dealt_values rest F0) \/
  exists q, hd_error rest = Some q /\
    interp0 (dealt_values rest (of_u32 (y_index q))) = interp0 (dealt_values (removelast rest) (of_u32 (y_index q))).

Section Second.
  Context {S : Suite} {L : SuiteLaws S}.

  (** the commitments that remain *)
  Lemma comms_rest (rest : list Party) comms' : NoDup (bkeys comms') -> NoDup (map y_index rest) ->
    (forall j c, In (j, c) comms' <-> exists p, In p rest /\ j = y_index p /\ c = comm_of p) ->
    forall x, dealt_point comms' x = (gen * interp0 (dealt_values rest x))%G.
  Proof.
    intros Hn Hr Hin x. rewrite <- dealt_parties. unfold dealt_point. apply ginterp0_perm, Permutation_map, NoDup_Permutation.
    - apply (NoDup_map_inv fst). exact Hn.
    - apply (NoDup_map_inv fst). rewrite map_map. exact Hr.
    - intros [j c]. rewrite Hin, in_map_iff. split.
      + intros (p & Hp & -> & ->). exists p. auto.
      + intros (p & [= <- <-] & Hp). exists p. auto.
  Qed.

  Lemma second_ok m params parties b bob victims message r :
    good_indices (map y_index parties) -> (forall p, In p parties -> dealt_by params p) ->
    (1 <= u32v (p_t params))%N -> (u32v (p_t params) < N.of_nat (length parties))%N -> (N.of_nat (length parties) <= u32v (p_n params))%N ->
    (exists prm dhs comms, forall q, In q parties -> exists st, sees params parties q st comms /\ ds_params st = prm /\ ds_dhs st = dhs) ->
    (forall p q, In p parties -> In q parties -> exists e, bget (y_index q) (y_es p) = Some e /\ opens_to q p e) ->
    In b parties -> y_index b = bob -> (u32v bob <= N.of_nat (length parties))%N ->
    victims <> [] -> ~ In bob victims -> incl victims (map y_index parties) ->
    let rest := filter (fun p => negb (u32_eqb (y_index p) bob)) parties in
    let run := inc_second m params (map y_d parties) (map (fun p => (y_st p, y_es p)) parties) bob victims message r in
    (accident parties rest b victims /\ run = Panic) \/
    (~ accident parties rest b victims /\ exists keep ob sig r' s, run = Ok (keep, ob, sig, r') /\
       holders (map y_index rest) (N.to_nat (u32v (p_t params))) s keep /\ fst ob <> (gen * s)%G /\
       verify_signature (gen * s)%G sig (h4 message) = Ok tt).
  Proof.
    intros Hg HD Ht1 Ht Hn (prm & dhs & comms & HV) HS Hb Ib Hbn Hv0 Hvb Hvi rest.
    destruct (Hg) as [Hnd H0].
    assert (HF : forall p, In p parties -> fresh_dealer params (y_index p) (y_d p) (y_co p) (y_x p)).
    { intros p Hp. destruct (HD p Hp) as (ra & rb & E). eapply new_dealer_inv; [|exact Ht1|exact E].
      intros Z. apply H0. rewrite <- Z. apply in_map, Hp. }
    assert (Hix : forall p, In p parties -> pt_index (y_d p) = y_index p) by (intros p Hp; apply (HF p Hp)).
    assert (Hsp : forall p q, In p parties -> In q parties -> y_index p = y_index q -> p = q) by (intros; apply (same_party parties); auto).
    assert (Hrest : forall q, In q rest <-> In q parties /\ y_index q <> bob).
    { intros q. unfold rest. rewrite filter_In, negb_true_iff, u32_eqb_neq. reflexivity. }
    assert (Hco : forall p, In p parties -> y_co p <> []).
    { intros p Hp E. destruct (HF p Hp) as [_ _ X _ _ _]. rewrite E in X. cbn in X. lia. }
    destruct (in_split b parties Hb) as (a1 & a2 & Ep).
    assert (Hne : forall q, In q (a1 ++ a2) -> y_index q <> bob).
    { intros q Hq E. rewrite Ep, map_app in Hnd. cbn [map] in Hnd. apply NoDup_remove_2 in Hnd. apply Hnd. rewrite Ib, <- E, <- map_app. apply in_map, Hq. }
    assert (Erest : rest = a1 ++ a2).
    { unfold rest. rewrite Ep, filter_app. cbn [filter]. rewrite Ib, u32_eqb_refl. cbn [negb].
      f_equal; apply filter_all; intros q Hq; apply negb_true_iff, u32_eqb_neq, Hne, in_or_app; auto. }
    assert (Hlr : Datatypes.S (length rest) = length parties) by (rewrite Erest, Ep, !app_length; cbn; lia).
    assert (Hgr : good_indices (map y_index rest)).
    { rewrite Erest, map_app. rewrite Ep, map_app in Hnd, H0. cbn [map] in Hnd, H0. split; [apply NoDup_remove_1 in Hnd; exact Hnd|].
      intros X. apply H0. apply in_or_app. apply in_app_or in X. destruct X; [left|right; right]; assumption. }
    set (vic := fun q : Party => existsb (u32_eqb (y_index q)) victims).
    set (slot := fun q p x => exists e, bget (y_index q) (y_es p) = Some e /\ x = if u32_eqb (y_index p) bob && vic q then garbled e else e).
    assert (Eids : map pt_index (map y_d parties) = map y_index parties) by (rewrite map_map; apply map_ext_in, Hix).
    unfold inc_second. rewrite Eids, !map_map. cbn [fst snd].
    change (map (fun x : Party => y_es x) parties) with (map y_es parties). change (map (fun x : Party => y_st x) parties) with (map y_st parties).
    rewrite combine_maps.
    assert (Eboxes : exists boxes, traverse (fun q => traverse (inc_slot bob victims q) (map (fun p => (y_index p, y_es p)) parties)) (map y_index parties) = Ok boxes /\
      Forall2 (fun q box => In q parties /\ Forall2 (fun p x => In p parties /\ slot q p x) parties box) parties boxes).
    { apply traverse_ok with (Q := fun q i => In q parties /\ i = y_index q).
      - apply forall2_map_r. eapply forall2_impl; [|apply forall2_self with (P := fun p => In p parties)]; [|auto].
        intros a a' [<- Ha]. split; [exact Ha|reflexivity].
      - intros q i [Hq ->].
        destruct (traverse_ok (fun p x => In p parties /\ x = (y_index p, y_es p)) (fun p x => In p parties /\ slot q p x)
          (inc_slot bob victims (y_index q)) parties (map (fun p => (y_index p, y_es p)) parties)) as (box & E & HB).
        + apply forall2_map_r. eapply forall2_impl; [|apply forall2_self with (P := fun p => In p parties)]; [|auto].
          intros a a' [<- Ha]. split; [exact Ha|reflexivity].
        + intros p x [Hp ->]. destruct (HS p q Hp Hq) as (e & He & _). unfold inc_slot. cbn [fst snd]. rewrite He. cbn [unwrap bind].
          eexists. split; [reflexivity|]. split; [exact Hp|]. exists e. split; [exact He|reflexivity].
        + exists box. split; [exact E|]. split; [exact Hq|exact HB]. }
    destruct Eboxes as (boxes & Eb & HFb). rewrite Eb. cbn [bind].
    (* what is in the boxes *)
    assert (Hslot : forall q p x, In q parties -> In p parties -> slot q p x -> es_sender x = y_index p /\ es_receiver x = y_index q).
    { intros q p x Hq Hp (e & He & ->). destruct (HS p q Hp Hq) as (e' & He' & O1 & O2 & _). rewrite He in He'. injection He' as <-.
      destruct (u32_eqb (y_index p) bob && vic q); cbn [garbled es_sender es_receiver]; auto. }
    assert (Hopen : forall q p x, In q parties -> In p parties -> slot q p x -> (p <> b \/ vic q = false) -> opens_to q p x).
    { intros q p x Hq Hp (e & He & ->) Hc. destruct (HS p q Hp Hq) as (e' & He' & HO). rewrite He in He'. injection He' as <-.
      destruct (u32_eqb (y_index p) bob) eqn:E; [|exact HO]. destruct Hc as [Hc| ->]; [|exact HO].
      apply u32_eqb_spec in E. destruct Hc. apply Hsp; auto; congruence. }
    assert (Hbob : forall q x, In q parties -> slot q b x -> vic q = true -> exists e, bget (y_index q) (y_es b) = Some e /\ x = garbled e).
    { intros q x Hq (e & He & ->) Hvq. rewrite Ib, u32_eqb_refl, Hvq. exists e. auto. }
    assert (Hvr : forall q, In q parties -> vic q = true -> In q rest /\ In (y_index q) victims).
    { intros q Hq Hvq. apply existsb_in in Hvq. split; [|exact Hvq]. apply Hrest. split; [exact Hq|]. intros E. apply Hvb. rewrite <- E. exact Hvq. }
    set (calls := combine (map y_index parties) (combine (map y_st parties) boxes)).
    assert (HC : Forall2 (fun q x => fst x = y_index q /\ fst (snd x) = y_st q /\ In q parties /\
       Forall2 (fun p x => In p parties /\ slot q p x) parties (snd (snd x))) parties calls).
    { apply (calls_spec y_index y_st _ parties boxes HFb). }
    set (outall := ((gen * interp0 (dealt_values parties F0))%G)).
    assert (Hquiet : forall q x r0, fst x = y_index q /\ fst (snd x) = y_st q /\ In q parties /\
       Forall2 (fun p x => In p parties /\ slot q p x) parties (snd (snd x)) -> (vic q = false \/ right_anyway b q) ->
       exists s2 r', to_round_two m (fst (snd x)) (snd (snd x)) r0 = Ok (s2, [], r') /\
         finish s2 = Ok (outall, MkSK (y_index q) (interp0 (dealt_values parties (of_u32 (y_index q)))))).
    { intros q x r0 (X1 & X2 & X3 & X4) Hq. rewrite X2. destruct (HV q X3) as (st & HSe & _).
      apply (sees_quiet m params parties q st comms _ r0 Hg Hco); [lia|exact HSe|].
      eapply forall2_impl; [|exact X4]. intros p y [Hp Hy].
      destruct (vic q) eqn:Ev; [|apply Hopen; auto]. destruct Hq as [Hq|(e & He & Hr)]; [discriminate|].
      destruct (u32_eq_dec (y_index p) bob) as [E|E]; [|apply Hopen; auto; left; intros ->; contradiction].
      assert (p = b) by (apply Hsp; auto; congruence). subst p. destruct (Hbob q y X3 Hy Ev) as (e' & He' & ->).
      rewrite He in He'. injection He' as <-. destruct (Hslot q b (garbled e) X3 Hb Hy) as [S1 S2].
      split; [exact S1|]. split; [exact S2|exact Hr]. }
    assert (Hdec : forall q, In q parties -> right_anyway b q \/ ~ right_anyway b q).
    { intros q Hq. destruct (HS b q Hb Hq) as (e & He & _).
      destruct (decrypt_dec (garbled e) (enc_point ((gen * y_x b) * y_x q)%G) (MkShare (y_index b) (y_index q) (poly_value (y_co b) (of_u32 (y_index q))))) as [X|X].
      - left. exists e. auto.
      - right. intros (e' & He' & Y). rewrite He in He'. injection He' as <-. exact (X Y). }
    assert (Hone : forall q x r0, fst x = y_index q /\ fst (snd x) = y_st q /\ In q parties /\
       Forall2 (fun p x => In p parties /\ slot q p x) parties (snd (snd x)) -> vic q = true -> ~ right_anyway b q ->
       exists s2 c r', to_round_two m (fst (snd x)) (snd (snd x)) r0 = Ok (s2, [c], r') /\ accused c = bob).
    { intros q x r0 (X1 & X2 & X3 & X4) Ev Hr. rewrite X2. destruct (HV q X3) as (st & HSe & _).
      revert X4. generalize (snd (snd x)). intros box X4. rewrite Ep in X4. apply Forall2_app_inv_l in X4. destruct X4 as (k1 & k2' & Y1 & Y2 & ->).
      destruct (forall2_cons_l _ _ _ _ Y2) as (y & k2 & -> & [_ Y3] & Y4).
      destruct (Hbob q y X3 ltac:(exact Y3) Ev) as (e & He & ->). destruct (Hslot q b (garbled e) X3 Hb Y3) as [S1 S2].
      rewrite <- Ib. apply (sees_one m params parties a1 b a2 q st comms k1 (garbled e) k2 r0); auto.
      - eapply forall2_impl_in; [|exact Y1]. intros p z Hp [Hp' Hz]. apply Hopen; auto; [rewrite Ep; exact Hp'|].
        left. intros ->. apply (Hne b); [apply in_or_app; left; exact Hp|exact Ib].
      - eapply forall2_impl_in; [|exact Y4]. intros p z Hp [Hp' Hz]. apply Hopen; auto; [rewrite Ep; exact Hp'|].
        left. intros ->. apply (Hne b); [apply in_or_app; right; exact Hp|exact Ib].
      - intros X. apply Hr. exists e. split; [exact He|exact X]. }
    destruct (dec_ex (fun w => In (y_index w) victims /\ right_anyway b w) rest) as [(w & Hw & Hwv & Hwr)|Hno].
    { intros w Hw. apply Hrest in Hw. destruct (in_dec u32_eq_dec (y_index w) victims) as [A|A]; [|right; tauto].
      destruct (Hdec w (proj1 Hw)); [left|right]; tauto. }
    { left. split; [left; exists w; auto|]. apply Hrest in Hw. destruct Hw as [Hw _].
      destruct (forall2_in_l _ _ _ HC w Hw) as (xw & Hxw & X).
      rewrite (each_panic _ calls r xw Hxw); [reflexivity| |].
      - intros r0. unfold inc_round_two. destruct (Hquiet w xw r0 X (or_intror Hwr)) as (s2 & r' & E & _). rewrite E. cbn [bind].
        destruct X as (X1 & _). rewrite X1, (proj2 (existsb_in _ _) Hwv). reflexivity.
      - intros x r0 Hx. destruct (forall2_in_r _ _ _ HC x Hx) as (q & Hq & Y). unfold inc_round_two. assert (Y1 := proj1 Y). rewrite Y1.
        fold (vic q). destruct (vic q) eqn:Ev.
        + destruct (Hdec q Hq) as [A|A].
          * destruct (Hquiet q x r0 Y (or_intror A)) as (s2 & r' & E & _). rewrite E. left; reflexivity.
          * destruct (Hone q x r0 Y Ev A) as (s2 & c & r' & E & _). rewrite E. right. exists (s2, [c]), r'. reflexivity.
        + destruct (Hquiet q x r0 Y (or_introl Ev)) as (s2 & r' & E & _). rewrite E. right. exists (s2, []), r'. reflexivity. }
    (* nobody's garbled share opens *)
    set (ran := fun (q : Party) (x : RoundTwo * list Complaint) =>
      (exists box r0 r', In q parties /\ Forall2 (fun p y => In p parties /\ slot q p y) parties box /\
         to_round_two m (y_st q) box r0 = Ok (fst x, snd x, r')) /\
      (vic q = true /\ (exists c, snd x = [c] /\ accused c = bob) \/
       vic q = false /\ snd x = [] /\ finish (fst x) = Ok (outall, MkSK (y_index q) (interp0 (dealt_values parties (of_u32 (y_index q))))))).
    destruct (each_ok _ ran (inc_round_two m victims) parties calls r HC) as (s2s & r1 & E1 & HR).
    { intros q x r0 Y. unfold inc_round_two. pose proof Y as (Y1 & Y2 & Y3 & Y4). rewrite Y1. fold (vic q). destruct (vic q) eqn:Ev.
      - destruct (Hone q x r0 Y Ev) as (s2 & c & r' & E & Hc).
        { intros A. apply Hno. exists q. destruct (Hvr q Y3 Ev) as [B1 B2]. auto. }
        rewrite E. cbn [bind length Nat.eqb assert_true]. exists (s2, [c]), r'. split; [reflexivity|]. split.
        + exists (snd (snd x)), r0, r'. rewrite Y2 in E. auto.
        + left. split; [exact Ev|]. exists c. auto.
      - destruct (Hquiet q x r0 Y (or_introl Ev)) as (s2 & r' & E & Ef). rewrite E. cbn [bind length Nat.eqb assert_true].
        exists (s2, []), r'. split; [reflexivity|]. split.
        + exists (snd (snd x)), r0, r'. rewrite Y2 in E. auto.
        + right. auto. }
    rewrite E1. cbn [bind].
    rewrite (find_dealer parties b bob Hnd Hix Hb Ib). cbn [unwrap bind].
    set (all := concat (map snd s2s)).
    assert (Hall : forall c, In c all -> accused c = bob /\ exists q box r0 s2 cs r', In q parties /\ In c cs /\ to_round_two m (y_st q) box r0 = Ok (s2, cs, r')).
    { intros c Hc. unfold all in Hc. apply in_concat in Hc. destruct Hc as (cs & Hcs & Hc). apply in_map_iff in Hcs. destruct Hcs as (x & <- & Hx).
      destruct (forall2_in_r _ _ _ HR x Hx) as (q & Hq & (box & r0 & r' & _ & _ & E) & D). split.
      - destruct D as [(_ & c0 & Ec & Ac)|(_ & Ec & _)]; rewrite Ec in Hc; [|destruct Hc]. destruct Hc as [<-|[]]. exact Ac.
      - exists q, box, r0, (fst x), (snd x), r'. auto. }
    assert (Hex : exists c, In c all).
    { assert (Hv1 : exists v, In v victims) by (clear -Hv0; destruct victims as [|v vs]; [contradiction|exists v; left; reflexivity]).
      destruct Hv1 as (v & Hv1). assert (Hv : In v (map y_index parties)) by (apply Hvi, Hv1).
      apply in_map_iff in Hv. destruct Hv as (q & <- & Hq). destruct (forall2_in_l _ _ _ HR q Hq) as (x & Hx & _ & D).
      destruct D as [(_ & c & Ec & _)|(Ev & _)].
      - exists c. unfold all. apply in_concat. exists (snd x). split; [apply in_map, Hx|]. rewrite Ec. left; reflexivity.
      - exfalso. unfold vic in Ev. rewrite (proj2 (existsb_in _ _)) in Ev; [discriminate|exact Hv1]. }
    assert (Hb0 : bob <> u32_zero) by (intros X; apply H0; rewrite <- X, <- Ib; apply in_map, Hb).
    assert (Hconv : forall q st box r0 s2 cs r', In q parties -> sees params parties q st comms -> ds_dhs st = dhs ->
      to_round_two m (y_st q) box r0 = Ok (s2, cs, r') ->
      exists s3, blame s2 all = Ok ([(gen * y_x b)%G], s3) /\ (forall j, convicted st all j <-> j = bob)).
    { intros q st box r0 s2 cs r' Hq (Est & R & Hc & Hndc & Hcm & Hdh) Ed E. rewrite Est in E.
      destruct (proj1 (C16_complaints_exact S L m st comms box r0 Hc Hndc) s2 cs r' E) as [_ AR].
      destruct s2 as [st2']. cbn [st2] in AR. destruct AR as [A1 A2 A3 A4 A5 A6 A7 (sh & A8 & _)].
      assert (Hcv : forall j, convicted st2' all j <-> j = bob).
      { assert (Hc1 : forall c, In c all -> forall k, convicts st2' c k <-> k = bob).
        { intros c Hin k. destruct (Hall c Hin) as (Ac & q' & box' & r0' & s2' & cs' & r'' & Hq' & Hcs' & E').
          destruct (HV q' Hq') as (st' & (Est' & R' & Hc' & Hndc' & Hcm' & Hdh') & Ep' & Ed'). rewrite Est' in E'.
          destruct (C24_genuine_complaint_removes_cheater S L m st' st2' comms sh box' r0' cs' all c Hc' Hndc') as (K & _).
          - right. exists s2', r''. exact E'.
          - exact Hcs'.
          - rewrite A5. exact Hc.
          - rewrite A6. congruence.
          - exact A8.
          - rewrite Ac. exact Hb0.
          - rewrite Ac, A1, (rec_n _ _ _ _ _ R), map_length. exact Hbn.
          - exact Hin.
          - rewrite K, Ac. reflexivity. }
        intros j. unfold convicted. split; [intros (c & C1 & C2); apply (Hc1 c C1), C2|]. intros ->. destruct Hex as (c & Hcin). exists c. split; [exact Hcin|].
        apply Hc1; auto. }
      destruct (blame_one st2' comms sh all bob (gen * y_x b)%G) as (st3 & E3); auto.
      - rewrite A5. exact Hc.
      - rewrite A6, <- Ib. apply Hdh, Hb.
      - exists (R2 st3). split; [exact E3|]. intros j. rewrite <- Hcv. unfold convicted, convicts, upheld, registered. rewrite A1, A5, A6. reflexivity. }
    (* those who remain *)
    assert (Hend : forall q x, In q rest -> In x s2s -> ran q x -> exists s3, blame (fst x) all = Ok ([(gen * y_x b)%G], s3) /\
      finish s3 = Ok ((gen * interp0 (dealt_values rest F0))%G, MkSK (y_index q) (interp0 (dealt_values rest (of_u32 (y_index q)))))).
    { intros q x Hq Hx [(box & r0 & r' & Hqp & HB & E) _].
      destruct (HV q Hqp) as (st & HSe & Epr & Ed). pose proof HSe as (Est & R & Hc & Hndc & Hcm & Hdh).
      destruct (Hconv q st box r0 (fst x) (snd x) r' Hqp HSe Ed E) as (s3 & Eb3 & Hcv).
      set (h := MkFollower st box r0 (fst x) (snd x) r' all).
      assert (Hcs : forall c, In c (snd x) -> In c all) by (intros c Hc'; unfold all; apply in_concat; exists (snd x); split; [apply in_map, Hx|exact Hc']).
      assert (Hgc : good_indices (bkeys comms)).
      { split; [exact Hndc|]. intros X. apply bget_key_some in X. destruct X as (v & X). apply Hcm in X. destruct X as (p & Hp & Ez & _).
        apply H0. rewrite <- Ez. apply in_map, Hp. }
      destruct (C61_followers_agree_and_hold_keys S L m (ds_params st) (ds_dhs st) comms [h] all Hgc) as (keys & comms' & gk & K1 & K2 & K3 & _).
      { intros h0 c [<-|[]] Hc'. cbn [h h_cs] in Hc'. rewrite (proj1 (Hall c (Hcs c Hc'))), (rec_n _ _ _ _ _ R), map_length. exact Hbn. }
      { intros j v Hj. apply Hcm in Hj. destruct Hj as (p & Hp & _ & ->). cbn [vss_points]. pose proof (Hco p Hp) as Hcp.
        unfold committed. destruct (y_co p); [contradiction|discriminate]. }
      { intros h0 [<-|[]]. constructor; cbn [h h_st h_es h_r h_s2 h_cs h_r' h_settles]; auto.
        - intros y Hy. destruct (forall2_in_r _ _ _ HB y Hy) as (p & _ & Hp & Hsl). destruct (Hslot q p y Hqp Hp Hsl) as [A B].
          rewrite (rec_index _ _ _ _ _ R), B, A. split; [reflexivity|].
          apply bget_some_key with (v := comm_of p). apply Hcm. exists p. auto.
        - intros j Hj. apply bget_key_some in Hj. destruct Hj as (v & Hj). apply Hcm in Hj. destruct Hj as (p & Hp & <- & _).
          destruct (forall2_in_l _ _ _ HB p Hp) as (y & Hy & _ & Hsl). exists y. split; [exact Hy|apply (Hslot q p y Hqp Hp Hsl)].
        - rewrite <- Est. exact E. }
      { intros h0 [<-|[]]. cbn [h h_settles h_cs]. split; [reflexivity|exact Hcs]. }
      pose proof (K2 h (or_introl eq_refl)) as W. cbn [h h_st] in W.
      destruct (K3 h (or_introl eq_refl)) as (sk & (s3' & B1 & B2 & B3 & B4) & B5 & _). cbn [h h_s2 h_settles h_st] in B1, B4.
      rewrite Eb3 in B1. injection B1 as <- <-. exists s3. split; [exact Eb3|]. rewrite B3.
      assert (Hdp : forall y, dealt_point comms' y = (gen * interp0 (dealt_values rest y))%G).
      { apply comms_rest; [eapply without_nodup; eassumption|apply Hgr|]. intros j c. rewrite (without_in _ _ _ W), Hcv. split.
        - intros (Hj & Hnj). apply in_bget in Hj; [|exact Hndc]. apply Hcm in Hj. destruct Hj as (p & Hp & <- & ->). exists p.
          split; [apply Hrest; auto|]. split; reflexivity.
        - intros (p & Hp & -> & ->). apply Hrest in Hp. destruct Hp as [Hp Hpb]. split; [|exact Hpb]. apply bget_in, Hcm. exists p. auto. }
      apply first_points_dealt in K1. rewrite K1, Hdp. f_equal. f_equal. rewrite (rec_index _ _ _ _ _ R) in B4.
      rewrite Hdp, B4 in B5. apply gen_inj in B5. destruct sk as [i k]. cbn [sk_index sk_key] in B4, B5. congruence. }
    set (out := fun q => if u32_eqb (y_index q) bob then (outall, MkSK (y_index q) (interp0 (dealt_values parties (of_u32 (y_index q)))))
      else ((gen * interp0 (dealt_values rest F0))%G, MkSK (y_index q) (interp0 (dealt_values rest (of_u32 (y_index q)))))).
    assert (Epk : pt_dh_pk (y_d b) = (gen * y_x b)%G) by apply (HF b Hb). rewrite Epk.
    assert (Hnv : forall q, In q parties -> y_index q = bob -> vic q = false).
    { intros q Hq E. destruct (vic q) eqn:Ev; [|reflexivity]. apply existsb_in in Ev. rewrite E in Ev. contradiction. }
    destruct (traverse_ok (fun q y => In q parties /\ exists x, In x s2s /\ ran q x /\ y = (y_index q, fst x)) (fun q s3 => finish s3 = Ok (out q))
      (inc_settle all bob (gen * y_x b)%G) parties (combine (map y_index parties) (map fst s2s))) as (s3s & E3 & HF3).
    { assert (X : Forall2 (fun q x => In q parties /\ In x s2s /\ ran q x) parties s2s).
      { apply forall2_with in HR. apply forall2_flip, forall2_with, forall2_flip in HR. eapply forall2_impl; [|exact HR]. cbn beta. intros q x (A & B & C). auto. }
      eapply forall2_impl; [|apply (named_forall2 y_index fst _ _ _ X)]. cbn beta. intros q y (x & (A & B & C) & E). split; [exact A|]. exists x. auto. }
    { intros q y (Hq & x & Hx & Hr & ->). unfold inc_settle. cbn [fst snd]. unfold out. destruct (u32_eqb (y_index q) bob) eqn:Eq.
      - apply u32_eqb_spec in Eq. exists (fst x). split; [reflexivity|]. destruct Hr as [_ [(Ev & _)|(_ & _ & Ef)]]; [rewrite (Hnv q Hq Eq) in Ev; discriminate|exact Ef].
      - apply u32_eqb_neq in Eq. destruct (Hend q x) as (s3 & A & B); auto; [apply Hrest; auto|].
        rewrite A. cbn [bind length Nat.eqb assert_true nth_error unwrap]. rewrite Geqb_refl. exists s3. split; [reflexivity|exact B]. }
    rewrite E3. cbn [bind].
    destruct (traverse_ok _ (fun q o => o = out q) finish _ _ HF3) as (outs & E4 & HO); [intros q s3 H; eauto|].
    rewrite E4. cbn [bind]. rewrite (forall2_eq_map out _ _ HO), combine_maps.
    assert (Ekeep : map snd (filter (fun x : u32 * (G * SigningKey) => negb (u32_eqb (fst x) bob)) (map (fun p => (y_index p, out p)) parties)) = map out rest).
    { rewrite filter_map_comm. cbn [fst]. fold rest. rewrite map_map. reflexivity. }
    rewrite Ekeep.
    assert (Eob : find (fun x : u32 * (G * SigningKey) => u32_eqb (fst x) bob) (map (fun p => (y_index p, out p)) parties) = Some (bob, out b)).
    { rewrite <- Ib. apply find_named; assumption. }
    rewrite Eob. cbn [unwrap bind].
    set (s := interp0 (dealt_values rest F0)).
    assert (Hout : forall q, In q rest -> out q = ((gen * s)%G, MkSK (y_index q) (interp0 (dealt_values rest (of_u32 (y_index q)))))).
    { intros q Hq. unfold out. apply Hrest in Hq. rewrite (proj2 (u32_eqb_neq _ _)) by apply Hq. reflexivity. }
    assert (Eoutb : fst (out b) = outall) by (unfold out; rewrite Ib, u32_eqb_refl; reflexivity).
    assert (Hne0 : rest <> []) by (intros X; rewrite X in Hlr; cbn in Hlr; lia).
    assert (Egk : hd Gzero (map fst (map out rest)) = (gen * s)%G).
    { rewrite map_map. apply hd_map_const; [exact Hne0|]. intros q Hq. rewrite (Hout q Hq). reflexivity. }
    rewrite Egk, same_key_ok by (intros o Ho; apply in_map_iff in Ho; destruct Ho as (q & <- & Hq); rewrite (Hout q Hq); reflexivity).
    cbn [bind snd]. rewrite Eoutb.
    (* does bob's contribution show? *)
    destruct (F_dec (interp0 (dealt_values parties F0)) s) as [Ec|Ec].
    { left. split; [right; left; exact Ec|]. unfold outall. rewrite Ec, Geqb_refl. reflexivity. }
    assert (Ediff : Geqb outall (gen * s)%G = false).
    { destruct (Geqb outall (gen * s)%G) eqn:E; [|reflexivity]. apply Geqb_spec in E. unfold outall in E. apply gen_inj in E. contradiction. }
    rewrite Ediff. cbn [negb assert_true bind].
    (* the check of the public keys *)
    assert (Eps : filter (fun p => negb (u32_eqb (pt_index p) bob)) (map y_d parties) = map y_d rest).
    { rewrite filter_map_comm. f_equal. unfold rest. apply filter_ext_in. intros p Hp. rewrite (Hix p Hp). reflexivity. }
    rewrite Eps. unfold inc_check.
    assert (Ecs : traverse (fun p => unwrap (pt_comm p)) (rev (map y_d rest)) = Ok (map comm_of (rev rest))).
    { rewrite <- map_rev. assert (Hin : forall p, In p (rev rest) -> In p parties) by (intros p Hp; apply in_rev, Hrest in Hp; apply Hp).
      revert Hin. generalize (rev rest). intros l Hin. induction l as [|p l IH]; [reflexivity|]. cbn [map traverse].
      destruct (HF p (Hin p (or_introl eq_refl))) as [_ _ _ X _ _]. rewrite X. cbn [unwrap bind].
      rewrite IH by (intros q Hq; apply Hin; right; exact Hq). reflexivity. }
    rewrite Ecs. cbn [bind].
    assert (Hgrev : good_indices (map y_index (rev rest))).
    { rewrite map_rev. split; [apply NoDup_rev, Hgr|]. intros X. apply in_rev in X. apply Hgr, X. }
    assert (Hrev : forall x, interp0 (dealt_values (rev rest) x) = interp0 (dealt_values rest x)).
    { intros x. apply interp_perm. apply Permutation_sym, Permutation_rev. }
    destruct (traverse_unit (fun o => assert_true (match ivk_verify (to_public (snd o)) (map comm_of (rev rest)) with Ok _ => true | _ => false end)) (map out rest)) as (us & Eu).
    { intros o Ho. apply in_map_iff in Ho. destruct Ho as (q & <- & Hq). rewrite (Hout q Hq). cbn [snd]. rewrite verify_parties by exact Hgrev.
      rewrite Hrev, (proj2 (Feqb_spec _ _) eq_refl). reflexivity. }
    rewrite Eu. cbn [bind].
    destruct (traverse_unit (fun o => let* pk := match ivk_generate (sk_index (snd o)) (map comm_of (rev rest)) with Ok pk => Ok pk | _ => Panic end in
      assert_true (u32_eqb (vk_index pk) (vk_index (to_public (snd o))) && Geqb (vk_share pk) (vk_share (to_public (snd o))))) (map out rest)) as (us' & Eu').
    { intros o Ho. apply in_map_iff in Ho. destruct Ho as (q & <- & Hq). rewrite (Hout q Hq). cbn [snd sk_index]. rewrite generate_parties by exact Hgrev.
      cbn [bind]. unfold to_public. cbn [vk_index vk_share sk_index sk_key]. rewrite Hrev, u32_eqb_refl, Geqb_refl. reflexivity. }
    assert (Er : exists q0 rest0, rest = q0 :: rest0) by (clear -Hne0; destruct rest as [|q0 rest0]; [contradiction|eauto]).
    destruct Er as (q0 & rest0 & Er).
    assert (Hq0 : In q0 rest) by (rewrite Er; left; reflexivity).
    assert (En : nth_error (map out rest) 0 = Some (out q0)) by (rewrite Er; reflexivity).
    rewrite En. cbn [unwrap bind]. rewrite (Hout q0 Hq0). cbn [snd].
    assert (Hgrl : good_indices (map y_index (rev (removelast rest)))).
    { rewrite map_rev. assert (Hsub : forall i, In i (map y_index (removelast rest)) -> In i (map y_index rest)).
      { intros i Hi. apply in_map_iff in Hi. destruct Hi as (p & <- & Hp). apply in_map. rewrite (app_removelast_last q0 Hne0).
        apply in_or_app. left; exact Hp. }
      split; [|intros X; apply in_rev in X; apply Hgr, Hsub, X]. apply NoDup_rev.
      destruct Hgr as [N _]. rewrite (app_removelast_last q0 Hne0), map_app in N. cbn [map] in N. apply NoDup_remove_1 in N. rewrite app_nil_r in N. exact N. }
    rewrite skipn_map, rev_removelast, verify_parties by exact Hgrl.
    rewrite (interp_perm (rev (removelast rest)) (removelast rest)) by (apply Permutation_sym, Permutation_rev).
    destruct (F_dec (interp0 (dealt_values rest (of_u32 (y_index q0)))) (interp0 (dealt_values (removelast rest) (of_u32 (y_index q0))))) as [Ed|Ed].
    { left. split; [right; right; exists q0; split; [rewrite Er; reflexivity|exact Ed]|]. rewrite Ed, (proj2 (Feqb_spec _ _) eq_refl). reflexivity. }
    right. split.
    { intros [(w & W1 & W2 & W3)|[X|(q & Eq & X)]]; [apply Hno; exists w; auto|exact (Ec X)|].
      rewrite Er in Eq at 1. cbn in Eq. injection Eq as <-. exact (Ed X). }
    rewrite (proj2 (Feqb_neq _ _) Ed). cbn [assert_true bind]. rewrite Eu'. cbn [bind].
    assert (HP : honest_parties (MkParams (u32_of_N (N.of_nat (length rest))) (p_t params)) rest).
    { pose proof (u32_bound (p_n params)). constructor; cbn [p_n p_t].
      - rewrite u32_of_N_small by lia. reflexivity.
      - rewrite u32_of_N_small by lia. lia.
      - exact Hgr.
      - intros p Hp. apply Hrest in Hp. exact (HD p (proj1 Hp)). }
    assert (HH : holders (map y_index rest) (N.to_nat (u32v (p_t params))) s (map out rest)).
    { split; [|split].
      - rewrite map_map. apply map_ext_in. intros q Hq. rewrite (Hout q Hq). reflexivity.
      - rewrite map_map.
        replace (map (fun x => snd (out x)) rest) with (map (fun p => MkSK (y_index p) (interp0 (dealt_values rest (of_u32 (y_index p))))) rest).
        + exact (dealt_keys_sharing S L _ rest HP).
        + apply map_ext_in. intros q Hq. rewrite (Hout q Hq). reflexivity.
      - intros o Ho. apply in_map_iff in Ho. destruct Ho as (q & <- & Hq). rewrite (Hout q Hq). reflexivity. }
    destruct (C107_documented_signing S L m params (map y_index rest) s (map out rest) (seq 0 (length (map out rest))) message r1 HH) as (sig & r2 & E5 & E6).
    { rewrite map_length. lia. } { exact Ht1. } { apply seq_NoDup. }
    { intros k Hk. apply in_seq in Hk. rewrite map_length in *. lia. } { rewrite seq_length, map_length. lia. }
    rewrite E5. cbn [bind]. exists (map out rest), (out b), sig, r2, s. split; [reflexivity|]. split; [exact HH|]. split; [|exact E6].
    rewrite Eoutb. intros X. unfold outall in X. apply gen_inj in X. exact (Ec X).
  Qed.
End Second.

Section AllPass.
  Context {S : Suite} {L : SuiteLaws S}.
  (** when everybody passes, nobody is listed as misbehaving *)
  Lemma passing_round_one m params ps x my co r :
    N.of_nat (length ps) = u32v (p_n params) -> (1 <= u32v (p_t params) <= N.of_nat (length ps))%N ->
    (forall p, In p ps -> ok_bootstrap (p_t params) p /\ ~ crashing p) ->
    exists st es r', bootstrap m params x my co ps r = Ok (R1 st, MkPList ps None, r') /\ their_encrypted_secret_shares (R1 st) = Ok es.
  Proof.
    intros Hn Ht Hall.
    assert (Hok : forall p, In p ps -> okb true true (p_t params) p = true) by (intros p Hp; apply okb_bootstrap, Hall, Hp).
    assert (Hc : true && existsb crashb ps = false) by (apply existsb_crash_false; intros p Hp; apply Hall, Hp).
    destruct (ns_success m params x my (Some co) ps true true r) as (st & r' & E & _ & _ & _ & H3); eauto; try lia.
    { rewrite filter_all by exact Hok. lia. }
    rewrite filter_all in E by exact Hok. rewrite (filter_none (fun p => negb (okb true true (p_t params) p))) in E
      by (intros p Hp; rewrite (Hok p Hp); reflexivity).
    destruct H3 as (cs & es & _ & E1 & _). exists st, es, r'. split; [exact E|]. unfold their_encrypted_secret_shares. cbn. rewrite E1. reflexivity.
  Qed.
End AllPass.

(** The participants are l1 ++ bad :: l2; bad publishes a doubled key, bob garbles the shares of the victims. If bad's
    proof happens to verify for the doubled key the test stops at its assertion. Otherwise everybody accepts all others;
    then either one of three coincidences happens and the test stops at an assertion, or it passes: those who remain hold
    keys of which any t recover one secret, bob ends with another group key, and the signature verifies. *)
Theorem C124_incomplete_set_signs :
  forall (S : Suite) (L : SuiteLaws S) (m : build) (n t : u32) (l1 : list u32) (bad : u32) (l2 : list u32) (bob : u32)
         (victims : list u32) (message : list byte) (r : Rng),
  good_indices (l1 ++ bad :: l2) -> N.of_nat (length (l1 ++ bad :: l2)) = u32v n ->
  (1 <= u32v t)%N -> (u32v t + 2 <= u32v n)%N ->
  In bob (l1 ++ l2) -> (u32v bob < u32v n)%N ->
  victims <> [] -> ~ In bob victims -> incl victims (l1 ++ l2) ->
  let params := MkParams n t in
  let run := test_incomplete m n t l1 bad l2 bob victims message r in
  exists p1 d co x p2 r1, doc_dealers params l1 bad l2 r = Ok (map triple p1, (d, co, x), map triple p2, r1) /\
    let ps := map y_d p1 ++ inc_double d :: map y_d p2 in
    let verdict := nizk_verify (pt_dh_proof d) bad (pt_dh_pk d + pt_dh_pk d)%G in
    (verdict = Ok tt /\ run = Panic \/
     verdict <> Ok tt /\ exists r2 st lists r3 r4 b,
       each (inc_round_one m params ps bad) (map triple p1) r1 = Ok (map (fun p => (y_st p, y_es p)) p1, r2) /\
       bootstrap m params x bad co ps r2 = Ok (st, lists, r3) /\
       each (inc_round_one m params ps bad) (map triple p2) r3 = Ok (map (fun p => (y_st p, y_es p)) p2, r4) /\
       map y_index (p1 ++ p2) = l1 ++ l2 /\ In b (p1 ++ p2) /\ y_index b = bob /\
       let rest := filter (fun p => negb (u32_eqb (y_index p) bob)) (p1 ++ p2) in
       (accident (p1 ++ p2) rest b victims /\ run = Panic \/
        ~ accident (p1 ++ p2) rest b victims /\ exists keep ob sig r' s, run = Ok (keep, ob, sig, r') /\
          holders (map y_index rest) (N.to_nat (u32v t)) s keep /\ fst ob <> (gen * s)%G /\
          verify_signature (gen * s)%G sig (h4 message) = Ok tt)).
Proof.
  intros S L m n t l1 bad l2 bob victims message r [Hnd H0] Hn Ht1 Htn Hbob Hbn Hv0 Hvb Hvi params run.
  assert (H0a : ~ In u32_zero l1) by (intros X; apply H0, in_or_app; left; exact X).
  assert (H0b : bad <> u32_zero) by (intros X; apply H0, in_or_app; right; left; exact X).
  assert (H0c : ~ In u32_zero l2) by (intros X; apply H0, in_or_app; right; right; exact X).
  destruct (deal_all params l1 r H0a Ht1) as (q1 & ra & E1 & I1 & D1).
  destruct (C12_new_dealer_well_formed S L params bad ra H0b Ht1) as (d & co & x & rb & E2 & _).
  destruct (deal_all params l2 rb H0c Ht1) as (q2 & r1 & E3 & I2 & D2).
  pose proof (new_dealer_inv params bad ra d co x rb H0b Ht1 E2) as Fb.
  assert (ED : doc_dealers params l1 bad l2 r = Ok (map triple q1, (d, co, x), map triple q2, r1)).
  { unfold doc_dealers. rewrite E1. cbn [bind]. rewrite E2. cbn [bind]. rewrite E3. reflexivity. }
  destruct (fresh_doubled params bad d co x Fb Ht1) as (B1 & B2 & B3).
  assert (Eb : pt_index d = bad) by apply Fb.
  assert (Epart : forall l, map (fun d : Participant * list F * F => fst (fst d)) (map triple l) = map y_d l) by (intros l; rewrite map_map; reflexivity).
  (* facts for any parties with the same dealers *)
  assert (HF : forall p1 p2, map y_index p1 = l1 -> map y_index p2 = l2 -> (forall p, In p (p1 ++ p2) -> dealt_by params p) ->
    (forall q, In q (p1 ++ p2) -> fresh_dealer params (y_index q) (y_d q) (y_co q) (y_x q)) /\
    NoDup (map pt_index (map y_d p1 ++ inc_double d :: map y_d p2)) /\
    N.of_nat (Datatypes.S (length (p1 ++ p2))) = u32v n).
  { intros p1 p2 J1 J2 HD.
    assert (HFr : forall q, In q (p1 ++ p2) -> fresh_dealer params (y_index q) (y_d q) (y_co q) (y_x q)).
    { intros q Hq. destruct (HD q Hq) as (rc & rd & E). eapply new_dealer_inv; [|exact Ht1|exact E]. intros Z.
      assert (X : In u32_zero (map y_index (p1 ++ p2))) by (rewrite <- Z; apply in_map, Hq). rewrite map_app, J1, J2 in X. apply in_app_or in X. tauto. }
    split; [exact HFr|]. split.
    - rewrite map_app. cbn [map]. rewrite B1.
      replace (map pt_index (map y_d p1)) with l1; [replace (map pt_index (map y_d p2)) with l2; [exact Hnd|]|].
      + rewrite map_map, <- J2. symmetry. apply map_ext_in. intros q Hq. apply (HFr q). apply in_or_app. right; exact Hq.
      + rewrite map_map, <- J1. symmetry. apply map_ext_in. intros q Hq. apply (HFr q). apply in_or_app. left; exact Hq.
    - rewrite <- Hn, !app_length. cbn [length]. rewrite <- J1, <- J2, !map_length. f_equal. lia. }
  assert (HD0 : forall p, In p (q1 ++ q2) -> dealt_by params p) by (intros p Hp; apply in_app_or in Hp; destruct Hp; auto).
  destruct (HF q1 q2 I1 I2 HD0) as (F1 & N1 & C1).
  set (ps := map y_d q1 ++ inc_double d :: map y_d q2) in *.
  assert (Esk : exists us, traverse inc_sk_proof ps = Ok us).
  { apply traverse_unit. intros p Hp. unfold ps in Hp. apply in_app_or in Hp.
    assert (K : forall q, In q (q1 ++ q2) -> inc_sk_proof (y_d q) = Ok tt) by (intros q Hq; eapply fresh_sk_proof, F1, Hq).
    destruct Hp as [Hp|[<-|Hp]].
    - apply in_map_iff in Hp. destruct Hp as (q & <- & Hq). apply K, in_or_app. left; exact Hq.
    - eapply fresh_sk_proof, Fb.
    - apply in_map_iff in Hp. destruct Hp as (q & <- & Hq). apply K, in_or_app. right; exact Hq. }
  destruct Esk as (us & Esk).
  assert (Erun : run = let* (ss1, r2) := each (inc_round_one m params ps bad) (map triple q1) r1 in
    let* (_, _, r3) := bootstrap m params x bad co ps r2 in
    let* (ss2, r4) := each (inc_round_one m params ps bad) (map triple q2) r3 in
    inc_second m params (map y_d (q1 ++ q2)) (ss1 ++ ss2) bob victims message r4).
  { unfold run, test_incomplete. rewrite params_ok by (fold params; lia). cbn [bind]. fold params. rewrite ED. cbn [bind fst snd].
    rewrite !Epart. fold ps. rewrite Esk. cbn [bind]. rewrite Eb, <- map_app, Epart. reflexivity. }
  assert (Hlps : length ps = Datatypes.S (length (q1 ++ q2))).
  { unfold ps. rewrite !app_length. cbn [length]. rewrite !map_length. lia. }
  assert (DV : nizk_verify (pt_dh_proof d) bad (pt_dh_pk d + pt_dh_pk d)%G = Ok tt \/ nizk_verify (pt_dh_proof d) bad (pt_dh_pk d + pt_dh_pk d)%G <> Ok tt).
  { destruct (nizk_verify (pt_dh_proof d) bad (pt_dh_pk d + pt_dh_pk d)%G) as [[]|e|]; [left; reflexivity|right; discriminate|right; discriminate]. }
  destruct DV as [EV|EV].
  - exists q1, d, co, x, q2, r1. split; [exact ED|]. cbv zeta. fold ps. left. split; [exact EV|].
    assert (Hall : forall p, In p ps -> ok_bootstrap (p_t params) p /\ ~ crashing p).
    { intros p Hp. assert (Hp' : p = inc_double d \/ exists q', In q' (q1 ++ q2) /\ p = y_d q').
      { unfold ps in Hp. apply in_app_or in Hp. destruct Hp as [Hp|[Hp|Hp]]; [right|left; symmetry; exact Hp|right];
          apply in_map_iff in Hp; destruct Hp as (q' & <- & Hq'); exists q'; (split; [apply in_or_app; tauto|reflexivity]). }
      destruct Hp' as [->|(q' & Hq' & ->)]; [split; [apply B3, EV|exact B2]|]. pose proof (F1 q' Hq') as Fq.
      split; [eapply fresh_ok; [exact Ht1|exact Fq]|eapply fresh_not_crashing, Fq]. }
    assert (Hbad : forall dd r0, inc_round_one m params ps bad dd r0 = Panic).
    { intros [[p0 c0] x0] r0. unfold inc_round_one.
      destruct (passing_round_one m params ps x0 (pt_index p0) c0 r0) as (st & es & r' & A1 & A2);
        [rewrite Hlps; exact C1|cbn [p_t params]; rewrite Hlps; lia|exact Hall|].
      rewrite A1. cbn [bind]. rewrite A2. reflexivity. }
    assert (Heach : forall l r0, l <> [] -> each (inc_round_one m params ps bad) (map triple l) r0 = Panic).
    { intros [|a l] r0 Hl; [contradiction Hl; reflexivity|]. cbn [map each]. rewrite Hbad. reflexivity. }
    rewrite Erun. destruct q1 as [|a q1'] eqn:Eq1.
    + cbn [map each bind].
      destruct (passing_round_one m params ps x bad co r1) as (st & es & r' & A1 & A2);
        [rewrite Hlps; exact C1|cbn [p_t params]; rewrite Hlps; lia|exact Hall|].
      rewrite A1. cbn [bind]. rewrite Heach; [reflexivity|]. intros ->. rewrite <- I1, <- I2 in Hbob. destruct Hbob.
    + rewrite Heach by discriminate. reflexivity.
  - assert (Hnb : ~ ok_bootstrap (p_t params) (inc_double d)) by (intros X; apply EV, B3, X).
    assert (Htp : forall l, N.of_nat (Datatypes.S (length l)) = u32v n -> (1 <= u32v (p_t params) <= N.of_nat (@length Party l))%N)
      by (cbn [p_t params]; intros; lia).
    set (P := fun (dd : Participant * list F * F) (s : RoundOne * bmap EncShare) => exists r0 r',
      bootstrap m params (snd dd) (pt_index (fst (fst dd))) (snd (fst dd)) ps r0 = Ok (fst s, MkPList (map y_d (q1 ++ q2)) (Some [bad]), r') /\
      their_encrypted_secret_shares (fst s) = Ok (snd s)).
    assert (Hround : forall l r0, exists ss r', each (inc_round_one m params ps bad) (map triple l) r0 = Ok (ss, r') /\
        Forall2 (fun p s => P (triple p) s) l ss).
    { intros l r0. apply each_ok with (Q := fun p dd => dd = triple p).
      - apply forall2_map_r. clear. induction l; constructor; auto.
      - intros p dd r2 ->. unfold inc_round_one, triple.
        destruct (flagged_round_one m params q1 q2 (inc_double d) (y_x p) (pt_index (y_d p)) (y_co p) r2 F1 N1 C1 (Htp _ C1) Hnb B2)
          as (st & es & comms & r' & A1 & A2 & _).
        fold ps in A1. rewrite B1 in A1. rewrite A1. cbn [bind pl_mis]. rewrite A2. cbn [bind].
        rewrite list_eqb_refl by apply u32_eqb_refl. cbn [assert_true bind]. exists (R1 st, es), r'. split; [reflexivity|].
        exists r2, r'. cbn [fst snd]. auto. }
    destruct (Hround q1 r1) as (ss1 & r2 & G1 & X1). destruct (rebuild P q1 ss1 X1) as (p1 & T1 & Y1 & W1 & Z1).
    destruct (flagged_round_one m params q1 q2 (inc_double d) x bad co r2 F1 N1 C1 (Htp _ C1) Hnb B2)
      as (stb & _ & _ & r3 & A1 & _). fold ps in A1.
    destruct (Hround q2 r3) as (ss2 & r4 & G2 & X2). destruct (rebuild P q2 ss2 X2) as (p2 & T2 & Y2 & W2 & Z2).
    assert (Edd : forall l l', map triple l = map triple l' -> map y_d l = map y_d l') by (intros l l' E; rewrite <- !Epart, E; reflexivity).
    assert (HD : forall p, In p (p1 ++ p2) -> dealt_by params p).
    { intros p Hp. assert (X : exists p0, In p0 (q1 ++ q2) /\ triple p = triple p0 /\ y_index p = y_index p0).
      { apply in_app_or in Hp. destruct Hp as [Hp|Hp]; [destruct (Z1 p Hp) as ((p0 & K1 & K2) & _)|destruct (Z2 p Hp) as ((p0 & K1 & K2) & _)];
          exists p0; (split; [apply in_or_app; tauto|exact K2]). }
      destruct X as (p0 & K1 & K2 & K3). destruct (HD0 p0 K1) as (rc & rd & E). exists rc, rd. unfold triple in K2. injection K2 as K4 K5 K6.
      rewrite K3, K4, K5, K6. exact E. }
    destruct (HF p1 p2 (eq_trans Y1 I1) (eq_trans Y2 I2) HD) as (F2 & N2 & C2).
    set (parties := p1 ++ p2) in *.
    assert (Eps : ps = map y_d p1 ++ inc_double d :: map y_d p2) by (unfold ps; rewrite (Edd _ _ T1), (Edd _ _ T2); reflexivity).
    assert (Eacc : map y_d (q1 ++ q2) = map y_d parties) by (unfold parties; rewrite !map_app, (Edd _ _ T1), (Edd _ _ T2); reflexivity).
    assert (Hi : map y_index parties = l1 ++ l2) by (unfold parties; rewrite map_app, Y1, Y2, I1, I2; reflexivity).
    assert (HP : forall p, In p parties -> P (triple p) (y_st p, y_es p)).
    { intros p Hp. apply in_app_or in Hp. destruct Hp as [Hp|Hp]; [apply Z1|apply Z2]; exact Hp. }
    assert (HS : forall p, In p parties -> exists st comms, sees params parties p st comms /\ shares_for_all (y_index p) (y_x p) (y_co p) ps (y_es p) /\
      exists r0 r', bootstrap m params (y_x p) (y_index p) (y_co p) ps r0 = Ok (R1 st, MkPList (map y_d parties) (Some [bad]), r')).
    { intros p Hp. destruct (HP p Hp) as (r0 & r' & J1 & J2). unfold triple in J1. cbn [fst snd] in J1, J2.
      replace (pt_index (y_d p)) with (y_index p) in J1 by (symmetry; apply (F2 p Hp)).
      destruct (flagged_round_one m params p1 p2 (inc_double d) (y_x p) (y_index p) (y_co p) r0 F2 N2 C2 (Htp _ C2) Hnb B2)
        as (st & es & comms & r'' & K1 & K2 & K3 & K4 & K5 & K6 & K7 & K8).
      rewrite <- Eps in K1, K3. rewrite B1 in K1. rewrite K1, Eacc in J1. injection J1 as J1 J3. rewrite <- J1, K2 in J2. injection J2 as J2.
      exists st, comms. split; [|split; [rewrite <- J2; exact K3|exists r0, r''; exact K1]].
      split; [symmetry; exact J1|]. fold parties in K4, K7, K8. auto. }
    assert (Hgood : good_indices (map y_index parties)).
    { rewrite Hi. split; [apply NoDup_remove_1 in Hnd; exact Hnd|]. intros X. apply in_app_or in X. tauto. }
    assert (Hb : exists b, In b parties /\ y_index b = bob).
    { rewrite <- Hi in Hbob. apply in_map_iff in Hbob. destruct Hbob as (b & K1 & K2). exists b. auto. }
    destruct Hb as (b & Hb & Ib).
    destruct (second_ok m params parties b bob victims message r4) as [HA|HA].
    + exact Hgood.
    + exact HD.
    + exact Ht1.
    + cbn [p_t params]. lia.
    + cbn [p_n params]. lia.
    + destruct (HS b Hb) as (st0 & comms0 & V0 & _ & ra0 & rb0 & E0). exists (ds_params st0), (ds_dhs st0), comms0.
      intros q Hq. destruct (HS q Hq) as (st & comms & V & _ & ra1 & rb1 & E).
      destruct (C62_same_list_same_view S L m m params (y_x b) (y_x q) (y_index b) (y_index q) (y_co b) (y_co q) ps ps ra0 ra1 rb0 rb1 st0 st _ _
        N1 (Permutation_refl _) (or_introl (conj E0 E))) as (K1 & K2 & K3 & _).
      exists st. assert (comms = comms0) as <-. { destruct V as (_ & _ & V & _). destruct V0 as (_ & _ & V0 & _). congruence. }
      split; [exact V|]. split; congruence.
    + intros p q Hp Hq. destruct (HS p Hp) as (st & comms & _ & [_ K] & _).
      destruct (F2 q Hq) as [Hqi Hpk _ _ _ _].
      destruct (K (y_index q) (y_d q)) as (e & He & K1 & K2 & K3).
      { apply last_with_distinct; [exact N1|]. split; [|exact Hqi]. rewrite Eps. unfold parties in Hq. apply in_app_or in Hq. apply in_or_app.
        destruct Hq as [Hq|Hq]; [left|right; right]; apply in_map, Hq. }
      exists e. split; [exact He|]. rewrite Hqi in K2, K3. split; [exact K1|]. split; [exact K2|]. rewrite <- K3, Hpk. do 2 f_equal. apply dh_shared.
    + exact Hb.
    + exact Ib.
    + lia.
    + exact Hv0.
    + exact Hvb.
    + rewrite Hi. exact Hvi.
    + exists p1, d, co, x, p2, r1. rewrite T1, T2. split; [exact ED|]. cbv zeta. rewrite <- Eps. right. split; [exact EV|].
      exists r2, (R1 stb), (MkPList (map y_d (q1 ++ q2)) (Some [pt_index (inc_double d)])), r3, r4, b.
      rewrite W1, W2. split; [exact G1|]. split; [exact A1|]. split; [exact G2|]. split; [exact Hi|]. split; [exact Hb|]. split; [exact Ib|].
      left. fold parties. destruct HA as [HA1 HA2]. split; [exact HA1|]. rewrite Erun, G1. cbn [bind]. rewrite A1. cbn [bind]. rewrite G2. cbn [bind].
      rewrite Eacc, <- W1, <- W2, <- map_app. exact HA2.
    + exists p1, d, co, x, p2, r1. rewrite T1, T2. split; [exact ED|]. cbv zeta. rewrite <- Eps. right. split; [exact EV|].
      exists r2, (R1 stb), (MkPList (map y_d (q1 ++ q2)) (Some [pt_index (inc_double d)])), r3, r4, b.
      rewrite W1, W2. split; [exact G1|]. split; [exact A1|]. split; [exact G2|]. split; [exact Hi|]. split; [exact Hb|]. split; [exact Ib|].
      right. fold parties. destruct HA as [HA1 (keep & ob & sig & r' & s & HA2 & HA3)]. split; [exact HA1|].
      exists keep, ob, sig, r', s. split; [|exact HA3]. rewrite Erun, G1. cbn [bind]. rewrite A1. cbn [bind]. rewrite G2. cbn [bind].
      rewrite Eacc, <- W1, <- W2, <- map_app. exact HA2.
Qed.
Print Assumptions C124_incomplete_set_signs.

(** Examples (tests of the model on the toy suite): the five participants of the test, number one flagged, number four
    convicted by two and five; and the same with six participants in another order. *)
Definition inc_run (n t : u32) (l1 : list u32) (bad : u32) (l2 : list u32) (bob : u32) (victims : list u32)
  : result (list (G * SigningKey) * (G * SigningKey) * ThresholdSig * Rng) :=
  test_incomplete (S := Toy) Debug n t l1 bad l2 bob victims [x2a; x07] 77%N.
Definition inc_seen (t : nat) (x : result (list (G * SigningKey) * (G * SigningKey) * ThresholdSig * Rng)) : result (list u32 * bool * bool * bool * u32) :=
  let* y := x in
  let '(keep, ob, _, _) := y in
  let keys := map snd keep in
  Ok (map sk_index keys, match keep with o :: _ => Geqb (fst o) (gen * interp0 (key_points (firstn t keys)))%G | [] => false end,
      match keep with o :: _ => Geqb (fst o) Gzero | [] => true end,
      match keep with o :: _ => Geqb (fst o) (fst ob) | [] => true end, sk_index (snd ob)).
Example C124_ex_hypotheses :
  good_indices ([] ++ u 1 :: [u 2; u 3; u 4; u 5]) /\ N.of_nat (length ([] ++ u 1 :: [u 2; u 3; u 4; u 5])) = u32v (u 5) /\
  (1 <= u32v (u 3))%N /\ (u32v (u 3) + 2 <= u32v (u 5))%N /\ In (u 4) ([] ++ [u 2; u 3; u 4; u 5]) /\ (u32v (u 4) < u32v (u 5))%N /\
  [u 2; u 5] <> [] /\ ~ In (u 4) [u 2; u 5] /\ incl [u 2; u 5] ([] ++ [u 2; u 3; u 4; u 5]).
Proof.
  assert (E : forall a b : N, (a =? b)%N = false -> (a < 2 ^ 32)%N -> (b < 2 ^ 32)%N -> u a <> u b).
  { intros a b H Ha Hb X. apply (f_equal u32v) in X. unfold u in X. rewrite !u32_of_N_small in X by (cbn in *; lia). subst. rewrite N.eqb_refl in H. discriminate. }
  repeat match goal with |- _ /\ _ => split end; try (cbn; lia); try good; try reflexivity; try discriminate; try (cbn; tauto).
  - intros [X|[X|[]]]; revert X; apply E; reflexivity.
  - intros x [<-|[<-|[]]]; cbn; tauto.
Qed.
Example C124_ex_run : inc_seen 3 (inc_run (u 5) (u 3) [] (u 1) [u 2; u 3; u 4; u 5] (u 4) [u 2; u 5]) = Ok ([u 2; u 3; u 5], true, false, false, u 4).
Proof. vms. Qed.
Example C124_ex_more : inc_seen 2 (inc_run (u 6) (u 2) [u 9; u 3] (u 7) [u 1; u 20; u 4] (u 3) [u 20]) = Ok ([u 9; u 1; u 20; u 4], true, false, false, u 3).
Proof. vms. Qed.
(** the bound on the complained-of index is needed: number five of five, once another has been flagged, can no longer be
    convicted (C26) and the test stops at an assertion *)
Theorem C124_incomplete_set_unbounded_refuted : inc_run (u 5) (u 3) [] (u 1) [u 2; u 3; u 4; u 5] (u 5) [u 2; u 3] = Panic.
Proof. vms. Qed.
Print Assumptions C124_incomplete_set_unbounded_refuted.
