(** C131: the repository's test of the verifying keys after a dealer was removed, for any number of participants, any nonce and every generator. *)
From Coq Require Import String Strings.Byte Arith NArith ZArith Bool List Lia Permutation Sorted Field.
From Verif Require Import Base BaseLemmas Suite Algebra Spec Types Toy ModelDkg ModelSign ModelDoc ModelTests SpecDkg SpecRobust SpecSign
  LemmasShare LemmasRound1 LemmasRound2 LemmasFinish LemmasBlame PropsShare PropsRound1 PropsRound2 PropsFinish PropsBlame PropsReshare
  PropsAgg PropsAttack PropsReflect PropsRobust PropsView PropsDoc PropsDocBad PropsAlter PropsTestComplaint Demo DemoDkg.
Import ListNotations.

(** the value at x of the polynomial that the given dealers share together *)
Definition joint {S : Suite} (dealers : list Party) (x : F) : F := interp0 (dealt_values dealers x).
(** everybody but the one with the given index *)
Definition all_but {S : Suite} (i : u32) (parties : list Party) : list Party := filter (fun p => negb (u32_eqb (y_index p) i)) parties.
(** what the holder of index i has when the given dealers count *)
Definition held {S : Suite} (dealers : list Party) (i : u32) : G * SigningKey :=
  ((gen * joint dealers F0)%G, MkSK i (joint dealers (of_u32 i))).

Section TestKeys.
  Context {S : Suite} {L : SuiteLaws S}.
  Add Field F_fld : F_field.

  Lemma each_inv {A B} (f : A -> Rng -> result (B * Rng)) l : forall r ys r', each f l r = Ok (ys, r') ->
    Forall2 (fun x y => exists r0 r1, f x r0 = Ok (y, r1)) l ys.
  Proof.
    induction l as [|x l IH]; intros r ys r' E; cbn [each] in E; [injection E as <- _; constructor|].
    destruct (f x r) as [[y r1]| |] eqn:Ex; try discriminate E. cbn [bind] in E.
    destruct (each f l r1) as [[ys' r2]| |] eqn:El; try discriminate E. cbn [bind] in E. injection E as <- _.
    constructor; [eauto|]. eapply IH, El.
  Qed.
  Lemma forall2_map_l {A B C} (R : C -> B -> Prop) (f : A -> C) l l' : Forall2 R (map f l) l' -> Forall2 (fun a b => R (f a) b) l l'.
  Proof. revert l'. induction l as [|a l IH]; intros l' H; inversion H; subst; constructor; auto. Qed.
  Lemma traverse_named {A B} (f : A -> result B) (g : u32 -> B) keep ids : forall xs, length xs = length ids ->
    traverse f xs = Ok (map g ids) -> traverse f (map snd (filter (fun x => keep (fst x)) (combine ids xs))) = Ok (map g (filter keep ids)).
  Proof.
    induction ids as [|i ids IH]; intros [|x xs] Hl E; try discriminate Hl; [reflexivity|]. cbn [traverse map] in E.
    destruct (f x) as [y| |] eqn:Ex; try discriminate E. cbn [bind] in E. destruct (traverse f xs) as [ys| |] eqn:Exs; try discriminate E.
    cbn [bind] in E. injection E as -> ->. cbn [combine filter fst]. injection Hl as Hl. destruct (keep i); cbn [map snd traverse].
    - rewrite Ex. cbn [bind]. rewrite (IH xs Hl Exs). reflexivity.
    - apply IH; assumption.
  Qed.
  Lemma find_combine {A} (P : u32 -> A -> Prop) i ids : forall xs, Forall2 P ids xs -> In i ids ->
    exists x, find (fun x => u32_eqb (fst x) i) (combine ids xs) = Some (i, x) /\ P i x.
  Proof.
    induction ids as [|j ids IH]; intros xs H Hi; [destruct Hi|]. inversion H as [|? y ? ys Hy Hys]; subst. cbn [combine find fst].
    destruct (u32_eqb j i) eqn:E; [apply u32_eqb_spec in E; subst j; eauto|].
    destruct Hi as [->|Hi]; [rewrite u32_eqb_refl in E; discriminate|]. apply IH; assumption.
  Qed.

  (** verifying against the commitments of some of the dealers *)
  Lemma generated (ps : list Party) i : good_indices (map y_index ps) ->
    ivk_generate i (map (fun p => MkVss (y_index p) (committed (y_co p))) ps) = Ok (MkVK i (gen * joint ps (of_u32 i))%G).
  Proof.
    intros Hg. set (cs := map _ _). destruct (C35_verify_equals_regeneration S L (MkVK i Gzero) cs) as (_ & _ & _ & E & _). cbn [vk_index] in E.
    rewrite E by (unfold cs; rewrite map_map; exact Hg). do 2 f_equal. unfold joint, by_index, cs, dealt_point, dealt_values. rewrite <- ginterp0_gen.
    rewrite !map_map. cbn [fst snd vss_index vss_points]. f_equal. apply map_ext. intros p. rewrite gpoly_committed. reflexivity.
  Qed.
  Lemma verified (ps : list Party) i k : good_indices (map y_index ps) ->
    ivk_verify (to_public (MkSK i k)) (map (fun p => MkVss (y_index p) (committed (y_co p))) ps) =
    if Feqb k (joint ps (of_u32 i)) then Ok tt else Err ShareVerificationError.
  Proof.
    intros Hg. set (cs := map _ _). destruct (C35_verify_equals_regeneration S L (to_public (MkSK i k)) cs) as (E1 & E2 & _).
    unfold to_public in *. cbn [vk_index sk_index sk_key] in *. unfold cs in E1, E2. rewrite (generated ps i Hg) in E1, E2. fold cs in E1, E2.
    destruct (Feqb k (joint ps (of_u32 i))) eqn:E.
    - apply Feqb_spec in E. subst k. apply E1. reflexivity.
    - apply E2. eexists. split; [reflexivity|]. intros X. injection X as X. apply gen_inj in X.
      assert (Feqb k (joint ps (of_u32 i)) = true) by (apply Feqb_spec; congruence). congruence.
  Qed.
  Lemma joint_perm ps ps' x : Permutation ps ps' -> joint ps x = joint ps' x.
  Proof. intros H. apply interp0_perm, Permutation_map, H. Qed.

  Lemma last_checks (parties rest : list Party) bob victim ids :
    good_indices (map y_index rest) -> In victim ids ->
    let cms := map (fun p => MkVss (y_index p) (committed (y_co p))) (rev rest) in
    let no := joint parties F0 = joint rest F0 \/ joint parties (of_u32 bob) = joint rest (of_u32 bob) \/
              joint (tl (rev rest)) (of_u32 victim) = joint rest (of_u32 victim) in
    let run := test_last_checks (held parties bob) (map (held rest) ids) victim cms in
    (no /\ run = Panic) \/ (~ no /\ run = Ok tt).
  Proof.
    intros Hg Hv cms no run.
    assert (Hr : good_indices (map y_index (rev rest))).
    { rewrite map_rev. destruct Hg as [A B]. split; [apply NoDup_rev, A|]. rewrite <- in_rev. exact B. }
    assert (Ht : good_indices (map y_index (tl (rev rest)))).
    { destruct Hr as [A B]. destruct (rev rest) as [|p l]; cbn [tl map] in *; [split; [constructor|intros []]|].
      inversion A; subst. split; [assumption|]. intros X. apply B. right; exact X. }
    assert (Hj : forall x, joint (rev rest) x = joint rest x) by (intros x; apply joint_perm, Permutation_sym, Permutation_rev).
    assert (Ecm : tl cms = map (fun p => MkVss (y_index p) (committed (y_co p))) (tl (rev rest))) by (unfold cms; destruct (rev rest); reflexivity).
    assert (Ehd : hd Gzero (map fst (map (held rest) ids)) = (gen * joint rest F0)%G).
    { rewrite map_map. apply hd_map_const; [intros E; rewrite E in Hv; destruct Hv|reflexivity]. }
    assert (Ver : forall i k, ivk_verify (to_public (MkSK i k)) cms = if Feqb k (joint rest (of_u32 i)) then Ok tt else Err ShareVerificationError)
      by (intros i k; unfold cms; rewrite verified, Hj by exact Hr; reflexivity).
    assert (Vtl : forall i k, ivk_verify (to_public (MkSK i k)) (tl cms) = if Feqb k (joint (tl (rev rest)) (of_u32 i)) then Ok tt else Err ShareVerificationError)
      by (intros i k; rewrite Ecm; apply verified, Ht).
    assert (Gen : forall i, ivk_generate i cms = Ok (MkVK i (gen * joint rest (of_u32 i))%G))
      by (intros i; unfold cms; rewrite generated, Hj by exact Hr; reflexivity).
    clearbody cms. clear Ecm Hj Hr Ht.
    unfold run, test_last_checks. rewrite Ehd.
    destruct (F_dec (joint parties F0) (joint rest F0)) as [EA|EA].
    { left. split; [left; exact EA|]. cbn [held fst]. rewrite EA, Geqb_refl. reflexivity. }
    replace (Geqb (fst (held parties bob)) (gen * joint rest F0)%G) with false.
    2:{ symmetry. destruct (Geqb _ _) eqn:E; [|reflexivity]. apply Geqb_spec, gen_inj in E. contradiction. }
    cbn [negb assert_true bind].
    rewrite same_key_ok by (intros o Ho; apply in_map_iff in Ho; destruct Ho as (i & <- & _); reflexivity). cbn [bind].
    change (snd (held parties bob)) with (MkSK bob (joint parties (of_u32 bob))). rewrite Ver.
    destruct (Feqb (joint parties (of_u32 bob)) (joint rest (of_u32 bob))) eqn:EB; cbn [test_is_err bind].
    { left. split; [|reflexivity]. right. left. apply Feqb_spec, EB. }
    rewrite (traverse_map_ok _ (held rest) (fun _ => tt)).
    2:{ intros i _. cbn [held snd]. rewrite Ver.
        rewrite (proj2 (Feqb_spec _ _) eq_refl). reflexivity. }
    cbn [bind].
    assert (Ef : find (fun o => u32_eqb (sk_index (snd o)) victim) (map (held rest) ids) = Some (held rest victim)).
    { clear -Hv. induction ids as [|i ids IH]; [destruct Hv|]. cbn [map find held snd sk_index]. destruct (u32_eqb i victim) eqn:E.
      - apply u32_eqb_spec in E. subst i. reflexivity.
      - destruct Hv as [->|Hv]; [rewrite u32_eqb_refl in E; discriminate|]. apply IH, Hv. }
    rewrite Ef. cbn [unwrap bind]. change (snd (held rest victim)) with (MkSK victim (joint rest (of_u32 victim))). rewrite Vtl.
    destruct (Feqb (joint rest (of_u32 victim)) (joint (tl (rev rest)) (of_u32 victim))) eqn:EC; cbn [test_is_err bind].
    { left. split; [|reflexivity]. right. right. symmetry. apply Feqb_spec, EC. }
    right. split.
    { intros [X|[X|X]]; [exact (EA X)| |]; [apply Feqb_spec in X|symmetry in X; apply Feqb_spec in X]; congruence. }
    rewrite (traverse_map_ok _ (held rest) (fun i => MkVK i (gen * joint rest (of_u32 i))%G)).
    2:{ intros i _. apply Gen. }
    cbn [bind]. rewrite combine_maps. rewrite (traverse_map_ok _ _ (fun _ => tt)); [reflexivity|].
    intros i _. cbn [fst snd held to_public vk_index vk_share sk_index sk_key]. rewrite u32_eqb_refl, Geqb_refl. reflexivity.
  Qed.
  Lemma plus_swap a b : (a + b = b + a)%F.
  Proof. ring. Qed.
  Lemma times_swap a b : (a * b = b * a)%F.
  Proof. ring. Qed.
End TestKeys.

(** the repository's test: when the new nonce changes what the share opens to, everybody but the removed dealer ends with a key of
    the polynomial the others share, the removed dealer with one of the polynomial of all, and the test passes exactly when
    none of three values coincide by chance. When the share still opens to the same, there is no complaint and the test stops. *)
Theorem C131_keys_after_a_removal :
  forall (S : Suite) (L : SuiteLaws S) (m : build) (n t : u32) (ids : list u32) (bob victim : u32) (nonce : Nonce) (r : Rng),
  good_indices ids -> N.of_nat (length ids) = u32v n -> (1 <= u32v t)%N -> (u32v t < u32v n)%N -> (u32v bob <= u32v n)%N ->
  In bob ids -> In victim ids -> victim <> bob ->
  exists parties r1 r2 b w e,
    each (new_dealer (MkParams n t)) ids r = Ok (map triple parties, r1) /\
    each (doc_round_one m (MkParams n t) (map y_d parties)) (map triple parties) r1 = Ok (map (fun p => (y_st p, y_es p)) parties, r2) /\
    In b parties /\ y_index b = bob /\ In w parties /\ y_index w = victim /\ bget victim (y_es b) = Some e /\
    let opened := decrypt_share (MkEnc bob victim nonce (es_ct e)) (enc_point ((gen * y_x b) * y_x w)%G) in
    let right := Ok (MkShare bob victim (poly_value (y_co b) (of_u32 victim))) in
    let run := test_keys m n t ids bob victim nonce r in
    let rest := all_but bob parties in
    let holds := filter (fun i => negb (u32_eqb i bob)) (filter (fun i => negb (u32_eqb i victim)) ids ++ [victim]) in
    let chance := joint parties F0 = joint rest F0 \/ joint parties (of_u32 bob) = joint rest (of_u32 bob) \/
                  joint (tl (rev rest)) (of_u32 victim) = joint rest (of_u32 victim) in
    (opened = right /\ run = Panic) \/
    (opened <> right /\ chance /\ run = Panic) \/
    (opened <> right /\ ~ chance /\ exists r', run = Ok (held parties bob, map (held rest) holds, r')).
Proof.
  intros S L m n t ids bob victim nonce r Hg Hn Ht1 Htn Hbn Hbob Hvic Hvb. set (params := MkParams n t).
  destruct (doc_dealt m n t ids r Hg Hn ltac:(lia)) as (parties & r1 & r2 & E1 & E2 & Qi & H & HB & Hix & HQ).
  fold params in E1, E2, H, HB. pose proof (proj1 (hp_indices _ _ H)) as Hnd.
  assert (Hwho : forall i, In i ids -> exists p, y_index p = i /\ In p parties) by (intros i Hi; rewrite <- Qi in Hi; apply in_map_iff in Hi; exact Hi).
  destruct (Hwho bob Hbob) as (b & Ib & Hb). destruct (Hwho victim Hvic) as (w & Iw & Hw).
  assert (HQ' : forall q p, In q parties -> In p parties -> exists e, bget (y_index q) (y_es p) = Some e).
  { intros q p Hq Hp. apply HQ; [exact Hp|]. rewrite <- Qi. apply in_map, Hq. }
  destruct (HQ' w b Hw Hb) as (e & He). destruct (delivered_opens m params parties b w e H HB Hb Hw He) as (Hs1 & Hs2 & _).
  exists parties, r1, r2, b, w, e. split; [exact E1|]. split; [exact E2|]. split; [exact Hb|]. split; [exact Ib|].
  split; [exact Hw|]. split; [exact Iw|]. split; [rewrite <- Iw; exact He|]. cbv zeta.
  set (wrong := MkEnc (es_sender e) (es_receiver e) nonce (es_ct e)).
  assert (Ewrong : MkEnc bob victim nonce (es_ct e) = wrong) by (unfold wrong; congruence). rewrite Ewrong.
  destruct (in_split _ _ Hb) as (p1 & p2 & Ep).
  assert (Hsub : forall q, In q (p1 ++ p2) -> In q parties).
  { intros q Hq. rewrite Ep. apply in_or_app. apply in_app_or in Hq. destruct Hq; cbn; auto. }
  assert (Hne : forall q, In q (p1 ++ p2) -> y_index q <> bob).
  { intros q Hq X. pose proof Hnd as N. rewrite Ep, map_app in N. apply NoDup_remove_2 in N. apply N. rewrite <- map_app, Ib, <- X. apply in_map, Hq. }
  assert (Erest : all_but bob parties = p1 ++ p2).
  { assert (Hkeep : forall l, (forall q, In q l -> y_index q <> bob) -> all_but bob l = l).
    { induction l as [|q l IH]; intros Hl; [reflexivity|]. unfold all_but. cbn [filter]. rewrite (proj2 (u32_eqb_neq _ _)) by (apply Hl; left; reflexivity).
      cbn [negb]. f_equal. apply IH. intros q' Hq'. apply Hl. right; exact Hq'. }
    rewrite Ep. unfold all_but. rewrite filter_app. cbn [filter]. rewrite Ib, u32_eqb_refl. cbn [negb].
    fold (all_but bob p1). fold (all_but bob p2). rewrite !Hkeep; [reflexivity|..]; intros q Hq; apply Hne, in_or_app; auto. }
  destruct (slot_ok p1 bob w wrong) as (l1 & T1 & D1); [intros q Hq..|]; [apply Hix, Hsub|apply Hne|apply HQ'; [exact Hw|apply Hsub]|]; try (apply in_or_app; left; exact Hq).
  destruct (slot_ok p2 bob w wrong) as (l2 & T2 & D2); [intros q Hq..|]; [apply Hix, Hsub|apply Hne|apply HQ'; [exact Hw|apply Hsub]|]; try (apply in_or_app; right; exact Hq).
  set (box := l1 ++ wrong :: l2).
  assert (Ebox : traverse (test_slot bob victim wrong) (map (fun p => (y_d p, y_es p)) parties) = Ok box).
  { rewrite Ep, map_app. cbn [map]. rewrite <- Iw. apply traverse_app; [exact T1|]. cbn [traverse]. unfold test_slot at 1. cbn [fst].
    rewrite (Hix b Hb), Ib, u32_eqb_refl. cbn [bind]. rewrite T2. reflexivity. }
  set (bx := fun q => if u32_eqb (y_index q) victim then box else mail parties q).
  assert (Hmail : forall q, In q parties -> doc_box (map y_es parties) (y_index q) = Ok (mail parties q) /\ delivered parties q (mail parties q)).
  { intros q Hq. apply mail_ok. intros p Hp. apply HQ'; assumption. }
  assert (Hproofs : test_proofs (map y_d parties) = Ok tt).
  { unfold test_proofs.
    destruct (traverse_ok (fun p d => In p parties /\ d = y_d p) (fun _ _ => True) (fun p => let* pr := unwrap (pt_sk_proof p) in let* pk := unwrap (part_public_key p) in
      nizk_verify pr (pt_index p) pk) parties (map y_d parties)) as (l & E & _); [| |rewrite E; reflexivity].
    - apply forall2_map_r. eapply forall2_impl; [|apply forall2_self with (P := fun p => In p parties)]; [|auto].
      intros a a' [<- Ha]. split; [exact Ha|reflexivity].
    - intros p d [Hp ->]. destruct (honest_fresh params parties p H Hp) as [F1 _ F3 F4 _ (pr & a0 & F5 & F6 & F7)].
      exists tt. split; [|exact I]. rewrite F5. cbn [unwrap bind]. unfold part_public_key. rewrite F4. unfold vss_public_key. cbn [vss_points].
      destruct (y_co p) as [|a co]; [discriminate F6|]. injection F6 as ->. cbn. rewrite F1. exact F7. }
  set (rest := all_but bob parties).
  set (cms := map (fun p => MkVss (y_index p) (committed (y_co p))) (rev rest)).
  assert (Ecms : traverse (fun p => unwrap (pt_comm p)) (rev (filter (fun p => negb (u32_eqb (pt_index p) bob)) (map y_d parties))) = Ok cms).
  { rewrite filter_map_comm, (filter_ext_in _ (fun p => negb (u32_eqb (y_index p) bob))) by (intros p Hp; rewrite (Hix p Hp); reflexivity).
    fold (all_but bob parties). fold rest. rewrite <- map_rev. unfold cms. apply traverse_map_ok. intros p Hp. apply in_rev, filter_In in Hp.
    destruct (honest_fresh params parties p H (proj1 Hp)) as [_ _ _ F4 _ _]. rewrite F4. reflexivity. }
  set (calls0 := map (fun q => (y_index q, (y_st q, mail parties q))) parties).
  set (calls := map (fun q => (y_index q, (y_st q, bx q))) parties).
  set (oth := filter (fun q => negb (u32_eqb (y_index q) victim)) parties).
  assert (Eoth : filter (fun x => negb (u32_eqb (fst x) victim)) calls0 = map (fun q => (y_index q, (y_st q, mail parties q))) oth)
    by (unfold calls0; rewrite filter_map_comm; reflexivity).
  assert (Eoth' : filter (fun x => negb (u32_eqb (fst x) victim)) calls = map (fun q => (y_index q, (y_st q, mail parties q))) oth).
  { unfold calls. rewrite filter_map_comm. cbn [fst]. fold oth. apply map_ext_in. intros q Hq. apply filter_In in Hq. destruct Hq as [_ Hq].
    unfold bx. destruct (u32_eqb (y_index q) victim); [discriminate Hq|reflexivity]. }
  set (every := filter (fun i => negb (u32_eqb i victim)) ids ++ [victim]).
  assert (Eev : map y_index oth ++ [victim] = every) by (unfold every, oth; rewrite <- Qi, filter_map_comm; reflexivity).
  assert (Erun : forall z,
      (let* (s2s, r3) := each (doc_round_two m) (map (fun q => (y_st q, mail parties q)) oth) r2 in
       let* (sv, cs, r4) := to_round_two m (y_st w) box r3 in
       let* _ := assert_true (Nat.eqb (length cs) 1) in
       let named := combine every (s2s ++ [sv]) in
       let* outs := traverse (test_settle cs (pt_dh_pk (y_d b))) (map snd (filter (fun x => negb (u32_eqb (fst x) bob)) named)) in
       let* sb := unwrap (find (fun x => u32_eqb (fst x) bob) named) in
       let* bob_out := finish (snd sb) in
       let* _ := test_last_checks bob_out outs victim cms in
       Ok (bob_out, outs, r4)) = z -> test_keys m n t ids bob victim nonce r = z).
  { intros z <-. unfold test_keys. rewrite params_ok by lia. cbn [bind]. fold params. rewrite E1. cbn [bind]. rewrite map_map.
    change (map (fun x => fst (fst (triple x))) parties) with (map y_d parties). rewrite Hproofs. cbn [bind]. rewrite E2. cbn [bind].
    rewrite !map_map. cbn [fst snd]. change (map (fun x : Party => y_es x) parties) with (map y_es parties). change (map (fun x : Party => y_st x) parties) with (map y_st parties).
    rewrite (map_ext_in (fun x : Party => pt_index (y_d x)) y_index) by exact Hix.
    rewrite (traverse_map_ok (doc_box (map y_es parties)) y_index (mail parties)) by (intros q Hq; apply Hmail, Hq). cbn [bind].
    rewrite !combine_maps. fold calls0.
    rewrite (find_dealer parties b bob Hnd Hix Hb Ib). cbn [unwrap bind].
    pose proof (find_named parties y_es b Hnd Hb) as Fb. rewrite Ib in Fb. rewrite Fb. cbn [unwrap bind snd].
    pose proof He as He'. rewrite Iw in He'. rewrite He'. cbn [unwrap bind]. fold wrong. rewrite Ebox. cbn [bind].
    rewrite Eoth, !map_map. cbn [fst snd]. change (map (fun x : Party => y_index x) oth) with (map y_index oth). rewrite Eev.
    pose proof (find_named parties (fun q => (y_st q, mail parties q)) w Hnd Hw) as Fw. rewrite Iw in Fw. fold calls0 in Fw.
    destruct (each (doc_round_two m) (map (fun q => (y_st q, mail parties q)) oth) r2) as [[s2s r3]| |]; [|reflexivity..]. cbn [bind]. rewrite Fw. cbn [unwrap bind fst snd].
    destruct (to_round_two m (y_st w) box r3) as [[[sv cs] r4]| |]; [|reflexivity..]. cbn [bind].
    destruct (assert_true (Nat.eqb (length cs) 1)) as [[]| |]; [|reflexivity..]. cbn [bind].
    destruct (traverse (test_settle cs (pt_dh_pk (y_d b))) _) as [outs| |]; [|reflexivity..]. cbn [bind].
    destruct (unwrap (find (fun x => u32_eqb (fst x) bob) (combine every (s2s ++ [sv])))) as [sb| |]; [|reflexivity..]. cbn [bind].
    destruct (finish (snd sb)) as [bo| |]; [|reflexivity..]. cbn [bind]. rewrite Ecms. reflexivity. }
  assert (Escen : forall x, test_scenario m (pt_dh_pk (y_d b)) victim calls r2 = x ->
      (let* (s2s, r3) := each (doc_round_two m) (map (fun q => (y_st q, mail parties q)) oth) r2 in
       let* (sv, cs, r4) := to_round_two m (y_st w) box r3 in
       let* _ := assert_true (Nat.eqb (length cs) 1) in
       let* outs := traverse (test_settle cs (pt_dh_pk (y_d b))) (s2s ++ [sv]) in
       let* _ := doc_same_key (hd Gzero (map fst outs)) outs in
       Ok (outs, cs, r4)) = x).
  { intros x <-. unfold test_scenario. pose proof (find_named parties (fun q => (y_st q, bx q)) w Hnd Hw) as Fw. rewrite Iw in Fw. fold calls in Fw.
    rewrite Fw. cbn [unwrap bind fst snd]. rewrite Eoth', map_map. cbn [snd].
    replace (bx w) with box by (unfold bx; rewrite Iw, u32_eqb_refl; reflexivity). reflexivity. }
  destruct (scenario m params parties p1 b p2 w wrong l1 l2 bx r2 H HB Hix Ep Hw Ht1 Htn) as [(A1 & A2)|(A1 & outs & c & r4 & s & A2 & A3 & A4 & A5 & A6)]; auto.
  { rewrite Ib. exact Hbn. }
  { unfold bx. rewrite Iw, u32_eqb_refl. reflexivity. }
  { intros q Hq Hnq. unfold bx. rewrite (proj2 (u32_eqb_neq _ _)) by (rewrite <- Iw; exact Hnq). apply Hmail, Hq. }
  - left. rewrite Ib, Iw in A1. split; [exact A1|]. apply Erun.
    destruct (each_ok (fun q x => In q oth /\ x = (y_st q, mail parties q)) (fun _ _ => True) (doc_round_two m) oth (map (fun q => (y_st q, mail parties q)) oth) r2) as (s2s & r3 & E3 & _).
    { apply forall2_map_r. eapply forall2_impl; [|apply forall2_self with (P := fun p => In p oth)]; [|auto].
      intros a a' [<- Ha]. split; [exact Ha|reflexivity]. }
    { intros q x r0 [Hq ->]. apply filter_In in Hq. destruct Hq as [Hq _].
      destruct (quiet_round_two m params parties q (mail parties q) r0 H HB Hq) as (s2 & r' & E).
      { eapply forall2_impl_in; [|apply (proj2 (Hmail q Hq))]. intros p x Hp Hx. eapply delivered_opens; eauto. }
      exists s2, r'. unfold doc_round_two. cbn [fst snd]. rewrite E. split; [reflexivity|exact I]. }
    rewrite E3. cbn [bind].
    destruct (quiet_round_two m params parties w box r3 H HB Hw) as (s2 & r' & E); [|rewrite E; reflexivity].
    unfold box. rewrite Ep. apply Forall2_app; [|constructor; [split; [unfold wrong; cbn; congruence|split; [unfold wrong; cbn; congruence|]]|]].
    + eapply forall2_impl_in; [|exact D1]. intros p y Hp Hy. eapply delivered_opens; eauto. apply Hsub, in_or_app; auto.
    + rewrite Ib, Iw. exact A1.
    + eapply forall2_impl_in; [|exact D2]. intros p y Hp Hy. eapply delivered_opens; eauto. apply Hsub, in_or_app; auto.
  - right. rewrite Ib, Iw in A1. fold calls in A2. rewrite Iw in A2. apply Escen in A2. rewrite <- Erest in A5, A6. fold rest in A5, A6. fold (joint rest F0) in A5.
    destruct (each (doc_round_two m) (map (fun q => (y_st q, mail parties q)) oth) r2) as [[s2s r3]| |] eqn:E3; try discriminate A2. cbn [bind] in A2.
    destruct (to_round_two m (y_st w) box r3) as [[[sv cs] r5]| |] eqn:E4; try discriminate A2. cbn [bind] in A2.
    destruct (assert_true (Nat.eqb (length cs) 1)) as [[]| |] eqn:E5; try discriminate A2. cbn [bind] in A2.
    destruct (traverse (test_settle cs (pt_dh_pk (y_d b))) (s2s ++ [sv])) as [outs0| |] eqn:E6; try discriminate A2. cbn [bind] in A2.
    destruct (doc_same_key _ outs0) as [[]| |] eqn:E7; try discriminate A2. cbn [bind] in A2. injection A2 as -> -> ->.
    assert (Eouts : outs = map (held rest) every).
    { destruct A4 as (B1 & _ & B3). rewrite Iw, Qi in B1. fold every in B1. rewrite <- B1, map_map. rewrite <- (map_id outs) at 1. apply map_ext_in. intros o Ho.
      pose proof (B3 o Ho) as X1. pose proof (A6 o Ho) as X2. destruct o as [g [i k]]. cbn [fst snd sk_index sk_key] in *. rewrite X1, X2, A5. reflexivity. }
    rewrite Eouts in E6.
    pose proof (forall2_with _ _ _ (forall2_map_l _ _ _ _ (each_inv _ _ _ _ _ E3))) as HE.
    assert (Hl : length (s2s ++ [sv]) = length every).
    { rewrite <- Eev, !app_length, map_length. f_equal. clear -HE. induction HE; cbn; congruence. }
    pose proof (traverse_named _ (held rest) (fun i => negb (u32_eqb i bob)) every _ Hl E6) as E8.
    set (holds := filter (fun i => negb (u32_eqb i bob)) every) in *.
    destruct (find_combine (fun i x => i = victim \/ exists q r0 r1, In q parties /\ y_index q = i /\ doc_round_two m (y_st q, mail parties q) r0 = Ok (x, r1)) bob every (s2s ++ [sv]))
      as (sb & E9 & [X|(q & r0 & r' & Hq & Iq & E10)]); [| |congruence|].
    { rewrite <- Eev. apply Forall2_app; [|constructor; [left; reflexivity|constructor]].
      apply forall2_flip, forall2_map_r, forall2_flip. eapply forall2_impl; [|exact HE]. intros q x (Hq & ra & rb & E). right.
      exists q, ra, rb. apply filter_In in Hq. split; [apply Hq|]. split; [reflexivity|exact E]. }
    { rewrite <- Eev. apply in_or_app. left. rewrite <- Ib. apply in_map, filter_In. split; [exact Hb|].
      rewrite (proj2 (u32_eqb_neq _ _)) by congruence. reflexivity. }
    assert (q = b) by (apply (same_party parties); auto; congruence). subst q.
    destruct (C18_honest_agreement S L m params parties H HB) as (s0 & Es0 & HA).
    destruct (HA b parties (mail parties b) r0 Hb (Permutation_refl _) (proj2 (Hmail b Hb))) as (s2 & r6 & sk & C1 & C2 & C3 & C4 & _).
    unfold doc_round_two in E10. cbn [fst snd] in E10. rewrite C1 in E10. cbn in E10. injection E10 as <- _.
    assert (Efin : finish s2 = Ok (held parties bob)).
    { rewrite C2, Es0. unfold held, joint. destruct sk as [i k]. cbn [sk_index sk_key] in *. rewrite C3, C4, Ib. reflexivity. }
    destruct (last_checks parties rest bob victim holds) as [[D3 D4]|[D3 D4]].
    { unfold rest, all_but. split.
      - clear -Hnd. induction parties as [|p l IH]; [constructor|]. cbn [map filter] in *. inversion Hnd as [|? ? N1 N2]; subst.
        destruct (negb _); [|apply IH, N2]. cbn [map]. constructor; [|apply IH, N2]. intros X. apply N1. apply in_map_iff in X.
        destruct X as (q & E & Hq). rewrite <- E. apply in_map. apply filter_In in Hq. apply Hq.
      - intros X. apply in_map_iff in X. destruct X as (p & X & Hp). apply filter_In in Hp. apply (proj2 (hp_indices _ _ H)). rewrite <- X. apply in_map, Hp. }
    { unfold holds, every. apply filter_In. split; [apply in_or_app; right; left; reflexivity|]. rewrite (proj2 (u32_eqb_neq _ _)) by exact Hvb. reflexivity. }
    + left. split; [exact A1|]. split; [exact D3|]. apply Erun. cbn [bind]. rewrite E4. cbn [bind]. rewrite E5. cbn [bind]. rewrite E8. cbn [bind].
      rewrite E9. cbn [unwrap bind snd]. rewrite Efin. cbn [bind]. fold cms in D4. rewrite D4. reflexivity.
    + right. split; [exact A1|]. split; [exact D3|]. exists r4. apply Erun. cbn [bind]. rewrite E4. cbn [bind]. rewrite E5. cbn [bind]. rewrite E8. cbn [bind].
      rewrite E9. cbn [unwrap bind snd]. rewrite Efin. cbn [bind]. fold cms in D4. rewrite D4. reflexivity.
Qed.
Print Assumptions C131_keys_after_a_removal.

(** each of the three chances needs one particular value: adding a dealer to a list keeps the joint value at x for at most one
    value of the dealer's polynomial there *)
Theorem C131_one_value_by_chance :
  forall (S : Suite) (L : SuiteLaws S) (p1 p2 : list Party) (b b' : Party) (x : F),
  good_indices (map y_index (p1 ++ b :: p2)) -> y_index b' = y_index b ->
  joint (p1 ++ b :: p2) x = joint (p1 ++ p2) x -> joint (p1 ++ b' :: p2) x = joint (p1 ++ p2) x ->
  poly_value (y_co b') x = poly_value (y_co b) x.
Proof.
  intros S L p1 p2 b b' x [_ H0] Ei E E'. pose proof (weight_neq_0 (y_index b) (map y_index (p1 ++ b :: p2)) H0) as Hw.
  assert (K : forall c, y_index c = y_index b -> joint (p1 ++ c :: p2) x =
    (fsum (map (fun iv => snd iv * weight (fst iv) (map y_index (p1 ++ b :: p2))) (dealt_values (p1 ++ p2) x)) +
     poly_value (y_co c) x * weight (y_index b) (map y_index (p1 ++ b :: p2)))%F).
  { intros c Ec. rewrite (joint_perm _ _ x (Permutation_sym (Permutation_middle p1 p2 c))). unfold joint, interp0.
    assert (Ew : forall i, weight i (map fst (dealt_values (c :: p1 ++ p2) x)) = weight i (map y_index (p1 ++ b :: p2))).
    { intros i. apply weight_perm. unfold dealt_values. rewrite map_map. cbn [fst map]. rewrite Ec, !map_app. cbn [map]. apply Permutation_middle. }
    rewrite (map_ext _ (fun iv => (snd iv * weight (fst iv) (map y_index (p1 ++ b :: p2)))%F)) by (intros iv; rewrite Ew; reflexivity).
    unfold dealt_values at 1. cbn [map]. rewrite fsum_cons. cbn [fst snd]. rewrite Ec. fold (dealt_values (p1 ++ p2) x). apply plus_swap. }
  rewrite <- E, (K b eq_refl), (K b' Ei) in E'. apply Fadd_cancel_l in E'. rewrite !(times_swap (poly_value _ _)) in E'. exact (Fmul_cancel_l _ _ _ Hw E').
Qed.
Print Assumptions C131_one_value_by_chance.

(** four participants listed as 4, 1, 3, 2 with threshold 2: the nonce of 3's share for 2 becomes 42 twelve times *)
Definition tk_run (n t : u32) (ids : list u32) (bob victim : N) : result ((G * SigningKey) * list (G * SigningKey) * Rng) :=
  test_keys (S := Toy) Debug n t ids (u bob) (u victim) (@MkNonce Toy (repeat x2a 12) eq_refl) 77%N.
Definition tk_seen (x : result ((G * SigningKey) * list (G * SigningKey) * Rng)) : result (u32 * list u32 * bool * bool) :=
  let* (bo, outs, _) := x in
  let keys := map snd outs in
  Ok (sk_index (snd bo), map sk_index keys, Geqb (fst bo) (hd Gzero (map fst outs)),
      Geqb (hd Gzero (map fst outs)) (gen * interp0 (key_points (firstn 2 keys)))%G).
Example C131_ex_hypotheses :
  good_indices [u 4; u 1; u 3; u 2] /\ N.of_nat (length [u 4; u 1; u 3; u 2]) = u32v bad_n /\
  (1 <= u32v bad_t)%N /\ (u32v bad_t < u32v bad_n)%N /\ (u32v (u 3) <= u32v bad_n)%N /\
  In (u 3) [u 4; u 1; u 3; u 2] /\ In (u 2) [u 4; u 1; u 3; u 2] /\ u 2 <> u 3.
Proof. pose proof C115_ex_hypotheses. tauto. Qed.
Example C131_ex : tk_seen (tk_run bad_n bad_t [u 4; u 1; u 3; u 2] 3 2) = Ok (u 3, [u 4; u 1; u 2], false, true).
Proof. vms. Qed.
(** the test's own numbers: two of three, the first garbles the share of the second *)
Example C131_ex_test : tk_seen (tk_run (u 3) (u 2) [u 1; u 2; u 3] 1 2) = Ok (u 1, [u 3; u 2], false, true).
Proof. vms. Qed.
(** a chance: 1, 4 and 3 have polynomials with the same first coefficient, so that at zero 3 may be left out; with another
    first coefficient it may not *)
Definition tk_party (i : N) (a : Z) : Party :=
  let p := demo_party 1 in @MkParty Toy (u i) (y_d p) [mk a; mk 9] (y_x p) (y_st p) (y_es p).
Example C131_ex_chance :
  good_indices (map y_index ([tk_party 1 5] ++ tk_party 3 5 :: [tk_party 4 5])) /\
  joint ([tk_party 1 5] ++ tk_party 3 5 :: [tk_party 4 5]) (mk 0) = joint ([tk_party 1 5] ++ [tk_party 4 5]) (mk 0) /\
  Feqb (joint ([tk_party 1 5] ++ tk_party 3 6 :: [tk_party 4 5]) (mk 0)) (joint ([tk_party 1 5] ++ [tk_party 4 5]) (mk 0)) = false.
Proof. split; [good|]. split; vmr. Qed.
