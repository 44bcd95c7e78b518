(** C107: the programs of the documentation, for any number of participants, succeed with every generator: key
    generation, check of the verifying keys, resharing, precomputation, signing and aggregation. *)
From Coq Require Import String Strings.Byte Arith NArith ZArith Bool List Lia Permutation Field.
From Verif Require Import Base BaseLemmas Suite Algebra Spec Types Toy ModelDkg ModelSign ModelDoc SpecDkg SpecSign
  LemmasShare LemmasRound1 LemmasRound2 LemmasFinish PropsShare PropsFinish PropsReshare LemmasSign PropsSign LemmasAgg PropsAgg
  Demo DemoDkg DemoSign.
Import ListNotations.

Section Doc.
  Context {S : Suite} {L : SuiteLaws S}.
  Add Field F_fld : F_field.

  Lemma forall2_impl {A B} (R R' : A -> B -> Prop) l l' : (forall a b, R a b -> R' a b) -> Forall2 R l l' -> Forall2 R' l l'.
  Proof. intros H. induction 1; constructor; auto. Qed.
  (** every call succeeds when each does whatever the generator; [g] are ghosts *)
  Lemma each_ok {X A B} (Q : X -> A -> Prop) (P : X -> B -> Prop) (f : A -> Rng -> result (B * Rng)) gs l r :
    Forall2 Q gs l -> (forall g a r, Q g a -> exists b r', f a r = Ok (b, r') /\ P g b) ->
    exists bs r', each f l r = Ok (bs, r') /\ Forall2 P gs bs.
  Proof.
    intros H Hf. revert r. induction H as [|g a gs l Ha H IH]; intros r; [exists [], r; split; [reflexivity|constructor]|].
    destruct (Hf g a r Ha) as (b & r1 & E & Hb). destruct (IH r1) as (bs & r2 & E2 & Hbs).
    exists (b :: bs), r2. cbn [each]. rewrite E. cbn [bind]. rewrite E2. split; [reflexivity|constructor; assumption].
  Qed.
  Lemma traverse_ok {X A B} (Q : X -> A -> Prop) (P : X -> B -> Prop) (f : A -> result B) gs l :
    Forall2 Q gs l -> (forall g a, Q g a -> exists b, f a = Ok b /\ P g b) ->
    exists bs, traverse f l = Ok bs /\ Forall2 P gs bs.
  Proof.
    intros H Hf. induction H as [|g a gs l Ha H IH]; [exists []; split; [reflexivity|constructor]|].
    destruct (Hf g a Ha) as (b & E & Hb). destruct IH as (bs & E2 & Hbs).
    exists (b :: bs). cbn [traverse]. rewrite E. cbn [bind]. rewrite E2. split; [reflexivity|constructor; assumption].
  Qed.
  Lemma forall2_self {A} (P : A -> Prop) (l : list A) : (forall a, In a l -> P a) -> Forall2 (fun a b => a = b /\ P a) l l.
  Proof.
    induction l as [|a l IH]; intros H; constructor; [split; [reflexivity|apply H; left; reflexivity]|].
    apply IH. intros b Hb. apply H. right; exact Hb.
  Qed.
  Lemma forall2_map_r {A B C} (R : A -> C -> Prop) (f : B -> C) l l' : Forall2 (fun a b => R a (f b)) l l' -> Forall2 R l (map f l').
  Proof. induction 1; constructor; assumption. Qed.
  Lemma forall2_with {A B} (R : A -> B -> Prop) l l' : Forall2 R l l' -> Forall2 (fun a b => In a l /\ R a b) l l'.
  Proof.
    induction 1 as [|a b l l' H HF IH]; constructor; [split; [left; reflexivity|exact H]|].
    eapply forall2_impl; [|exact IH]. intros x y [X Y]. split; [right; exact X|exact Y].
  Qed.
  Lemma forall2_eq_map {A B} (f : A -> B) l l' : Forall2 (fun a b => b = f a) l l' -> l' = map f l.
  Proof. induction 1 as [|a b l l' -> _ IH]; cbn; congruence. Qed.

  Lemma params_ok m n t : (1 <= u32v t <= u32v n)%N -> params_new m n t = Ok (MkParams n t).
  Proof.
    intros H. unfold params_new.
    assert (E : u32_eqb n u32_zero || u32_eqb t u32_zero || u32_ltb n t = false).
    { unfold u32_eqb, u32_ltb. cbn [u32v u32_zero]. rewrite !orb_false_iff, !N.eqb_neq, N.ltb_ge. lia. }
    rewrite E, andb_false_r. reflexivity.
  Qed.

  (** collecting, round two and finish, for ghosts [g] whose round two and finish always succeed *)
  Lemma session_ok {X} m (idx : X -> u32) (out : X -> G * SigningKey) (gs : list X) states sent r :
    (forall g es, In g gs -> In es sent -> exists e, bget (idx g) es = Some e) ->
    Forall2 (fun g st => forall box r, Forall2 (fun es e => bget (idx g) es = Some e) sent box ->
       exists s2 r', to_round_two m st box r = Ok (s2, [], r') /\ finish s2 = Ok (out g)) gs states ->
    exists r', doc_session m (map idx gs) states sent r = Ok (map out gs, r').
  Proof.
    intros Hb Hs. unfold doc_session.
    assert (B : exists boxes, traverse (doc_box sent) (map idx gs) = Ok boxes /\
              Forall2 (fun g box => Forall2 (fun es e => bget (idx g) es = Some e) sent box) gs boxes).
    { apply traverse_ok with (Q := fun g i => In g gs /\ i = idx g).
      - apply forall2_map_r. eapply forall2_impl; [|apply forall2_self with (P := fun g => In g gs)]; [|auto].
        intros a b [<- Ha]. split; [exact Ha|reflexivity].
      - intros g i [Hg ->]. unfold doc_box. apply traverse_ok with (Q := fun es es' => es = es' /\ In es sent).
        + apply forall2_self. auto.
        + intros es es' [<- He]. destruct (Hb g es Hg He) as (e & E). exists e. rewrite E. split; reflexivity. }
    destruct B as (boxes & E1 & HB). rewrite E1. cbn [bind].
    assert (C : Forall2 (fun g x => forall r, exists s2 r', to_round_two m (fst x) (snd x) r = Ok (s2, [], r') /\ finish s2 = Ok (out g))
      gs (combine states boxes)).
    { clear E1 Hb. revert boxes HB. induction Hs as [|g st gs states H Hs IH]; intros boxes HB; inversion HB; subst; cbn [combine]; constructor; auto. }
    destruct (each_ok _ (fun g s2 => finish s2 = Ok (out g)) (doc_round_two m) _ _ r C) as (s2s & r1 & E2 & H2).
    { intros g [st box] r0 H. destruct (H r0) as (s2 & r' & E & Ef). exists s2, r'. unfold doc_round_two. rewrite E. split; [reflexivity|exact Ef]. }
    rewrite E2. cbn [bind].
    destruct (traverse_ok _ (fun g o => o = out g) finish _ _ H2) as (outs & E3 & H3); [intros g s2 H; eauto|].
    rewrite E3. cbn [bind]. exists r1. rewrite (forall2_eq_map out _ _ H3). reflexivity.
  Qed.

  Lemma same_key_ok gk outs : (forall o, In o outs -> fst o = gk) -> doc_same_key gk outs = Ok tt.
  Proof.
    intros H. unfold doc_same_key.
    destruct (traverse_ok (fun o o' => o = o' /\ fst o = gk) (fun _ _ => True) (fun o => assert_true (Geqb (fst o) gk)) outs outs) as (bs & E & _).
    - apply forall2_self, H.
    - intros o o' [<- Ho]. exists tt. rewrite Ho, Geqb_refl. split; [reflexivity|exact I].
    - rewrite E. reflexivity.
  Qed.

  Lemma last_map_const {A} (l : list A) (f : A -> G) (c d : G) : l <> [] -> (forall a, In a l -> f a = c) -> last (map f l) d = c.
  Proof.
    intros Hn H. induction l as [|a l IH]; [contradiction|]. destruct l as [|b l]; [cbn; apply H; left; reflexivity|].
    change (last (map f (b :: l)) d = c). apply IH; [discriminate|]. intros x Hx. apply H. right; exact Hx.
  Qed.
  Lemma hd_map_const {A} (l : list A) (f : A -> G) (c d : G) : l <> [] -> (forall a, In a l -> f a = c) -> hd d (map f l) = c.
  Proof. intros Hn H. destruct l as [|a l]; [contradiction|]. apply H. left; reflexivity. Qed.

  Lemma forall2_parties (params : Params) (P : Participant * list F * F -> RoundOne * bmap EncShare -> Prop) ids ds :
    Forall2 (fun i d => exists r r', new_dealer params i r = Ok (d, r')) ids ds -> forall ss, Forall2 P ds ss ->
    exists parties, map y_index parties = ids /\ map (fun p => (y_d p, y_co p, y_x p)) parties = ds /\
      map (fun p => (y_st p, y_es p)) parties = ss /\
      (forall p, In p parties -> dealt_by params p /\ P (y_d p, y_co p, y_x p) (y_st p, y_es p)).
  Proof.
    induction 1 as [|i d ids ds (r & r' & E) _ IH]; intros ss HS; inversion HS as [|? [st es] ? ss' HP HS']; subst.
    - exists []. cbn. do 3 (split; [reflexivity|]). intros ? [].
    - destruct (IH ss' HS') as (ps & E1 & E2 & E3 & HPs). destruct d as [[d co] x].
      exists (MkParty i d co x st es :: ps). cbn [map y_index y_d y_co y_x y_st y_es]. rewrite E1, E2, E3. do 3 (split; [reflexivity|]).
      intros p [<-|Hp]; [|apply HPs, Hp]. cbn. split; [exists r, r'; exact E|exact HP].
  Qed.

  Definition blank (params : Params) : RoundOne := R1 (MkState params u32_zero F0 Gzero None [] None None).
  (** everybody has run the first round *)
  Lemma doc_dealt m n t ids r :
    good_indices ids -> N.of_nat (length ids) = u32v n -> (1 <= u32v t <= u32v n)%N ->
    exists parties r1 r2, each (new_dealer (MkParams n t)) ids r = Ok (map triple parties, r1) /\
      each (doc_round_one m (MkParams n t) (map y_d parties)) (map triple parties) r1 =
        Ok (map (fun p => (y_st p, y_es p)) parties, r2) /\
      map y_index parties = ids /\ honest_parties (MkParams n t) parties /\ all_bootstrapped m (MkParams n t) parties /\
      (forall p, In p parties -> pt_index (y_d p) = y_index p) /\
      (forall p i, In p parties -> In i ids -> exists e, bget i (y_es p) = Some e).
  Proof.
    intros Hg Hn Ht. set (params := MkParams n t).
    destruct (each_ok (fun i i' => i = i' /\ In i ids) (fun i d => exists r r', new_dealer params i r = Ok (d, r')) (new_dealer params) ids ids r)
      as (ds & r1 & E1 & HD).
    { apply forall2_self. auto. }
    { intros i i' r0 [<- Hi]. destruct (C12_new_dealer_well_formed S L params i r0) as (d & co & x & r' & E & _).
      - intros ->. apply Hg, Hi.
      - apply Ht.
      - exists (d, co, x), r'. split; [exact E|]. exists r0, r'. exact E. }
    (* the parties before round one *)
    destruct (forall2_parties params (fun _ _ => True) ids ds HD (map (fun _ => (blank params, [])) ds)) as (pre & Pi & Pd & _ & HP).
    { clear. induction ds; cbn; constructor; auto. }
    assert (HH : honest_parties params pre).
    { constructor; cbn [p_n p_t params].
      - rewrite <- Hn, <- Pi, map_length. reflexivity.
      - exact Ht.
      - rewrite Pi. exact Hg.
      - intros p Hp. apply HP, Hp. }
    set (ps := map (fun d => fst (fst d)) ds).
    assert (Eps : ps = map y_d pre) by (unfold ps; rewrite <- Pd, map_map; reflexivity).
    destruct (each_ok (fun d d' => d = d' /\ In d ds)
      (fun (d : Participant * list F * F) (s : RoundOne * bmap EncShare) =>
         (exists r lists r', bootstrap m params (snd d) (pt_index (fst (fst d))) (snd (fst d)) ps r = Ok (fst s, lists, r') /\
                             their_encrypted_secret_shares (fst s) = Ok (snd s)) /\
         forall i, In i ids -> exists e, bget i (snd s) = Some e)
      (doc_round_one m params ps) ds ds r1) as (ss & r2 & E2 & HS).
    { apply forall2_self. auto. }
    { intros d d' r0 [<- Hd]. assert (Hd' := Hd). rewrite <- Pd in Hd'. apply in_map_iff in Hd'. destruct Hd' as (p & <- & Hp).
      destruct (C18_round_one_succeeds S L m params pre p ps r0 HH Hp) as (st & es & r' & A1 & A2 & A3).
      { rewrite Eps. apply Permutation_refl. }
      assert (Ei : pt_index (y_d p) = y_index p).
      { destruct (honest_fresh params pre p HH Hp) as [X _ _ _ _ _]. exact X. }
      exists (st, es), r'. cbn [fst snd]. unfold doc_round_one. rewrite Ei, A1. cbn [bind]. rewrite A2. split; [reflexivity|].
      split; [exists r0, (MkPList ps None), r'; auto|].
      intros i Hi. rewrite <- Pi in Hi. apply in_map_iff in Hi. destruct Hi as (q & <- & Hq). apply A3, Hq. }
    destruct (forall2_parties params _ ids ds HD ss HS) as (parties & Qi & Qd & Qs & HQ). cbn [fst snd] in HQ.
    assert (HH' : honest_parties params parties).
    { constructor; cbn [p_n p_t params].
      - rewrite <- Hn, <- Qi, map_length. reflexivity.
      - exact Ht.
      - rewrite Qi. exact Hg.
      - intros p Hp. apply HQ, Hp. }
    assert (Eps' : ps = map y_d parties) by (unfold ps; rewrite <- Qd, map_map; reflexivity).
    assert (Hix : forall p, In p parties -> pt_index (y_d p) = y_index p).
    { intros p Hp. destruct (honest_fresh params parties p HH' Hp) as [X _ _ _ _ _]. exact X. }
    assert (HB : all_bootstrapped m params parties).
    { intros p Hp. exists ps. split; [rewrite Eps'; apply Permutation_refl|].
      destruct (HQ p Hp) as (_ & (r0 & lists & r' & A1 & A2) & _). rewrite (Hix p Hp) in A1. exists r0, lists, r'. split; assumption. }
    exists parties, r1, r2. rewrite <- Eps'. unfold triple. rewrite Qd, Qs. split; [exact E1|]. split; [exact E2|].
    split; [exact Qi|]. split; [exact HH'|]. split; [exact HB|]. split; [exact Hix|].
    intros p i Hp Hi. destruct (HQ p Hp) as (_ & _ & X). apply X, Hi.
  Qed.
End Doc.

(** the group: keys at the given indices, any t of which recover s, everybody with the group key of s *)
Definition holders {S : Suite} (ids : list u32) (t : nat) (s : F) (outs : list (G * SigningKey)) : Prop :=
  map (fun o => sk_index (snd o)) outs = ids /\ recovers t s (map snd outs) /\
  forall o, In o outs -> fst o = (gen * s)%G.

Theorem C107_documented_key_generation :
  forall (S : Suite) (L : SuiteLaws S) (m : build) (n t : u32) (ids : list u32) (r : Rng),
  good_indices ids -> N.of_nat (length ids) = u32v n -> (1 <= u32v t <= u32v n)%N ->
  exists ps outs r' s, doc_generation m n t ids r = Ok (MkParams n t, ps, outs, r') /\
    map pt_index ps = ids /\ holders ids (N.to_nat (u32v t)) s outs /\ doc_check ps outs = Ok tt.
Proof.
  intros S L m n t ids r Hg Hn Ht. unfold doc_generation. rewrite params_ok by exact Ht. cbn [bind].
  set (params := MkParams n t).
  destruct (doc_dealt m n t ids r Hg Hn Ht) as (parties & r1 & r2 & E1 & E2 & Qi & HH' & HB & Hix & HQ). fold params in E1, E2, HH', HB.
  rewrite E1. cbn [bind]. rewrite map_map. change (map (fun x => fst (fst (triple x))) parties) with (map y_d parties). rewrite E2. cbn [bind].
  set (ps := map y_d parties). assert (Eps' : ps = map y_d parties) by reflexivity.
  set (ss := map (fun p => (y_st p, y_es p)) parties). assert (Qs : map (fun p => (y_st p, y_es p)) parties = ss) by reflexivity.
  destruct (C18_honest_agreement S L m params parties HH' HB) as (s & Es & HA).
  set (out := fun p => ((gen * s)%G, MkSK (y_index p) (interp0 (dealt_values parties (of_u32 (y_index p)))))).
  assert (Eids : map pt_index ps = ids).
  { rewrite Eps', map_map, <- Qi. apply map_ext_in. exact Hix. }
  destruct (session_ok m y_index out parties (map fst ss) (map snd ss) r2) as (r3 & E3).
  { intros g es Hgp Hes. rewrite <- Qs, map_map in Hes. apply in_map_iff in Hes. destruct Hes as (p & <- & Hp). cbn [snd].
    apply (HQ p _ Hp). rewrite <- Qi. apply in_map, Hgp. }
  { rewrite <- Qs, !map_map. cbn [fst snd]. apply forall2_map_r.
    eapply forall2_impl; [|apply forall2_self with (P := fun g => In g parties)]; [|auto].
    intros q q' [<- Hq] box r0 Hbox. cbn beta.
    assert (Hdel : delivered parties q box).
    { unfold delivered. clear -Hbox. revert box Hbox. induction parties as [|p l IH]; intros box H; inversion H; subst; constructor; auto. }
    destruct (HA q parties box r0 Hq (Permutation_refl _) Hdel) as (s2 & r' & sk & B1 & B2 & B3 & B4 & _).
    exists s2, r'. split; [exact B1|]. unfold out. rewrite B2. f_equal. f_equal. destruct sk as [i k]. cbn in B3, B4. congruence. }
  rewrite Eids. rewrite Qi in E3. rewrite E3. cbn [bind].
  assert (Hne : parties <> []).
  { intros X. rewrite X in Qi. cbn in Qi. rewrite <- Qi in Hn. cbn in Hn. lia. }
  rewrite map_map. rewrite (last_map_const parties _ (gen * s)%G) by (auto; reflexivity).
  rewrite same_key_ok by (intros o Ho; apply in_map_iff in Ho; destruct Ho as (p & <- & _); reflexivity). cbn [bind].
  exists ps, (map out parties), r3, s. split; [reflexivity|]. split; [exact Eids|]. split.
  - split; [rewrite map_map; exact Qi|]. split.
    + rewrite map_map. cbn [out snd]. rewrite Es. apply (dealt_keys_sharing S L params parties HH').
    + intros o Ho. apply in_map_iff in Ho. destruct Ho as (p & <- & _). reflexivity.
  - unfold doc_check.
    assert (EC : traverse (fun p => unwrap (pt_comm p)) (rev ps) = Ok (rev (map (fun p => MkVss (y_index p) (committed (y_co p))) parties))).
    { rewrite Eps', <- !map_rev. assert (Hin : forall p, In p (rev parties) -> In p parties) by (intros p; apply in_rev).
      revert Hin. generalize (rev parties). intros l Hin. induction l as [|p l IH]; [reflexivity|]. cbn [map traverse].
      destruct (honest_fresh params parties p HH' (Hin p (or_introl eq_refl))) as [_ _ _ X _ _]. rewrite X. cbn [unwrap bind].
      rewrite IH by (intros q Hq; apply Hin; right; exact Hq). reflexivity. }
    rewrite EC. cbn [bind]. set (cs := rev _).
    assert (Hcs : Permutation cs (map (fun p => MkVss (y_index p) (committed (y_co p))) parties)) by (apply Permutation_sym, Permutation_rev).
    assert (K : forall p, In p parties -> ivk_generate (y_index p) cs = Ok (to_public (snd (out p))) /\ ivk_verify (to_public (snd (out p))) cs = Ok tt).
    { intros q Hq. assert (Hdel : exists box, delivered parties q box).
      { destruct (traverse_ok (fun p p' => p = p' /\ In p parties) (fun p e => bget (y_index q) (y_es p) = Some e)
          (fun p => unwrap (bget (y_index q) (y_es p))) parties parties) as (box & _ & HB').
        - apply forall2_self. auto.
        - intros p p' [<- Hp]. destruct (HQ p (y_index q) Hp) as (e & Ee); [rewrite <- Qi; apply in_map, Hq|].
          cbn [snd] in Ee. exists e. rewrite Ee. split; reflexivity.
        - exists box. exact HB'. }
      destruct Hdel as (box & Hdel).
      destruct (HA q parties box r3 Hq (Permutation_refl _) Hdel) as (s2 & r' & sk & B1 & B2 & B3 & B4 & B5).
      assert (Esk : sk = snd (out q)) by (destruct sk as [i k]; cbn in B3, B4; cbn [out snd]; congruence).
      rewrite <- Esk. apply B5, Hcs. }
    destruct (traverse_ok (fun p o => In p parties /\ o = out p) (fun _ _ => True) (fun o =>
      let* pk := match ivk_generate (sk_index (snd o)) cs with Ok pk => Ok pk | _ => Panic end in
      assert_true (u32_eqb (vk_index pk) (vk_index (to_public (snd o))) && Geqb (vk_share pk) (vk_share (to_public (snd o)))))
      parties (map out parties)) as (b1 & X1 & _).
    { apply forall2_map_r. eapply forall2_impl; [|apply forall2_self with (P := fun g => In g parties)]; [|auto]. intros a b [<- Ha]. auto. }
    { intros p o [Hp ->]. destruct (K p Hp) as (K1 & _). exists tt. change (sk_index (snd (out p))) with (y_index p). rewrite K1. cbn [bind].
      rewrite u32_eqb_refl, Geqb_refl. split; [reflexivity|exact I]. }
    rewrite X1. cbn [bind].
    destruct (traverse_ok (fun p o => In p parties /\ o = out p) (fun _ _ => True) (fun o =>
      assert_true (match ivk_verify (to_public (snd o)) cs with Ok _ => true | _ => false end))
      parties (map out parties)) as (b2 & X2 & _).
    { apply forall2_map_r. eapply forall2_impl; [|apply forall2_self with (P := fun g => In g parties)]; [|auto]. intros a b [<- Ha]. auto. }
    { intros p o [Hp ->]. destruct (K p Hp) as (_ & K2). exists tt. rewrite K2. split; [reflexivity|exact I]. }
    rewrite X2. reflexivity.
Qed.
Print Assumptions C107_documented_key_generation.

Lemma handover_ok :
  forall (S : Suite) (L : SuiteLaws S) (m : build) (params params2 : Params) (outs : list (G * SigningKey)) (old : list u32) (s : F)
         (hs : list Heir) (r1 : Rng),
  holders old (N.to_nat (u32v (p_t params))) s outs -> N.of_nat (length old) = u32v (p_n params) ->
  (1 <= u32v (p_t params) <= u32v (p_n params))%N -> honest_heirs params2 hs ->
  exists outs' r', doc_handover m params params2 outs (map (fun z => (z_p z, z_x z)) hs) r1 = Ok (outs', r') /\
    holders (map z_index hs) (N.to_nat (u32v (p_t params2))) s outs'.
Proof.
  intros S L m params params2 outs old s hs r1 (Ho & HR & HK) Hlen Hth HH. unfold doc_handover.
  set (zs := map (fun z => (z_p z, z_x z)) hs). assert (Zz : map (fun z => (z_p z, z_x z)) hs = zs) by reflexivity.
  assert (Ezp : map fst zs = map z_p hs) by (rewrite <- Zz, map_map; reflexivity).
  assert (Hix : forall z, In z hs -> pt_index (z_p z) = z_index z) by (intros z Hz; apply (heir_facts params2 hs z HH Hz)).
  assert (Hold : good_indices old) by (destruct HR as [X _]; rewrite map_map in X; rewrite <- Ho; exact X).
  destruct (each_ok (fun o o' => o = o' /\ In o outs)
    (fun (o : G * SigningKey) (d : Participant * bmap EncShare) =>
       (exists r lists r', reshare m params2 (snd o) (map fst zs) r = Ok (fst d, snd d, lists, r')) /\
       forall z, In z hs -> exists e, bget (z_index z) (snd d) = Some e)
    (fun o r => let* (d, es, _, r') := reshare m params2 (snd o) (map fst zs) r in Ok (d, es, r')) outs outs r1) as (ds & r2 & E2 & HD).
  { apply forall2_self. auto. }
  { intros o o' r0 [<- Hin]. destruct (C32_reshare_succeeds S L m params2 hs (snd o) (map fst zs) r0 HH) as (d & es & r' & E & X).
    - rewrite Ezp. apply Permutation_refl.
    - intros Q. apply Hold. rewrite <- Ho, <- Q. apply (in_map (fun o => sk_index (snd o))), Hin.
    - exists (d, es), r'. rewrite E. split; [reflexivity|]. split; [exists r0, (MkPList (map fst zs) None), r'; exact E|exact X]. }
  rewrite E2. cbn [bind].
  assert (H0 : exists ws, map w_key ws = map snd outs /\ map (fun w => (w_d w, w_es w)) ws = ds /\
             forall w, In w ws -> (exists r lists r', reshare m params2 (w_key w) (map fst zs) r = Ok (w_d w, w_es w, lists, r')) /\
               forall z, In z hs -> exists e, bget (z_index z) (w_es w) = Some e).
  { clear -HD. induction HD as [|o [d es] outs ds E _ (ws & A & B & C)]; [exists []; cbn; repeat split; intros; contradiction|].
    exists (MkDonor (snd o) d es :: ws). cbn [map w_key w_d w_es]. rewrite A, B. do 2 (split; [reflexivity|]).
    intros w [<-|Hw]; [exact E|apply C, Hw]. }
  destruct H0 as (ws & Wk & Wd & HW).
  assert (HHD : honest_donors m params2 hs ws).
  { constructor.
    - rewrite <- map_map, Wk, map_map, Ho. exact Hold.
    - intros w Hw. destruct (HW w Hw) as ((r0 & lists & r' & E) & _). exists (map fst zs), r0, lists, r'. split; [rewrite Ezp; apply Permutation_refl|exact E]. }
  assert (EL : length ws = length old).
  { rewrite <- (map_length w_key), Wk, <- Ho, !map_length. reflexivity. }
  destruct (C32_resharing_preserves_group_key S L m params params2 hs ws (map snd outs) s HR) as (key & K1 & K2).
  { intros w Hw. rewrite <- Wk. apply in_map, Hw. }
  { exact HH. } { exact HHD. } { rewrite EL. exact Hlen. } { exact Hth. }
  set (out := fun z => ((gen * s)%G, MkSK (z_index z) (key (z_index z)))).
  assert (Ewd : map fst ds = map w_d ws) by (rewrite <- Wd, map_map; reflexivity).
  assert (HBox : forall z box, Forall2 (fun es e => bget (z_index z) es = Some e) (map snd ds) box -> received ws z box).
  { intros z box. rewrite <- Wd, map_map. cbn [snd]. unfold received. clear. revert box.
    induction ws as [|w ws IH]; intros box H; inversion H; subst; constructor; auto. }
  assert (Hsome : forall z, In z hs -> exists box, received ws z box).
  { intros z Hz. destruct (traverse_ok (fun w w' => w = w' /\ In w ws) (fun w e => bget (z_index z) (w_es w) = Some e)
          (fun w => unwrap (bget (z_index z) (w_es w))) ws ws) as (box & _ & HB').
    - apply forall2_self. auto.
    - intros w w' [<- Hw]. destruct (HW w Hw) as (_ & X). destruct (X z Hz) as (e & Ee). exists e. rewrite Ee. split; reflexivity.
    - exists box. exact HB'. }
  destruct (each_ok (fun z s => In z hs /\ s = (z_p z, z_x z))
    (fun z st => In z hs /\ exists r lists r', dkg_new m params (z_x z) (z_index z) (map fst ds) r = Ok (st, lists, r'))
    (fun s r => let* (st, _, r') := dkg_new m params (snd s) (pt_index (fst s)) (map fst ds) r in Ok (st, r')) hs zs r2) as (states & r3 & E3 & HS).
  { rewrite <- Zz. apply forall2_map_r. eapply forall2_impl; [|apply forall2_self with (P := fun g => In g hs)]; [|auto]. intros a b [<- Ha]. auto. }
  { intros z zz r0 [Hz ->]. cbn [fst snd]. destruct (Hsome z Hz) as (box & Hbox).
    destruct (K1 z (map fst ds) ws box r0 r0 Hz) as (s1 & r1' & s2 & r3' & A & _).
    - rewrite Ewd. apply Permutation_refl.
    - apply Permutation_refl.
    - exact Hbox.
    - rewrite (Hix z Hz), A. exists s1, r1'. split; [reflexivity|]. split; [exact Hz|]. exists r0, (MkPList (map fst ds) None), r1'. exact A. }
  rewrite E3. cbn [bind].
  assert (Eids : map pt_index (map fst zs) = map z_index hs).
  { rewrite Ezp, map_map. apply map_ext_in. exact Hix. }
  destruct (session_ok m z_index out hs states (map snd ds) r3) as (r4 & E4).
  { intros z es Hz Hes. rewrite <- Wd, map_map in Hes. apply in_map_iff in Hes. destruct Hes as (w & <- & Hw). cbn [snd].
    destruct (HW w Hw) as (_ & X). apply X, Hz. }
  { eapply forall2_impl; [|exact HS]. intros z st (Hz & r0 & lists & r' & A) box r5 Hbox.
    destruct (K1 z (map fst ds) ws box r0 r5 Hz) as (s1 & r1' & s2 & r3' & A1 & A2 & A3).
    - rewrite Ewd. apply Permutation_refl.
    - apply Permutation_refl.
    - apply HBox, Hbox.
    - rewrite A in A1. injection A1 as <- _ _. exists s2, r3'. split; [exact A2|exact A3]. }
  rewrite Eids, E4. cbn [bind].
  assert (Hne : outs <> []).
  { intros X. rewrite X in Ho. cbn in Ho. rewrite <- Ho in Hlen. cbn in Hlen. lia. }
  rewrite (hd_map_const outs fst (gen * s)%G) by assumption.
  rewrite same_key_ok by (intros o Hin; apply in_map_iff in Hin; destruct Hin as (p & <- & _); reflexivity). cbn [bind].
  exists (map out hs), r4. split; [reflexivity|]. split; [apply map_map|]. split.
  - rewrite map_map. exact K2.
  - intros o Hin. apply in_map_iff in Hin. destruct Hin as (z & <- & _). reflexivity.
Qed.

Theorem C107_documented_resharing :
  forall (S : Suite) (L : SuiteLaws S) (m : build) (params : Params) (outs : list (G * SigningKey)) (old : list u32) (s : F)
         (n t : u32) (ids : list u32) (r : Rng),
  holders old (N.to_nat (u32v (p_t params))) s outs -> N.of_nat (length old) = u32v (p_n params) ->
  (1 <= u32v (p_t params) <= u32v (p_n params))%N ->
  good_indices ids -> N.of_nat (length ids) = u32v n -> (1 <= u32v t <= u32v n)%N ->
  exists outs' r', doc_resharing m params outs n t ids r = Ok (MkParams n t, outs', r') /\
    holders ids (N.to_nat (u32v t)) s outs'.
Proof.
  intros S L m params outs old s n t ids r HO Hlen Hth Hg Hn Ht. unfold doc_resharing.
  rewrite params_ok by exact Ht. cbn [bind]. set (params2 := MkParams n t).
  destruct (each_ok (fun i i' => i = i' /\ In i ids) (fun i z => exists r r', new_signer params2 i r = Ok (z, r')) (new_signer params2) ids ids r)
    as (zs & r1 & E1 & HZ).
  { apply forall2_self. auto. }
  { intros i i' r0 [<- Hi]. destruct (C12_new_signer_well_formed S L params2 i r0) as (d & x & r' & E & _).
    - intros ->. apply Hg, Hi.
    - exists (d, x), r'. split; [exact E|]. exists r0, r'. exact E. }
  rewrite E1. cbn [bind].
  assert (H0 : exists hs, map z_index hs = ids /\ map (fun z => (z_p z, z_x z)) hs = zs /\
             forall z, In z hs -> exists r r', new_signer params2 (z_index z) r = Ok (z_p z, z_x z, r')).
  { clear -HZ. induction HZ as [|i [p x] ids zs (r & r' & E) _ (hs & A & B & C)]; [exists []; cbn; repeat split; intros ? []|].
    exists (MkHeir i p x :: hs). cbn [map z_index z_p z_x]. rewrite A, B. repeat split. intros z [<-|Hz]; [exists r, r'; exact E|apply C, Hz]. }
  destruct H0 as (hs & Zi & Zz & HZs).
  assert (HH : honest_heirs params2 hs).
  { constructor; cbn [p_n p_t params2].
    - rewrite <- Hn, <- Zi, map_length. reflexivity.
    - exact Ht.
    - rewrite Zi. exact Hg.
    - intros z Hz. left. apply HZs, Hz. }
  destruct (handover_ok S L m params params2 outs old s hs r1 HO Hlen Hth HH) as (outs' & r' & E & HO').
  rewrite <- Zz, E. cbn [bind]. exists outs', r'. split; [reflexivity|]. rewrite <- Zi. exact HO'.
Qed.
Print Assumptions C107_documented_resharing.

Theorem C107_documented_signing :
  forall (S : Suite) (L : SuiteLaws S) (m : build) (params : Params) (ids : list u32) (s : F) (outs : list (G * SigningKey))
         (chosen : list nat) (message : list byte) (r : Rng),
  holders ids (N.to_nat (u32v (p_t params))) s outs -> (N.of_nat (length ids) <= u32v (p_n params))%N ->
  (1 <= u32v (p_t params))%N ->
  NoDup chosen -> (forall k, In k chosen -> k < length ids) -> N.to_nat (u32v (p_t params)) <= length chosen ->
  exists sig r', doc_signing m params outs chosen message r = Ok (sig, r') /\
    verify_signature (gen * s)%G sig (h4 message) = Ok tt.
Proof.
  intros S L m params ids s outs chosen message r (Hi & HR & HK) Hn Ht Hnd Hlt Hlen. unfold doc_signing.
  assert (Hne : outs <> []).
  { intros ->. cbn in Hi. subst ids. destruct chosen as [|k l]; [cbn in Hlen; lia|]. specialize (Hlt k (or_introl eq_refl)). cbn in Hlt. lia. }
  rewrite (hd_map_const outs fst (gen * s)%G) by assumption.
  destruct (each_ok (fun o o' => o = o' /\ In o outs)
    (fun (o : G * SigningKey) (x : PublicList * SecretList) => exists r r', generate_commitment_share_lists r (snd o) 1 = (fst x, snd x, r'))
    (fun o r => Ok (generate_commitment_share_lists r (snd o) 1)) outs outs r) as (lists & r1 & E1 & HL).
  { apply forall2_self. auto. }
  { intros o o' r0 [<- _]. destruct (generate_commitment_share_lists r0 (snd o) 1) as [[pub sec] r'] eqn:E.
    exists (pub, sec), r'. split; [reflexivity|]. exists r0, r'. exact E. }
  rewrite E1. cbn [bind].
  assert (Elen : length outs = length ids) by (rewrite <- Hi, map_length; reflexivity).
  (* what the chosen positions select *)
  assert (HC : Forall2 (fun o (x : SigningKey * (PublicList * SecretList)) => fst x = snd o /\
     exists r r', generate_commitment_share_lists r (fst x) 1 = (fst (snd x), snd (snd x), r')) outs (combine (map snd outs) lists)).
  { clear -HL. induction HL as [|o x outs lists (r & r' & E) _ IH]; cbn [map combine]; constructor; auto. split; [reflexivity|]. exists r, r'. exact E. }
  destruct (traverse_ok (fun k k' => k = k' /\ In k chosen)
    (fun k (x : SigningKey * (PublicList * SecretList)) => nth_error ids k = Some (sk_index (fst x)) /\ In (fst x) (map snd outs) /\
       exists r r', generate_commitment_share_lists r (fst x) 1 = (fst (snd x), snd (snd x), r'))
    (fun k => unwrap (nth_error (combine (map snd outs) lists) k)) chosen chosen) as (xs & E2 & HX).
  { apply forall2_self. auto. }
  { intros k k' [<- Hk]. specialize (Hlt k Hk). rewrite <- Hi in *. clear -HC Hlt. rewrite map_length in Hlt.
    assert (H : exists x, nth_error (combine (map snd outs) lists) k = Some x /\
      nth_error (map (fun o => sk_index (snd o)) outs) k = Some (sk_index (fst x)) /\ In (fst x) (map snd outs) /\
      exists r r', generate_commitment_share_lists r (fst x) 1 = (fst (snd x), snd (snd x), r')).
    { revert HC k Hlt. generalize (combine (map snd outs) lists). intros l HC. induction HC as [|o x outs l (A & B) HC IH]; intros k Hlt; [cbn in Hlt; lia|].
      destruct k as [|k].
      - exists x. cbn [nth_error map]. rewrite A. repeat split; [left; reflexivity|]. rewrite <- A. exact B.
      - cbn in Hlt. destruct (IH k) as (y & Y1 & Y2 & Y3 & Y4); [lia|]. exists y. cbn [nth_error map]. repeat split; try assumption. right; exact Y3. }
    destruct H as (x & A & B). exists x. rewrite A. split; [reflexivity|exact B]. }
  rewrite E2. cbn [bind].
  (* as precomputed signers *)
  assert (HG : exists gs, map (fun g => (pc_key g, (pc_pub g, pc_sec g))) gs = xs /\
     forall g, In g gs -> pc_pos g = 0%N /\ pl_index (pc_pub g) = sk_index (pc_key g) /\ In (pc_key g) (map snd outs) /\ precomputed g).
  { clear -HX L. induction HX as [|k [key [pub sec]] chosen xs (A & B & r & r' & E) _ (gs & X & Y)]; [exists []; cbn; split; [reflexivity|intros ? []]|].
    cbn [fst snd] in *. destruct (C37_lists_are_consistent S L r key 1) as (pub' & sec' & r2 & E' & I & L1 & L2 & _).
    rewrite E in E'. injection E' as <- <- <-. destruct (pl_commitments pub) as [|pair rest] eqn:Ep; [discriminate L2|].
    exists (MkPre S key pub sec 0%N pair :: gs). cbn [map pc_key pc_pub pc_sec]. rewrite X. split; [reflexivity|].
    intros g [<-|Hg]; [|apply Y, Hg]. cbn [pc_pos pc_key pc_pub pc_sec]. split; [reflexivity|]. split; [exact I|]. split; [exact B|].
    split; [exists r, 1, r'; exact E|]. split; [cbn; lia|]. cbn [pc_pub pc_pos pc_pair]. rewrite Ep. reflexivity. }
  destruct HG as (gs & Eg & HG).
  assert (Lgs : length gs = length chosen).
  { rewrite <- (map_length (fun g => (pc_key g, (pc_pub g, pc_sec g)))), Eg. clear -HX. induction HX; cbn; congruence. }
  assert (Hndg : NoDup (map (fun g => sk_index (pc_key g)) gs)).
  { assert (EM : map (fun g => sk_index (pc_key g)) gs = map (fun x => sk_index (fst x)) xs) by (rewrite <- Eg, map_map; reflexivity).
    rewrite EM. destruct HR as [[Hids _] _]. rewrite map_map, Hi in Hids. clear -HX Hnd Hids.
    induction HX as [|k x chosen xs (A & _) HX IH]; cbn [map]; constructor; inversion Hnd as [|? ? N1 N2]; subst.
    - intros H. apply in_map_iff in H. destruct H as (y & Ey & Hy). destruct (forall2_in_r _ _ _ HX y Hy) as (k' & Hk' & (A' & _)).
      apply N1. assert (k = k'); [|subst; exact Hk']. eapply NoDup_nth_error; [exact Hids| |congruence].
      apply nth_error_Some. rewrite A. discriminate.
    - apply IH, N2. }
  destruct (C43_with_precomputed_lists S L m params message (N.to_nat (u32v (p_t params))) s (map snd outs) gs HR) as (a1 & ps & R1' & R2' & R3').
  { lia. } { rewrite Lgs. exact Hlen. }
  { rewrite Lgs. assert (length chosen <= length ids); [|lia].
    rewrite <- (seq_length (length ids) 0). apply NoDup_incl_length; [exact Hnd|]. intros k Hk. apply in_seq. specialize (Hlt k Hk). lia. }
  { intros g Hg. destruct (HG g Hg) as (_ & _ & A & B). auto. }
  { exact Hndg. }
  assert (EI : doc_include_all (agg_new params (gen * s)%G message) xs = Ok a1).
  { rewrite <- Eg. clear -R1' HG. revert R1'. generalize (agg_new params (gen * s)%G message). induction gs as [|g gs IH]; intros a H; cbn [map] in H.
    - inversion H; subst. reflexivity.
    - cbn [map doc_include_all]. destruct (HG g (or_introl eq_refl)) as (P0 & I & _ & (_ & _ & Hnth)). rewrite P0 in Hnth. cbn [N.to_nat] in Hnth.
      unfold doc_include at 1. cbn [fst snd]. rewrite Hnth. cbn [unwrap bind].
      inversion H as [|x i com pk o x1 tr x3 HI HRun|]; subst. rewrite <- I, HI. cbn [snd]. apply IH; [|exact HRun].
      intros g' Hg'. apply HG. right; exact Hg'. }
  rewrite EI. cbn [bind].
  assert (EP : traverse (fun x : SigningKey * (PublicList * SecretList) => fst (sign m (fst x) (h4 message) (gen * s)%G (snd (snd x)) 0 (ag_signers (ai_state a1)))) xs = Ok ps).
  { rewrite <- Eg. clear -R2' HG. induction R2' as [|g q gs ps E _ IH]; [reflexivity|]. cbn [map traverse fst snd].
    destruct (HG g (or_introl eq_refl)) as (P0 & _). rewrite P0 in E. rewrite E. cbn [bind].
    rewrite IH by (intros g' Hg'; apply HG; right; exact Hg'). reflexivity. }
  rewrite EP. cbn [bind].
  destruct (R3' ps (Permutation_refl _)) as (a2 & f & sig & B1 & B2 & B3 & B4).
  assert (EA : fold_left include_partial_signature ps a1 = a2).
  { clear -B1. unfold deliver in B1. revert a1 B1. induction ps as [|q ps IH]; intros a H; cbn [map] in H; inversion H; subst; [reflexivity|].
    cbn [fold_left]. apply IH. assumption. }
  rewrite EA, B2. cbn [bind]. rewrite B3. cbn [bind]. rewrite B4. cbn [bind]. exists sig, r1. split; [reflexivity|exact B4].
Qed.
Print Assumptions C107_documented_signing.

Theorem C107_documented_tour :
  forall (S : Suite) (L : SuiteLaws S) (m : build) (n t : u32) (ids : list u32) (chosen : list nat)
         (n' t' : u32) (ids' : list u32) (chosen' : list nat) (message : list byte) (r : Rng),
  good_indices ids -> N.of_nat (length ids) = u32v n -> (1 <= u32v t <= u32v n)%N ->
  NoDup chosen -> (forall k, In k chosen -> k < length ids) -> N.to_nat (u32v t) <= length chosen ->
  good_indices ids' -> N.of_nat (length ids') = u32v n' -> (1 <= u32v t' <= u32v n')%N ->
  NoDup chosen' -> (forall k, In k chosen' -> k < length ids') -> N.to_nat (u32v t') <= length chosen' ->
  exists gk sig sig', doc_tour m n t ids chosen n' t' ids' chosen' message r = Ok (gk, sig, sig') /\
    verify_signature gk sig (h4 message) = Ok tt /\ verify_signature gk sig' (h4 message) = Ok tt.
Proof.
  intros S L m n t ids chosen n' t' ids' chosen' message r H1 H2 H3 H4 H5 H6 K1 K2 K3 K4 K5 K6. unfold doc_tour.
  destruct (C107_documented_key_generation S L m n t ids r H1 H2 H3) as (ps & outs & r1 & s & E1 & _ & HO & EC).
  rewrite E1. cbn [bind]. rewrite EC. cbn [bind].
  destruct (C107_documented_signing S L m (MkParams n t) ids s outs chosen message r1 HO (N.eq_le_incl _ _ H2)) as (sig & r2 & E2 & V2); try assumption; [apply H3|].
  rewrite E2. cbn [bind].
  destruct (C107_documented_resharing S L m (MkParams n t) outs ids s n' t' ids' r2 HO H2 H3 K1 K2 K3) as (outs' & r3 & E3 & HO').
  rewrite E3. cbn [bind].
  destruct (C107_documented_signing S L m (MkParams n' t') ids' s outs' chosen' message r3 HO' (N.eq_le_incl _ _ K2)) as (sig' & r4 & E4 & V4); try assumption; [apply K3|].
  rewrite E4. cbn [bind].
  assert (Eg : hd Gzero (map fst outs) = (gen * s)%G).
  { apply hd_map_const; [|apply HO]. intros ->. destruct HO as (X & _). cbn in X. subst ids. cbn in H2. lia. }
  rewrite Eg. exists (gen * s)%G, sig, sig'. auto.
Qed.
Print Assumptions C107_documented_tour.

(** the documented session on the toy suite: 3 participants with threshold 2, Alice and Carol sign; reshared to 4
    participants with threshold 3 (new_params of the documentation), of whom the 4th, 1st and 2nd sign *)
Definition tour_ids : list u32 := [u 1; u 2; u 3].
Definition tour_ids' : list u32 := [u 1; u 2; u 3; u 4].
Definition tour_run : result (G * ThresholdSig * ThresholdSig) :=
  doc_tour (S := Toy) Debug (u 3) (u 2) tour_ids [0; 2] (u 4) (u 3) tour_ids' [3; 0; 1] [x68; x69] 77%N.
Example C107_ex_hypotheses :
  good_indices tour_ids /\ N.of_nat (length tour_ids) = u32v (u 3) /\ (1 <= u32v (u 2) <= u32v (u 3))%N /\
  NoDup [0; 2] /\ (forall k, In k [0; 2] -> k < length tour_ids) /\ N.to_nat (u32v (u 2)) <= length [0; 2] /\
  good_indices tour_ids' /\ N.of_nat (length tour_ids') = u32v (u 4) /\ (1 <= u32v (u 3) <= u32v (u 4))%N /\
  NoDup [3; 0; 1] /\ (forall k, In k [3; 0; 1] -> k < length tour_ids') /\ N.to_nat (u32v (u 3)) <= length [3; 0; 1].
Proof.
  assert (V : u32v (u 2) = 2%N /\ u32v (u 3) = 3%N /\ u32v (u 4) = 4%N) by (split; [|split]; reflexivity).
  destruct V as (V2 & V3 & V4). rewrite V2, V3, V4.
  repeat match goal with |- _ /\ _ => split end; try (cbn; lia); try good; try reflexivity;
    try (repeat constructor; cbn; intuition lia).
Qed.
Example C107_ex :
  (let* (gk, sig, sig') := tour_run in
   Ok (Geqb gk Gzero, verify_signature gk sig (h4 [x68; x69]), verify_signature gk sig' (h4 [x68; x69]), Geqb (ts_R sig) (ts_R sig')))
  = Ok (false, Ok tt, Ok tt, false).
Proof. vms. Qed.
