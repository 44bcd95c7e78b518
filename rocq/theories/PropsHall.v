(** C134: many signing sessions at the same time. *)
From Coq Require Import String Strings.Byte Arith NArith ZArith Bool List Permutation Sorted Lia Field.
From Verif Require Import Base Suite Spec SpecDkg SpecSign SpecCodec SpecEnd SpecHall Types ModelDkg ModelSign ModelCodec Algebra BaseLemmas
  LemmasShare LemmasFinish LemmasSign LemmasAgg LemmasCodec Toy Demo DemoSign PropsSign PropsAgg PropsHist PropsEnd
  PropsHandover PropsWallet.
Import ListNotations.

Section Lem.
  Context {S : Suite} {L : SuiteLaws S}.

  Record sound (m : build) (ks : list SigningKey) (h : Hall) : Prop := {
    so_keys : map mc_key (hl_machines h) = ks;
    so_fits : forall mc l, In mc (hl_machines h) -> In l (mc_lists mc) -> fits l;
    so_pairs : Permutation (map (fun u => (us_key u, us_pair u)) (hl_answers h) ++ stock h) (hl_made h);
    so_answers : forall u, In u (hl_answers h) -> In (us_key u) ks /\ exists l pos l',
      sign m (us_key u) (us_hash u) (us_gk u) l pos (us_signers u) = (Ok (us_sig u), l') /\
      nth_error (sl_commitments l) (N.to_nat pos) = Some (us_pair u);
    so_tables : forall t, In t (hl_tables h) -> agg_run (agg_new (tb_params t) (tb_gk t) (tb_msg t)) (tb_calls t) (tb_agg t);
    so_made : forall k cs, In (k, cs) (hl_made h) -> consistent cs }.

  Lemma perm_more {A} (a b c d e f : list A) : Permutation (a ++ b ++ d ++ e) f -> Permutation (a ++ b ++ (c ++ d) ++ e) (c ++ f).
  Proof.
    intros <-. rewrite <- (app_assoc c), (app_assoc a b (c ++ _)), (app_assoc a b (d ++ _)). apply Permutation_app_swap_app.
  Qed.
  Lemma perm_use {A} (a b x y z u d m : list A) c : Permutation (a ++ b ++ (x ++ (y ++ c :: z) ++ u) ++ d) m ->
    Permutation ((c :: a) ++ b ++ (x ++ (y ++ z) ++ u) ++ d) m.
  Proof.
    intros <-. rewrite <- !app_assoc. cbn [app]. rewrite !(app_assoc a b), !(app_assoc (a ++ b)), !(app_assoc _ y). apply Permutation_middle.
  Qed.
  Lemma stock_split m1 k w m2 made ans tabs :
    stock (MkHall (m1 ++ MkMachine k w :: m2) made ans tabs) =
    stock (MkHall m1 made ans tabs) ++ map (pair k) (concat w) ++ stock (MkHall m2 made ans tabs).
  Proof. unfold stock. cbn [hl_machines]. rewrite flat_map_app. reflexivity. Qed.
  Lemma stock_any h made ans tabs : stock (MkHall (hl_machines h) made ans tabs) = stock h.
  Proof. reflexivity. Qed.
  Lemma stock_at h m1 k w m2 made ans tabs : hl_machines h = m1 ++ MkMachine k w :: m2 ->
    stock h = stock (MkHall m1 made ans tabs) ++ map (pair k) (concat w) ++ stock (MkHall m2 made ans tabs).
  Proof. intros E. rewrite <- (stock_split m1 k w m2). unfold stock. rewrite E. reflexivity. Qed.

  Lemma reloads_id m ks h h' : sound m ks h -> reloads h h' -> h' = h.
  Proof.
    intros HS [m1 k wa l wb m2 b l' E Hb Hd].
    assert (Hf : fits l).
    { apply (so_fits _ _ _ HS (MkMachine k (wa ++ l :: wb))); [rewrite E|cbn]; apply in_elt. }
    pose proof (secret_list_back l b _ Hf Hb Hd) as X. injection X as ->. rewrite <- E. destruct h. reflexivity.
  Qed.

  Lemma sound_step m ks h h' : sound m ks h -> deed m h h' -> sound m ks h'.
  Proof.
    intros HS D. pose proof HS as [H1 H2 H3 H4 H5 H6]. destruct D as
      [m1 k w m2 r n pub sec r' E Hn Hg
      |m1 k wa l wb m2 hash gk ss idx p l1 cs E Hs Hc
      |m1 k wa l wb m2 hash gk ss idx o l1 E Hs Ho
      |h' HR|p gk msg|t1 t t2 i com pk o a E HI|t1 t t2 p E].
    - destruct (C37_lists_are_consistent S L r k n) as (pub' & sec' & r'' & E' & _ & Hl & _ & HC). rewrite Hg in E'. injection E' as <- <- <-.
      constructor; cbn [hl_machines hl_made hl_answers hl_tables]; auto.
      + rewrite <- H1, E, !map_app. reflexivity.
      + intros mc l Hm Hi. apply in_elt_inv in Hm. destruct Hm as [Hm|Hm]; [subst mc|].
        * cbn in Hi. destruct Hi as [<-|Hi]; [unfold fits; rewrite Hl; exact Hn|]. apply (H2 (MkMachine k w)); [rewrite E; apply in_elt|exact Hi].
        * apply (H2 mc); [|exact Hi]. rewrite E. apply in_or_app. apply in_app_or in Hm. destruct Hm; [left|right; right]; assumption.
      + rewrite stock_split. cbn [concat]. rewrite map_app.
        apply perm_more. rewrite <- (stock_at h m1 k w m2 _ _ _ E). exact H3.
      + intros k0 cs Hi. apply in_app_or in Hi. destruct Hi as [Hi|Hi]; [|eauto]. apply in_map_iff in Hi. destruct Hi as (c & [= <- <-] & Hi).
        apply In_nth_error in Hi. destruct Hi as (j & Hj). apply (HC _ _ Hj).
    - destruct (C39_sign_consumes_its_pair _ _ _ _ _ _ _ _ _ _ _ Hs) as (cs' & a & b & E1 & E2 & E3 & E4 & _).
      assert (cs' = cs) by congruence. subst cs'. 
      constructor; cbn [hl_machines hl_made hl_answers hl_tables]; auto.
      + rewrite <- H1, E, !map_app. reflexivity.
      + intros mc l0 Hm Hi. apply in_elt_inv in Hm. destruct Hm as [Hm|Hm]; [subst mc|].
        * cbn in Hi. apply in_elt_inv in Hi. destruct Hi as [Hi|Hi]; [subst l0|].
          -- assert (X : fits l) by (apply (H2 (MkMachine k (wa ++ l :: wb))); [rewrite E|]; apply in_elt).
             unfold fits in *. subst l l1. rewrite app_length in *. cbn [length] in X. lia.
          -- apply (H2 (MkMachine k (wa ++ l :: wb))); [rewrite E; apply in_elt|]. cbn. apply in_or_app. apply in_app_or in Hi.
             destruct Hi; [left|right; right]; assumption.
        * apply (H2 mc); [|exact Hi]. rewrite E. apply in_or_app. apply in_app_or in Hm. destruct Hm; [left|right; right]; assumption.
      + cbn [map us_key us_pair]. rewrite stock_split. subst l l1. rewrite concat_app. cbn [concat]. rewrite !map_app. apply perm_use.
        rewrite (stock_at h m1 k _ m2 (hl_made h) (MkUse k hash gk ss cs p :: hl_answers h) (hl_tables h) E) in H3.
        rewrite concat_app in H3. cbn [concat] in H3. rewrite !map_app in H3. exact H3.
      + intros u [<-|Hu]; [|apply H4, Hu]. cbn [us_key us_hash us_gk us_signers us_sig us_pair]. split.
        * rewrite <- H1, E, map_app. apply in_elt.
        * exists (MkSecList l), idx, (MkSecList l1). split; [exact Hs|exact Hc].
    - assert (l1 = l). { apply sign_fail in Hs; [|exact Ho]. injection Hs as ->. reflexivity. } subst l1.
      rewrite <- E. destruct h. exact HS.
    - rewrite (reloads_id _ _ _ _ HS HR). exact HS.
    - constructor; cbn [hl_machines hl_made hl_answers hl_tables]; auto.
      intros t [<-|Ht]; [constructor|apply H5, Ht].
    - constructor; cbn [hl_machines hl_made hl_answers hl_tables]; auto.
      intros t0 Ht. apply in_elt_inv in Ht. destruct Ht as [Ht|Ht]; [subst t0|].
      + cbn. apply agg_run_app. exists (tb_agg t). split; [apply H5; rewrite E; apply in_elt|]. econstructor; [exact HI|constructor].
      + apply H5. rewrite E. apply in_or_app. apply in_app_or in Ht. destruct Ht; [left|right; right]; assumption.
    - constructor; cbn [hl_machines hl_made hl_answers hl_tables]; auto.
      intros t0 Ht. apply in_elt_inv in Ht. destruct Ht as [Ht|Ht]; [subst t0|].
      + cbn. apply agg_run_app. exists (tb_agg t). split; [apply H5; rewrite E; apply in_elt|]. econstructor. constructor.
      + apply H5. rewrite E. apply in_or_app. apply in_app_or in Ht. destruct Ht; [left|right; right]; assumption.
  Qed.

  Lemma sound_opening m ks : sound m ks (opening ks).
  Proof.
    constructor; cbn [opening hl_machines hl_made hl_answers hl_tables]; [|intros mc l Hm Hl| |intros u []|intros t []|intros k cs []].
    - rewrite map_map. apply map_id.
    - apply in_map_iff in Hm. destruct Hm as (k & <- & _). destruct Hl.
    - cbn. unfold stock. cbn [hl_machines]. induction ks as [|k ks IH]; [constructor|exact IH].
  Qed.
  Lemma sound_deeds m ks h h' : deeds m h h' -> sound m ks h -> sound m ks h'.
  Proof. induction 1 as [h|h h' h'' H IH D]; intros HS; [exact HS|]. eapply sound_step; [apply IH, HS|exact D]. Qed.
  Lemma happened_sound m ks h : happened m ks h -> sound m ks h.
  Proof. intros H. eapply sound_deeds; [exact H|apply sound_opening]. Qed.
  Lemma deeds_trans m h h' h'' : deeds m h h' -> deeds m h' h'' -> deeds m h h''.
  Proof. intros H1 H2. induction H2 as [h'|h' h2 h3 H2 IH D]; [exact H1|]. econstructor; [apply IH, H1|exact D]. Qed.
  Lemma deeds_one m h h' : deed m h h' -> deeds m h h'.
  Proof. intros D. econstructor; [constructor|exact D]. Qed.

  (** the position of a pair that is still held *)
  Lemma in_stock h k cs : In (k, cs) (stock h) -> exists m1 wa l wb m2 pos, hl_machines h = m1 ++ MkMachine k (wa ++ l :: wb) :: m2 /\
    nth_error l pos = Some cs.
  Proof.
    unfold stock. intros Hi. apply in_flat_map in Hi. destruct Hi as ([k' w] & Hm & Hi). cbn [mc_key mc_lists] in Hi.
    apply in_map_iff in Hi. destruct Hi as (c & [= -> ->] & Hi). apply in_concat in Hi. destruct Hi as (l & Hl & Hi).
    apply in_split in Hm. destruct Hm as (m1 & m2 & Em). apply in_split in Hl. destruct Hl as (wa & wb & ->).
    apply In_nth_error in Hi. destruct Hi as (pos & Hp). exists m1, wa, l, wb, m2, pos. split; assumption.
  Qed.

  Lemma signer_eq s s' : sg_index s = sg_index s' -> sg_com s = sg_com s' -> s = s'.
  Proof. destruct s, s'. cbn. congruence. Qed.

  (** the answers still missing are given, whatever else was done before *)
  Lemma answer_all m ks t : good_indices (map sg_index (seated t)) ->
    forall todo, incl todo (seated t) -> forall h, sound m ks h -> booked ks h t -> reserved h t ->
    exists h' new us, deeds m h h' /\ hl_tables h' = hl_tables h /\ hl_made h' = hl_made h /\ hl_answers h' = new ++ hl_answers h /\
      (forall u, In u new -> answers_table t u /\ exists s, In s (seated t) /\ made_by s u) /\
      Forall2 (fun s u => In u (hl_answers h') /\ made_by s u /\ answers_table t u /\ exists k, us_key u = k /\
        last_key (tb_calls t) (sg_index s) (gen * sk_key k)%G) todo us.
  Proof.
    intros HG. induction todo as [|s todo IH]; intros Hin h HS HB HR.
    - exists h, [], []. split; [constructor|]. repeat (split; [reflexivity|]). split; [intros u []|constructor].
    - assert (Hs : In s (seated t)) by (apply Hin; left; reflexivity).
      destruct (HB s Hs) as (k & cs & Hk & Ei & Ec & Hm & HL).
      assert (Hstep : exists h1 new1 u, deeds m h h1 /\ hl_tables h1 = hl_tables h /\ hl_made h1 = hl_made h /\
        hl_answers h1 = new1 ++ hl_answers h /\ (forall v, In v new1 -> v = u) /\ In u (hl_answers h1) /\ us_key u = k /\ us_pair u = cs /\ answers_table t u).
      { pose proof (Permutation_in _ (Permutation_sym (so_pairs _ _ _ HS)) Hm) as Hw. apply in_app_or in Hw. destruct Hw as [Hw|Hw].
        - apply in_map_iff in Hw. destruct Hw as (u & [= E1 E2] & Hu). exists h, [], u. split; [constructor|]. repeat (split; [reflexivity|]).
          split; [intros v []|]. split; [exact Hu|]. split; [exact E1|]. split; [exact E2|].
          apply (HR s u Hs Hu). split; congruence.
        - apply in_stock in Hw. destruct Hw as (m1 & wa & l & wb & m2 & pos & E & Hp).
          assert (Hf : fits l) by (apply (so_fits _ _ _ HS (MkMachine k (wa ++ l :: wb))); [rewrite E|]; apply in_elt).
          assert (Hlen : pos < length l) by (apply nth_error_Some; congruence).
          pose proof (sign_succeeds m k (h4 (tb_msg t)) (tb_gk t) (MkSecList l) (N.of_nat pos) (seated t) cs) as X.
          rewrite Nnat.Nat2N.id in X. cbn [sl_commitments] in X.
          specialize (X ltac:(unfold fits in Hf; lia) Hp ltac:(rewrite Ei; apply in_map, Hs) HG).
          set (p := MkPSig _ _) in X. set (l1 := sl_commitments (drop_share (MkSecList l) cs)).
          assert (X1 : sign m k (h4 (tb_msg t)) (tb_gk t) (MkSecList l) (N.of_nat pos) (seated t) = (Ok p, MkSecList l1)).
          { rewrite X. unfold l1. destruct (drop_share (MkSecList l) cs). reflexivity. }
          set (u := MkUse k (h4 (tb_msg t)) (tb_gk t) (seated t) cs p).
          exists (MkHall (m1 ++ MkMachine k (wa ++ l1 :: wb) :: m2) (hl_made h) (u :: hl_answers h) (hl_tables h)), [u], u.
          split; [apply deeds_one; eapply dd_answer; [exact E|exact X1|rewrite Nnat.Nat2N.id; exact Hp]|].
          repeat (split; [reflexivity|]). split; [intros v [<-|[]]; reflexivity|]. split; [left; reflexivity|].
          repeat split. }
      destruct Hstep as (h1 & new1 & u & D1 & T1 & M1 & A1 & N1 & Hu & Eu1 & Eu2 & Hat).
      assert (Hmb : made_by s u) by (split; congruence).
      assert (HS1 : sound m ks h1) by (eapply sound_deeds; eassumption).
      assert (HB1 : booked ks h1 t) by (intros s0 Hs0; rewrite M1; apply HB, Hs0).
      assert (HR1 : reserved h1 t).
      { intros s0 v Hs0 Hv Hmv. rewrite A1 in Hv. apply in_app_or in Hv. destruct Hv as [Hv|Hv]; [rewrite (N1 _ Hv); exact Hat|].
        apply (HR s0 v Hs0 Hv Hmv). }
      destruct (IH (fun x Hx => Hin x (or_intror Hx)) h1 HS1 HB1 HR1) as (h2 & new2 & us & D2 & T2 & M2 & A2 & N2 & HF).
      exists h2, (new2 ++ new1), (u :: us). split; [eapply deeds_trans; eassumption|]. split; [congruence|]. split; [congruence|].
      split; [rewrite A2, A1, app_assoc; reflexivity|]. split.
      + intros v Hv. apply in_app_or in Hv. destruct Hv as [Hv|Hv]; [apply N2, Hv|]. rewrite (N1 _ Hv). split; [exact Hat|]. exists s. split; assumption.
      + constructor; [|exact HF]. split; [rewrite A2; apply in_or_app; right; exact Hu|]. split; [exact Hmb|]. split; [exact Hat|].
        exists k. split; assumption.
  Qed.

  (** handing in any partial signatures at one table *)
  Definition with_parts (t : Table) (ps : list PartialSig) : Table :=
    MkTable (tb_params t) (tb_gk t) (tb_msg t) (tb_calls t ++ deliver ps) (fold_left include_partial_signature ps (tb_agg t)).
  Lemma hand_all m ps : forall h t1 t t2, hl_tables h = t1 ++ t :: t2 ->
    exists h', deeds m h h' /\ hl_made h' = hl_made h /\ hl_answers h' = hl_answers h /\ hl_tables h' = t1 ++ with_parts t ps :: t2.
  Proof.
    induction ps as [|p ps IH]; intros h t1 t t2 E.
    - exists h. split; [constructor|]. repeat (split; [reflexivity|]). rewrite E. unfold with_parts. cbn. rewrite app_nil_r. destruct t. reflexivity.
    - destruct (IH (MkHall (hl_machines h) (hl_made h) (hl_answers h)
        (t1 ++ MkTable (tb_params t) (tb_gk t) (tb_msg t) (tb_calls t ++ [(CPart p, Ok tt)]) (include_partial_signature (tb_agg t) p) :: t2))
        t1 _ t2 eq_refl) as (h' & D & M & A & T).
      exists h'. split; [eapply deeds_trans; [apply deeds_one, dd_hand, E|exact D]|]. split; [exact M|]. split; [exact A|].
      rewrite T. unfold with_parts. cbn [tb_params tb_gk tb_msg tb_calls tb_agg fold_left deliver map]. rewrite <- app_assoc. reflexivity.
  Qed.
  Lemma parts_keep_signers ps : forall a, ag_signers (ai_state (fold_left include_partial_signature ps a)) = ag_signers (ai_state a).
  Proof. induction ps as [|p ps IH]; intros a; [reflexivity|]. cbn [fold_left]. rewrite IH. reflexivity. Qed.
  Lemma parts_keep_keys tr ps i P : last_key tr i P -> last_key (tr ++ deliver ps) i P.
  Proof.
    intros (l1 & com & l2 & E & H). exists l1, com, (l2 ++ deliver ps). split; [rewrite E, <- app_assoc; reflexivity|].
    intros com' pk' X. apply in_app_or in X. destruct X as [X|X]; [eapply H, X|]. apply in_map_iff in X. destruct X as (p & X & _). discriminate.
  Qed.
  Lemma parts_last tr ps p : NoDup (map ps_index ps) -> In p ps -> last_partial (tr ++ deliver ps) (ps_index p) (ps_z p).
  Proof.
    intros Hn Hp. apply in_split in Hp. destruct Hp as (a & b & ->). exists (tr ++ deliver a), (deliver b). split.
    - unfold deliver. rewrite map_app. cbn [map]. destruct p. rewrite <- app_assoc. reflexivity.
    - intros z o X. apply in_map_iff in X. destruct X as (q & [= X _] & Hq). rewrite map_app in Hn. cbn [map] in Hn.
      apply NoDup_remove_2 in Hn. apply Hn, in_or_app. right. apply in_map_iff. exists q. split; [rewrite X; reflexivity|exact Hq].
  Qed.

  (** a table with all answers *)
  Lemma complete_table m ks thr s h t : sound m ks h -> recovers thr s ks -> 1 <= thr ->
    In t (hl_tables h) -> tb_gk t = (gen * s)%G -> thr <= length (seated t) ->
    (forall x, In x (seated t) -> delivered h t x) ->
    exists sig, outcome (tb_agg t) = Ok sig /\ verify_signature (tb_gk t) sig (h4 (tb_msg t)) = Ok tt.
  Proof.
    intros HS HR Ht1 Hin Hgk Hlen HD. pose proof (so_tables _ _ _ HS t Hin) as HA. pose proof (holds_run _ _ _ _ _ HA) as HH.
    set (book := fun i => match find (fun k => u32_eqb (sk_index k) i) ks with Some k => (gen * sk_key k)%G | None => Gzero end).
    assert (Hbook : forall k, In k ks -> book (sk_index k) = (gen * sk_key k)%G).
    { intros k Hk. unfold book. destruct (find _ ks) as [k'|] eqn:E.
      - apply find_some in E. destruct E as [E1 E2]. apply u32_eqb_spec in E2.
        rewrite (NoDup_map_inj_in sk_index ks (proj1 (proj1 HR)) k' k E1 Hk E2). reflexivity.
      - apply (find_none _ _ E) in Hk. rewrite (proj2 (u32_eqb_spec _ _) eq_refl) in Hk. discriminate. }
    assert (Hx : forall x, In x (seated t) -> exists u, In (us_key u) ks /\ sk_index (us_key u) = sg_index x /\ last_key (tb_calls t) (sg_index x) (gen * sk_key (us_key u))%G /\
      cooperates m (tb_gk t) (tb_msg t) book (tb_calls t) (tb_agg t) (sg_index x)).
    { intros x Hx. destruct (HD x Hx) as (u & Hu & (E1 & E2) & (E3 & E4 & E5) & HP & HK).
      destruct (so_answers _ _ _ HS u Hu) as (Hk & l & pos & l' & Hs & Hc). exists u. split; [exact Hk|]. split; [exact E1|]. split; [exact HK|].
      exists (us_key u), l, pos, (us_pair u), (us_sig u), l'. split; [exact E1|]. split; [rewrite <- E1; symmetry; apply Hbook, Hk|].
      rewrite <- E3, <- E4. unfold seated in E5. rewrite <- E5. split; [exact Hs|]. split; [exact Hc|]. split; [|exact HP].
      apply (hs_pairs _ _ _ _ _ HH). rewrite E2. destruct x. exact Hx. }
    set (LL := map sg_index (seated t)).
    assert (HLL : forall i, In i LL -> exists x, In x (seated t) /\ sg_index x = i).
    { intros i Hi. apply in_map_iff in Hi. destruct Hi as (x & <- & Hi). eauto. }
    assert (HG : good_indices LL).
    { split; [apply increasing_NoDup, HH|]. intros X. destruct (HLL _ X) as (x & Hx1 & Ex). destruct (Hx x Hx1) as (u & Hk & E & _).
      apply (proj2 (proj1 HR)). rewrite <- Ex, <- E. apply in_map, Hk. }
    destruct (C69_attempt_succeeds_or_names_culprits S L m (tb_params t) (tb_gk t) (tb_msg t) book thr (map sk_index ks) LL LL (tb_agg t))
      as [(sig & X)|(bad & _ & (i & B1 & B2) & _ & B3)].
    - rewrite Hgk. apply book_of_recovers; [exact HR|exact Hbook].
    - exact Ht1.
    - exact HG.
    - intros i Hi. destruct (HLL _ Hi) as (x & Hx1 & <-). destruct (Hx x Hx1) as (u & Hk & <- & _). apply in_map, Hk.
    - apply HG.
    - apply incl_refl.
    - unfold LL. rewrite map_length. exact Hlen.
    - exists (tb_calls t). split; [constructor|].
      + exact HA.
      + intros i. unfold LL. rewrite signer_in_index. split; intros (com & X); exists com; apply (hs_pairs _ _ _ _ _ HH), X.
      + intros i Hi. destruct (HLL _ Hi) as (x & Hx1 & <-). destruct (Hx x Hx1) as (u & Hk & E & HK & _). rewrite <- E at 2. rewrite (Hbook _ Hk). exact HK.
      + intros i Hi. destruct (HLL _ Hi) as (x & Hx1 & <-). destruct (Hx x Hx1) as (u & _ & _ & _ & X). exact X.
    - exists sig. exact X.
    - destruct (B3 i B1 B2).
  Qed.

  Lemma f2_in_l {A B} (R : A -> B -> Prop) l l' : Forall2 R l l' -> forall a, In a l -> exists b, In b l' /\ R a b.
  Proof. induction 1 as [|x y l l' H _ IH]; intros a; [intros []|]. intros [<-|Ha]; [exists y; split; [left; reflexivity|exact H]|].
    destruct (IH a Ha) as (b & Hb & X). exists b. split; [right; exact Hb|exact X]. Qed.

  Lemma finish_table m ks thr s h t1 t t2 : sound m ks h -> recovers thr s ks -> 1 <= thr ->
    hl_tables h = t1 ++ t :: t2 -> tb_gk t = (gen * s)%G -> thr <= length (seated t) -> booked ks h t -> reserved h t ->
    exists h' t' new, deeds m h h' /\ hl_tables h' = t1 ++ t' :: t2 /\ goes_on t t' /\ (forall x, In x (seated t') -> delivered h' t' x) /\ finished t' /\ hl_made h' = hl_made h /\
      hl_answers h' = new ++ hl_answers h /\ forall u, In u new -> answers_table t u /\ exists x, In x (seated t) /\ made_by x u.
  Proof.
    intros HS HR Ht1 E Hgk Hlen HB HV.
    pose proof (so_tables _ _ _ HS t ltac:(rewrite E; apply in_elt)) as HA. pose proof (holds_run _ _ _ _ _ HA) as HH.
    assert (HG : good_indices (map sg_index (seated t))).
    { split; [apply increasing_NoDup, HH|]. intros X. apply in_map_iff in X. destruct X as (x & Ex & Hx).
      destruct (HB x Hx) as (k & cs & Hk & Ei & _). apply (proj2 (proj1 HR)). rewrite <- Ex, <- Ei. apply in_map, Hk. }
    destruct (answer_all m ks t HG (seated t) (incl_refl _) h HS HB HV) as (h1 & new & us & D1 & T1 & M1 & A1 & N1 & HF).
    destruct (hand_all m (map us_sig us) h1 t1 t t2 ltac:(rewrite T1; exact E)) as (h2 & D2 & M2 & A2 & T2).
    set (t' := with_parts t (map us_sig us)) in *.
    assert (Hse : seated t' = seated t) by apply parts_keep_signers.
    assert (HS1 : sound m ks h1) by (eapply sound_deeds; eassumption).
    assert (HS2 : sound m ks h2) by (eapply sound_deeds; eassumption).
    assert (Hsig : forall u, In u (hl_answers h1) -> ps_index (us_sig u) = sk_index (us_key u)).
    { intros u Hu. destruct (so_answers _ _ _ HS1 u Hu) as (_ & l & pos & l' & X & _). apply sign_ok_inv in X.
      destruct X as (cs & _ & _ & _ & X & _). rewrite X. reflexivity. }
    assert (Eidx : map ps_index (map us_sig us) = map sg_index (seated t)).
    { clear -HF Hsig. induction HF as [|x u xs us (A & B & _) _ IH]; [reflexivity|]. cbn [map]. rewrite IH, (Hsig u A), (proj1 B). reflexivity. }
    exists h2, t', new. split; [eapply deeds_trans; eassumption|]. split; [exact T2|].
    split; [repeat (split; [reflexivity|]); exact Hse|].
    assert (HD : forall x, In x (seated t') -> delivered h2 t' x).
    { intros x Hx. rewrite Hse in Hx. destruct (f2_in_l _ _ _ HF x Hx) as (u & Hu & B1 & B2 & (B3 & B4 & B5) & k & B6 & B7).
      exists u. split; [rewrite A2; exact B1|]. split; [exact B2|]. split; [split; [exact B3|]; split; [exact B4|]; rewrite Hse; exact B5|].
      split; [|rewrite B6; apply parts_keep_keys, B7].
      rewrite <- (proj1 B2), <- (Hsig u B1). apply parts_last; [rewrite Eidx; apply HG|]. apply in_map, Hu. }
    split; [exact HD|]. split; [|split; [congruence|split; [congruence|exact N1]]].
    apply (complete_table m ks thr s h2 t' HS2 HR Ht1); [rewrite T2; apply in_elt|exact Hgk|rewrite Hse; exact Hlen|exact HD].
  Qed.

  Lemma finish_tables m ks thr s : recovers thr s ks -> 1 <= thr -> forall (pick : Table -> bool) rest done h, sound m ks h ->
    hl_tables h = done ++ rest ->
    (forall t, In t rest -> pick t = true -> tb_gk t = (gen * s)%G /\ thr <= length (seated t) /\ booked ks h t /\ reserved h t) ->
    (forall a t b t' c, rest = a ++ t :: b ++ t' :: c -> pick t = true -> pick t' = true -> forall x, In x (seated t) -> ~ In x (seated t')) ->
    exists h' rest', deeds m h h' /\ hl_tables h' = done ++ rest' /\
      Forall2 (fun t t' => goes_on t t' /\ (pick t = true -> finished t')) rest rest'.
  Proof.
    intros HR Ht pick. induction rest as [|t rest IH]; intros done h HS E HF HX.
    - exists h, []. split; [constructor|]. split; [exact E|constructor].
    - destruct (pick t) eqn:Ep.
      + destruct (HF t (or_introl eq_refl) Ep) as (Hgk & Hlen & HB & HV).
        destruct (finish_table m ks thr s h done t rest HS HR Ht E Hgk Hlen HB HV) as (h1 & t' & new & D1 & T1 & G1 & _ & F1 & M1 & A1 & N1).
        destruct (IH (done ++ [t']) h1) as (h2 & rest' & D2 & T2 & HF2).
        * eapply sound_deeds; eassumption.
        * rewrite <- app_assoc. exact T1.
        * intros t0 H0 Hp. destruct (HF t0 (or_intror H0) Hp) as (C1 & C2 & C3 & C4). split; [exact C1|]. split; [exact C2|].
          split; [intros x Hx; rewrite M1; apply C3, Hx|].
          intros x u Hx Hu Hmb. rewrite A1 in Hu. apply in_app_or in Hu. destruct Hu as [Hu|Hu]; [|apply (C4 x u Hx Hu Hmb)].
          exfalso. destruct (N1 u Hu) as (_ & y & Hy & Hyb). assert (x = y).
          { apply signer_eq; [rewrite <- (proj1 Hmb), <- (proj1 Hyb)|rewrite <- (proj2 Hmb), <- (proj2 Hyb)]; reflexivity. } subst y.
          apply in_split in H0. destruct H0 as (b & c & ->). exact (HX [] t b t0 c eq_refl Ep Hp x Hy Hx).
        * intros a t0 b t0' c E0. apply (HX (t :: a) t0 b t0' c). rewrite E0. reflexivity.
        * exists h2, (t' :: rest'). split; [eapply deeds_trans; eassumption|]. split; [rewrite T2, <- app_assoc; reflexivity|].
          constructor; [split; [exact G1|intros _; exact F1]|exact HF2].
      + destruct (IH (done ++ [t]) h HS) as (h2 & rest' & D2 & T2 & HF2).
        * rewrite <- app_assoc. exact E.
        * intros t0 H0. apply HF. right. exact H0.
        * intros a t0 b t0' c E0. apply (HX (t :: a) t0 b t0' c). rewrite E0. reflexivity.
        * exists h2, (t :: rest'). split; [exact D2|]. split; [rewrite T2, <- app_assoc; reflexivity|].
          constructor; [split; [repeat split|congruence]|exact HF2].
  Qed.
End Lem.

(** C134. Nothing is lost and nothing is used twice: the pairs generated are those of the answers and those still held *)
Theorem C134_pairs_are_conserved :
  forall (S : Suite) (L : SuiteLaws S) (m : build) (ks : list SigningKey) (h : Hall),
  happened m ks h -> Permutation (map (fun u => (us_key u, us_pair u)) (hl_answers h) ++ stock h) (hl_made h).
Proof. intros S L m ks h H. apply (so_pairs m ks h), happened_sound, H. Qed.
Print Assumptions C134_pairs_are_conserved.

(** so no published pair is in two answers of a machine, whoever asked, unless the machine generated it twice *)
Theorem C134_one_answer_per_pair :
  forall (S : Suite) (L : SuiteLaws S) (m : build) (ks : list SigningKey) (h : Hall) a u b v c,
  happened m ks h -> NoDup (hl_made h) -> hl_answers h = a ++ u :: b ++ v :: c -> us_key u = us_key v ->
  published (us_pair u) <> published (us_pair v) /\ (forall cs, In (us_key u, cs) (stock h) -> published cs <> published (us_pair u)).
Proof.
  intros S L m ks h a u b v c H HN E Hk. apply happened_sound in H. pose proof (so_pairs m ks h H) as HP.
  assert (HC : forall k cs cs', In (k, cs) (hl_made h) -> In (k, cs') (hl_made h) -> published cs = published cs' -> cs = cs').
  { intros k cs cs' X Y Z. destruct (so_made m ks h H k cs X) as [A1 A2], (so_made m ks h H k cs' Y) as [B1 B2].
    injection Z as Z1 Z2. destruct cs as [[? ?] [? ?]], cs' as [[? ?] [? ?]]. cbn in *. subst. apply gen_inj in Z1, Z2. subst. reflexivity. }
  assert (Hm : forall w, In w (hl_answers h) -> In (us_key w, us_pair w) (hl_made h)).
  { intros w Hw. apply (Permutation_in _ HP), in_or_app. left. apply (in_map (fun u => (us_key u, us_pair u))), Hw. }
  pose proof (Permutation_NoDup (Permutation_sym HP) HN) as HN'.
  assert (Hu : In u (hl_answers h)) by (rewrite E; apply in_elt).
  assert (Hv : In v (hl_answers h)) by (rewrite E; apply in_or_app; right; right; apply in_elt).
  split.
  - intros X. pose proof (Hm v Hv) as Y. rewrite <- Hk in Y. apply (HC _ _ _ (Hm u Hu) Y) in X.
    rewrite E, map_app in HN'. cbn [map] in HN'. rewrite <- app_assoc in HN'. cbn [app] in HN'. apply NoDup_remove_2 in HN'.
    apply HN'. rewrite map_app. cbn [map]. apply in_or_app. right. apply in_or_app. left. rewrite Hk, X. apply in_elt.
  - intros cs Hs X. pose proof (Permutation_in _ HP (in_or_app _ _ _ (or_intror Hs))) as Y. apply (HC _ _ _ Y (Hm u Hu)) in X. subst cs.
    apply in_split in Hs. destruct Hs as (x & y & Es). rewrite Es, app_assoc in HN'. apply NoDup_remove_2 in HN'.
    apply HN', in_or_app. left. apply in_or_app. left. apply (in_map (fun u => (us_key u, us_pair u))), Hu.
Qed.
Print Assumptions C134_one_answer_per_pair.

(** storing and reloading a list changes nothing, and is always possible *)
Theorem C134_reloading_changes_nothing :
  forall (S : Suite) (L : SuiteLaws S) (m : build) (ks : list SigningKey) (h : Hall),
  happened m ks h -> (forall h', reloads h h' -> h' = h) /\
  forall mc l, In mc (hl_machines h) -> In l (mc_lists mc) ->
    exists b, to_bytes ser_secret_list (MkSecList l) = Ok b /\ from_bytes de_secret_list b = Ok (MkSecList l).
Proof.
  intros S L m ks h H. apply happened_sound in H. split; [intros h'; apply (reloads_id m ks h h' H)|].
  intros mc l Hm Hl. exact (C77_restart_is_possible S L l (so_fits m ks h H mc l Hm Hl)).
Qed.
Print Assumptions C134_reloading_changes_nothing.

(** a table that has the answers of all its signers, at least as many as the threshold, gives a valid signature *)
Theorem C134_complete_tables_give_signatures :
  forall (S : Suite) (L : SuiteLaws S) (m : build) (ks : list SigningKey) (thr : nat) (s : F) (h : Hall) (t : Table),
  happened m ks h -> recovers thr s ks -> 1 <= thr ->
  In t (hl_tables h) -> tb_gk t = (gen * s)%G -> thr <= length (seated t) ->
  (forall x, In x (seated t) -> delivered h t x) -> finished t.
Proof. intros S L m ks thr s h t H. apply complete_table with (m := m), happened_sound, H. Qed.
Print Assumptions C134_complete_tables_give_signatures.

(** whoever delivered its answer is not named in an error, whatever the other signers of the table and all other tables do *)
Theorem C134_whoever_answers_is_not_named :
  forall (S : Suite) (L : SuiteLaws S) (m : build) (ks : list SigningKey) (h : Hall) (t : Table) (x : Signer) (bad : list u32),
  happened m ks h -> In t (hl_tables h) -> ~ In u32_zero (map sg_index (seated t)) ->
  outcome (tb_agg t) = Err (MisbehavingParticipants bad) -> In x (seated t) -> delivered h t x -> ~ In (sg_index x) bad.
Proof.
  intros S L m ks h t x bad H Ht Hz Ho Hx (u & Hu & (E1 & E2) & (E3 & E4 & E5) & HP & HK) Hin. apply happened_sound in H.
  pose proof (so_tables _ _ _ H t Ht) as HA. pose proof (holds_run _ _ _ _ _ HA) as HH.
  destruct (so_answers _ _ _ H u Hu) as (_ & l & pos & l' & Hs & Hc).
  unfold outcome in Ho. destruct (C47_finalize S L _ _ _ _ _ HA) as (un & kl & _ & _ & U & K & F1 & F2 & F3).
  assert (Hun : ~ In (sg_index x) un) by (intros X; apply U in X; apply (proj2 X _ HP)).
  assert (Hkl : ~ In (sg_index x) kl) by (intros X; apply K in X; apply (proj2 X _ HK)).
  assert (Hx0 : sg_index x <> u32_zero) by (intros X; apply Hz; rewrite <- X; apply in_map, Hx).
  destruct un as [|i un].
  - destruct kl as [|i kl].
    + specialize (F1 eq_refl eq_refl). rewrite F1 in Ho. cbn [bind] in Ho.
      rewrite <- E1 in Hin, HP, HK. unfold seated in E5. rewrite E3, E4, E5 in Hs.
      refine (C45_honest_signer_never_blamed S L _ _ _ _ _ _ bad m (us_key u) l pos (us_pair u) (us_sig u) l' HA F1 Ho Hz Hs Hc _ HK HP Hin).
      apply (hs_pairs _ _ _ _ _ HH). rewrite E1, E2. destruct x. exact Hx.
    + rewrite (F2 eq_refl) in Ho by discriminate. injection Ho as <-. exact (Hkl Hin).
  - rewrite F3 in Ho by discriminate. cbn [bind] in Ho. injection Ho as <-. destruct Hin as [X|Hin]; [exact (Hx0 (eq_sym X))|].
    rewrite app_comm_cons in Hin. apply in_app_or in Hin. destruct Hin; [exact (Hun H0)|exact (Hkl H0)].
Qed.
Print Assumptions C134_whoever_answers_is_not_named.

(** whatever has happened, a table of at least threshold many machines, listed with their keys and with pairs they made and
    used for nothing else, can be completed: its signers can still answer, and then it gives a valid signature *)
Theorem C134_reserved_tables_can_finish :
  forall (S : Suite) (L : SuiteLaws S) (m : build) (ks : list SigningKey) (thr : nat) (s : F) (h : Hall) t1 (t : Table) t2,
  happened m ks h -> recovers thr s ks -> 1 <= thr ->
  hl_tables h = t1 ++ t :: t2 -> tb_gk t = (gen * s)%G -> thr <= length (seated t) -> booked ks h t -> reserved h t ->
  exists h' t', deeds m h h' /\ hl_tables h' = t1 ++ t' :: t2 /\ goes_on t t' /\
    (forall x, In x (seated t') -> delivered h' t' x) /\ finished t' /\
    (* only the missing answers were given *)
    exists new, hl_answers h' = new ++ hl_answers h /\ forall u, In u new -> answers_table t u /\ exists x, In x (seated t) /\ made_by x u.
Proof.
  intros S L m ks thr s h t1 t t2 H HR Ht E Hgk Hl HB HV.
  destruct (finish_table m ks thr s h t1 t t2 (happened_sound _ _ _ H) HR Ht E Hgk Hl HB HV) as (h' & t' & new & D & T & G & X & F & _ & A & N).
  exists h', t'. repeat (split; [assumption|]). exists new. split; assumption.
Qed.
Print Assumptions C134_reserved_tables_can_finish.

(** and so can any number of such tables at once, if no two of them share a pair *)
Theorem C134_disjoint_tables_do_not_interfere :
  forall (S : Suite) (L : SuiteLaws S) (m : build) (ks : list SigningKey) (thr : nat) (s : F) (h : Hall) (pick : Table -> bool),
  happened m ks h -> recovers thr s ks -> 1 <= thr ->
  (forall t, In t (hl_tables h) -> pick t = true -> tb_gk t = (gen * s)%G /\ thr <= length (seated t) /\ booked ks h t /\ reserved h t) ->
  (forall a t b t' c, hl_tables h = a ++ t :: b ++ t' :: c -> pick t = true -> pick t' = true ->
     forall x, In x (seated t) -> ~ In x (seated t')) ->
  exists h', deeds m h h' /\ Forall2 (fun t t' => goes_on t t' /\ (pick t = true -> finished t')) (hl_tables h) (hl_tables h').
Proof.
  intros S L m ks thr s h pick H HR Ht HF HX.
  destruct (finish_tables m ks thr s HR Ht pick (hl_tables h) [] h (happened_sound _ _ _ H) eq_refl HF HX) as (h' & rest & D & E & X).
  cbn [app] in E. exists h'. split; [exact D|]. rewrite E. exact X.
Qed.
Print Assumptions C134_disjoint_tables_do_not_interfere.

(** two sessions at once: machine 1 is listed in both, with different pairs, and so is machine 3. Machine 1 has answered the
    second one, and then a request that belongs to neither *)
Section Ex.
  Context {S : Suite} {L : SuiteLaws S}.
  Variables (m : build) (k1 k2 k3 : SigningKey) (r1 r3 r1' r3' : Rng) (pub1 pub3 : PublicList) (a b e c d f : CommitmentShare)
    (p : Params) (gk : G) (mA mB mC : list byte) (A1 A2 B1 B2 : AggInitial) (zB zC : PartialSig) (ssC : list Signer) (tag : G * G -> u32).
  Let sgn (k : SigningKey) (cs : CommitmentShare) : Signer := MkSigner (sk_index k) (published cs).
  Let vk (k : SigningKey) : VerifyingKey := MkVK (sk_index k) (gen * sk_key k)%G.
  Definition ex_uB : Use := MkUse k1 (h4 mB) gk [sgn k1 b; sgn k3 c] b zB.
  Definition ex_uC : Use := MkUse k1 (h4 mC) gk ssC e zC.
  Definition ex_tA : Table := MkTable p gk mA [(CInc (sk_index k1) (published a) (vk k1), Ok tt); (CInc (sk_index k3) (published d) (vk k3), Ok tt)] A2.
  Definition ex_tB : Table := MkTable p gk mB [(CInc (sk_index k1) (published b) (vk k1), Ok tt); (CInc (sk_index k3) (published c) (vk k3), Ok tt)] B2.
  Definition ex_made : list (SigningKey * CommitmentShare) := [(k3, c); (k3, d); (k3, f); (k1, a); (k1, b); (k1, e)].
  Definition ex_hall : Hall := MkHall [MkMachine k1 [[a]]; MkMachine k2 []; MkMachine k3 [[c; d; f]]] ex_made [ex_uC; ex_uB] [ex_tB; ex_tA].

  Hypothesis G1 : generate_commitment_share_lists r1 k1 3 = (pub1, MkSecList [a; b; e], r1').
  Hypothesis G3 : generate_commitment_share_lists r3 k3 3 = (pub3, MkSecList [c; d; f], r3').
  Hypothesis IA1 : include_signer (agg_new p gk mA) (sk_index k1) (published a) (vk k1) = (Ok tt, A1).
  Hypothesis IA2 : include_signer A1 (sk_index k3) (published d) (vk k3) = (Ok tt, A2).
  Hypothesis IB1 : include_signer (agg_new p gk mB) (sk_index k1) (published b) (vk k1) = (Ok tt, B1).
  Hypothesis IB2 : include_signer B1 (sk_index k3) (published c) (vk k3) = (Ok tt, B2).
  Hypothesis SA : seated ex_tA = [sgn k1 a; sgn k3 d].
  Hypothesis SB : seated ex_tB = [sgn k1 b; sgn k3 c].
  Hypothesis ZB : sign m k1 (h4 mB) gk (MkSecList [a; b; e]) 1 [sgn k1 b; sgn k3 c] = (Ok zB, MkSecList [a; e]).
  Hypothesis ZC : sign m k1 (h4 mC) gk (MkSecList [a; e]) 1 ssC = (Ok zC, MkSecList [a]).
  Hypothesis HT : NoDup (map (fun x => tag (published (snd x))) ex_made).
  Hypothesis HK : sk_index k1 <> sk_index k3.

  Ltac tidy D := cbn [sl_commitments opening hl_machines hl_made hl_answers hl_tables tb_params tb_gk tb_msg tb_calls tb_agg app map] in D.
  Lemma ex_happened : happened m [k1; k2; k3] ex_hall.
  Proof.
    pose proof (ds_none m (opening [k1; k2; k3])) as D.
    lazymatch type of D with deeds _ _ ?h => pose proof (ds_deed m _ _ _ D (dd_lists m h [] k1 [] [MkMachine k2 []; MkMachine k3 []] r1 3 _ _ _ eq_refl eq_refl G1)) as D1 end; tidy D1.
    lazymatch type of D1 with deeds _ _ ?h => pose proof (ds_deed m _ _ _ D1 (dd_lists m h [MkMachine k1 [[a; b; e]]; MkMachine k2 []] k3 [] [] r3 3 _ _ _ eq_refl eq_refl G3)) as D2 end; tidy D2.
    lazymatch type of D2 with deeds _ _ ?h => pose proof (ds_deed m _ _ _ D2 (dd_open m h p gk mA)) as D3 end; tidy D3.
    lazymatch type of D3 with deeds _ _ ?h => pose proof (ds_deed m _ _ _ D3 (dd_seat m h [] (MkTable p gk mA [] (agg_new p gk mA)) [] _ _ _ _ _ eq_refl IA1)) as D4 end; tidy D4.
    lazymatch type of D4 with deeds _ _ ?h => pose proof (ds_deed m _ _ _ D4 (dd_seat m h [] (MkTable p gk mA [(CInc (sk_index k1) (published a) (vk k1), Ok tt)] A1) [] _ _ _ _ _ eq_refl IA2)) as D5 end; tidy D5.
    lazymatch type of D5 with deeds _ _ ?h => pose proof (ds_deed m _ _ _ D5 (dd_open m h p gk mB)) as D6 end; tidy D6.
    lazymatch type of D6 with deeds _ _ ?h => pose proof (ds_deed m _ _ _ D6 (dd_seat m h [] (MkTable p gk mB [] (agg_new p gk mB)) [ex_tA] _ _ _ _ _ eq_refl IB1)) as D7 end; tidy D7.
    lazymatch type of D7 with deeds _ _ ?h => pose proof (ds_deed m _ _ _ D7 (dd_seat m h [] (MkTable p gk mB [(CInc (sk_index k1) (published b) (vk k1), Ok tt)] B1) [ex_tA] _ _ _ _ _ eq_refl IB2)) as D8 end; tidy D8.
    lazymatch type of D8 with deeds _ _ ?h => pose proof (ds_deed m _ _ _ D8 (dd_answer m h [] k1 [] [a; b; e] [] [MkMachine k2 []; MkMachine k3 [[c; d; f]]] _ _ _ 1%N _ _ b eq_refl ZB eq_refl)) as D9 end; tidy D9.
    lazymatch type of D9 with deeds _ _ ?h => exact (ds_deed m _ _ _ D9 (dd_answer m h [] k1 [] [a; e] [] [MkMachine k2 []; MkMachine k3 [[c; d; f]]] _ _ _ 1%N _ _ e eq_refl ZC eq_refl)) end.
  Qed.

  Lemma ex_differ : published b <> published a /\ published e <> published a /\ published e <> published b /\ published c <> published d.
  Proof.
    cbn in HT. repeat split; intros X; rewrite X in HT; repeat (apply NoDup_cons_iff in HT as [? HT]); cbn in *; intuition.
  Qed.
  Lemma ex_nodup : NoDup (hl_made ex_hall).
  Proof. exact (NoDup_map_inv _ _ HT). Qed.
  Lemma ex_booked t : In t (hl_tables ex_hall) -> booked [k1; k2; k3] ex_hall t.
  Proof.
    assert (K1 : forall t com k com' k', tb_calls t = [(CInc (sk_index k) com (vk k), Ok tt); (CInc (sk_index k') com' (vk k'), Ok tt)] ->
      sk_index k <> sk_index k' -> last_key (tb_calls t) (sk_index k) (gen * sk_key k)%G /\ last_key (tb_calls t) (sk_index k') (gen * sk_key k')%G).
    { clear. intros t com k com' k' -> Hn. split.
      - exists [], com, [(CInc (sk_index k') com' (vk k'), Ok tt)]. split; [reflexivity|]. intros com0 pk0 [X|[]]. injection X as X _ _. exact (Hn (eq_sym X)).
      - exists [(CInc (sk_index k) com (vk k), Ok tt)], com', []. split; [reflexivity|]. intros ? ? []. }
    intros [<-|[<-|[]]] x Hx.
    - destruct (K1 ex_tB _ _ _ _ eq_refl HK) as [X Y]. rewrite SB in Hx. destruct Hx as [<-|[<-|[]]].
      + exists k1, b. split; [left; reflexivity|]. repeat (split; [reflexivity|]). split; [cbn; tauto|exact X].
      + exists k3, c. split; [right; right; left; reflexivity|]. repeat (split; [reflexivity|]). split; [cbn; tauto|exact Y].
    - destruct (K1 ex_tA _ _ _ _ eq_refl HK) as [X Y]. rewrite SA in Hx. destruct Hx as [<-|[<-|[]]].
      + exists k1, a. split; [left; reflexivity|]. repeat (split; [reflexivity|]). split; [cbn; tauto|exact X].
      + exists k3, d. split; [right; right; left; reflexivity|]. repeat (split; [reflexivity|]). split; [cbn; tauto|exact Y].
  Qed.
  Lemma ex_reserved t : In t (hl_tables ex_hall) -> reserved ex_hall t.
  Proof.
    destruct ex_differ as (D1 & D2 & D3 & D4).
    intros [<-|[<-|[]]] x w Hx Hu [X1 X2].
    - rewrite SB in Hx. destruct Hx as [<-|[<-|[]]], Hu as [<-|[<-|[]]]; try (exfalso; exact (HK X1)); try (exfalso; exact (D3 X2)).
      split; [reflexivity|]. split; [reflexivity|]. rewrite SB. reflexivity.
    - rewrite SA in Hx. destruct Hx as [<-|[<-|[]]], Hu as [<-|[<-|[]]]; exfalso; first [exact (HK X1)|exact (D1 X2)|exact (D2 X2)].
  Qed.
  Lemma ex_disjoint x : In x (seated ex_tB) -> ~ In x (seated ex_tA).
  Proof.
    destruct ex_differ as (D1 & D2 & D3 & D4). rewrite SA, SB.
    intros [<-|[<-|[]]] [X|[X|[]]]; pose proof (f_equal sg_index X) as X1; pose proof (f_equal sg_com X) as X2.
    - exact (D1 (eq_sym X2)).
    - exact (HK (eq_sym X1)).
    - exact (HK X1).
    - exact (D4 (eq_sym X2)).
  Qed.

  (** machine 1 hands its answer in, and somebody hands in rubbish for machine 3 *)
  Variable rubbish : F.
  Definition ex_tB' : Table := MkTable p gk mB (tb_calls ex_tB ++ [(CPart zB, Ok tt); (CPart (MkPSig (sk_index k3) rubbish), Ok tt)])
    (include_partial_signature (include_partial_signature B2 zB) (MkPSig (sk_index k3) rubbish)).
  Definition ex_hall' : Hall := MkHall (hl_machines ex_hall) (hl_made ex_hall) (hl_answers ex_hall) [ex_tB'; ex_tA].
  Lemma ex_happened' : happened m [k1; k2; k3] ex_hall'.
  Proof.
    pose proof (ds_deed m _ _ _ ex_happened (dd_hand m ex_hall [] ex_tB [ex_tA] zB eq_refl)) as D1.
    lazymatch type of D1 with deeds _ _ ?h => exact (ds_deed m _ _ _ D1 (dd_hand m h [] (MkTable p gk mB (tb_calls ex_tB ++ [(CPart zB, Ok tt)]) (include_partial_signature B2 zB)) [ex_tA]
      (MkPSig (sk_index k3) rubbish) eq_refl)) end.
  Qed.
  Lemma ex_delivered : ps_index zB = sk_index k1 -> In (sgn k1 b) (seated ex_tB') /\ delivered ex_hall' ex_tB' (sgn k1 b).
  Proof.
    intros Hz. assert (E : seated ex_tB' = seated ex_tB) by reflexivity. split; [rewrite E, SB; left; reflexivity|].
    exists ex_uB. split; [right; left; reflexivity|]. split; [split; reflexivity|]. split; [split; [reflexivity|]; split; [reflexivity|]; rewrite E, SB; reflexivity|].
    split.
    - exists (tb_calls ex_tB), [(CPart (MkPSig (sk_index k3) rubbish), Ok tt)]. split.
      + cbn. rewrite <- Hz. destruct zB. reflexivity.
      + intros z' o [X|[]]. injection X as X _ _. exact (HK (eq_sym X)).
    - exists [], (published b), [(CInc (sk_index k3) (published c) (vk k3), Ok tt); (CPart zB, Ok tt); (CPart (MkPSig (sk_index k3) rubbish), Ok tt)].
      split; [reflexivity|]. intros com' pk' [X|[X|[X|[]]]]; try discriminate. injection X as X _ _. exact (HK (eq_sym X)).
  Qed.
End Ex.

(** on the toy suite, with the keys of C43_ex_recovers *)
Definition c134_p : Params := MkParams (u 3) (u 2).
Definition c134_vk (i : Z) : VerifyingKey := @MkVK Toy (sk_index (skey i)) (gen * sk_key (skey i))%G.
Definition c134_sit (a : AggInitial) (i : Z) (k : nat) : AggInitial :=
  snd (include_signer a (sk_index (skey i)) (published (spair i k)) (c134_vk i)).
Definition c134_A1 : AggInitial := c134_sit (agg_new c134_p sgroup [x68; x69]) 1 0.
Definition c134_A2 : AggInitial := c134_sit c134_A1 3 1.
Definition c134_B1 : AggInitial := c134_sit (agg_new c134_p sgroup [x62]) 1 1.
Definition c134_B2 : AggInitial := c134_sit c134_B1 3 0.
Definition c134_got (o : result PartialSig * SecretList) : PartialSig := match fst o with Ok p => p | _ => @MkPSig Toy (u 0) (mk 0) end.
Definition c134_seat (i : Z) (k : nat) : Signer := @MkSigner Toy (sk_index (skey i)) (published (spair i k)).
Definition c134_zB : PartialSig := c134_got (sign Debug (skey 1) (h4 [x62]) sgroup (snonces 1) 1 [c134_seat 1 1; c134_seat 3 0]).
Definition c134_ssC : list Signer := [c134_seat 1 2; c134_seat 2 0].
Definition c134_zC : PartialSig := c134_got (sign Debug (skey 1) (h4 [x63]) sgroup (snonces 1) 2 c134_ssC).
Definition c134_tag (x : @G Toy * @G Toy) : u32 := u (Z.to_N (fv (fst x))).
Definition c134_tA : Table := ex_tA (skey 1) (skey 3) (spair 1 0) (spair 3 1) c134_p sgroup [x68; x69] c134_A2.
Definition c134_tB : Table := ex_tB (skey 1) (skey 3) (spair 1 1) (spair 3 0) c134_p sgroup [x62] c134_B2.
Definition c134_hall : Hall := ex_hall (skey 1) (skey 2) (skey 3) (spair 1 0) (spair 1 1) (spair 1 2) (spair 3 0) (spair 3 1) (spair 3 2)
  c134_p sgroup [x68; x69] [x62] [x63] c134_A2 c134_B2 c134_zB c134_zC c134_ssC.
Lemma c134_G1 : generate_commitment_share_lists 50%N (skey 1) 3 = (w_pub 1, MkSecList [spair 1 0; spair 1 1; spair 1 2], w_end 1).
Proof. vmr. Qed.
Lemma c134_G3 : generate_commitment_share_lists 150%N (skey 3) 3 = (w_pub 3, MkSecList [spair 3 0; spair 3 1; spair 3 2], w_end 3).
Proof. vmr. Qed.
Lemma c134_I a i k o : include_signer a (sk_index (skey i)) (published (spair i k)) (c134_vk i) = (o, c134_sit a i k) <->
  fst (include_signer a (sk_index (skey i)) (published (spair i k)) (c134_vk i)) = o.
Proof. unfold c134_sit. destruct (include_signer a (sk_index (skey i)) (published (spair i k)) (c134_vk i)) as [x y]. cbn. split; [intros X; injection X as X; exact X|intros ->; reflexivity]. Qed.
Lemma c134_IA1 : include_signer (agg_new c134_p sgroup [x68; x69]) (sk_index (skey 1)) (published (spair 1 0)) (c134_vk 1) = (Ok tt, c134_A1).
Proof. apply c134_I. vmr. Qed.
Lemma c134_IA2 : include_signer c134_A1 (sk_index (skey 3)) (published (spair 3 1)) (c134_vk 3) = (Ok tt, c134_A2).
Proof. apply c134_I. vmr. Qed.
Lemma c134_IB1 : include_signer (agg_new c134_p sgroup [x62]) (sk_index (skey 1)) (published (spair 1 1)) (c134_vk 1) = (Ok tt, c134_B1).
Proof. apply c134_I. vmr. Qed.
Lemma c134_IB2 : include_signer c134_B1 (sk_index (skey 3)) (published (spair 3 0)) (c134_vk 3) = (Ok tt, c134_B2).
Proof. apply c134_I. vmr. Qed.
Lemma c134_SA : seated c134_tA = [c134_seat 1 0; c134_seat 3 1].
Proof. vmr. Qed.
Lemma c134_SB : seated c134_tB = [c134_seat 1 1; c134_seat 3 0].
Proof. vmr. Qed.
Lemma c134_ZB : sign Debug (skey 1) (h4 [x62]) sgroup (MkSecList [spair 1 0; spair 1 1; spair 1 2]) 1 [c134_seat 1 1; c134_seat 3 0] =
  (Ok c134_zB, MkSecList [spair 1 0; spair 1 2]).
Proof. vmr. Qed.
Lemma c134_ZC : sign Debug (skey 1) (h4 [x63]) sgroup (MkSecList [spair 1 0; spair 1 2]) 1 c134_ssC =
  (Ok c134_zC, MkSecList [spair 1 0]).
Proof. vmr. Qed.
Lemma c134_HT : NoDup (map (fun x => c134_tag (published (snd x))) (ex_made (skey 1) (skey 3) (spair 1 0) (spair 1 1) (spair 1 2) (spair 3 0) (spair 3 1) (spair 3 2))).
Proof. unfold ex_made. nodup. Qed.
Lemma c134_HK : sk_index (skey 1) <> sk_index (skey 3).
Proof. assert (E : u32_eqb (sk_index (skey 1)) (sk_index (skey 3)) = false) by vmr. intros X. apply u32_eqb_spec in X. rewrite X in E. discriminate. Qed.
Definition c134_ks : list SigningKey := [skey 1; skey 2; skey 3].
Example C134_ex_happened : happened Debug c134_ks c134_hall /\ NoDup (hl_made c134_hall) /\
  (exists u v, hl_answers c134_hall = [u; v] /\ us_key u = us_key v) /\
  exists h', reloads c134_hall h'.
Proof.
  split; [|split; [|split]].
  - exact (ex_happened (S := Toy) Debug (skey 1) (skey 2) (skey 3) 50%N 150%N (w_end 1) (w_end 3) (w_pub 1) (w_pub 3)
      (spair 1 0) (spair 1 1) (spair 1 2) (spair 3 0) (spair 3 1) (spair 3 2) c134_p sgroup [x68; x69] [x62] [x63]
      c134_A1 c134_A2 c134_B1 c134_B2 c134_zB c134_zC c134_ssC c134_G1 c134_G3 c134_IA1 c134_IA2 c134_IB1 c134_IB2 c134_ZB c134_ZC).
  - exact (ex_nodup (S := Toy) (skey 1) (skey 2) (skey 3) (spair 1 0) (spair 1 1) (spair 1 2) (spair 3 0) (spair 3 1) (spair 3 2)
      c134_p sgroup [x68; x69] [x62] [x63] c134_A2 c134_B2 c134_zB c134_zC c134_ssC c134_tag c134_HT).
  - eexists _, _. split; reflexivity.
  - destruct (C77_restart_is_possible Toy ToyLaws [spair 1 0]) as (b & E1 & E2); [unfold fits, N.lt; vmr|].
    eexists. exact (rl_list (S := Toy) c134_hall [] (skey 1) [] [spair 1 0] [] [MkMachine (skey 2) []; MkMachine (skey 3) [[spair 3 0; spair 3 1; spair 3 2]]]
      b [spair 1 0] eq_refl E1 E2).
Qed.
(** both tables meet the hypotheses of C134_reserved_tables_can_finish, and together those of C134_disjoint_tables_do_not_interfere *)
Lemma c134_tables : hl_tables c134_hall = [c134_tB; c134_tA].
Proof. reflexivity. Qed.
Lemma c134_booked t : In t (hl_tables c134_hall) -> booked c134_ks c134_hall t.
Proof. exact (ex_booked (S := Toy) (skey 1) (skey 2) (skey 3) (spair 1 0) (spair 1 1) (spair 1 2) (spair 3 0) (spair 3 1) (spair 3 2) c134_p sgroup [x68; x69] [x62] [x63] c134_A2 c134_B2 c134_zB c134_zC c134_ssC c134_SA c134_SB c134_HK t). Qed.
Lemma c134_reserved t : In t (hl_tables c134_hall) -> reserved c134_hall t.
Proof. exact (ex_reserved (S := Toy) (skey 1) (skey 2) (skey 3) (spair 1 0) (spair 1 1) (spair 1 2) (spair 3 0) (spair 3 1) (spair 3 2) c134_p sgroup [x68; x69] [x62] [x63] c134_A2 c134_B2 c134_zB c134_zC c134_ssC c134_tag c134_SA c134_SB c134_HT c134_HK t). Qed.
Lemma c134_disjoint x : In x (seated c134_tB) -> ~ In x (seated c134_tA).
Proof. exact (ex_disjoint (S := Toy) (skey 1) (skey 3) (spair 1 0) (spair 1 1) (spair 1 2) (spair 3 0) (spair 3 1) (spair 3 2)
  c134_p sgroup [x68; x69] [x62] c134_A2 c134_B2 c134_tag c134_SA c134_SB c134_HT c134_HK x). Qed.
Lemma c134_gk t : In t (hl_tables c134_hall) -> tb_gk t = (gen * mk 1000)%G.
Proof. rewrite c134_tables. intros [<-|[<-|[]]]; vmr. Qed.
Lemma c134_len t : In t (hl_tables c134_hall) -> 2 <= length (seated t).
Proof. rewrite c134_tables. intros [<-|[<-|[]]]; [rewrite c134_SB|rewrite c134_SA]; apply le_n. Qed.
Example C134_ex_reserved : recovers 2 (mk 1000) c134_ks /\
  (forall t, In t (hl_tables c134_hall) -> tb_gk t = (gen * mk 1000)%G /\ 2 <= length (seated t) /\ booked c134_ks c134_hall t /\ reserved c134_hall t) /\
  (forall a t b t' c, hl_tables c134_hall = a ++ t :: b ++ t' :: c -> forall x, In x (seated t) -> ~ In x (seated t')).
Proof.
  split; [exact C43_ex_recovers|]. split.
  - intros t Ht. split; [apply c134_gk, Ht|]. split; [apply c134_len, Ht|]. split; [apply c134_booked, Ht|apply c134_reserved, Ht].
  - rewrite c134_tables. generalize c134_disjoint. generalize c134_tB c134_tA. intros tB tA H a t b t' c E x.
    destruct a as [|a1 [|a2 [|a3 a]]]; try discriminate; [|destruct b; discriminate].
    injection E as <- E. destruct b as [|b1 [|b2 b]]; try discriminate. injection E as <- _. apply H.
Qed.
(** the hall in which the second table is complete *)
Example C134_ex_complete : exists h t, happened Debug c134_ks h /\ In t (hl_tables h) /\ tb_gk t = (gen * mk 1000)%G /\ 2 <= length (seated t) /\
  forall x, In x (seated t) -> delivered h t x.
Proof.
  destruct (C134_reserved_tables_can_finish Toy ToyLaws Debug c134_ks 2 (mk 1000) c134_hall [] c134_tB [c134_tA] (proj1 C134_ex_happened)
    C43_ex_recovers (le_S 1 1 (le_n 1)) c134_tables (c134_gk c134_tB (or_introl eq_refl)) (c134_len c134_tB (or_introl eq_refl))
    (c134_booked c134_tB (or_introl eq_refl)) (c134_reserved c134_tB (or_introl eq_refl))) as (h & t & D & T & (_ & G1 & _ & G2) & X & _).
  exists h, t. split; [eapply deeds_trans; [apply C134_ex_happened|exact D]|]. split; [rewrite T; left; reflexivity|].
  split; [rewrite G1; apply c134_gk; left; reflexivity|]. split; [rewrite G2; apply c134_len; left; reflexivity|exact X].
Qed.
(** and the one in which somebody handed in rubbish for machine 3: it is named, machine 1 is not *)
Definition c134_bad : Table := ex_tB' (skey 1) (skey 3) (spair 1 1) (spair 3 0) c134_p sgroup [x62] c134_B2 c134_zB (mk 5).
Definition c134_hall' : Hall := ex_hall' (skey 1) (skey 2) (skey 3) (spair 1 0) (spair 1 1) (spair 1 2) (spair 3 0) (spair 3 1) (spair 3 2)
  c134_p sgroup [x68; x69] [x62] [x63] c134_A2 c134_B2 c134_zB c134_zC c134_ssC (mk 5).
Example C134_ex_named : happened Debug c134_ks c134_hall' /\ In c134_bad (hl_tables c134_hall') /\
  map sg_index (seated c134_bad) = [u 1; u 3] /\ outcome (tb_agg c134_bad) = Err (MisbehavingParticipants [u 3]) /\
  In (c134_seat 1 1) (seated c134_bad) /\ delivered c134_hall' c134_bad (c134_seat 1 1).
Proof.
  split; [|split; [|split; [|split]]].
  - exact (ex_happened' (S := Toy) Debug (skey 1) (skey 2) (skey 3) 50%N 150%N (w_end 1) (w_end 3) (w_pub 1) (w_pub 3)
      (spair 1 0) (spair 1 1) (spair 1 2) (spair 3 0) (spair 3 1) (spair 3 2) c134_p sgroup [x68; x69] [x62] [x63]
      c134_A1 c134_A2 c134_B1 c134_B2 c134_zB c134_zC c134_ssC c134_G1 c134_G3 c134_IA1 c134_IA2 c134_IB1 c134_IB2 c134_ZB c134_ZC (mk 5)).
  - left. reflexivity.
  - vmr.
  - vmr.
  - refine (ex_delivered (S := Toy) Debug (skey 1) (skey 2) (skey 3) (spair 1 0) (spair 1 1) (spair 1 2) (spair 3 0) (spair 3 1) (spair 3 2)
      c134_p sgroup [x68; x69] [x62] [x63] c134_A2 c134_B2 c134_zB c134_zC c134_ssC c134_SB c134_ZB c134_HK (mk 5) _). vmr.
Qed.
