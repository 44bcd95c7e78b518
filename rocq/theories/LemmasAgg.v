(** Lemmas about the signature aggregator. *)
From Coq Require Import String Strings.Byte Arith NArith ZArith Bool List Permutation Sorted Lia Field.
From Verif Require Import Base Suite Spec SpecDkg SpecSign Types ModelDkg ModelSign Algebra BaseLemmas LemmasShare LemmasFinish LemmasSign.
Import ListNotations.

(** ** sorting an increasing list with one element appended *)
Section Snoc.
  Context {A : Type} (key : A -> u32).

  Lemma sort_by_snoc l x : sort_by key (l ++ [x]) = insert_sorted key x (sort_by key l).
  Proof. unfold sort_by. rewrite fold_left_app. reflexivity. Qed.
  Lemma sd_fix l : increasing (map key l) -> sd key l = l.
  Proof.
    intros H. apply (increasing_map_perm_eq key); [apply sd_increasing|exact H|]. apply sd_NoDup_perm, increasing_NoDup, H.
  Qed.
  Lemma sort_by_fix l : increasing (map key l) -> sort_by key l = l.
  Proof.
    intros H. assert (E := sd_fix l H). unfold sd in E. rewrite dedup_by_NoDup in E; [exact E|].
    eapply Permutation_NoDup; [apply Permutation_map, Permutation_sym, sort_by_perm|apply increasing_NoDup, H].
  Qed.
  Lemma insert_below x l : (forall y, In y l -> u32_lt (key x) (key y)) -> insert_sorted key x l = x :: l.
  Proof.
    destruct l as [|y l]; intros H; cbn; [reflexivity|]. destruct (u32_leb (key y) (key x)) eqn:E; [|reflexivity].
    apply u32_leb_spec in E. specialize (H y (or_introl eq_refl)). unfold u32_lt, u32_le_ in *. lia.
  Qed.
  Lemma dedup_from_insert x l : forall p, increasing (map key (p :: l)) -> In (key x) (map key l) ->
    dedup_from key p (insert_sorted key x l) = l.
  Proof.
    induction l as [|y l IH]; intros p Hi Hin; [contradiction|].
    cbn [map] in Hi. apply increasing_cons_inv in Hi. destruct Hi as [Hi Hp].
    assert (Hpy : key y <> key p) by (intros X; apply (u32_lt_neq (key p) (key y)); [apply Hp; left; reflexivity|congruence]).
    pose proof (increasing_cons_inv _ _ Hi) as [Hl Hy].
    cbn [insert_sorted]. assert (Hle : u32_leb (key y) (key x) = true).
    { apply u32_leb_spec. destruct Hin as [<-|Hin]; [unfold u32_le_; lia|]. specialize (Hy _ Hin). unfold u32_lt, u32_le_ in *. lia. }
    rewrite Hle. cbn [dedup_from]. apply u32_eqb_neq in Hpy. rewrite Hpy. f_equal.
    destruct Hin as [E|Hin].
    - rewrite insert_below by (intros z Hz; rewrite <- E; apply Hy, in_map, Hz). cbn [dedup_from].
      replace (u32_eqb (key x) (key y)) with true by (symmetry; apply u32_eqb_spec; congruence).
      apply dedup_from_NoDup. cbn [map]. apply increasing_NoDup, Hi.
    - apply IH; assumption.
  Qed.
  Lemma sd_snoc_old l x : increasing (map key l) -> In (key x) (map key l) -> sd key (l ++ [x]) = l.
  Proof.
    intros Hi Hin. unfold sd. rewrite sort_by_snoc, sort_by_fix by exact Hi.
    destruct l as [|y l]; [contradiction|].
    pose proof Hi as Hi'. cbn [map] in Hi. apply increasing_cons_inv in Hi. destruct Hi as [Hl Hy]. cbn [insert_sorted].
    assert (Hle : u32_leb (key y) (key x) = true).
    { apply u32_leb_spec. destruct Hin as [<-|Hin]; [unfold u32_le_; lia|]. specialize (Hy _ Hin). unfold u32_lt, u32_le_ in *. lia. }
    rewrite Hle. cbn [dedup_by]. f_equal. destruct Hin as [E|Hin].
    - rewrite insert_below by (intros z Hz; rewrite <- E; apply Hy, in_map, Hz). cbn [dedup_from].
      replace (u32_eqb (key x) (key y)) with true by (symmetry; apply u32_eqb_spec; congruence).
      apply dedup_from_NoDup, increasing_NoDup, Hi'.
    - apply dedup_from_insert; assumption.
  Qed.
  Lemma sd_snoc_new l x : increasing (map key l) -> ~ In (key x) (map key l) -> Permutation (sd key (l ++ [x])) (x :: l).
  Proof.
    intros Hi Hin. rewrite sd_NoDup_perm; [apply Permutation_sym, Permutation_cons_append|].
    rewrite map_app. cbn. eapply Permutation_NoDup; [apply Permutation_cons_append|]. constructor; [exact Hin|apply increasing_NoDup, Hi].
  Qed.
End Snoc.

Lemma in_split_snoc {A} (tr : list A) e l1 x l2 : tr ++ [e] = l1 ++ x :: l2 <->
  (l2 = [] /\ tr = l1 /\ e = x) \/ (exists l3, l2 = l3 ++ [e] /\ tr = l1 ++ x :: l3).
Proof.
  split.
  - destruct l2 as [|y l2] using rev_ind.
    + intros H. apply app_inj_tail in H. left. tauto.
    + intros H. change (l1 ++ x :: l2 ++ [y]) with (l1 ++ (x :: l2) ++ [y]) in H. rewrite app_assoc in H.
      apply app_inj_tail in H. destruct H as [-> ->]. right. exists l2. auto.
  - intros [[-> [-> ->]]|[l3 [-> ->]]]; [reflexivity|]. rewrite <- app_assoc. reflexivity.
Qed.

Lemma u32_dec (a b : u32) : {a = b} + {a <> b}.
Proof. destruct (u32_eqb a b) eqn:E; [left; apply u32_eqb_spec, E|right; apply u32_eqb_neq, E]. Qed.

Section LemmasAgg.
  Context {S : Suite} {L : SuiteLaws S}.
  Add Field F_fld : F_field.

  (** ** traces *)
  Lemma agg_run_app a tr1 tr2 a2 : agg_run a (tr1 ++ tr2) a2 <-> exists a1, agg_run a tr1 a1 /\ agg_run a1 tr2 a2.
  Proof.
    split.
    - revert a. induction tr1 as [|e tr1 IH]; intros a H.
      + exists a. split; [constructor|exact H].
      + cbn in H. inversion H; subst; match goal with X : agg_run _ (tr1 ++ tr2) _ |- _ => destruct (IH _ X) as [a3 [H1 H2]] end;
          exists a3; split; auto; econstructor; eassumption.
    - intros [a1 [H1 H2]]. induction H1; cbn; auto; econstructor; eauto.
  Qed.
  Lemma agg_run_fun a tr a1 : agg_run a tr a1 -> forall tr' a2, agg_run a tr' a2 -> map fst tr = map fst tr' -> tr = tr' /\ a1 = a2.
  Proof.
    induction 1; intros tr' a3 H' E.
    - destruct tr'; [|discriminate]. inversion H'; subst; auto.
    - destruct tr' as [|[c o'] tr']; [discriminate|]. cbn in E. injection E as <- E. inversion H'; subst.
      match goal with X : include_signer _ _ _ _ = (o', _) |- _ => rewrite H in X; injection X as <- <- end.
      match goal with X : agg_run _ tr' _ |- _ => destruct (IHagg_run _ _ X E) end. subst. auto.
    - destruct tr' as [|[c o'] tr']; [discriminate|]. cbn in E. injection E as <- E. inversion H'; subst.
      match goal with X : agg_run _ tr' _ |- _ => destruct (IHagg_run _ _ X E) end. subst. auto.
  Qed.

  Lemma first_pair_snoc tr e i com : first_pair (tr ++ [e]) i com <->
    first_pair tr i com \/ ((forall e', In e' tr -> ~ includes i e') /\ exists P o, e = (CInc i com (MkVK i P), o)).
  Proof.
    unfold first_pair. split.
    - intros (l1 & P & o & l2 & E & H). apply in_split_snoc in E. destruct E as [(-> & -> & ->)|(l3 & -> & ->)].
      + right. split; [exact H|]. exists P, o. reflexivity.
      + left. exists l1, P, o, l3. auto.
    - intros [(l1 & P & o & l2 & -> & H)|(H & P & o & ->)].
      + exists l1, P, o, (l2 ++ [e]). rewrite <- app_assoc. auto.
      + exists tr, P, o, []. auto.
  Qed.
  Lemma last_key_snoc tr e i P : last_key (tr ++ [e]) i P <->
    (exists com, e = (CInc i com (MkVK i P), Ok tt)) \/ (last_key tr i P /\ forall com pk, e <> (CInc i com pk, Ok tt)).
  Proof.
    unfold last_key. split.
    - intros (l1 & com & l2 & E & H). apply in_split_snoc in E. destruct E as [(-> & -> & ->)|(l3 & -> & ->)].
      + left. exists com. reflexivity.
      + right. split.
        * exists l1, com, l3. split; [reflexivity|]. intros com' pk' X. apply (H com' pk'), in_or_app. auto.
        * intros com' pk' ->. apply (H com' pk'), in_or_app. right. left. reflexivity.
    - intros [(com & ->)|((l1 & com & l2 & -> & H) & H')].
      + exists tr, com, []. split; [reflexivity|]. intros ? ? [].
      + exists l1, com, (l2 ++ [e]). split; [rewrite <- app_assoc; reflexivity|].
        intros com' pk' X. apply in_app_or in X. destruct X as [X|[X|[]]]; [apply (H _ _ X)|apply (H' _ _ X)].
  Qed.
  Lemma last_partial_snoc tr e i z : last_partial (tr ++ [e]) i z <->
    e = (CPart (MkPSig i z), Ok tt) \/ (last_partial tr i z /\ forall z' o, e <> (CPart (MkPSig i z'), o)).
  Proof.
    unfold last_partial. split.
    - intros (l1 & l2 & E & H). apply in_split_snoc in E. destruct E as [(-> & -> & ->)|(l3 & -> & ->)].
      + left. reflexivity.
      + right. split.
        * exists l1, l3. split; [reflexivity|]. intros z' o X. apply (H z' o), in_or_app. auto.
        * intros z' o ->. apply (H z' o), in_or_app. right. left. reflexivity.
    - intros [->|((l1 & l2 & -> & H) & H')].
      + exists tr, []. split; [reflexivity|]. intros ? ? [].
      + exists l1, (l2 ++ [e]). split; [rewrite <- app_assoc; reflexivity|].
        intros z' o X. apply in_app_or in X. destruct X as [X|[X|[]]]; [apply (H _ _ X)|apply (H' _ _ X)].
  Qed.
  Lemma first_pair_includes tr i : (exists com, first_pair tr i com) <-> exists e, In e tr /\ includes i e.
  Proof.
    induction tr as [|e tr IH] using rev_ind.
    - split; [intros (com & l1 & P & o & l2 & E & _); destruct l1; discriminate|intros (e & [] & _)].
    - split.
      + intros (com & H). apply first_pair_snoc in H. destruct H as [H|(H & P & o & ->)].
        * destruct (proj1 IH (ex_intro _ com H)) as (e' & H1 & H2). exists e'. split; [apply in_or_app; auto|exact H2].
        * eexists. split; [apply in_or_app; right; left; reflexivity|]. exists com, (MkVK i P). auto.
      + intros (e' & H1 & H2). apply in_app_or in H1.
        assert (D : (exists e, In e tr /\ includes i e) \/ forall e, In e tr -> ~ includes i e).
        { clear. assert (Dec : forall e : ACall * result unit, includes i e \/ ~ includes i e).
          { intros [[j com pk|p] o].
            - destruct (u32_dec j i) as [->|Hn]; [|right; intros (c & k & E & _); injection E as E _ _; contradiction].
              destruct (u32_dec (vk_index pk) i) as [Hk|Hk]; [left; exists com, pk; auto|].
              right; intros (c & k & E & E2). injection E as _ <-. contradiction.
            - right. intros (c & k & E & _). discriminate. }
          induction tr as [|e tr IH]; [right; intros ? []|].
          destruct (Dec e) as [H|H]; [left; exists e; split; [left; reflexivity|exact H]|].
          destruct IH as [(e' & A1 & A2)|IH]; [left; exists e'; split; [right; exact A1|exact A2]|].
          right. intros e' [<-|He']; auto. }
        destruct D as [D|D].
        * apply IH in D. destruct D as (com & D). exists com. apply first_pair_snoc. auto.
        * destruct H1 as [H1|[<-|[]]]; [destruct (D _ H1 H2)|]. destruct H2 as (com & [j P] & E & E'). cbn in E'. subst j.
          exists com. apply first_pair_snoc. right. split; [exact D|]. destruct e as [c o]. cbn in E. subst. exists P, o. reflexivity.
  Qed.

  (** ** what a call history leaves in the aggregator *)
  Record holds (p : Params) (gk : G) (msg : list byte) (tr : trace) (a : AggInitial) : Prop := {
    hs_params : ag_params (ai_state a) = p;
    hs_gk : ag_group_key (ai_state a) = gk;
    hs_msg : ai_message a = msg;
    hs_inc : increasing (map sg_index (ag_signers (ai_state a)));
    hs_pairs : forall i com, In (MkSigner i com) (ag_signers (ai_state a)) <-> first_pair tr i com;
    hs_ksort : ksorted (ag_keys (ai_state a));
    hs_keys : forall i P, bget i (ag_keys (ai_state a)) = Some P <-> last_key tr i P;
    hs_psort : ksorted (ag_partials (ai_state a));
    hs_parts : forall i z, bget i (ag_partials (ai_state a)) = Some z <-> last_partial tr i z;
    hs_sub : forall i, In i (bkeys (ag_keys (ai_state a))) -> In i (map sg_index (ag_signers (ai_state a)));
    hs_few : (N.of_nat (length (ag_keys (ai_state a))) <= u32v (p_n p))%N }.

  Lemma holds_new p gk msg : holds p gk msg [] (agg_new p gk msg).
  Proof.
    constructor; cbn [agg_new ai_state ag_params ag_group_key ai_message ag_signers ag_keys ag_partials map bget In bkeys length].
    1-3: reflexivity.
    - constructor.
    - intros i com. split; [intros []|]. intros (l1 & P & o & l2 & E & _). destruct l1; discriminate.
    - apply ksorted_nil.
    - intros i P. split; [discriminate|]. intros (l1 & com0 & l2 & E & _). destruct l1; discriminate.
    - apply ksorted_nil.
    - intros i z. split; [discriminate|]. intros (l1 & l2 & E & _). destruct l1; discriminate.
    - intros i [].
    - cbn. lia.
  Qed.

  Lemma signer_in_index i (l : list Signer) : In i (map sg_index l) <-> exists com, In (MkSigner i com) l.
  Proof.
    rewrite in_map_iff. split.
    - intros ([j com] & <- & H). exists com. exact H.
    - intros (com & H). eexists. split; [|exact H]. reflexivity.
  Qed.

  (** the signer list after an inclusion *)
  Definition enlisted (l : list Signer) (s : Signer) : list Signer := dedup_by sg_index (sort_by sg_index (l ++ [s])).
  Lemma enlisted_in l i com : increasing (map sg_index l) -> forall j c,
    In (MkSigner j c) (enlisted l (MkSigner i com)) <-> In (MkSigner j c) l \/ (~ In i (map sg_index l) /\ j = i /\ c = com).
  Proof.
    intros Hi j c. destruct (in_dec u32_dec i (map sg_index l)) as [H|H].
    - change (enlisted l (MkSigner i com)) with (sd sg_index (l ++ [MkSigner i com])). rewrite sd_snoc_old by assumption. tauto.
    - change (enlisted l (MkSigner i com)) with (sd sg_index (l ++ [MkSigner i com])).
      assert (P := sd_snoc_new sg_index l (MkSigner i com) Hi H). split.
      + intros X. apply (Permutation_in _ P) in X. destruct X as [X|X]; [|auto]. injection X as <- <-. auto.
      + intros X. apply (Permutation_in _ (Permutation_sym P)). destruct X as [X|(_ & -> & ->)]; [right; exact X|left; reflexivity].
  Qed.
  Lemma enlisted_index l i com j : In j (map sg_index (enlisted l (MkSigner i com))) <-> In j (map sg_index l) \/ j = i.
  Proof.
    unfold enlisted. change (dedup_by sg_index (sort_by sg_index (l ++ [MkSigner i com]))) with (sd sg_index (l ++ [MkSigner i com])).
    rewrite sd_keys, map_app, in_app_iff. cbn. intuition.
  Qed.
  Lemma enlisted_increasing l s : increasing (map sg_index (enlisted l s)).
  Proof. apply (sd_increasing sg_index). Qed.
  Lemma enlisted_length l s : increasing (map sg_index l) -> length l <= length (enlisted l s).
  Proof.
    intros H. change (enlisted l s) with (sd sg_index (l ++ [s])). destruct (in_dec u32_dec (sg_index s) (map sg_index l)) as [Hi|Hi].
    - rewrite sd_snoc_old by assumption. lia.
    - rewrite (Permutation_length (sd_snoc_new sg_index l s H Hi)). cbn. lia.
  Qed.

  Definition set_signers (a : AggInitial) (l : list Signer) (keys : bmap G) : AggInitial :=
    MkInit (MkAgg (ag_params (ai_state a)) l keys (ag_partials (ai_state a)) (ag_group_key (ai_state a))) (ai_message a).
  Lemma include_signer_cases a i com pk :
    (i <> vk_index pk /\ include_signer a i com pk = (Err (IndexMismatch i (vk_index pk)), a)) \/
    (i = vk_index pk /\ exists l, l = enlisted (ag_signers (ai_state a)) (MkSigner i com) /\
      (((u32v (p_n (ag_params (ai_state a))) < N.of_nat (length l))%N /\
        include_signer a i com pk = (Err (TooManySigners (length l) (p_n (ag_params (ai_state a)))), set_signers a l (ag_keys (ai_state a)))) \/
       ((N.of_nat (length l) <= u32v (p_n (ag_params (ai_state a))))%N /\
        include_signer a i com pk = (Ok tt, set_signers a l (binsert i (vk_share pk) (ag_keys (ai_state a))))))).
  Proof.
    unfold include_signer. destruct (u32_eqb i (vk_index pk)) eqn:E; cbn [negb].
    - right. apply u32_eqb_spec in E. split; [exact E|]. eexists. split; [reflexivity|]. fold (enlisted (ag_signers (ai_state a)) (MkSigner i com)).
      destruct (N.ltb_spec (u32v (p_n (ag_params (ai_state a)))) (N.of_nat (length (enlisted (ag_signers (ai_state a)) (MkSigner i com))))) as [H|H].
      + left. auto.
      + right. split; [exact H|]. rewrite <- E. reflexivity.
    - left. apply u32_eqb_neq in E. auto.
  Qed.

  Lemma NoDup_incl_len {A} (l l' : list A) : NoDup l -> incl l l' -> length l <= length l'.
  Proof. apply NoDup_incl_length. Qed.

  Lemma holds_run p gk msg : forall tr a, agg_run (agg_new p gk msg) tr a -> holds p gk msg tr a.
  Proof.
    induction tr as [|e tr IH] using rev_ind; intros a2 H.
    - inversion H; subst. apply holds_new.
    - apply agg_run_app in H. destruct H as (a & H1 & H2). specialize (IH _ H1).
      inversion H2 as [|a0 i com pk o a1 tr0 a3 HI HR|a0 q tr0 a3 HR]; subst; inversion HR; subst; clear H2 HR.
      + assert (NP : forall z j o', (CInc i com pk, o) <> (CPart (MkPSig j z), o')) by (intros; discriminate).
        destruct (include_signer_cases a i com pk) as [(Hne & E)|(-> & l & El & [(Hn & E)|(Hn & E)])]; rewrite E in HI; injection HI as <- <-.
        * destruct IH. constructor; auto; try tauto.
          -- intros j c. rewrite hs_pairs0, first_pair_snoc. split; [auto|]. intros [X|(_ & P & o & X)]; [exact X|].
             injection X as -> -> -> _. cbn in Hne. congruence.
          -- intros j P. rewrite hs_keys0, last_key_snoc. split.
             ++ intros X. right. split; [exact X|]. discriminate.
             ++ intros [(c & X)|(X & _)]; [discriminate|exact X].
          -- intros j z. rewrite hs_parts0, last_partial_snoc. split; [intros X; right; auto|].
             intros [X|(X & _)]; [discriminate|exact X].
        * destruct IH. constructor; cbn [ai_state ag_params ag_group_key ai_message ag_signers ag_keys ag_partials set_signers]; auto.
          -- subst l. apply enlisted_increasing.
          -- intros j c. subst l. rewrite enlisted_in by exact hs_inc0. rewrite hs_pairs0, first_pair_snoc.
             rewrite signer_in_index. setoid_rewrite hs_pairs0. rewrite first_pair_includes. split.
             ++ intros [X|(X1 & -> & ->)]; [auto|]. right. split; [intros e' He' X; apply X1; exists e'; auto|].
                destruct pk as [j P]. exists P. eexists. reflexivity.
             ++ intros [X|(X1 & P & o & X)]; [auto|]. injection X as <- <- -> _. cbn [vk_index] in *.
                right. split; [|auto]. intros (e' & Y1 & Y2). exact (X1 _ Y1 Y2).
          -- intros j P. rewrite hs_keys0, last_key_snoc. split; [intros X; right; split; [exact X|discriminate]|].
             intros [(c & X)|(X & _)]; [discriminate|exact X].
          -- intros j z. rewrite hs_parts0, last_partial_snoc. split; [intros X; right; auto|].
             intros [X|(X & _)]; [discriminate|exact X].
          -- intros j Hj. subst l. apply enlisted_index. left. apply hs_sub0, Hj.
        * destruct IH. constructor; cbn [ai_state ag_params ag_group_key ai_message ag_signers ag_keys ag_partials set_signers]; auto.
          -- subst l. apply enlisted_increasing.
          -- intros j c. subst l. rewrite enlisted_in by exact hs_inc0. rewrite hs_pairs0, first_pair_snoc.
             rewrite signer_in_index. setoid_rewrite hs_pairs0. rewrite first_pair_includes. split.
             ++ intros [X|(X1 & -> & ->)]; [auto|]. right. split; [intros e' He' X; apply X1; exists e'; auto|].
                destruct pk as [j P]. exists P. eexists. reflexivity.
             ++ intros [X|(X1 & P & o & X)]; [auto|]. injection X as <- <- -> _. cbn [vk_index] in *.
                right. split; [|auto]. intros (e' & Y1 & Y2). exact (X1 _ Y1 Y2).
          -- apply ksorted_binsert, hs_ksort0.
          -- intros j P. rewrite bget_binsert, last_key_snoc. destruct (u32_eqb j (vk_index pk)) eqn:Ej.
             ++ apply u32_eqb_spec in Ej. subst j. split.
                ** intros X. injection X as <-. left. exists com. destruct pk; reflexivity.
                ** intros [(c & X)|(_ & X)]; [|destruct (X _ _ eq_refl)]. injection X as _ X. rewrite X. reflexivity.
             ++ apply u32_eqb_neq in Ej. rewrite hs_keys0. split.
                ** intros X. right. split; [exact X|]. intros c k Y. injection Y as Y _ _. congruence.
                ** intros [(c & X)|(X & _)]; [|exact X]. injection X as X _ _. congruence.
          -- intros j z. rewrite hs_parts0, last_partial_snoc. split; [intros X; right; auto|].
             intros [X|(X & _)]; [discriminate|exact X].
          -- intros j Hj. subst l. apply enlisted_index. apply binsert_keys in Hj. destruct Hj as [->|Hj]; [auto|left; apply hs_sub0, Hj].
          -- rewrite <- hs_params0. eapply N.le_trans; [|exact Hn].
             set (k' := binsert (vk_index pk) (vk_share pk) (ag_keys (ai_state a))).
             enough (length (bkeys k') <= length (map sg_index l)) by (unfold bkeys in *; rewrite !map_length in *; lia).
             apply NoDup_incl_length; [apply increasing_NoDup, ksorted_binsert, hs_ksort0|].
             intros j Hj. subst l. apply enlisted_index. apply binsert_keys in Hj. destruct Hj as [->|Hj]; [auto|left; apply hs_sub0, Hj].
      + destruct IH. constructor; cbn [ai_state ag_params ag_group_key ai_message ag_signers ag_keys ag_partials include_partial_signature]; auto.
        -- intros j c. rewrite hs_pairs0, first_pair_snoc. split; [auto|]. intros [X|(_ & P & o & X)]; [exact X|discriminate].
        -- intros j P. rewrite hs_keys0, last_key_snoc. split; [intros X; right; split; [exact X|discriminate]|].
           intros [(c & X)|(X & _)]; [discriminate|exact X].
        -- apply ksorted_binsert, hs_psort0.
        -- intros j z. rewrite bget_binsert, last_partial_snoc. destruct (u32_eqb j (ps_index q)) eqn:Ej.
           ++ apply u32_eqb_spec in Ej. subst j. destruct q as [j y]. cbn. split.
              ** intros X. injection X as ->. left. reflexivity.
              ** intros [X|(_ & X)]; [injection X as ->; reflexivity|destruct (X _ _ eq_refl)].
           ++ apply u32_eqb_neq in Ej. rewrite hs_parts0. destruct q as [i y]. cbn in *. split.
              ** intros X. right. split; [exact X|]. intros z' o Y. injection Y as Y _ _. congruence.
              ** intros [X|(X & _)]; [|exact X]. injection X as X _. congruence.
  Qed.

  Lemma holds_included p gk msg tr a M : holds p gk msg tr a -> included tr M -> length M = length (ag_signers (ai_state a)).
  Proof.
    intros H [Hn HM]. destruct H. rewrite <- (map_length sg_index). apply Nat.le_antisymm.
    - apply NoDup_incl_length; [exact Hn|]. intros i Hi. apply signer_in_index. setoid_rewrite hs_pairs0. apply first_pair_includes, HM, Hi.
    - apply NoDup_incl_length; [apply increasing_NoDup, hs_inc0|]. intros i Hi. apply signer_in_index in Hi.
      apply HM, first_pair_includes. destruct Hi as (com & Hi). exists com. apply hs_pairs0, Hi.
  Qed.

  (** the state is determined by what the trace says *)
  Lemma increasing_set_eq (l l' : list Signer) : increasing (map sg_index l) -> increasing (map sg_index l') ->
    (forall s, In s l <-> In s l') -> l = l'.
  Proof.
    intros H H' E. apply (increasing_map_perm_eq sg_index); auto. apply NoDup_Permutation; auto; eapply NoDup_map_inv, increasing_NoDup; eassumption.
  Qed.
  Lemma holds_eq p gk msg tr a tr' a' : holds p gk msg tr a -> holds p gk msg tr' a' ->
    (forall i com, first_pair tr i com <-> first_pair tr' i com) ->
    (forall i P, last_key tr i P <-> last_key tr' i P) ->
    (forall i z, last_partial tr i z <-> last_partial tr' i z) -> a = a'.
  Proof.
    intros [] [] E1 E2 E3. destruct a as [[? ? ? ? ?] ?], a' as [[? ? ? ? ?] ?]. cbn in *. subst. f_equal. f_equal.
    - apply increasing_set_eq; auto. intros [i com]. rewrite hs_pairs0, hs_pairs1. apply E1.
    - apply ksorted_ext; auto. intros k. destruct (bget k ag_keys) as [x|] eqn:X.
      + symmetry. apply hs_keys1, E2, hs_keys0, X.
      + destruct (bget k ag_keys0) as [x|] eqn:Y; [|reflexivity]. apply hs_keys1, E2, hs_keys0 in Y. congruence.
    - apply ksorted_ext; auto. intros k. destruct (bget k ag_partials) as [x|] eqn:X.
      + symmetry. apply hs_parts1, E3, hs_parts0, X.
      + destruct (bget k ag_partials0) as [x|] eqn:Y; [|reflexivity]. apply hs_parts1, E3, hs_parts0 in Y. congruence.
  Qed.

  (** ** remaining_signers, finalize *)
  Definition lacks {V} (m : bmap V) (s : Signer) : bool := match bget (sg_index s) m with None => true | Some _ => false end.
  Lemma increasing_filter_map (f : Signer -> bool) l : increasing (map sg_index l) -> increasing (map sg_index (filter f l)).
  Proof.
    induction l as [|s l IH]; intros H; cbn; [constructor|]. cbn in H. apply increasing_cons_inv in H. destruct H as [H1 H2].
    destruct (f s); [|auto]. cbn. apply increasing_cons; [auto|]. intros x Hx. apply in_map_iff in Hx. destruct Hx as (y & <- & Hy).
    apply filter_In in Hy. apply H2, in_map, Hy.
  Qed.
  Lemma remaining_eq a : increasing (map sg_index (ag_signers (ai_state a))) ->
    remaining_signers a = filter (lacks (ag_partials (ai_state a))) (ag_signers (ai_state a)).
  Proof.
    intros H. unfold remaining_signers.
    change (dedup_by sg_index (sort_by sg_index ?l)) with (sd sg_index l). apply sd_fix. apply increasing_filter_map, H.
  Qed.
  Lemma finalize_eq a : increasing (map sg_index (ag_signers (ai_state a))) ->
    finalize a =
    let st := ai_state a in
    let rem := map sg_index (filter (lacks (ag_partials st)) (ag_signers st)) in
    let nokey := map sg_index (filter (lacks (ag_keys st)) (ag_signers st)) in
    match rem, nokey with
    | [], [] => Ok (MkFinal st (h4 (ai_message a)))
    | _, _ => Err (MisbehavingParticipants ((match rem with [] => [] | _ => u32_zero :: rem end) ++ nokey))
    end.
  Proof.
    intros H. unfold finalize. rewrite remaining_eq by exact H. cbv zeta. fold (@lacks G (ag_keys (ai_state a))).
    destruct (filter (lacks (ag_partials (ai_state a))) _); cbn; [|reflexivity].
    change (fun s : Signer => match bget (sg_index s) (ag_keys (ai_state a)) with Some _ => false | None => true end)
      with (@lacks G (ag_keys (ai_state a))).
    destruct (filter (lacks (ag_keys (ai_state a))) _); reflexivity.
  Qed.
  Lemma lacks_false {V} (m : bmap V) l : filter (lacks m) l = [] -> forall s, In s l -> exists v, bget (sg_index s) m = Some v.
  Proof.
    intros H s Hs. destruct (bget (sg_index s) m) as [v|] eqn:E; [exists v; reflexivity|].
    assert (X : In s (filter (lacks m) l)) by (apply filter_In; split; [exact Hs|unfold lacks; rewrite E; reflexivity]). rewrite H in X. contradiction.
  Qed.
  Lemma lacks_nil {V} (m : bmap V) l : (forall s, In s l -> exists v, bget (sg_index s) m = Some v) -> filter (lacks m) l = [].
  Proof.
    intros H. destruct (filter (lacks m) l) as [|s r] eqn:E; [reflexivity|].
    assert (X : In s (filter (lacks m) l)) by (rewrite E; left; reflexivity). apply filter_In in X. destruct X as [X1 X2].
    destruct (H s X1) as [v Hv]. unfold lacks in X2. rewrite Hv in X2. discriminate.
  Qed.
  Lemma finalize_ok a : increasing (map sg_index (ag_signers (ai_state a))) ->
    (forall s, In s (ag_signers (ai_state a)) -> exists v, bget (sg_index s) (ag_partials (ai_state a)) = Some v) ->
    (forall s, In s (ag_signers (ai_state a)) -> exists v, bget (sg_index s) (ag_keys (ai_state a)) = Some v) ->
    finalize a = Ok (MkFinal (ai_state a) (h4 (ai_message a))).
  Proof. intros H H1 H2. rewrite finalize_eq by exact H. cbv zeta. rewrite (lacks_nil _ _ H1), (lacks_nil _ _ H2). reflexivity. Qed.
  Lemma finalize_inv a f : increasing (map sg_index (ag_signers (ai_state a))) -> finalize a = Ok f ->
    f = MkFinal (ai_state a) (h4 (ai_message a)) /\
    (forall s, In s (ag_signers (ai_state a)) -> exists v, bget (sg_index s) (ag_partials (ai_state a)) = Some v) /\
    (forall s, In s (ag_signers (ai_state a)) -> exists v, bget (sg_index s) (ag_keys (ai_state a)) = Some v).
  Proof.
    intros H. rewrite finalize_eq by exact H. cbv zeta.
    destruct (filter (lacks (ag_partials _)) _) eqn:E1; [|discriminate]. cbn [map].
    destruct (filter (lacks (ag_keys _)) _) eqn:E2; [|discriminate]. cbn [map]. intros X. injection X as <-.
    split; [reflexivity|]. split; eapply lacks_false; eassumption.
  Qed.

  (** ** aggregate *)
  Definition val {V} (d : V) (m : bmap V) (i : u32) : V := match bget i m with Some x => x | None => d end.
  Lemma aggregate_eq f : ag_signers (af_state f) <> [] ->
    (forall s, In s (ag_signers (af_state f)) -> exists v, bget (sg_index s) (ag_partials (af_state f)) = Some v) ->
    aggregate f =
    let st := af_state f in let ss := ag_signers st in
    let sig := MkTSig (group_nonce (af_hash f) ss) (fsum (map (fun s => val F0 (ag_partials st) (sg_index s)) ss)) in
    if is_ok (sig_verify sig (ag_group_key st) (af_hash f)) then Ok sig
    else let* mis := find_bad st (af_hash f) (session_chal (af_hash f) (ag_group_key st) ss) (map sg_index ss) ss [] in
         Err (MisbehavingParticipants mis).
  Proof.
    intros Hne H. unfold aggregate. rewrite compute_binding_factors_ok by exact Hne. cbn [bind]. rewrite compute_group_commitment_ok. cbn [bind].
    destruct (sum_partials_ok (ag_partials (af_state f)) (ag_signers (af_state f))) with (z := F0) as (v & E & _ & ->).
    { intros s Hs. destruct (H s Hs) as [x ->]. discriminate. }
    rewrite E. cbn [bind]. replace (F0 + _)%F with (fsum (map (fun s => val F0 (ag_partials (af_state f)) (sg_index s)) (ag_signers (af_state f))))
      by (unfold val; ring). reflexivity.
  Qed.
  Definition failing (st : AggState) (h : list byte) (s : Signer) : bool :=
    negb (Geqb (gen * val F0 (ag_partials st) (sg_index s))%G
      (nonce_point h (ag_signers st) s + val Gzero (ag_keys st) (sg_index s) *
         (session_chal h (ag_group_key st) (ag_signers st) * weight (sg_index s) (map sg_index (ag_signers st)))%F)%G).
  Lemma find_bad_ok st h : good_indices (map sg_index (ag_signers st)) ->
    forall l mis, (forall s, In s l -> In s (ag_signers st)) ->
    (forall s, In s l -> exists v, bget (sg_index s) (ag_partials st) = Some v) ->
    (forall s, In s l -> exists v, bget (sg_index s) (ag_keys st) = Some v) ->
    find_bad st h (session_chal h (ag_group_key st) (ag_signers st)) (map sg_index (ag_signers st)) l mis =
    Ok (mis ++ map sg_index (filter (failing st h) l)).
  Proof.
    intros Hg. induction l as [|s l IH]; intros mis H1 H2 H3; cbn [find_bad filter].
    - rewrite app_nil_r. reflexivity.
    - rewrite (lagrange_ok _ _ Hg). cbn [bind]. destruct (H2 s (or_introl eq_refl)) as [z Hz]. destruct (H3 s (or_introl eq_refl)) as [pk Hpk].
      rewrite Hz, Hpk. rewrite commitment_for_ok by (try apply Hg; apply H1; left; reflexivity). cbn [bind].
      rewrite IH by (intros; auto using in_cons). unfold failing at 2, val. rewrite Hz, Hpk.
      destruct (negb _); [cbn [map]; rewrite <- app_assoc; reflexivity|reflexivity].
  Qed.
  Lemma failing_spec st h s pk z : bget (sg_index s) (ag_partials st) = Some z -> bget (sg_index s) (ag_keys st) = Some pk ->
    (failing st h s = true <-> ~ partial_ok h (ag_group_key st) (ag_signers st) s pk z).
  Proof.
    intros Hz Hpk. unfold failing, val, partial_ok. rewrite Hz, Hpk, negb_true_iff, Geqb_neq. reflexivity.
  Qed.
  (** all checks hold: the signature is valid iff the keys interpolate to the group key up to the challenge *)
  Lemma all_checks h gk ss (pk : u32 -> G) (z : u32 -> F) :
    (forall s, In s ss -> partial_ok h gk ss s (pk (sg_index s)) (z (sg_index s))) ->
    (schnorr gk h (group_nonce h ss) (fsum (map (fun s => z (sg_index s)) ss)) <->
     (ginterp0 (map (fun s => (sg_index s, pk (sg_index s))) ss) * session_chal h gk ss = gk * session_chal h gk ss)%G).
  Proof.
    intros H. unfold schnorr. fold (session_chal h gk ss). rewrite (sum_of_checks h gk ss ss pk z H). fold (group_nonce h ss).
    unfold ginterp0. rewrite !map_map. cbn [fst snd].
    change (map (fun x : Signer => sg_index x) ss) with (map sg_index ss). split; intros E; [eapply Gadd_cancel_l, E|rewrite E; reflexivity].
  Qed.

  (** ** traces without repetitions *)
  Lemma nodup_split {A} (f : A -> list u32) l1 x l2 i : NoDup (flat_map f (l1 ++ x :: l2)) -> In i (f x) ->
    forall y, In y l1 \/ In y l2 -> ~ In i (f y).
  Proof.
    rewrite flat_map_app. cbn. intros H Hi y Hy Hyi.
    destruct Hy as [Hy|Hy].
    - assert (X : In i (flat_map f l1)) by (apply in_flat_map; eauto). revert H X. generalize (flat_map f l1). clear Hy.
      induction l as [|a l IH]; intros H X; [contradiction|]. cbn in H. apply NoDup_cons_iff in H. destruct H as [H1 H2].
      destruct X as [->|X]; [|auto]. apply H1, in_or_app. right. apply in_or_app. auto.
    - assert (X : In i (flat_map f l2)) by (apply in_flat_map; eauto).
      assert (H' : NoDup (f x ++ flat_map f l2)).
      { revert H. generalize (flat_map f l1). induction l as [|a l IH]; [auto|]. cbn. intros H. apply NoDup_cons_iff in H. apply IH, H. }
      revert H' Hi X. generalize (flat_map f l2). generalize (f x). induction l as [|a l IH]; intros l' H' Hi X; [contradiction|].
      cbn in H'. apply NoDup_cons_iff in H'. destruct H' as [H1 H2]. destruct Hi as [->|Hi]; [|eapply IH; eauto].
      apply H1, in_or_app. auto.
  Qed.
  Lemma flat_map_fst (f : ACall -> list u32) (tr : trace) : flat_map f (map fst tr) = flat_map (fun e => f (fst e)) tr.
  Proof. induction tr as [|e tr IH]; cbn; [reflexivity|]. rewrite IH. reflexivity. Qed.

  Lemma first_pair_distinct tr i com : NoDup (flat_map inc_of (map fst tr)) ->
    (first_pair tr i com <-> exists P o, In (CInc i com (MkVK i P), o) tr).
  Proof.
    rewrite flat_map_fst. intros H. split.
    - intros (l1 & P & o & l2 & -> & _). exists P, o. apply in_elt.
    - intros (P & o & Hin). apply in_split in Hin. destruct Hin as (l1 & l2 & ->). exists l1, P, o, l2. split; [reflexivity|].
      intros e He (c & k & E & _). eapply (nodup_split _ _ _ _ i H (or_introl eq_refl) e (or_introl He)). rewrite E. left. reflexivity.
  Qed.
  Lemma last_key_distinct tr i P : NoDup (flat_map inc_of (map fst tr)) ->
    (last_key tr i P <-> exists com, In (CInc i com (MkVK i P), Ok tt) tr).
  Proof.
    rewrite flat_map_fst. intros H. split.
    - intros (l1 & com & l2 & -> & _). exists com. apply in_elt.
    - intros (com & Hin). apply in_split in Hin. destruct Hin as (l1 & l2 & ->). exists l1, com, l2. split; [reflexivity|].
      intros c k He. apply (nodup_split _ _ _ _ i H (or_introl eq_refl) _ (or_intror He)). left. reflexivity.
  Qed.
  Lemma last_partial_distinct tr i z : NoDup (flat_map part_of (map fst tr)) ->
    (last_partial tr i z <-> In (CPart (MkPSig i z), Ok tt) tr).
  Proof.
    rewrite flat_map_fst. intros H. split.
    - intros (l1 & l2 & -> & _). apply in_elt.
    - intros Hin. apply in_split in Hin. destruct Hin as (l1 & l2 & ->). exists l1, l2. split; [reflexivity|].
      intros z' o He. apply (nodup_split _ _ _ _ i H (or_introl eq_refl) _ (or_intror He)). left. reflexivity.
  Qed.

  (** ** an honest session *)
  Lemma announce_incs qs : flat_map inc_of (map fst (announce qs)) = map (fun q => sk_index (q_key q)) qs.
  Proof. unfold announce. rewrite map_map. cbn. induction qs as [|q qs IH]; cbn; [reflexivity|]. f_equal. exact IH. Qed.
  Lemma deliver_incs ps : flat_map inc_of (map fst (deliver ps)) = [].
  Proof. unfold deliver. rewrite map_map. induction ps as [|q qs IH]; cbn; [reflexivity|]. exact IH. Qed.
  Lemma announce_parts qs : flat_map part_of (map fst (announce qs)) = [].
  Proof. unfold announce. rewrite map_map. induction qs as [|q qs IH]; cbn; [reflexivity|]. exact IH. Qed.
  Lemma deliver_parts ps : flat_map part_of (map fst (deliver ps)) = map ps_index ps.
  Proof. unfold deliver. rewrite map_map. cbn. induction ps as [|q qs IH]; cbn; [reflexivity|]. f_equal. exact IH. Qed.

  Lemma deliver_run ps : forall a, exists a2, agg_run a (deliver ps) a2 /\
    ag_signers (ai_state a2) = ag_signers (ai_state a) /\ ag_keys (ai_state a2) = ag_keys (ai_state a).
  Proof.
    induction ps as [|p ps IH]; intros a.
    - exists a. repeat split; constructor.
    - destruct (IH (include_partial_signature a p)) as (a2 & H1 & H2 & H3). exists a2. split; [constructor; exact H1|].
      rewrite H2, H3. split; reflexivity.
  Qed.
  Lemma announce_run p gk msg qs : (N.of_nat (length qs) <= u32v (p_n p))%N ->
    exists a, agg_run (agg_new p gk msg) (announce qs) a /\ length (ag_signers (ai_state a)) <= length qs.
  Proof.
    induction qs as [|q qs IH] using rev_ind; intros H.
    - exists (agg_new p gk msg). split; [constructor|cbn; lia].
    - rewrite app_length in H. cbn in H. destruct IH as (a & H1 & H2); [lia|].
      pose proof (holds_run _ _ _ _ _ H1) as HH.
      destruct (include_signer_cases a (sk_index (q_key q)) (published (q_pair q)) (MkVK (sk_index (q_key q)) (gen * sk_key (q_key q))%G))
        as [(X & _)|(_ & l & El & X)]; [destruct (X eq_refl)|].
      assert (Hl : length l <= length (ag_signers (ai_state a)) + 1).
      { subst l. eapply Nat.le_trans; [apply (sd_length sg_index)|]. rewrite app_length. cbn. lia. }
      rewrite (hs_params _ _ _ _ _ HH) in X. destruct X as [(X & _)|(_ & X)]; [lia|].
      eexists. split.
      + unfold announce. rewrite map_app. apply agg_run_app. exists a. split; [exact H1|]. cbn [map]. econstructor; [exact X|constructor].
      + cbn [set_signers ai_state ag_signers]. rewrite app_length. cbn. lia.
  Qed.

  Record session (p : Params) (gk : G) (msg : list byte) (qs : list Cosigner) (f : AggFinal) : Prop := {
    se_hash : af_hash f = h4 msg;
    se_gk : ag_group_key (af_state f) = gk;
    se_perm : Permutation (ag_signers (af_state f)) (map as_signer qs);
    se_inc : increasing (map sg_index (ag_signers (af_state f)));
    se_key : forall q, In q qs -> bget (sk_index (q_key q)) (ag_keys (af_state f)) = Some (gen * sk_key (q_key q))%G;
    se_part : forall q, In q qs -> bget (sk_index (q_key q)) (ag_partials (af_state f)) =
      Some (partial_value (h4 msg) gk (ag_signers (af_state f)) (sk_index (q_key q))
              (co_secret (cs_hiding (q_pair q))) (co_secret (cs_binding (q_pair q))) (sk_key (q_key q))) }.

  Lemma Forall2_map_r {A B} (R : A -> B -> Prop) (f : A -> B) l : (forall x, In x l -> R x (f x)) -> Forall2 R l (map f l).
  Proof. induction l as [|x l IH]; intros H; cbn; constructor; [apply H; left; reflexivity|]. apply IH. intros y Hy. apply H. right. exact Hy. Qed.

  Lemma honest_session m p gk msg qs : (N.of_nat (length qs) <= u32v (p_n p))%N ->
    good_indices (map (fun q => sk_index (q_key q)) qs) -> (forall q, In q qs -> cosigner_ok q) ->
    exists a1 ps, agg_run (agg_new p gk msg) (announce qs) a1 /\
      signed m (h4 msg) gk (ag_signers (ai_state a1)) qs ps /\
      forall ps', Permutation ps' ps -> exists a2 f, agg_run a1 (deliver ps') a2 /\ finalize a2 = Ok f /\ session p gk msg qs f.
  Proof.
    intros Hn Hg Hq. destruct (announce_run p gk msg qs Hn) as (a1 & H1 & _). pose proof (holds_run _ _ _ _ _ H1) as HH.
    set (ss := ag_signers (ai_state a1)).
    assert (HD : NoDup (flat_map inc_of (map fst (announce qs)))) by (rewrite announce_incs; apply Hg).
    assert (HP : Permutation ss (map as_signer qs)).
    { apply NoDup_Permutation.
      - eapply NoDup_map_inv, increasing_NoDup, HH.
      - apply (NoDup_map_inv sg_index). rewrite map_map. apply Hg.
      - intros [i com]. unfold ss. rewrite (hs_pairs _ _ _ _ _ HH), first_pair_distinct by exact HD. unfold announce. rewrite in_map_iff. split.
        + intros (P & o & X). apply in_map_iff in X. destruct X as (q & E & X). inversion E; subst. exists q. split; [reflexivity|exact X].
        + intros (q & E & X). injection E as <- <-. exists (gen * sk_key (q_key q))%G, (Ok tt). apply in_map_iff. exists q. auto. }
    assert (HPi : Permutation (map sg_index ss) (map (fun q => sk_index (q_key q)) qs)).
    { rewrite (Permutation_map sg_index HP), map_map. apply Permutation_refl. }
    assert (HG : good_indices (map sg_index ss)).
    { split; [eapply Permutation_NoDup; [apply Permutation_sym, HPi|apply Hg]|]. intros X. apply (Permutation_in _ HPi) in X. apply Hg, X. }
    set (mkp := fun q => MkPSig (sk_index (q_key q)) (partial_value (h4 msg) gk ss (sk_index (q_key q))
              (co_secret (cs_hiding (q_pair q))) (co_secret (cs_binding (q_pair q))) (sk_key (q_key q)))).
    exists a1, (map mkp qs). split; [exact H1|]. split.
    { apply Forall2_map_r. intros q Hin. destruct (Hq q Hin) as [Q1 Q2]. fold ss.
      rewrite (sign_succeeds m (q_key q) (h4 msg) gk (q_list q) (q_pos q) ss (q_pair q) Q1 Q2); [reflexivity| |exact HG].
      eapply Permutation_in; [apply Permutation_sym, HPi|]. apply in_map_iff. exists q. auto. }
    intros ps' Hps. destruct (deliver_run ps' a1) as (a2 & R1 & R2 & R3).
    assert (R : agg_run (agg_new p gk msg) (announce qs ++ deliver ps') a2) by (apply agg_run_app; eauto).
    pose proof (holds_run _ _ _ _ _ R) as HH2.
    assert (HDp : NoDup (flat_map part_of (map fst (announce qs ++ deliver ps')))).
    { rewrite map_app, flat_map_app, announce_parts, deliver_parts. cbn. eapply Permutation_NoDup; [apply Permutation_map, Permutation_sym, Hps|].
      rewrite map_map. apply Hg. }
    assert (HK : forall q, In q qs -> bget (sk_index (q_key q)) (ag_keys (ai_state a2)) = Some (gen * sk_key (q_key q))%G).
    { intros q Hin. rewrite R3. apply (hs_keys _ _ _ _ _ HH), last_key_distinct; [exact HD|]. exists (published (q_pair q)).
      unfold announce. apply in_map_iff. exists q. auto. }
    assert (HZ : forall q, In q qs -> bget (sk_index (q_key q)) (ag_partials (ai_state a2)) = Some (ps_z (mkp q))).
    { intros q Hin. apply (hs_parts _ _ _ _ _ HH2), last_partial_distinct; [exact HDp|]. apply in_or_app. right.
      unfold deliver. apply in_map_iff. exists (mkp q). split; [reflexivity|]. eapply Permutation_in; [apply Permutation_sym, Hps|]. apply in_map, Hin. }
    assert (HS : forall s, In s (ag_signers (ai_state a2)) -> exists q, In q qs /\ s = as_signer q).
    { intros s Hs. rewrite R2 in Hs. apply (Permutation_in _ HP) in Hs. apply in_map_iff in Hs. destruct Hs as (q & <- & X). eauto. }
    eexists a2, _. split; [exact R1|]. split.
    - apply finalize_ok; [apply HH2| |].
      + intros s Hs. destruct (HS s Hs) as (q & X & ->). eexists. apply HZ, X.
      + intros s Hs. destruct (HS s Hs) as (q & X & ->). eexists. apply HK, X.
    - constructor; cbn [af_hash af_state].
      + rewrite (hs_msg _ _ _ _ _ HH2). reflexivity.
      + apply HH2.
      + rewrite R2. exact HP.
      + apply HH2.
      + exact HK.
      + intros q Hin. rewrite (HZ q Hin), R2. reflexivity.
  Qed.

  (** outcome of aggregate in an honest session *)
  Lemma session_checks p gk msg qs f : session p gk msg qs f -> forall s, In s (ag_signers (af_state f)) ->
    exists pk z, bget (sg_index s) (ag_keys (af_state f)) = Some pk /\ bget (sg_index s) (ag_partials (af_state f)) = Some z /\
      partial_ok (af_hash f) gk (ag_signers (af_state f)) s pk z.
  Proof.
    intros H s Hs. apply (Permutation_in _ (se_perm _ _ _ _ _ H)) in Hs. apply in_map_iff in Hs. destruct Hs as (q & <- & Hq).
    eexists _, _. split; [apply (se_key _ _ _ _ _ H), Hq|]. split; [apply (se_part _ _ _ _ _ H), Hq|].
    rewrite (se_hash _ _ _ _ _ H). eapply partial_value_ok; reflexivity.
  Qed.
  Lemma session_interp p gk msg qs f : session p gk msg qs f ->
    ginterp0 (map (fun s => (sg_index s, val Gzero (ag_keys (af_state f)) (sg_index s))) (ag_signers (af_state f))) =
    (gen * interp0 (key_points (map q_key qs)))%G.
  Proof.
    intros H. rewrite (ginterp0_perm _ _ (Permutation_map _ (se_perm _ _ _ _ _ H))). rewrite map_map. unfold key_points. rewrite <- ginterp0_gen.
    rewrite !map_map. f_equal. apply map_ext_in. intros q Hq. cbn [as_signer sg_index fst snd]. unfold val. rewrite (se_key _ _ _ _ _ H q Hq). reflexivity.
  Qed.

  Lemma F_add_0_l x : (F0 + x = x)%F.
  Proof. ring. Qed.
  Lemma F_mul_comm x y : (x * y = y * x)%F.
  Proof. ring. Qed.
End LemmasAgg.

Lemma NoDup_map_inj_in {A B} (f : A -> B) l : NoDup (map f l) -> forall x y, In x l -> In y l -> f x = f y -> x = y.
Proof.
  induction l as [|a l IH]; intros H x y; [intros []|]. cbn in H. inversion H as [|? ? H1 H2]; subst.
  intros [<-|Hx] [<-|Hy] E; auto.
  - destruct H1. rewrite E. apply in_map, Hy.
  - destruct H1. rewrite <- E. apply in_map, Hx.
Qed.
