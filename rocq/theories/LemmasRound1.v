(** Round one: classification of participants, produced shares. *)
From Coq Require Import String Strings.Byte Arith NArith Bool List Lia Permutation.
From Verif Require Import Base Suite Spec SpecDkg Types Algebra BaseLemmas ModelDkg LemmasShare.
Import ListNotations.

Section Lemmas.
  Context {S : Suite} {L : SuiteLaws S}.

  Lemma bget_binsert_all {V} (l : list (u32 * V)) : forall m k,
    bget k (binsert_all l m) =
    match find (fun kv => u32_eqb k (fst kv)) (rev l) with
    | Some kv => Some (snd kv)
    | None => bget k m
    end.
  Proof.
    induction l as [|[j v] l IH]; intros m k; cbn [binsert_all rev]; [reflexivity|].
    rewrite IH, bget_binsert.
    assert (F : forall a, find (fun kv : u32 * V => u32_eqb k (fst kv)) (a ++ [(j, v)]) =
      match find (fun kv : u32 * V => u32_eqb k (fst kv)) a with
      | Some x => Some x
      | None => if u32_eqb k j then Some (j, v) else None end).
    { induction a as [|x a IHa]; cbn; [reflexivity|]. destruct (u32_eqb k (fst x)); auto. }
    rewrite F. destruct (find _ (rev l)); [reflexivity|]. destruct (u32_eqb k j); reflexivity.
  Qed.

  Lemma binsert_all_app {V} (l l' : list (u32 * V)) : forall m,
    binsert_all (l ++ l') m = binsert_all l' (binsert_all l m).
  Proof. induction l as [|[k v] l IH]; intros m; cbn; auto. Qed.

  (** ** boolean versions of the checks *)
  Definition dhb (p : Participant) : bool := is_ok (nizk_verify (pt_dh_proof p) (pt_index p) (pt_dh_pk p)).
  Definition keyb (p : Participant) : bool :=
    match part_public_key p, pt_sk_proof p with
    | Some P, Some pr => is_ok (nizk_verify pr (pt_index p) P)
    | _, _ => false
    end.
  Definition lenb (t : u32) (p : Participant) : bool :=
    match pt_comm p with
    | Some c => N.eqb (N.of_nat (length (vss_points c))) (u32v t)
    | None => false
    end.
  Definition crashb (p : Participant) : bool :=
    dhb p && match part_public_key p, pt_sk_proof p with Some _, None => true | _, _ => false end.
  Definition okb (from_dealer from_signer : bool) (t : u32) (p : Participant) : bool :=
    dhb p && (negb from_signer || (keyb p && (negb from_dealer || lenb t p))).

  Lemma dhb_iff p : dhb p = true <-> dh_proof_ok p.
  Proof. unfold dhb, dh_proof_ok. apply is_ok_unit. Qed.
  Lemma part_pk_iff p P : part_public_key p = Some P <->
    exists c rest, pt_comm p = Some c /\ vss_points c = P :: rest.
  Proof.
    unfold part_public_key, vss_public_key. destruct (pt_comm p) as [c|].
    - destruct (vss_points c) as [|Q rest] eqn:E.
      + split; [discriminate|]. intros (c' & r & [= <-] & H). congruence.
      + split; [intros [= ->]; eauto|]. intros (c' & r & [= <-] & H). congruence.
    - split; [discriminate|]. intros (c' & r & H & _). discriminate.
  Qed.
  Lemma keyb_iff p : keyb p = true <-> key_proof_ok p.
  Proof.
    unfold keyb, key_proof_ok. destruct (part_public_key p) as [P|] eqn:E.
    - apply part_pk_iff in E. destruct E as (c & rest & E1 & E2).
      destruct (pt_sk_proof p) as [pr|] eqn:E3.
      + rewrite is_ok_unit. split.
        * intros H. exists c, P, rest, pr. auto.
        * intros (c' & P' & rest' & pr' & H1 & H2 & H3 & H4). congruence.
      + split; [discriminate|]. intros (c' & P' & rest' & pr' & H1 & H2 & H3 & H4). congruence.
    - split; [discriminate|]. intros (c' & P' & rest' & pr' & H1 & H2 & H3 & H4).
      assert (part_public_key p = Some P') by (apply part_pk_iff; eauto). congruence.
  Qed.
  Lemma lenb_iff t p : lenb t p = true <-> commitment_length (u32v t) p.
  Proof.
    unfold lenb, commitment_length. destruct (pt_comm p) as [c|].
    - rewrite N.eqb_eq. split; [eauto|]. intros (c' & [= <-] & H). exact H.
    - split; [discriminate|]. intros (c' & H & _). discriminate.
  Qed.
  Lemma crashb_iff p : crashb p = true <-> crashing p.
  Proof.
    unfold crashb, crashing. rewrite andb_true_iff, dhb_iff.
    destruct (part_public_key p) as [P|] eqn:E.
    - apply part_pk_iff in E. destruct E as (c & rest & E1 & E2).
      destruct (pt_sk_proof p); [intuition discriminate|]. intuition eauto.
    - split; [intuition discriminate|]. intros (_ & (c & P & rest & H1 & H2) & _).
      assert (part_public_key p = Some P) by (apply part_pk_iff; eauto). congruence.
  Qed.
  Lemma okb_bootstrap t p : okb true true t p = true <-> ok_bootstrap t p.
  Proof. unfold okb, ok_bootstrap. cbn. rewrite !andb_true_iff, dhb_iff, keyb_iff, lenb_iff. tauto. Qed.
  Lemma okb_new t p : okb false true t p = true <-> ok_new p.
  Proof. unfold okb, ok_new. cbn. rewrite !andb_true_iff, dhb_iff, keyb_iff. tauto. Qed.
  Lemma okb_reshare t p : okb true false t p = true <-> ok_reshare p.
  Proof. unfold okb, ok_reshare. cbn. rewrite !andb_true_iff, dhb_iff. tauto. Qed.

  Lemma splits_filter ok b ps : (forall p, b p = true <-> ok p) ->
    splits ok ps (filter b ps) (map pt_index (filter (fun p => negb (b p)) ps)).
  Proof.
    intros H. induction ps as [|p ps IH]; cbn; [constructor|].
    destruct (b p) eqn:E; cbn; constructor; auto.
    - apply H, E.
    - intros X. apply H in X. congruence.
  Qed.
  Lemma splits_fun ok ps : forall v m v' m', splits ok ps v m -> splits ok ps v' m' -> v = v' /\ m = m'.
  Proof.
    induction ps as [|p ps IH]; intros v m v' m' H H'; inversion H; subst; inversion H'; subst;
      try contradiction; auto;
      match goal with A : splits ok ps _ _, B : splits ok ps _ _ |- _ => destruct (IH _ _ _ _ A B) end; subst; auto.
  Qed.
  Lemma splits_length ok ps v m : splits ok ps v m -> length ps = length v + length m.
  Proof. induction 1; cbn; lia. Qed.
  Lemma splits_valid ok ps v m : splits ok ps v m -> forall p, In p v <-> In p ps /\ ok p.
  Proof.
    induction 1 as [|p ps v m Hok H IH|p ps v m Hok H IH]; intros q; cbn.
    - tauto.
    - rewrite IH. intuition congruence.
    - rewrite IH. intuition congruence.
  Qed.
  Lemma splits_all (ok : Participant -> Prop) ps : (forall p, In p ps -> ok p) -> splits ok ps ps [].
  Proof.
    induction ps as [|p ps IH]; intros H; constructor.
    - apply H; left; reflexivity.
    - apply IH. intros; apply H; right; assumption.
  Qed.

  (** ** the checking loop *)
  Definition comm_entries (ps : list Participant) : list (u32 * Vss) :=
    flat_map (fun p => match pt_comm p with Some c => [(pt_index p, c)] | None => [] end) ps.
  Definition dh_entries (ps : list Participant) : list (u32 * G) := map (fun p => (pt_index p, pt_dh_pk p)) ps.

  Lemma check_one_eq m params fd fs p a : (fd = true \/ fs = true) ->
    check_one m params fd fs p a =
    if fs && crashb p then Panic
    else if okb fd fs (p_t params) p then
      Ok (MkAcc (if fs then binsert_all (comm_entries [p]) (acc_comms a) else acc_comms a)
                (binsert (pt_index p) (pt_dh_pk p) (acc_dhs a)) (acc_valid a ++ [p]) (acc_mis a))
    else Ok (acc_flag a p).
  Proof.
    intros Hf. unfold check_one, okb, crashb. fold (dhb p). destruct (dhb p); cbn [andb]; [|destruct (fs && false) eqn:E; [destruct fs; discriminate|reflexivity]].
    destruct fs; cbn [andb negb orb].
    - unfold keyb. destruct (part_public_key p) as [P|] eqn:EP; [|reflexivity].
      destruct (pt_sk_proof p) as [pr|]; [|reflexivity].
      destruct (is_ok (nizk_verify pr (pt_index p) P)); [|reflexivity].
      apply part_pk_iff in EP. destruct EP as (c & rest & E1 & E2). cbn [andb].
      unfold lenb, check_degree, comm_entries. cbn [flat_map]. rewrite E1.
      destruct fd; cbn [andb negb orb].
      + destruct (N.eqb _ _); cbn; reflexivity.
      + reflexivity.
    - destruct fd; [|destruct Hf; discriminate]. cbn [negb]. rewrite andb_false_r. reflexivity.
  Qed.

  Lemma check_all_eq m params fd fs ps : (fd = true \/ fs = true) -> forall a,
    check_all m params fd fs ps a =
    if fs && existsb crashb ps then Panic
    else
      let v := filter (okb fd fs (p_t params)) ps in
      Ok (MkAcc (if fs then binsert_all (comm_entries v) (acc_comms a) else acc_comms a)
                (binsert_all (dh_entries v) (acc_dhs a)) (acc_valid a ++ v)
                (acc_mis a ++ map pt_index (filter (fun p => negb (okb fd fs (p_t params) p)) ps))).
  Proof.
    intros Hf. induction ps as [|p ps IH]; intros a; cbn [check_all existsb filter map].
    - rewrite andb_false_r. cbn. rewrite !app_nil_r. destruct a, fs; reflexivity.
    - rewrite check_one_eq by exact Hf. rewrite andb_orb_distrib_r.
      destruct (fs && crashb p) eqn:Ec; cbn [orb bind]; [reflexivity|].
      destruct (okb fd fs (p_t params) p) eqn:Eo; cbn [bind negb]; rewrite IH;
        destruct (fs && existsb crashb ps); try reflexivity; cbn.
      + rewrite <- !app_assoc. f_equal. f_equal. destruct fs; [|reflexivity].
        change (comm_entries (p :: filter (okb fd true (p_t params)) ps)) with
          ((match pt_comm p with Some c => [(pt_index p, c)] | None => [] end) ++ comm_entries (filter (okb fd true (p_t params)) ps)).
        rewrite binsert_all_app. destruct (pt_comm p); reflexivity.
      + rewrite <- !app_assoc. reflexivity.
  Qed.

  (** ** the encryption loop *)
  Lemma encrypt_all_ok my x co ps : forall acc r, exists es r',
    encrypt_all my x (Some co) ps acc r = Ok (binsert_all es acc, r') /\
    Forall2 (fun p ke => fst ke = pt_index p /\ es_sender (snd ke) = my /\ es_receiver (snd ke) = pt_index p /\
       decrypt_share (snd ke) (enc_point (pt_dh_pk p * x)%G) =
         Ok (MkShare my (pt_index p) (poly_value co (of_u32 (pt_index p))))) ps es.
  Proof.
    induction ps as [|p ps IH]; intros acc r; cbn [encrypt_all].
    - exists [], r. split; [reflexivity|constructor].
    - rewrite evaluate_polynomial_eq.
      destruct (encrypt_share_ok (MkShare my (pt_index p) (poly_value co (of_u32 (pt_index p))))
                  (enc_point (pt_dh_pk p * x)%G) r) as (e & r1 & E & H1 & H2 & H3).
      rewrite E. cbn [bind].
      destruct (IH (binsert (pt_index p) e acc) r1) as (es & r2 & E2 & HF).
      exists ((pt_index p, e) :: es), r2. split; [exact E2|]. constructor; [|exact HF]. cbn. auto.
  Qed.

  Lemma u32_sub_exact m (n : u32) (k : nat) : (N.of_nat k <= u32v n)%N ->
    @u32_sub (@Error S) m n (u32_of_N (N.of_nat k)) = Ok (u32_of_N (u32v n - N.of_nat k)).
  Proof.
    intros H. pose proof (u32_bound n). unfold u32_sub, u32_ltb. rewrite u32_of_N_small by lia.
    replace (N.ltb (u32v n) (N.of_nat k)) with false by (symmetry; apply N.ltb_ge; exact H). reflexivity.
  Qed.

  (** ** maps built from participant lists *)
  Lemma find_rev_last (ps : list Participant) j : forall p,
    find (fun q => u32_eqb j (pt_index q)) (rev ps) = Some p <-> last_with j ps p.
  Proof.
    induction ps as [|q ps IH] using rev_ind; intros p.
    - cbn. split; [discriminate|]. intros (l1 & l2 & H & _). destruct l1; discriminate.
    - rewrite rev_app_distr. cbn. destruct (u32_eqb j (pt_index q)) eqn:E.
      + apply u32_eqb_spec in E. split.
        * intros [= <-]. exists ps, []. repeat split; auto.
        * intros (l1 & l2 & H & H1 & H2). destruct l2 as [|z l2] using rev_ind.
          -- apply app_inj_tail in H. destruct H as [_ H]. congruence.
          -- exfalso. rewrite app_comm_cons, app_assoc in H. apply app_inj_tail in H. destruct H as [_ H].
             subst z. apply (H2 q); [apply in_or_app; right; left; reflexivity|congruence].
      + apply u32_eqb_neq in E. rewrite IH. split.
        * intros (l1 & l2 & H & H1 & H2). exists l1, (l2 ++ [q]). split; [subst; rewrite <- app_assoc; reflexivity|].
          split; [exact H1|]. intros z Hz. apply in_app_or in Hz. destruct Hz as [Hz|[<-|[]]]; [apply H2, Hz|congruence].
        * intros (l1 & l2 & H & H1 & H2). destruct l2 as [|z l2 _] using rev_ind.
          -- apply app_inj_tail in H. destruct H as [_ H]. congruence.
          -- rewrite app_comm_cons, app_assoc in H. apply app_inj_tail in H. destruct H as [H Hz]. subst.
             exists l1, l2. repeat split; auto. intros y Hy. apply H2. apply in_or_app. left; exact Hy.
  Qed.

  Lemma holds_last_dh ps : holds_last (fun p => Some (pt_dh_pk p)) ps (binsert_all (dh_entries ps) []).
  Proof.
    intros j v. rewrite bget_binsert_all. unfold dh_entries. rewrite <- map_rev. cbn [bget].
    assert (F : forall l, find (fun kv : u32 * G => u32_eqb j (fst kv)) (map (fun p => (pt_index p, pt_dh_pk p)) l) =
       match find (fun q => u32_eqb j (pt_index q)) l with Some p => Some (pt_index p, pt_dh_pk p) | None => None end).
    { induction l as [|p l IH]; cbn; [reflexivity|]. destruct (u32_eqb j (pt_index p)); auto. }
    rewrite F. destruct (find _ (rev ps)) as [p|] eqn:E.
    - apply find_rev_last in E. cbn. split.
      + intros [= <-]. eauto.
      + intros (p' & H1 & [= <-]). apply find_rev_last in E, H1. congruence.
    - split; [discriminate|]. intros (p' & H1 & _). apply find_rev_last in H1. congruence.
  Qed.
  Lemma holds_last_comm ps : (forall p, In p ps -> pt_comm p <> None) ->
    holds_last pt_comm ps (binsert_all (comm_entries ps) []).
  Proof.
    intros Hc j v. rewrite bget_binsert_all. cbn [bget].
    assert (Hc' : forall p, In p (rev ps) -> pt_comm p <> None) by (intros p Hp; apply Hc, in_rev, Hp).
    assert (R : rev (comm_entries ps) = comm_entries (rev ps)).
    { clear. unfold comm_entries. induction ps as [|p ps IH]; cbn; [reflexivity|].
      rewrite rev_app_distr, IH, flat_map_app. cbn. f_equal. destruct (pt_comm p); reflexivity. }
    rewrite R.
    assert (F : forall l, (forall p, In p l -> pt_comm p <> None) ->
       find (fun kv : u32 * Vss => u32_eqb j (fst kv)) (comm_entries l) =
       match find (fun q => u32_eqb j (pt_index q)) l with
       | Some p => match pt_comm p with Some c => Some (pt_index p, c) | None => None end
       | None => None end).
    { induction l as [|p l IH]; intros Hl; cbn; [reflexivity|].
      destruct (pt_comm p) as [c|] eqn:Ep; [|exfalso; apply (Hl p (or_introl eq_refl) Ep)].
      cbn. destruct (u32_eqb j (pt_index p)); [rewrite Ep; reflexivity|].
      apply IH. intros q Hq. apply Hl. right; exact Hq. }
    rewrite (F _ Hc'). destruct (find _ (rev ps)) as [p|] eqn:E.
    - apply find_rev_last in E. split.
      + destruct (pt_comm p) as [c|] eqn:Ep; [|discriminate]. cbn. intros [= <-]. eauto.
      + intros (p' & H1 & H2). apply find_rev_last in E, H1. assert (p' = p) by congruence. subst.
        rewrite H2. reflexivity.
    - split; [discriminate|]. intros (p' & H1 & _). apply find_rev_last in H1. congruence.
  Qed.

  (** with distinct indices, being last is being an element *)
  Lemma last_with_distinct j ps p : NoDup (map pt_index ps) ->
    (last_with j ps p <-> In p ps /\ pt_index p = j).
  Proof.
    intros Hnd. split.
    - intros (l1 & l2 & -> & H1 & _). split; [apply in_or_app; right; left; reflexivity|exact H1].
    - intros [Hin Hj]. apply in_split in Hin. destruct Hin as (l1 & l2 & ->).
      exists l1, l2. repeat split; auto. intros q Hq E.
      rewrite map_app in Hnd. cbn in Hnd. apply NoDup_remove in Hnd. destruct Hnd as [_ Hnd].
      apply Hnd. apply in_or_app. right. rewrite Hj, <- E. apply in_map, Hq.
  Qed.
  Lemma last_with_fun j ps p q : last_with j ps p -> last_with j ps q -> p = q.
  Proof. intros H1 H2. apply find_rev_last in H1, H2. congruence. Qed.
  Lemma last_with_in j ps p : last_with j ps p -> In p ps /\ pt_index p = j.
  Proof. intros (l1 & l2 & -> & H & _). split; [apply in_or_app; right; left; reflexivity|exact H]. Qed.
  Lemma last_with_ex ps p : In p ps -> exists q, last_with (pt_index p) ps q.
  Proof.
    intros Hin. destruct (find (fun q => u32_eqb (pt_index p) (pt_index q)) (rev ps)) as [q|] eqn:E.
    - exists q. apply find_rev_last, E.
    - exfalso. apply find_none with (x := p) in E; [|apply in_rev in Hin; exact Hin].
      rewrite u32_eqb_refl in E. discriminate.
  Qed.

  (** ** outcome of round one *)
  Lemma comm_entries_none_free fd t ps p :
    In p (filter (okb fd true t) ps) -> pt_comm p <> None.
  Proof.
    intros H. apply filter_In in H. destruct H as [_ H]. unfold okb in H. cbn in H.
    rewrite !andb_true_iff in H. destruct H as [_ [H _]]. apply keyb_iff in H.
    destruct H as (c & P & rest & pr & H & _). congruence.
  Qed.

  Lemma shares_for_all_intro my x co ps es :
    Forall2 (fun p ke => fst ke = pt_index p /\ es_sender (snd ke) = my /\ es_receiver (snd ke) = pt_index p /\
       decrypt_share (snd ke) (enc_point (pt_dh_pk p * x)%G) =
         Ok (MkShare my (pt_index p) (poly_value co (of_u32 (pt_index p))))) ps es ->
    shares_for_all my x co ps (binsert_all es []).
  Proof.
    intros H. split.
    - intros j. rewrite binsert_all_keys. cbn.
      assert (E : map fst es = map pt_index ps).
      { clear -H. induction H as [|p ke ps es [H1 _] HF IH]; cbn; congruence. }
      rewrite E. tauto.
    - intros j p Hl. rewrite bget_binsert_all. apply find_rev_last in Hl.
      assert (R : exists ke, find (fun kv : u32 * EncShare => u32_eqb j (fst kv)) (rev es) = Some ke /\
                    share_for my x co p (snd ke)).
      { assert (HR : Forall2 (fun p ke => fst ke = pt_index p /\ share_for my x co p (snd ke)) (rev ps) (rev es)).
        { clear Hl. induction H as [|q ke ps es H1 HF IH]; cbn; [constructor|].
          apply Forall2_app; [exact IH|]. constructor; [|constructor]. unfold share_for. tauto. }
        clear H. revert HR Hl. generalize (rev ps) (rev es). clear. intros l l' HR Hl.
        induction HR as [|q ke l l' [H1 H2] HF IH]; cbn in *; [discriminate|].
        rewrite H1. destruct (u32_eqb j (pt_index q)).
        - injection Hl as ->. eauto.
        - apply IH, Hl. }
      destruct R as (ke & -> & HS). eauto.
  Qed.

  Lemma opt_list_eq l : opt_list l = none_if_empty l.
  Proof. destruct l; reflexivity. Qed.

  Section Outcome.
    Context (m : build) (params : Params) (x : F) (my : u32) (co : option (list F)) (ps : list Participant)
            (fd fs : bool) (r : Rng).
    Hypothesis (Hf : fd = true \/ fs = true) (Hco : fd = true -> exists cs, co = Some cs)
               (Ht : (1 <= u32v (p_t params))%N).
    Let run := new_state_internal m params x my co ps fd fs r.
    Let valid := filter (okb fd fs (p_t params)) ps.
    Let mis := map pt_index (filter (fun p => negb (okb fd fs (p_t params) p)) ps).

    Lemma ns_count : N.of_nat (length ps) <> u32v (p_n params) ->
      run = Err (InvalidNumberOfParticipants (length ps) (p_n params)).
    Proof.
      intros H. unfold run, new_state_internal. rewrite (proj2 (N.eqb_neq _ _) H). reflexivity.
    Qed.

    Lemma ns_panic : N.of_nat (length ps) = u32v (p_n params) -> fs && existsb crashb ps = true -> run = Panic.
    Proof.
      intros H Hc. unfold run, new_state_internal. rewrite (proj2 (N.eqb_eq _ _) H). cbn [negb].
      rewrite check_all_eq by exact Hf. rewrite Hc. reflexivity.
    Qed.

    Lemma ns_toofew : N.of_nat (length ps) = u32v (p_n params) -> fs && existsb crashb ps = false ->
      (N.of_nat (length valid) < u32v (p_t params))%N -> run = Err (TooManyInvalidParticipants mis).
    Proof.
      intros H Hc Hlt. unfold run, new_state_internal. rewrite (proj2 (N.eqb_eq _ _) H). cbn [negb].
      rewrite check_all_eq by exact Hf. rewrite Hc. cbv zeta. cbn [bind acc_valid acc_mis app].
      fold valid mis. apply N.ltb_lt in Hlt. rewrite Hlt. reflexivity.
    Qed.

    Lemma valid_mis_length : length ps = length valid + length mis.
    Proof.
      apply (splits_length (fun p => okb fd fs (p_t params) p = true)). apply splits_filter. tauto.
    Qed.

    Lemma ns_success : N.of_nat (length ps) = u32v (p_n params) -> fs && existsb crashb ps = false ->
      (u32v (p_t params) <= N.of_nat (length valid))%N ->
      exists st r', run = Ok (R1 st, MkPList valid (none_if_empty mis), r') /\
        records params my x valid st /\
        ksorted (ds_dhs st) /\
        (if fs then exists comms, ds_comms st = Some comms /\ ksorted comms /\ holds_last pt_comm valid comms
         else ds_comms st = None) /\
        (if negb fd && fs then ds_enc st = None /\ r' = r
         else exists cs es, co = Some cs /\ ds_enc st = Some es /\ ksorted es /\ shares_for_all my x cs ps es).
    Proof.
      intros H Hc Hle. unfold run, new_state_internal. rewrite (proj2 (N.eqb_eq _ _) H). cbn [negb].
      rewrite check_all_eq by exact Hf. rewrite Hc. cbv zeta. cbn [bind acc_valid acc_mis acc_comms acc_dhs app].
      fold valid mis. rewrite (proj2 (N.ltb_ge _ _) Hle).
      pose proof valid_mis_length as Hlen. pose proof (u32_bound (p_n params)) as Hb.
      rewrite (u32_sub_exact m (p_n params) (length mis)) by lia. cbn [bind].
      assert (Hn : u32v (u32_of_N (u32v (p_n params) - N.of_nat (length mis))) = N.of_nat (length valid)).
      { rewrite u32_of_N_small by lia. lia. }
      rewrite (params_new_ok m (u32_of_N (u32v (p_n params) - N.of_nat (length mis))) (p_t params)) by (rewrite ?Hn; assumption).
      cbn [bind]. rewrite opt_list_eq.
      assert (Hcomm : fs = true -> exists comms, Some (binsert_all (comm_entries valid) []) = Some comms /\
                ksorted comms /\ holds_last pt_comm valid comms).
      { intros E. eexists. split; [reflexivity|]. split; [apply ksorted_binsert_all, ksorted_nil|].
        apply holds_last_comm. intros p Hp. unfold valid in Hp. rewrite E in Hp. eapply comm_entries_none_free, Hp. }
      assert (Hrec : forall c e, records params my x valid
        (MkState (MkParams (u32_of_N (u32v (p_n params) - N.of_nat (length mis))) (p_t params)) my x (gen * x)%G
           c (binsert_all (dh_entries valid) []) e None)).
      { intros c e. constructor; cbn [ds_params p_n p_t ds_index ds_dh_sk ds_dh_pk ds_dhs ds_shares]; auto.
        apply holds_last_dh. }
      destruct (negb fd && fs) eqn:Efd.
      - apply andb_prop in Efd. destruct Efd as [E1 E2]. do 2 eexists. split; [reflexivity|].
        split; [apply Hrec|]. split; [apply ksorted_binsert_all, ksorted_nil|].
        rewrite E2. cbn [ds_comms ds_enc]. split; [apply Hcomm, E2|auto].
      - assert (Hfd : fd = true) by (destruct fd, fs; auto; destruct Hf; congruence).
        destruct (Hco Hfd) as [cs Hcs]. rewrite Hcs.
        destruct (encrypt_all_ok my x cs ps [] r) as (es & r' & E & HF). rewrite E. cbn [bind].
        do 2 eexists. split; [reflexivity|]. split; [apply Hrec|].
        split; [apply ksorted_binsert_all, ksorted_nil|]. cbn [ds_comms ds_enc]. split.
        + destruct fs; [apply Hcomm; reflexivity|reflexivity].
        + exists cs, (binsert_all es []). repeat split; try (apply ksorted_binsert_all, ksorted_nil);
            apply shares_for_all_intro in HF; apply HF; assumption.
    Qed.
  End Outcome.

  (** t = 0 (possible for deserialized parameters only) never succeeds *)
  Lemma ns_t0 m params x my co ps fd fs r : (fd = true \/ fs = true) -> (fd = true -> exists cs, co = Some cs) ->
    u32v (p_t params) = 0%N -> N.of_nat (length ps) = u32v (p_n params) -> fs && existsb crashb ps = false ->
    new_state_internal m params x my co ps fd fs r =
      match m with Debug => Panic | Release => Err InvalidThresholdParams end.
  Proof.
    intros Hf Hco Ht H Hc. unfold new_state_internal. rewrite (proj2 (N.eqb_eq _ _) H). cbn [negb].
    rewrite check_all_eq by exact Hf. rewrite Hc. cbv zeta. cbn [bind acc_valid acc_mis acc_comms acc_dhs app].
    set (valid := filter _ ps). set (mis := map pt_index _).
    assert (Hlen : length ps = length valid + length mis).
    { apply (splits_length (fun p => okb fd fs (p_t params) p = true)). apply splits_filter. tauto. }
    pose proof (u32_bound (p_n params)) as Hb.
    rewrite Ht. replace (N.of_nat (length valid) <? 0)%N with false by (symmetry; apply N.ltb_ge; lia).
    rewrite (u32_sub_exact m (p_n params) (length mis)) by lia. cbn [bind].
    rewrite params_new_bad by (rewrite Ht; lia).
    destruct (negb fd && fs) eqn:Efd; [destruct m; reflexivity|].
    assert (Hfd : fd = true) by (destruct fd, fs; auto; destruct Hf; congruence).
    destruct (Hco Hfd) as [cs ->]. destruct (encrypt_all_ok my x cs ps [] r) as (es & r' & E & HF).
    rewrite E. destruct m; reflexivity.
  Qed.

  Lemma existsb_crash ps : existsb crashb ps = true <-> exists p, In p ps /\ crashing p.
  Proof.
    rewrite existsb_exists. split; intros (p & H1 & H2); exists p; (split; [exact H1|]); apply crashb_iff, H2.
  Qed.
  Lemma existsb_crash_false ps : existsb crashb ps = false <-> forall p, In p ps -> ~ crashing p.
  Proof.
    rewrite <- not_true_iff_false, existsb_crash. split; [intros H p H1 H2; apply H; eauto|intros H (p & H1 & H2); apply (H p); assumption].
  Qed.
End Lemmas.
