(** Round two: complaints and retained shares. *)
From Coq Require Import String Strings.Byte Arith NArith Bool List Lia Permutation.
From Verif Require Import Base Suite Spec SpecDkg Types Algebra BaseLemmas ModelDkg LemmasShare LemmasRound1.
Import ListNotations.

Section Lemmas.
  Context {S : Suite} {L : SuiteLaws S}.

  Lemma decrypt_share_fields e key s : decrypt_share e key = Ok s ->
    s = MkShare (es_sender e) (es_receiver e) (sh_value s).
  Proof.
    unfold decrypt_share. destruct (aead_dec _ _ _); [|discriminate]. destruct (dec_scalar _) as [[v rest]|]; [|discriminate].
    intros [= <-]. reflexivity.
  Qed.

  Lemma share_verify_iff s c : is_ok (share_verify s c) = true <-> on_commitment c (sh_receiver s) (sh_value s).
  Proof.
    rewrite share_verify_cases. unfold on_commitment. destruct (Geqb _ _) eqn:E.
    - apply Geqb_spec in E. cbn. tauto.
    - cbn. split; [discriminate|]. intros H. apply Geqb_spec in H. congruence.
  Qed.

  Lemma find_comm (comms : bmap Vss) k (b : Vss -> bool) : NoDup (bkeys comms) ->
    match find (fun kc => u32_eqb (fst kc) k && b (snd kc)) comms with Some _ => true | None => false end =
    match bget k comms with Some c => b c | None => false end.
  Proof.
    unfold bkeys. induction comms as [|[j c] comms IH]; cbn; intros H; [reflexivity|].
    inversion H as [|? ? Hn Hd]; subst. rewrite u32_eqb_sym. destruct (u32_eqb k j) eqn:E; cbn.
    - apply u32_eqb_spec in E. subst j. destruct (b c) eqn:Eb; [reflexivity|].
      rewrite (IH Hd). destruct (bget k comms) as [c'|] eqn:Eg; [|reflexivity].
      apply bget_in in Eg. exfalso. apply Hn. apply in_map with (f := fst) in Eg. exact Eg.
    - apply IH, Hd.
  Qed.

  Definition opened (st : DkgState) (es : list EncShare) : list (u32 * SecretShare) :=
    flat_map (fun e =>
      match bget (es_sender e) (ds_dhs st) with
      | Some pk => match decrypt_share e (enc_point (pk * ds_dh_sk st)%G) with
                   | Ok s => [(es_sender e, s)] | _ => [] end
      | None => [] end) es.

  Lemma bad_share_iff st comms e pk c : ds_comms st = Some comms ->
    bget (es_sender e) (ds_dhs st) = Some pk -> bget (es_sender e) comms = Some c ->
    (bad_share (decrypt_share e (enc_point (pk * ds_dh_sk st)%G)) c = true <-> bad_for st e).
  Proof.
    intros Hc Hk Hb. unfold bad_share, bad_for.
    destruct (decrypt_share e _) as [s|er|] eqn:E.
    - pose proof (decrypt_share_fields _ _ _ E) as Hs. rewrite negb_true_iff, <- not_true_iff_false, share_verify_iff. split.
      + intros H. exists comms, c. repeat split; auto. intros (v & (pk' & A & B) & M). apply H.
        assert (pk' = pk) by congruence. subst pk'. rewrite E in B. injection B as ->. exact M.
      + intros (comms' & c' & A1 & A2 & A3) H. apply A3. assert (comms' = comms) by congruence. subst.
        assert (c' = c) by congruence. subst. exists (sh_value s). split.
        * exists pk. split; [exact Hk|]. rewrite E. f_equal. exact Hs.
        * rewrite Hs in H. exact H.
    - split; [|reflexivity]. intros _. exists comms, c. repeat split; auto.
      intros (v & (pk' & A & B) & _). congruence.
    - split; [|reflexivity]. intros _. exists comms, c. repeat split; auto.
      intros (v & (pk' & A & B) & _). congruence.
  Qed.

  Lemma not_bad_without_comm st comms e : ds_comms st = Some comms -> bget (es_sender e) comms = None -> ~ bad_for st e.
  Proof. intros H1 H2 (c & x & A & B & _). congruence. Qed.

  Lemma round_two_loop_ok m st comms es : ds_comms st = Some comms -> NoDup (bkeys comms) ->
    Forall (acceptable m st) es ->
    forall shares cs r, exists new r',
      round_two_loop m st es shares cs r = Ok (binsert_all (opened st es) shares, cs ++ new, r') /\
      complaint_list st es new.
  Proof.
    intros Hc Hnd HF. induction HF as [|e es [Ha [pk Hk]] HF IH]; intros shares cs r; cbn [round_two_loop].
    - exists [], r. rewrite app_nil_r. split; [reflexivity|constructor].
    - replace (is_debug m && negb (u32_eqb (es_receiver e) (ds_index st))) with false.
      2:{ destruct m; cbn; [rewrite (Ha eq_refl), u32_eqb_refl|]; reflexivity. }
      rewrite Hk, Hc.
      pose proof (find_comm comms (es_sender e) (bad_share (decrypt_share e (enc_point (pk * ds_dh_sk st)%G))) Hnd) as Hf.
      assert (HO : opened st (e :: es) =
        (match decrypt_share e (enc_point (pk * ds_dh_sk st)%G) with Ok s => [(es_sender e, s)] | _ => [] end) ++ opened st es).
      { unfold opened. cbn [flat_map]. rewrite Hk. reflexivity. }
      rewrite HO.
      assert (HB : forall sh,
        match decrypt_share e (enc_point (pk * ds_dh_sk st)%G) with Ok s => binsert (sh_sender s) s sh | _ => sh end =
        binsert_all (match decrypt_share e (enc_point (pk * ds_dh_sk st)%G) with Ok s => [(es_sender e, s)] | _ => [] end) sh).
      { intros sh. destruct (decrypt_share e _) as [s| |] eqn:E; try reflexivity. cbn.
        apply decrypt_share_fields in E. rewrite E. reflexivity. }
      destruct (find _ comms) as [kc|].
      + destruct (complaint_new pk (ds_dh_sk st) (pk * ds_dh_sk st)%G e r) as [c r1] eqn:Ec.
        rewrite HB. destruct (IH (binsert_all (match decrypt_share e (enc_point (pk * ds_dh_sk st)%G) with Ok s => [(es_sender e, s)] | _ => [] end) shares)
                   (cs ++ [c]) r1) as (new & r' & E & Hl).
        exists (c :: new), r'. rewrite E, binsert_all_app, <- app_assoc. split; [reflexivity|].
        destruct (bget (es_sender e) comms) as [vc|] eqn:Eb; [|discriminate].
        constructor; [|split; [|split]|exact Hl].
        * eapply bad_share_iff; eauto.
        * pose proof (f_equal fst Ec) as X. cbn in X. subst c. unfold complaint_new. destruct (rand_scalar r). reflexivity.
        * pose proof (f_equal fst Ec) as X. cbn in X. subst c. unfold complaint_new. destruct (rand_scalar r). reflexivity.
        * exists pk. split; [exact Hk|]. pose proof (f_equal fst Ec) as X. cbn in X. split.
          -- subst c. unfold complaint_new. destruct (rand_scalar r). reflexivity.
          -- rewrite <- X. apply complaint_complete.
      + rewrite HB. destruct (IH (binsert_all (match decrypt_share e (enc_point (pk * ds_dh_sk st)%G) with Ok s => [(es_sender e, s)] | _ => [] end) shares)
                   cs r) as (new & r' & E & Hl).
        exists new, r'. rewrite E, binsert_all_app. split; [reflexivity|].
        constructor; [|exact Hl].
        destruct (bget (es_sender e) comms) as [vc|] eqn:Eb.
        * intros H. eapply bad_share_iff in H; eauto. congruence.
        * eapply not_bad_without_comm; eauto.
  Qed.

  Lemma round_two_loop_stop m st comms es1 e es2 : ds_comms st = Some comms -> 
    Forall (acceptable m st) es1 ->
    ~ acceptable m st e ->
    forall shares cs r,
      round_two_loop m st (es1 ++ e :: es2) shares cs r =
      if is_debug m && negb (u32_eqb (es_receiver e) (ds_index st)) then Panic else Err invalid_indices_error.
  Proof.
    intros Hc HF He. induction HF as [|f es1 [Ha [pk Hk]] HF IH]; intros shares cs r; cbn [round_two_loop app].
    - destruct (is_debug m && negb (u32_eqb (es_receiver e) (ds_index st))) eqn:E; [reflexivity|].
      destruct (bget (es_sender e) (ds_dhs st)) as [pk|] eqn:Ek; [|reflexivity].
      exfalso. apply He. split; [|eauto]. intros ->. cbn in E. apply negb_false_iff, u32_eqb_spec in E. exact E.
    - replace (is_debug m && negb (u32_eqb (es_receiver f) (ds_index st))) with false.
      2:{ destruct m; cbn; [rewrite (Ha eq_refl), u32_eqb_refl|]; reflexivity. }
      rewrite Hk, Hc. destruct (find _ comms) as [kc|].
      + destruct (complaint_new pk (ds_dh_sk st) (pk * ds_dh_sk st)%G f r) as [c r1]. apply IH.
      + apply IH.
  Qed.

  Lemma acceptable_dec m st e : acceptable m st e \/ ~ acceptable m st e.
  Proof.
    unfold acceptable. destruct (bget (es_sender e) (ds_dhs st)) as [pk|].
    - destruct m; [destruct (u32_eq_dec (es_receiver e) (ds_index st)) as [E|E]|].
      + left. eauto.
      + right. intros [H _]. apply E, H, eq_refl.
      + left. split; [discriminate|eauto].
    - right. intros [_ [pk H]]. discriminate.
  Qed.
  Lemma acceptable_split m st es : Forall (acceptable m st) es \/
    exists es1 e es2, es = es1 ++ e :: es2 /\ Forall (acceptable m st) es1 /\ ~ acceptable m st e.
  Proof.
    induction es as [|e es [IH|(es1 & f & es2 & -> & H1 & H2)]].
    - left. constructor.
    - destruct (acceptable_dec m st e); [left; constructor; auto|].
      right. exists [], e, es. auto.
    - destruct (acceptable_dec m st e).
      + right. exists (e :: es1), f, es2. auto.
      + right. exists [], e, (es1 ++ f :: es2). auto.
  Qed.

  (** retained shares *)
  Lemma opened_last st es j s : bget j (binsert_all (opened st es) []) = Some s <->
    exists e, last_such (fun e => es_sender e = j /\ exists v, opens st e v) es e /\
      exists v, opens st e v /\ s = MkShare j (es_receiver e) v.
  Proof.
    rewrite bget_binsert_all. cbn [bget].
    set (P := fun e => es_sender e = j /\ exists v, opens st e v).
    induction es as [|e es IH] using rev_ind.
    - cbn. split; [discriminate|]. intros (e & (l1 & l2 & H & _) & _). destruct l1; discriminate.
    - assert (HO : opened st (es ++ [e]) = opened st es ++ opened st [e]) by (unfold opened; apply flat_map_app).
      rewrite HO, rev_app_distr.
      assert (D : (exists s', opened st [e] = [(es_sender e, s')] /\ opens st e (sh_value s') /\
                      s' = MkShare (es_sender e) (es_receiver e) (sh_value s')) \/
                  (opened st [e] = [] /\ ~ exists v, opens st e v)).
      { unfold opened, opens. cbn. destruct (bget (es_sender e) (ds_dhs st)) as [pk|].
        - destruct (decrypt_share e _) as [s'| |] eqn:Ed.
          + left. exists s'. apply decrypt_share_fields in Ed as Ef. split; [reflexivity|]. split; [|exact Ef].
            exists pk. split; [reflexivity|]. rewrite Ed. f_equal. exact Ef.
          + right. split; [reflexivity|]. intros (v & pk' & [= <-] & H). congruence.
          + right. split; [reflexivity|]. intros (v & pk' & [= <-] & H). congruence.
        - right. split; [reflexivity|]. intros (v & pk' & H & _). discriminate. }
      assert (LS : forall x, last_such P (es ++ [e]) x <-> (P e /\ x = e) \/ (~ P e /\ last_such P es x)).
      { intros x. split.
        - intros (l1 & l2 & H1 & H2 & H3). destruct l2 as [|z l2 _] using rev_ind.
          + apply app_inj_tail in H1. destruct H1 as [_ <-]. left. auto.
          + rewrite app_comm_cons, app_assoc in H1. apply app_inj_tail in H1. destruct H1 as [-> ->].
            right. split; [apply H3, in_or_app; right; left; reflexivity|].
            exists l1, l2. repeat split; auto; try apply H2. intros y Hy. apply H3, in_or_app. left; exact Hy.
        - intros [[H ->]|[H (l1 & l2 & -> & H2 & H3)]].
          + exists es, []. repeat split; auto; apply H.
          + exists l1, (l2 ++ [e]). rewrite <- app_assoc. repeat split; auto; try apply H2.
            intros y Hy. apply in_app_or in Hy. destruct Hy as [Hy|[<-|[]]]; auto. }
      destruct D as [(s' & -> & Ho & Hs)|[-> Hno]].
      + cbn. destruct (u32_eqb j (es_sender e)) eqn:Ej.
        * apply u32_eqb_spec in Ej. cbn. split.
          -- intros [= <-]. exists e. split; [apply LS; left; split; [split; [auto|eauto]|reflexivity]|].
             exists (sh_value s'). split; [exact Ho|]. rewrite Ej. exact Hs.
          -- intros (x & Hx & v & Hv & ->). apply LS in Hx. destruct Hx as [[_ ->]|[Hx _]].
             ++ destruct Ho as (pk & A & B), Hv as (pk' & A' & B'). assert (pk' = pk) by congruence. subst pk'.
                rewrite B in B'. injection B' as <-. rewrite Hs, Ej. reflexivity.
             ++ exfalso. apply Hx. split; [auto|eauto].
        * apply u32_eqb_neq in Ej. rewrite IH. split; intros (x & Hx & Hv); exists x; (split; [|exact Hv]).
          -- apply LS. right. split; [intros [H _]; congruence|exact Hx].
          -- apply LS in Hx. destruct Hx as [[[H _] _]|[_ H]]; [congruence|exact H].
      + cbn. rewrite IH. split; intros (x & Hx & Hv); exists x; (split; [|exact Hv]).
        * apply LS. right. split; [intros [_ H]; contradiction|exact Hx].
        * apply LS in Hx. destruct Hx as [[[_ H] _]|[_ H]]; [contradiction|exact H].
  Qed.

  Lemma complaint_list_fun_length st es : forall cs cs', complaint_list st es cs -> complaint_list st es cs' ->
    length cs = length cs'.
  Proof.
    induction es as [|e es IH]; intros cs cs' H H'; inversion H; subst; inversion H'; subst; try contradiction; cbn; auto.
  Qed.

  Definition drop_enc (st : DkgState) : DkgState :=
    MkState (ds_params st) (ds_index st) (ds_dh_sk st) (ds_dh_pk st) (ds_comms st) (ds_dhs st) None (ds_shares st).
  Lemma complaint_list_drop st es cs : complaint_list (drop_enc st) es cs <-> complaint_list st es cs.
  Proof. split; induction 1; constructor; auto. Qed.
  Lemma acceptable_drop m st e : acceptable m (drop_enc st) e <-> acceptable m st e.
  Proof. reflexivity. Qed.

  Lemma u32_sub_wrap (n : u32) (k : N) : (u32v n < k mod 4294967296)%N ->
    @u32_sub (@Error S) Release n (u32_of_N k) = Ok (u32_of_N (4294967296 + u32v n - k mod 4294967296)).
  Proof.
    intros H. unfold u32_sub, u32_ltb. rewrite u32_of_N_val. apply N.ltb_lt in H. rewrite H. reflexivity.
  Qed.

  (** state after the loop *)
  Definition round_two_state (st : DkgState) (es : list EncShare) : DkgState :=
    MkState (ds_params st) (ds_index st) (ds_dh_sk st) (ds_dh_pk st) (ds_comms st) (ds_dhs st) None
      (Some (binsert_all (opened st es) [])).
  Lemma round_two_state_spec st es : after_round_two st es (round_two_state st es).
  Proof.
    constructor; try reflexivity. eexists. split; [reflexivity|]. split.
    - apply increasing_NoDup. apply (ksorted_binsert_all (opened st es) []), ksorted_nil.
    - intros j s. apply opened_last.
  Qed.

  Lemma to_round_two_few m st es r : (N.of_nat (length es) < u32v (p_t (ds_params st)))%N ->
    to_round_two m (R1 st) es r = Err MissingShares.
  Proof. intros H. unfold to_round_two. cbn. apply N.ltb_lt in H. rewrite H. reflexivity. Qed.

  Lemma to_round_two_stop m st comms es1 e es2 r : ds_comms st = Some comms ->
    (u32v (p_t (ds_params st)) <= N.of_nat (length (es1 ++ e :: es2)))%N ->
    Forall (acceptable m st) es1 -> ~ acceptable m st e ->
    to_round_two m (R1 st) (es1 ++ e :: es2) r =
      if is_debug m && negb (u32_eqb (es_receiver e) (ds_index st)) then Panic else Err invalid_indices_error.
  Proof.
    intros Hc H HF He. unfold to_round_two. cbv zeta. cbn [st1 ds_params].
    rewrite (proj2 (N.ltb_ge _ _) H). fold (drop_enc st).
    rewrite (round_two_loop_stop m (drop_enc st) comms es1 e es2) by assumption. cbn [ds_index drop_enc].
    destruct (is_debug m && _); reflexivity.
  Qed.

  (** n - k as computed: [None] stands for the debug panic *)
  Definition remaining (m : build) (n : N) (k : nat) : option N :=
    let k' := (N.of_nat k mod 4294967296)%N in
    if (n <? k')%N then match m with Debug => None | Release => Some (4294967296 + n - k')%N end
    else Some (n - k')%N.
  Lemma u32_sub_remaining m (n : u32) (k : nat) :
    @u32_sub (@Error S) m n (u32_of_N (N.of_nat k)) =
    match remaining m (u32v n) k with Some x => Ok (u32_of_N x) | None => Panic end.
  Proof.
    unfold u32_sub, remaining, u32_ltb. rewrite u32_of_N_val. destruct (N.ltb _ _); [destruct m|]; reflexivity.
  Qed.
  Lemma remaining_bound m (n : u32) k x : remaining m (u32v n) k = Some x -> (x < 4294967296)%N.
  Proof.
    unfold remaining. pose proof (u32_bound n) as Hb. cbv zeta. generalize (N.of_nat k mod 4294967296)%N. intros k'.
    destruct (N.ltb_spec (u32v n) k') as [Hl|Hl].
    - destruct m; [discriminate|]. intros H. apply (f_equal (fun o => match o with Some y => y | None => 0%N end)) in H.
      rewrite <- H. lia.
    - intros H. apply (f_equal (fun o => match o with Some y => y | None => 0%N end)) in H. rewrite <- H. lia.
  Qed.

  Lemma to_round_two_done m st comms es r : ds_comms st = Some comms -> NoDup (bkeys comms) ->
    (u32v (p_t (ds_params st)) <= N.of_nat (length es))%N ->
    Forall (acceptable m st) es ->
    exists cs r', complaint_list st es cs /\
      to_round_two m (R1 st) es r =
      match remaining m (u32v (p_n (ds_params st))) (length cs) with
      | None => Panic
      | Some x => if (x <? u32v (p_t (ds_params st)))%N then Err (ComplaintErr cs)
                  else Ok (R2 (round_two_state st es), cs, r')
      end.
  Proof.
    intros Hc Hnd H HF.
    destruct (round_two_loop_ok m (drop_enc st) comms es Hc Hnd HF [] [] r) as (new & r' & E & Hl).
    exists new, r'. split; [apply complaint_list_drop, Hl|].
    unfold to_round_two. cbv zeta. cbn [st1 ds_params].
    rewrite (proj2 (N.ltb_ge _ _) H). fold (drop_enc st). rewrite E. cbn [bind app].
    rewrite u32_sub_remaining.
    destruct (remaining m (u32v (p_n (ds_params st))) (length new)) as [x|] eqn:Er; [|reflexivity].
    cbn [bind]. unfold u32_ltb. rewrite u32_of_N_small by (eapply remaining_bound, Er).
    destruct (N.ltb x _); reflexivity.
  Qed.

  Lemma last_such_ex {A} (P : A -> Prop) (dec : forall x, P x \/ ~ P x) l x :
    In x l -> P x -> exists y, last_such P l y.
  Proof.
    revert x. induction l as [|z l IH]; intros x Hin Hp; [contradiction|].
    assert (D : (exists y, In y l /\ P y) \/ forall y, In y l -> ~ P y).
    { clear -dec. induction l as [|w l IH]; [right; intros y []|].
      destruct IH as [(y & H1 & H2)|IH]; [left; exists y; split; [right; exact H1|exact H2]|].
      destruct (dec w) as [D|D]; [left; exists w; split; [left; reflexivity|exact D]|].
      right. intros y [<-|Hy]; [exact D|apply IH, Hy]. }
    destruct D as [(y & H1 & H2)|D].
    - destruct (IH y H1 H2) as (e & l1 & l2 & -> & E1 & E2). exists e, (z :: l1), l2. auto.
    - destruct Hin as [->|Hin]; [|exfalso; apply (D x Hin Hp)]. exists x, [], l. auto.
  Qed.
  Lemma opens_dec st e : (exists v, opens st e v) \/ ~ exists v, opens st e v.
  Proof.
    unfold opens. destruct (bget (es_sender e) (ds_dhs st)) as [pk|].
    - destruct (decrypt_share e (enc_point (pk * ds_dh_sk st)%G)) as [s| |] eqn:Ed.
      + left. exists (sh_value s), pk. split; [reflexivity|]. rewrite Ed. f_equal. eapply decrypt_share_fields, Ed.
      + right. intros (v & pk' & [= <-] & H). congruence.
      + right. intros (v & pk' & [= <-] & H). congruence.
    - right. intros (v & pk' & H & _). discriminate.
  Qed.
  Lemma opens_fun st e v v' : opens st e v -> opens st e v' -> v = v'.
  Proof.
    intros (pk & A & B) (pk' & A' & B'). assert (pk' = pk) by congruence. subst. rewrite B in B'. congruence.
  Qed.
  Lemma not_bad_good st comms e c : ds_comms st = Some comms -> bget (es_sender e) comms = Some c -> ~ bad_for st e ->
    exists v, opens st e v /\ on_commitment c (es_receiver e) v.
  Proof.
    intros Hc Hb Hn. destruct (opens_dec st e) as [[v Hv]|Hv].
    - exists v. split; [exact Hv|]. destruct (G_dec (gen * v)%G (gpoly_value (vss_points c) (of_u32 (es_receiver e)))) as [E|E]; [exact E|].
      exfalso. apply Hn. exists comms, c. repeat split; auto. intros (v' & H1 & H2).
      rewrite (opens_fun _ _ _ _ H1 Hv) in H2. contradiction.
    - exfalso. apply Hn. exists comms, c. repeat split; auto. intros (v' & H1 & _). apply Hv. eauto.
  Qed.
  Lemma complaint_list_nil st es : complaint_list st es [] -> forall e, In e es -> ~ bad_for st e.
  Proof.
    intros H. remember [] as cs eqn:Ecs. induction H as [|e es c cs Hb _ _ _|e es cs Hb HL IH]; intros f Hf.
    - contradiction.
    - discriminate.
    - destruct Hf as [->|Hf]; auto.
  Qed.
  (** successful calls *)
  Lemma to_round_two_inv m st comms es r s2 cs r' : ds_comms st = Some comms -> NoDup (bkeys comms) ->
    to_round_two m (R1 st) es r = Ok (s2, cs, r') ->
    Forall (acceptable m st) es /\ complaint_list st es cs /\ s2 = R2 (round_two_state st es).
  Proof.
    intros Hc Hnd E. destruct (N.lt_ge_cases (N.of_nat (length es)) (u32v (p_t (ds_params st)))) as [Hl|Hl].
    { rewrite to_round_two_few in E by exact Hl. discriminate. }
    destruct (acceptable_split m st es) as [HF|(es1 & e & es2 & -> & H1 & H2)].
    - destruct (to_round_two_done m st comms es r Hc Hnd Hl HF) as (cs' & r1 & HL & E1). rewrite E in E1.
      destruct (remaining _ _ _) as [x|]; [|discriminate]. destruct (N.ltb x _); [discriminate|].
      injection E1 as -> -> _. auto.
    - rewrite (to_round_two_stop m st comms) in E by assumption. destruct (_ && _); discriminate.
  Qed.
End Lemmas.
