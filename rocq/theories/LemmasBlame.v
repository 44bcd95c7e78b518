(** Lemmas on settling complaints. *)
From Coq Require Import String Strings.Byte Arith NArith Bool List Lia Permutation.
From Verif Require Import Base Suite Spec SpecDkg Types Algebra BaseLemmas ModelDkg LemmasShare LemmasRound2.
Import ListNotations.

Section LemmasBlame.
  Context {S : Suite} {L : SuiteLaws S}.
  Add Field F_fld : F_field.

  Lemma registered_ex st i : registered st i (match bget i (ds_dhs st) with Some pk => pk | None => Gzero end).
  Proof. unfold registered. destruct (bget i (ds_dhs st)); auto. Qed.
  Lemma registered_fun st i pk pk' : registered st i pk -> registered st i pk' -> pk = pk'.
  Proof. intros [A|[A B]] [A'|[A' B']]; congruence. Qed.

  Lemma is_ok_unit (x : result unit) : is_ok x = true <-> x = Ok tt.
  Proof. destruct x as [[]| |]; cbn; split; intros; try reflexivity; discriminate. Qed.

  (** executable verdict *)
  Lemma blame_one_cases st comms c : ds_comms st = Some comms ->
    (upheld st c /\ blame_one st c = Ok (accused c)) \/ (~ upheld st c /\ blame_one st c = Ok (maker c)).
  Proof.
    intros Hc. unfold blame_one. fold (accused c) (maker c).
    destruct (u32_eqb (accused c) u32_zero || u32_ltb (p_n (ds_params st)) (accused c)) eqn:Er.
    { right. split; [|reflexivity]. intros (H1 & H2 & _). apply orb_true_iff in Er. destruct Er as [Er|Er].
      - apply u32_eqb_spec in Er. contradiction.
      - apply N.ltb_lt in Er. lia. }
    apply orb_false_iff in Er. destruct Er as [E0 En]. rewrite Hc.
    assert (H0 : accused c <> u32_zero) by (intros X; rewrite X, u32_eqb_refl in E0; discriminate).
    assert (Hn : (u32v (accused c) <= u32v (p_n (ds_params st)))%N) by (apply N.ltb_ge in En; lia).
    destruct (bget (accused c) comms) as [com|] eqn:Eb.
    2:{ right. split; [|reflexivity]. intros (_ & _ & m & com & pk & A & B & _). congruence. }
    set (pk := match bget (accused c) (ds_dhs st) with Some pk => pk | None => Gzero end).
    assert (Hpk : registered st (accused c) pk) by apply registered_ex. clearbody pk.
    destruct (is_ok (complaint_verify c pk)) eqn:Ev; cbn [negb].
    2:{ right. split; [|reflexivity]. intros (_ & _ & m & com' & pk' & A & B & C & D & _).
        rewrite (registered_fun _ _ _ _ C Hpk) in D. apply is_ok_unit in D. congruence. }
    apply is_ok_unit in Ev.
    assert (U : (~ exists v, decrypt_share (c_share c) (enc_point (c_shared c)) = Ok (MkShare (accused c) (maker c) v) /\
          on_commitment com (maker c) v) -> upheld st c).
    { intros X. split; [exact H0|]. split; [exact Hn|]. exists comms, com, pk. auto. }
    destruct (decrypt_share (c_share c) (enc_point (c_shared c))) as [s|e|] eqn:Ed.
    - pose proof (decrypt_share_fields _ _ _ Ed) as Es. fold (accused c) (maker c) in Es.
      destruct (is_ok (share_verify s com)) eqn:Eo.
      + right. split; [|reflexivity]. intros (_ & _ & m & com' & pk' & A & B & C & D & E).
        apply E. exists (sh_value s). split; [congruence|]. apply share_verify_iff in Eo. rewrite Es in Eo. cbn in Eo.
        assert (com' = com) by congruence. subst. exact Eo.
      + left. split; [|reflexivity]. apply U. intros (v & Hv & Ho). injection Hv as Hv. 
        assert (X : is_ok (share_verify s com) = true) by (apply share_verify_iff; rewrite Hv; exact Ho). congruence.
    - left. split; [|reflexivity]. apply U. intros (v & Hv & _). discriminate.
    - left. split; [|reflexivity]. apply U. intros (v & Hv & _). discriminate.
  Qed.

  Lemma blame_one_convicts st comms c : ds_comms st = Some comms ->
    exists j, blame_one st c = Ok j /\ forall k, convicts st c k <-> k = j.
  Proof.
    intros Hc. destruct (blame_one_cases st comms c Hc) as [[U E]|[U E]]; eexists; (split; [exact E|]);
      intros k; unfold convicts; tauto.
  Qed.

  Lemma blame_loop_ok st comms : ds_comms st = Some comms -> forall cs pending,
    exists l, blame_loop st cs pending = Ok (pending ++ l) /\ (forall j, In j l <-> convicted st cs j) /\
      length l = length cs.
  Proof.
    intros Hc. induction cs as [|c cs IH]; intros pending.
    - exists []. rewrite app_nil_r. split; [reflexivity|]. split; [|reflexivity].
      intros j. split; [intros []|]. intros (c & [] & _).
    - destruct (blame_one_convicts st comms c Hc) as (j & E & Hj). cbn [blame_loop]. rewrite E. cbn [bind].
      destruct (IH (pending ++ [j])) as (l & El & Hl & Hlen). exists (j :: l). rewrite El, <- app_assoc.
      split; [reflexivity|]. split; [|cbn; congruence]. intros k. cbn [In]. rewrite Hl. split.
      + intros [<-|(c' & H1 & H2)]; [exists c; split; [left; reflexivity|apply Hj; reflexivity]|].
        exists c'. split; [right|]; assumption.
      + intros (c' & [<-|H1] & H2); [left; symmetry; apply Hj, H2|]. right. exists c'. auto.
  Qed.

  (** removal *)
  Definition drop_keys {V} (l : list u32) (m : bmap V) : bmap V :=
    filter (fun kv => negb (existsb (u32_eqb (fst kv)) l)) m.
  Lemma drop_keys_nil {V} (m : bmap V) : drop_keys [] m = m.
  Proof. unfold drop_keys. induction m as [|a m IH]; [reflexivity|]. cbn [filter existsb negb fst]. f_equal. exact IH. Qed.
  Lemma drop_keys_cons {V} i l (m : bmap V) : drop_keys l (bremove i m) = drop_keys (i :: l) m.
  Proof.
    unfold drop_keys, bremove. induction m as [|[k v] m IH]; [reflexivity|]. cbn [filter fst existsb].
    rewrite (u32_eqb_sym k i). destruct (u32_eqb i k); cbn [negb orb].
    - exact IH.
    - cbn [filter fst]. destruct (existsb (u32_eqb k) l); cbn [negb]; [exact IH|]. f_equal. exact IH.
  Qed.
  Definition drop_state (l : list u32) (st : DkgState) : DkgState :=
    MkState (ds_params st) (ds_index st) (ds_dh_sk st) (ds_dh_pk st) (option_map (drop_keys l) (ds_comms st))
      (ds_dhs st) (ds_enc st) (option_map (drop_keys l) (ds_shares st)).
  Lemma remove_all_ok l : forall st comms shares, ds_comms st = Some comms -> ds_shares st = Some shares ->
    remove_all st l = Ok (drop_state l st).
  Proof.
    induction l as [|i l IH]; intros st comms shares Hc Hs.
    - cbn. unfold drop_state. destruct st; cbn in *. subst. cbn [option_map]. rewrite !drop_keys_nil. reflexivity.
    - cbn [remove_all]. unfold remove_malicious. rewrite Hc, Hs. cbn [bind].
      erewrite IH by reflexivity. unfold drop_state. cbn [ds_params ds_index ds_dh_sk ds_dh_pk ds_comms ds_dhs ds_enc ds_shares option_map].
      rewrite Hc, Hs. cbn [option_map]. rewrite !drop_keys_cons. reflexivity.
  Qed.
  Lemma drop_keys_without {V} l (m : bmap V) (P : u32 -> Prop) : (forall j, In j l <-> P j) -> without P m (drop_keys l m).
  Proof.
    intros H. unfold drop_keys. induction m as [|[k v] m IH]; [constructor|]. cbn [filter fst].
    destruct (existsb (u32_eqb k) l) eqn:E; cbn [negb].
    - apply wo_drop; [|exact IH]. apply H. apply existsb_exists in E. destruct E as (x & Hx & E).
      apply u32_eqb_spec in E. subst. exact Hx.
    - apply wo_keep; [|exact IH]. intros HP. apply H in HP.
      assert (existsb (u32_eqb k) l = true) by (apply existsb_exists; exists k; split; [exact HP|apply u32_eqb_refl]).
      congruence.
  Qed.
  Lemma without_fun {V} (P Q : u32 -> Prop) (m m1 : bmap V) : without P m m1 -> (forall j, P j <-> Q j) ->
    forall m2, without Q m m2 -> m1 = m2.
  Proof.
    intros H HPQ. induction H as [|k v m m' HP H IH|k v m m' HP H IH]; intros m2 H2; inversion H2; subst; auto.
    - exfalso. apply HPQ in HP. contradiction.
    - exfalso. apply HP, HPQ. assumption.
    - f_equal. apply IH. assumption.
  Qed.
  Lemma without_in {V} (P : u32 -> Prop) (m m' : bmap V) : without P m m' ->
    forall k v, In (k, v) m' <-> In (k, v) m /\ ~ P k.
  Proof.
    induction 1 as [|k0 v0 m m' HP H IH|k0 v0 m m' HP H IH]; intros k v; cbn [In].
    - tauto.
    - rewrite IH. split; [tauto|]. intros [[[= -> ->]|]]; tauto.
    - rewrite IH. split; [intros [[= -> ->]|]; tauto|]. tauto.
  Qed.
  Lemma without_bget {V} (P : u32 -> Prop) (m m' : bmap V) : without P m m' ->
    forall k, (P k -> bget k m' = None) /\ (~ P k -> bget k m' = bget k m).
  Proof.
    induction 1 as [|k0 v0 m m' HP H IH|k0 v0 m m' HP H IH]; intros k.
    - split; reflexivity.
    - destruct (IH k) as [I1 I2]. split; [exact I1|]. intros Hk. cbn. destruct (u32_eqb k k0) eqn:E; [|apply I2, Hk].
      apply u32_eqb_spec in E. subst. contradiction.
    - destruct (IH k) as [I1 I2]. cbn. destruct (u32_eqb k k0) eqn:E.
      + apply u32_eqb_spec in E. subst. split; [contradiction|reflexivity].
      + split; [exact I1|exact I2].
  Qed.
  Lemma without_keys {V} (P : u32 -> Prop) (m m' : bmap V) : without P m m' ->
    forall k, In k (bkeys m') <-> In k (bkeys m) /\ ~ P k.
  Proof.
    intros H k. unfold bkeys. rewrite !in_map_iff. split.
    - intros ([k' v] & <- & Hin). apply (without_in P m m' H) in Hin. split; [|apply Hin]. exists (k', v). tauto.
    - intros [([k' v] & <- & Hin) Hn]. exists (k', v). split; [reflexivity|]. apply (without_in P m m' H). auto.
  Qed.
  Lemma without_nodup {V} (P : u32 -> Prop) (m m' : bmap V) : without P m m' -> NoDup (bkeys m) -> NoDup (bkeys m').
  Proof.
    intros H. induction H as [|k v m m' HP H IH|k v m m' HP H IH]; intros Hn; [exact Hn| |];
      inversion Hn as [|? ? H1 H2]; subst; [apply IH; exact H2|].
    constructor; [|apply IH; exact H2]. intros X. apply (without_keys P m m' H) in X. apply H1, X.
  Qed.

  Lemma lookup_all_keys st l : keys_of st l (lookup_all (ds_dhs st) l).
  Proof. induction l as [|i l IH]; cbn; [constructor|]. destruct (bget i (ds_dhs st)) eqn:E; constructor; auto. Qed.
  Lemma keys_of_in st l ks : keys_of st l ks -> forall i k, In i l -> bget i (ds_dhs st) = Some k -> In k ks.
  Proof.
    induction 1 as [|i l k ks H1 H2 IH|i l ks H1 H2 IH]; intros j k' Hj Hk; [contradiction| |].
    - destruct Hj as [->|Hj]; [left; congruence|right; eapply IH; eassumption].
    - destruct Hj as [->|Hj]; [congruence|eapply IH; eassumption].
  Qed.

  (** the whole of blame *)
  Definition verdicts (st : DkgState) (cs : list Complaint) : list u32 :=
    match blame_loop st cs [] with Ok l => dedup_by (fun x => x) (sort_by (fun x => x) l) | _ => [] end.
  Lemma verdicts_spec st comms cs : ds_comms st = Some comms ->
    increasing (verdicts st cs) /\ forall j, In j (verdicts st cs) <-> convicted st cs j.
  Proof.
    intros Hc. unfold verdicts. destruct (blame_loop_ok st comms Hc cs []) as (l & -> & Hl & _). cbn [app].
    split; [apply (sd_id_increasing l)|]. intros j. rewrite <- Hl. apply (sd_id_in l j).
  Qed.
  Lemma blame_eq st comms shares cs : ds_comms st = Some comms -> ds_shares st = Some shares ->
    blame (R2 st) cs = Ok (lookup_all (ds_dhs st) (verdicts st cs), R2 (drop_state (verdicts st cs) st)).
  Proof.
    intros Hc Hs. unfold blame, verdicts. cbn [st2].
    destruct (blame_loop_ok st comms Hc cs []) as (l & -> & Hl & _). cbn [bind].
    rewrite (remove_all_ok _ st comms shares Hc Hs). reflexivity.
  Qed.
  Lemma drop_state_pruned st comms shares l (P : u32 -> Prop) : ds_comms st = Some comms -> ds_shares st = Some shares ->
    (forall j, In j l <-> P j) -> pruned P st (drop_state l st).
  Proof.
    intros Hc Hs HP. constructor; try reflexivity.
    - exists comms, (drop_keys l comms). unfold drop_state. cbn. rewrite Hc. repeat split. apply drop_keys_without, HP.
    - exists shares, (drop_keys l shares). unfold drop_state. cbn. rewrite Hs. repeat split. apply drop_keys_without, HP.
  Qed.
  Lemma drop_state_app st l1 l2 l : (forall j, In j l <-> In j l1 \/ In j l2) ->
    drop_state l2 (drop_state l1 st) = drop_state l st.
  Proof.
    intros H. assert (D : forall V (m : bmap V), drop_keys l2 (drop_keys l1 m) = drop_keys l m).
    { intros V m. unfold drop_keys. induction m as [|[k v] m IH]; [reflexivity|]. cbn [filter fst].
      assert (X : existsb (u32_eqb k) l = existsb (u32_eqb k) l1 || existsb (u32_eqb k) l2).
      { apply eq_true_iff_eq. rewrite orb_true_iff, !existsb_exists. split.
        - intros (x & Hx & E). apply H in Hx. destruct Hx; [left|right]; exists x; auto.
        - intros [(x & Hx & E)|(x & Hx & E)]; exists x; (split; [apply H; auto|exact E]). }
      rewrite X. destruct (existsb (u32_eqb k) l1); cbn [negb orb]; [exact IH|]. cbn [filter fst].
      destruct (existsb (u32_eqb k) l2); cbn [negb]; [exact IH|]. f_equal. exact IH. }
    unfold drop_state. cbn. destruct (ds_comms st), (ds_shares st); cbn [option_map]; rewrite ?D; reflexivity.
  Qed.
  Lemma drop_state_ext st l l' : (forall j, In j l <-> In j l') -> drop_state l st = drop_state l' st.
  Proof.
    intros H. rewrite <- (drop_state_app st [] l l'); [|intros j; rewrite <- H; cbn [In]; tauto].
    unfold drop_state. cbn. destruct (ds_comms st), (ds_shares st); cbn; rewrite ?drop_keys_nil; reflexivity.
  Qed.
End LemmasBlame.
