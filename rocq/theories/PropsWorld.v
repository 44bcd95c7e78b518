(** C133: key generation and resharing as a system of interleaving participants. *)
From Coq Require Import String Strings.Byte Arith NArith ZArith Bool List Permutation Sorted Lia.
From Verif Require Import Base Suite Spec SpecDkg SpecSign SpecCodec SpecRobust SpecEnd SpecPanic SpecWorld Types ModelDkg ModelSign ModelCodec Algebra BaseLemmas
  LemmasShare LemmasRound1 LemmasRound2 LemmasFinish LemmasBlame LemmasSign LemmasAgg LemmasCodec PropsRound1 PropsFinish PropsBlame PropsReshare PropsSign PropsAgg PropsRobust PropsView PropsEnd
  PropsCodec PropsPanic PropsHandover Toy Demo DemoDkg DemoSign.
Import ListNotations.

Section World.
  Context {S : Suite} {L : SuiteLaws S}.

  Lemma start_internal boot m params x my co ps r :
    start boot m params x my co ps r = new_state_internal m params x my (if boot then Some co else None) ps boot true r.
  Proof. destruct boot; reflexivity. Qed.
  Lemma fine_okb boot params p : okb boot true (p_t params) p = true <-> fine boot params p.
  Proof. destruct boot; [apply okb_bootstrap|apply okb_new]. Qed.
  Lemma splits_in ok ps valid mis : @splits S ok ps valid mis -> forall p, In p valid <-> In p ps /\ ok p.
  Proof. induction 1 as [|q ps v mis Hq HS IH|q ps v mis Hq HS IH]; intros y; cbn [In]; [tauto| |]; rewrite IH; intuition congruence. Qed.
  Lemma splits_idx ok ps valid mis : @splits S ok ps valid mis -> NoDup (map pt_index ps) -> NoDup (map pt_index valid).
  Proof.
    induction 1 as [|q ps v mis Hq HS IH|q ps v mis Hq HS IH]; cbn [map]; intros H; [exact H| |]; inversion H as [|? ? H1 H2]; subst; [|auto].
    constructor; [|auto]. intros X. apply in_map_iff in X. destruct X as (p & E & X). apply (splits_in _ _ _ _ HS) in X.
    apply H1. rewrite <- E. apply in_map. tauto.
  Qed.

  (** what a node knows after round one is what the list says *)
  Record sees (params : Params) (valid : list Participant) (st : DkgState) (comms : bmap Vss) : Prop := {
    se_comms : ds_comms st = Some comms;
    se_sorted : ksorted comms;
    se_get : forall j c, bget j comms = Some c <-> exists p, In p valid /\ pt_index p = j /\ pt_comm p = Some c;
    se_dhs : forall j pk, bget j (ds_dhs st) = Some pk <-> exists p, In p valid /\ pt_index p = j /\ pt_dh_pk p = pk;
    se_dsorted : ksorted (ds_dhs st);
    se_n : u32v (p_n (ds_params st)) = N.of_nat (length valid);
    se_points : forall p, In p valid -> exists c, pt_comm p = Some c /\ vss_points c <> [];
    se_good : good_indices (map pt_index valid) }.
  Lemma entered_sees boot m params x my co ps0 ps r st l q valid mis :
    good_indices (map pt_index ps0) -> splits (fine boot params) ps0 valid mis -> Permutation ps0 ps ->
    start boot m params x my co ps r = Ok (R1 st, l, q) -> exists comms, sees params valid st comms.
  Proof.
    intros Hg HS HP E. rewrite start_internal in E.
    assert (HB : boot = true -> exists cs, (if boot then Some co else None) = Some cs) by (intros ->; eauto).
    destruct (round_one_ok _ _ _ _ _ _ _ _ _ _ _ HB E) as (_ & _ & _ & _ & _ & s1 & Es & R & K & comms & HC & KC & LC).
    injection Es as <-. exists comms. set (v := filter (okb boot true (p_t params)) ps) in *.
    assert (Hv : NoDup (map pt_index v)).
    { apply filter_nodup_idx. eapply Permutation_NoDup; [apply Permutation_map, HP|apply Hg]. }
    assert (Hin : forall p, In p v <-> In p valid).
    { intros p. unfold v. rewrite filter_In, fine_okb, (splits_in _ _ _ _ HS). split; intros [A B]; (split; [|exact B]).
      - eapply Permutation_in; [apply Permutation_sym, HP|exact A].
      - eapply Permutation_in; [exact HP|exact A]. }
    constructor; auto.
    - intros j c. rewrite (LC j c). split; intros (p & A & B).
      + apply (last_with_distinct j v p Hv) in A. rewrite Hin in A. exists p. tauto.
      + exists p. rewrite (last_with_distinct j v p Hv), Hin. tauto.
    - intros j pk. rewrite (rec_dhs _ _ _ _ _ R j pk). split; intros (p & A & B).
      + apply (last_with_distinct j v p Hv) in A. rewrite Hin in A. injection B as B. exists p. tauto.
      + exists p. rewrite (last_with_distinct j v p Hv), Hin. destruct B as [B ->]. tauto.
    - rewrite (rec_n _ _ _ _ _ R). f_equal. apply Permutation_length. apply NoDup_Permutation; [| |exact Hin].
      + apply (NoDup_map_inv pt_index), Hv.
      + apply (NoDup_map_inv pt_index), (splits_idx _ _ _ _ HS), Hg.
    - intros p Hp. apply (splits_in _ _ _ _ HS) in Hp. destruct Hp as [_ Hp].
      assert (X : key_proof_ok p) by (destruct boot; apply Hp). destruct X as (c & P & rest & pr & B2 & B3 & _).
      exists c. split; [exact B2|]. rewrite B3. discriminate.
    - split; [apply (splits_idx _ _ _ _ HS), Hg|]. intros X. apply in_map_iff in X. destruct X as (p & E0 & X).
      apply (splits_in _ _ _ _ HS) in X. apply Hg. rewrite <- E0. apply in_map. tauto.
  Qed.
  Lemma sees_good params valid st comms : sees params valid st comms -> good_indices (bkeys comms) /\ good_indices (bkeys (ds_dhs st)) /\
    (forall j, In j (bkeys comms) <-> In j (map pt_index valid)).
  Proof.
    intros H. assert (N1 : NoDup (bkeys comms)) by (apply increasing_NoDup, H).
    assert (N2 : NoDup (bkeys (ds_dhs st))) by (apply increasing_NoDup, H).
    assert (K1 : forall j, In j (bkeys comms) <-> In j (map pt_index valid)).
    { intros j. split; intros Hj; apply in_map_iff in Hj.
      - destruct Hj as ([j' c] & E & Hj). cbn in E. subst j'. apply in_bget in Hj; [|exact N1]. apply (se_get _ _ _ _ H) in Hj.
        destruct Hj as (p & A & <- & _). apply in_map, A.
      - destruct Hj as (p & <- & Hj). destruct (se_points _ _ _ _ H p Hj) as (c & Hc & _).
        assert (X : bget (pt_index p) comms = Some c) by (apply (se_get _ _ _ _ H); eauto).
        apply bget_in, (in_map fst) in X. exact X. }
    split; [split; [exact N1|rewrite K1; apply H]|]. split; [|exact K1]. split; [exact N2|].
    intros Z. apply in_map_iff in Z. destruct Z as ([j' pk] & E & Hj). cbn in E. subst j'. apply in_bget in Hj; [|exact N2].
    apply (se_dhs _ _ _ _ H) in Hj. destruct Hj as (p & A & B & _). apply (se_good _ _ _ _ H). rewrite <- B. apply in_map, A.
  Qed.

  (** complaints are judged by what the boards say *)
  Lemma sees_upheld params valid st comms c : sees params valid st comms -> (upheld st c <-> justified valid c).
  Proof.
    intros H. unfold upheld, justified. rewrite (se_n _ _ _ _ H). split.
    - intros (H0 & Hn & cm & com & pk & E1 & E2 & E3 & E4 & E5). split; [exact Hn|].
      rewrite (se_comms _ _ _ _ H) in E1. injection E1 as <-. apply (se_get _ _ _ _ H) in E2. destruct E2 as (p & P1 & P2 & P3).
      exists p, com. split; [exact P1|]. split; [exact P2|]. split; [exact P3|]. split; [|exact E5].
      assert (X : bget (accused c) (ds_dhs st) = Some (pt_dh_pk p)) by (apply (se_dhs _ _ _ _ H); eauto).
      destruct E3 as [E3|[E3 _]]; congruence.
    - intros (Hn & p & com & P1 & P2 & P3 & P4 & P5). split; [|split; [exact Hn|]].
      + intros Z. apply (se_good _ _ _ _ H). rewrite <- Z, <- P2. apply in_map, P1.
      + exists comms, com, (pt_dh_pk p). split; [apply H|]. split; [apply (se_get _ _ _ _ H); eauto|].
        split; [left; apply (se_dhs _ _ _ _ H); eauto|]. auto.
  Qed.
  Lemma sees_convicted params valid st comms st' cs box j : sees params valid st comms ->
    ds_params st' = ds_params st -> ds_dhs st' = ds_dhs st -> ds_comms st' = ds_comms st ->
    (forall c, In c cs <-> In c box) -> (convicted st' cs j <-> removed valid box j).
  Proof.
    intros H E1 E2 E3 Hc. unfold convicted, convicts, removed.
    assert (U : forall c, upheld st' c <-> justified valid c).
    { intros c. rewrite <- (sees_upheld _ _ _ _ c H). unfold upheld, registered. rewrite E1, E2, E3. reflexivity. }
    split; intros (c & A & B); exists c; (split; [apply Hc, A|]); rewrite (U c) in *; exact B.
  Qed.

  (** ** the invariant of all reachable worlds *)
  Variables (boot : bool) (m : build) (params : Params).
  Definition entered (w : World) (s : RoundOne) (v : list Participant) : Prop :=
    exists x my co ps r l q, Permutation (w_list w) ps /\ start boot m params x my co ps r = Ok (s, l, q) /\ pl_valid l = v.
  Definition ran (w : World) (h : Follower) : Prop :=
    (exists v, entered w (R1 (h_st h)) v) /\ to_round_two m (R1 (h_st h)) (h_es h) (h_r h) = Ok (h_s2 h, h_cs h, h_r' h) /\
    incl (h_cs h) (w_box w).
  Definition settled (w : World) (h : Follower) (keys : list G) (s : RoundTwo) : Prop :=
    ran w h /\ w_shut w = true /\ (forall c, In c (h_settles h) <-> In c (w_box w)) /\ blame (h_s2 h) (h_settles h) = Ok (keys, s).
  Definition node_ok (w : World) (n : Node) : Prop :=
    match n with
    | Begun s v => entered w s v
    | Received h => ran w h
    | Settled h keys s => settled w h keys s
    | Done h keys s gk sk => settled w h keys s /\ finish s = Ok (gk, sk)
    | Stopped => True
    end.
  Record world_ok (w : World) : Prop := {
    wo_good : good_indices (map pt_index (w_list w));
    wo_real : forall p, In p (w_list w) -> real_participant p;
    wo_fixed : w_fixed w = false -> w_nodes w = [];
    wo_nodes : forall n, In n (w_nodes w) -> node_ok w n }.

  Lemma ran_mono w w' h : w_list w' = w_list w -> incl (w_box w) (w_box w') -> ran w h -> ran w' h.
  Proof.
    intros E1 E2 ((v & x & my & co & ps & r & l & q & A) & B & C). split; [|split; [exact B|intros c Hc; apply E2, C, Hc]].
    exists v, x, my, co, ps, r, l, q. rewrite E1. exact A.
  Qed.
  Lemma settled_mono w w' h keys s : w_list w' = w_list w -> w_shut w' = w_shut w -> (w_shut w = true -> w_box w' = w_box w) ->
    settled w h keys s -> settled w' h keys s.
  Proof.
    intros E1 E2 E3 (A & B & C & D). specialize (E3 B). split; [apply (ran_mono w); [exact E1|rewrite E3; apply incl_refl|exact A]|].
    rewrite E2, E3. auto.
  Qed.
  Lemma node_mono w w' n : w_list w' = w_list w -> incl (w_box w) (w_box w') ->
    (w_shut w = true -> w_shut w' = true /\ w_box w' = w_box w) -> node_ok w n -> node_ok w' n.
  Proof.
    intros E1 E2 E3. assert (X : forall h keys s, settled w h keys s -> settled w' h keys s).
    { intros h keys s H. destruct (E3 (proj1 (proj2 H))) as [E4 E5]. apply (settled_mono w); auto. rewrite E4. symmetry. apply H. }
    destruct n as [s v|h|h keys s|h keys s gk sk|]; cbn [node_ok].
    - intros (x & my & co & ps & r & l & q & A). exists x, my, co, ps, r, l, q. rewrite E1. exact A.
    - apply ran_mono; auto.
    - apply X.
    - intros [H1 H2]. auto.
    - auto.
  Qed.

  Variable HC : cipher_fits.
  Lemma node_real w s v : world_ok w -> entered w s v -> real_state (st1 s).
  Proof.
    intros H (x & my & co & ps & r & l & q & P & E & _). rewrite start_internal in E.
    eapply new_state_real in E; try exact HC; [apply E|]. intros p Hp. apply (wo_real _ H). eapply Permutation_in; [apply Permutation_sym, P|exact Hp].
  Qed.
  Lemma restored1_real s : real_state (st1 s) -> restored1 s = Ok s.
  Proof.
    intros H. pose proof (event_restart Debug (S1 s) H) as E. cbn [event] in E. unfold restored1. unfold to_bytes in *. cbn [bind] in *.
    destruct (from_bytes de_round_one (ser_round_one s)) as [s'|e|]; cbn [bind] in E; congruence.
  Qed.
  Lemma restored2_real s : real_state (st2 s) -> restored2 s = Ok s.
  Proof.
    intros H. pose proof (event_restart Debug (S2 s) H) as E. cbn [event] in E. unfold restored2. unfold to_bytes in *. cbn [bind] in *.
    destruct (from_bytes de_round_two (ser_round_two s)) as [s'|e|]; cbn [bind] in E; congruence.
  Qed.
  Lemma ran_real w h : world_ok w -> ran w h -> real_state (st2 (h_s2 h)).
  Proof. intros H ((v & A) & B & _). eapply to_round_two_real; [|exact B]. apply (node_real w _ v H A). Qed.
  Lemma settled_real w h keys s : world_ok w -> settled w h keys s -> real_state (st2 s).
  Proof. intros H (A & _ & _ & B). eapply blame_real; [|exact B]. apply (ran_real w h H A). Qed.
  Lemma restart_same w x y : world_ok w -> node_ok w x -> restarts x y -> y = x.
  Proof.
    intros H Hx R. destruct R as [s v s' E|h s' E|h keys s s' E]; cbn [node_ok] in Hx.
    - rewrite restored1_real in E by (eapply node_real; eassumption). congruence.
    - rewrite restored2_real in E by (eapply ran_real; eassumption). injection E as <-. destruct h; reflexivity.
    - rewrite restored2_real in E by (eapply settled_real; eassumption). congruence.
  Qed.
  Lemma restart_exists w x : world_ok w -> node_ok w x ->
    match x with Done _ _ _ _ _ | Stopped => True | _ => restarts x x end.
  Proof.
    intros H Hx. destruct x as [s v|h|h keys s|h keys s gk sk|]; cbn [node_ok] in Hx; auto.
    - constructor. apply restored1_real. eapply node_real; eassumption.
    - replace (Received h) with (Received (with_s2 h (h_s2 h))) at 2 by (destruct h; reflexivity).
      constructor. apply restored2_real. eapply ran_real; eassumption.
    - constructor. apply restored2_real. eapply settled_real; eassumption.
  Qed.

  Lemma moves_ok w x y box shut : world_ok w -> node_ok w x -> moves m w x y box shut ->
    incl (w_box w) box /\ (w_shut w = true -> shut = true /\ box = w_box w) /\
    node_ok (MkWorld (w_list w) (w_fixed w) box shut []) y.
  Proof.
    intros H Hx M. destruct M as [s v es r s2 cs r' A B|s v es r A|h cs keys s A B|h keys s gk sk A|h cs A|h keys s A]; cbn [node_ok] in *.
    - split; [apply incl_appr, incl_refl|]. split; [congruence|]. split; [|split].
      + exists v. destruct s as [s]. exact Hx.
      + destruct s as [s]. exact B.
      + apply incl_appl, incl_refl.
    - split; [apply incl_refl|]. split; auto.
    - split; [apply incl_refl|]. split; [auto|]. split; [|split; [reflexivity|split; [exact A|exact B]]].
      destruct Hx as (X1 & X2 & X3). split; [exact X1|]. split; [exact X2|exact X3].
    - split; [apply incl_refl|]. split; [auto|]. split; [|exact A]. eapply settled_mono; [| | |exact Hx]; auto.
    - split; [apply incl_refl|]. split; auto.
    - split; [apply incl_refl|]. split; auto.
  Qed.
  Lemma in_swap {A} (l1 : list A) x y l2 n : In n (l1 ++ y :: l2) -> n = y \/ In n (l1 ++ x :: l2).
  Proof. rewrite !in_app_iff. cbn [In]. intuition auto. Qed.
  Lemma step_ok w w' : world_ok w -> step boot m params w w' -> world_ok w'.
  Proof.
    intros H St. destruct St as [p A B C D|x my co ps r s l r' A B|c A|l1 x y l2 box shut A B|l1 x y l2 A B].
    - constructor; cbn [w_list w_fixed w_box w_shut w_nodes].
      + destruct (wo_good _ H) as [G1 G2]. cbn [map]. split; [constructor; assumption|]. intros [E|E]; [apply C; exact E|contradiction].
      + intros q [<-|Hq]; [exact B|apply (wo_real _ H), Hq].
      + intros _. apply (wo_fixed _ H A).
      + rewrite (wo_fixed _ H A). intros n [].
    - constructor; cbn [w_list w_fixed w_box w_shut w_nodes]; try apply H; try discriminate.
      intros n [<-|Hn].
      + cbn [node_ok]. exists x, my, co, ps, r, l, r'. auto.
      + apply (node_mono w); cbn [w_list w_box w_shut]; auto using incl_refl. apply (wo_nodes _ H), Hn.
    - constructor; cbn [w_list w_fixed w_box w_shut w_nodes]; try apply H.
      intros n Hn. apply (node_mono w); cbn [w_list w_box w_shut]; auto using incl_tl, incl_refl; [congruence|]. apply (wo_nodes _ H), Hn.
    - assert (Hx : node_ok w x) by (apply (wo_nodes _ H); rewrite A; apply in_elt).
      destruct (moves_ok w x y box shut H Hx B) as (M1 & M2 & M3).
      constructor; cbn [w_list w_fixed w_box w_shut w_nodes]; try apply H.
      + intros E. apply (wo_fixed _ H) in E. rewrite E in A. destruct l1; discriminate.
      + intros n Hn. apply (in_swap _ x) in Hn. destruct Hn as [->|Hn].
        * revert M3. apply node_mono; cbn [w_list w_box w_shut]; auto using incl_refl.
        * apply (node_mono w); cbn [w_list w_box w_shut]; auto. apply (wo_nodes _ H). rewrite A. exact Hn.
    - assert (Hx : node_ok w x) by (apply (wo_nodes _ H); rewrite A; apply in_elt).
      rewrite (restart_same w x y H Hx B), <- A. destruct w. exact H.
  Qed.
  Lemma reachable_ok w : reachable boot m params w -> world_ok w.
  Proof.
    unfold reachable. remember empty_world as w0 eqn:E. induction 1 as [w|w w' w'' _ IH St].
    - subst w. constructor; cbn; try (intros ? []); auto. split; [constructor|intros []].
    - eapply step_ok; [apply IH, E|exact St].
  Qed.

  (** ** what a node ends with *)
  Lemma without_sorted {V} (P : u32 -> Prop) (a b : bmap V) : without P a b -> increasing (bkeys a) -> increasing (bkeys b).
  Proof.
    induction 1 as [|k v a b HP H IH|k v a b HP H IH]; cbn; intros I; auto; apply increasing_cons_inv in I; destruct I as [I1 I2]; [auto|].
    constructor; [apply IH, I1|]. apply Forall_forall. intros k' Hk. apply (without_keys _ _ _ H) in Hk. apply I2, Hk.
  Qed.
  Lemma idx_inj (ps : list Participant) p q : NoDup (map pt_index ps) -> In p ps -> In q ps -> pt_index p = pt_index q -> p = q.
  Proof.
    induction ps as [|a ps IH]; cbn [map In]; intros Hn Hp Hq E; [contradiction|]. inversion Hn as [|? ? H1 H2]; subst.
    destruct Hp as [<-|Hp], Hq as [<-|Hq]; auto; exfalso; apply H1; [rewrite E|rewrite <- E]; apply in_map; assumption.
  Qed.
  Lemma keys_of_reported (st : DkgState) valid l keys :
    NoDup (map pt_index valid) -> (forall j pk, bget j (ds_dhs st) = Some pk <-> exists p, In p valid /\ pt_index p = j /\ pt_dh_pk p = pk) ->
    keys_of st l keys -> increasing l ->
    exists gone, ascending (map pt_index gone) /\ (forall p, In p gone <-> In p valid /\ In (pt_index p) l) /\ keys = map pt_dh_pk gone.
  Proof.
    intros Hn Hd. induction 1 as [|i l k ks E H IH|i l ks E H IH]; intros I.
    - exists []. split; [constructor|]. split; [|reflexivity]. cbn [In]. tauto.
    - apply increasing_cons_inv in I. destruct I as [I1 I2]. destruct (IH I1) as (gone & G1 & G2 & ->).
      apply Hd in E. destruct E as (p & P1 & P2 & P3). exists (p :: gone). split; [|split; [|cbn [map]; congruence]].
      + cbn [map]. constructor; [exact G1|]. apply Forall_forall. intros j Hj. apply in_map_iff in Hj. destruct Hj as (q & <- & Hq).
        rewrite P2. apply I2, G2, Hq.
      + intros q. cbn [In]. split.
        * intros [<-|Hq]; [split; [exact P1|left; symmetry; exact P2]|]. apply G2 in Hq. tauto.
        * intros [Q1 [Q2|Q2]]; [left; apply (idx_inj valid); auto; congruence|right; apply G2; tauto].
    - apply increasing_cons_inv in I. destruct I as [I1 I2]. destruct (IH I1) as (gone & G1 & G2 & ->).
      exists gone. split; [exact G1|]. split; [|reflexivity]. intros q. rewrite G2. cbn [In]. split; [tauto|].
      intros [Q1 [Q2|Q2]]; [|tauto]. exfalso. assert (X : bget i (ds_dhs st) = Some (pt_dh_pk q)) by (apply Hd; eauto). congruence.
  Qed.
  Lemma entered_begun w s v : good_indices (map pt_index (w_list w)) -> entered w s v -> begun v s /\ ~ In u32_zero (map pt_index v).
  Proof.
    intros Hg (x & my & co & ps & r & l & q & P & E & Ev). split.
    - exists m, params, x, my, ps, r, l, q. split; [exact Ev|]. unfold start in E. destruct boot; [right; exists co; exact E|left; exact E].
    - rewrite start_internal in E.
      assert (HB : boot = true -> exists cs, (if boot then Some co else None) = Some cs) by (intros ->; eauto).
      destruct (round_one_ok _ _ _ _ _ _ _ _ _ _ _ HB E) as (_ & _ & _ & _ & El & _). rewrite El in Ev. cbn [pl_valid] in Ev. subst v.
      intros X. apply in_map_iff in X. destruct X as (p & E0 & X). apply filter_In in X. apply (proj2 Hg). rewrite <- E0. apply in_map.
      eapply Permutation_in; [apply Permutation_sym, P|apply X].
  Qed.
  Lemma settled_ends w h keys s valid mis : world_ok w -> splits (fine boot params) (w_list w) valid mis -> settled w h keys s ->
    exists comms gk sk, ds_comms (st2 s) = Some comms /\ kept_comms valid (w_box w) comms /\ reported valid (w_box w) keys /\
      finish s = Ok (gk, sk) /\ first_points comms gk /\ sk_index sk = ds_index (h_st h).
  Proof.
    intros H HS (((v & En) & R & Hi) & _ & Hst & B).
    pose proof En as (x & my & co & ps & r & l & q & P & E & Ev).
    destruct (entered_sees boot m params x my co (w_list w) ps r (h_st h) l q valid mis (wo_good _ H) HS P E) as (comms & Hsee).
    destruct (sees_good _ _ _ _ Hsee) as (G1 & G2 & G3).
    destruct (to_round_two_inv m (h_st h) comms (h_es h) (h_r h) _ _ _ (se_comms _ _ _ _ Hsee) (proj1 G1) R) as (_ & _ & Es).
    destruct (entered_begun w (R1 (h_st h)) v (wo_good _ H) En) as [Hb Hz].
    assert (SR : second_round v s) by (eapply sr_blame; [eapply sr_start; [exact Hb|exact R]|exact B]).
    rewrite Es in B. pose proof (round_two_state_spec (h_st h) (h_es h)) as HA.
    destruct (ar_shares _ _ _ HA) as (shares & S1 & _).
    destruct (C22_blame_outcome S L (round_two_state (h_st h) (h_es h)) comms shares (h_settles h)
      (eq_trans (ar_comms _ _ _ HA) (se_comms _ _ _ _ Hsee)) S1) as (ls & ks & st' & Eb & Hl & Il & Hk & HP).
    rewrite B in Eb. injection Eb as <- ->.
    destruct (second_round_inv v _ SR) as (st2' & comms' & shares' & E2 & C2 & D2 & N1 & N2 & K1 & K2 & Hp).
    injection E2 as <-.
    assert (Hcv : forall j, convicted (round_two_state (h_st h) (h_es h)) (h_settles h) j <-> removed valid (w_box w) j).
    { intros j. apply (sees_convicted _ _ _ _ _ _ _ _ Hsee); [apply HA|apply HA|apply HA|exact Hst]. }
    destruct (pr_comms _ _ _ HP) as (m1 & m2 & M1 & M2 & W). rewrite (ar_comms _ _ _ HA), (se_comms _ _ _ _ Hsee) in M1. injection M1 as <-.
    rewrite C2 in M2. injection M2 as <-.
    exists comms', (dealt_point comms' F0), (MkSK (ds_index st') (interp0 (share_points shares'))).
    split; [exact C2|]. split; [|split; [|split; [|split]]].
    - split; [apply (without_sorted _ _ _ W), Hsee|]. intros j c. split.
      + intros Hj. apply bget_in, (without_in _ _ _ W) in Hj. destruct Hj as [Hj Hn]. apply in_bget in Hj; [|apply G1].
        apply (se_get _ _ _ _ Hsee) in Hj. destruct Hj as (p & P1 & P2 & P3). exists p. rewrite <- Hcv. auto.
      + intros (p & P1 & P2 & P3 & P4). apply in_bget; [exact N1|]. apply (without_in _ _ _ W). rewrite Hcv. split; [|exact P4].
        apply bget_in, (se_get _ _ _ _ Hsee). eauto.
    - destruct (keys_of_reported (round_two_state (h_st h) (h_es h)) valid ls keys) as (gone & Q1 & Q2 & Q3); auto.
      + apply (se_good _ _ _ _ Hsee).
      + intros j pk. rewrite (ar_dhs _ _ _ HA). apply (se_dhs _ _ _ _ Hsee).
      + exists gone. split; [exact Q1|]. split; [|exact Q3]. intros p. rewrite Q2, Hl, Hcv. reflexivity.
    - apply (finish_ok st' comms' shares' C2 D2); [split|split|]; auto.
    - apply first_points_ex. exact Hp.
    - cbn [sk_index]. rewrite (pr_index _ _ _ HP). apply HA.
  Qed.

  Lemma kept_unique valid box c1 c2 : kept_comms valid box c1 -> kept_comms valid box c2 -> c1 = c2.
  Proof.
    intros [A1 A2] [B1 B2]. apply ksorted_ext; auto. intros k.
    destruct (bget k c1) as [v|] eqn:E1, (bget k c2) as [v'|] eqn:E2; auto.
    - apply A2 in E1. apply B2 in E1. congruence.
    - apply A2, B2 in E1. congruence.
    - apply B2, A2 in E2. congruence.
  Qed.
  Lemma reported_unique valid box k1 k2 : NoDup (map pt_index valid) -> reported valid box k1 -> reported valid box k2 -> k1 = k2.
  Proof.
    intros Hn (g1 & A1 & A2 & ->) (g2 & B1 & B2 & ->). f_equal. apply (increasing_map_perm_eq pt_index); auto.
    apply NoDup_Permutation; [apply (NoDup_map_inv pt_index), increasing_NoDup, A1|apply (NoDup_map_inv pt_index), increasing_NoDup, B1|].
    intros p. rewrite A2, B2. reflexivity.
  Qed.
  Lemma steps_one w w' : step boot m params w w' -> steps boot m params w w'.
  Proof. intros H. eapply ss_step; [apply ss_none|exact H]. Qed.
  Lemma steps_trans w w' w'' : steps boot m params w w' -> steps boot m params w' w'' -> steps boot m params w w''.
  Proof. intros H H'. induction H' as [w'|w' w2 w3 H' IH St]; [exact H|]. eapply ss_step; [apply IH, H|exact St]. Qed.
  Lemma steps_ok w w' : world_ok w -> steps boot m params w w' -> world_ok w'.
  Proof. intros H St. induction St as [w|w w2 w3 St IH S']; [exact H|]. eapply step_ok; [apply IH, H|exact S']. Qed.
  Lemma any_splits ps : exists valid mis, splits (fine boot params) ps valid mis.
  Proof. do 2 eexists. apply splits_filter. apply fine_okb. Qed.
  (** one node gets its keys *)
  Lemma complete_one w l1 x l2 : world_ok w -> w_nodes w = l1 ++ x :: l2 ->
    exists y shut, completes x y /\ steps boot m params w (MkWorld (w_list w) (w_fixed w) (w_box w) shut (l1 ++ y :: l2)).
  Proof.
    intros H Hn. assert (Hx : node_ok w x) by (apply (wo_nodes _ H); rewrite Hn; apply in_elt).
    destruct (any_splits (w_list w)) as (valid & mis & HS).
    assert (Hself : steps boot m params w (MkWorld (w_list w) (w_fixed w) (w_box w) (w_shut w) (l1 ++ x :: l2))).
    { rewrite <- Hn. destruct w. apply ss_none. }
    destruct x as [s v|h|h keys s|h keys s gk sk|]; cbn [node_ok completes] in *; eauto.
    - destruct Hx as ((v & En) & R & Hi). destruct (entered_begun w _ v (wo_good _ H) En) as [Hb _].
      destruct (proj1 (C74_nothing_panics_after_round_two S L v (h_s2 h) (sr_start _ _ _ _ _ _ _ _ Hb R)) (w_box w)) as (keys & s & B).
      set (w1 := MkWorld (w_list w) (w_fixed w) (w_box w) true (l1 ++ Settled (with_settled h (w_box w)) keys s :: l2)).
      assert (St : step boot m params w w1).
      { apply (st_move boot m params w l1 (Received h)); [exact Hn|]. apply mv_settle; [reflexivity|exact B]. }
      pose proof (step_ok w w1 H St) as H1.
      assert (Hs : settled w1 (with_settled h (w_box w)) keys s) by (apply (wo_nodes _ H1 (Settled _ _ _)), in_elt).
      destruct (settled_ends w1 _ keys s valid mis H1 HS Hs) as (comms & gk & sk & _ & _ & _ & Fi & _).
      exists (Done (with_settled h (w_box w)) keys s gk sk), true. split; [repeat eexists|].
      eapply ss_step; [apply steps_one, St|]. apply (st_move boot m params w1 l1 (Settled (with_settled h (w_box w)) keys s)); [reflexivity|].
      apply (mv_finish m w1), Fi.
    - destruct (settled_ends w h keys s valid mis H HS Hx) as (comms & gk & sk & _ & _ & _ & Fi & _).
      exists (Done h keys s gk sk), (w_shut w). split; [eauto|]. apply steps_one.
      apply (st_move boot m params w l1 (Settled h keys s)); [exact Hn|]. apply mv_finish, Fi.
  Qed.
  Lemma complete_all l2 : forall w l1, world_ok w -> w_nodes w = l1 ++ l2 ->
    exists l2' shut, Forall2 completes l2 l2' /\ steps boot m params w (MkWorld (w_list w) (w_fixed w) (w_box w) shut (l1 ++ l2')).
  Proof.
    induction l2 as [|x l2 IH]; intros w l1 H Hn.
    - exists [], (w_shut w). split; [constructor|]. rewrite <- Hn. destruct w. apply ss_none.
    - destruct (complete_one w l1 x l2 H Hn) as (y & sh & Hy & St).
      set (w1 := MkWorld (w_list w) (w_fixed w) (w_box w) sh (l1 ++ y :: l2)) in *.
      destruct (IH w1 (l1 ++ [y]) (steps_ok _ _ H St)) as (l2' & sh' & Hl & St').
      { unfold w1. cbn [w_nodes]. rewrite <- app_assoc. reflexivity. }
      exists (y :: l2'), sh'. split; [constructor; assumption|]. rewrite <- app_assoc in St'. eapply steps_trans; [exact St|exact St'].
  Qed.
  (** a served node that settled holds the key the commitments say *)
  Lemma served_ends w h keys s valid mis comms : world_ok w -> splits (fine boot params) (w_list w) valid mis -> settled w h keys s ->
    sees params valid (h_st h) comms -> served valid h ->
    follows m (ds_params (h_st h)) (ds_dhs (h_st h)) comms h.
  Proof.
    intros H HS ((_ & R & _) & _) Hsee (A1 & A2 & _). destruct (sees_good _ _ _ _ Hsee) as (G1 & G2 & G3).
    destruct (to_round_two_inv m (h_st h) comms (h_es h) (h_r h) _ _ _ (se_comms _ _ _ _ Hsee) (proj1 G1) R) as (FA & _).
    constructor; auto.
    - apply Hsee.
    - intros e He. split; [apply A1, He|]. rewrite Forall_forall in FA. destruct (FA e He) as (_ & pk & Hpk).
      apply (se_dhs _ _ _ _ Hsee) in Hpk. destruct Hpk as (p & P1 & <- & _). apply G3, in_map, P1.
    - intros j Hj. apply G3, in_map_iff in Hj. destruct Hj as (p & <- & Hp). apply A2, Hp.
  Qed.
End World.

Section Sizes.
  Context {S : Suite}.
  (** lengths of the nonce and of ciphertexts are below 2^64 *)
  Definition sizes : Prop :=
    (N.of_nat nonce_len < 18446744073709551616)%N /\ (forall k n v c, aead_enc k n (enc_scalar v) = Some c -> fits c).
  Lemma sizes_fit : sizes -> cipher_fits.
  Proof. intros [H1 H2]. split; [unfold fits; rewrite repeat_length; exact H1|exact H2]. Qed.
End Sizes.

(** all who finish end alike, and with what the two boards say *)
Theorem C133_all_finish_alike :
  forall (S : Suite) (L : SuiteLaws S) (boot : bool) (m : build) (params : Params) (w : World) (valid : list Participant),
  sizes -> reachable boot m params w -> accepted boot params w valid ->
  (forall h keys s gk sk, In (Done h keys s gk sk) (w_nodes w) -> exists comms,
     ds_comms (st2 s) = Some comms /\ kept_comms valid (w_box w) comms /\ reported valid (w_box w) keys /\ first_points comms gk /\
     sk_index sk = ds_index (h_st h)) /\
  (forall h keys s gk sk h' keys' s' gk' sk', In (Done h keys s gk sk) (w_nodes w) -> In (Done h' keys' s' gk' sk') (w_nodes w) ->
     gk = gk' /\ keys = keys' /\ ds_comms (st2 s) = ds_comms (st2 s')).
Proof.
  intros S L boot m params w valid HC Hr (mis & HS). apply sizes_fit in HC. pose proof (reachable_ok boot m params HC w Hr) as H.
  assert (X : forall h keys s gk sk, In (Done h keys s gk sk) (w_nodes w) -> exists comms,
     ds_comms (st2 s) = Some comms /\ kept_comms valid (w_box w) comms /\ reported valid (w_box w) keys /\ first_points comms gk /\
     sk_index sk = ds_index (h_st h)).
  { intros h keys s gk sk Hin. apply (wo_nodes _ _ _ _ H) in Hin. destruct Hin as [Hs Fi].
    destruct (settled_ends boot m params w h keys s valid mis H HS Hs) as (comms & gk1 & sk1 & A1 & A2 & A3 & A4 & A5 & A6).
    rewrite Fi in A4. injection A4 as <- <-. exists comms. auto. }
  split; [exact X|]. intros h keys s gk sk h' keys' s' gk' sk' H1 H2.
  destruct (X _ _ _ _ _ H1) as (c & A1 & A2 & A3 & A4 & _). destruct (X _ _ _ _ _ H2) as (c' & B1 & B2 & B3 & B4 & _).
  pose proof (kept_unique _ _ _ _ A2 B2) as <-. split; [|split; [|congruence]].
  - rewrite (first_points_dealt _ _ A4). symmetry. apply (first_points_dealt _ _ B4).
  - apply (reported_unique valid (w_box w)); auto. apply (splits_idx _ _ _ _ HS), (wo_good _ _ _ _ H).
Qed.
Print Assumptions C133_all_finish_alike.

(** whoever got through to_round_two can always finish, and no call of theirs fails *)
Theorem C133_never_stuck :
  forall (S : Suite) (L : SuiteLaws S) (boot : bool) (m : build) (params : Params) (w : World),
  sizes -> reachable boot m params w ->
  (exists w', steps boot m params w w' /\ w_list w' = w_list w /\ w_box w' = w_box w /\ Forall2 completes (w_nodes w) (w_nodes w')) /\
  (forall n y box shut, In n (w_nodes w) -> moves m w n y box shut -> y = Stopped -> exists s v, n = Begun s v).
Proof.
  intros S L boot m params w HC Hr. apply sizes_fit in HC. pose proof (reachable_ok boot m params HC w Hr) as H. split.
  - destruct (complete_all boot m params HC (w_nodes w) w [] H eq_refl) as (l & sh & A & B). eexists. split; [exact B|]. auto.
  - intros n y box shut Hn M Ey. destruct (any_splits boot params (w_list w)) as (valid & mis & HS). apply (wo_nodes _ _ _ _ H) in Hn.
    destruct M as [s v es r s2 cs r' A B|s v es r A|h cs keys s A B|h keys s gk sk A|h cs A|h keys s A]; try discriminate; eauto; exfalso.
    + destruct Hn as ((v & En) & R & _). destruct (entered_begun _ _ _ w _ v (wo_good _ _ _ _ H) En) as [Hb _].
      destruct (proj1 (C74_nothing_panics_after_round_two S L v (h_s2 h) (sr_start _ _ _ _ _ _ _ _ Hb R)) cs) as (keys & s & B).
      eapply A, B.
    + destruct (settled_ends boot m params w h keys s valid mis H HS Hn) as (comms & gk & sk & _ & _ & _ & Fi & _). eapply A, Fi.
Qed.
Print Assumptions C133_never_stuck.

(** restarts are invisible: whatever is stored at any moment is read back, and is the same *)
Theorem C133_restarts_change_nothing :
  forall (S : Suite) (L : SuiteLaws S) (boot : bool) (m : build) (params : Params) (w : World),
  sizes -> reachable boot m params w ->
  (forall n y, In n (w_nodes w) -> restarts n y -> y = n) /\
  (forall n, In n (w_nodes w) -> match n with Done _ _ _ _ _ | Stopped => True | _ => restarts n n end).
Proof.
  intros S L boot m params w HC Hr. apply sizes_fit in HC. pose proof (reachable_ok boot m params HC w Hr) as H. split.
  - intros n y Hn R. apply (restart_same boot m params HC w); auto. apply (wo_nodes _ _ _ _ H), Hn.
  - intros n Hn. apply (restart_exists boot m params HC w); auto. apply (wo_nodes _ _ _ _ H), Hn.
Qed.
Print Assumptions C133_restarts_change_nothing.

(** nothing that is decided changes later: the list once used, the box once used, and the keys of those who are done *)
Theorem C133_decisions_are_final :
  forall (S : Suite) (L : SuiteLaws S) (boot : bool) (m : build) (params : Params) (w w' : World),
  steps boot m params w w' ->
  (w_fixed w = true -> w_fixed w' = true /\ w_list w' = w_list w) /\ (w_shut w = true -> w_shut w' = true /\ w_box w' = w_box w) /\
  incl (w_list w) (w_list w') /\ incl (w_box w) (w_box w') /\
  (forall h keys s gk sk, In (Done h keys s gk sk) (w_nodes w) -> In (Done h keys s gk sk) (w_nodes w')).
Proof.
  intros S L boot m params w w' St. induction St as [w|w w1 w2 St (I1 & I2 & I3 & I4 & I5) S'].
  { split; [auto|]. split; [auto|]. split; [apply incl_refl|]. split; [apply incl_refl|]. auto. }
  assert (X : (w_fixed w1 = true -> w_fixed w2 = true /\ w_list w2 = w_list w1) /\ (w_shut w1 = true -> w_shut w2 = true /\ w_box w2 = w_box w1) /\
    incl (w_list w1) (w_list w2) /\ incl (w_box w1) (w_box w2) /\
    (forall h keys s gk sk, In (Done h keys s gk sk) (w_nodes w1) -> In (Done h keys s gk sk) (w_nodes w2))).
  { assert (sw : forall l1 x y l2 n, w_nodes w1 = l1 ++ x :: l2 -> In n (w_nodes w1) -> n = x \/ In n (l1 ++ y :: l2)).
    { intros l1 x y l2 n -> Hn. apply in_swap, Hn. }
    destruct S' as [p A B C D|x my co ps r s l r' A B|c A|l1 x y l2 box shut A B|l1 x y l2 A B]; cbn [w_list w_fixed w_box w_shut w_nodes].
    - split; [congruence|]. split; [auto|]. split; [apply incl_tl, incl_refl|]. split; [apply incl_refl|auto].
    - split; [auto|]. split; [auto|]. split; [apply incl_refl|]. split; [apply incl_refl|]. intros h keys s' gk sk Hn. right. exact Hn.
    - split; [auto|]. split; [congruence|]. split; [apply incl_refl|]. split; [apply incl_tl, incl_refl|auto].
    - split; [auto|]. split; [|split; [apply incl_refl|split]].
      + destruct B; auto; congruence.
      + destruct B; auto using incl_refl, incl_appr.
      + intros h keys s gk sk Hn. destruct (sw l1 x y l2 _ A Hn) as [E|E]; [|exact E]. subst x. inversion B.
    - split; [auto|]. split; [auto|]. split; [apply incl_refl|]. split; [apply incl_refl|].
      intros h keys s gk sk Hn. destruct (sw l1 x y l2 _ A Hn) as [E|E]; [|exact E]. subst x. inversion B. }
  destruct X as (J1 & J2 & J3 & J4 & J5). split; [|split; [|split; [|split]]].
  - intros E. destruct (I1 E) as [E1 E2]. destruct (J1 E1) as [E3 E4]. split; congruence.
  - intros E. destruct (I2 E) as [E1 E2]. destruct (J2 E1) as [E3 E4]. split; congruence.
  - eapply incl_tran; eassumption.
  - eapply incl_tran; eassumption.
  - auto.
Qed.
Print Assumptions C133_decisions_are_final.

(** who was served holds the signing key that the remaining commitments say *)
Theorem C133_served_hold_their_keys :
  forall (S : Suite) (L : SuiteLaws S) (boot : bool) (m : build) (params : Params) (w : World) (valid : list Participant)
         (comms : bmap Vss) (h : Follower) (keys : list G) (s : RoundTwo) (gk : G) (sk : SigningKey),
  sizes -> reachable boot m params w -> accepted boot params w valid -> kept_comms valid (w_box w) comms ->
  In (Done h keys s gk sk) (w_nodes w) -> served valid h ->
  (gen * sk_key sk)%G = dealt_point comms (of_u32 (sk_index sk)).
Proof.
  intros S L boot m params w valid comms h keys s gk sk HC Hr Ha Hk Hin Hsv. pose proof Ha as (mis & HS).
  destruct (proj1 (C133_all_finish_alike S L boot m params w valid HC Hr Ha) h keys s gk sk Hin) as (cm & Hcm & Hk' & _).
  rewrite (kept_unique _ _ _ _ Hk Hk') in *. clear Hk Hk' comms.
  apply sizes_fit in HC. pose proof (reachable_ok boot m params HC w Hr) as H. apply (wo_nodes _ _ _ _ H) in Hin. destruct Hin as [Hs Fi].
  pose proof Hs as (((v & (x & my & co & ps & r & l & q & P & E & Ev)) & R & Hown) & _ & Hst & B).
  destruct (entered_sees boot m params x my co (w_list w) ps r (h_st h) l q valid mis (wo_good _ _ _ _ H) HS P E) as (comms & Hsee).
  destruct (sees_good _ _ _ _ Hsee) as (G1 & _).
  assert (Q1 : forall c, In c (h_cs h) -> (u32v (accused c) <= u32v (p_n (ds_params (h_st h))))%N) by (rewrite (se_n _ _ _ _ Hsee); apply Hsv).
  assert (Q2 : forall j c, bget j comms = Some c -> vss_points c <> []).
  { intros j c Hj. apply (se_get _ _ _ _ Hsee) in Hj. destruct Hj as (p & P1 & _ & P3).
    destruct (se_points _ _ _ _ Hsee p P1) as (c' & C1 & C2). congruence. }
  assert (Q3 : forall c, In c (h_cs h) -> In c (h_settles h)) by (intros c Hc; apply Hst, Hown, Hc).
  destruct (follower_ends L m _ _ comms h G1 Q1 Q2 (served_ends boot m params w h keys s valid mis comms H HS Hs Hsee Hsv) Q3)
    as (keys' & comms' & sk' & (s3 & B' & C' & F' & _) & _ & _ & K).
  rewrite B in B'. injection B' as _ <-. rewrite Fi in F'. injection F' as _ <-. rewrite Hcm in C'. injection C' as <-. exact K.
Qed.
Print Assumptions C133_served_hold_their_keys.

(** any t of them sign under the common group key *)
Theorem C133_served_can_sign :
  forall (S : Suite) (L : SuiteLaws S) (boot : bool) (m : build) (params : Params) (w : World) (valid : list Participant)
         (t : nat) (gk : G) (p : Params) (msg : list byte) (qs : list Cosigner),
  sizes -> reachable boot m params w -> accepted boot params w valid ->
  (* commitments have at most t points; in a bootstrap they have as many as the threshold *)
  ((boot = true /\ N.of_nat t = u32v (p_t params)) \/ (forall q c, In q valid -> pt_comm q = Some c -> length (vss_points c) <= t)) ->
  1 <= t ->
  (forall q, In q qs -> cosigner_ok q /\ exists h keys s, In (Done h keys s gk (q_key q)) (w_nodes w) /\ served valid h) ->
  good_indices (map (fun q => sk_index (q_key q)) qs) ->
  t <= length qs -> (N.of_nat (length qs) <= u32v (p_n p))%N ->
  exists a1 ps, agg_run (agg_new p gk msg) (announce qs) a1 /\
    signed m (h4 msg) gk (ag_signers (ai_state a1)) qs ps /\
    forall ps', Permutation ps' ps -> exists a2 f sig, agg_run a1 (deliver ps') a2 /\ finalize a2 = Ok f /\
      aggregate f = Ok sig /\ verify_signature gk sig (h4 msg) = Ok tt /\ schnorr gk (h4 msg) (ts_R sig) (ts_z sig).
Proof.
  intros S L boot m params w valid t gk p msg qs HC Hr (mis & HS) Ht H1 Hq Hgq Htq Hnq.
  apply sizes_fit in HC. pose proof (reachable_ok boot m params HC w Hr) as H.
  assert (Hlen : forall q c, In q valid -> pt_comm q = Some c -> length (vss_points c) <= t).
  { destruct Ht as [[-> Et]|Ht]; [|exact Ht]. intros q c Hq1 Hc. apply (splits_in _ _ _ _ HS) in Hq1. destruct Hq1 as [_ (_ & _ & c' & C1 & C2)].
    rewrite Hc in C1. injection C1 as <-. lia. }
  assert (X : exists hs, (forall h, In h hs -> exists keys s sk, settled boot m params w h keys s /\ finish s = Ok (gk, sk) /\ served valid h) /\
    forall q, In q qs -> exists h keys s, In h hs /\ settled boot m params w h keys s /\ finish s = Ok (gk, q_key q)).
  { clear Htq Hnq Hgq. induction qs as [|q qs IH].
    - exists []. split; [intros h []|intros q []].
    - destruct IH as (hs & A & B); [intros q' Hq'; apply Hq; right; exact Hq'|].
      destruct (Hq q (or_introl eq_refl)) as (_ & h & keys & s & Hin & Hsv). apply (wo_nodes _ _ _ _ H) in Hin. destruct Hin as [Hs Fi].
      exists (h :: hs). split.
      + intros h' [<-|Hh]; [exists keys, s, (q_key q); auto|apply A, Hh].
      + intros q' [<-|Hq']; [exists h, keys, s; split; [left; reflexivity|auto]|].
        destruct (B q' Hq') as (h' & k' & s' & B1 & B2). exists h', k', s'. split; [right; exact B1|exact B2]. }
  destruct X as (hs & A & B).
  destruct qs as [|q0 qs0]; [cbn in Htq; lia|]. destruct (B q0 (or_introl eq_refl)) as (h0 & k0 & s0 & Hh0 & Hs0 & Fi0).
  assert (V : forall h keys s, settled boot m params w h keys s -> exists x my co ps r l q, Permutation (w_list w) ps /\
    start boot m params x my co ps r = Ok (R1 (h_st h), l, q) /\ NoDup (map pt_index ps)).
  { intros h keys s (((v & (x & my & co & ps & r & l & q & P & E & _)) & _) & _). exists x, my, co, ps, r, l, q. split; [exact P|]. split; [exact E|].
    eapply Permutation_NoDup; [apply Permutation_map, P|apply (wo_good _ _ _ _ H)]. }
  destruct (V _ _ _ Hs0) as (x0 & my0 & co0 & ps0 & r0 & l0 & q1 & P0 & E0 & N0).
  destruct (entered_sees boot m params x0 my0 co0 (w_list w) ps0 r0 (h_st h0) l0 q1 valid mis (wo_good _ _ _ _ H) HS P0 E0) as (comms & Hsee).
  destruct (sees_good _ _ _ _ Hsee) as (G1 & _ & G3).
  assert (Same : forall h keys s, settled boot m params w h keys s ->
    ds_params (h_st h) = ds_params (h_st h0) /\ ds_dhs (h_st h) = ds_dhs (h_st h0) /\ ds_comms (h_st h) = ds_comms (h_st h0)).
  { intros h keys s Hs. destruct (V _ _ _ Hs) as (x & my & co & ps & r & l & q & P & E & N1).
    destruct (C62_same_list_same_view S L m m params x x0 my my0 co co0 ps ps0 r r0 q q1 (h_st h) (h_st h0) l l0 N1) as (V1 & V2 & V3 & _); auto.
    - etransitivity; [apply Permutation_sym, P|exact P0].
    - unfold start in E, E0. destruct boot; [left|right]; auto. }
  assert (F : forall h, In h hs -> follows m (ds_params (h_st h0)) (ds_dhs (h_st h0)) comms h).
  { intros h Hh. destruct (A h Hh) as (keys & s & sk & Hs & _ & Hsv). destruct (Same _ _ _ Hs) as (Y1 & Y2 & Y3).
    assert (Hsee' : sees params valid (h_st h) comms).
    { destruct Hsee as [Z1 Z2 Z3 Z4 Z5 Z6 Z7 Z8]. constructor; rewrite ?Y1, ?Y2, ?Y3; auto. }
    rewrite <- Y1, <- Y2. apply (served_ends boot m params w h keys s valid mis comms H HS Hs Hsee' Hsv). }
  destruct (C61_followers_can_sign S L m (ds_params (h_st h0)) (ds_dhs (h_st h0)) comms hs (w_box w) t p msg G1) as (keys & comms' & gk' & _ & K1 & K2); auto.
  { intros h c Hh Hc. rewrite (se_n _ _ _ _ Hsee). destruct (A h Hh) as (_ & _ & _ & _ & _ & _ & _ & Z). apply Z, Hc. }
  { intros j c Hj. apply (se_get _ _ _ _ Hsee) in Hj. destruct Hj as (q & Q1 & _ & Q3). split; [|apply (Hlen q); assumption].
    destruct (se_points _ _ _ _ Hsee q Q1) as (c' & C1 & C2). rewrite Q3 in C1. injection C1 as <-. destruct (vss_points c); [congruence|cbn; lia]. }
  { intros h Hh. destruct (A h Hh) as (ks & s & sk & ((_ & _ & Hown) & _ & Hst & _) & _). split; [exact Hst|exact Hown]. }
  assert (Same2 : forall h ks s g k, In h hs -> settled boot m params w h ks s -> finish s = Ok (g, k) -> ends h keys comms' gk' k /\ g = gk').
  { intros h ks s g k Hh Hs Fi. destruct (K1 h Hh) as (sk & (s3 & Z1 & Z2 & Z3 & Z4)). destruct Hs as (_ & _ & _ & Bl).
    rewrite Bl in Z1. injection Z1 as -> <-. rewrite Fi in Z3. injection Z3 as -> ->. split; [|reflexivity]. exists s. auto. }
  destruct (Same2 _ _ _ _ _ Hh0 Hs0 Fi0) as [_ <-].
  apply (K2 (q0 :: qs0)); auto. intros q Hqi. split; [apply Hq, Hqi|]. destruct (B q Hqi) as (h & ks & s & Hh & Hs & Fi).
  exists h. split; [exact Hh|]. apply (Same2 h ks s gk (q_key q) Hh Hs Fi).
Qed.
Print Assumptions C133_served_can_sign.

(** a resharing keeps the key if every accepted dealer is vouched for (C85) and t1 old shares survive the complaints *)
Theorem C133_resharing_keeps_the_key :
  forall (S : Suite) (L : SuiteLaws S) (boot : bool) (m : build) (params : Params) (w : World) (valid : list Participant)
         (t1 t2 : nat) (gk0 : G) (olds kept : list u32) (book : u32 -> G),
  sizes -> reachable boot m params w -> accepted boot params w valid ->
  key_book t1 gk0 olds book -> (forall q, In q valid -> vouched olds book t2 q) ->
  NoDup kept -> incl kept (map pt_index valid) -> t1 <= length kept -> (forall j, In j kept -> ~ removed valid (w_box w) j) ->
  forall h keys s gk sk, In (Done h keys s gk sk) (w_nodes w) -> gk = gk0.
Proof.
  intros S L boot m params w valid t1 t2 gk0 olds kept book HC Hr Ha HB HV Hkn Hki Hkl Hkr h keys s gk sk Hin.
  destruct (proj1 (C133_all_finish_alike S L boot m params w valid HC Hr Ha) h keys s gk sk Hin) as (cm & _ & [Hs Hk] & _ & (pks & F2 & ->) & _).
  assert (Hnd : NoDup (bkeys cm)) by (apply increasing_NoDup, Hs).
  replace pks with (map (fun i => (i, book i)) (bkeys cm)).
  - apply HB; [exact Hnd| |].
    + intros j Hj. apply in_map_iff in Hj. destruct Hj as ([j' c] & E & Hj). cbn in E. subst j'. apply in_bget in Hj; [|exact Hnd].
      apply Hk in Hj. destruct Hj as (q & Q1 & <- & _). apply (HV q Q1).
    + etransitivity; [exact Hkl|]. apply NoDup_incl_length; [exact Hkn|]. intros j Hj. pose proof (Hki j Hj) as X. apply in_map_iff in X.
      destruct X as (q & E & Hq). destruct (HV q Hq) as (_ & c & rest & C1 & _).
      assert (X : bget j cm = Some c) by (apply Hk; exists q; split; [exact Hq|]; split; [exact E|]; split; [exact C1|apply Hkr, Hj]).
      apply bget_in, (in_map fst) in X. exact X.
  - assert (HK : forall j c, In (j, c) cm -> exists rest, vss_points c = book j :: rest).
    { intros j c Hj. apply in_bget in Hj; [|exact Hnd]. apply Hk in Hj. destruct Hj as (q & Q1 & <- & Q3 & _).
      destruct (HV q Q1) as (_ & c' & rest & C1 & C2 & _). rewrite Q3 in C1. injection C1 as <-. eauto. }
    clear -F2 HK. induction F2 as [|[j c] [j' P] cm pks [E (rest & Hp)] F2 IH]; [reflexivity|]. cbn [bkeys map fst snd] in *. subst j'.
    destruct (HK j c (or_introl eq_refl)) as (rest' & Hp'). rewrite Hp in Hp'. injection Hp' as -> _. f_equal. apply IH.
    intros j' c' Hj. apply (HK j' c'). right. exact Hj.
Qed.
Print Assumptions C133_resharing_keeps_the_key.

(** ** two executions *)
Section Two.
  Context {S : Suite} {L : SuiteLaws S}.
  Lemma publish_all boot m params ps : good_indices (map pt_index ps) -> (forall p, In p ps -> real_participant p) ->
    reachable boot m params (MkWorld ps false [] false []).
  Proof.
    induction ps as [|p ps IH]; intros [H1 H2] Hr; [apply ss_none|]. cbn [map] in *. inversion H1 as [|? ? H3 H4]; subst.
    eapply ss_step; [apply IH; [split; [exact H4|intros X; apply H2; right; exact X]|intros q Hq; apply Hr; right; exact Hq]|].
    apply (st_publish boot m params (MkWorld ps false [] false [])); cbn [w_fixed w_list]; auto.
    - apply Hr. left. reflexivity.
    - intros X. apply H2. left. exact X.
  Qed.
  (** two users start, one of them crashes and restarts, both receive their shares; an outsider publishes a complaint *)
  Lemma two_users boot m params ps a xa mya coa psa ra la qa esa r2a s2a csa r2a' b xb myb cob psb rb lb qb esb r2b s2b csb r2b' c :
    sizes -> good_indices (map pt_index ps) -> (forall p, In p ps -> real_participant p) ->
    Permutation ps psa -> start boot m params xa mya coa psa ra = Ok (a, la, qa) -> to_round_two m a esa r2a = Ok (s2a, csa, r2a') ->
    Permutation ps psb -> start boot m params xb myb cob psb rb = Ok (b, lb, qb) -> to_round_two m b esb r2b = Ok (s2b, csb, r2b') ->
    reachable boot m params (MkWorld ps true (c :: csb ++ csa ++ []) false
      [Received (MkFollower (st1 a) esa r2a s2a csa r2a' []); Received (MkFollower (st1 b) esb r2b s2b csb r2b' [])]).
  Proof.
    intros HC Hg Hp Pa Ea Ta Pb Eb Tb.
    set (fa := Received (MkFollower (st1 a) esa r2a s2a csa r2a' [])). set (fb := Received (MkFollower (st1 b) esb r2b s2b csb r2b' [])).
    pose (w1 := MkWorld ps true [] false [Begun b (pl_valid lb)]). pose (w2 := MkWorld ps true [] false [Begun a (pl_valid la); Begun b (pl_valid lb)]).
    pose (w3 := MkWorld ps true (csa ++ []) false [fa; Begun b (pl_valid lb)]). pose (w4 := MkWorld ps true (csb ++ csa ++ []) false [fa; fb]).
    assert (R1 : reachable boot m params w1).
    { eapply ss_step; [apply (publish_all boot m params ps Hg Hp)|]. apply (st_enter boot m params (MkWorld ps false [] false []) xb myb cob psb rb b lb qb Pb Eb). }
    assert (R2 : reachable boot m params w2).
    { eapply ss_step; [exact R1|]. apply (st_enter boot m params w1 xa mya coa psa ra a la qa Pa Ea). }
    assert (R2' : reachable boot m params w2).
    { eapply ss_step; [exact R2|]. apply (st_restart boot m params w2 [] (Begun a (pl_valid la)) (Begun a (pl_valid la)) [Begun b (pl_valid lb)] eq_refl).
      apply (proj2 (C133_restarts_change_nothing S L boot m params w2 HC R2) (Begun a (pl_valid la))). left. reflexivity. }
    assert (R3 : reachable boot m params w3).
    { eapply ss_step; [exact R2'|]. apply (st_move boot m params w2 [] (Begun a (pl_valid la)) fa [Begun b (pl_valid lb)] (csa ++ []) false eq_refl).
      apply mv_receive; [reflexivity|exact Ta]. }
    assert (R4 : reachable boot m params w4).
    { eapply ss_step; [exact R3|]. apply (st_move boot m params w3 [fa] (Begun b (pl_valid lb)) fb [] (csb ++ csa ++ []) false eq_refl).
      apply mv_receive; [reflexivity|exact Tb]. }
    eapply ss_step; [exact R4|]. apply (st_accuse boot m params w4 c). reflexivity.
  Qed.
  (** and then they finish *)
  Lemma two_done boot m params w fa fb : sizes -> reachable boot m params w -> w_nodes w = [Received fa; Received fb] ->
    exists w' csa ka sa gka ska csb kb sb gkb skb, reachable boot m params w' /\ w_list w' = w_list w /\ w_box w' = w_box w /\
      w_nodes w' = [Done (with_settled fa csa) ka sa gka ska; Done (with_settled fb csb) kb sb gkb skb].
  Proof.
    intros HC R E. destruct (proj1 (C133_never_stuck S L boot m params w HC R)) as (w' & St & E1 & E2 & F2). rewrite E in F2.
    inversion F2 as [|x y l l' Hx F3 Q1 Q2]; subst. inversion F3 as [|x' y' l2 l2' Hx' F4 Q3 Q4]; subst. inversion F4; subst.
    destruct Hx as (csa & ka & sa & gka & ska & ->). destruct Hx' as (csb & kb & sb & gkb & skb & ->).
    exists w', csa, ka, sa, gka, ska, csb, kb, sb, gkb, skb. split; [eapply steps_trans; [exact R|exact St]|]. auto.
  Qed.
End Two.
Lemma toy_sizes : @sizes Toy.
Proof. split; [reflexivity|]. apply toy_ciphers. Qed.
Lemma real_if (ps : list (@Participant Toy)) :
  forallb (fun p => match pt_comm p with Some c => Nat.leb (length (vss_points c)) 4 | None => true end) ps = true -> forall p, In p ps -> real_participant p.
Proof.
  intros X p Hp c E. rewrite forallb_forall in X. specialize (X p Hp). rewrite E in X.
  apply Nat.leb_le in X. unfold real_vss, fits. lia.
Qed.
Lemma got2 (x : result (RoundTwo * list Complaint * Rng)) : is_ok x = true -> exists s r', x = Ok (s, PropsEnd.complaints_of x, r').
Proof. destruct x as [[[s cs] r']| |]; cbn; try discriminate. eauto. Qed.
Lemma got1 (x : result (RoundOne * PartList * Rng)) : is_ok x = true -> exists l r', x = Ok (state_of x, l, r').
Proof. destruct x as [[[s l] r']| |]; cbn; try discriminate. eauto. Qed.

(** key generation of C68_ex: four listed, 4 is not accepted; 1 starts, crashes and restarts; dealer 2 garbles its share for 3, who
    complains; 4, from outside, accuses 1 with 3's complaint. Participants 1 and 3 finish with what the boards say: 2 is removed
    because of 3's complaint, and 3 because of the complaint forged in its name *)
Definition forged (c : Complaint) : Complaint := against 1 c.
Definition whole_valid : list Participant := [dealer 4 2 1 10; dealer 4 2 2 20; dealer 4 2 3 30].
Lemma whole_real_b : forallb (fun p : @Participant Toy => match pt_comm p with Some c => Nat.leb (length (vss_points c)) 4 | None => true end) whole_ps = true.
Proof. vmr. Qed.
Definition whole_box : list Complaint := forged (hd (victim_c 2 3) whole_cs) :: whole_cs.
Lemma whole_no_cs : PropsEnd.complaints_of (to_round_two Debug (whole_r1 1) (whole_shares 1) 501%N) = []. Proof. vmr. Qed.
Lemma whole_accused_b : forallb (fun c => N.leb (u32v (accused c)) 3) whole_cs = true. Proof. vmr. Qed.
Lemma served_if valid s1 es r s cs r' : forallb (fun e => u32_eqb (es_receiver e) (ds_index (st1 s1))) es = true ->
  forallb (fun p => existsb (fun e => u32_eqb (es_sender e) (pt_index p)) es) valid = true ->
  forallb (fun c => N.leb (u32v (accused c)) (N.of_nat (length valid))) cs = true ->
  @served Toy valid (MkFollower (st1 s1) es r s cs r' []).
Proof.
  intros H1 H2 H3. split; [|split]; cbn [h_es h_st h_cs].
  - intros e He. apply u32_eqb_spec. apply (proj1 (forallb_forall _ _) H1 e He).
  - intros p Hp. apply (proj1 (forallb_forall _ _) H2) in Hp. apply existsb_exists in Hp. destruct Hp as (e & A & B). exists e.
    split; [exact A|apply u32_eqb_spec, B].
  - intros c Hc. apply N.leb_le. apply (proj1 (forallb_forall _ _) H3 c Hc).
Qed.
Lemma whole_from_1 : forallb (fun p => existsb (fun e => u32_eqb (es_sender e) (pt_index p)) (whole_shares 1)) whole_valid = true. Proof. vmr. Qed.
Lemma whole_from_3 : forallb (fun p => existsb (fun e => u32_eqb (es_sender e) (pt_index p)) (whole_shares 3)) whole_valid = true. Proof. vmr. Qed.
Lemma whole_acc (w : World) : w_list w = whole_ps -> accepted true whole_params w whole_valid.
Proof.
  intros E. exists [u 4]. rewrite E. unfold whole_valid. rewrite <- whole_splits_filter at 1. rewrite <- whole_splits_rest.
  apply splits_filter. intros p. apply okb_bootstrap.
Qed.
Lemma whole_start ps i : whole_run ps i = start true Debug whole_params (dealer_x 4 2 i (10 * i)) (u i) (dealer_co 4 2 i (10 * i)) ps (1000 + i)%N.
Proof. reflexivity. Qed.
Lemma whole_perm : Permutation whole_ps whole_ps'. Proof. apply perm_swap. Qed.
Lemma whole_cs_eq : PropsEnd.complaints_of (to_round_two Debug (whole_r1 3) (whole_shares 3) 503%N) = whole_cs. Proof. reflexivity. Qed.
Lemma whole_good : good_indices (map pt_index whole_ps). Proof. exact (proj1 C68_ex). Qed.
Lemma whole_world : exists s2a r2a s2b r2b, reachable true Debug whole_params (MkWorld whole_ps true (forged (hd (victim_c 2 3) whole_cs) :: whole_cs ++ [] ++ []) false
  [Received (MkFollower (st1 (whole_r1 1)) (whole_shares 1) 501%N s2a [] r2a []); Received (MkFollower (st1 (whole_r1 3)) (whole_shares 3) 503%N s2b whole_cs r2b [])]).
Proof.
  destruct (got1 (whole_run whole_ps 1) whole_1) as (la & qa & Ea). rewrite <- whole_r1_1, whole_start in Ea.
  destruct (got1 (whole_run whole_ps' 3) whole_3) as (lb & qb & Eb). rewrite <- whole_r1_3, whole_start in Eb.
  destruct (got2 _ whole_2_1) as (s2a & r2a & Ta). destruct (got2 _ whole_2_3) as (s2b & r2b & Tb).
  rewrite whole_no_cs in Ta. rewrite whole_cs_eq in Tb. pose proof whole_perm as HP. pose proof whole_good as Hg. pose proof (real_if _ whole_real_b) as Hr.
  exists s2a, r2a, s2b, r2b. revert Ea Eb Ta Tb HP Hg Hr.
  generalize (whole_r1 1) as a, (whole_r1 3) as b, (whole_shares 1) as esa, (whole_shares 3) as esb, whole_cs as cs, whole_ps as ps, whole_ps' as ps'.
  generalize (dealer_x 4 2 1 (10 * 1)) as xa, (dealer_x 4 2 3 (10 * 3)) as xb, (dealer_co 4 2 1 (10 * 1)) as coa, (dealer_co 4 2 3 (10 * 3)) as cob.
  intros xa xb coa cob a b esa esb cs ps ps' Ea Eb Ta Tb HP Hg Hr.
  exact (two_users true Debug whole_params ps a xa _ coa ps _ la qa esa 501%N s2a [] r2a
    b xb _ cob ps' _ lb qb esb 503%N s2b cs r2b (forged (hd (victim_c 2 3) cs)) toy_sizes Hg Hr (Permutation_refl _) Ea Ta HP Eb Tb).
Qed.
Example C133_ex :
  exists w ha ka sa gka ska hb kb sb gkb skb, reachable true Debug whole_params w /\ accepted true whole_params w whole_valid /\
    w_nodes w = [Done ha ka sa gka ska; Done hb kb sb gkb skb] /\ served whole_valid ha /\ served whole_valid hb /\
    w_list w = whole_ps /\ w_box w = whole_box /\ sizes.
Proof.
  destruct whole_world as (s2a & r2a & s2b & r2b & R).
  assert (V1 : @served Toy whole_valid (MkFollower (st1 (whole_r1 1)) (whole_shares 1) 501%N s2a [] r2a [])).
  { apply served_if; [exact whole_mine_1|exact whole_from_1|reflexivity]. }
  assert (V3 : @served Toy whole_valid (MkFollower (st1 (whole_r1 3)) (whole_shares 3) 503%N s2b whole_cs r2b [])).
  { apply served_if; [exact whole_mine_3|exact whole_from_3|exact whole_accused_b]. }
  assert (EB : whole_box = forged (hd (victim_c 2 3) whole_cs) :: whole_cs ++ [] ++ []) by (unfold whole_box; rewrite app_nil_r; reflexivity).
  rewrite <- EB in R. clear EB. pose proof whole_acc as HA. revert R V1 V3 HA.
  generalize whole_box as box, whole_valid as valid, whole_ps as ps, whole_cs as cs, (whole_r1 1) as a, (whole_r1 3) as b, (whole_shares 1) as esa, (whole_shares 3) as esb.
  intros box valid ps cs a b esa esb R V1 V3 HA.
  destruct (two_done _ _ _ _ _ _ toy_sizes R eq_refl) as (w & csa & ka & sa & gka & ska & csb & kb & sb & gkb & skb & R' & W1 & W2 & W3).
  exists w. do 10 eexists. split; [exact R'|]. split; [apply HA; exact W1|]. split; [exact W3|].
  split; [exact V1|]. split; [exact V3|]. split; [exact W1|]. split; [exact W2|exact toy_sizes].
Qed.
Example C133_ex_outcome :
  map (fun i => let* (keys, s) := blame (h_s2 (follower_of (whole_r1 i) (500 + i) (whole_shares i) [])) whole_box in let* (gk, sk) := finish s in
         Ok (map fv keys, match ds_comms (st2 s) with Some m => bkeys m | None => [] end, fv gk, sk_index sk)) [1; 3]%N =
    let keys := [fv (pt_dh_pk (dealer 4 2 2 20)); fv (pt_dh_pk (dealer 4 2 3 30))] in
    let gk := fv (toy_gen * hd (mk 0) (dealer_co 4 2 1 10))%G in
    [Ok (keys, [u 1], gk, u 1); Ok (keys, [u 1], gk, u 3)].
Proof. vmr. Qed.

(** the resharing of C85_ex: the old participants 1, 2, 3 deal to 5 and 6; 2 garbles its share for 5, whose complaint is published twice *)
Lemma ho_start i : ho_run i = start false Debug ho_params (z_x (re_heir i)) (z_index (re_heir i)) [] ho_ps (800 + i)%N.
Proof. reflexivity. Qed.
Lemma ho_state i : ho_r1 i = state_of (ho_run i). Proof. reflexivity. Qed.
Lemma ho_cs_eq : PropsEnd.complaints_of (to_round_two Debug (ho_r1 5) (ho_shares 5) 905%N) = ho_cs. Proof. reflexivity. Qed.
Lemma ho_no_cs : PropsEnd.complaints_of (to_round_two Debug (ho_r1 6) (ho_shares 6) 906%N) = []. Proof. vmr. Qed.
Lemma ho_real_b : forallb (fun p : @Participant Toy => match pt_comm p with Some c => Nat.leb (length (vss_points c)) 4 | None => true end) ho_ps = true.
Proof. vmr. Qed.
Lemma ho_good : good_indices (map pt_index ho_ps). Proof. exact (proj1 C85_ex). Qed.
Lemma ho_world c : exists s2a r2a s2b r2b, reachable false Debug ho_params (MkWorld ho_ps true (c :: ho_cs ++ [] ++ []) false
  [Received (MkFollower (st1 (ho_r1 6)) (ho_shares 6) 906%N s2a [] r2a []); Received (MkFollower (st1 (ho_r1 5)) (ho_shares 5) 905%N s2b ho_cs r2b [])]).
Proof.
  destruct (got1 (ho_run 6) ho_run_6) as (la & qa & Ea). rewrite <- ho_state, ho_start in Ea.
  destruct (got1 (ho_run 5) ho_run_5) as (lb & qb & Eb). rewrite <- ho_state, ho_start in Eb.
  destruct (got2 _ ho_two_6) as (s2a & r2a & Ta). destruct (got2 _ ho_two_5) as (s2b & r2b & Tb).
  rewrite ho_no_cs in Ta. rewrite ho_cs_eq in Tb. pose proof ho_good as Hg. pose proof (real_if _ ho_real_b) as Hr.
  exists s2a, r2a, s2b, r2b. revert Ea Eb Ta Tb Hg Hr.
  generalize (ho_r1 6) as a, (ho_r1 5) as b, (ho_shares 6) as esa, (ho_shares 5) as esb, ho_cs as cs, ho_ps as ps.
  generalize (re_heir 6) as za, (re_heir 5) as zb. intros za zb a b esa esb cs ps Ea Eb Ta Tb Hg Hr.
  exact (two_users false Debug ho_params ps a (z_x za) (z_index za) [] ps _ la qa esa 906%N s2a [] r2a
    b (z_x zb) (z_index zb) [] ps _ lb qb esb 905%N s2b cs r2b c toy_sizes Hg Hr (Permutation_refl _) Ea Ta (Permutation_refl _) Eb Tb).
Qed.
Lemma ho_box c : In c (hd (victim_c 2 3) ho_cs :: ho_cs ++ [] ++ []) -> (accused c, maker c) = (u 2, u 5).
Proof.
  intros Hc. assert (Y : In (accused c, maker c) (ho_accused)).
  { apply (in_map (fun c => (accused c, maker c))). rewrite app_nil_r in Hc. destruct Hc as [<-|Hc]; [|exact Hc].
    pose proof ho_accused_eq as E. unfold ho_accused in E. destruct ho_cs as [|c0 cs]; [discriminate|]. left. reflexivity. }
  rewrite ho_accused_eq in Y. destruct Y as [Y|[]]. symmetry. exact Y.
Qed.
Example C133_ex_resharing :
  exists w ha ka sa gka ska hb kb sb gkb skb, reachable false Debug ho_params w /\ accepted false ho_params w ho_ps /\
    w_nodes w = [Done ha ka sa gka ska; Done hb kb sb gkb skb] /\
    key_book 2 ho_gk [u 1; u 2; u 3] ho_book /\ (forall q, In q ho_ps -> vouched [u 1; u 2; u 3] ho_book 3 q) /\
    NoDup [u 1; u 3] /\ incl [u 1; u 3] (map pt_index ho_ps) /\ (forall j, In j [u 1; u 3] -> ~ removed ho_ps (w_box w) j) /\ sizes /\
    gka = ho_gk /\ gkb = ho_gk.
Proof.
  destruct (ho_world (hd (victim_c 2 3) ho_cs)) as (s2a & r2a & s2b & r2b & R).
  destruct (two_done _ _ _ _ _ _ toy_sizes R eq_refl) as (w & csa & ka & sa & gka & ska & csb & kb & sb & gkb & skb & R' & W1 & W2 & W3).
  destruct C85_ex as (_ & Hsp & _ & _ & HB & HV & HI & _). cbn [w_list] in W1. cbn [w_box] in W2.
  assert (HA : accepted false ho_params w ho_ps) by (exists []; rewrite W1; exact Hsp).
  assert (HN : NoDup [u 1; u 3]) by nodup.
  assert (HR : forall j, In j [u 1; u 3] -> ~ removed ho_ps (w_box w) j).
  { intros j Hj (c & Hc & X). rewrite W2 in Hc. apply ho_box in Hc. pose proof (f_equal fst Hc) as Y1. pose proof (f_equal snd Hc) as Y2. cbn [fst snd] in Y1, Y2.
    assert (Z : j = u 2 \/ j = u 5) by (destruct X as [[_ E]|[_ E]]; [left|right]; congruence). clear - Hj Z.
    destruct Hj as [<-|[<-|[]]], Z as [Z|Z]; apply u32_eqb_spec in Z; revert Z; vm_compute; discriminate. }
  assert (HK : forall h keys s gk sk, In (Done h keys s gk sk) (w_nodes w) -> gk = ho_gk).
  { exact (C133_resharing_keeps_the_key Toy ToyLaws false Debug ho_params w ho_ps 2 3 ho_gk [u 1; u 2; u 3] [u 1; u 3] ho_book
      toy_sizes R' HA HB HV HN HI (le_n 2) HR). }
  exists w. do 10 eexists. split; [exact R'|]. split; [exact HA|]. split; [exact W3|]. split; [exact HB|]. split; [exact HV|].
  split; [exact HN|]. split; [exact HI|]. split; [exact HR|]. split; [exact toy_sizes|]. rewrite W3 in HK. split; eapply HK; [left|right; left]; reflexivity.
Qed.
