(** C114: what a signing session gives when everybody follows the protocol, each with some key; keys of different epochs. *)
From Coq Require Import String Strings.Byte Arith NArith ZArith Bool List Permutation Sorted Lia Field.
From Verif Require Import Base Suite Spec SpecDkg SpecSign SpecRobust SpecEnd SpecLife Types ModelDkg ModelSign Algebra BaseLemmas LemmasShare
  LemmasFinish LemmasSign LemmasAgg Toy Demo DemoDkg DemoSign PropsFinish PropsReshare PropsSign PropsAgg PropsEnd PropsAttack PropsStale PropsHandover PropsLife.
Import ListNotations.

Section Mix.
  Context {S : Suite} {L : SuiteLaws S}.
  Add Field F_fld : F_field.

  (** signer i follows the protocol with the secret x i; the coordinator was told the key of y i *)
  Definition took_part (m : build) (gk : G) (msg : list byte) (tr : trace) (a : AggInitial) (x y : u32 -> F) (i : u32) : Prop :=
    exists l pos cs q l', sign m (MkSK i (x i)) (h4 msg) gk l pos (ag_signers (ai_state a)) = (Ok q, l') /\
      nth_error (sl_commitments l) (N.to_nat pos) = Some cs /\ first_pair tr i (published cs) /\
      last_partial tr i (ps_z q) /\ last_key tr i (gen * y i)%G.
  (** the secret which the values of x at the given indices determine *)
  Definition secret_at (x : u32 -> F) (ids : list u32) : F := interp0 (map (fun i => (i, x i)) ids).

  Lemma secret_gen x ids : ginterp0 (map (fun i => (i, (gen * x i)%G)) ids) = (gen * secret_at x ids)%G.
  Proof. unfold secret_at. rewrite <- ginterp0_gen. rewrite map_map. reflexivity. Qed.
  Lemma secret_diff x y ids : secret_at x ids = (secret_at y ids + fsum (map (fun i => (weight i ids * (x i - y i))%F) ids))%F.
  Proof.
    unfold secret_at, interp0. rewrite !map_map. cbn [fst snd]. rewrite map_id.
    assert (E : forall w l, (fsum (map (fun i => x i * w i) l) = fsum (map (fun i => y i * w i) l) + fsum (map (fun i : u32 => w i * (x i - y i)) l))%F).
    { intros w l. induction l as [|i l IH]; cbn [map fsum]; [ring|]. rewrite IH. ring. }
    apply (E (fun i => weight i ids)).
  Qed.
  Lemma diff_zero u v c : (u * c = v * c)%F -> ((u - v) * c = F0)%F.
  Proof. intros E. transitivity (u * c - v * c)%F; [ring|]. rewrite E. ring. Qed.
  Lemma Fmul_0_right c : (c * F0 = F0)%F.
  Proof. ring. Qed.
  Lemma Fadd_0_right c : (c + F0 = c)%F.
  Proof. ring. Qed.
  Lemma add_zero c d : c = (c + d)%F -> d = F0.
  Proof. intros E. transitivity ((c + d) - c)%F; [ring|]. rewrite <- E. ring. Qed.
  Lemma sub_zero c d : (c - d)%F = c -> d = F0.
  Proof. intros E. transitivity (c - (c - d))%F; [ring|]. rewrite E. ring. Qed.
  Lemma zero_term c d : (c * (d - d) = F0)%F.
  Proof. ring. Qed.
  Lemma fsum_zero l : (forall v, In v l -> v = F0) -> fsum l = F0.
  Proof.
    induction l as [|v l IH]; intros H; cbn [fsum]; [reflexivity|]. rewrite (H v (or_introl eq_refl)), IH by (intros w Hw; apply H; right; exact Hw). ring.
  Qed.
  (** a sum with one term at i and one at j *)
  Lemma sum_one i (f : u32 -> F) l : NoDup l -> In i l -> fsum (map (fun k => if u32_eqb k i then f k else F0) l) = f i.
  Proof.
    induction l as [|k l IH]; intros Hn Hi; [destruct Hi|]. apply NoDup_cons_iff in Hn. destruct Hn as [N1 N2]. cbn [map fsum].
    destruct (u32_eq_dec k i) as [->|E].
    - rewrite u32_eqb_refl. rewrite fsum_zero; [ring|]. intros v Hv. apply in_map_iff in Hv. destruct Hv as (k & <- & Hk).
      rewrite (proj2 (u32_eqb_neq k i)); [reflexivity|]. intros ->. contradiction.
    - rewrite (proj2 (u32_eqb_neq k i) E), IH; [ring|exact N2|]. destruct Hi; [contradiction|assumption].
  Qed.
  Lemma cancelling ids i j (y : u32 -> F) : NoDup ids -> In i ids -> In j ids -> i <> j ->
    fsum (map (fun k => (weight k ids * ((if u32_eqb k i then y i + weight j ids else if u32_eqb k j then y j - weight i ids else y k) - y k))%F) ids) = F0.
  Proof.
    intros Hn Hi Hj Hij.
    assert (E : forall l, (fsum (map (fun k => weight k ids * ((if u32_eqb k i then y i + weight j ids else if u32_eqb k j then y j - weight i ids else y k) - y k)) l) =
      fsum (map (fun k => if u32_eqb k i then weight k ids * weight j ids else F0) l) + fsum (map (fun k => if u32_eqb k j then - (weight k ids * weight i ids) else F0) l))%F).
    { induction l as [|k l IH]; cbn [map fsum]; [ring|]. rewrite IH. destruct (u32_eq_dec k i) as [->|E1].
      - rewrite u32_eqb_refl, (proj2 (u32_eqb_neq i j) Hij). ring.
      - rewrite (proj2 (u32_eqb_neq k i) E1). destruct (u32_eq_dec k j) as [->|E2].
        + rewrite u32_eqb_refl. ring.
        + rewrite (proj2 (u32_eqb_neq k j) E2). ring. }
    rewrite E, (sum_one i (fun k => weight k ids * weight j ids)%F) by assumption.
    rewrite (sum_one j (fun k => - (weight k ids * weight i ids))%F) by assumption. ring.
  Qed.
  Lemma later_trans m e0 e1 e2 : later m e0 e1 -> later m e1 e2 -> later m e0 e2.
  Proof. intros A B. induction B as [|e2 e3 B IH N]; [exact A|]. exact (later_next _ _ _ _ IH N). Qed.

  Lemma filter_map_comm {A} (f : A -> u32) (P : A -> bool) (Q : u32 -> bool) l : (forall a, In a l -> P a = Q (f a)) ->
    map f (filter P l) = filter Q (map f l).
  Proof.
    induction l as [|a l IH]; intros H; cbn [map filter]; [reflexivity|]. rewrite (H a (or_introl eq_refl)).
    destruct (Q (f a)); cbn [map]; rewrite IH by (intros b Hb; apply H; right; exact Hb); reflexivity.
  Qed.
End Mix.

(** the keys used decide; if they are wrong, those whose keys differ from the announced ones are named, in order *)
Theorem C114_keys_used_decide :
  forall (S : Suite) (L : SuiteLaws S) (m : build) (p : Params) (s : F) (msg : list byte) tr a (x y : u32 -> F),
  agg_run (agg_new p (gen * s)%G msg) tr a ->
  let ss := ag_signers (ai_state a) in let ids := map sg_index ss in
  ids <> [] -> ~ In u32_zero ids -> (forall i, In i ids -> took_part m (gen * s)%G msg tr a x y i) ->
  (secret_at x ids = s \/ session_chal (h4 msg) (gen * s)%G ss = F0 ->
     exists sig, outcome a = Ok sig /\ verify_signature (gen * s)%G sig (h4 msg) = Ok tt) /\
  (secret_at x ids <> s /\ session_chal (h4 msg) (gen * s)%G ss <> F0 ->
     outcome a = Err (MisbehavingParticipants (filter (fun i => negb (Feqb (x i) (y i))) ids))).
Proof.
  intros S L m p s msg tr a x y H. cbv zeta. intros Hne H0 HT.
  pose proof (holds_run _ _ _ _ _ H) as HH. set (ss := ag_signers (ai_state a)) in *. set (gk := (gen * s)%G) in *.
  assert (HP : forall s0, In s0 ss -> exists z, bget (sg_index s0) (ag_partials (ai_state a)) = Some z /\
    bget (sg_index s0) (ag_keys (ai_state a)) = Some (gen * y (sg_index s0))%G /\
    partial_ok (h4 msg) gk ss s0 (gen * x (sg_index s0))%G z).
  { intros s0 Hs. destruct (HT (sg_index s0) (in_map sg_index _ _ Hs)) as (l & pos & cs & q & l' & A1 & A2 & A3 & A4 & A5).
    exists (ps_z q). split; [apply (hs_parts _ _ _ _ _ HH), A4|]. split; [apply (hs_keys _ _ _ _ _ HH), A5|].
    apply (hs_pairs _ _ _ _ _ HH) in A3.
    destruct (C42_honest_signature_share_checks S L m _ _ _ _ _ _ _ _ _ s0 A1 A2 Hs) as (_ & O & _); [|exact O].
    cbn [sk_index]. pose proof (increasing_NoDup _ (hs_inc _ _ _ _ _ HH)) as Hn.
    apply (NoDup_map_inj_in sg_index _ Hn); [exact Hs|exact A3|reflexivity]. }
  assert (HF : finalize a = Ok (MkFinal (ai_state a) (h4 msg))).
  { rewrite finalize_eq by apply HH. cbv zeta. fold ss.
    assert (X1 : filter (lacks (ag_partials (ai_state a))) ss = []).
    { apply PropsAttack.filter_none. intros s0 Hs. unfold lacks. destruct (HP s0 Hs) as (z & -> & _). reflexivity. }
    assert (X2 : filter (lacks (ag_keys (ai_state a))) ss = []).
    { apply PropsAttack.filter_none. intros s0 Hs. unfold lacks. destruct (HP s0 Hs) as (z & _ & -> & _). reflexivity. }
    rewrite X1, X2, (hs_msg _ _ _ _ _ HH). reflexivity. }
  unfold outcome. rewrite HF. cbn [bind].
  assert (Hss : ss <> []) by (intros E; apply Hne; rewrite E; reflexivity).
  rewrite aggregate_eq; cbn [af_state af_hash]; [|exact Hss|].
  2:{ intros s0 Hs. destruct (HP s0 Hs) as (z & -> & _). eauto. }
  cbv zeta. fold ss. rewrite (hs_gk _ _ _ _ _ HH).
  assert (HV : schnorr gk (h4 msg) (group_nonce (h4 msg) ss) (fsum (map (fun s0 => val F0 (ag_partials (ai_state a)) (sg_index s0)) ss)) <->
    secret_at x (map sg_index ss) = s \/ session_chal (h4 msg) gk ss = F0).
  { rewrite (all_checks (h4 msg) gk ss (fun i => (gen * x i)%G) (val F0 (ag_partials (ai_state a)))).
    2:{ intros s0 Hs. destruct (HP s0 Hs) as (z & E & _ & O). unfold val. rewrite E. exact O. }
    rewrite <- (map_map sg_index (fun i => (i, (gen * x i)%G))), secret_gen. unfold gk at 2. rewrite !Gmul_mul. split.
    - intros E. apply gen_inj in E. destruct (F_dec (session_chal (h4 msg) gk ss) F0) as [Z|Z]; [right; exact Z|left].
      apply Fsub_eq_0. assert (X : ((secret_at x (map sg_index ss) - s) * session_chal (h4 msg) gk ss = F0)%F).
      { apply diff_zero, E. }
      apply Fmul_eq_0 in X. destruct X as [X|X]; [exact X|contradiction].
    - intros [->| ->]; [reflexivity|]. rewrite !Fmul_0_right. reflexivity. }
  set (sig := MkTSig _ _). split.
  - intros X. apply HV in X. assert (V : sig_verify sig gk (h4 msg) = Ok tt) by (apply sig_verify_iff; exact X). rewrite V. cbn [is_ok].
    exists sig. split; [reflexivity|exact V].
  - intros [X1 X2]. destruct (sig_verify sig gk (h4 msg)) as [[]|e|] eqn:V; cbn [is_ok].
    { exfalso. apply sig_verify_iff in V. apply HV in V. destruct V; contradiction. }
    all: rewrite <- (hs_gk _ _ _ _ _ HH) at 1; fold ss;
      (rewrite (find_bad_ok (ai_state a) (h4 msg));
       [|split; [apply increasing_NoDup, HH|exact H0]|auto|intros s0 Hs; destruct (HP s0 Hs) as (z & -> & _); eauto|intros s0 Hs; destruct (HP s0 Hs) as (z & _ & -> & _); eauto]);
      cbn [bind app]; do 2 f_equal; apply filter_map_comm; intros s0 Hs;
      destruct (HP s0 Hs) as (z & E1 & E2 & O);
      pose proof (failing_spec (ai_state a) (h4 msg) s0 _ z E1 E2) as FS; rewrite (hs_gk _ _ _ _ _ HH) in FS; fold ss in FS;
      rewrite (partial_ok_other (h4 msg) gk ss s0 (x (sg_index s0)) (y (sg_index s0)) z H0 O) in FS;
      destruct (Feqb (x (sg_index s0)) (y (sg_index s0))) eqn:E; cbn [negb];
      [apply Feqb_spec in E; destruct (failing (ai_state a) (h4 msg) s0); [exfalso; apply (proj1 FS); auto|reflexivity]
      |apply FS; apply Feqb_neq in E; intros [?|?]; contradiction].
Qed.
Print Assumptions C114_keys_used_decide.

(** keys of two epochs of one life: the old ones still sign, whatever is announced; a mixture announced truthfully fails
    without naming anybody, unless it fits by coincidence; announced as keys of the new epoch, the old ones are named *)
Theorem C114_keys_of_two_epochs :
  forall (S : Suite) (L : SuiteLaws S) (m : build) (e0 e1 e2 : Epoch) (p : Params) (s : F) (msg : list byte) tr a (x y : u32 -> F),
  born m e0 -> later m e0 e1 -> later m e1 e2 -> ep_gk e0 = (gen * s)%G ->
  agg_run (agg_new p (gen * s)%G msg) tr a ->
  let ss := ag_signers (ai_state a) in let ids := map sg_index ss in
  ids <> [] -> ~ In u32_zero ids -> (forall i, In i ids -> took_part m (gen * s)%G msg tr a x y i) ->
  (** everybody uses the old epoch *)
  ((forall i, In i ids -> ep_holds e1 (MkSK i (x i))) -> ep_t e1 <= length ids ->
     exists sig, outcome a = Ok sig /\ verify_signature (ep_gk e2) sig (h4 msg) = Ok tt) /\
  (** everybody uses the old or the new epoch, and tells the key it uses *)
  ((forall i, In i ids -> ep_holds e1 (MkSK i (x i)) \/ ep_holds e2 (MkSK i (x i))) -> (forall i, In i ids -> y i = x i) ->
     session_chal (h4 msg) (gen * s)%G ss <> F0 ->
     (secret_at x ids = s -> exists sig, outcome a = Ok sig /\ verify_signature (ep_gk e2) sig (h4 msg) = Ok tt) /\
     (secret_at x ids <> s -> outcome a = Err (MisbehavingParticipants []))) /\
  (** everybody uses the old or the new epoch, the keys of the new one are announced *)
  ((forall i, In i ids -> ep_holds e1 (MkSK i (x i)) \/ ep_holds e2 (MkSK i (x i))) -> (forall i, In i ids -> (gen * y i)%G = ep_book e2 i) ->
     ep_t e2 <= length ids -> session_chal (h4 msg) (gen * s)%G ss <> F0 ->
     (fsum (map (fun i => (weight i ids * (x i - y i))%F) ids) = F0 ->
        exists sig, outcome a = Ok sig /\ verify_signature (ep_gk e2) sig (h4 msg) = Ok tt) /\
     (fsum (map (fun i => (weight i ids * (x i - y i))%F) ids) <> F0 ->
        exists named, outcome a = Err (MisbehavingParticipants named) /\ named <> [] /\
          forall i, In i named <-> In i ids /\ x i <> y i /\ ep_holds e1 (MkSK i (x i)) /\ ~ ep_holds e2 (MkSK i (x i)))).
Proof.
  intros S L m e0 e1 e2 p s msg tr a x y HB H1 H2 Es HR. cbv zeta. intros Hne H0 HT.
  pose proof (later_trans _ _ _ _ H1 H2) as H02.
  destruct (C93_one_group_key_for_life S L m e0 e1 HB H1) as (A1 & B1 & D1).
  destruct (C93_one_group_key_for_life S L m e0 e2 HB H02) as (A2 & B2 & D2).
  destruct (C114_keys_used_decide S L m p s msg tr a x y HR Hne H0 HT) as [Good Bad].
  rewrite A2, Es in *. set (ids := map sg_index (ag_signers (ai_state a))) in *.
  assert (Hnd : NoDup ids) by (apply increasing_NoDup, (hs_inc _ _ _ _ _ (holds_run _ _ _ _ _ HR))).
  assert (From : forall e (z : u32 -> F), (forall i, In i ids -> (gen * z i)%G = ep_book e i) -> ep_t e <= length ids ->
    (forall members, key_book (ep_t e) (gen * s)%G members (ep_book e)) -> secret_at z ids = s).
  { intros e z Hz Hl HK. apply gen_inj. rewrite <- secret_gen. rewrite <- (HK ids ids Hnd (incl_refl _) Hl). f_equal. apply map_ext_in.
    intros i Hi. f_equal. apply Hz, Hi. }
  split; [|split].
  - intros Hx Hl. apply Good. left. apply (From e1); auto. intros i Hi. exact (D1 _ (Hx i Hi)).
  - intros Hx Hy Hc. split; [intros E; apply Good; left; exact E|]. intros E. rewrite (Bad (conj E Hc)). do 2 f_equal.
    apply PropsAttack.filter_none. intros i Hi. rewrite (Hy i Hi). rewrite (proj2 (Feqb_spec (x i) (x i)) eq_refl). reflexivity.
  - intros Hx Hy Hl Hc. pose proof (From e2 y Hy Hl B2) as Ey. pose proof (secret_diff x y ids) as X. rewrite Ey in X. split; intros E.
    + apply Good. left. rewrite X, E. apply Fadd_0_right.
    + assert (Hs : secret_at x ids <> s) by (intros Z; apply E; rewrite Z in X; exact (add_zero _ _ X)).
      exists (filter (fun i => negb (Feqb (x i) (y i))) ids). split; [apply Bad; auto|].
      assert (Q : forall i, In i (filter (fun i => negb (Feqb (x i) (y i))) ids) <-> In i ids /\ x i <> y i).
      { intros i. rewrite filter_In, negb_true_iff, Feqb_neq. reflexivity. }
      split.
      * intros Z. apply E, fsum_zero. intros v Hv. apply in_map_iff in Hv. destruct Hv as (i & <- & Hi).
        destruct (F_dec (x i) (y i)) as [->|Hd]; [apply zero_term|]. exfalso.
        assert (W : In i (filter (fun i => negb (Feqb (x i) (y i))) ids)) by (apply Q; auto). rewrite Z in W. exact W.
      * intros i. rewrite Q. split; [|intros (Z1 & Z2 & _); auto]. intros [Hi Hd].
        assert (W : ~ ep_holds e2 (MkSK i (x i))).
        { intros W. apply Hd, gen_inj. rewrite (Hy i Hi). exact (D2 _ W). }
        split; [exact Hi|]. split; [exact Hd|]. split; [|exact W]. destruct (Hx i Hi); [assumption|contradiction].
Qed.
Print Assumptions C114_keys_of_two_epochs.

(** for any two signers there are wrong keys whose errors cancel: the signature is valid and nobody is named *)
Theorem C114_wrong_keys_can_cancel :
  forall (S : Suite) (L : SuiteLaws S) (ids : list u32) (i j : u32) (y : u32 -> F),
  good_indices ids -> In i ids -> In j ids -> i <> j ->
  exists x, x i <> y i /\ x j <> y j /\ (forall k, k <> i -> k <> j -> x k = y k) /\
    forall m p msg tr a, agg_run (agg_new p (gen * secret_at y ids)%G msg) tr a -> map sg_index (ag_signers (ai_state a)) = ids ->
      (forall k, In k ids -> took_part m (gen * secret_at y ids)%G msg tr a x y k) ->
      exists sig, outcome a = Ok sig /\ verify_signature (gen * secret_at y ids)%G sig (h4 msg) = Ok tt.
Proof.
  intros S L ids i j y [Hnd H0] Hi Hj Hij.
  exists (fun k => if u32_eqb k i then (y i + weight j ids)%F else if u32_eqb k j then (y j - weight i ids)%F else y k).
  assert (Eji : u32_eqb j i = false) by (apply u32_eqb_neq; auto).
  split; [|split; [|split]].
  - rewrite u32_eqb_refl. intros E. apply (weight_neq_0 j ids H0). exact (add_zero _ _ (eq_sym E)).
  - rewrite Eji, u32_eqb_refl. intros E. apply (weight_neq_0 i ids H0). exact (sub_zero _ _ E).
  - intros k Hki Hkj. rewrite (proj2 (u32_eqb_neq k i) Hki), (proj2 (u32_eqb_neq k j) Hkj). reflexivity.
  - intros m p msg tr a HR Eids HT.
    match type of HT with forall k, _ -> took_part _ _ _ _ _ ?x _ _ => apply (C114_keys_used_decide S L m p _ msg tr a x y HR) end; rewrite Eids.
    + intros E. rewrite E in Hi. exact Hi.
    + exact H0.
    + exact HT.
    + left. rewrite (secret_diff _ y ids). rewrite cancelling by assumption. apply Fadd_0_right.
Qed.
Print Assumptions C114_wrong_keys_can_cancel.

Lemma took_part_check {S : Suite} {L : SuiteLaws S} m p gk msg tr a x y i l pos cs q : agg_run (agg_new p gk msg) tr a ->
  fst (sign m (MkSK i (x i)) (h4 msg) gk l pos (ag_signers (ai_state a))) = Ok q ->
  nth_error (sl_commitments l) (N.to_nat pos) = Some cs -> In (MkSigner i (published cs)) (ag_signers (ai_state a)) ->
  bget i (ag_partials (ai_state a)) = Some (ps_z q) -> bget i (ag_keys (ai_state a)) = Some (gen * y i)%G ->
  took_part m gk msg tr a x y i.
Proof.
  intros H A1 A2 A3 A4 A5. pose proof (holds_run _ _ _ _ _ H) as HH.
  destruct (sign m (MkSK i (x i)) (h4 msg) gk l pos (ag_signers (ai_state a))) as [o l'] eqn:E. cbn [fst] in A1. subst o.
  exists l, pos, cs, q, l'. split; [exact E|]. split; [exact A2|]. split; [apply (hs_pairs _ _ _ _ _ HH), A3|].
  split; [apply (hs_parts _ _ _ _ _ HH), A4|apply (hs_keys _ _ _ _ _ HH), A5].
Qed.

(** signers 1 and 3 of the demo session, with keys x1, x3, announced as keys of y1, y3; group secret 1000, new keys 1077 and 1231 *)
Definition mx_sig (i : Z) (x : @F Toy) : @PartialSig Toy :=
  match fst (sign Debug (MkSK (u (Z.to_N i)) x) shash sgroup (snonces i) 0 c84_signers) with Ok p => p | _ => MkPSig (u 0) (mk 0) end.
Definition mx_calls (y1 y3 x1 x3 : Z) : list ACall :=
  [CInc (u 1) (published (spair 1 0)) (MkVK (u 1) (@gen Toy * mk y1)%G); CInc (u 3) (published (spair 3 0)) (MkVK (u 3) (@gen Toy * mk y3)%G);
   CPart (mx_sig 1 (mk x1)); CPart (mx_sig 3 (mk x3))].
Definition mx_run (y1 y3 x1 x3 : Z) : trace * AggInitial := calls_run (agg_new c69_params sgroup [x68; x69]) (mx_calls y1 y3 x1 x3).
Lemma mx_run_ok y1 y3 x1 x3 : agg_run (agg_new c69_params sgroup [x68; x69]) (fst (mx_run y1 y3 x1 x3)) (snd (mx_run y1 y3 x1 x3)).
Proof. exact (calls_run_ok _ _). Qed.
(** truthful mixture of old and new: nobody named; old keys announced as new ones: accepted; errors that cancel: accepted; others: named *)
Example C114_ex_outcomes :
  outcome (snd (mx_run 1077 1165 1077 1165)) = Err (MisbehavingParticipants []) /\
  is_ok (outcome (snd (mx_run 1077 1231 1055 1165))) = true /\
  is_ok (outcome (snd (mx_run 1077 1231 1078 1234))) = true /\
  outcome (snd (mx_run 1077 1231 1078 1231)) = Err (MisbehavingParticipants [u 1]) /\
  outcome (snd (mx_run 1077 1231 1078 1235)) = Err (MisbehavingParticipants [u 1; u 3]).
Proof. vms. Qed.
Definition mx_fun (v1 v3 : Z) (i : u32) : @F Toy := if u32_eqb i (u 1) then mk v1 else mk v3.
Lemma mx_ids : map sg_index (ag_signers (ai_state (snd (mx_run 1077 1231 1078 1235)))) = [u 1; u 3]. Proof. vmr. Qed.
Lemma mx_secret : Feqb (Suite := Toy) (secret_at (mx_fun 1078 1235) [u 1; u 3]) (mk 1000) = false /\
  Feqb (Suite := Toy) (secret_at (mx_fun 1077 1231) [u 1; u 3]) (mk 1000) = true /\
  Feqb (Suite := Toy) (session_chal (h4 [x68; x69]) sgroup (ag_signers (ai_state (snd (mx_run 1077 1231 1078 1235))))) (F0 (Suite := Toy)) = false.
Proof. vms. Qed.
Lemma mx_part i : In i [u 1; u 3] -> took_part Debug sgroup [x68; x69] (fst (mx_run 1077 1231 1078 1235)) (snd (mx_run 1077 1231 1078 1235))
  (mx_fun 1078 1235) (mx_fun 1077 1231) i.
Proof.
  intros [<-|[<-|[]]].
  - apply (@took_part_check Toy ToyLaws _ _ _ _ _ _ _ _ _ (snonces 1) 0%N (spair 1 0) (mx_sig 1 (mk 1078)) (mx_run_ok _ _ _ _)); [vmr|vmr| |vmr|vmr].
    apply (nth_error_In _ 0). vmr.
  - apply (@took_part_check Toy ToyLaws _ _ _ _ _ _ _ _ _ (snonces 3) 0%N (spair 3 0) (mx_sig 3 (mk 1235)) (mx_run_ok _ _ _ _)); [vmr|vmr| |vmr|vmr].
    apply (nth_error_In _ 1). vmr.
Qed.
Example C114_ex :
  let a := snd (mx_run 1077 1231 1078 1235) in let ids := map sg_index (ag_signers (ai_state a)) in
  agg_run (agg_new c69_params (@gen Toy * mk 1000)%G [x68; x69]) (fst (mx_run 1077 1231 1078 1235)) a /\
  ids <> [] /\ ~ In u32_zero ids /\
  (forall i, In i ids -> took_part Debug (@gen Toy * mk 1000)%G [x68; x69] (fst (mx_run 1077 1231 1078 1235)) a (mx_fun 1078 1235) (mx_fun 1077 1231) i) /\
  secret_at (mx_fun 1078 1235) ids <> mk 1000 /\ session_chal (h4 [x68; x69]) (@gen Toy * mk 1000)%G (ag_signers (ai_state a)) <> @F0 Toy /\
  (good_indices ids /\ In (u 1) ids /\ In (u 3) ids /\ u 1 <> u 3).
Proof.
  cbv zeta. rewrite mx_ids. split; [exact (mx_run_ok _ _ _ _)|]. split; [discriminate|]. destruct mx_secret as (X1 & _ & X3).
  assert (Hg : good_indices [u 1; u 3]) by good.
  split; [apply Hg|]. split; [exact mx_part|]. split; [exact (proj1 (@Feqb_neq Toy ToyLaws _ _) X1)|].
  split; [exact (proj1 (@Feqb_neq Toy ToyLaws _ _) X3)|]. split; [exact Hg|]. split; [left; reflexivity|]. split; [right; left; reflexivity|discriminate].
Qed.

Definition or_else {A} (d : A) (r : result A) : A := match r with Ok v => v | _ => d end.
(** the life of C93: participant 1 of the first epoch and participant 5 of the second *)
Definition ml_old : @SigningKey Toy := snd (final_after (lf_follower 1)).
Definition ml_new : @SigningKey Toy := snd (final_after lf_heir).
Definition ml_gk : @G Toy := ep_gk lf_first.
Definition ml_incs : list ACall :=
  [CInc (u 1) (published (spair 1 0)) (to_public ml_old); CInc (u 5) (published (spair 5 0)) (to_public ml_new)].
Definition ml_signers : list Signer := ag_signers (ai_state (snd (calls_run (agg_new ho_params ml_gk [x68]) ml_incs))).
Definition ml_sig (k : @SigningKey Toy) (i : Z) : @PartialSig Toy :=
  or_else (A := @PartialSig Toy) (@MkPSig Toy (u 0) (mk 0)) (fst (sign (S := Toy) Debug k (h4 (S := Toy) [x68]) ml_gk (snonces i) 0 ml_signers)).
Definition ml_run : trace * AggInitial :=
  calls_run (agg_new ho_params ml_gk [x68]) (ml_incs ++ [CPart (ml_sig ml_old 1); CPart (ml_sig ml_new 5)]).
Definition ml_fun (i : u32) : @F Toy := if u32_eqb i (u 1) then sk_key ml_old else sk_key ml_new.
Lemma ml_run_ok : agg_run (agg_new ho_params ml_gk [x68]) (fst ml_run) (snd ml_run).
Proof. exact (calls_run_ok _ _). Qed.
Lemma ml_ids : map sg_index (ag_signers (ai_state (snd ml_run))) = [u 1; u 5] /\ sk_index ml_old = u 1 /\ sk_index ml_new = u 5. Proof. vms. Qed.
Lemma ml_outcome : outcome (snd ml_run) = Err (MisbehavingParticipants []). Proof. vmr. Qed.
Lemma ml_part i : In i [u 1; u 5] -> took_part Debug ml_gk [x68] (fst ml_run) (snd ml_run) ml_fun ml_fun i.
Proof.
  intros [<-|[<-|[]]].
  - apply (@took_part_check Toy ToyLaws _ _ _ _ _ _ _ _ _ (snonces 1) 0%N (spair 1 0) (ml_sig ml_old 1) ml_run_ok); [vmr|vmr| |vmr|vmr].
    apply (nth_error_In _ 0). vmr.
  - apply (@took_part_check Toy ToyLaws _ _ _ _ _ _ _ _ _ (snonces 5) 0%N (spair 5 0) (ml_sig ml_new 5) ml_run_ok); [vmr|vmr| |vmr|vmr].
    apply (nth_error_In _ 1). vmr.
Qed.
Lemma ml_facts : Geqb (Suite := Toy) (@gen Toy * secret_at ml_fun [u 1; u 5])%G ml_gk = false /\
  Feqb (Suite := Toy) (session_chal (h4 [x68]) ml_gk (ag_signers (ai_state (snd ml_run)))) (F0 (Suite := Toy)) = false.
Proof. vms. Qed.
Lemma ml_holds : ep_holds lf_first (MkSK (u 1) (ml_fun (u 1))) /\ ep_holds lf_second (MkSK (u 5) (ml_fun (u 5))).
Proof.
  destruct ml_ids as (_ & E1 & E5). split.
  - assert (X : MkSK (u 1) (ml_fun (u 1)) = ml_old) by (destruct ml_old as [i v] eqn:E; cbn [sk_index] in E1; rewrite E1; unfold ml_fun; rewrite E; reflexivity).
    rewrite X. exists (lf_follower 1). split; [left; reflexivity|]. apply ended_ends. exact (proj2 (proj2 (proj2 (proj2 (lf_parts 1 lf_ok_1))))).
  - assert (X : MkSK (u 5) (ml_fun (u 5)) = ml_new) by (destruct ml_new as [i v] eqn:E; cbn [sk_index] in E5; rewrite E5; unfold ml_fun; rewrite E; reflexivity).
    rewrite X. exists lf_heir. split; [left; reflexivity|]. apply ended_ends, lf_heir_ended.
Qed.
Example C114_ex_epochs : exists s,
  let a := snd ml_run in let ids := map sg_index (ag_signers (ai_state a)) in
  born Debug lf_first /\ later Debug lf_first lf_first /\ later Debug lf_first lf_second /\ ep_gk lf_first = (@gen Toy * s)%G /\
  agg_run (agg_new ho_params (@gen Toy * s)%G [x68]) (fst ml_run) a /\ ids <> [] /\ ~ In u32_zero ids /\
  (forall i, In i ids -> took_part Debug (@gen Toy * s)%G [x68] (fst ml_run) a ml_fun ml_fun i) /\
  (forall i, In i ids -> ep_holds lf_first (MkSK i (ml_fun i)) \/ ep_holds lf_second (MkSK i (ml_fun i))) /\
  session_chal (h4 [x68]) (@gen Toy * s)%G (ag_signers (ai_state a)) <> @F0 Toy /\ secret_at ml_fun ids <> s /\
  outcome a = Err (MisbehavingParticipants []).
Proof.
  destruct (@gen_span Toy ToyLaws ml_gk) as [s Es]. exists s. cbv zeta. destruct ml_ids as (-> & _ & _). rewrite <- Es.
  destruct C93_ex as (X1 & _ & X2 & _). destruct ml_facts as (F1' & F2'). assert (Hg : good_indices [u 1; u 5]) by good.
  split; [exact X1|]. split; [apply later_now|]. split; [exact X2|]. split; [reflexivity|]. split; [exact ml_run_ok|]. split; [discriminate|].
  split; [apply Hg|]. split; [exact ml_part|]. split.
  { destruct ml_holds as [A B]. intros i [<-|[<-|[]]]; [left; exact A|right; exact B]. }
  split; [exact (proj1 (@Feqb_neq Toy ToyLaws _ _) F2')|]. split; [|exact ml_outcome].
  intros E. apply (proj1 (@Geqb_neq Toy ToyLaws _ _) F1'). rewrite E. symmetry. exact Es.
Qed.
