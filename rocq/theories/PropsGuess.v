(** Property C151: what guesses achieve: every check of the library accepts exactly one value in q, and the check of the sum in aggregate
    lets errors through that cancel: all but one of the accepted lists of partial signatures contain wrong ones. *)
From Coq Require Import String Strings.Byte Arith NArith ZArith Bool List Permutation Lia Field.
From Verif Require Import Base Suite Spec SpecDkg SpecSign Types ModelDkg ModelSign Algebra BaseLemmas LemmasShare LemmasFinish LemmasSign LemmasAgg
  Toy Demo DemoSign PropsShare PropsFinish PropsSign PropsAgg PropsEnd PropsLikely PropsChance PropsJoint PropsBias PropsEpochCount.
Import ListNotations.

(** * specification *)
Section Vocabulary.
  Context {S : Suite}.
  (** the aggregator is given these partial signatures, in the order of its signers *)
  Definition answered (a : AggInitial) (zs : list F) : AggInitial :=
    fold_left include_partial_signature (map (fun sz => MkPSig (sg_index (fst sz)) (snd sz)) (combine (ag_signers (ai_state a)) zs)) a.
  (** one value for each signer, and a signature comes out *)
  Definition accepted (a : AggInitial) (zs : list F) : Prop :=
    length zs = length (ag_signers (ai_state a)) /\ exists f sig, finalize (answered a zs) = Ok f /\ aggregate f = Ok sig.
  (** every signer's value passes the check of that signer, with the given public keys *)
  Definition all_pass (gk : G) (msg : list byte) (key : u32 -> G) (a : AggInitial) (zs : list F) : Prop :=
    let ss := ag_signers (ai_state a) in Forall2 (fun s z => partial_ok (h4 msg) gk ss s (key (sg_index s)) z) ss zs.
End Vocabulary.

Section Guess.
  Context {S : Suite} {L : SuiteLaws S}.
  Add Field F_fld : F_field.
  Lemma rest_of_sum (s r : F) : ((s - r) + r = s)%F. Proof. ring. Qed.
  Lemma first_of_sum (z r s : F) : (z + r)%F = s -> z = (s - r)%F. Proof. intros <-. ring. Qed.
  Lemma exactly_remove {A} n (P : A -> Prop) a : exactly n P -> P a -> exactly (n - 1) (fun x => P x /\ x <> a).
  Proof.
    intros (l & H1 & <- & H3) Ha. apply H3 in Ha. destruct (in_split _ _ Ha) as (l1 & l2 & ->). exists (l1 ++ l2).
    split; [apply NoDup_remove_1 in H1; exact H1|]. split; [rewrite !app_length; cbn [length]; lia|].
    intros x. rewrite <- H3. apply NoDup_remove_2 in H1. split.
    - intros Hx. split; [|intros ->; contradiction]. apply in_app_iff. apply in_app_iff in Hx. cbn [In]. tauto.
    - intros (Hx & Hn). apply in_app_iff in Hx. apply in_app_iff. cbn [In] in Hx. destruct Hx as [Hx|[Hx|Hx]]; auto. congruence.
  Qed.
  Lemma count_lists q k : exactly q (fun _ : F => True) -> exactly (q ^ k) (fun zs : list F => length zs = k).
  Proof.
    intros Hq. induction k as [|k IH]; cbn [Nat.pow].
    - apply (exactly_iff _ (fun zs => zs = [])); [|apply exactly_one]. intros zs. split; [intros ->; reflexivity|apply length_zero_iff_nil].
    - apply (exactly_cons _ _ (fun _ => True) (fun _ zs => length zs = k)); auto.
      intros zs. split; [|intros (z & r & -> & _ & H); cbn [length]; congruence].
      destruct zs as [|z r]; [discriminate|]. cbn [length]. intros H. injection H as H. exists z, r. auto.
  Qed.
  (** lists with a given sum *)
  Lemma count_sum q k s : exactly q (fun _ : F => True) -> exactly (q ^ k) (fun zs : list F => length zs = Datatypes.S k /\ fsum zs = s).
  Proof.
    intros Hq. apply (exactly_image _ (fun zs : list F => length zs = k) _ (fun zs => (s - fsum zs)%F :: zs)); [congruence| |apply count_lists, Hq].
    intros [|z zs]; [split; [intros ([=] & _)|intros (r & _ & [=])]|]. cbn [length]. change (fsum (z :: zs)) with (z + fsum zs)%F. split.
    - intros (H1 & H2). exists zs. split; [congruence|]. f_equal. apply first_of_sum, H2.
    - intros (r & H1 & E). injection E as -> ->. split; [congruence|]. apply rest_of_sum.
  Qed.

  Lemma answered_state a zs : ag_signers (ai_state (answered a zs)) = ag_signers (ai_state a) /\ ag_keys (ai_state (answered a zs)) = ag_keys (ai_state a) /\
    ag_group_key (ai_state (answered a zs)) = ag_group_key (ai_state a) /\ ai_message (answered a zs) = ai_message a.
  Proof.
    unfold answered. generalize (map (fun sz => MkPSig (sg_index (fst sz)) (snd sz)) (combine (ag_signers (ai_state a)) zs)). intros l. revert a.
    induction l as [|p l IH]; intros a; [auto|]. cbn [fold_left]. destruct (IH (include_partial_signature a p)) as (H1 & H2 & H3 & H4). auto.
  Qed.
  Lemma fold_partials l : forall a i, ~ In i (map ps_index l) -> bget i (ag_partials (ai_state (fold_left include_partial_signature l a))) = bget i (ag_partials (ai_state a)).
  Proof.
    induction l as [|p l IH]; intros a i Hi; [reflexivity|]. cbn [fold_left]. rewrite IH by (intros X; apply Hi; right; exact X).
    cbn [include_partial_signature ai_state ag_partials]. rewrite bget_binsert. destruct (u32_eqb i (ps_index p)) eqn:E; [|reflexivity].
    apply u32_eqb_spec in E. destruct Hi. left. congruence.
  Qed.
  Lemma fold_values ss : NoDup (map sg_index ss) -> forall zs a, length zs = length ss ->
    Forall2 (fun s z => bget (sg_index s) (ag_partials (ai_state (fold_left include_partial_signature (map (fun sz => MkPSig (sg_index (fst sz)) (snd sz)) (combine ss zs)) a))) = Some z) ss zs.
  Proof.
    induction ss as [|s ss IH]; intros HN [|z zs] a Hl; try discriminate; [constructor|]. cbn [map] in HN. apply NoDup_cons_iff in HN as (N1 & N2).
    cbn [combine map fold_left fst snd]. constructor; [|apply IH; [exact N2|cbn [length] in Hl; congruence]].
    rewrite fold_partials.
    - cbn [include_partial_signature ai_state ag_partials ps_index ps_z]. rewrite bget_binsert, (proj2 (u32_eqb_spec _ _) eq_refl). reflexivity.
    - rewrite map_map. intros X. apply in_map_iff in X as ((s' & z') & E & X). apply in_combine_l in X. cbn [ps_index fst] in E. apply N1. rewrite <- E. apply in_map, X.
  Qed.
  Lemma pairs_both {A B} (R Q : A -> B -> Prop) l l' : Forall2 R l l' -> Forall2 Q l l' -> Forall2 (fun a b => R a b /\ Q a b) l l'.
  Proof. induction 1; intros H'; inversion H'; subst; constructor; auto. Qed.
  Lemma vals_are m ss zs : Forall2 (fun s z => bget (sg_index s) m = Some z) ss zs -> map (fun s => val F0 m (sg_index s)) ss = zs.
  Proof. induction 1 as [|s z ss zs H HF IH]; [reflexivity|]. cbn [map]. unfold val at 1. rewrite H, IH. reflexivity. Qed.

  Lemma accepted_iff p gk msg tr a zs : agg_run (agg_new p gk msg) tr a ->
    (forall s, In s (ag_signers (ai_state a)) -> exists P, last_key tr (sg_index s) P) -> ag_signers (ai_state a) <> [] ->
    (accepted a zs <-> length zs = length (ag_signers (ai_state a)) /\ schnorr gk (h4 msg) (group_nonce (h4 msg) (ag_signers (ai_state a))) (fsum zs)).
  Proof.
    intros H HF Hne. pose proof (holds_run _ _ _ _ _ H) as HH.
    assert (HK : forall s, In s (ag_signers (ai_state a)) -> exists v, bget (sg_index s) (ag_keys (ai_state a)) = Some v)
      by (intros s Hs; destruct (HF s Hs) as (P & HP); exists P; apply (hs_keys _ _ _ _ _ HH), HP).
    unfold accepted. split.
    all: intros (Hl & X); (split; [exact Hl|]).
    all: destruct (answered_state a zs) as (A1 & A2 & A3 & A4).
    all: pose proof (fold_values (ag_signers (ai_state a)) (increasing_NoDup _ (hs_inc _ _ _ _ _ HH)) zs a Hl) as HV; fold (answered a zs) in HV.
    all: assert (EF : finalize (answered a zs) = Ok (MkFinal (ai_state (answered a zs)) (h4 (ai_message (answered a zs)))))
      by (apply finalize_ok; rewrite ?A1, ?A2; [apply HH| |exact HK]; intros s Hs; destruct (forall2_left _ _ _ _ HV Hs) as (z & _ & Hz); exists z; exact Hz).
    - destruct X as (f & sig & F1 & F2). rewrite EF in F1. injection F1 as <-.
      destruct (C44_aggregate_returns_only_valid_signatures S L _ _ F2) as (_ & V & ER & zs' & Z1 & Z2). cbn [af_state af_hash] in *.
      rewrite A1, A3, A4 in *. rewrite (hs_gk _ _ _ _ _ HH), (hs_msg _ _ _ _ _ HH) in *.
      apply vals_are in Z1. apply vals_are in HV. assert (zs' = zs) as -> by congruence. rewrite ER, Z2 in V. exact V.
    - rewrite EF. eexists. eexists. split; [reflexivity|]. rewrite aggregate_eq; cbn [af_state af_hash]; rewrite ?A1; [|exact Hne|].
      + cbv zeta. rewrite A3, A4, (hs_gk _ _ _ _ _ HH), (hs_msg _ _ _ _ _ HH), (vals_are _ _ _ HV).
        apply (sig_verify_iff (MkTSig (group_nonce (h4 msg) (ag_signers (ai_state a))) (fsum zs))) in X. rewrite X. cbn [is_ok]. reflexivity.
      + intros s Hs. destruct (forall2_left _ _ _ _ HV Hs) as (z & _ & Hz). exists z. exact Hz.
  Qed.
  Lemma schnorr_one gk h R : exists z, forall z', schnorr gk h R z' <-> z' = z.
  Proof.
    unfold schnorr. destruct (gen_span (R + gk * chal R gk h)%G) as (z & Hz). exists z. intros z'. rewrite Hz. split; [apply gen_inj|intros ->; reflexivity].
  Qed.
  Lemma partial_one h gk ss s pk : exists z, forall z', partial_ok h gk ss s pk z' <-> z' = z.
  Proof.
    unfold partial_ok. destruct (gen_span (nonce_point h ss s + pk * (session_chal h gk ss * weight (sg_index s) (map sg_index ss))%F)%G) as (z & Hz).
    exists z. intros z'. rewrite Hz. split; [apply gen_inj|intros ->; reflexivity].
  Qed.
  Lemma middle_value (n m k : nat) (b z a s : F) : n = m + 1 + k ->
    (m + Datatypes.S k = n /\ (b + (z + a))%F = s <-> z = (s - (b + a))%F).
  Proof. intros E. split; [intros (_ & <-); ring|intros ->; split; [lia|ring]]. Qed.
  Lemma pass_sum gk msg key a zs : NoDup (map sg_index (ag_signers (ai_state a))) ->
    ginterp0 (map (fun s => (sg_index s, key (sg_index s))) (ag_signers (ai_state a))) = gk -> all_pass gk msg key a zs ->
    schnorr gk (h4 msg) (group_nonce (h4 msg) (ag_signers (ai_state a))) (fsum zs).
  Proof.
    unfold all_pass. cbv zeta. intros HN Hk HP. pose proof (fold_values _ HN zs a (eq_sym (Forall2_len _ _ _ HP))) as HV. fold (answered a zs) in HV.
    set (m := ag_partials (ai_state (answered a zs))) in *. rewrite <- (vals_are _ _ _ HV). apply (all_checks (h4 msg) gk _ key (val F0 m)).
    - pose proof (pairs_both _ _ _ _ HP HV) as K.
      intros s Hs. destruct (forall2_left _ _ _ _ K Hs) as (z & _ & Z1 & Z2). unfold val. rewrite Z2. exact Z1.
    - rewrite Hk. reflexivity.
  Qed.
  Lemma only_one {A} (P : A -> Prop) : (exists z, forall z', P z' <-> z' = z) -> exactly 1 P.
  Proof. intros (z & H). apply (exactly_iff _ (fun z' => z' = z)); [intros z'; symmetry; apply H|apply exactly_one]. Qed.
End Guess.

(** * C151 *)
(** of the q^k lists of partial signatures of k signers exactly q^(k-1) give a signature, and exactly one has only partial signatures that
    pass the check of their signer *)
Theorem C151_partial_signatures :
  forall (S : Suite) (L : SuiteLaws S) (q : nat) (p : Params) (gk : G) (msg : list byte) (tr : trace) (a : AggInitial) (key : u32 -> G),
  exactly q (fun _ : F => True) ->
  agg_run (agg_new p gk msg) tr a -> (forall s, In s (ag_signers (ai_state a)) -> exists P, last_key tr (sg_index s) P) -> ag_signers (ai_state a) <> [] ->
  exactly (q ^ (length (ag_signers (ai_state a)) - 1)) (accepted a) /\ exactly 1 (all_pass gk msg key a).
Proof.
  intros S L q p gk msg tr a key Hq H HF Hne. split.
  - destruct (schnorr_one gk (h4 msg) (group_nonce (h4 msg) (ag_signers (ai_state a)))) as (z & Hz).
    apply (exactly_iff _ (fun zs => length zs = Datatypes.S (length (ag_signers (ai_state a)) - 1) /\ fsum zs = z)); [|apply count_sum, Hq].
    intros zs. rewrite (accepted_iff p gk msg tr a zs H HF Hne). rewrite Hz.
    destruct (ag_signers (ai_state a)); [congruence|]. cbn [length]. rewrite Nat.sub_succ, Nat.sub_0_r. reflexivity.
  - unfold all_pass. cbv zeta. rewrite <- (Nat.pow_1_l (length (ag_signers (ai_state a)))). apply exactly_each. intros s _. apply only_one, partial_one.
Qed.
Print Assumptions C151_partial_signatures.

(** whatever the others send, one value of a signer makes the sum right *)
Theorem C151_last_signer :
  forall (S : Suite) (L : SuiteLaws S) (p : Params) (gk : G) (msg : list byte) (tr : trace) (a : AggInitial) (before after : list F),
  agg_run (agg_new p gk msg) tr a -> (forall s, In s (ag_signers (ai_state a)) -> exists P, last_key tr (sg_index s) P) -> length (ag_signers (ai_state a)) = length before + 1 + length after ->
  exactly 1 (fun z => accepted a (before ++ z :: after)).
Proof.
  intros S L p gk msg tr a before after H HF Hl. apply only_one.
  destruct (schnorr_one gk (h4 msg) (group_nonce (h4 msg) (ag_signers (ai_state a)))) as (s & Hs).
  exists (s - (fsum before + fsum after))%F. intros z.
  rewrite (accepted_iff p gk msg tr a _ H HF), Hs; [|intros E; rewrite E in Hl; cbn [length] in Hl; lia].
  rewrite app_length. cbn [length]. rewrite fsum_app. change (fsum (z :: after)) with (z + fsum after)%F.
  apply middle_value. lia.
Qed.
Print Assumptions C151_last_signer.

(** if the public keys belong to the group key, the list that passes every check is accepted, and all other accepted lists contain partial
    signatures that are wrong and that nobody is named for *)
Theorem C151_unnoticed_errors :
  forall (S : Suite) (L : SuiteLaws S) (q : nat) (p : Params) (gk : G) (msg : list byte) (tr : trace) (a : AggInitial) (key : u32 -> G),
  exactly q (fun _ : F => True) ->
  agg_run (agg_new p gk msg) tr a -> (forall s, In s (ag_signers (ai_state a)) -> exists P, last_key tr (sg_index s) P) -> ag_signers (ai_state a) <> [] ->
  ginterp0 (map (fun s => (sg_index s, key (sg_index s))) (ag_signers (ai_state a))) = gk ->
  (forall zs, all_pass gk msg key a zs -> accepted a zs) /\
  exactly (q ^ (length (ag_signers (ai_state a)) - 1) - 1) (fun zs => accepted a zs /\ ~ all_pass gk msg key a zs).
Proof.
  intros S L q p gk msg tr a key Hq H HF Hne Hk.
  destruct (C151_partial_signatures S L q p gk msg tr a key Hq H HF Hne) as (H1 & H2).
  assert (HA : forall zs, all_pass gk msg key a zs -> accepted a zs).
  { intros zs HP. apply (accepted_iff p gk msg tr a zs H HF Hne). split; [symmetry; exact (Forall2_len _ _ _ HP)|]. apply (pass_sum gk msg key a zs); auto.
    apply increasing_NoDup. apply (holds_run _ _ _ _ _ H). }
  split; [exact HA|]. destruct H2 as (l & L1 & L2 & L3). destruct l as [|zs [|]]; try discriminate.
  apply (exactly_iff _ (fun x => accepted a x /\ x <> zs)).
  - intros x. rewrite <- L3. cbn [In]. split; intros (X1 & X2); (split; [exact X1|]); [intros [E|[]]; congruence|intros ->; apply X2; left; reflexivity].
  - apply exactly_remove; [exact H1|]. apply HA, L3. left. reflexivity.
Qed.
Print Assumptions C151_unnoticed_errors.

(** shares and verifying keys: exactly one value is accepted *)
Theorem C151_shares_and_verifying_keys :
  forall (S : Suite) (L : SuiteLaws S),
  (forall (sender receiver : u32) (c : Vss), exactly 1 (fun v => share_verify (MkShare sender receiver v) c = Ok tt)) /\
  (forall (i : u32) (cs : list Vss), good_indices (map vss_index cs) -> exactly 1 (fun P => ivk_verify (MkVK i P) cs = Ok tt)).
Proof.
  intros S L. split.
  - intros sender receiver c. apply only_one.
    destruct (C06_share_verify_iff S L (MkShare sender receiver F0) c) as (a & Ha & _). exists (poly_value a (of_u32 receiver)). intros v.
    destruct (C06_share_verify_iff S L (MkShare sender receiver v) c) as (b & Hb & Hu & K1 & K2). cbn [sh_value sh_receiver] in *.
    rewrite (Hu a Ha) in *. split; [|exact K1]. intros V. destruct (F_dec v (poly_value b (of_u32 receiver))) as [E|E]; [exact E|]. rewrite (K2 E) in V. discriminate.
  - intros i cs Hg. apply only_one. exists (dealt_point (by_index cs) (of_u32 i)). intros P.
    destruct (C35_verify_equals_regeneration S L (MkVK i P) cs) as (K1 & _ & _ & K2 & _). cbn [vk_index] in *. rewrite K1, (K2 Hg).
    split; [intros E; injection E as E; symmetry; exact E|intros ->; reflexivity].
Qed.
Print Assumptions C151_shares_and_verifying_keys.

(** signers 1 and 3 of the demo group, nothing sent so far *)
Definition guess_calls : list ACall :=
  [CInc (u 1) (published (spair 1 0)) (MkVK (u 1) (@gen Toy * mk 1077%Z)%G); CInc (u 3) (published (spair 3 0)) (MkVK (u 3) (@gen Toy * mk 1231%Z)%G)].
Definition guess_run : trace * AggInitial := calls_run (agg_new (MkParams (u 3) (u 2)) sgroup [x68; x69]) guess_calls.
Definition guess_key (i : u32) : @G Toy := if u32_eqb i (u 1) then (@gen Toy * mk 1077%Z)%G else (@gen Toy * mk 1231%Z)%G.
Example C151_ex : exists q tr a, exactly q (fun _ : @F Toy => True) /\ agg_run (agg_new (MkParams (u 3) (u 2)) sgroup [x68; x69]) tr a /\
  (forall s, In s (ag_signers (ai_state a)) -> exists P, last_key tr (sg_index s) P) /\ map sg_index (ag_signers (ai_state a)) = [u 1; u 3] /\
  ginterp0 (map (fun s => (sg_index s, guess_key (sg_index s))) (ag_signers (ai_state a))) = sgroup /\
  exactly (q ^ 1) (accepted (S := Toy) a) /\ exactly (q ^ 1 - 1) (fun zs => accepted (S := Toy) a zs /\ ~ all_pass (S := Toy) sgroup [x68; x69] guess_key a zs).
Proof.
  destruct toy_count as (q & _ & H). exists q, (fst guess_run), (snd guess_run).
  assert (HR : agg_run (agg_new (MkParams (u 3) (u 2)) sgroup [x68; x69]) (fst guess_run) (snd guess_run)) by exact (calls_run_ok _ _).
  assert (HI : map sg_index (ag_signers (ai_state (snd guess_run))) = [u 1; u 3]) by vmr.
  assert (HF : forall s, In s (ag_signers (ai_state (snd guess_run))) -> exists P, last_key (fst guess_run) (sg_index s) P).
  { intros s Hs. exists (guess_key (sg_index s)). apply (hs_keys _ _ _ _ _ (holds_run _ _ _ _ _ HR)).
    apply (in_map sg_index) in Hs. rewrite HI in Hs. destruct Hs as [<-|[<-|[]]]; vmr. }
  assert (HK : ginterp0 (map (fun s => (sg_index s, guess_key (sg_index s))) (ag_signers (ai_state (snd guess_run)))) = sgroup) by vmr.
  assert (HL : length (ag_signers (ai_state (snd guess_run))) = 2) by vmr.
  assert (HN : ag_signers (ai_state (snd guess_run)) <> []) by (intros E; rewrite E in HL; discriminate).
  split; [exact H|]. split; [exact HR|]. split; [exact HF|]. split; [exact HI|]. split; [exact HK|].
  pose proof (C151_partial_signatures Toy ToyLaws q _ _ _ _ _ guess_key H HR HF HN) as (K1 & _).
  pose proof (C151_unnoticed_errors Toy ToyLaws q _ _ _ _ _ guess_key H HR HF HN HK) as (_ & K2).
  rewrite HL in K1, K2. split; [exact K1|exact K2].
Qed.
