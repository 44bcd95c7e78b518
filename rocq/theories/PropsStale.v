(** C84: aggregation names a signer that uses another key than the announced one. *)
From Coq Require Import String Strings.Byte Arith NArith ZArith Bool List Permutation Sorted Lia Field.
From Verif Require Import Base Suite Spec SpecDkg SpecSign SpecRobust SpecEnd Types ModelDkg ModelSign Algebra BaseLemmas LemmasShare
  LemmasFinish LemmasSign LemmasAgg Toy Demo DemoDkg DemoSign PropsFinish PropsReshare PropsSign PropsAgg PropsEnd PropsAttack.
Import ListNotations.

Section Stale.
  Context {S : Suite} {L : SuiteLaws S}.
  Add Field F_fld : F_field.

  (** moving the key moves the required value *)
  Lemma partial_ok_other h gk ss s k x z : ~ In u32_zero (map sg_index ss) ->
    partial_ok h gk ss s (gen * k)%G z -> (partial_ok h gk ss s (gen * x)%G z <-> k = x \/ session_chal h gk ss = F0).
  Proof.
    intros H0 Hk. unfold partial_ok in *. rewrite Hk. pose proof (weight_neq_0 (sg_index s) (map sg_index ss) H0) as Hw.
    set (w := weight _ _) in *. set (c := session_chal h gk ss) in *. rewrite !Gmul_mul. split.
    - intros E. apply Gadd_cancel_l, gen_inj in E.
      assert (X : ((k - x) * (c * w) = F0)%F) by (transitivity (k * (c * w) - x * (c * w))%F; [ring|rewrite E; ring]).
      apply Fmul_eq_0 in X. destruct X as [X|X]; [left; apply Fsub_eq_0, X|]. apply Fmul_eq_0 in X. destruct X; [auto|contradiction].
    - intros [->|Ec]; [reflexivity|]. rewrite Ec. f_equal. f_equal. ring.
  Qed.
  (** the value required of a signer *)
  Lemma partial_ok_exists h gk ss s pk : exists z, partial_ok h gk ss s pk z.
  Proof. unfold partial_ok. destruct (gen_span (nonce_point h ss s + pk * (session_chal h gk ss * weight (sg_index s) (map sg_index ss))%F)%G) as [z E]. eauto. Qed.
  Lemma last_key_fun p gk msg tr a i P Q : agg_run (agg_new p gk msg) tr a -> last_key tr i P -> last_key tr i Q -> P = Q.
  Proof.
    intros H A B. pose proof (holds_run _ _ _ _ _ H) as HH. apply (hs_keys _ _ _ _ _ HH) in A, B. congruence.
  Qed.
  Lemma last_partial_fun p gk msg tr a i z z' : agg_run (agg_new p gk msg) tr a -> last_partial tr i z -> last_partial tr i z' -> z = z'.
  Proof.
    intros H A B. pose proof (holds_run _ _ _ _ _ H) as HH. apply (hs_parts _ _ _ _ _ HH) in A, B. congruence.
  Qed.

  (** all but one partial signature are right *)
  Lemma one_left p gk msg tr a f (pks : list (u32 * G)) s P z :
    agg_run (agg_new p gk msg) tr a -> finalize a = Ok f ->
    let ss := ag_signers (ai_state a) in
    ~ In u32_zero (map sg_index ss) -> In s ss ->
    map fst pks = map sg_index ss -> (forall i P, In (i, P) pks -> last_key tr i P) -> ginterp0 pks = gk ->
    last_key tr (sg_index s) P -> last_partial tr (sg_index s) z ->
    (forall s' pk v, In s' ss -> sg_index s' <> sg_index s -> last_key tr (sg_index s') pk -> last_partial tr (sg_index s') v ->
       partial_ok (h4 msg) gk ss s' pk v) ->
    (partial_ok (h4 msg) gk ss s P z -> exists sig, outcome a = Ok sig) /\
    (~ partial_ok (h4 msg) gk ss s P z -> outcome a = Err (MisbehavingParticipants [sg_index s])).
  Proof.
    intros H HF. cbv zeta. intros H0 Hs Hi Hk Hgk HP Hz Hok.
    pose proof (holds_run _ _ _ _ _ H) as HH.
    assert (Hne : ag_signers (ai_state a) <> []) by (intros X; rewrite X in Hs; exact Hs).
    assert (Hsame : forall s', In s' (ag_signers (ai_state a)) -> sg_index s' = sg_index s -> s' = s).
    { intros s' Hs' E. pose proof (increasing_NoDup _ (hs_inc _ _ _ _ _ HH)) as Hn.
      clear - Hn Hs Hs' E. induction (ag_signers (ai_state a)) as [|b l IH]; [contradiction|]. cbn [map] in Hn. apply NoDup_cons_iff in Hn. destruct Hn as [N1 N2].
      destruct Hs as [->|Hs], Hs' as [->|Hs']; auto.
      - destruct N1. rewrite <- E. apply in_map, Hs'.
      - destruct N1. rewrite E. apply in_map, Hs. }
    assert (Good : forall a' f' tr', agg_run (agg_new p gk msg) tr' a' -> finalize a' = Ok f' ->
      ag_signers (ai_state a') = ag_signers (ai_state a) -> (forall i P, In (i, P) pks -> last_key tr' i P) ->
      (forall s' pk v, In s' (ag_signers (ai_state a)) -> last_key tr' (sg_index s') pk -> last_partial tr' (sg_index s') v ->
        partial_ok (h4 msg) gk (ag_signers (ai_state a)) s' pk v) -> exists sig, outcome a' = Ok sig).
    { intros a' f' tr' R' F' E' K' O'. unfold outcome. rewrite F'. cbn [bind].
      destruct (C45_blame_is_exact S L p gk msg tr' a' f' R' F') as [X|(bad & X & _ & HB)]; [rewrite E'; exact Hne|rewrite E'; exact H0|exact X|].
      exfalso. apply (C45_blame_is_not_empty S L p gk msg tr' a' f' bad pks R' F' X); try (rewrite E'; assumption); auto.
      destruct bad as [|b bad]; [reflexivity|]. exfalso. destruct (proj1 (HB b) (or_introl eq_refl)) as (s' & pk & v & B1 & B2 & B3 & B4 & B5).
      rewrite E' in B1, B5. apply B5, O'; rewrite ?B2; assumption. }
    split; intros HO.
    - apply (Good a f tr); auto. intros s' pk v Hs' K1 K2. destruct (u32_eq_dec (sg_index s') (sg_index s)) as [E|E]; [|apply Hok; assumption].
      apply Hsame in E; [|exact Hs']. subst s'. rewrite (last_key_fun _ _ _ _ _ _ _ _ H K1 HP), (last_partial_fun _ _ _ _ _ _ _ _ H K2 Hz). exact HO.
    - destruct (partial_ok_exists (h4 msg) gk (ag_signers (ai_state a)) s P) as [z' Hz'].
      set (b := include_partial_signature a (MkPSig (sg_index s) z')).
      set (trb := tr ++ [(CPart (MkPSig (sg_index s) z'), Ok tt)]).
      assert (Hb : agg_run (agg_new p gk msg) trb b).
      { apply agg_run_app. exists a. split; [exact H|]. apply ag_part, ag_nil. }
      pose proof (holds_run _ _ _ _ _ Hb) as HHb.
      assert (Ess : ag_signers (ai_state b) = ag_signers (ai_state a)) by reflexivity.
      assert (Esk : ag_keys (ai_state b) = ag_keys (ai_state a)) by reflexivity.
      assert (Epart : ag_partials (ai_state b) = binsert (sg_index s) z' (ag_partials (ai_state a))) by reflexivity.
      assert (Egk : ag_group_key (ai_state b) = ag_group_key (ai_state a)) by reflexivity.
      assert (Emsg : ai_message b = ai_message a) by reflexivity.
      clearbody b trb.
      destruct (finalize_inv a f (hs_inc _ _ _ _ _ HH) HF) as (Ef & HPa & HKa).
      assert (HFb : finalize b = Ok (MkFinal (ai_state b) (h4 (ai_message b)))).
      { rewrite finalize_eq by (rewrite Ess; apply HH). cbv zeta. rewrite Ess, Esk.
        assert (X1 : filter (lacks (ag_partials (ai_state b))) (ag_signers (ai_state a)) = []).
        { apply filter_none. intros s0 Hs0. unfold lacks. rewrite Epart. destruct (HPa s0 Hs0) as [v Hv].
          destruct (u32_eq_dec (sg_index s0) (sg_index s)) as [->|E]; [rewrite bget_binsert_same|rewrite bget_binsert_other, Hv by exact E]; reflexivity. }
        assert (X2 : filter (lacks (ag_keys (ai_state a))) (ag_signers (ai_state a)) = []).
        { apply filter_none. intros s0 Hs0. unfold lacks. destruct (HKa s0 Hs0) as [v ->]. reflexivity. }
        rewrite X1, X2. reflexivity. }
      assert (Hokb : forall s' pk v, In s' (ag_signers (ai_state b)) -> last_key trb (sg_index s') pk -> last_partial trb (sg_index s') v ->
        partial_ok (h4 msg) gk (ag_signers (ai_state b)) s' pk v).
      { rewrite Ess. intros s' pk v Hs' K1 K2. apply (hs_keys _ _ _ _ _ HHb) in K1. rewrite Esk in K1. apply (hs_keys _ _ _ _ _ HH) in K1.
        apply (hs_parts _ _ _ _ _ HHb) in K2. rewrite Epart in K2. destruct (u32_eq_dec (sg_index s') (sg_index s)) as [E|E].
        - rewrite E, bget_binsert_same in K2. injection K2 as <-. apply Hsame in E; [|exact Hs']. subst s'.
          rewrite (last_key_fun _ _ _ _ _ _ _ _ H K1 HP). exact Hz'.
        - rewrite bget_binsert_other in K2 by exact E. apply (hs_parts _ _ _ _ _ HH) in K2. apply Hok; assumption. }
      destruct (Good b _ trb Hb HFb Ess) as (sig & Osig).
      { intros i0 P0 I0. apply (hs_keys _ _ _ _ _ HHb). rewrite Esk. apply (hs_keys _ _ _ _ _ HH), Hk, I0. }
      { rewrite <- Ess. exact Hokb. }
      assert (Hzz : z <> z') by (intros ->; contradiction).
      destruct (C71_forged_message_frames_the_signer S L p gk msg trb b sig (sg_index s) z' z Hb Osig) as [X _].
      + rewrite Ess. exact H0.
      + rewrite Ess. apply in_map, Hs.
      + exact Hokb.
      + apply (hs_parts _ _ _ _ _ HHb). rewrite Epart. apply bget_binsert_same.
      + exact Hzz.
      + rewrite <- X. apply outcome_ext; cbn [include_partial_signature ai_state ag_signers ag_keys ag_group_key ag_partials ai_message ps_index ps_z]; try (symmetry; assumption); [apply HH|].
        intros s0 Hs0. rewrite Epart. destruct (u32_eq_dec (sg_index s0) (sg_index s)) as [->|E].
        * rewrite bget_binsert_same. apply (hs_parts _ _ _ _ _ HH), Hz.
        * rewrite !bget_binsert_other by exact E. reflexivity.
  Qed.
End Stale.

(** C84 *)
Theorem C84_signer_with_another_key_is_named :
  forall (S : Suite) (L : SuiteLaws S) (p : Params) (gk : G) (msg : list byte) tr a f (pks : list (u32 * G))
    (m : build) (k : SigningKey) (l : SecretList) idx cs q l' (x : F),
  agg_run (agg_new p gk msg) tr a -> finalize a = Ok f ->
  let ss := ag_signers (ai_state a) in let i := sk_index k in
  ~ In u32_zero (map sg_index ss) ->
  (** the announced keys belong to the group key *)
  map fst pks = map sg_index ss -> (forall j P, In (j, P) pks -> last_key tr j P) -> ginterp0 pks = gk ->
  (** the other signers sent right partial signatures *)
  (forall s pk v, In s ss -> sg_index s <> i -> last_key tr (sg_index s) pk -> last_partial tr (sg_index s) v ->
     partial_ok (h4 msg) gk ss s pk v) ->
  (** signer i follows the protocol with the key k, but x was announced *)
  sign m k (h4 msg) gk l idx ss = (Ok q, l') -> nth_error (sl_commitments l) (N.to_nat idx) = Some cs ->
  first_pair tr i (published cs) -> last_partial tr i (ps_z q) -> last_key tr i (gen * x)%G ->
  (sk_key k <> x /\ session_chal (h4 msg) gk ss <> F0 -> outcome a = Err (MisbehavingParticipants [i])) /\
  (sk_key k = x \/ session_chal (h4 msg) gk ss = F0 -> exists sig, outcome a = Ok sig).
Proof.
  intros S L p gk msg tr a f pks m k l idx cs q l' x H HF ss i H0 Hi Hk Hgk Hok Es Hcs Hpair Hz Hx.
  pose proof (holds_run _ _ _ _ _ H) as HH. apply (hs_pairs _ _ _ _ _ HH) in Hpair.
  destruct (C42_honest_signature_share_checks S L m k (h4 msg) gk l idx ss q l' cs (MkSigner i (published cs)) Es Hcs Hpair eq_refl) as (_ & O & _).
  pose proof (partial_ok_other (h4 msg) gk ss (MkSigner i (published cs)) (sk_key k) x (ps_z q) H0 O) as X.
  destruct (one_left p gk msg tr a f pks (MkSigner i (published cs)) (gen * x)%G (ps_z q) H HF H0 Hpair Hi Hk Hgk Hx Hz Hok) as [A B].
  split.
  - intros [N1 N2]. apply B. fold ss. rewrite X. intros [Y|Y]; contradiction.
  - intros Y. apply A, X, Y.
Qed.
Print Assumptions C84_signer_with_another_key_is_named.

Lemma others_ok_check {S : Suite} {L : SuiteLaws S} p gk msg tr a i : agg_run (agg_new p gk msg) tr a ->
  forallb (fun s => u32_eqb (sg_index s) i || negb (failing (ai_state a) (h4 msg) s)) (ag_signers (ai_state a)) = true ->
  forall s pk v, In s (ag_signers (ai_state a)) -> sg_index s <> i -> last_key tr (sg_index s) pk -> last_partial tr (sg_index s) v ->
    partial_ok (h4 msg) gk (ag_signers (ai_state a)) s pk v.
Proof.
  intros H HF s pk v Hs Hi Hk Hp. pose proof (holds_run _ _ _ _ _ H) as HH. apply (hs_keys _ _ _ _ _ HH) in Hk. apply (hs_parts _ _ _ _ _ HH) in Hp.
  rewrite forallb_forall in HF. specialize (HF s Hs). pose proof (failing_spec (ai_state a) (h4 msg) s pk v Hp Hk) as X.
  rewrite (hs_gk _ _ _ _ _ HH) in X. apply orb_prop in HF. destruct HF as [HF|HF]; [apply u32_eqb_spec in HF; contradiction|].
  rewrite negb_true_iff in HF. unfold partial_ok in *. apply Geqb_spec.
  destruct (Geqb _ _) eqn:E; [reflexivity|]. exfalso. apply Geqb_neq in E. apply X in E. congruence.
Qed.
Lemma keys_check {S : Suite} {L : SuiteLaws S} p gk msg tr a : agg_run (agg_new p gk msg) tr a ->
  forall i P, In (i, P) (ag_keys (ai_state a)) -> last_key tr i P.
Proof.
  intros H i P I. pose proof (holds_run _ _ _ _ _ H) as HH. apply (hs_keys _ _ _ _ _ HH). apply in_bget; [|exact I].
  apply increasing_NoDup, HH.
Qed.

(** signers 1 and 3; the keys of the new epoch are announced, but 3 signs with its share 1000 + 55 * 3 of the old one *)
Definition c84_key : SigningKey := MkSK (u 3) (mk (1000 + 55 * 3)).
Definition c84_signers : list Signer := ag_signers (ai_state (snd (calls_run (agg_new c69_params sgroup [x68; x69]) (c69_incs [1; 3]%Z 0)))).
Definition c84_sig (k : SigningKey) : PartialSig :=
  match fst (sign Debug k shash sgroup (snonces 3) 0 c84_signers) with Ok p => p | _ => MkPSig (u 0) (mk 0) end.
Definition c84_run (k : SigningKey) : trace * AggInitial :=
  calls_run (agg_new c69_params sgroup [x68; x69]) (c69_incs [1; 3]%Z 0 ++ [CPart (spartial 1 0 c84_signers); CPart (c84_sig k)]).
Lemma c84_run_ok k : agg_run (agg_new c69_params sgroup [x68; x69]) (fst (c84_run k)) (snd (c84_run k)).
Proof. exact (calls_run_ok _ _). Qed.
Lemma c84_fin : is_ok (finalize (snd (c84_run c84_key))) = true. Proof. vmr. Qed.
Lemma c84_idx : map fst (ag_keys (ai_state (snd (c84_run c84_key)))) = map sg_index (ag_signers (ai_state (snd (c84_run c84_key)))). Proof. vmr. Qed.
Lemma c84_group : ginterp0 (ag_keys (ai_state (snd (c84_run c84_key)))) = sgroup. Proof. vmr. Qed.
Lemma c84_rest : forallb (fun s => u32_eqb (sg_index s) (u 3) || negb (failing (ai_state (snd (c84_run c84_key))) (h4 [x68; x69]) s))
  (ag_signers (ai_state (snd (c84_run c84_key)))) = true.
Proof. vmr. Qed.
Lemma c84_signs : fst (sign Debug c84_key (h4 [x68; x69]) sgroup (snonces 3) 0 (ag_signers (ai_state (snd (c84_run c84_key))))) = Ok (c84_sig c84_key).
Proof. vmr. Qed.
Lemma c84_pair : nth_error (ag_signers (ai_state (snd (c84_run c84_key)))) 1 = Some (MkSigner (u 3) (published (spair 3 0))). Proof. vmr. Qed.
Lemma c84_part : bget (u 3) (ag_partials (ai_state (snd (c84_run c84_key)))) = Some (ps_z (c84_sig c84_key)). Proof. vmr. Qed.
Lemma c84_reg : bget (u 3) (ag_keys (ai_state (snd (c84_run c84_key)))) = Some (@gen Toy * mk (1000 + 77 * 3))%G. Proof. vmr. Qed.
Lemma c84_nonce : nth_error (sl_commitments (snonces 3)) 0 = Some (spair 3 0). Proof. vmr. Qed.
Example C84_ex :
  let tr := fst (c84_run c84_key) in let a := snd (c84_run c84_key) in let ss := ag_signers (ai_state a) in
  agg_run (agg_new c69_params sgroup [x68; x69]) tr a /\ is_ok (finalize a) = true /\
  map fst (ag_keys (ai_state a)) = map sg_index ss /\ (forall j P, In (j, P) (ag_keys (ai_state a)) -> last_key tr j P) /\
  ginterp0 (ag_keys (ai_state a)) = sgroup /\
  (forall s pk v, In s ss -> sg_index s <> u 3 -> last_key tr (sg_index s) pk -> last_partial tr (sg_index s) v ->
     partial_ok (h4 [x68; x69]) sgroup ss s pk v) /\
  fst (sign Debug c84_key (h4 [x68; x69]) sgroup (snonces 3) 0 ss) = Ok (c84_sig c84_key) /\
  nth_error (sl_commitments (snonces 3)) 0 = Some (spair 3 0) /\ first_pair tr (u 3) (published (spair 3 0)) /\
  last_partial tr (u 3) (ps_z (c84_sig c84_key)) /\ last_key tr (u 3) (@gen Toy * mk (1000 + 77 * 3))%G.
Proof.
  cbv zeta. pose proof (@holds_run Toy _ _ _ _ _ (c84_run_ok c84_key)) as HH.
  split; [apply c84_run_ok|]. split; [exact c84_fin|]. split; [exact c84_idx|].
  split; [exact (@keys_check Toy ToyLaws _ _ _ _ _ (c84_run_ok c84_key))|]. split; [exact c84_group|].
  split; [exact (@others_ok_check Toy ToyLaws _ _ _ _ _ _ (c84_run_ok c84_key) c84_rest)|].
  split; [exact c84_signs|]. split; [exact c84_nonce|]. split.
  - apply (hs_pairs _ _ _ _ _ HH). exact (nth_error_In _ _ c84_pair).
  - split; [exact (proj1 (hs_parts _ _ _ _ _ HH _ _) c84_part)|exact (proj1 (hs_keys _ _ _ _ _ HH _ _) c84_reg)].
Qed.
Example C84_ex_outcome :
  outcome (snd (c84_run c84_key)) = Err (MisbehavingParticipants [u 3]) /\
  is_ok (outcome (snd (c84_run (skey 3)))) = true /\
  Feqb (@session_chal Toy (h4 [x68; x69]) sgroup c84_signers) F0 = false.
Proof. vms. Qed.
