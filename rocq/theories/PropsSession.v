(** C87: a signer that signs with other session data than the aggregator's. *)
From Coq Require Import String Strings.Byte Arith NArith ZArith Bool List Permutation Sorted Lia Field.
From Verif Require Import Base Suite Spec SpecDkg SpecSign SpecRobust SpecEnd Types ModelDkg ModelSign Algebra BaseLemmas LemmasShare
  LemmasFinish LemmasSign LemmasAgg Toy Demo DemoDkg DemoSign PropsFinish PropsReshare PropsSign PropsAgg PropsHash PropsEnd PropsAttack PropsStale.
Import ListNotations.

Section Session.
  Context {S : Suite} {L : SuiteLaws S}.
  Add Field F_fld : F_field.

  Lemma partial_ok_value h gk ss i d e x z :
    partial_ok h gk ss (MkSigner i ((gen * d)%G, (gen * e)%G)) (gen * x)%G z <-> z = partial_value h gk ss i d e x.
  Proof.
    unfold partial_ok, nonce_point, partial_value. cbn [sg_index sg_com fst snd]. rewrite !Gmul_mul, !gen_mul_add. split.
    - intros E. apply gen_inj in E. rewrite E. ring.
    - intros ->. f_equal. ring.
  Qed.
  Lemma partial_diff (d e w x b b' c c' : F) : ((d + e * b' + w * x * c') - (d + e * b + w * x * c) = e * (b' - b) + w * x * (c' - c))%F.
  Proof. ring. Qed.
  Lemma other_chal (d e w x b c c' : F) : w <> F0 -> ((d + e * b + w * x * c')%F = (d + e * b + w * x * c)%F <-> x = F0 \/ c' = c).
  Proof.
    intros Hw. split.
    - intros E. assert (X : ((w * x) * (c' - c) = F0)%F) by (transitivity ((d + e * b + w * x * c') - (d + e * b + w * x * c))%F; [ring|rewrite E; ring]).
      apply Fmul_eq_0 in X. destruct X as [X|X]; [apply Fmul_eq_0 in X; destruct X; [contradiction|auto]|right; apply Fsub_eq_0, X].
    - intros [->| ->]; ring.
  Qed.
End Session.

(** C87: whatever message hash, group key, signers, nonces and key it passes to sign, the signer is named exactly if the
    result is not the value required in the session of the aggregator *)
Theorem C87_signer_in_another_session_is_named :
  forall (S : Suite) (L : SuiteLaws S) (p : Params) (gk : G) (msg : list byte) tr a f (pks : list (u32 * G))
    (m : build) (k : SigningKey) (l : SecretList) idx q l' (h' : list byte) (gk' : G) (ss' : list Signer) (d e x d' e' : F),
  agg_run (agg_new p gk msg) tr a -> finalize a = Ok f ->
  let ss := ag_signers (ai_state a) in let i := sk_index k in
  ~ In u32_zero (map sg_index ss) ->
  (** the announced keys belong to the group key *)
  map fst pks = map sg_index ss -> (forall j P, In (j, P) pks -> last_key tr j P) -> ginterp0 pks = gk ->
  (** the other signers sent right partial signatures *)
  (forall s pk v, In s ss -> sg_index s <> i -> last_key tr (sg_index s) pk -> last_partial tr (sg_index s) v ->
     partial_ok (h4 msg) gk ss s pk v) ->
  (** announced for i *)
  first_pair tr i ((gen * d)%G, (gen * e)%G) -> last_key tr i (gen * x)%G ->
  (** what i did *)
  sign m k h' gk' l idx ss' = (Ok q, l') -> last_partial tr i (ps_z q) ->
  option_map (fun cs => (co_secret (cs_hiding cs), co_secret (cs_binding cs))) (nth_error (sl_commitments l) (N.to_nat idx)) = Some (d', e') ->
  let z := partial_value (h4 msg) gk ss i d e x in
  let z' := partial_value h' gk' ss' i d' e' (sk_key k) in
  (z' <> z -> outcome a = Err (MisbehavingParticipants [i])) /\ (z' = z -> exists sig, outcome a = Ok sig).
Proof.
  intros S L p gk msg tr a f pks m k l idx q l' h' gk' ss' d e x d' e' H HF ss i H0 Hi Hk Hgk Hok Hpair Hx Es Hz Hcs z z'.
  pose proof (holds_run _ _ _ _ _ H) as HH. apply (hs_pairs _ _ _ _ _ HH) in Hpair.
  destruct (sign_ok_inv _ _ _ _ _ _ _ _ _ Es) as (cs & C1 & C2 & C3 & C4 & _). rewrite C1 in Hcs. injection Hcs as Hd He.
  assert (Eq : ps_z q = z').
  { rewrite C4. unfold z', partial_value. rewrite Hd, He. reflexivity. }
  pose proof (partial_ok_value (h4 msg) gk ss i d e x (ps_z q)) as X. rewrite Eq in X, Hz.
  destruct (one_left p gk msg tr a f pks (MkSigner i ((gen * d)%G, (gen * e)%G)) (gen * x)%G z' H HF H0 Hpair Hi Hk Hgk Hx Hz Hok) as [A B].
  split; intros Y.
  - apply B. intros Z. apply Y, X, Z.
  - apply A, X, Y.
Qed.
Print Assumptions C87_signer_in_another_session_is_named.

(** sign uses the list of signers as given: in another order it is another transcript, the weights are the same, and the
    difference of the two results is this *)
Theorem C87_order_of_the_signers :
  forall (S : Suite) (L : SuiteLaws S) (m : build) (k : SigningKey) (h : list byte) (gk : G) (l : SecretList) idx (ss ss' : list Signer) cs q l',
  Permutation ss ss' -> sign m k h gk l idx ss = (Ok q, l') -> nth_error (sl_commitments l) (N.to_nat idx) = Some cs ->
  let i := sk_index k in let w := weight i (map sg_index ss) in let e := co_secret (cs_binding cs) in
  exists q', sign m k h gk l idx ss' = (Ok q', l') /\ ps_index q' = ps_index q /\
    (ps_z q' - ps_z q = e * (binding h ss' i - binding h ss i) + w * sk_key k * (session_chal h gk ss' - session_chal h gk ss))%F /\
    (roll ss' = roll ss -> ss' = ss).
Proof.
  intros S L m k h gk l idx ss ss' cs q l' P Es Hcs. cbv zeta.
  pose proof Es as Es'. destruct (sign_ok_inv _ _ _ _ _ _ _ _ _ Es) as (cs' & C1 & C2 & C3 & C4 & C5). rewrite Hcs in C1. injection C1 as <-.
  assert (Pi : Permutation (map sg_index ss) (map sg_index ss')) by (apply Permutation_map, P).
  assert (E' : sign m k h gk l idx ss' = (Ok (MkPSig (sk_index k)
    (partial_value h gk ss' (sk_index k) (co_secret (cs_hiding cs)) (co_secret (cs_binding cs)) (sk_key k))), drop_share l cs)).
  { rewrite sign_eq in Es |- *. destruct (usize_succ m idx) as [i1|?|]; try discriminate. destruct (N.ltb _ _); [discriminate|].
    unfold sign_outcome. assert (Hne : ss' <> []).
    { intros ->. apply Permutation_sym, Permutation_nil in P. subst ss. exact C2. }
    assert (Hin : In (sk_index k) (map sg_index ss')) by (apply (Permutation_in _ Pi), C2).
    destruct ss' as [|s0 ss0]; [contradiction|]. set (t := s0 :: ss0) in *.
    apply index_existsb in Hin. rewrite Hin. rewrite lagrange_ok.
    - rewrite Hcs. reflexivity.
    - destruct C3 as [G1 G2]. split; [apply (Permutation_NoDup Pi), G1|]. intros X. apply G2. apply (Permutation_in _ (Permutation_sym Pi)), X. }
  eexists. split; [rewrite E', C5; reflexivity|]. rewrite C4. cbn [ps_index ps_z]. split; [reflexivity|]. split; [|apply roll_inj].
  unfold partial_value. rewrite <- (weight_perm _ _ _ Pi). apply partial_diff.
Qed.
Print Assumptions C87_order_of_the_signers.

(** signing for another group key changes nothing but the challenge, and is named unless the challenges agree or the key is zero *)
Theorem C87_signer_for_another_group_key_is_named :
  forall (S : Suite) (L : SuiteLaws S) (p : Params) (gk : G) (msg : list byte) tr a f (pks : list (u32 * G))
    (m : build) (k : SigningKey) (l : SecretList) idx cs q l' (gk' : G),
  agg_run (agg_new p gk msg) tr a -> finalize a = Ok f ->
  let ss := ag_signers (ai_state a) in let i := sk_index k in
  ~ In u32_zero (map sg_index ss) ->
  map fst pks = map sg_index ss -> (forall j P, In (j, P) pks -> last_key tr j P) -> ginterp0 pks = gk ->
  (forall s pk v, In s ss -> sg_index s <> i -> last_key tr (sg_index s) pk -> last_partial tr (sg_index s) v ->
     partial_ok (h4 msg) gk ss s pk v) ->
  first_pair tr i (published cs) -> last_key tr i (gen * sk_key k)%G ->
  sign m k (h4 msg) gk' l idx ss = (Ok q, l') -> last_partial tr i (ps_z q) -> nth_error (sl_commitments l) (N.to_nat idx) = Some cs ->
  (sk_key k <> F0 /\ session_chal (h4 msg) gk' ss <> session_chal (h4 msg) gk ss -> outcome a = Err (MisbehavingParticipants [i])) /\
  (sk_key k = F0 \/ session_chal (h4 msg) gk' ss = session_chal (h4 msg) gk ss -> exists sig, outcome a = Ok sig).
Proof.
  intros S L p gk msg tr a f pks m k l idx cs q l' gk' H HF ss i H0 Hi Hk Hgk Hok Hpair Hx Es Hz Hcs.
  destruct (C87_signer_in_another_session_is_named S L p gk msg tr a f pks m k l idx q l' (h4 msg) gk' ss
    (co_secret (cs_hiding cs)) (co_secret (cs_binding cs)) (sk_key k) (co_secret (cs_hiding cs)) (co_secret (cs_binding cs))
    H HF H0 Hi Hk Hgk Hok Hpair Hx Es Hz) as [A B]; [rewrite Hcs; reflexivity|].
  fold ss i in A, B. unfold partial_value in A, B.
  pose proof (other_chal (co_secret (cs_hiding cs)) (co_secret (cs_binding cs)) (weight i (map sg_index ss)) (sk_key k) (binding (h4 msg) ss i)
    (session_chal (h4 msg) gk ss) (session_chal (h4 msg) gk' ss) (weight_neq_0 i (map sg_index ss) H0)) as X.
  split.
  - intros [N1 N2]. apply A. rewrite X. intros [Y|Y]; contradiction.
  - intros Y. apply B, X, Y.
Qed.
Print Assumptions C87_signer_for_another_group_key_is_named.

(** signers 1 and 3; 3 signs with the list in the order 3, 1 *)
Definition c87_signers : list Signer := ag_signers (ai_state (snd (calls_run (agg_new c69_params sgroup [x68; x69]) (c69_incs [1; 3]%Z 0)))).
Definition c87_sig (gk : G) (ss : list Signer) : PartialSig :=
  match fst (sign Debug (skey 3) shash gk (snonces 3) 0 ss) with Ok p => p | _ => MkPSig (u 0) (mk 0) end.
Definition c87_run (gk : G) (ss : list Signer) : trace * AggInitial :=
  calls_run (agg_new c69_params sgroup [x68; x69]) (c69_incs [1; 3]%Z 0 ++ [CPart (spartial 1 0 c87_signers); CPart (c87_sig gk ss)]).
Definition c87_bad : trace * AggInitial := c87_run sgroup [ssigner 3 0; ssigner 1 0].
Lemma c87_bad_ok : agg_run (agg_new c69_params sgroup [x68; x69]) (fst c87_bad) (snd c87_bad).
Proof. exact (calls_run_ok _ _). Qed.
Lemma c87_fin : is_ok (finalize (snd c87_bad)) = true. Proof. vmr. Qed.
Lemma c87_idx : map fst (ag_keys (ai_state (snd c87_bad))) = map sg_index (ag_signers (ai_state (snd c87_bad))). Proof. vmr. Qed.
Lemma c87_group : ginterp0 (ag_keys (ai_state (snd c87_bad))) = sgroup. Proof. vmr. Qed.
Lemma c87_rest : forallb (fun s => u32_eqb (sg_index s) (u 3) || negb (failing (ai_state (snd c87_bad)) (h4 [x68; x69]) s))
  (ag_signers (ai_state (snd c87_bad))) = true.
Proof. vmr. Qed.
Lemma c87_signs : fst (sign Debug (skey 3) shash sgroup (snonces 3) 0 [ssigner 3 0; ssigner 1 0]) = Ok (c87_sig sgroup [ssigner 3 0; ssigner 1 0]).
Proof. vmr. Qed.
Lemma c87_order : ag_signers (ai_state (snd c87_bad)) = [ssigner 1 0; ssigner 3 0]. Proof. vmr. Qed.
Lemma c87_part : bget (u 3) (ag_partials (ai_state (snd c87_bad))) = Some (ps_z (c87_sig sgroup [ssigner 3 0; ssigner 1 0])). Proof. vmr. Qed.
Lemma c87_reg : bget (u 3) (ag_keys (ai_state (snd c87_bad))) = Some (@gen Toy * sk_key (skey 3))%G. Proof. vmr. Qed.
Example C87_ex :
  let tr := fst c87_bad in let a := snd c87_bad in let ss := ag_signers (ai_state a) in
  agg_run (agg_new c69_params sgroup [x68; x69]) tr a /\ is_ok (finalize a) = true /\
  map fst (ag_keys (ai_state a)) = map sg_index ss /\ (forall j P, In (j, P) (ag_keys (ai_state a)) -> last_key tr j P) /\
  ginterp0 (ag_keys (ai_state a)) = sgroup /\
  (forall s pk v, In s ss -> sg_index s <> u 3 -> last_key tr (sg_index s) pk -> last_partial tr (sg_index s) v ->
     partial_ok (h4 [x68; x69]) sgroup ss s pk v) /\
  first_pair tr (u 3) (published (spair 3 0)) /\ last_key tr (u 3) (@gen Toy * sk_key (skey 3))%G /\
  fst (sign Debug (skey 3) shash sgroup (snonces 3) 0 [ssigner 3 0; ssigner 1 0]) = Ok (c87_sig sgroup [ssigner 3 0; ssigner 1 0]) /\
  last_partial tr (u 3) (ps_z (c87_sig sgroup [ssigner 3 0; ssigner 1 0])) /\ Permutation ss [ssigner 3 0; ssigner 1 0].
Proof.
  cbv zeta. pose proof (@holds_run Toy _ _ _ _ _ c87_bad_ok) as HH.
  split; [exact c87_bad_ok|]. split; [exact c87_fin|]. split; [exact c87_idx|].
  split; [exact (@keys_check Toy ToyLaws _ _ _ _ _ c87_bad_ok)|]. split; [exact c87_group|].
  split; [exact (@others_ok_check Toy ToyLaws _ _ _ _ _ _ c87_bad_ok c87_rest)|].
  split; [apply (hs_pairs _ _ _ _ _ HH); rewrite c87_order; right; left; reflexivity|].
  split; [exact (proj1 (hs_keys _ _ _ _ _ HH _ _) c87_reg)|]. split; [exact c87_signs|].
  split; [exact (proj1 (hs_parts _ _ _ _ _ HH _ _) c87_part)|]. rewrite c87_order. apply perm_swap.
Qed.
Example C87_ex_outcome :
  outcome (snd c87_bad) = Err (MisbehavingParticipants [u 3]) /\
  is_ok (outcome (snd (c87_run sgroup [ssigner 1 0; ssigner 3 0]))) = true /\
  outcome (snd (c87_run (toy_gen * mk 1001)%G [ssigner 1 0; ssigner 3 0])) = Err (MisbehavingParticipants [u 3]).
Proof. vms. Qed.

Definition same_sig {S : Suite} (o o' : result PartialSig) : bool :=
  match o, o' with Ok p, Ok p' => Feqb (ps_z p) (ps_z p') | _, _ => false end.
Lemma same_sig_neq {S : Suite} (o o' : result PartialSig) : same_sig o o = true -> same_sig o o' = false -> o <> o'.
Proof. intros A B E. subst o'. congruence. Qed.
Lemma c87_same : same_sig (fst (sign Debug (skey 3) shash sgroup (snonces 3) 0 [ssigner 1 0; ssigner 3 0]))
  (fst (sign Debug (skey 3) shash sgroup (snonces 3) 0 [ssigner 1 0; ssigner 3 0])) = true.
Proof. vmr. Qed.
Lemma c87_differ : same_sig (fst (sign Debug (skey 3) shash sgroup (snonces 3) 0 [ssigner 1 0; ssigner 3 0]))
  (fst (sign Debug (skey 3) shash sgroup (snonces 3) 0 [ssigner 3 0; ssigner 1 0])) = false.
Proof. vmr. Qed.

(** so the order of the list passed to sign matters *)
Theorem C87_order_is_irrelevant_refuted :
  ~ (forall (S : Suite) (L : SuiteLaws S) (m : build) (k : SigningKey) (h : list byte) (gk : G) (l : SecretList) idx (ss ss' : list Signer),
       Permutation ss ss' -> fst (sign m k h gk l idx ss) = fst (sign m k h gk l idx ss')).
Proof.
  intros H. apply (same_sig_neq _ _ c87_same c87_differ).
  exact (H Toy ToyLaws Debug (skey 3) shash sgroup (snonces 3) 0%N [ssigner 1 0; ssigner 3 0] [ssigner 3 0; ssigner 1 0] (perm_swap _ _ _)).
Qed.
Print Assumptions C87_order_is_irrelevant_refuted.
