(** C86: positions in the secret nonce list move with every signature, those of the published list do not. *)
From Coq Require Import String Strings.Byte Arith NArith ZArith Bool List Permutation Sorted Lia Field.
From Verif Require Import Base Suite Spec SpecDkg SpecSign SpecRobust SpecEnd Types ModelDkg ModelSign Algebra BaseLemmas LemmasShare
  LemmasFinish LemmasSign LemmasAgg Toy Demo DemoDkg DemoSign PropsFinish PropsReshare PropsSign PropsAgg PropsEnd PropsAttack PropsStale.
Import ListNotations.

(** l' is l without the elements satisfying P, in the same order *)
Inductive thinned {A} (P : A -> Prop) : list A -> list A -> Prop :=
| th_nil : thinned P [] []
| th_drop x l l' : P x -> thinned P l l' -> thinned P (x :: l) l'
| th_keep x l l' : ~ P x -> thinned P l l' -> thinned P (x :: l) (x :: l').

Section Shift.
  Context {S : Suite} {L : SuiteLaws S}.
  Add Field F_fld : F_field.

  (** sessions in which the k-th call, counted from n, uses position k *)
  Inductive in_step (m : build) : nat -> list CommitmentShare -> list Use -> list CommitmentShare -> Prop :=
  | is_nil n l : in_step m n l [] l
  | is_next n l k h gk ss p l1 cs us l2 :
      sign m k h gk (MkSecList l) (N.of_nat n) ss = (Ok p, MkSecList l1) -> nth_error l n = Some cs ->
      in_step m (Datatypes.S n) l1 us l2 -> in_step m n l (MkUse k h gk ss cs p :: us) l2.

  Lemma thinned_ext {A} (P Q : A -> Prop) l l' : (forall x, In x l -> (P x <-> Q x)) -> thinned P l l' -> thinned Q l l'.
  Proof.
    intros H T. induction T as [|x l l' Hx T IH|x l l' Hx T IH].
    - apply th_nil.
    - apply th_drop; [apply (H x); [left; reflexivity|exact Hx]|]. apply IH. intros y Hy. apply H. right. exact Hy.
    - apply th_keep; [intros X; apply Hx; apply (H x); [left; reflexivity|exact X]|]. apply IH. intros y Hy. apply H. right. exact Hy.
  Qed.
  Lemma thinned_none {A} (P : A -> Prop) l : (forall x, In x l -> ~ P x) -> thinned P l l.
  Proof. induction l as [|x l IH]; intros H; [apply th_nil|apply th_keep]; [apply H; left; reflexivity|apply IH; intros y Hy; apply H; right; exact Hy]. Qed.
  Lemma thinned_one {A} (P : A -> Prop) l1 x l2 l' : P x -> thinned P (l1 ++ l2) l' -> thinned P (l1 ++ x :: l2) l'.
  Proof.
    intros Hx. revert l'. induction l1 as [|y l1 IH]; intros l' T; cbn [app] in *; [apply th_drop; assumption|].
    inversion T; subst; [apply th_drop|apply th_keep]; auto.
  Qed.
  Lemma thinned_in {A} (P : A -> Prop) l l' : thinned P l l' -> forall x, In x l' <-> In x l /\ ~ P x.
  Proof.
    induction 1 as [|x l l' Hx T IH|x l l' Hx T IH]; intros y; cbn [In]; [tauto| |]; rewrite IH; intuition congruence.
  Qed.
  Lemma thinned_app {A} (P : A -> Prop) l1 l2 l' : thinned P (l1 ++ l2) l' ->
    exists a b, l' = a ++ b /\ thinned P l1 a /\ thinned P l2 b.
  Proof.
    revert l'. induction l1 as [|x l1 IH]; intros l' T; cbn [app] in T; [exists [], l'; repeat split; [apply th_nil|exact T]|].
    inversion T as [|? ? ? Hx T'|? ? ? Hx T']; subst; destruct (IH _ T') as (a & b & -> & Ha & Hb).
    - exists a, b. repeat split; [apply th_drop; assumption|exact Hb].
    - exists (x :: a), b. repeat split; [apply th_keep; assumption|exact Hb].
  Qed.
  Lemma thinned_perm {A} (P : A -> Prop) l l' : thinned P l l' -> exists u, Permutation l (u ++ l') /\ forall x, In x u <-> In x l /\ P x.
  Proof.
    induction 1 as [|x l l' Hx T (u & IH1 & IH2)|x l l' Hx T (u & IH1 & IH2)].
    - exists []. split; [constructor|]. intros x. cbn. tauto.
    - exists (x :: u). split; [cbn [app]; constructor; exact IH1|]. intros y. cbn [In]. rewrite IH2. intuition congruence.
    - exists u. split; [apply Permutation_cons_app, IH1|]. intros y. cbn [In]. rewrite IH2. intuition congruence.
  Qed.
  Lemma nth_after {A} (l1 l2 : list A) x i : length l1 <= i -> nth_error (l1 ++ l2) i = nth_error (l1 ++ x :: l2) (i + 1).
  Proof.
    intros H. rewrite !nth_error_app2 by lia. replace (i + 1 - length l1) with (Datatypes.S (i - length l1)) by lia. reflexivity.
  Qed.
  Lemma partial_other_pair h gk ss i x d e d' e' : 
    partial_ok h gk ss (MkSigner i ((gen * d)%G, (gen * e)%G)) (gen * x)%G (partial_value h gk ss i d' e' x) <->
    (d' + e' * binding h ss i = d + e * binding h ss i)%F.
  Proof.
    unfold partial_ok, nonce_point, partial_value. cbn [sg_index sg_com fst snd]. rewrite !Gmul_mul, !gen_mul_add. split.
    - intros E. apply gen_inj in E. set (b := binding h ss i) in *. set (w := weight _ _) in *. set (c := session_chal _ _ _) in *.
      transitivity ((d' + e' * b + w * x * c) - w * x * c)%F; [ring|]. rewrite E. ring.
    - intros E. f_equal. rewrite E. ring.
  Qed.
End Shift.

(** C86: the list holds the unused pairs in their old order *)
Theorem C86_unused_pairs_stay_in_order :
  forall (S : Suite) (L : SuiteLaws S) (m : build) (l l' : list CommitmentShare) (us : list Use),
  signings m l us l' -> NoDup l -> thinned (fun c => In c (map us_pair us)) l l'.
Proof.
  intros S L m l l' us H. induction H as [l|l k h gk idx ss p l1 cs us l2 Hs Hc H IH|l k h gk idx ss o l1 us l2 Hs Ho H IH]; intros Hn.
  - apply thinned_none. intros x _ [].
  - destruct (C39_sign_consumes_its_pair _ _ _ _ _ _ _ _ _ _ _ Hs) as [cs' [a [b [E1 [E2 [E3 [E4 _]]]]]]].
    assert (cs' = cs) by congruence. subst cs' l l1. pose proof (NoDup_remove_2 _ _ _ Hn) as Hcs. pose proof (NoDup_remove_1 _ _ _ Hn) as Hn'.
    cbn [map us_pair]. apply thinned_one; [left; reflexivity|].
    apply (thinned_ext (fun c => In c (map us_pair us))); [|apply IH, Hn']. intros x Hx. cbn [In]. split; [tauto|].
    intros [<-|X]; [contradiction|exact X].
  - apply sign_fail in Hs; [|exact Ho]. injection Hs as ->. auto.
Qed.
Print Assumptions C86_unused_pairs_stay_in_order.

(** an unused pair published at position |l1| now has the position |l1| minus the number of used pairs before it *)
Theorem C86_position_of_a_published_pair :
  forall (S : Suite) (L : SuiteLaws S) (m : build) (l1 l2 l' : list CommitmentShare) (cs : CommitmentShare) (us : list Use),
  signings m (l1 ++ cs :: l2) us l' -> NoDup (l1 ++ cs :: l2) -> ~ In cs (map us_pair us) ->
  exists used left, (forall c, In c used <-> In c l1 /\ In c (map us_pair us)) /\ Permutation l1 (used ++ left) /\
    (forall j, nth_error l' j = Some cs <-> j = length l1 - length used).
Proof.
  intros S L m l1 l2 l' cs us H Hn Hu. pose proof (C86_unused_pairs_stay_in_order S L m _ _ us H Hn) as T.
  assert (Hn' : NoDup l').
  { destruct (C40_pairs_used_and_left _ _ _ _ _ _ H) as [HP _]. apply (Permutation_NoDup HP) in Hn. clear -Hn.
    induction (map us_pair us) as [|x q IH]; [exact Hn|]. cbn in Hn. apply NoDup_cons_iff in Hn. apply IH, Hn. }
  apply thinned_app in T. destruct T as (a & b & -> & Ta & Tb).
  inversion Tb as [|? ? ? X _|? ? b' _ Tb']; subst; [contradiction|].
  destruct (thinned_perm _ _ _ Ta) as (u & P & I). exists u, a. split; [exact I|]. split; [exact P|].
  apply Permutation_length in P. rewrite app_length in P. replace (length l1 - length u) with (length a) by lia.
  assert (E : nth_error (a ++ cs :: b') (length a) = Some cs) by (rewrite nth_error_app2, Nat.sub_diag by lia; reflexivity).
  intros j. split; [|intros ->; exact E]. intros Hj.
  apply (proj1 (NoDup_nth_error _) Hn'); [apply nth_error_Some; congruence|congruence].
Qed.
Print Assumptions C86_position_of_a_published_pair.

(** using the positions of the published list one after the other uses every second pair *)
Theorem C86_equal_positions_use_every_second_pair :
  forall (S : Suite) (L : SuiteLaws S) (m : build) (l l' : list CommitmentShare) (us : list Use),
  in_step m 0 l us l' -> NoDup l ->
  (forall j x, nth_error us j = Some x -> nth_error l (2 * j) = Some (us_pair x)) /\
  (** and the calls end with half of the list unused *)
  (forall k h gk ss, length l <= 2 * length us -> (N.of_nat (length us) + 1 < 2 ^ 64)%N ->
     sign m k h gk (MkSecList l') (N.of_nat (length us)) ss = (Err MissingCommitmentShares, MkSecList l')) /\
  length l' = length l - length us.
Proof.
  intros S L m l l' us H Hn.
  assert (X : forall n l us l', in_step m n l us l' -> NoDup l ->
    (forall j x, nth_error us j = Some x -> nth_error l (n + 2 * j) = Some (us_pair x)) /\ length l = length us + length l').
  { clear - L. intros n l us l' H. induction H as [n l|n l k h gk ss p l1 cs us l2 Hs Hc H IH]; intros Hn.
    - split; [intros [|j] x Hj; discriminate|reflexivity].
    - destruct (C39_sign_consumes_its_pair _ _ _ _ _ _ _ _ _ _ _ Hs) as [cs' [a [b [E1 [E2 [E3 [E4 E5]]]]]]].
      rewrite Nat2N.id in E1. assert (cs' = cs) by congruence. subst cs'. destruct (E5 Hn) as [E6 _]. rewrite Nat2N.id in E6.
      subst l l1. destruct IH as [IH1 IH2]; [apply NoDup_remove_1 in Hn; exact Hn|]. split.
      + intros [|j] x Hj; cbn [nth_error] in Hj.
        * injection Hj as <-. rewrite Nat.mul_0_r, Nat.add_0_r. exact Hc.
        * apply IH1 in Hj. rewrite <- Hj. rewrite (nth_after a b cs) by lia. f_equal. lia.
      + rewrite app_length in *. cbn [length]. lia. }
  destruct (X 0 l us l' H Hn) as [X1 X2]. split; [exact X1|]. split; [|lia].
  intros k h gk ss Hl Hb. change (2 ^ 64)%N with 18446744073709551616%N in Hb. rewrite sign_eq, usize_succ_ok by exact Hb.
  replace (N.ltb _ _) with true; [reflexivity|]. symmetry. apply N.ltb_lt. cbn [sl_commitments]. lia.
Qed.
Print Assumptions C86_equal_positions_use_every_second_pair.

(** a signer that signs with another pair than the announced one is named, except if both pairs combine to the same nonce *)
Theorem C86_signer_with_another_pair_is_named :
  forall (S : Suite) (L : SuiteLaws S) (p : Params) (gk : G) (msg : list byte) tr a f (pks : list (u32 * G))
    (m : build) (k : SigningKey) (l : SecretList) idx q l' (d e d' e' : F),
  agg_run (agg_new p gk msg) tr a -> finalize a = Ok f ->
  let ss := ag_signers (ai_state a) in let i := sk_index k in
  ~ In u32_zero (map sg_index ss) ->
  (** the announced keys belong to the group key *)
  map fst pks = map sg_index ss -> (forall j P, In (j, P) pks -> last_key tr j P) -> ginterp0 pks = gk ->
  (** the other signers sent right partial signatures *)
  (forall s pk v, In s ss -> sg_index s <> i -> last_key tr (sg_index s) pk -> last_partial tr (sg_index s) v ->
     partial_ok (h4 msg) gk ss s pk v) ->
  (** signer i announced the pair of the nonces d and e, but its secret list holds d' and e' at the position *)
  sign m k (h4 msg) gk l idx ss = (Ok q, l') ->
  option_map (fun cs => (co_secret (cs_hiding cs), co_secret (cs_binding cs))) (nth_error (sl_commitments l) (N.to_nat idx)) = Some (d', e') ->
  first_pair tr i ((gen * d)%G, (gen * e)%G) -> last_partial tr i (ps_z q) -> last_key tr i (gen * sk_key k)%G ->
  let b := binding (h4 msg) ss i in
  ((d' + e' * b <> d + e * b)%F -> outcome a = Err (MisbehavingParticipants [i])) /\
  ((d' + e' * b = d + e * b)%F -> exists sig, outcome a = Ok sig).
Proof.
  intros S L p gk msg tr a f pks m k l idx q l' d e d' e' H HF ss i H0 Hi Hk Hgk Hok Es Hcs Hpair Hz Hx b.
  pose proof (holds_run _ _ _ _ _ H) as HH. apply (hs_pairs _ _ _ _ _ HH) in Hpair.
  destruct (sign_ok_inv _ _ _ _ _ _ _ _ _ Es) as (cs & C1 & C2 & C3 & C4 & _). rewrite C1 in Hcs. injection Hcs as Hd He.
  assert (Eq : ps_z q = partial_value (h4 msg) gk ss i d' e' (sk_key k)).
  { rewrite C4. unfold partial_value. rewrite Hd, He. reflexivity. }
  pose proof (partial_other_pair (h4 msg) gk ss i (sk_key k) d e d' e') as X. rewrite <- Eq in X.
  destruct (one_left p gk msg tr a f pks (MkSigner i ((gen * d)%G, (gen * e)%G)) (gen * sk_key k)%G (ps_z q) H HF H0 Hpair Hi Hk Hgk Hx Hz Hok) as [A B].
  split; intros Y.
  - apply B. intros Z. apply Y, X, Z.
  - apply A, X, Y.
Qed.
Print Assumptions C86_signer_with_another_pair_is_named.

(** signer 1 passes the positions 0 and 1 of its published list and uses the pairs 0 and 2; the position 2 no longer exists *)
Lemma c86_steps : 
  let ss0 := [ssigner 1 0; ssigner 3 0] in let ss1 := [ssigner 1 1; ssigner 3 1] in
  let l0 := [spair 1 0; spair 1 1; spair 1 2] in
  in_step Debug 0 l0
    [MkUse (skey 1) shash sgroup ss0 (spair 1 0)
       (MkPSig (u 1) (partial_value shash sgroup ss0 (u 1) (co_secret (cs_hiding (spair 1 0))) (co_secret (cs_binding (spair 1 0))) (mk 1077)));
     MkUse (skey 1) [] sgroup ss1 (spair 1 2)
       (MkPSig (u 1) (partial_value [] sgroup ss1 (u 1) (co_secret (cs_hiding (spair 1 2))) (co_secret (cs_binding (spair 1 2))) (mk 1077)))]
    [spair 1 1].
Proof.
  cbv zeta. eapply (is_next _ 0 _ _ _ _ _ _ [spair 1 1; spair 1 2]); [vmr|reflexivity|].
  eapply (is_next _ 1 _ _ _ _ _ _ [spair 1 1]); [vmr|reflexivity|]. apply is_nil.
Qed.
Example C86_ex_steps :
  exists us, in_step Debug 0 [spair 1 0; spair 1 1; spair 1 2] us [spair 1 1] /\ length us = 2 /\ NoDup [spair 1 0; spair 1 1; spair 1 2].
Proof. eexists. split; [exact c86_steps|]. split; [reflexivity|exact C40_ex_distinct]. Qed.
(** in the run of C40 the unused pair moves from position 2 to position 0 *)
Example C86_ex_position :
  exists us, signings Debug ([spair 1 0; spair 1 1] ++ spair 1 2 :: []) us [spair 1 2] /\ length us = 2 /\
    NoDup ([spair 1 0; spair 1 1] ++ spair 1 2 :: []).
Proof. eexists. split; [exact C40_ex|]. split; [reflexivity|exact C40_ex_distinct]. Qed.

(** signers 1 and 3 announce their pairs 1; 3 has used its pair 0 before and passes position 1 *)
Definition c86_list : SecretList := MkSecList [spair 3 1; spair 3 2].
Definition c86_signers : list Signer := ag_signers (ai_state (snd (calls_run (agg_new c69_params sgroup [x68; x69]) (c69_incs [1; 3]%Z 1)))).
Definition c86_sig (idx : N) : PartialSig :=
  match fst (sign Debug (skey 3) shash sgroup c86_list idx c86_signers) with Ok p => p | _ => MkPSig (u 0) (mk 0) end.
Definition c86_run (idx : N) : trace * AggInitial :=
  calls_run (agg_new c69_params sgroup [x68; x69]) (c69_incs [1; 3]%Z 1 ++ [CPart (spartial 1 1 c86_signers); CPart (c86_sig idx)]).
Lemma c86_run_ok idx : agg_run (agg_new c69_params sgroup [x68; x69]) (fst (c86_run idx)) (snd (c86_run idx)).
Proof. exact (calls_run_ok _ _). Qed.
Lemma c86_fin : is_ok (finalize (snd (c86_run 1))) = true. Proof. vmr. Qed.
Lemma c86_idx : map fst (ag_keys (ai_state (snd (c86_run 1)))) = map sg_index (ag_signers (ai_state (snd (c86_run 1)))). Proof. vmr. Qed.
Lemma c86_group : ginterp0 (ag_keys (ai_state (snd (c86_run 1)))) = sgroup. Proof. vmr. Qed.
Lemma c86_rest : forallb (fun s => u32_eqb (sg_index s) (u 3) || negb (failing (ai_state (snd (c86_run 1))) (h4 [x68; x69]) s))
  (ag_signers (ai_state (snd (c86_run 1)))) = true.
Proof. vmr. Qed.
Lemma c86_signs : fst (sign Debug (skey 3) (h4 [x68; x69]) sgroup c86_list 1 (ag_signers (ai_state (snd (c86_run 1))))) = Ok (c86_sig 1).
Proof. vmr. Qed.
Lemma c86_pair : nth_error (ag_signers (ai_state (snd (c86_run 1)))) 1 =
  Some (MkSigner (u 3) ((@gen Toy * co_secret (cs_hiding (spair 3 1)))%G, (@gen Toy * co_secret (cs_binding (spair 3 1)))%G)).
Proof. vmr. Qed.
Lemma c86_part : bget (u 3) (ag_partials (ai_state (snd (c86_run 1)))) = Some (ps_z (c86_sig 1)). Proof. vmr. Qed.
Lemma c86_reg : bget (u 3) (ag_keys (ai_state (snd (c86_run 1)))) = Some (@gen Toy * sk_key (skey 3))%G. Proof. vmr. Qed.
Example C86_ex :
  let tr := fst (c86_run 1) in let a := snd (c86_run 1) in let ss := ag_signers (ai_state a) in
  agg_run (agg_new c69_params sgroup [x68; x69]) tr a /\ is_ok (finalize a) = true /\
  map fst (ag_keys (ai_state a)) = map sg_index ss /\ (forall j P, In (j, P) (ag_keys (ai_state a)) -> last_key tr j P) /\
  ginterp0 (ag_keys (ai_state a)) = sgroup /\
  (forall s pk v, In s ss -> sg_index s <> u 3 -> last_key tr (sg_index s) pk -> last_partial tr (sg_index s) v ->
     partial_ok (h4 [x68; x69]) sgroup ss s pk v) /\
  fst (sign Debug (skey 3) (h4 [x68; x69]) sgroup c86_list 1 ss) = Ok (c86_sig 1) /\
  first_pair tr (u 3) ((@gen Toy * co_secret (cs_hiding (spair 3 1)))%G, (@gen Toy * co_secret (cs_binding (spair 3 1)))%G) /\
  last_partial tr (u 3) (ps_z (c86_sig 1)) /\ last_key tr (u 3) (@gen Toy * sk_key (skey 3))%G.
Proof.
  cbv zeta. pose proof (@holds_run Toy _ _ _ _ _ (c86_run_ok 1)) as HH.
  split; [apply c86_run_ok|]. split; [exact c86_fin|]. split; [exact c86_idx|].
  split; [exact (@keys_check Toy ToyLaws _ _ _ _ _ (c86_run_ok 1))|]. split; [exact c86_group|].
  split; [exact (@others_ok_check Toy ToyLaws _ _ _ _ _ _ (c86_run_ok 1) c86_rest)|].
  split; [exact c86_signs|]. split.
  - apply (hs_pairs _ _ _ _ _ HH). exact (nth_error_In _ _ c86_pair).
  - split; [exact (proj1 (hs_parts _ _ _ _ _ HH _ _) c86_part)|exact (proj1 (hs_keys _ _ _ _ _ HH _ _) c86_reg)].
Qed.
Example C86_ex_outcome :
  outcome (snd (c86_run 1)) = Err (MisbehavingParticipants [u 3]) /\ is_ok (outcome (snd (c86_run 0))) = true.
Proof. vms. Qed.
