(** C106: what the value returned by blame says about who was blamed. *)
From Coq Require Import String Strings.Byte Arith NArith ZArith Bool List Lia Permutation Sorted.
From Verif Require Import Base Suite Spec SpecDkg Types Algebra BaseLemmas ModelDkg LemmasShare LemmasRound1
  LemmasRound2 LemmasFinish LemmasBlame Toy Demo DemoDkg PropsShare PropsBlame PropsFinish.
Import ListNotations.

Section Report.
  Context {S : Suite} {L : SuiteLaws S}.
  Lemma keys_of_inv st l ks : keys_of st l ks -> forall k, In k ks -> exists i, In i l /\ bget i (ds_dhs st) = Some k.
  Proof.
    induction 1 as [|i l k ks H1 H2 IH|i l ks H1 H2 IH]; intros k' Hk; [contradiction| |].
    - destruct Hk as [<-|Hk]; [exists i; split; [left; reflexivity|exact H1]|].
      destruct (IH k' Hk) as (j & Hj & E). exists j. split; [right; exact Hj|exact E].
    - destruct (IH k' Hk) as (j & Hj & E). exists j. split; [right; exact Hj|exact E].
  Qed.
  Lemma keys_of_one st i ks : keys_of st [i] ks -> ks = match bget i (ds_dhs st) with Some k => [k] | None => [] end.
  Proof.
    inversion 1 as [|? ? ? ? H1 H2|? ? ? H1 H2]; subst; inversion H2; subst; rewrite H1; reflexivity.
  Qed.
  (** a list of which exactly one index is a member, without repetitions *)
  Lemma only_one (l : list u32) i : StronglySorted (fun a b => (u32v a < u32v b)%N) l -> (forall j, In j l <-> j = i) -> l = [i].
  Proof.
    intros Hs H. destruct l as [|a l]; [exfalso; apply (proj2 (H i) eq_refl)|].
    assert (a = i) by (apply H; left; reflexivity). subst a. destruct l as [|b l]; [reflexivity|].
    assert (b = i) by (apply H; right; left; reflexivity). subst b. apply StronglySorted_inv in Hs. destruct Hs as [_ Hs].
    apply Forall_inv in Hs. lia.
  Qed.
  (** one rejected complaint: what is returned and what is left *)
  Lemma blame_rejected st comms shares c : ds_comms st = Some comms -> ds_shares st = Some shares -> ~ upheld st c ->
    exists s' comms' shares',
      blame (R2 st) [c] = Ok (match bget (maker c) (ds_dhs st) with Some k => [k] | None => [] end, s') /\
      ds_dhs (st2 s') = ds_dhs st /\ ds_params (st2 s') = ds_params st /\
      ds_comms (st2 s') = Some comms' /\ ds_shares (st2 s') = Some shares' /\
      without (fun j => j = maker c) comms comms' /\ without (fun j => j = maker c) shares shares'.
  Proof.
    intros Hc Hs U. destruct (C22_blame_outcome S L st comms shares [c] Hc Hs) as (l & keys & st' & Eb & Hl & Hsrt & Hk & HP).
    assert (X : forall j, convicted st [c] j <-> j = maker c).
    { intros j. split; [intros (c' & [<-|[]] & [[A _]|[_ A]]); [contradiction|exact A]|].
      intros ->. exists c. split; [left; reflexivity|right; auto]. }
    assert (El : l = [maker c]) by (apply only_one; [exact Hsrt|intros j; rewrite Hl; apply X]). subst l.
    apply keys_of_one in Hk. subst keys. destruct HP as [P1 _ _ _ P5 _ (m1 & m1' & A1 & A2 & A3) (m2 & m2' & B1 & B2 & B3)].
    assert (m1 = comms) by congruence. subst m1. assert (m2 = shares) by congruence. subst m2.
    assert (W : forall V (P Q : u32 -> Prop), (forall j, P j <-> Q j) -> forall (m m' : bmap V), without P m m' -> without Q m m').
    { intros V P Q H m m'. induction 1 as [|k v m m' Hk W IH|k v m m' Hk W IH]; constructor; try assumption; try (rewrite <- H; exact Hk); apply H, Hk. }
    exists (R2 st'), m1', m2'. cbn [st2]. split; [exact Eb|]. split; [exact P5|]. split; [exact P1|]. split; [exact A2|].
    split; [exact B2|]. split; [exact (W _ _ _ X _ _ A3)|exact (W _ _ _ X _ _ B3)].
  Qed.
  Lemma without_again {V} P (m m' : bmap V) : without P m m' -> forall m'', without P m' m'' -> m'' = m'.
  Proof.
    induction 1 as [|k v m m' Hk W IH|k v m m' Hk W IH]; intros m'' W2.
    - inversion W2. reflexivity.
    - apply IH, W2.
    - inversion W2; subst; [contradiction|]. f_equal. apply IH. assumption.
  Qed.
  Lemma zero_not_upheld st c : accused c = u32_zero -> ~ upheld st c.
  Proof. intros H [A _]. contradiction. Qed.
End Report.

(** the returned keys are those registered for blamed indices; with distinct registered keys they say of every
    registered index whether it was blamed *)
Theorem C106_returned_keys_are_of_the_blamed :
  forall (S : Suite) (L : SuiteLaws S) (st : DkgState) (comms : bmap Vss) (shares : bmap SecretShare) (cs : list Complaint) keys s',
  ds_comms st = Some comms -> ds_shares st = Some shares -> blame (R2 st) cs = Ok (keys, s') ->
  (forall k, In k keys <-> exists j, convicted st cs j /\ bget j (ds_dhs st) = Some k) /\
  ((forall i j k, bget i (ds_dhs st) = Some k -> bget j (ds_dhs st) = Some k -> i = j) ->
   forall j k, bget j (ds_dhs st) = Some k -> (In k keys <-> convicted st cs j)).
Proof.
  intros S L st comms shares cs keys s' Hc Hs E.
  destruct (C22_blame_outcome S L st comms shares cs Hc Hs) as (l & keys0 & st' & Eb & Hl & _ & Hk & _).
  rewrite E in Eb. injection Eb as <- _.
  assert (X : forall k, In k keys <-> exists j, convicted st cs j /\ bget j (ds_dhs st) = Some k).
  { intros k. split.
    - intros H. destruct (keys_of_inv _ _ _ Hk k H) as (j & A & B). exists j. split; [apply Hl, A|exact B].
    - intros (j & A & B). exact (keys_of_in _ _ _ Hk j k (proj2 (Hl j) A) B). }
  split; [exact X|]. intros Hd j k Hj. rewrite X. split.
  - intros (i & A & B). rewrite (Hd j i k Hj B). exact A.
  - intros A. exists j. auto.
Qed.
Print Assumptions C106_returned_keys_are_of_the_blamed.

(** a blamed maker without a registered key is not reported: the call returns what it returns for no complaint.
    In a resharing the registered keys are those of the dealers, the makers are the new signers *)
Theorem C106_unregistered_makers_are_not_reported :
  forall (S : Suite) (L : SuiteLaws S) (st : DkgState) (comms : bmap Vss) (shares : bmap SecretShare) (cs : list Complaint),
  ds_comms st = Some comms -> ds_shares st = Some shares ->
  (forall c, In c cs -> ~ upheld st c /\ bget (maker c) (ds_dhs st) = None) ->
  (forall c, In c cs -> convicted st cs (maker c)) /\
  exists s' s0, blame (R2 st) cs = Ok ([], s') /\ blame (R2 st) [] = Ok ([], s0).
Proof.
  intros S L st comms shares cs Hc Hs H. split.
  - intros c Hin. exists c. split; [exact Hin|right; split; [apply H, Hin|reflexivity]].
  - pose proof (blame_eq st comms shares cs Hc Hs) as E1. pose proof (blame_eq st comms shares [] Hc Hs) as E2.
    do 2 eexists. split; [rewrite E1|rewrite E2; reflexivity]. f_equal. f_equal.
    destruct (lookup_all (ds_dhs st) (verdicts st cs)) as [|k ks] eqn:E; [reflexivity|exfalso].
    destruct (proj1 (proj1 (C106_returned_keys_are_of_the_blamed S L st comms shares cs _ _ Hc Hs E1) k)) as (j & (c & Hin & C) & B).
    { left. reflexivity. }
    destruct (H c Hin) as [U N]. destruct C as [[C _]|[_ ->]]; [contradiction|congruence].
Qed.
Print Assumptions C106_unregistered_makers_are_not_reported.

(** two indices with one key: the same value is returned whichever of them is blamed and removed *)
Theorem C106_shared_keys_are_ambiguous :
  forall (S : Suite) (L : SuiteLaws S) (st : DkgState) (comms : bmap Vss) (shares : bmap SecretShare) (i j : u32) (k : G) (vi vj : Vss)
         (c c' : Complaint),
  ds_comms st = Some comms -> ds_shares st = Some shares ->
  i <> j -> bget i (ds_dhs st) = Some k -> bget j (ds_dhs st) = Some k -> bget i comms = Some vi -> bget j comms = Some vj ->
  ~ upheld st c -> maker c = i -> ~ upheld st c' -> maker c' = j ->
  exists keys s s' m m',
    blame (R2 st) [c] = Ok (keys, s) /\ blame (R2 st) [c'] = Ok (keys, s') /\
    ds_comms (st2 s) = Some m /\ ds_comms (st2 s') = Some m' /\
    bget i m = None /\ bget j m = Some vj /\ bget i m' = Some vi /\ bget j m' = None.
Proof.
  intros S L st comms shares i j k vi vj c c' Hc Hs Hij Hi Hj Vi Vj U M U' M'.
  destruct (blame_rejected st comms shares c Hc Hs U) as (s & m & sh & E & _ & _ & Em & _ & W & _).
  destruct (blame_rejected st comms shares c' Hc Hs U') as (s' & m' & sh' & E' & _ & _ & Em' & _ & W' & _).
  rewrite M, Hi in E. rewrite M', Hj in E'. rewrite M in W. rewrite M' in W'.
  exists [k], s, s', m, m'. split; [exact E|]. split; [exact E'|]. split; [exact Em|]. split; [exact Em'|].
  split; [apply (without_bget _ _ _ W i); reflexivity|].
  split; [rewrite <- Vj; apply (without_bget _ _ _ W j); congruence|].
  split; [rewrite <- Vi; apply (without_bget _ _ _ W' i); exact Hij|].
  apply (without_bget _ _ _ W' j). reflexivity.
Qed.
Print Assumptions C106_shared_keys_are_ambiguous.

(** such keys pass round one: whoever knows a Diffie-Hellman secret can register it under any further index, with any
    polynomial, and meet every condition an honest dealer meets *)
Theorem C106_one_key_under_two_indices :
  forall (S : Suite) (L : SuiteLaws S) (p : Params) (j : u32) (x : F) (co : list F) (r : Rng),
  length co = N.to_nat (u32v (p_t p)) -> co <> [] -> exists d, fresh_dealer p j d co x.
Proof.
  intros S L p j x co r Hl Hne. destruct co as [|a co]; [contradiction|].
  exists (MkPart j (gen * x)%G (Some (MkVss j (committed (a :: co))))
            (Some (fst (nizk_prove j a (gen * a)%G r))) (fst (nizk_prove j x (gen * x)%G r))).
  constructor; cbn; try reflexivity.
  - exact Hl.
  - apply nizk_complete.
  - exists (fst (nizk_prove j a (gen * a)%G r)), a. split; [reflexivity|]. split; [reflexivity|]. apply nizk_complete.
Qed.
Print Assumptions C106_one_key_under_two_indices.

(** the same complaints a second time: now all their makers are blamed, whoever was right *)
Theorem C106_a_second_call_blames_every_maker :
  forall (S : Suite) (L : SuiteLaws S) (st : DkgState) (comms : bmap Vss) (shares : bmap SecretShare) (cs : list Complaint) keys s',
  ds_comms st = Some comms -> ds_shares st = Some shares -> blame (R2 st) cs = Ok (keys, s') ->
  (forall j, convicted (st2 s') cs j <-> exists c, In c cs /\ j = maker c) /\
  exists keys' s'', blame s' cs = Ok (keys', s'') /\ ds_dhs (st2 s') = ds_dhs st /\
    forall k, In k keys' <-> exists c, In c cs /\ bget (maker c) (ds_dhs st) = Some k.
Proof.
  intros S L st comms shares cs keys s' Hc Hs E.
  destruct (C23_blame_only_removes S L st comms shares cs _ _ Hc Hs E) as (A1 & _ & _ & _ & A5 & _ & m & sh & Em & Es & HB).
  assert (U : forall c, In c cs -> ~ upheld (st2 s') c).
  { intros c Hin X. assert (D : convicted st cs (accused c) -> False).
    { intros Y. apply HB in Y as [Y _]. destruct X as (_ & _ & m' & v & pk & X1 & X2 & _). congruence. }
    apply D. exists c. split; [exact Hin|]. left. split; [|reflexivity]. destruct X as (X1 & X2 & m' & v & pk & X3 & X4 & X5 & X6 & X7).
    rewrite A1 in X2. assert (m' = m) by congruence. subst m'. split; [exact X1|]. split; [exact X2|].
    exists comms, v, pk. split; [exact Hc|]. split; [rewrite <- X4; symmetry; apply HB; exact D|]. split; [|split; assumption].
    unfold registered in *. rewrite A5 in X5. exact X5. }
  assert (Q : forall j, convicted (st2 s') cs j <-> exists c, In c cs /\ j = maker c).
  { intros j. split.
    - intros (c & Hin & [[X _]|[_ ->]]); [destruct (U c Hin X)|exists c; auto].
    - intros (c & Hin & ->). exists c. split; [exact Hin|]. right. split; [apply U, Hin|reflexivity]. }
  split; [exact Q|]. destruct s' as [st']. cbn [st2] in *.
  destruct (C22_blame_outcome S L st' m sh cs Em Es) as (l & keys' & st2' & E2 & _).
  exists keys', (R2 st2'). split; [exact E2|]. split; [exact A5|]. intros k.
  rewrite (proj1 (C106_returned_keys_are_of_the_blamed S L st' m sh cs keys' _ Em Es E2) k), A5. split.
  - intros (j & X & Y). apply Q in X as (c & Hin & ->). exists c. auto.
  - intros (c & Hin & Y). exists (maker c). split; [apply Q; exists c; auto|exact Y].
Qed.
Print Assumptions C106_a_second_call_blames_every_maker.

(** so unjustified complaints are reported again, and nothing changes *)
Theorem C106_reported_again_without_effect :
  forall (S : Suite) (L : SuiteLaws S) (st : DkgState) (comms : bmap Vss) (shares : bmap SecretShare) (cs : list Complaint) keys s',
  ds_comms st = Some comms -> ds_shares st = Some shares -> (forall c, In c cs -> ~ upheld st c) ->
  blame (R2 st) cs = Ok (keys, s') -> blame s' cs = Ok (keys, s').
Proof.
  intros S L st comms shares cs keys s' Hc Hs U E.
  destruct (C106_a_second_call_blames_every_maker S L st comms shares cs keys s' Hc Hs E) as [Q _].
  destruct (C22_blame_outcome S L st comms shares cs Hc Hs) as (l & ks & st' & E' & Hl & Hsrt & Hk & HP).
  rewrite E in E'. injection E' as <- ->. cbn [st2] in *.
  pose proof HP as [P1 P2 P3 P4 P5 P6 (m0 & m & A1 & A2 & A3) (n0 & n & B1 & B2 & B3)].
  destruct (C22_blame_outcome S L st' m n cs A2 B2) as (l' & ks' & st2' & E2 & Hl' & Hsrt' & Hk' & HP').
  assert (X : forall j, convicted st cs j <-> convicted st' cs j).
  { intros j. rewrite Q. split.
    - intros (c & Hin & [[X _]|[_ ->]]); [destruct (U c Hin X)|exists c; auto].
    - intros (c & Hin & ->). exists c. split; [exact Hin|]. right. split; [apply U, Hin|reflexivity]. }
  assert (El : l' = l) by (apply increasing_unique; try assumption; intros j; rewrite Hl, Hl'; symmetry; apply X). subst l'.
  assert (Ek : ks' = keys).
  { clear - Hk Hk' P5. revert ks' Hk'. induction Hk as [|i l k ks X _ IH|i l ks X _ IH]; intros ks' H; inversion H; subst; rewrite ?P5 in *; try congruence; try (f_equal; [congruence|]); apply IH; assumption. }
  rewrite E2, Ek. do 3 f_equal.
  destruct HP' as [R1' R2' R3 R4 R5 R6 (m1 & m1' & C1 & C2 & C3) (n1 & n1' & D1 & D2 & D3)].
  assert (m1 = m) by congruence. assert (n1 = n) by congruence. subst m1 n1.
  assert (W : forall V (m m' : bmap V), without (convicted st' cs) m m' -> without (convicted st cs) m m').
  { intros V x x'. induction 1 as [|k v x x' Hx W IH|k v x x' Hx W IH]; constructor; try assumption; try (rewrite X; exact Hx); apply X, Hx. }
  apply W in C3, D3. apply (without_again _ _ _ A3) in C3. apply (without_again _ _ _ B3) in D3. subst m1' n1'.
  destruct st', st2'. cbn in *. congruence.
Qed.
Print Assumptions C106_reported_again_without_effect.

(** * Examples *)
(** participants 1 and 2 of the demo run, and a third that knows the secret of the second: accepted by round one *)
Definition twin : Participant :=
  MkPart (u 3) (pt_dh_pk (dealer 3 2 2 20)) (pt_comm (dealer 3 2 3 30)) (pt_sk_proof (dealer 3 2 3 30))
    (fst (nizk_prove (u 3) (dealer_x 3 2 2 20) (toy_gen * dealer_x 3 2 2 20)%G 77%N)).
Definition twin_ps : list Participant := [dealer 3 2 1 10; dealer 3 2 2 20; twin].
Definition twin_r1 (i : N) (x : F) : result (RoundOne * PartList * Rng) :=
  bootstrap Debug demo_params x (u i) (dealer_co 3 2 i (10 * i)) twin_ps (1000 + i)%N.
Definition twin_s1 (i : N) (x : F) : RoundOne := fst (fst (got (R1 no_state, MkPList [] None, 0%N) (twin_r1 i x))).
Definition twin_st : DkgState :=
  match to_round_two Debug (twin_s1 1 (dealer_x 3 2 1 10))
    (shares_to 1 [twin_s1 1 (dealer_x 3 2 1 10); twin_s1 2 (dealer_x 3 2 2 20); twin_s1 3 (dealer_x 3 2 2 20)]) 501%N with
  | Ok (s, _, _) => st2 s
  | _ => no_state
  end.
(** a complaint that names no dealer *)
Definition idle (maker : N) : Complaint :=
  MkComplaint (mk 0) (mk 0) (MkEnc (u 0) (u maker) (fst (gen_nonce 0%N)) []) (MkCProof (mk 0) (mk 0) (mk 0)).
Lemma C106_ex_twin :
  pl_mis (snd (fst (got (R1 no_state, MkPList [] None, 0%N) (twin_r1 1 (dealer_x 3 2 1 10))))) = None /\
  blamed_view twin_st [] = ([], [u 1; u 2; u 3], [u 1; u 2; u 3]) /\
  blamed_view twin_st [idle 2] = ([fv (pt_dh_pk (dealer 3 2 2 20))], [u 1; u 3], [u 1; u 3]) /\
  blamed_view twin_st [idle 3] = ([fv (pt_dh_pk (dealer 3 2 2 20))], [u 1; u 2], [u 1; u 2]) /\
  blamed_view twin_st [idle 9] = ([], [u 1; u 2; u 3], [u 1; u 2; u 3]).
Proof. vms. Qed.
(** the theorems apply to this session *)
Lemma twin_st_keys : exists comms shares k v2 v3, ds_comms twin_st = Some comms /\ ds_shares twin_st = Some shares /\
  bget (u 2) (ds_dhs twin_st) = Some k /\ bget (u 3) (ds_dhs twin_st) = Some k /\
  bget (u 2) comms = Some v2 /\ bget (u 3) comms = Some v3.
Proof.
  exists (match ds_comms twin_st with Some m => m | None => [] end), (match ds_shares twin_st with Some m => m | None => [] end),
    (pt_dh_pk (dealer 3 2 2 20)),
    (match pt_comm (dealer 3 2 2 20) with Some v => v | None => @MkVss Toy (u 0) [] end),
    (match pt_comm (dealer 3 2 3 30) with Some v => v | None => @MkVss Toy (u 0) [] end).
  vms.
Qed.
Example C106_ex : exists keys s s' m m',
  blame (R2 twin_st) [idle 2] = Ok (keys, s) /\ blame (R2 twin_st) [idle 3] = Ok (keys, s') /\
  ds_comms (st2 s) = Some m /\ ds_comms (st2 s') = Some m' /\ bget (u 2) m = None /\ bget (u 3) m' = None /\
  exists s2, blame (R2 twin_st) [idle 2] = Ok (keys, s2) /\ blame s2 [idle 2] = Ok (keys, s2).
Proof.
  destruct twin_st_keys as (comms & shares & k & v2 & v3 & Hc & Hs & K2 & K3 & V2 & V3).
  assert (Hne : u 2 <> u 3) by (intros E; apply (f_equal u32v) in E; discriminate E).
  assert (Z : forall i, ~ upheld twin_st (idle i)) by (intros i; apply zero_not_upheld; reflexivity).
  destruct (C106_shared_keys_are_ambiguous Toy ToyLaws twin_st comms shares (u 2) (u 3) k v2 v3 (idle 2) (idle 3) Hc Hs Hne K2 K3 V2 V3
    (Z 2%N) eq_refl (Z 3%N) eq_refl) as (keys & s & s' & m & m' & E & E' & A & A' & B1 & _ & _ & B4).
  destruct (blame_rejected twin_st comms shares (idle 2) Hc Hs (Z 2%N)) as (s2 & _ & _ & F1 & _). change (maker (idle 2)) with (u 2) in F1. rewrite K2 in F1.
  assert (U : forall c, In c [idle 2] -> ~ upheld twin_st c) by (intros ? [<-|[]]; apply Z).
  pose proof (C106_reported_again_without_effect Toy ToyLaws twin_st comms shares [idle 2] [k] s2 Hc Hs U F1) as F2.
  exists keys, s, s', m, m'. split; [exact E|]. split; [exact E'|]. split; [exact A|]. split; [exact A'|]. split; [exact B1|].
  split; [exact B4|]. assert (keys = [k]) by (rewrite E in F1; injection F1 as -> _; reflexivity). subst keys. exists s2. auto.
Qed.
Example C106_ex_silent : exists s' s0, blame (R2 twin_st) [idle 9] = Ok ([], s') /\ blame (R2 twin_st) [] = Ok ([], s0).
Proof.
  destruct twin_st_keys as (comms & shares & k & v2 & v3 & Hc & Hs & _).
  apply (C106_unregistered_makers_are_not_reported Toy ToyLaws twin_st comms shares [idle 9] Hc Hs).
  intros c [<-|[]]. split; [apply zero_not_upheld; reflexivity|]. vms.
Qed.
(** in the demo run the registered keys are distinct: the key of participant 2 is returned exactly if 2 is blamed *)
Lemma honest_dhs : ds_dhs (honest_st 1) =
  [(u 1, pt_dh_pk (dealer 3 2 1 10)); (u 2, pt_dh_pk (dealer 3 2 2 20)); (u 3, pt_dh_pk (dealer 3 2 3 30))].
Proof. vms. Qed.
Lemma honest_keys_differ :
  (fv (pt_dh_pk (dealer 3 2 1 10)) =? fv (pt_dh_pk (dealer 3 2 2 20)))%Z = false /\
  (fv (pt_dh_pk (dealer 3 2 1 10)) =? fv (pt_dh_pk (dealer 3 2 3 30)))%Z = false /\
  (fv (pt_dh_pk (dealer 3 2 2 20)) =? fv (pt_dh_pk (dealer 3 2 3 30)))%Z = false.
Proof. vms. Qed.
Example C106_ex_distinct : forall i j k, bget i (ds_dhs (honest_st 1)) = Some k -> bget j (ds_dhs (honest_st 1)) = Some k -> i = j.
Proof.
  rewrite honest_dhs. destruct honest_keys_differ as (D1 & D2 & D3). apply Z.eqb_neq in D1, D2, D3.
  generalize dependent (pt_dh_pk (dealer 3 2 1 10)). generalize dependent (pt_dh_pk (dealer 3 2 2 20)).
  generalize dependent (pt_dh_pk (dealer 3 2 3 30)). intros k3 k2 D3 k1 D1 D2 i j k. cbn [bget].
  destruct (u32_eqb i (u 1)) eqn:A1; [|destruct (u32_eqb i (u 2)) eqn:A2; [|destruct (u32_eqb i (u 3)) eqn:A3]];
  (destruct (u32_eqb j (u 1)) eqn:B1; [|destruct (u32_eqb j (u 2)) eqn:B2; [|destruct (u32_eqb j (u 3)) eqn:B3]]);
  intros H1 H2; repeat match goal with H : u32_eqb _ _ = true |- _ => apply u32_eqb_spec in H end;
  first [congruence|exfalso; assert (X : Some k = Some k) by reflexivity; congruence].
Qed.
(** a justified complaint of participant 3 against participant 2, settled twice: first 2 is blamed, then 3 *)
Example C106_ex_twice :
  blamed_view (honest_st 1) [victim_c 2 3] = ([fv (pt_dh_pk (dealer 3 2 2 20))], [u 1; u 3], [u 1; u 3]) /\
  (match blame (R2 (honest_st 1)) [victim_c 2 3] with Ok (_, s) => blamed_view (st2 s) [victim_c 2 3] | _ => ([], [], []) end) =
    ([fv (pt_dh_pk (dealer 3 2 3 30))], [u 1], [u 1]).
Proof. vms. Qed.
