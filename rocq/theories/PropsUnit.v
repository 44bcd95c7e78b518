(** C132: the helper do_keygen of the unit tests and the unit tests built on it succeed for all numbers of participants, with
    every generator; the test of the Lagrange coefficients does not show what it names. *)
From Coq Require Import String Strings.Byte Arith NArith ZArith Bool List Lia Permutation Field Sorting.Sorted.
From Verif Require Import Base BaseLemmas Suite Algebra Spec Types Toy ModelDkg ModelSign ModelDoc ModelTests ModelUnit SpecDkg SpecSign
  LemmasShare LemmasRound1 LemmasRound2 LemmasFinish PropsShare PropsFinish PropsReshare LemmasSign PropsSign LemmasAgg PropsAgg
  PropsDoc Demo DemoDkg DemoSign.
Import ListNotations.

Section Unit.
  Context {S : Suite} {L : SuiteLaws S}.
  Add Field F_fld : F_field.

  Lemma plus_zero x : (F0 + x = x)%F.
  Proof. ring. Qed.
  Lemma number_inj a b : (N.of_nat a < 4294967296)%N -> (N.of_nat b < 4294967296)%N ->
    u32_of_N (N.of_nat a) = u32_of_N (N.of_nat b) -> a = b.
  Proof. intros Ha Hb E. apply (f_equal u32v) in E. rewrite !u32_of_N_small in E by assumption. lia. Qed.
  Lemma numbers_nodup a k : (N.of_nat (a + k) <= 4294967296)%N -> NoDup (map (fun k => u32_of_N (N.of_nat k)) (seq a k)).
  Proof.
    intros H. assert (X : forall l : list nat, (forall x, In x l -> (N.of_nat x < 4294967296)%N) -> NoDup l -> NoDup (map (fun k => u32_of_N (N.of_nat k)) l)).
    { clear. induction l as [|x l IH]; intros Hb Hn; cbn [map]; constructor; inversion Hn; subst.
      - intros Hi. apply in_map_iff in Hi. destruct Hi as (y & E & Hy). apply number_inj in E; [subst; contradiction| |]; apply Hb; [right; exact Hy|left; reflexivity].
      - apply IH; [intros y Hy; apply Hb; right; exact Hy|assumption]. }
    apply X; [|apply seq_NoDup]. intros x Hx. apply in_seq in Hx. lia.
  Qed.
  Lemma unit_ids_good n : good_indices (unit_ids n) /\ N.of_nat (length (unit_ids n)) = u32v n.
  Proof.
    pose proof (u32_bound n) as Hb. change 4294967296%N with (2 ^ 32)%N in Hb. unfold unit_ids.
    assert (Hb' : (u32v n < 4294967296)%N) by exact Hb. split; [split|].
    - destruct (N.eq_dec (u32v n) 4294967295) as [E|E]; [rewrite E|]; apply numbers_nodup; lia.
    - intros H. apply in_map_iff in H. destruct H as (k & E & Hk). apply in_seq in Hk. apply (f_equal u32v) in E.
      rewrite u32_of_N_small in E by lia. change (u32v u32_zero) with 0%N in E. lia.
    - rewrite map_length, seq_length. lia.
  Qed.
  Lemma each_ext {A B} (f g : A -> Rng -> result (B * Rng)) l : (forall a r, In a l -> f a r = g a r) -> forall r, each f l r = each g l r.
  Proof.
    induction l as [|a l IH]; intros H r; cbn [each]; [reflexivity|]. rewrite (H a r) by (left; reflexivity).
    destruct (g a r) as [[b r1]|e|]; cbn [bind]; [|reflexivity|reflexivity]. rewrite IH by (intros; apply H; right; assumption). reflexivity.
  Qed.
  Lemma unit_dealer_eq params i r : (1 <= u32v (p_t params))%N -> i <> u32_zero -> unit_dealer params i r = new_dealer params i r.
  Proof.
    intros Ht Hi. unfold unit_dealer. destruct (new_dealer params i r) as [[[[p co] x] r']|e|] eqn:E; cbn [bind]; [|reflexivity|reflexivity].
    destruct (new_dealer_inv _ _ _ _ _ _ _ Hi Ht E) as [A _ _ C _ (pr & a0 & D & F & V)].
    rewrite D. cbn [unwrap bind]. unfold part_public_key. rewrite C. destruct co as [|a co]; [discriminate F|]. injection F as ->.
    cbn [committed map vss_public_key vss_points hd_error unwrap bind]. rewrite A, V. reflexivity.
  Qed.
  Lemma same_key_inv gk outs x : doc_same_key gk outs = Ok x -> forall o, In o outs -> fst o = gk.
  Proof.
    unfold doc_same_key. revert x. induction outs as [|o outs IH]; intros x H; [intros ? []|]. cbn [traverse] in H.
    destruct (Geqb (fst o) gk) eqn:E; cbn [assert_true bind] in H; [|discriminate H]. apply Geqb_spec in E.
    destruct (traverse _ outs) as [bs|e|]; cbn [bind] in H, IH; [|discriminate H|discriminate H].
    intros o' [<-|Ho]; [exact E|]. eapply IH; [reflexivity|exact Ho].
  Qed.
  (** the first group *)
  Lemma unit_first m n t r : (1 <= u32v t <= u32v n)%N ->
    exists ds r1 ss r2 outs r3 o s, each (unit_dealer (MkParams n t)) (unit_ids n) r = Ok (ds, r1) /\
      each (doc_round_one m (MkParams n t) (map (fun d => fst (fst d)) ds)) ds r1 = Ok (ss, r2) /\
      doc_session m (unit_ids n) (map fst ss) (map snd ss) r2 = Ok (outs, r3) /\ nth_error outs 0 = Some o /\
      doc_same_key (fst o) outs = Ok tt /\ fst o = (gen * s)%G /\ holders (unit_ids n) (N.to_nat (u32v t)) s outs.
  Proof.
    intros Ht. destruct (unit_ids_good n) as [Hg Hn].
    destruct (C107_documented_key_generation S L m n t (unit_ids n) r Hg Hn Ht) as (ps & outs & r' & s & E & Ei & HO & _).
    unfold doc_generation in E. rewrite params_ok in E by exact Ht. cbn [bind] in E.
    rewrite <- (each_ext (unit_dealer (MkParams n t))) in E.
    2:{ intros i r0 Hi. apply unit_dealer_eq; [apply Ht|]. intros ->. apply Hg, Hi. }
    destruct (each (unit_dealer (MkParams n t)) (unit_ids n) r) as [[ds r1]|e|]; cbn [bind] in E; [|discriminate E|discriminate E].
    destruct (each (doc_round_one m (MkParams n t) (map (fun d => fst (fst d)) ds)) ds r1) as [[ss r2]|e|] eqn:E2; cbn [bind] in E; [|discriminate E|discriminate E].
    destruct (doc_session m (map pt_index (map (fun d => fst (fst d)) ds)) (map fst ss) (map snd ss) r2) as [[outs1 r3]|e|] eqn:E3;
      cbn [bind] in E; [|discriminate E|discriminate E].
    destruct (doc_same_key (last (map fst outs1) Gzero) outs1) as [x|e|]; cbn [bind] in E; [|discriminate E|discriminate E].
    injection E as Eps -> ->. rewrite Eps, Ei in E3.
    destruct outs as [|o outs].
    - exfalso. destruct HO as (HO & _). cbn in HO. rewrite <- HO in Hn. cbn in Hn. lia.
    - exists ds, r1, ss, r2, (o :: outs), r', o, s. pose proof HO as (_ & _ & HK).
      assert (Eo : fst o = (gen * s)%G) by (apply HK; left; reflexivity).
      split; [reflexivity|]. split; [exact E2|]. split; [exact E3|]. split; [reflexivity|]. split; [|split; assumption].
      apply same_key_ok. intros o' Ho'. rewrite Eo. apply HK, Ho'.
  Qed.

  Lemma unit_sum_eq indices : good_indices indices -> forall keys acc,
    unit_sum indices keys acc = Ok (acc + fsum (map (fun k => sk_key k * weight (sk_index k) indices) keys))%F.
  Proof.
    intros Hg. induction keys as [|k keys IH]; intros acc; cbn [unit_sum map fsum].
    - f_equal. ring.
    - rewrite lagrange_ok by exact Hg. cbn [bind]. rewrite IH. f_equal. ring.
  Qed.

  (** the inclusions of a list of key holders, all of whose indices are in a list that is not too long *)
  Definition inclusion (x : SigningKey * (PublicList * SecretList)) : ACall * result unit :=
    (CInc (sk_index (fst x)) (hd (Gzero, Gzero) (pl_commitments (fst (snd x)))) (to_public (fst x)), Ok tt).
  Lemma unit_include_all_run p gk msg K xs : (N.of_nat (length K) <= u32v (p_n p))%N -> forall tr a,
    agg_run (agg_new p gk msg) tr a -> (forall i com pk o, In (CInc i com pk, o) tr -> In i K) ->
    (forall x, In x xs -> In (sk_index (fst x)) K /\ pl_commitments (fst (snd x)) <> []) ->
    exists a', unit_include_all a xs = Ok a' /\ agg_run (agg_new p gk msg) (tr ++ map inclusion xs) a'.
  Proof.
    intros HK. induction xs as [|x xs IH]; intros tr a HR HT HX.
    - exists a. rewrite app_nil_r. split; [reflexivity|exact HR].
    - destruct (HX x (or_introl eq_refl)) as [Hi Hc]. cbn [unit_include_all map].
      set (com := hd (Gzero, Gzero) (pl_commitments (fst (snd x)))).
      assert (Ec : nth_error (pl_commitments (fst (snd x))) 0 = Some com).
      { unfold com. destruct (pl_commitments (fst (snd x))); [congruence|reflexivity]. }
      unfold unit_include. rewrite Ec. cbn [unwrap bind].
      destruct (include_signer a (sk_index (fst x)) com (to_public (fst x))) as [o a1] eqn:EI.
      assert (HR1 : agg_run (agg_new p gk msg) (tr ++ [(CInc (sk_index (fst x)) com (to_public (fst x)), o)]) a1).
      { apply agg_run_app. exists a. split; [exact HR|]. econstructor; [exact EI|constructor]. }
      assert (HT1 : forall i com' pk o', In (CInc i com' pk, o') (tr ++ [(CInc (sk_index (fst x)) com (to_public (fst x)), o)]) -> In i K).
      { intros i com' pk o' H. apply in_app_or in H. destruct H as [H|[H|[]]]; [eapply HT, H|]. injection H as <- _ _ _. exact Hi. }
      destruct (C46_state_after_any_history S L p gk msg _ _ HR1) as (_ & _ & _ & Has & Hfp & _).
      assert (HL : length (ag_signers (ai_state a1)) <= length K).
      { rewrite <- (map_length sg_index). apply NoDup_incl_length; [apply increasing_NoDup; exact Has|]. intros i H. apply in_map_iff in H.
        destruct H as ([i' com'] & <- & H). cbn [sg_index]. apply Hfp in H. destruct H as (l1 & P & o' & l2 & E & _).
        eapply HT1. rewrite E. apply in_or_app. right. left. reflexivity. }
      assert (Eo : o = Ok tt).
      { destruct (C46_state_after_any_history S L p gk msg _ _ HR) as (Ep & _).
        destruct (include_signer_cases a (sk_index (fst x)) com (to_public (fst x))) as [(Y & _)|(_ & l & El & [(Y & E)|(Y & E)])];
          [destruct (Y eq_refl)| |]; rewrite E in EI; injection EI as <- <-; [|reflexivity].
        cbn [set_signers ai_state ag_signers] in HL. rewrite Ep in Y. lia. }
      subst o. destruct (IH _ _ HR1 HT1) as (a' & E & HR'); [intros y Hy; apply HX; right; exact Hy|].
      exists a'. split; [exact E|]. rewrite <- app_assoc in HR'. exact HR'.
  Qed.

  (** signing, from keys that recover the secret *)
  Lemma unit_signing_ok m params keys s chosen message r :
    recovers (N.to_nat (u32v (p_t params))) s keys -> (N.of_nat (length keys) <= u32v (p_n params))%N -> (1 <= u32v (p_t params))%N ->
    NoDup chosen -> (forall k, In k chosen -> k < length keys) -> N.to_nat (u32v (p_t params)) <= length chosen ->
    exists sig r', unit_signing m params keys (gen * s)%G chosen message r = Ok (sig, r') /\ verify_signature (gen * s)%G sig (h4 message) = Ok tt.
  Proof.
    intros HR Hn Ht Hnd Hlt Hlen. unfold unit_signing.
    destruct (traverse_ok (fun k k' => k = k' /\ In k chosen) (fun k key => nth_error keys k = Some key) (fun k => unwrap (nth_error keys k)) chosen chosen)
      as (ks & E0 & H0).
    { apply forall2_self. auto. }
    { intros k k' [<- Hk]. specialize (Hlt k Hk). destruct (nth_error keys k) as [key|] eqn:E; [|apply nth_error_None in E; lia]. exists key. auto. }
    rewrite E0. cbn [bind].
    assert (Hks : forall k, In k ks -> In k keys).
    { intros k Hk. destruct (forall2_in_r _ _ _ H0 k Hk) as (c & _ & E). apply nth_error_In in E. exact E. }
    destruct (each_ok (fun o o' => o = o' /\ In o ks)
      (fun (o : SigningKey) (x : PublicList * SecretList) => In o keys /\ exists r r', generate_commitment_share_lists r o 1 = (fst x, snd x, r'))
      (fun o r => Ok (generate_commitment_share_lists r o 1)) ks ks r) as (lists & r1 & E1 & HL).
    { apply forall2_self. auto. }
    { intros o o' r0 [<- Ho]. destruct (generate_commitment_share_lists r0 o 1) as [[pub sec] r'] eqn:E.
      exists (pub, sec), r'. split; [reflexivity|]. split; [apply Hks, Ho|]. exists r0, r'. exact E. }
    rewrite E1. cbn [bind].
    assert (HG : exists gs, map (fun g => (pc_key g, (pc_pub g, pc_sec g))) gs = combine ks lists /\ map (fun g => pc_key g) gs = ks /\
       forall g, In g gs -> pc_pos g = 0%N /\ pl_index (pc_pub g) = sk_index (pc_key g) /\ In (pc_key g) keys /\ precomputed g).
    { clear -HL L. induction HL as [|key [pub sec] ks0 lists (B & r & r' & E) _ (gs & X & X2 & Y)]; [exists []; cbn; split; [reflexivity|]; split; [reflexivity|intros ? []]|].
      cbn [fst snd] in *. destruct (C37_lists_are_consistent S L r key 1) as (pub' & sec' & r2 & E' & I & L1 & L2 & _).
      rewrite E in E'. injection E' as <- <- <-. destruct (pl_commitments pub) as [|pair rest] eqn:Ep; [discriminate L2|].
      exists (MkPre S key pub sec 0%N pair :: gs). cbn [map pc_key pc_pub pc_sec combine]. rewrite X, X2. split; [reflexivity|]. split; [reflexivity|].
      intros g [<-|Hg]; [|apply Y, Hg]. cbn [pc_pos pc_key pc_pub pc_sec]. split; [reflexivity|]. split; [exact I|]. split; [exact B|].
      split; [exists r, 1, r'; exact E|]. split; [cbn; lia|]. cbn [pc_pub pc_pos pc_pair]. rewrite Ep. reflexivity. }
    destruct HG as (gs & Eg & Ek & HG).
    assert (Lks : length ks = length chosen) by (clear -H0; induction H0; cbn; congruence).
    assert (Lgs : length gs = length chosen) by (rewrite <- Lks, <- Ek, map_length; reflexivity).
    assert (Hndg : NoDup (map (fun g => sk_index (pc_key g)) gs)).
    { assert (EM : map (fun g => sk_index (pc_key g)) gs = map sk_index ks) by (rewrite <- Ek, map_map; reflexivity).
      rewrite EM. destruct HR as [[Hids _] _]. clear -H0 Hnd Hids.
      induction H0 as [|k x chosen xs A HX IH]; cbn [map]; constructor; inversion Hnd as [|? ? N1 N2]; subst.
      - intros H. apply in_map_iff in H. destruct H as (y & Ey & Hy). destruct (forall2_in_r _ _ _ HX y Hy) as (k' & Hk' & A').
        apply N1. assert (k = k'); [|subst; exact Hk']. eapply NoDup_nth_error; [exact Hids| |].
        + rewrite map_length. apply nth_error_Some. rewrite A. discriminate.
        + rewrite !nth_error_map, A, A'. cbn. congruence.
      - apply IH, N2. }
    destruct (C43_with_precomputed_lists S L m params message (N.to_nat (u32v (p_t params))) s keys gs HR) as (a1 & ps & R1' & R2' & R3').
    { lia. } { rewrite Lgs. exact Hlen. }
    { rewrite Lgs. assert (length chosen <= length keys); [|lia].
      rewrite <- (seq_length (length keys) 0). apply NoDup_incl_length; [exact Hnd|]. intros k Hk. apply in_seq. specialize (Hlt k Hk). lia. }
    { intros g Hg. destruct (HG g Hg) as (_ & _ & A & B). split; [exact A|exact B]. }
    { exact Hndg. }
    rewrite <- Eg.
    assert (EI : unit_include_all (agg_new params (gen * s)%G message) (map (fun g => (pc_key g, (pc_pub g, pc_sec g))) gs) = Ok a1).
    { clear -R1' HG. revert R1'. generalize (agg_new params (gen * s)%G message). induction gs as [|g gs IH]; intros a H; cbn [map] in H.
      - inversion H; subst. reflexivity.
      - cbn [map unit_include_all]. destruct (HG g (or_introl eq_refl)) as (P0 & I & _ & (_ & _ & Hnth)). rewrite P0 in Hnth. cbn [N.to_nat] in Hnth.
        unfold unit_include at 1. cbn [fst snd]. rewrite Hnth. cbn [unwrap bind].
        inversion H as [|x i com pk o x1 tr x3 HI HRun|]; subst. rewrite <- I, HI. cbn [bind]. apply IH; [|exact HRun].
        intros g' Hg'. apply HG. right; exact Hg'. }
    rewrite EI. cbn [bind].
    assert (EP : traverse (fun x : SigningKey * (PublicList * SecretList) => unit_unwrap (fst (sign m (fst x) (h4 message) (gen * s)%G (snd (snd x)) 0 (ag_signers (ai_state a1)))))
        (map (fun g => (pc_key g, (pc_pub g, pc_sec g))) gs) = Ok ps).
    { clear -R2' HG. induction R2' as [|g q gs ps E _ IH]; [reflexivity|]. cbn [map traverse fst snd].
      destruct (HG g (or_introl eq_refl)) as (P0 & _). rewrite P0 in E. rewrite E. cbn [unit_unwrap bind].
      rewrite IH by (intros g' Hg'; apply HG; right; exact Hg'). reflexivity. }
    rewrite EP. cbn [bind].
    destruct (R3' ps (Permutation_refl _)) as (a2 & f & sig & B1 & B2 & B3 & B4).
    assert (EA : fold_left include_partial_signature ps a1 = a2).
    { clear -B1. unfold deliver in B1. revert a1 B1. induction ps as [|q ps IH]; intros a H; cbn [map] in H; inversion H; subst; [reflexivity|].
      cbn [fold_left]. apply IH. assumption. }
    rewrite EA, B2. cbn [unit_unwrap bind]. rewrite B3. cbn [unit_unwrap bind].
    change (sig_verify sig (gen * s)%G (h4 message)) with (verify_signature (gen * s)%G sig (h4 message)).
    rewrite B4. cbn [test_is_ok bind]. exists sig, r1. split; [reflexivity|exact B4].
  Qed.
End Unit.

(** a group made by the helper: the numbers asked for, keys at the indices 1..n, any t of which recover the secret of gk *)
Definition group_of {S : Suite} (gk : G) (n t : u32) (g : Params * list SigningKey) : Prop :=
  fst g = MkParams n t /\ map (fun k => u32v (sk_index k)) (snd g) = map N.of_nat (seq 1 (N.to_nat (u32v n))) /\
  exists s, gk = (gen * s)%G /\ recovers (N.to_nat (u32v t)) s (snd g).
(** what a call of the helper with impossible numbers gives *)
Definition impossible {S : Suite} {A} (m : build) : result A := match m with Release => Err InvalidThresholdParams | Debug => Panic end.

Lemma unit_ids_numbers n : map u32v (unit_ids n) = map N.of_nat (seq 1 (N.to_nat (u32v n))).
Proof.
  unfold unit_ids. rewrite map_map. apply map_ext_in. intros k Hk. apply in_seq in Hk. pose proof (u32_bound n) as Hb.
  apply u32_of_N_small. change 4294967296%N with 4294967296%N in Hb. lia.
Qed.
Lemma holders_group {S : Suite} n t s outs : holders (unit_ids n) (N.to_nat (u32v t)) s outs -> group_of (gen * s)%G n t (MkParams n t, map snd outs).
Proof.
  intros (A & B & C). split; [reflexivity|]. cbn [snd]. split; [|exists s; split; [reflexivity|exact B]].
  rewrite map_map. rewrite <- unit_ids_numbers, <- A, map_map. reflexivity.
Qed.

Theorem C132_do_keygen_exact :
  forall (S : Suite) (L : SuiteLaws S) (m : build) (n t : u32) (n2 t2 : option u32) (r : Rng),
  (~ (1 <= u32v t <= u32v n)%N -> unit_keygen m n t n2 t2 r = impossible m) /\
  ((1 <= u32v t <= u32v n)%N ->
    (forall n' t', n2 = Some n' -> t2 = Some t' -> ~ (1 <= u32v t' <= u32v n')%N -> unit_keygen m n t n2 t2 r = impossible m) /\
    (forall n' t', n2 = Some n' -> t2 = Some t' -> (1 <= u32v t' <= u32v n')%N ->
      exists params keys gk new r', unit_keygen m n t n2 t2 r = Ok (params, keys, gk, Some new, r') /\
        group_of gk n t (params, keys) /\ group_of gk n' t' new) /\
    (n2 = None \/ t2 = None ->
      exists params keys gk r', unit_keygen m n t n2 t2 r = Ok (params, keys, gk, None, r') /\ group_of gk n t (params, keys))).
Proof.
  intros S L m n t n2 t2 r. split.
  - intros H. unfold unit_keygen. rewrite (proj2 (C01_params_new_exact S m n t) H). destruct m; reflexivity.
  - intros H. destruct (unit_first m n t r H) as (ds & r1 & ss & r2 & outs & r3 & o & s & E1 & E2 & E3 & E4 & E5 & E6 & HO).
    unfold unit_keygen. rewrite params_ok by exact H. cbn [bind]. rewrite E1. cbn [bind]. rewrite E2. cbn [bind]. rewrite E3. cbn [bind].
    rewrite E4. cbn [unwrap bind]. rewrite E5. cbn [bind]. rewrite E6. pose proof (holders_group n t s outs HO) as HG. split; [|split].
    + intros n' t' -> -> H'. unfold unit_reshare. rewrite (proj2 (C01_params_new_exact S m n' t') H'). destruct m; reflexivity.
    + intros n' t' -> -> H'. destruct (unit_ids_good n) as [Hg Hn]. destruct (unit_ids_good n') as [Hg' Hn'].
      destruct (C107_documented_resharing S L m (MkParams n t) outs (unit_ids n) s n' t' (unit_ids n') r3 HO Hn H Hg' Hn' H') as (outs' & r' & E & HO').
      change (unit_reshare m (MkParams n t) outs n' t' r3) with (doc_resharing m (MkParams n t) outs n' t' (unit_ids n') r3).
      rewrite E. cbn [bind]. do 5 eexists. split; [reflexivity|]. split; [exact HG|]. apply holders_group, HO'.
    + intros X. destruct n2 as [n'|]; [destruct t2 as [t'|]; [destruct X; discriminate|]|]; do 4 eexists; (split; [reflexivity|exact HG]).
Qed.
Print Assumptions C132_do_keygen_exact.

Theorem C132_keygen_test_passes :
  forall (S : Suite) (L : SuiteLaws S) (m : build) (n t : u32) (r : Rng),
  (1 <= u32v t <= u32v n)%N -> unit_keygen_test m n t r = Ok tt.
Proof.
  intros S L m n t r H. unfold unit_keygen_test.
  destruct (proj2 (C132_do_keygen_exact S L m n t None None r) H) as (_ & _ & X).
  destruct X as (params & keys & gk & r' & E & (_ & Ei & s & -> & HR)); [left; reflexivity|]. cbn [fst snd] in *.
  rewrite E. cbn [unit_unwrap bind]. destruct (unit_ids_good n) as [Hg Hn]. rewrite unit_sum_eq by exact Hg. cbn [unit_unwrap bind].
  assert (Ek : map sk_index keys = unit_ids n).
  { assert (X : map u32v (map sk_index keys) = map u32v (unit_ids n)) by (rewrite map_map, Ei, unit_ids_numbers; reflexivity).
    clear -X. revert X. generalize (unit_ids n). generalize (map sk_index keys). intros l. induction l as [|a l IH]; intros [|b l'] X; try discriminate X; [reflexivity|].
    cbn [map] in X. injection X as X1 X2. apply u32_ext in X1. rewrite X1, (IH _ X2). reflexivity. }
  assert (ES : interp0 (key_points keys) = s).
  { destruct HR as [[HN _] HR]. apply HR; [auto|exact HN|]. rewrite <- (map_length sk_index), Ek. lia. }
  rewrite <- ES. unfold interp0, key_points. rewrite !map_map. cbn [fst snd]. rewrite <- Ek.
  match goal with |- context [(F0 + ?x)%F] => replace (F0 + x)%F with x end.
  - rewrite Geqb_refl. reflexivity.
  - symmetry. apply plus_zero.
Qed.
Print Assumptions C132_keygen_test_passes.

(** the numbers and positions of a signing test: enough different positions of existing keys *)
Definition quorum (n t : u32) (chosen : list nat) : Prop :=
  (1 <= u32v t <= u32v n)%N /\ NoDup chosen /\ (forall k, In k chosen -> (N.of_nat k < u32v n)%N) /\ (u32v t <= N.of_nat (length chosen))%N.

Lemma group_signs {S : Suite} {L : SuiteLaws S} m gk n t params keys chosen message r :
  group_of gk n t (params, keys) -> quorum n t chosen ->
  exists sig r', unit_signing m params keys gk chosen message r = Ok (sig, r') /\ verify_signature gk sig (h4 message) = Ok tt.
Proof.
  intros (E & Ei & s & -> & HR) (Ht & Hnd & Hlt & Hlen). cbn [fst snd] in *. subst params.
  assert (Hk : length keys = N.to_nat (u32v n)).
  { apply (f_equal (@length N)) in Ei. rewrite !map_length, seq_length in Ei. exact Ei. }
  apply unit_signing_ok; cbn [p_n p_t]; try assumption; try lia.
  intros k Hin. specialize (Hlt k Hin). lia.
Qed.

Theorem C132_signing_tests_pass :
  forall (S : Suite) (L : SuiteLaws S) (m : build) (n t : u32) (chosen : list nat) (next : option (u32 * u32 * list nat))
         (message : list byte) (r : Rng),
  quorum n t chosen -> (forall n' t' chosen', next = Some (n', t', chosen') -> quorum n' t' chosen') ->
  exists gk sig sig', unit_signing_test m n t chosen next message r = Ok (gk, sig, sig') /\
    verify_signature gk sig (h4 message) = Ok tt /\
    (next = None -> sig' = None) /\
    (next <> None -> exists x, sig' = Some x /\ verify_signature gk x (h4 message) = Ok tt).
Proof.
  intros S L m n t chosen next message r H H'. unfold unit_signing_test. destruct next as [[[n' t'] chosen']|].
  - specialize (H' _ _ _ eq_refl).
    destruct (proj2 (C132_do_keygen_exact S L m n t (Some n') (Some t') r) (proj1 H)) as (_ & X & _).
    destruct (X n' t' eq_refl eq_refl (proj1 H')) as (params & keys & gk & [params' keys'] & r1 & E & G1 & G2). rewrite E. cbn [unit_unwrap bind].
    destruct (group_signs m gk n t params keys chosen message r1 G1 H) as (sig & r2 & E1 & V1). rewrite E1. cbn [bind].
    destruct (group_signs m gk n' t' params' keys' chosen' message r2 G2 H') as (sig' & r3 & E2 & V2). rewrite E2. cbn [bind].
    exists gk, sig, (Some sig'). split; [reflexivity|]. split; [exact V1|]. split; [discriminate|]. intros _. exists sig'. auto.
  - destruct (proj2 (C132_do_keygen_exact S L m n t None None r) (proj1 H)) as (_ & _ & X).
    destruct X as (params & keys & gk & r1 & E & G1); [left; reflexivity|]. rewrite E. cbn [unit_unwrap bind].
    destruct (group_signs m gk n t params keys chosen message r1 G1 H) as (sig & r2 & E1 & V1). rewrite E1. cbn [bind].
    exists gk, sig, None. split; [reflexivity|]. split; [exact V1|]. split; [reflexivity|]. intros X. destruct (X eq_refl).
Qed.
Print Assumptions C132_signing_tests_pass.

(** a unit test passes or panics, whatever its numbers: no error gets out of it *)
Definition settled {S : Suite} {A} (x : result A) : Prop := x = Panic \/ exists a, x = Ok a.
Section Settled.
  Context {S : Suite} {L : SuiteLaws S}.
  Lemma settled_bind {A B} (x : result A) (f : A -> result B) : settled x -> (forall a, settled (f a)) -> settled (bind x f).
  Proof. intros [->|(a & ->)] H; cbn [bind]; [left; reflexivity|apply H]. Qed.
  Lemma settled_ok {A} (a : A) : settled (Ok a).
  Proof. right. eauto. Qed.
  Lemma settled_unwrap {A} (o : option A) : settled (unwrap o).
  Proof. destruct o; [apply settled_ok|left; reflexivity]. Qed.
  Lemma settled_unit {A} (x : result A) : settled (unit_unwrap x).
  Proof. destruct x; [apply settled_ok|left; reflexivity|left; reflexivity]. Qed.
  Lemma settled_test {A} (x : result A) : settled (test_is_ok x).
  Proof. destruct x; [apply settled_ok|left; reflexivity|left; reflexivity]. Qed.
  Lemma settled_traverse {A B} (f : A -> result B) l : (forall a, settled (f a)) -> settled (traverse f l).
  Proof.
    intros H. induction l as [|a l IH]; cbn [traverse]; [apply settled_ok|]. apply settled_bind; [apply H|]. intros b.
    apply settled_bind; [exact IH|]. intros bs. apply settled_ok.
  Qed.
  Lemma settled_each {A B} (f : A -> Rng -> result (B * Rng)) l : (forall a r, settled (f a r)) -> forall r, settled (each f l r).
  Proof.
    intros H. induction l as [|a l IH]; intros r; cbn [each]; [apply settled_ok|]. apply settled_bind; [apply H|]. intros [b r1].
    apply settled_bind; [apply IH|]. intros [bs r2]. apply settled_ok.
  Qed.
  Lemma settled_include a x : settled (unit_include a x).
  Proof.
    unfold unit_include. apply settled_bind; [apply settled_unwrap|]. intros com. destruct (include_signer _ _ _ _) as [[u0|e|] a'];
      [apply settled_ok|left; reflexivity|left; reflexivity].
  Qed.
  Lemma settled_include_all l : forall a, settled (unit_include_all a l).
  Proof. induction l as [|x l IH]; intros a; cbn [unit_include_all]; [apply settled_ok|]. apply settled_bind; [apply settled_include|exact IH]. Qed.
  Lemma settled_signing m params keys gk chosen message r : settled (unit_signing m params keys gk chosen message r).
  Proof.
    unfold unit_signing. apply settled_bind; [apply settled_traverse; intros k; apply settled_unwrap|]. intros ks.
    apply settled_bind; [apply settled_each; intros k r0; apply settled_ok|]. intros [lists r1]. cbv zeta.
    apply settled_bind; [apply settled_include_all|]. intros a. cbv zeta.
    apply settled_bind; [apply settled_traverse; intros x; apply settled_unit|]. intros ps. cbv zeta.
    apply settled_bind; [apply settled_unit|]. intros f. apply settled_bind; [apply settled_unit|]. intros sig.
    apply settled_bind; [apply settled_test|]. intros _. apply settled_bind; [apply settled_test|]. intros _. apply settled_ok.
  Qed.
End Settled.
Theorem C132_tests_pass_or_panic :
  forall (S : Suite) (L : SuiteLaws S) (m : build) (n t : u32) (chosen : list nat) (next : option (u32 * u32 * list nat))
         (message : list byte) (r : Rng) (params : Params) (keys : list SigningKey) (order : list nat) (gk : G) (k : SigningKey) (len pos : nat)
         (i2 i3 i4 v : u32) (num : nat),
  settled (unit_keygen_test m n t r) /\ settled (unit_signing_test m n t chosen next message r) /\
  settled (unit_signers params keys order gk message r) /\ settled (unit_drop k len pos r) /\ settled (unit_lagrange i2 i3 i4 num pos v).
Proof.
  intros S L m n t chosen next message r params keys order gk k len pos i2 i3 i4 v num. split; [|split; [|split; [|split]]].
  - unfold unit_keygen_test. apply settled_bind; [apply settled_unit|]. intros [[[[p0 ks] g] nw] r0].
    apply settled_bind; [apply settled_unit|]. intros s. unfold assert_true. destruct (Geqb _ _); [apply settled_ok|left; reflexivity].
  - unfold unit_signing_test. cbv zeta. apply settled_bind; [apply settled_unit|]. intros [[[[p0 ks] g] nw] r0].
    apply settled_bind; [apply settled_signing|]. intros [sig r2]. destruct next as [[[n' t'] ch']|]; [|apply settled_ok].
    destruct nw as [[np ks']|]; [|left; reflexivity]. apply settled_bind; [apply settled_signing|]. intros [sig' r3]. apply settled_ok.
  - unfold unit_signers. apply settled_bind; [apply settled_each; intros a r0; apply settled_ok|]. intros [lists r1].
    apply settled_bind; [apply settled_traverse; intros x; apply settled_unwrap|]. intros xs. apply settled_bind; [apply settled_include_all|].
    intros a. apply settled_ok.
  - unfold unit_drop. destruct (generate_commitment_share_lists r k len) as [[pub sec] r0]. apply settled_bind; [apply settled_unwrap|].
    intros x. apply settled_ok.
  - unfold unit_lagrange. assert (E : forall A (x : result A), settled (test_is_err x))
      by (intros A x; destruct x; [left; reflexivity|apply settled_ok|left; reflexivity]).
    apply settled_bind; [apply E|]. intros _. apply settled_bind; [apply E|]. intros _. apply settled_bind; [apply E|]. intros _. apply E.
Qed.
Print Assumptions C132_tests_pass_or_panic.

Theorem C132_signers_whatever_the_order :
  forall (S : Suite) (L : SuiteLaws S) (params : Params) (keys : list SigningKey) (order : list nat) (gk : G) (message : list byte) (r : Rng),
  NoDup (map sk_index keys) -> (N.of_nat (length keys) <= u32v (p_n params))%N -> (forall k, In k order -> k < length keys) ->
  exists signers lists, unit_signers params keys order gk message r = Ok (signers, lists) /\ length lists = length keys /\
    ascending (map sg_index signers) /\
    forall s, In s signers <-> exists k key pub sec com, In k order /\ nth_error keys k = Some key /\ nth_error lists k = Some (pub, sec) /\
      nth_error (pl_commitments pub) 0 = Some com /\ s = MkSigner (sk_index key) com.
Proof.
  intros S L params keys order gk message r Hnd Hn Hlt. unfold unit_signers.
  destruct (each_ok (fun o o' => o = o') (fun (o : SigningKey) (x : PublicList * SecretList) => exists com, pl_commitments (fst x) = [com])
    (fun k r => Ok (generate_commitment_share_lists r k 1)) keys keys r) as (lists & r1 & E1 & HL).
  { clear. induction keys; constructor; auto. }
  { intros o o' r0 <-. destruct (C37_lists_are_consistent S L r0 o 1) as (pub & sec & r2 & E & I & L1 & L2 & _). rewrite E.
    exists (pub, sec), r2. split; [reflexivity|]. cbn [fst]. destruct (pl_commitments pub) as [|c [|c' q]]; try discriminate L2. exists c. reflexivity. }
  rewrite E1. cbn [bind].
  assert (Ll : length lists = length keys) by (clear -HL; induction HL; cbn; congruence).
  assert (HC : forall k, k < length keys -> exists key pub sec com, nth_error keys k = Some key /\ nth_error lists k = Some (pub, sec) /\
    pl_commitments pub = [com] /\ nth_error (combine keys lists) k = Some (key, (pub, sec))).
  { clear -HL. induction HL as [|key [pub sec] keys lists (com & E) HL IH]; intros k Hk; [cbn in Hk; lia|]. destruct k as [|k].
    - exists key, pub, sec, com. auto.
    - cbn in Hk. destruct (IH k) as (a & b & c & d & X); [lia|]. exists a, b, c, d. exact X. }
  destruct (traverse_ok (fun k k' => k = k' /\ In k order) (fun k x => nth_error (combine keys lists) k = Some x)
    (fun k => unwrap (nth_error (combine keys lists) k)) order order) as (xs & E2 & HX).
  { apply forall2_self. auto. }
  { intros k k' [<- Hk]. destruct (HC k (Hlt k Hk)) as (key & pub & sec & com & _ & _ & _ & E). exists (key, (pub, sec)). rewrite E. auto. }
  rewrite E2. cbn [bind].
  assert (HXI : forall x, In x xs -> exists k key pub sec com, In k order /\ nth_error keys k = Some key /\ nth_error lists k = Some (pub, sec) /\
      pl_commitments pub = [com] /\ x = (key, (pub, sec))).
  { intros x Hx. destruct (forall2_in_r _ _ _ HX x Hx) as (k & Hk & E). destruct (HC k (Hlt k Hk)) as (key & pub & sec & com & A & B & C & D).
    exists k, key, pub, sec, com. rewrite D in E. injection E as <-. auto. }
  destruct (unit_include_all_run params gk message (map sk_index keys) xs) with (tr := @nil (ACall * result unit)) (a := agg_new params gk message)
    as (a & E3 & HR).
  { rewrite map_length. exact Hn. }
  { constructor. }
  { intros ? ? ? ? []. }
  { intros x Hx. destruct (HXI x Hx) as (k & key & pub & sec & com & _ & A & _ & C & ->). cbn [fst snd]. rewrite C.
    split; [apply in_map; eapply nth_error_In, A|discriminate]. }
  rewrite E3. cbn [bind]. cbn [app] in HR. exists (ag_signers (ai_state a)), lists. split; [reflexivity|]. split; [exact Ll|].
  destruct (C46_state_after_any_history S L params gk message _ _ HR) as (_ & _ & _ & Has & Hfp & _). split; [exact Has|].
  assert (HF : forall i com, first_pair (map inclusion xs) i com -> exists k key pub sec, In k order /\ nth_error keys k = Some key /\
      nth_error lists k = Some (pub, sec) /\ pl_commitments pub = [com] /\ i = sk_index key).
  { intros i com (l1 & P & o & l2 & E & _). assert (HI : In (CInc i com (MkVK i P), o) (map inclusion xs)) by (rewrite E; apply in_or_app; right; left; reflexivity).
    apply in_map_iff in HI. destruct HI as (x & Ex & Hx). destruct (HXI x Hx) as (k & key & pub & sec & com' & A & B & C & D & ->).
    unfold inclusion in Ex. cbn [fst snd] in Ex. rewrite D in Ex. cbn [hd] in Ex. injection Ex as <- <- _ _. exists k, key, pub, sec. auto. }
  intros [i com]. rewrite Hfp. split.
  - intros H. destruct (HF i com H) as (k & key & pub & sec & A & B & C & D & ->). exists k, key, pub, sec, com. rewrite D. auto 6.
  - intros (k & key & pub & sec & com' & A & B & C & D & E). injection E as -> ->.
    assert (X : exists com, first_pair (map inclusion xs) (sk_index key) com).
    { apply first_pair_includes. destruct (HC k (Hlt k A)) as (key' & pub' & sec' & com & B' & C' & D' & E'). rewrite B in B'. injection B' as <-.
      rewrite C in C'. injection C' as <- <-.
      exists (inclusion (key, (pub, sec))). split; [|exists (hd (Gzero, Gzero) (pl_commitments pub)), (to_public key); split; reflexivity].
      apply in_map. clear -HX A E'. induction HX as [|k' x order xs Ex _ IH]; [destruct A|]. destruct A as [->|A]; [left; congruence|right; apply IH, A]. }
    destruct X as (com & X). pose proof (HF _ _ X) as (k' & key' & pub' & sec' & A' & B' & C' & D' & Ei).
    assert (k' = k).
    { symmetry. eapply NoDup_nth_error; [exact Hnd| |rewrite !nth_error_map, B, B'; cbn; congruence].
      rewrite map_length. apply nth_error_Some. rewrite B. discriminate. }
    subst k'. rewrite C in C'. injection C' as <- <-. rewrite D' in D. cbn in D. injection D as <-. exact X.
Qed.
Print Assumptions C132_signers_whatever_the_order.

Theorem C132_drop_test :
  forall (S : Suite) (L : SuiteLaws S) (k : SigningKey) (n pos : nat) (r : Rng),
  (n <= pos -> unit_drop k n pos r = Panic) /\
  (pos < n -> exists l1 used l2, unit_drop k n pos r = Ok (MkSecList (l1 ++ used :: l2), MkSecList (l1 ++ l2)) /\
     nth_error (l1 ++ used :: l2) pos = Some used /\ pos <= length l1 /\ length (l1 ++ used :: l2) = n /\ length (l1 ++ l2) = n - 1 /\ ~ In used l2).
Proof.
  intros S L k n pos r. unfold unit_drop. destruct (C37_lists_are_consistent S L r k n) as (pub & [l] & r' & E & _ & E1 & _). rewrite E.
  cbn [sl_commitments] in *. split; intros H.
  - replace (nth_error l pos) with (@None CommitmentShare); [reflexivity|]. symmetry. apply nth_error_None. lia.
  - destruct (nth_error l pos) as [used|] eqn:Eu; [|apply nth_error_None in Eu; lia]. cbn [unwrap bind].
    destruct (proj2 (C57_drop_share S L l used) (nth_error_In _ _ Eu)) as (l1 & l2 & -> & N2 & ED). rewrite ED.
    exists l1, used, l2. split; [reflexivity|]. split; [exact Eu|]. split.
    { destruct (Nat.le_gt_cases pos (length l1)) as [X|X]; [exact X|]. exfalso. apply N2. rewrite nth_error_app2 in Eu by lia.
      destruct (pos - length l1) as [|j] eqn:Ej; [lia|]. cbn in Eu. eapply nth_error_In, Eu. }
    split; [exact E1|]. split; [|exact N2]. rewrite app_length in *. cbn [length] in E1. lia.
Qed.
Print Assumptions C132_drop_test.

(** the test of the Lagrange coefficients passes, whatever the indices ... *)
Theorem C132_lagrange_test_passes :
  forall (S : Suite) (L : SuiteLaws S) (i2 i3 i4 : u32) (k pos : nat) (v : u32),
  1 <= k -> (N.of_nat k <= 2 ^ 32)%N -> (exists other, nth_error (upto 1 k) pos = Some other /\ other <> v) -> In v (upto 1 k) ->
  unit_lagrange i2 i3 i4 k pos v = Ok tt.
Proof.
  intros S L i2 i3 i4 k pos v Hk Hk2 (w & Hw & Hne) Hv. change (2 ^ 32)%N with 4294967296%N in Hk2. unfold unit_lagrange.
  assert (Z : forall i, lagrange i (upto 0 k) = Err IndexIsZero).
  { intros i. apply (proj1 (proj2 (C02_lagrange_outcome S L i (upto 0 k)))).
    - unfold upto. rewrite Nat.sub_0_r. apply numbers_nodup. exact Hk2.
    - unfold upto. apply in_map_iff. exists 0. split; [apply u32_ext; reflexivity|]. apply in_seq. lia. }
  rewrite !Z. cbn [test_is_err bind].
  destruct (C02_lagrange_outcome S L i4 (firstn pos (upto 1 k) ++ v :: skipn (Datatypes.S pos) (upto 1 k))) as (D & _). rewrite D; [reflexivity|].
  revert Hv Hw. generalize (upto 1 k). clear -Hne. intros l Hv Hw HN.
  assert (E : l = firstn pos l ++ w :: skipn (Datatypes.S pos) l).
  { clear -Hw. revert pos Hw. induction l as [|a l IH]; intros [|pos] Hw; try discriminate Hw; cbn in *; [congruence|]. f_equal. apply IH, Hw. }
  apply NoDup_remove_2 in HN. apply HN. rewrite E in Hv. apply in_app_or in Hv. apply in_or_app. destruct Hv as [Hv|[Hv|Hv]]; [left; exact Hv|congruence|right; exact Hv].
Qed.
Print Assumptions C132_lagrange_test_passes.
(** ... but the first and the third block owe it to the zero in the list alone: without it the index zero and an index that
    is not in the list are accepted *)
Theorem C132_lagrange_blocks_test_the_list_only :
  forall (S : Suite) (L : SuiteLaws S) (i : u32) (k : nat), 1 <= k -> (N.of_nat k <= 2 ^ 32)%N ->
  lagrange i (upto 0 k) = Err IndexIsZero /\ upto 0 k = u32_zero :: upto 1 k /\ ~ In u32_zero (upto 1 k) /\
  exists c, lagrange i (upto 1 k) = Ok c.
Proof.
  intros S L i k Hk Hk2. change (2 ^ 32)%N with 4294967296%N in Hk2.
  assert (E : upto 0 k = u32_zero :: upto 1 k).
  { unfold upto. rewrite Nat.sub_0_r. destruct k as [|k]; [lia|]. cbn [seq map]. replace (Datatypes.S k - 1) with k by lia. reflexivity. }
  assert (HN : NoDup (upto 0 k)) by (unfold upto; rewrite Nat.sub_0_r; apply numbers_nodup; exact Hk2).
  rewrite E in *. inversion HN as [|? ? N1 N2]; subst. split; [|split; [reflexivity|split; [exact N1|]]].
  - apply (proj1 (proj2 (C02_lagrange_outcome S L i (u32_zero :: upto 1 k)))); [exact HN|left; reflexivity].
  - destruct (C02_lagrange_outcome S L i (upto 1 k)) as (_ & _ & X). destruct (X N2 N1) as (c & Ec & _). exists c. exact Ec.
Qed.
Print Assumptions C132_lagrange_blocks_test_the_list_only.

(** do_keygen(5, 3, Some(10), Some(6)) and the signing test with signers 4, 1 and 3, then six of the ten *)
Definition unit_two_groups := unit_keygen (S := Toy) Debug (u 5) (u 3) (Some (u 10)) (Some (u 6)) 42%N.
Example C132_ex_keygen :
  (let* (params, keys, gk, new, _) := unit_two_groups in
   Ok (p_n params, p_t params, map sk_index keys, match new with Some (p, k) => (p_n p, p_t p, length k) | None => (u 0, u 0, 0) end))
  = Ok (u 5, u 3, [u 1; u 2; u 3; u 4; u 5], (u 10, u 6, 10)) /\
  unit_keygen (S := Toy) Release (u 5) (u 3) (Some (u 2)) (Some (u 6)) 42%N = Err InvalidThresholdParams /\
  unit_keygen_test (S := Toy) Debug (u 5) (u 3) 42%N = Ok tt.
Proof. split; [vms|]. split; [vmr|vmr]. Qed.
Example C132_ex_hypotheses : quorum (u 5) (u 3) [3; 0; 2] /\ quorum (u 4) (u 2) [1; 3].
Proof.
  assert (V : u32v (u 2) = 2%N /\ u32v (u 3) = 3%N /\ u32v (u 4) = 4%N /\ u32v (u 5) = 5%N) by (repeat split; reflexivity).
  destruct V as (V2 & V3 & V4 & V5). unfold quorum. rewrite V2, V3, V4, V5.
  repeat match goal with |- _ /\ _ => split end; try (cbn; lia); try (repeat constructor; cbn; intuition lia); cbn; intuition lia.
Qed.
Example C132_ex_signing :
  (let* (gk, sig, sig') := unit_signing_test (S := Toy) Debug (u 5) (u 3) [3; 0; 2] (Some (u 4, u 2, [1; 3])) [x68; x69] 42%N in
   Ok (Geqb gk Gzero, verify_signature gk sig (h4 [x68; x69]), match sig' with Some x => verify_signature gk x (h4 [x68; x69]) | None => Panic end))
  = Ok (false, Ok tt, Ok tt).
Proof. vms. Qed.
(** one signer short of the threshold, the aggregator refuses *)
Example C132_ex_too_few : unit_signing_test (S := Toy) Debug (u 5) (u 3) [3; 0] None [x68; x69] 42%N = Panic.
Proof. vmr. Qed.
(** three signers in a group of two, and a position without a key *)
Example C132_ex_panics :
  unit_signers (S := Toy) (@MkParams (u 2) (u 2)) [@MkSK Toy (u 1) (mk 7); @MkSK Toy (u 2) (mk 9); @MkSK Toy (u 3) (mk 11)] [0; 1; 2] Gzero [x68] 42%N = Panic /\
  unit_signing_test (S := Toy) Debug (u 5) (u 3) [3; 0; 5] None [x68; x69] 42%N = Panic.
Proof. split; vmr. Qed.
(** the test: keys 1 and 2, included in the order 2, 1, 2 *)
Definition unit_pair_keys : list (@SigningKey Toy) := [@MkSK Toy (u 1) (mk 7); @MkSK Toy (u 2) (mk 9)].
Example C132_ex_signers_hypotheses : NoDup (map sk_index unit_pair_keys) /\ (N.of_nat (length unit_pair_keys) <= u32v (u 3))%N /\
  forall k, In k [1; 0; 1] -> k < length unit_pair_keys.
Proof. split; [nodup|]. split; [vm_compute; discriminate|]. cbn. intuition lia. Qed.
Example C132_ex_signers :
  (let* (signers, lists) := unit_signers (S := Toy) (@MkParams (u 3) (u 2)) unit_pair_keys [1; 0; 1] Gzero [x68] 42%N in
   Ok (map sg_index signers, map (fun x => forallb (fun y => Geqb (fst (fst y)) (fst (snd y)) && Geqb (snd (fst y)) (snd (snd y))) x)
     [combine (map sg_com signers) (map (fun l => hd (Gzero, Gzero) (pl_commitments (fst l))) lists)])) = Ok ([u 1; u 2], [true]).
Proof. vms. Qed.
(** eight pairs, the first used *)
Example C132_ex_drop :
  (let* (a, b) := unit_drop (S := Toy) (@MkSK Toy (u 3) (mk 0)) 8 0 42%N in Ok (length (sl_commitments a), length (sl_commitments b))) = Ok (8, 7).
Proof. vms. Qed.
(** the numbers of the test *)
Example C132_ex_lagrange :
  unit_lagrange (S := Toy) (u 2) (u 101) (u 4) 100 63 (u 12) = Ok tt /\
  (let* _ := lagrange (S := Toy) (u 101) (upto 1 100) in Ok tt) = Ok tt /\ (let* _ := lagrange (S := Toy) (u 0) (upto 1 100) in Ok tt) = Ok tt.
Proof. split; [vmr|]. split; [vmr|vmr]. Qed.
Example C132_ex_lagrange_hypotheses :
  (N.of_nat 100 <= 2 ^ 32)%N /\ (exists other, nth_error (upto 1 100) 63 = Some other /\ other <> u 12) /\ In (u 12) (upto 1 100).
Proof.
  split; [vm_compute; discriminate|]. split.
  - exists (u 64). split; [vm_compute; reflexivity|]. intros E. apply (f_equal u32v) in E. vm_compute in E. discriminate E.
  - apply nth_error_In with (n := 11). vm_compute. reflexivity.
Qed.
