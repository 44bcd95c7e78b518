(** C103: what every later call does with a session read back from arbitrary bytes, and when aggregate panics. *)
From Coq Require Import String Strings.Byte Arith NArith ZArith Bool List Permutation Sorted Lia Field.
From Verif Require Import Base Suite Spec SpecDkg SpecSign SpecCodec Types ModelDkg ModelSign ModelCodec Algebra BaseLemmas LemmasShare LemmasRound1
  LemmasRound2 LemmasFinish LemmasBlame LemmasSign LemmasAgg LemmasCodec Toy Demo DemoDkg DemoSign PropsShare PropsRound1 PropsFinish PropsAgg PropsCodec PropsHash PropsEnd PropsSpread.
Import ListNotations.

(** the keys of a map are distinct *)
Definition map_ok {V} (m : bmap V) : Prop := NoDup (bkeys m).
Definition opt_ok {V} (o : option (bmap V)) : Prop := forall m, o = Some m -> map_ok m.

Lemma list_eq_nil_dec {A} (l : list A) : {l = []} + {l <> []}.
Proof. destruct l; [left; reflexivity|right; discriminate]. Qed.

Section Restore.
  Context {S : Suite} {L : SuiteLaws S}.

  Lemma de_map_ok {V} (d : decoder V) bs m r : de_map d bs = Some (m, r) -> map_ok m.
  Proof.
    unfold de_map. destruct (de_vec _ bs) as [[l r0]|]; [|discriminate]. cbn [dthen]. intros E. injection E as <- _.
    assert (X : forall (l : bmap V) m, ksorted m -> ksorted (fold_left (fun m kv => binsert (fst kv) (snd kv) m) l m)).
    { induction l0 as [|kv l0 IH]; intros m H; [exact H|]. cbn [fold_left]. apply IH, ksorted_binsert, H. }
    apply increasing_NoDup, X, ksorted_nil.
  Qed.
  Lemma de_opt_ok {V} (d : decoder V) bs o r : de_option (de_map d) bs = Some (o, r) -> opt_ok o.
  Proof.
    unfold de_option. destruct (de_u8 bs) as [[b r0]|]; [|discriminate]. cbn [dthen]. intros E m ->.
    destruct b; try discriminate. destruct (de_map d r0) as [[m' r1]|] eqn:Em; [|discriminate]. cbn [dthen] in E. injection E as <- _. apply (de_map_ok d r0 m' r1 Em).
  Qed.
  Definition state_ok (st : DkgState) : Prop := opt_ok (ds_comms st) /\ map_ok (ds_dhs st) /\ opt_ok (ds_enc st) /\ opt_ok (ds_shares st).
  Lemma de_state_ok bs st r : de_state bs = Some (st, r) -> state_ok st.
  Proof.
    unfold de_state. intros E.
    repeat match type of E with dthen ?x _ = _ => let H := fresh "D" in destruct x as [[? ?]|] eqn:H; [cbn [dthen] in E|discriminate] end.
    injection E as <- _. unfold state_ok. cbn [ds_comms ds_dhs ds_enc ds_shares].
    split; [eapply de_opt_ok; eassumption|]. split; [eapply de_map_ok; eassumption|]. split; eapply de_opt_ok; eassumption.
  Qed.

  Lemma group_key_zero idx (comms : bmap Vss) k : NoDup idx -> In u32_zero idx -> comms <> [] -> group_key_loop idx comms k = Err IndexIsZero.
  Proof. intros H1 H2 H3. destruct comms as [|[j c] comms]; [contradiction|]. cbn [group_key_loop]. rewrite lagrange_zero_index by assumption. reflexivity. Qed.
  Lemma group_key_hole idx (comms : bmap Vss) : good_indices idx -> (exists j c, In (j, c) comms /\ vss_points c = []) -> forall k, group_key_loop idx comms k = Panic.
  Proof.
    intros Hg. induction comms as [|[j c] comms IH]; intros (j' & c' & Hin & He) k; [contradiction|]. cbn [group_key_loop]. rewrite lagrange_ok by exact Hg. cbn [bind].
    unfold vss_public_key. destruct (vss_points c) as [|P rest] eqn:E; [reflexivity|]. apply IH. destruct Hin as [X|Hin]; [|eauto].
    injection X as <- <-. congruence.
  Qed.
  Lemma hole_dec (comms : bmap Vss) : (exists j c, In (j, c) comms /\ vss_points c = []) \/ (forall j c, In (j, c) comms -> vss_points c <> []).
  Proof.
    induction comms as [|[j c] comms IH]; [right; contradiction|]. destruct (vss_points c) as [|P rest] eqn:E; [left; exists j, c; split; [left; reflexivity|exact E]|].
    destruct IH as [(j' & c' & H1 & H2)|H]; [left; exists j', c'; split; [right; exact H1|exact H2]|]. right.
    intros j' c' [X|X]; [injection X as <- <-; congruence|eauto].
  Qed.
  Lemma loop_panics (st : DkgState) : ds_comms st = None -> forall cs pending, blame_loop st cs pending = Panic \/
    exists l, blame_loop st cs pending = Ok (pending ++ l) /\ length l = length cs.
  Proof.
    intros Hc. induction cs as [|c cs IH]; intros pending; cbn [blame_loop].
    - right. exists []. rewrite app_nil_r. auto.
    - unfold blame_one. rewrite Hc. destruct (_ || _); cbn [bind]; [|left; reflexivity].
      destruct (IH (pending ++ [es_receiver (c_share c)])) as [E|(l & E & El)]; [left; exact E|]. right. eexists. rewrite E, <- app_assoc.
      split; [reflexivity|]. cbn. congruence.
  Qed.
  Lemma sd_nonempty (l : list u32) : l <> [] -> dedup_by (fun x => x) (sort_by (fun x => x) l) <> [].
  Proof.
    intros H X. destruct l as [|x l]; [contradiction|]. pose proof (proj2 (sd_id_in (x :: l) x) (or_introl eq_refl)) as Y. unfold sd in Y. rewrite X in Y. contradiction.
  Qed.
  Lemma find_bad_zero st h c idx l mis : NoDup idx -> In u32_zero idx -> l <> [] -> find_bad st h c idx l mis = Err IndexIsZero.
  Proof. intros H1 H2 H3. destruct l as [|s l]; [contradiction|]. cbn [find_bad]. rewrite lagrange_zero_index by assumption. reflexivity. Qed.
End Restore.

(** C103: every value of the stored maps read from bytes has distinct keys; nothing else is guaranteed *)
Theorem C103_outcome_of_finish :
  forall (S : Suite) (L : SuiteLaws S) (bs : list byte) (s : RoundTwo),
  from_bytes de_round_two bs = Ok s ->
  let st := st2 s in
  (ds_shares st = None -> finish s = Panic) /\
  (forall shares, ds_shares st = Some shares ->
    (In u32_zero (bkeys shares) -> finish s = Err (Custom "The indexs of a participant cannot be 0.")) /\
    (~ In u32_zero (bkeys shares) ->
      (ds_comms st = None -> finish s = Err InvalidGroupKey) /\
      (forall comms, ds_comms st = Some comms ->
        (In u32_zero (bkeys comms) -> finish s = Err IndexIsZero) /\
        (~ In u32_zero (bkeys comms) -> (exists j c, In (j, c) comms /\ vss_points c = []) -> finish s = Panic) /\
        (~ In u32_zero (bkeys comms) -> (forall j c, In (j, c) comms -> vss_points c <> []) ->
           finish s = Ok (ginterp0 (map (fun jc => (fst jc, hd Gzero (vss_points (snd jc)))) comms),
                          MkSK (ds_index st) (interp0 (map (fun js => (fst js, sh_value (snd js))) shares))))))).
Proof.
  intros S L bs s E st. unfold from_bytes, de_round_two in E. destruct (de_state bs) as [[st0 r]|] eqn:Ed; [|discriminate]. cbn [dthen] in E.
  injection E as <-. cbn [st2] in st. subst st. apply de_state_ok in Ed. destruct Ed as (K1 & _ & _ & K2).
  split; [intros H; unfold finish, calculate_signing_key; cbn [st2]; rewrite H; reflexivity|].
  intros shares Hs. pose proof (K2 shares Hs) as Ns. split.
  - intros H0. unfold finish, calculate_signing_key. cbn [st2]. rewrite Hs. destruct shares as [|[j y] shares]; [contradiction|]. cbn [signing_key_loop].
    rewrite (lagrange_zero_index j _ Ns H0). reflexivity.
  - intros H0. assert (Es : calculate_signing_key st0 = Ok (MkSK (ds_index st0) (interp0 (share_points shares)))) by (apply calculate_signing_key_ok; [exact Hs|split; assumption]).
    split.
    + intros Hc. unfold finish. cbn [st2]. rewrite Es. cbn [bind]. unfold calculate_group_key. rewrite Hc. reflexivity.
    + intros comms Hc. pose proof (K1 comms Hc) as Nc. split; [|split].
      * intros Z. unfold finish. cbn [st2]. rewrite Es. cbn [bind]. unfold calculate_group_key. rewrite Hc.
        rewrite group_key_zero; [reflexivity|exact Nc|exact Z|]. intros ->. contradiction.
      * intros Z X. unfold finish. cbn [st2]. rewrite Es. cbn [bind]. unfold calculate_group_key. rewrite Hc.
        rewrite group_key_hole; [reflexivity|split; assumption|exact X].
      * intros Z X. rewrite (finish_ok st0 comms shares Hc Hs (conj Nc Z) (conj Ns H0) X). rewrite dealt_firsts. unfold firsts. rewrite map_map.
        do 3 f_equal. apply map_ext. intros [j c]. unfold some_or. cbn. destruct (vss_points c); reflexivity.
Qed.
Print Assumptions C103_outcome_of_finish.

(** blame on any state *)
Theorem C103_blame_panics_exactly :
  forall (S : Suite) (L : SuiteLaws S) (st : DkgState) (cs : list Complaint),
  (blame (R2 st) cs = Panic <-> cs <> [] /\ (ds_comms st = None \/ ds_shares st = None)) /\
  (forall e, blame (R2 st) cs <> Err e) /\ blame (R2 st) [] = Ok ([], R2 st).
Proof.
  intros S L st cs. split; [|split].
  - split.
    + intros H. split; [intros ->; discriminate|]. destruct (ds_comms st) as [comms|] eqn:Ec; [|auto]. destruct (ds_shares st) as [shares|] eqn:Es; [|auto].
      rewrite (blame_eq st comms shares cs Ec Es) in H. discriminate.
    + intros [Hn H]. unfold blame. cbn [st2].
      assert (R : forall l, l <> [] -> remove_all st l = Panic).
      { intros [|i l] X; [contradiction|]. cbn [remove_all]. unfold remove_malicious. destruct H as [-> | ->]; [reflexivity|destruct (ds_comms st); reflexivity]. }
      assert (X : blame_loop st cs [] = Panic \/ exists l, blame_loop st cs [] = Ok l /\ l <> []).
      { destruct (ds_comms st) as [comms|] eqn:Ec.
        - right. destruct (blame_loop_ok st comms Ec cs []) as (l & E & Hl & _). exists l. split; [exact E|].
          destruct cs as [|c cs]; [contradiction|]. destruct (blame_one_convicts st comms c Ec) as (j & _ & Hj). intros ->.
          apply (proj2 (Hl j)). exists c. split; [left; reflexivity|]. apply Hj. reflexivity.
        - destruct (loop_panics st Ec cs []) as [E|(l & E & El)]; [left; exact E|]. right. exists l. split; [exact E|]. intros ->. destruct cs; [contradiction|discriminate]. }
      destruct X as [->|(l & -> & Hl)]; [reflexivity|]. cbn [bind]. rewrite R by (apply sd_nonempty, Hl). reflexivity.
  - intros e. unfold blame. cbn [st2]. destruct (blame_loop st cs []) as [l|e'|] eqn:E; cbn [bind]; [|exfalso|discriminate].
    + assert (R : forall l st e, remove_all st l <> Err e).
      { induction l0 as [|i l0 IH]; intros st0 e0; cbn [remove_all]; [discriminate|]. unfold remove_malicious.
        destruct (ds_comms st0); [|discriminate]. destruct (ds_shares st0); [|discriminate]. cbn [bind]. apply IH. }
      destruct (remove_all st _) as [x|e'|] eqn:Er; cbn [bind]; try discriminate. exfalso. exact (R _ _ _ Er).
    + destruct (ds_comms st) as [comms|] eqn:Ec.
      * destruct (blame_loop_ok st comms Ec cs []) as (l & E' & _). congruence.
      * destruct (loop_panics st Ec cs []) as [E'|(l & E' & _)]; congruence.
  - reflexivity.
Qed.
Print Assumptions C103_blame_panics_exactly.

(** to_round_two on a state without commitments (with them: C17) *)
Theorem C103_round_two_without_commitments :
  forall (S : Suite) (L : SuiteLaws S) (m : build) (st : DkgState) (es : list EncShare) (r : Rng),
  ds_comms st = None ->
  let run := to_round_two m (R1 st) es r in
  ((N.of_nat (length es) < u32v (p_t (ds_params st)))%N -> run = Err MissingShares) /\
  ((u32v (p_t (ds_params st)) <= N.of_nat (length es))%N ->
    (es = [] -> exists s', run = Ok (s', [], r)) /\
    (forall e es', es = e :: es' ->
       (m = Debug -> es_receiver e <> ds_index st -> run = Panic) /\
       ((m = Debug -> es_receiver e = ds_index st) ->
          (bget (es_sender e) (ds_dhs st) = None ->
             run = Err (Custom "to_round_two() was called with encrypted secret shares containing invalid indices")) /\
          (bget (es_sender e) (ds_dhs st) <> None -> run = Panic)))).
Proof.
  intros S L m st es r Hc run. subst run. unfold to_round_two. cbn [st1]. split.
  - intros H. cbn [ds_params]. rewrite (proj2 (N.ltb_lt _ _) H). reflexivity.
  - intros H. cbn [ds_params]. rewrite (proj2 (N.ltb_ge _ _) H). split.
    + intros ->. cbn [length N.of_nat] in H. cbn [round_two_loop bind length N.of_nat]. unfold u32_sub.
      destruct (u32_ltb (p_n (ds_params st)) (u32_of_N 0)) eqn:E0; [unfold u32_ltb in E0; apply N.ltb_lt in E0; change (u32v (u32_of_N 0)) with 0%N in E0; lia|].
      cbn [bind]. destruct (u32_ltb _ (p_t (ds_params st))) eqn:E; [unfold u32_ltb in E; apply N.ltb_lt in E; lia|]. eexists. reflexivity.
    + intros e es' ->. cbn [round_two_loop ds_index ds_dhs ds_comms]. split.
      * intros -> Hr. destruct (u32_eqb (es_receiver e) (ds_index st)) eqn:E; [apply u32_eqb_spec in E; contradiction|]. reflexivity.
      * intros Hr. replace (is_debug m && negb (u32_eqb (es_receiver e) (ds_index st))) with false.
        2:{ destruct m; [|reflexivity]. rewrite (Hr eq_refl), u32_eqb_refl. reflexivity. }
        split.
        -- intros ->. reflexivity.
        -- intros Hd. destruct (bget (es_sender e) (ds_dhs st)); [|contradiction]. rewrite Hc. reflexivity.
Qed.
Print Assumptions C103_round_two_without_commitments.

(** aggregate, on every finalized aggregator *)
Theorem C103_aggregate_panics_exactly :
  forall (S : Suite) (L : SuiteLaws S) (p : Params) (gk : G) (msg : list byte) tr a f,
  agg_run (agg_new p gk msg) tr a -> finalize a = Ok f ->
  (aggregate f = Panic <-> forall e, In e tr -> forall i, ~ includes i e) /\
  (forall com, first_pair tr u32_zero com -> (exists sig, aggregate f = Ok sig) \/ aggregate f = Err IndexIsZero).
Proof.
  intros S L p gk msg tr a f H HF. pose proof (holds_run _ _ _ _ _ H) as HH.
  destruct (finalize_inv a f (hs_inc _ _ _ _ _ HH) HF) as (-> & P1 & P2).
  assert (Z : ag_signers (ai_state a) = [] <-> forall e, In e tr -> forall i, ~ includes i e).
  { split.
    - intros E e He i Hi. destruct (proj2 (first_pair_includes tr i)) as [com Hcom]; [exists e; auto|].
      apply (hs_pairs _ _ _ _ _ HH) in Hcom. rewrite E in Hcom. contradiction.
    - intros X. destruct (ag_signers (ai_state a)) as [|[i com] ss] eqn:E; [reflexivity|]. exfalso.
      assert (Y : first_pair tr i com) by (apply (hs_pairs _ _ _ _ _ HH); rewrite E; left; reflexivity).
      destruct (proj1 (first_pair_includes tr i)) as (e & E1 & E2); [exists com; exact Y|]. exact (X e E1 i E2). }
  split.
  - rewrite <- Z. split.
    + intros E. destruct (list_eq_nil_dec (ag_signers (ai_state a))) as [Es|Hne]; [exact Es|]. exfalso.
      rewrite aggregate_eq in E; [|exact Hne|exact P1]. cbv zeta in E. cbn [af_state af_hash] in E.
      destruct (is_ok _); [discriminate|]. pose proof (increasing_NoDup _ (hs_inc _ _ _ _ _ HH)) as Hnd.
      destruct (in_dec u32_dec u32_zero (map sg_index (ag_signers (ai_state a)))) as [I|I].
      * rewrite find_bad_zero in E by assumption. discriminate.
      * rewrite find_bad_ok in E; [discriminate|split; assumption|auto|exact P1|exact P2].
    + intros E. unfold aggregate. cbn [af_state]. unfold compute_binding_factors, commitment_list. rewrite E. reflexivity.
  - intros com Hz. apply (hs_pairs _ _ _ _ _ HH) in Hz.
    assert (Hne : ag_signers (ai_state a) <> []) by (intros X; rewrite X in Hz; contradiction).
    rewrite aggregate_eq; [|exact Hne|exact P1]. cbv zeta. cbn [af_state af_hash]. destruct (is_ok _); [left; eexists; reflexivity|]. right.
    rewrite find_bad_zero; [reflexivity|apply increasing_NoDup, (hs_inc _ _ _ _ _ HH)| |exact Hne].
    apply in_map_iff. exists (MkSigner u32_zero com). auto.
Qed.
Print Assumptions C103_aggregate_panics_exactly.

(** a stored session whose only dealer committed to nothing, one with an index zero, and the same without shares or commitments *)
Definition c103_state (i : N) (pts : list (@G Toy)) (with_comms with_shares : bool) : @DkgState Toy :=
  MkState (MkParams (u 3) (u 2)) (u 1) (mk 77) (toy_gen * mk 77)%G
    (if with_comms then Some [(u i, @MkVss Toy (u i) pts)] else None) [(u 2, (toy_gen * mk 5)%G)] None
    (if with_shares then Some [(u 1, @MkShare Toy (u 1) (u 1) (mk 8))] else None).
Definition c103_kind {A} (x : @result Toy A) : N := match x with Ok _ => 0%N | Err _ => 1%N | Panic => 2%N end.
Definition c103_finish (st : @DkgState Toy) : N :=
  match from_bytes de_round_two (ser_round_two (R2 st)) with Ok s => c103_kind (finish s) | _ => 9%N end.
Definition c103_complaint : @Complaint Toy :=
  @MkComplaint Toy toy_gen toy_gen (@MkEnc Toy (u 1) (u 2) (fst (gen_nonce 0%N)) [x00]) (@MkCProof Toy toy_gen toy_gen (mk 1)).
Definition c103_blame (st : @DkgState Toy) (cs : list (@Complaint Toy)) : N :=
  match from_bytes de_round_two (ser_round_two (R2 st)) with Ok s => c103_kind (blame s cs) | _ => 9%N end.
(** all outcomes of the theorems occur: panic (2), error (1) and success (0) *)
Example C103_ex :
  c103_finish (c103_state 1 [] true true) = 2%N /\ c103_finish (c103_state 1 [toy_gen] true true) = 0%N /\
  c103_finish (c103_state 0 [] true true) = 1%N /\ c103_finish (c103_state 1 [toy_gen] false true) = 1%N /\
  c103_finish (c103_state 1 [toy_gen] true false) = 2%N.
Proof. repeat split; vmr. Qed.
Example C103_ex_blame :
  c103_blame (c103_state 1 [toy_gen] true true) [c103_complaint] = 0%N /\ c103_blame (c103_state 1 [toy_gen] false true) [c103_complaint] = 2%N /\
  c103_blame (c103_state 1 [toy_gen] true false) [c103_complaint] = 2%N /\ c103_blame (c103_state 1 [toy_gen] false false) [] = 0%N.
Proof. repeat split; vmr. Qed.
Definition c103_round (t : N) (es : list (@EncShare Toy)) : N :=
  c103_kind (to_round_two Release (R1 (MkState (MkParams (u 3) (u t)) (u 1) (mk 77) (toy_gen * mk 77)%G None [(u 2, (toy_gen * mk 5)%G)] None None)) es 0%N).
Example C103_ex_round :
  let e i := @MkEnc Toy (u i) (u 1) (fst (gen_nonce 0%N)) [x00] in
  c103_round 1 [e 2%N] = 2%N /\ c103_round 1 [e 3%N] = 1%N /\ c103_round 2 [e 2%N] = 1%N /\ c103_round 0 [] = 0%N.
Proof. repeat split; vmr. Qed.
(** an aggregator with one signer of index zero, and with none *)
Definition c103_agg (l : list u32) : @AggInitial Toy :=
  snd (calls_run (agg_new (MkParams (u 3) (u 2)) sgroup [x68; x69])
    (map (fun i => CInc i (toy_gen, toy_gen) (@MkVK Toy i toy_gen)) l ++ map (fun i => CPart (@MkPSig Toy i (mk 5))) l)).
Definition c103_out (l : list u32) : N := match finalize (c103_agg l) with Ok f => c103_kind (aggregate f) | _ => 9%N end.
Example C103_ex_aggregate : c103_out [] = 2%N /\ c103_out [u 0] = 1%N /\ c103_out [u 1] = 1%N.
Proof. repeat split; vmr. Qed.
