(** C43-C51: sessions of signers, the aggregator, and what its calls leave behind. *)
From Coq Require Import String Strings.Byte Arith NArith ZArith Bool List Permutation Sorted Lia Field.
From Verif Require Import Base Suite Spec SpecDkg SpecSign Types ModelDkg ModelSign Algebra BaseLemmas LemmasShare LemmasFinish LemmasSign LemmasAgg
  PropsFinish PropsReshare PropsSign Toy Demo DemoSign.
Import ListNotations.

(** C43: keys any t of which interpolate to s (key generation and resharing produce such keys), group key
    g*s; the signers are announced in the order of qs, the partial signatures delivered in any order. *)
Theorem C43_honest_signers_produce_a_valid_signature :
  forall (S : Suite) (L : SuiteLaws S) (m : build) (p : Params) (msg : list byte) (t : nat) (s : F) (ks : list SigningKey)
    (qs : list Cosigner),
    recovers t s ks -> 1 <= t -> t <= length qs -> (N.of_nat (length qs) <= u32v (p_n p))%N ->
    (forall q, In q qs -> In (q_key q) ks /\ cosigner_ok q) -> NoDup (map (fun q => sk_index (q_key q)) qs) ->
    let gk := (gen * s)%G in
    exists a1 ps, agg_run (agg_new p gk msg) (announce qs) a1 /\
      signed m (h4 msg) gk (ag_signers (ai_state a1)) qs ps /\
      forall ps', Permutation ps' ps -> exists a2 f sig, agg_run a1 (deliver ps') a2 /\ finalize a2 = Ok f /\
        aggregate f = Ok sig /\ verify_signature gk sig (h4 msg) = Ok tt /\ schnorr gk (h4 msg) (ts_R sig) (ts_z sig).
Proof.
  intros S L m p msg t s ks qs [Hks Hrec] Ht1 Ht Hn Hq Hnd. cbv zeta.
  assert (Hg : good_indices (map (fun q => sk_index (q_key q)) qs)).
  { split; [exact Hnd|]. intros X. apply in_map_iff in X. destruct X as (q & E & X). apply Hks. rewrite <- E. apply in_map, Hq, X. }
  destruct (honest_session m p (gen * s)%G msg qs Hn Hg (fun q H => proj2 (Hq q H))) as (a1 & ps & H1 & H2 & H3).
  exists a1, ps. split; [exact H1|]. split; [exact H2|]. intros ps' Hps. destruct (H3 ps' Hps) as (a2 & f & H4 & H5 & H6).
  exists a2, f. set (ss := ag_signers (af_state f)).
  set (sig := MkTSig (group_nonce (h4 msg) ss) (fsum (map (fun x => val F0 (ag_partials (af_state f)) (sg_index x)) ss))).
  exists sig. split; [exact H4|]. split; [exact H5|].
  assert (HV : schnorr (gen * s)%G (h4 msg) (ts_R sig) (ts_z sig)).
  { cbn [sig ts_R ts_z].
    apply (proj2 (all_checks (h4 msg) (gen * s)%G ss (val Gzero (ag_keys (af_state f))) (val F0 (ag_partials (af_state f)))
      ltac:(intros x Hx; destruct (session_checks _ _ _ _ _ H6 x Hx) as (pk & z & E1 & E2 & E3);
            unfold val; rewrite E1, E2; rewrite (se_hash _ _ _ _ _ H6) in E3; exact E3))).
    unfold ss. rewrite (session_interp _ _ _ _ _ H6). f_equal. f_equal. apply Hrec.
    - intros k Hk. apply in_map_iff in Hk. destruct Hk as (q & <- & Hk). apply Hq, Hk.
    - rewrite map_map. exact Hnd.
    - rewrite map_length. exact Ht. }
  assert (HV' : sig_verify sig (gen * s)%G (h4 msg) = Ok tt) by (apply sig_verify_iff, HV).
  split; [|split; [exact HV'|exact HV]].
  rewrite aggregate_eq.
  - cbv zeta. fold ss. rewrite (se_hash _ _ _ _ _ H6), (se_gk _ _ _ _ _ H6). fold sig. rewrite HV'. reflexivity.
  - intros X. pose proof (Permutation_length (se_perm _ _ _ _ _ H6)) as HL. rewrite X, map_length in HL. cbn in HL. lia.
  - intros x Hx. destruct (session_checks _ _ _ _ _ H6 x Hx) as (pk & z & _ & E2 & _). eauto.
Qed.
Print Assumptions C43_honest_signers_produce_a_valid_signature.

(** from key generation to signature *)
Theorem C43_after_key_generation :
  forall (S : Suite) (L : SuiteLaws S) (m : build) (params : Params) (parties : list Party) (outs : list (G * SigningKey))
    (gk : G) (msg : list byte) (qs : list Cosigner),
    honest_parties params parties -> all_bootstrapped m params parties -> Forall2 (party_run m parties) parties outs ->
    (forall q, In q qs -> cosigner_ok q /\ In (gk, q_key q) outs) ->
    NoDup (map (fun q => sk_index (q_key q)) qs) ->
    (u32v (p_t params) <= N.of_nat (length qs))%N ->
    exists a1 ps, agg_run (agg_new params gk msg) (announce qs) a1 /\
      signed m (h4 msg) gk (ag_signers (ai_state a1)) qs ps /\
      forall ps', Permutation ps' ps -> exists a2 f sig, agg_run a1 (deliver ps') a2 /\ finalize a2 = Ok f /\
        aggregate f = Ok sig /\ verify_signature gk sig (h4 msg) = Ok tt.
Proof.
  intros S L m params parties outs gk msg qs H HB HF Hq Hnd Ht.
  pose proof (hp_threshold _ _ H) as HT.
  destruct (C33_key_generation_is_a_sharing S L m params parties outs H HB HF) as (s & HR & Hlen & Hgk).
  assert (Eg : gk = (gen * s)%G).
  { destruct qs as [|q qs]; [cbn in Ht; lia|]. destruct (Hq q (or_introl eq_refl)) as [_ X]. exact (Hgk _ _ X). }
  rewrite Eg in *.
  assert (HN : (N.of_nat (length qs) <= u32v (p_n params))%N).
  { rewrite <- (hp_count _ _ H), <- Hlen.
    enough (length (map (fun q => sk_index (q_key q)) qs) <= length (map (fun o => sk_index (snd o)) outs)) by (rewrite !map_length in *; lia).
    apply NoDup_incl_length; [exact Hnd|]. intros i Hi. apply in_map_iff in Hi. destruct Hi as (q & <- & Hi).
    destruct (Hq q Hi) as [_ X]. apply (in_map (fun o => sk_index (snd o)) _ _ X). }
  destruct (C43_honest_signers_produce_a_valid_signature S L m params msg _ _ (map snd outs) qs HR) as (a1 & ps & H1 & H2 & H3);
    [lia|lia|exact HN| |exact Hnd|].
  - intros q Hin. destruct (Hq q Hin) as [Q1 X]. split; [apply (in_map snd _ _ X)|exact Q1].
  - exists a1, ps. split; [exact H1|]. split; [exact H2|]. intros ps' Hps. destruct (H3 ps' Hps) as (a2 & f & sig & A1 & A2 & A3 & A4 & _).
    exists a2, f, sig. auto.
Qed.
Print Assumptions C43_after_key_generation.

(** after any number of resharings, under the same group key *)
Theorem C43_after_resharings :
  forall (S : Suite) (L : SuiteLaws S) (m : build) (t t' : nat) (ks ks' : list SigningKey) (epochs : list (list G)) (s : F)
    (p : Params) (msg : list byte) (qs : list Cosigner),
    recovers t s ks -> history m t ks epochs t' ks' -> 1 <= t' -> t' <= length qs -> (N.of_nat (length qs) <= u32v (p_n p))%N ->
    (forall q, In q qs -> In (q_key q) ks' /\ cosigner_ok q) -> NoDup (map (fun q => sk_index (q_key q)) qs) ->
    exists a1 ps, agg_run (agg_new p (gen * s)%G msg) (announce qs) a1 /\
      signed m (h4 msg) (gen * s)%G (ag_signers (ai_state a1)) qs ps /\
      forall ps', Permutation ps' ps -> exists a2 f sig, agg_run a1 (deliver ps') a2 /\ finalize a2 = Ok f /\
        aggregate f = Ok sig /\ verify_signature (gen * s)%G sig (h4 msg) = Ok tt.
Proof.
  intros S L m t t' ks ks' epochs s p msg qs H HH H1 H2 H3 H4 H5.
  destruct (C33_history_preserves_group_key S L m t t' ks ks' epochs s H HH) as [HR _].
  destruct (C43_honest_signers_produce_a_valid_signature S L m p msg t' s ks' qs HR H1 H2 H3 H4 H5) as (a1 & ps & A1 & A2 & A3).
  exists a1, ps. split; [exact A1|]. split; [exact A2|]. intros ps' Hps. destruct (A3 ps' Hps) as (a2 & f & sig & B1 & B2 & B3 & B4 & _).
  exists a2, f, sig. auto.
Qed.
Print Assumptions C43_after_resharings.

(** the same with the lists the library makes: each signer publishes the list returned by
    generate_commitment_share_lists, the aggregator takes the announced pair and the index from the public list and the
    verifying key from to_public, and the signer signs with the secret list at the same position *)
Record Precomputed {S : Suite} := MkPre { pc_key : SigningKey; pc_pub : PublicList; pc_sec : SecretList; pc_pos : N; pc_pair : G * G }.
Definition precomputed {S : Suite} (g : Precomputed) : Prop :=
  (exists r n r', generate_commitment_share_lists r (pc_key g) n = (pc_pub g, pc_sec g, r')) /\
  (pc_pos g + 1 < 18446744073709551616)%N /\ nth_error (pl_commitments (pc_pub g)) (N.to_nat (pc_pos g)) = Some (pc_pair g).
Lemma forall2_in_r {A B} (R : A -> B -> Prop) l l' : Forall2 R l l' -> forall b, In b l' -> exists a, In a l /\ R a b.
Proof.
  induction 1 as [|a b l l' H _ IH]; intros c Hc; [contradiction|]. destruct Hc as [<-|Hc]; [exists a; split; [left; reflexivity|exact H]|].
  destruct (IH c Hc) as (a' & A1 & A2). exists a'. split; [right; exact A1|exact A2].
Qed.
Theorem C43_with_precomputed_lists :
  forall (S : Suite) (L : SuiteLaws S) (m : build) (p : Params) (msg : list byte) (t : nat) (s : F) (ks : list SigningKey)
    (gs : list Precomputed),
    recovers t s ks -> 1 <= t -> t <= length gs -> (N.of_nat (length gs) <= u32v (p_n p))%N ->
    (forall g, In g gs -> In (pc_key g) ks /\ precomputed g) -> NoDup (map (fun g => sk_index (pc_key g)) gs) ->
    let gk := (gen * s)%G in
    exists a1 ps,
      agg_run (agg_new p gk msg) (map (fun g => (CInc (pl_index (pc_pub g)) (pc_pair g) (to_public (pc_key g)), Ok tt)) gs) a1 /\
      Forall2 (fun g q => fst (sign m (pc_key g) (h4 msg) gk (pc_sec g) (pc_pos g) (ag_signers (ai_state a1))) = Ok q) gs ps /\
      forall ps', Permutation ps' ps -> exists a2 f sig, agg_run a1 (deliver ps') a2 /\ finalize a2 = Ok f /\
        aggregate f = Ok sig /\ verify_signature gk sig (h4 msg) = Ok tt.
Proof.
  intros S L m p msg t s ks gs Hr H1 H2 H3 Hg Hnd gk.
  assert (X : exists qs, Forall2 (fun g q => q_key q = pc_key g /\ q_list q = pc_sec g /\ q_pos q = pc_pos g /\
      pl_index (pc_pub g) = sk_index (pc_key g) /\ pc_pair g = published (q_pair q) /\ cosigner_ok q) gs qs).
  { clear H2 H3 Hnd. induction gs as [|g gs IH]; [exists []; constructor|].
    destruct IH as (qs & Hqs); [intros g' Hg'; apply Hg; right; exact Hg'|].
    destruct (Hg g (or_introl eq_refl)) as (_ & (r & n & r' & E) & Hp & Hn).
    destruct (C37_lists_are_consistent S L r (pc_key g) n) as (pub & sec & r2 & E2 & I & L1 & L2 & HC).
    rewrite E in E2. injection E2 as <- <- <-.
    assert (Hlt : N.to_nat (pc_pos g) < length (sl_commitments (pc_sec g))).
    { rewrite L1, <- L2. apply nth_error_Some. rewrite Hn. discriminate. }
    destruct (nth_error (sl_commitments (pc_sec g)) (N.to_nat (pc_pos g))) as [cs|] eqn:Ec; [|apply nth_error_None in Ec; lia].
    destruct (HC _ _ Ec) as [_ HP]. exists (MkCo (pc_key g) (pc_sec g) (pc_pos g) cs :: qs). constructor; [|exact Hqs].
    cbn [q_key q_list q_pos q_pair]. do 3 (split; [reflexivity|]). split; [exact I|]. split; [congruence|]. split; [exact Hp|exact Ec]. }
  destruct X as (qs & HF).
  assert (EL : length qs = length gs) by (clear -HF; induction HF as [|g q gs qs _ _ IH]; [reflexivity|cbn [length]; rewrite IH; reflexivity]).
  assert (EA : announce qs = map (fun g => (CInc (pl_index (pc_pub g)) (pc_pair g) (to_public (pc_key g)), Ok tt)) gs).
  { clear -HF. induction HF as [|g q gs qs (A & _ & _ & B & C & _) _ IH]; [reflexivity|]. cbn [announce map]. fold (announce qs). rewrite IH.
    unfold to_public. rewrite A, B, C. reflexivity. }
  assert (EI : map (fun q => sk_index (q_key q)) qs = map (fun g => sk_index (pc_key g)) gs).
  { clear -HF. induction HF as [|g q gs qs (A & _) _ IH]; [reflexivity|]. cbn [map]. rewrite IH, A. reflexivity. }
  destruct (C43_honest_signers_produce_a_valid_signature S L m p msg t s ks qs Hr H1) as (a1 & ps & A1 & A2 & A3).
  - rewrite EL. exact H2.
  - rewrite EL. exact H3.
  - intros q Hq. destruct (forall2_in_r _ _ _ HF q Hq) as (g & Hing & (A & _ & _ & _ & _ & B)). rewrite A. split; [apply Hg, Hing|exact B].
  - rewrite EI. exact Hnd.
  - exists a1, ps. split; [rewrite <- EA; exact A1|]. split.
    + clear -HF A2. unfold signed in A2. revert ps A2. induction HF as [|g q gs qs (A & B & C & _) _ IH]; intros ps H; inversion H; subst; constructor.
      * rewrite <- A, <- B, <- C. assumption.
      * apply IH. assumption.
    + intros ps' Hps. destruct (A3 ps' Hps) as (a2 & f & sig & B1 & B2 & B3 & B4 & _). exists a2, f, sig. auto.
Qed.
Print Assumptions C43_with_precomputed_lists.

Definition scosigner (i : Z) (k : nat) : Cosigner := MkCo (skey i) (snonces i) (N.of_nat k) (spair i k).
Definition run_inc (a : AggInitial) (i : Z) (k : nat) : AggInitial :=
  snd (include_signer a (u (Z.to_N i)) (published (spair i k)) (MkVK (u (Z.to_N i)) (toy_gen * mk (1000 + 77 * i))%G)).
Definition sagg (order : list Z) : AggInitial :=
  fold_left (fun a i => run_inc a i 0) order (agg_new (MkParams (u 3) (u 2)) sgroup [x68; x69]).
Definition sdone (order order' : list Z) : AggInitial :=
  fold_left (fun a i => include_partial_signature a (spartial i 0 (ag_signers (ai_state (sagg order))))) order' (sagg order).
Definition sfinal (a : AggInitial) : result ThresholdSig := let* f := finalize a in aggregate f.

Example C43_ex_recovers : recovers 2 (mk 1000) [skey 1; skey 2; skey 3].
Proof.
  split; [good|]. intros sub Hsub Hnd Hl.
  assert (E : key_points sub = map (fun i => (i, @poly_value Toy [mk 1000; mk 77] (of_u32 i))) (map sk_index sub)).
  { unfold key_points. rewrite map_map. apply map_ext_in. intros k Hk. apply Hsub in Hk.
    assert (forall i, In i [1%Z; 2%Z; 3%Z] -> (sk_index (skey i), sk_key (skey i)) =
      (sk_index (skey i), @poly_value Toy [mk 1000; mk 77] (of_u32 (sk_index (skey i))))) as X.
    { intros i [<-|[<-|[<-|[]]]]; vmr. }
    destruct Hk as [<-|[<-|[<-|[]]]]; apply X; cbn; tauto. }
  rewrite E. apply (@interp0_poly Toy ToyLaws (map sk_index sub) [mk 1000; mk 77]); [exact Hnd|]. rewrite map_length. exact Hl.
Qed.
Example C43_ex_cosigners : forall q, In q [scosigner 3 0; scosigner 1 1] -> In (q_key q) [skey 1; skey 2; skey 3] /\ cosigner_ok q.
Proof.
  intros q [<-|[<-|[]]].
  - split; [right; right; left; reflexivity|]. split; [reflexivity|vmr].
  - split; [left; reflexivity|]. split; [reflexivity|vmr].
Qed.
(** the same session from the lists made by the library *)
Definition smade (i : Z) : PublicList * SecretList * Rng := generate_commitment_share_lists (Z.to_N (50 * i)) (skey i) 3.
Definition sprecomputed (i : Z) (k : nat) : Precomputed :=
  @MkPre Toy (skey i) (fst (fst (smade i))) (snd (fst (smade i))) (N.of_nat k) (nth k (spub i) (mk 0, mk 0)).
Lemma sprecomputed_ok i k c : (N.of_nat k + 1 < 18446744073709551616)%N ->
  nth_error (pl_commitments (fst (fst (smade i)))) k = Some c -> c = nth k (spub i) (mk 0, mk 0) -> precomputed (sprecomputed i k).
Proof.
  intros H E ->. split; [|split; [exact H|cbn [pc_pub sprecomputed pc_pos pc_pair]; rewrite Nnat.Nat2N.id; exact E]].
  exists (Z.to_N (50 * i)), 3, (snd (smade i)). cbn [pc_key pc_pub pc_sec sprecomputed]. fold (smade i).
  destruct (smade i) as [[? ?] ?]. reflexivity.
Qed.
Example C43_ex_precomputed : forall g, In g [sprecomputed 3 0; sprecomputed 1 1] -> In (pc_key g) [skey 1; skey 2; skey 3] /\ precomputed g.
Proof.
  intros g [<-|[<-|[]]].
  - split; [right; right; left; reflexivity|].
    apply (sprecomputed_ok 3 0 (nth 0 (spub 3) (mk 0, mk 0))); [reflexivity|vmr|reflexivity].
  - split; [left; reflexivity|].
    apply (sprecomputed_ok 1 1 (nth 1 (spub 1) (mk 0, mk 0))); [reflexivity|vmr|reflexivity].
Qed.
Example C43_ex :
  is_ok (sfinal (sdone [3; 1] [1; 3])%Z) = true /\
  (let* s := sfinal (sdone [3; 1] [1; 3])%Z in verify_signature sgroup s shash) = Ok tt /\
  (let* s := sfinal (sdone [2; 3; 1] [1; 3; 2])%Z in verify_signature sgroup s shash) = Ok tt.
Proof. vms. Qed.

(** C44 *)
Theorem C44_aggregate_returns_only_valid_signatures :
  forall (S : Suite) (L : SuiteLaws S) (f : AggFinal) (sig : ThresholdSig),
    aggregate f = Ok sig ->
    sig_verify sig (ag_group_key (af_state f)) (af_hash f) = Ok tt /\
    schnorr (ag_group_key (af_state f)) (af_hash f) (ts_R sig) (ts_z sig) /\
    ts_R sig = group_nonce (af_hash f) (ag_signers (af_state f)) /\
    exists zs, Forall2 (fun s z => bget (sg_index s) (ag_partials (af_state f)) = Some z) (ag_signers (af_state f)) zs /\
      ts_z sig = fsum zs.
Proof.
  intros S L f sig. unfold aggregate. destruct (ag_signers (af_state f)) as [|s0 ss0] eqn:Es; [discriminate|]. rewrite <- Es.
  rewrite compute_binding_factors_ok by (rewrite Es; discriminate). cbn [bind]. rewrite compute_group_commitment_ok. cbn [bind].
  destruct (sum_partials _ _ _) as [z|e|] eqn:Ez; try discriminate. cbn [bind].
  destruct (sig_verify _ _ _) as [[]|e|] eqn:Ev; cbn [is_ok].
  - intros X. injection X as <-. split; [exact Ev|]. split; [apply sig_verify_iff, Ev|]. split; [reflexivity|].
    apply sum_partials_inv in Ez. destruct Ez as (zs & E1 & E2). exists zs. split; [exact E1|]. cbn. rewrite E2. apply F_add_0_l.
  - destruct (find_bad _ _ _ _ _ _); discriminate.
  - destruct (find_bad _ _ _ _ _ _); discriminate.
Qed.
Print Assumptions C44_aggregate_returns_only_valid_signatures.

(** from the calls made: the signature is for the message and key given to [new] *)
Theorem C44_result_is_for_the_given_message_and_key :
  forall (S : Suite) (L : SuiteLaws S) (p : Params) (gk : G) (msg : list byte) tr a f sig,
    agg_run (agg_new p gk msg) tr a -> finalize a = Ok f -> aggregate f = Ok sig ->
    verify_signature gk sig (h4 msg) = Ok tt.
Proof.
  intros S L p gk msg tr a f sig H HF HA. pose proof (holds_run _ _ _ _ _ H) as HH.
  apply finalize_inv in HF; [|apply HH]. destruct HF as (-> & _ & _).
  destruct (C44_aggregate_returns_only_valid_signatures S L _ _ HA) as (X & _). cbn [af_state af_hash] in X.
  rewrite (hs_gk _ _ _ _ _ HH), (hs_msg _ _ _ _ _ HH) in X. exact X.
Qed.
Print Assumptions C44_result_is_for_the_given_message_and_key.

(** a signature made of forged parts that add up is still valid, and returned *)
Example C44_ex :
  let a := sdone [3; 1]%Z [1; 3]%Z in
  let ss := ag_signers (ai_state a) in
  let bump i d := MkPSig (ps_index (spartial i 0 ss)) (ps_z (spartial i 0 ss) + mk d)%F in
  let a' := include_partial_signature (include_partial_signature a (bump 1%Z 5%Z)) (bump 3%Z (-5)%Z) in
  (let* s := sfinal a' in verify_signature sgroup s shash) = Ok tt.
Proof. vms. Qed.

(** C45 *)
Theorem C45_blame_is_exact :
  forall (S : Suite) (L : SuiteLaws S) (p : Params) (gk : G) (msg : list byte) tr a f,
    agg_run (agg_new p gk msg) tr a -> finalize a = Ok f ->
    let h := h4 msg in let ss := ag_signers (ai_state a) in
    ss <> [] -> ~ In u32_zero (map sg_index ss) ->
    (exists sig, aggregate f = Ok sig) \/
    (exists bad, aggregate f = Err (MisbehavingParticipants bad) /\ ascending bad /\
      (forall i, In i bad <-> exists s pk z, In s ss /\ sg_index s = i /\ last_key tr i pk /\ last_partial tr i z /\
         ~ partial_ok h gk ss s pk z)).
Proof.
  intros S L p gk msg tr a f H HF. cbv zeta. intros Hne Hz. pose proof (holds_run _ _ _ _ _ H) as HH.
  apply finalize_inv in HF; [|apply HH]. destruct HF as (-> & HP & HK).
  assert (Hg : good_indices (map sg_index (ag_signers (ai_state a)))) by (split; [apply increasing_NoDup, HH|exact Hz]).
  rewrite aggregate_eq by assumption. cbv zeta. cbn [af_state af_hash].
  destruct (is_ok _); [left; eexists; reflexivity|]. right.
  rewrite find_bad_ok by auto. cbn [bind app]. eexists. split; [reflexivity|]. split.
  - apply increasing_filter_map, HH.
  - intros i. rewrite in_map_iff. split.
    + intros (s & <- & Hs). apply filter_In in Hs. destruct Hs as (Hs & HB). destruct (HP s Hs) as [z Ez]. destruct (HK s Hs) as [pk Ek].
      exists s, pk, z. split; [exact Hs|]. split; [reflexivity|]. split; [apply (hs_keys _ _ _ _ _ HH), Ek|].
      split; [apply (hs_parts _ _ _ _ _ HH), Ez|]. apply (failing_spec _ _ _ _ _ Ez Ek) in HB.
      rewrite (hs_gk _ _ _ _ _ HH), (hs_msg _ _ _ _ _ HH) in HB. exact HB.
    + intros (s & pk & z & Hs & <- & Ek & Ez & HB). apply (hs_keys _ _ _ _ _ HH) in Ek. apply (hs_parts _ _ _ _ _ HH) in Ez.
      exists s. split; [reflexivity|]. apply filter_In. split; [exact Hs|]. apply (failing_spec _ _ _ _ _ Ez Ek).
      rewrite (hs_gk _ _ _ _ _ HH), (hs_msg _ _ _ _ _ HH). exact HB.
Qed.
Print Assumptions C45_blame_is_exact.

(** whoever signed with the announced pair and key is not blamed *)
Theorem C45_honest_signer_never_blamed :
  forall (S : Suite) (L : SuiteLaws S) (p : Params) (gk : G) (msg : list byte) tr a f bad m (k : SigningKey) (l : SecretList) idx cs q l',
    agg_run (agg_new p gk msg) tr a -> finalize a = Ok f -> aggregate f = Err (MisbehavingParticipants bad) ->
    ~ In u32_zero (map sg_index (ag_signers (ai_state a))) ->
    sign m k (h4 msg) gk l idx (ag_signers (ai_state a)) = (Ok q, l') ->
    nth_error (sl_commitments l) (N.to_nat idx) = Some cs ->
    first_pair tr (sk_index k) (published cs) -> last_key tr (sk_index k) (gen * sk_key k)%G ->
    last_partial tr (sk_index k) (ps_z q) -> ~ In (sk_index k) bad.
Proof.
  intros S L p gk msg tr a f bad m k l idx cs q l' H HF HA Hz Hs Hc H1 H2 H3 Hin.
  pose proof (holds_run _ _ _ _ _ H) as HH.
  assert (Hne : ag_signers (ai_state a) <> []).
  { intros E. apply (hs_pairs _ _ _ _ _ HH) in H1. rewrite E in H1. exact H1. }
  destruct (C45_blame_is_exact S L p gk msg tr a f H HF Hne Hz) as [(sig & X)|(bad' & X & _ & HB)]; [congruence|].
  rewrite HA in X. injection X as <-. apply HB in Hin. destruct Hin as (s & pk & z & I1 & I2 & I3 & I4 & I5). apply I5.
  apply (hs_keys _ _ _ _ _ HH) in I3, H2. apply (hs_parts _ _ _ _ _ HH) in I4, H3. apply (hs_pairs _ _ _ _ _ HH) in H1.
  assert (pk = (gen * sk_key k)%G) by congruence. assert (z = ps_z q) by congruence. subst pk z.
  assert (Es : s = MkSigner (sk_index k) (published cs)).
  { assert (HN := increasing_NoDup _ (hs_inc _ _ _ _ _ HH)). destruct s as [i c]. cbn in I2. subst i.
    eapply (NoDup_map_inj_in sg_index); eauto. }
  apply sign_ok_inv in Hs. destruct Hs as (cs' & E1 & _ & _ & -> & _). assert (cs' = cs) by congruence. subst cs'.
  subst s. eapply partial_value_ok; reflexivity.
Qed.
Print Assumptions C45_honest_signer_never_blamed.

(** if the keys given interpolate to the group key, somebody is named *)
Theorem C45_blame_is_not_empty :
  forall (S : Suite) (L : SuiteLaws S) (p : Params) (gk : G) (msg : list byte) tr a f bad (pks : list (u32 * G)),
    agg_run (agg_new p gk msg) tr a -> finalize a = Ok f -> aggregate f = Err (MisbehavingParticipants bad) ->
    ag_signers (ai_state a) <> [] -> ~ In u32_zero (map sg_index (ag_signers (ai_state a))) ->
    map fst pks = map sg_index (ag_signers (ai_state a)) -> (forall i P, In (i, P) pks -> last_key tr i P) ->
    ginterp0 pks = gk -> bad <> [].
Proof.
  intros S L p gk msg tr a f bad pks H HF HA Hne Hz Hi Hk Hgk ->. pose proof (holds_run _ _ _ _ _ H) as HH.
  destruct (C45_blame_is_exact S L p gk msg tr a f H HF Hne Hz) as [(sig & X)|(bad' & X & _ & HB)]; [congruence|].
  rewrite HA in X. injection X as <-.
  apply finalize_inv in HF; [|apply HH]. destruct HF as (-> & HP & HK).
  rewrite aggregate_eq in HA by assumption. cbv zeta in HA. cbn [af_state af_hash] in HA.
  rewrite (hs_gk _ _ _ _ _ HH), (hs_msg _ _ _ _ _ HH) in HA.
  set (ss := ag_signers (ai_state a)) in *.
  assert (HV : schnorr gk (h4 msg) (group_nonce (h4 msg) ss) (fsum (map (fun x => val F0 (ag_partials (ai_state a)) (sg_index x)) ss))).
  { apply (proj2 (all_checks (h4 msg) gk ss (val Gzero (ag_keys (ai_state a))) (val F0 (ag_partials (ai_state a)))
      ltac:(intros x Hx; destruct (HP x Hx) as [z Ez]; destruct (HK x Hx) as [pk Ek]; unfold val; rewrite Ez, Ek;
            destruct (G_dec (gen * z)%G (nonce_point (h4 msg) ss x + pk * (session_chal (h4 msg) gk ss * weight (sg_index x) (map sg_index ss))%F)%G) as [Y|Y];
            [exact Y|exfalso; apply (proj2 (HB (sg_index x))); exists x, pk, z; split; [exact Hx|]; split; [reflexivity|];
             split; [apply (hs_keys _ _ _ _ _ HH), Ek|]; split; [apply (hs_parts _ _ _ _ _ HH), Ez|exact Y]]))).
    f_equal. rewrite <- Hgk. f_equal. assert (E : pks = map (fun i => (i, val Gzero (ag_keys (ai_state a)) i)) (map fst pks)).
    { rewrite map_map. rewrite <- (map_id pks) at 1. apply map_ext_in. intros [i P] X. cbn. f_equal.
      apply Hk, (hs_keys _ _ _ _ _ HH) in X. unfold val. rewrite X. reflexivity. }
    rewrite E, Hi, map_map. reflexivity. }
  apply sig_verify_iff with (s := MkTSig _ _) in HV. rewrite HV in HA. discriminate.
Qed.
Print Assumptions C45_blame_is_not_empty.

Example C45_ex :
  let a := sdone [3; 1; 2]%Z [1; 2; 3]%Z in
  let ss := ag_signers (ai_state a) in
  let bump i := MkPSig (ps_index (spartial i 0 ss)) (ps_z (spartial i 0 ss) + mk 1)%F in
  map sg_index ss = [u 1; u 2; u 3] /\
  sfinal (include_partial_signature a (bump 2%Z)) = Err (MisbehavingParticipants [u 2]) /\
  sfinal (include_partial_signature (include_partial_signature a (bump 3%Z)) (bump 1%Z)) = Err (MisbehavingParticipants [u 1; u 3]) /\
  ginterp0 (map (fun i => (u (Z.to_N i), (toy_gen * mk (1000 + 77 * i))%G)) [1; 2; 3]%Z) = sgroup.
Proof. vms. Qed.

(** C46 *)
Theorem C46_state_after_any_history :
  forall (S : Suite) (L : SuiteLaws S) (p : Params) (gk : G) (msg : list byte) tr a,
    agg_run (agg_new p gk msg) tr a ->
    ag_params (ai_state a) = p /\ ag_group_key (ai_state a) = gk /\ ai_message a = msg /\
    ascending (map sg_index (ag_signers (ai_state a))) /\
    (forall i com, In (MkSigner i com) (ag_signers (ai_state a)) <-> first_pair tr i com) /\
    (forall i P, bget i (ag_keys (ai_state a)) = Some P <-> last_key tr i P) /\
    (forall i z, bget i (ag_partials (ai_state a)) = Some z <-> last_partial tr i z) /\
    (forall i P, bget i (ag_keys (ai_state a)) = Some P -> In i (map sg_index (ag_signers (ai_state a)))).
Proof.
  intros S L p gk msg tr a H. destruct (holds_run _ _ _ _ _ H). repeat (split; [assumption|]).
  intros i P X. eapply hs_sub, bget_some_key, X.
Qed.
Print Assumptions C46_state_after_any_history.

(** the outcome of each inclusion *)
Theorem C46_outcome_of_an_inclusion :
  forall (S : Suite) (L : SuiteLaws S) (p : Params) (gk : G) (msg : list byte) tr a i com pk o a' M,
    agg_run (agg_new p gk msg) tr a -> include_signer a i com pk = (o, a') ->
    (i <> vk_index pk -> o = Err (IndexMismatch i (vk_index pk)) /\ a' = a) /\
    (i = vk_index pk -> included (tr ++ [(CInc i com pk, o)]) M ->
      ((N.of_nat (length M) <= u32v (p_n p))%N -> o = Ok tt) /\
      ((u32v (p_n p) < N.of_nat (length M))%N -> o = Err (TooManySigners (length M) (p_n p)))).
Proof.
  intros S L p gk msg tr a i com pk o a' M H HI. pose proof (holds_run _ _ _ _ _ H) as HH. split.
  - intros Hne. destruct (include_signer_cases a i com pk) as [(_ & E)|(-> & _)]; [|destruct (Hne eq_refl)].
    rewrite E in HI. injection HI as <- <-. auto.
  - intros -> HM.
    assert (H2 : agg_run (agg_new p gk msg) (tr ++ [(CInc (vk_index pk) com pk, o)]) a').
    { apply agg_run_app. exists a. split; [exact H|]. econstructor; [exact HI|constructor]. }
    pose proof (holds_included _ _ _ _ _ _ (holds_run _ _ _ _ _ H2) HM) as HL. rewrite HL.
    destruct (include_signer_cases a (vk_index pk) com pk) as [(X & _)|(_ & l & El & X)]; [destruct (X eq_refl)|].
    rewrite (hs_params _ _ _ _ _ HH) in X.
    destruct X as [(X & E)|(X & E)]; rewrite E in HI; injection HI as <- <-; cbn [set_signers ai_state ag_signers]; split; intros Y; auto; lia.
Qed.
Print Assumptions C46_outcome_of_an_inclusion.

(** inclusions: 2, 1 with a wrong key index, 1, 2 again with other data, a second partial signature *)
Definition c46_run : list (result unit) * AggInitial :=
  let p := MkParams (u 2) (u 2) in
  let c := published (spair 1 0) in let c' := published (spair 1 1) in
  let '(o1, a1) := include_signer (agg_new p sgroup []) (u 2) c (MkVK (u 2) (mk 5)) in
  let '(o2, a2) := include_signer a1 (u 1) c (MkVK (u 3) (mk 6)) in
  let '(o3, a3) := include_signer a2 (u 1) c' (MkVK (u 1) (mk 7)) in
  let '(o4, a4) := include_signer a3 (u 2) c' (MkVK (u 2) (mk 8)) in
  let '(o5, a5) := include_signer a4 (u 9) c' (MkVK (u 9) (mk 9)) in
  ([o1; o2; o3; o4; o5],
   include_partial_signature (include_partial_signature a5 (MkPSig (u 1) (mk 1))) (MkPSig (u 1) (mk 2))).
Example C46_ex :
  fst c46_run = [Ok tt; Err (IndexMismatch (u 1) (u 3)); Ok tt; Ok tt; Err (TooManySigners 3 (u 2))] /\
  ag_signers (ai_state (snd c46_run)) = [MkSigner (u 1) (published (spair 1 1)); MkSigner (u 2) (published (spair 1 0));
    MkSigner (u 9) (published (spair 1 1))] /\
  ag_keys (ai_state (snd c46_run)) = [(u 1, mk 7); (u 2, mk 8)] /\ ag_partials (ai_state (snd c46_run)) = [(u 1, mk 2)].
Proof. vms. Qed.

(** C47 *)
Theorem C47_remaining_signers :
  forall (S : Suite) (L : SuiteLaws S) (p : Params) (gk : G) (msg : list byte) tr a,
    agg_run (agg_new p gk msg) tr a ->
    ascending (map sg_index (remaining_signers a)) /\
    forall i com, In (MkSigner i com) (remaining_signers a) <-> first_pair tr i com /\ forall z, ~ last_partial tr i z.
Proof.
  intros S L p gk msg tr a H. pose proof (holds_run _ _ _ _ _ H) as HH. rewrite remaining_eq by apply HH. split.
  - apply increasing_filter_map, HH.
  - intros i com. rewrite filter_In, (hs_pairs _ _ _ _ _ HH). unfold lacks. cbn [sg_index]. split.
    + intros [X Y]. split; [exact X|]. intros z Z. apply (hs_parts _ _ _ _ _ HH) in Z. rewrite Z in Y. discriminate.
    + intros [X Y]. split; [exact X|]. destruct (bget i _) as [z|] eqn:E; [|reflexivity]. apply (hs_parts _ _ _ _ _ HH) in E. destruct (Y _ E).
Qed.
Print Assumptions C47_remaining_signers.

Theorem C47_finalize :
  forall (S : Suite) (L : SuiteLaws S) (p : Params) (gk : G) (msg : list byte) tr a,
    agg_run (agg_new p gk msg) tr a ->
    exists unsigned keyless, ascending unsigned /\ ascending keyless /\
      (forall i, In i unsigned <-> (exists com, first_pair tr i com) /\ forall z, ~ last_partial tr i z) /\
      (forall i, In i keyless <-> (exists com, first_pair tr i com) /\ forall P, ~ last_key tr i P) /\
      (unsigned = [] -> keyless = [] -> finalize a = Ok (MkFinal (ai_state a) (h4 msg))) /\
      (unsigned = [] -> keyless <> [] -> finalize a = Err (MisbehavingParticipants keyless)) /\
      (unsigned <> [] -> finalize a = Err (MisbehavingParticipants (u32_zero :: unsigned ++ keyless))).
Proof.
  intros S L p gk msg tr a H. pose proof (holds_run _ _ _ _ _ H) as HH. rewrite finalize_eq by apply HH. cbv zeta.
  exists (map sg_index (filter (lacks (ag_partials (ai_state a))) (ag_signers (ai_state a)))),
    (map sg_index (filter (lacks (ag_keys (ai_state a))) (ag_signers (ai_state a)))).
  split; [apply increasing_filter_map, HH|]. split; [apply increasing_filter_map, HH|].
  split; [|split; [|split; [|split]]].
  - intros i. rewrite signer_in_index. setoid_rewrite filter_In. setoid_rewrite (hs_pairs _ _ _ _ _ HH). unfold lacks. cbn [sg_index]. split.
    + intros (com & X & Y). split; [eauto|]. intros z Z. apply (hs_parts _ _ _ _ _ HH) in Z. rewrite Z in Y. discriminate.
    + intros ((com & X) & Y). exists com. split; [exact X|]. destruct (bget i _) as [z|] eqn:E; [|reflexivity]. apply (hs_parts _ _ _ _ _ HH) in E. destruct (Y _ E).
  - intros i. rewrite signer_in_index. setoid_rewrite filter_In. setoid_rewrite (hs_pairs _ _ _ _ _ HH). unfold lacks. cbn [sg_index]. split.
    + intros (com & X & Y). split; [eauto|]. intros z Z. apply (hs_keys _ _ _ _ _ HH) in Z. rewrite Z in Y. discriminate.
    + intros ((com & X) & Y). exists com. split; [exact X|]. destruct (bget i _) as [z|] eqn:E; [|reflexivity]. apply (hs_keys _ _ _ _ _ HH) in E. destruct (Y _ E).
  - intros -> ->. rewrite (hs_msg _ _ _ _ _ HH). reflexivity.
  - intros ->. destruct (map sg_index (filter (lacks (ag_keys (ai_state a))) _)); [contradiction|]. reflexivity.
  - destruct (map sg_index (filter (lacks (ag_partials (ai_state a))) _)); [contradiction|]. reflexivity.
Qed.
Print Assumptions C47_finalize.

Example C47_ex :
  map sg_index (remaining_signers (sdone [3; 1; 2] [1])%Z) = [u 2; u 3] /\
  (let* _ := finalize (sdone [3; 1; 2] [1])%Z in Ok tt) = Err (MisbehavingParticipants [u 0; u 2; u 3]) /\
  (let* _ := finalize (run_inc (run_inc (run_inc (agg_new (MkParams (u 1) (u 1)) sgroup []) 1 0) 2 0) 3 0) in Ok tt) =
    Err (MisbehavingParticipants [u 0; u 1; u 2; u 3; u 2; u 3]) /\
  is_ok (finalize (sdone [3; 1; 2] [1; 3; 2])%Z) = true.
Proof. vms. Qed.

(** C48 *)
Theorem C48_surplus_signer_poisons :
  forall (S : Suite) (L : SuiteLaws S) (p : Params) (gk : G) (msg : list byte) tr a i com pk len n a1 tr2 a2,
    agg_run (agg_new p gk msg) tr a -> include_signer a i com pk = (Err (TooManySigners len n), a1) ->
    agg_run a1 tr2 a2 ->
    In i (map sg_index (ag_signers (ai_state a2))) /\
    (u32v (p_n p) < N.of_nat (length (ag_signers (ai_state a2))))%N /\
    exists mis, finalize a2 = Err (MisbehavingParticipants mis) /\ mis <> [].
Proof.
  intros S L p gk msg tr a i com pk len n a1 tr2 a2 H HI H2. pose proof (holds_run _ _ _ _ _ H) as HH.
  destruct (include_signer_cases a i com pk) as [(_ & E)|(-> & l & El & [(Hn & E)|(_ & E)])]; rewrite E in HI; try discriminate.
  injection HI as _ _ <-. rewrite (hs_params _ _ _ _ _ HH) in Hn.
  assert (HR : agg_run (agg_new p gk msg) ((tr ++ [(CInc (vk_index pk) com pk, Err (TooManySigners (length l) (p_n (ag_params (ai_state a)))))]) ++ tr2) a2).
  { rewrite <- app_assoc. apply agg_run_app. exists a. split; [exact H|]. cbn [app]. econstructor; [exact E|exact H2]. }
  pose proof (holds_run _ _ _ _ _ HR) as H2'.
  set (b := set_signers a l (ag_keys (ai_state a))) in *.
  assert (HB : increasing (map sg_index (ag_signers (ai_state b)))) by (subst l; apply enlisted_increasing).
  assert (M : forall x tr y, agg_run x tr y -> increasing (map sg_index (ag_signers (ai_state x))) ->
     incl (map sg_index (ag_signers (ai_state x))) (map sg_index (ag_signers (ai_state y)))).
  { clear. intros x tr y HR. induction HR as [x|x i com pk o x1 tr y HI HR IH|x q tr y HR IH]; intros HX.
    - intros j Hj. exact Hj.
    - destruct (include_signer_cases x i com pk) as [(_ & E)|(-> & l & El & [(Hn & E)|(_ & E)])]; rewrite E in HI; injection HI as <- <-.
      + apply IH, HX.
      + intros j Hj. apply IH; cbn [set_signers ai_state ag_signers]; subst l; [apply enlisted_increasing|]. apply enlisted_index. auto.
      + intros j Hj. apply IH; cbn [set_signers ai_state ag_signers]; subst l; [apply enlisted_increasing|]. apply enlisted_index. auto.
    - apply IH, HX. }
  specialize (M _ _ _ H2 HB).
  assert (HLen : (u32v (p_n p) < N.of_nat (length (ag_signers (ai_state a2))))%N).
  { eapply N.lt_le_trans; [exact Hn|]. enough (length (map sg_index l) <= length (map sg_index (ag_signers (ai_state a2)))) by (rewrite !map_length in *; lia).
    apply NoDup_incl_length; [apply increasing_NoDup, HB|exact M]. }
  split; [|split; [exact HLen|]].
  - apply M. subst l. apply enlisted_index. auto.
  - destruct (C47_finalize S L p gk msg _ a2 HR) as (u1 & k1 & A1 & A2 & A3 & A4 & A5 & A6 & A7).
    assert (k1 <> []).
    { intros ->. pose proof (hs_few _ _ _ _ _ H2') as HF.
      enough (length (map sg_index (ag_signers (ai_state a2))) <= length (bkeys (ag_keys (ai_state a2)))) by (unfold bkeys in *; rewrite !map_length in *; lia).
      apply NoDup_incl_length; [apply increasing_NoDup, H2'|]. intros j Hj. destruct (bget j (ag_keys (ai_state a2))) as [P|] eqn:Ej; [eapply bget_some_key, Ej|].
      destruct (proj2 (A4 j)). split.
      - apply signer_in_index in Hj. destruct Hj as (c & Hj). exists c. apply (hs_pairs _ _ _ _ _ H2'), Hj.
      - intros P HPP. apply (hs_keys _ _ _ _ _ H2') in HPP. congruence. }
    destruct u1 as [|x u1].
    + exists k1. auto.
    + exists (u32_zero :: (x :: u1) ++ k1). split; [apply A7; discriminate|discriminate].
Qed.
Print Assumptions C48_surplus_signer_poisons.

Example C48_ex :
  let a := sdone [3; 1; 2]%Z [1; 2; 3]%Z in
  let a' := run_inc a 4 0 in
  is_ok (sfinal a) = true /\
  fst (include_signer a (u 4) (published (spair 4 0)) (MkVK (u 4) (mk 1))) = Err (TooManySigners 4 (u 3)) /\
  (let* _ := finalize a' in Ok tt) = Err (MisbehavingParticipants [u 0; u 4; u 4]) /\
  (let* _ := finalize (include_partial_signature a' (MkPSig (u 4) (mk 3))) in Ok tt) = Err (MisbehavingParticipants [u 4]).
Proof. vms. Qed.

(** C49 *)
Theorem C49_finalize_ignores_the_threshold :
  forall (S : Suite) (L : SuiteLaws S) (p : Params) (gk : G) (msg : list byte) tr a,
    agg_run (agg_new p gk msg) tr a ->
    (forall i com, first_pair tr i com -> (exists z, last_partial tr i z) /\ exists P, last_key tr i P) ->
    exists f, finalize a = Ok f.
Proof.
  intros S L p gk msg tr a H HA. pose proof (holds_run _ _ _ _ _ H) as HH. eexists. apply finalize_ok.
  - apply HH.
  - intros [i com] Hs. apply (hs_pairs _ _ _ _ _ HH), HA in Hs. destruct Hs as ((z & Hz) & _). exists z. apply (hs_parts _ _ _ _ _ HH), Hz.
  - intros [i com] Hs. apply (hs_pairs _ _ _ _ _ HH), HA in Hs. destruct Hs as (_ & (P & HP)). exists P. apply (hs_keys _ _ _ _ _ HH), HP.
Qed.
Print Assumptions C49_finalize_ignores_the_threshold.

Theorem C49_no_signers_panics :
  forall (S : Suite) (L : SuiteLaws S) (p : Params) (gk : G) (msg : list byte) (ps : list PartialSig),
    exists a f, agg_run (agg_new p gk msg) (deliver ps) a /\ finalize a = Ok f /\ aggregate f = Panic.
Proof.
  intros S L p gk msg ps. destruct (deliver_run ps (agg_new p gk msg)) as (a & H1 & H2 & _). cbn in H2.
  eexists a, _. split; [exact H1|]. split.
  - apply finalize_ok; rewrite H2; [constructor|intros ? []|intros ? []].
  - unfold aggregate. cbn [af_state]. rewrite H2. reflexivity.
Qed.
Print Assumptions C49_no_signers_panics.

(** honest signers whose keys do not interpolate to the group secret (fewer than t): nobody is named *)
Theorem C49_below_threshold_names_nobody :
  forall (S : Suite) (L : SuiteLaws S) (m : build) (p : Params) (msg : list byte) (s : F) (qs : list Cosigner),
    qs <> [] -> (N.of_nat (length qs) <= u32v (p_n p))%N -> good_indices (map (fun q => sk_index (q_key q)) qs) ->
    (forall q, In q qs -> cosigner_ok q) -> interp0 (key_points (map q_key qs)) <> s ->
    let gk := (gen * s)%G in
    exists a1 ps, agg_run (agg_new p gk msg) (announce qs) a1 /\
      signed m (h4 msg) gk (ag_signers (ai_state a1)) qs ps /\
      forall ps', Permutation ps' ps -> exists a2 f, agg_run a1 (deliver ps') a2 /\ finalize a2 = Ok f /\
        (session_chal (h4 msg) gk (ag_signers (ai_state a1)) <> F0 -> aggregate f = Err (MisbehavingParticipants [])).
Proof.
  intros S L m p msg s qs Hne Hn Hg Hq Hi. cbv zeta.
  destruct (honest_session m p (gen * s)%G msg qs Hn Hg Hq) as (a1 & ps & H1 & H2 & H3).
  exists a1, ps. split; [exact H1|]. split; [exact H2|]. intros ps' Hps. destruct (H3 ps' Hps) as (a2 & f & H4 & H5 & H6).
  exists a2, f. split; [exact H4|]. split; [exact H5|]. intros Hc.
  assert (ES : ag_signers (af_state f) = ag_signers (ai_state a1)).
  { pose proof (holds_run _ _ _ _ _ H1) as HH.
    assert (HR : agg_run (agg_new p (gen * s)%G msg) (announce qs ++ deliver ps') a2) by (apply agg_run_app; eauto).
    pose proof (holds_run _ _ _ _ _ HR) as HH2. apply finalize_inv in H5; [|apply HH2]. destruct H5 as (-> & _ & _). cbn [af_state].
    destruct (deliver_run ps' a1) as (a2' & X1 & X2 & _). destruct (agg_run_fun _ _ _ X1 _ _ H4 eq_refl) as (_ & <-). exact X2. }
  rewrite <- ES in Hc. set (ss := ag_signers (af_state f)) in *.
  assert (HE : ss <> []).
  { intros X. pose proof (Permutation_length (se_perm _ _ _ _ _ H6)) as HL. fold ss in HL. rewrite X, map_length in HL. destruct qs; [contradiction|discriminate]. }
  assert (HC : forall x, In x ss -> partial_ok (h4 msg) (gen * s)%G ss x (val Gzero (ag_keys (af_state f)) (sg_index x)) (val F0 (ag_partials (af_state f)) (sg_index x))).
  { intros x Hx. destruct (session_checks _ _ _ _ _ H6 x Hx) as (pk & z & E1 & E2 & E3).
    unfold val. rewrite E1, E2. rewrite (se_hash _ _ _ _ _ H6) in E3. exact E3. }
  rewrite aggregate_eq; [|exact HE|intros x Hx; destruct (session_checks _ _ _ _ _ H6 x Hx) as (pk & z & _ & E2 & _); eauto].
  cbv zeta. fold ss. rewrite (se_hash _ _ _ _ _ H6), (se_gk _ _ _ _ _ H6).
  destruct (sig_verify _ _ _) as [[]|e|] eqn:EV.
  - exfalso. apply sig_verify_iff in EV. cbn [ts_R ts_z] in EV. apply (all_checks (h4 msg) (gen * s)%G ss _ _ HC) in EV.
    unfold ss in EV at 1 2. rewrite (session_interp _ _ _ _ _ H6) in EV. fold ss in EV. rewrite !Gmul_mul in EV. apply gen_inj in EV.
    apply Hi. eapply Fmul_cancel_l; [exact Hc|]. rewrite !(F_mul_comm (session_chal _ _ _)). exact EV.
  - cbn [is_ok]. rewrite <- (se_gk _ _ _ _ _ H6) at 1. unfold ss. rewrite find_bad_ok.
    + cbn [bind app]. replace (filter _ _) with (@nil Signer); [reflexivity|]. symmetry.
      destruct (filter (failing (af_state f) (h4 msg)) (ag_signers (af_state f))) as [|x r] eqn:EF; [reflexivity|exfalso].
      assert (X : In x (filter (failing (af_state f) (h4 msg)) (ag_signers (af_state f)))) by (rewrite EF; left; reflexivity).
      apply filter_In in X. destruct X as [X1 X2]. destruct (session_checks _ _ _ _ _ H6 x X1) as (pk & z & E1 & E2 & E3).
      apply (failing_spec _ _ _ _ _ E2 E1) in X2. apply X2. rewrite (se_gk _ _ _ _ _ H6). rewrite (se_hash _ _ _ _ _ H6) in E3. exact E3.
    + assert (HP : Permutation (map sg_index ss) (map (fun q => sk_index (q_key q)) qs)).
      { unfold ss. rewrite (Permutation_map sg_index (se_perm _ _ _ _ _ H6)), map_map. apply Permutation_refl. }
      split; [eapply Permutation_NoDup; [apply Permutation_sym, HP|apply Hg]|]. intros X. apply (Permutation_in _ HP) in X. apply Hg, X.
    + auto.
    + intros x Hx. destruct (session_checks _ _ _ _ _ H6 x Hx) as (pk & z & _ & E2 & _). eauto.
    + intros x Hx. destruct (session_checks _ _ _ _ _ H6 x Hx) as (pk & z & E2 & _ & _). eauto.
  - rewrite sig_verify_cases in EV. destruct (Geqb _ _); discriminate.
Qed.
Print Assumptions C49_below_threshold_names_nobody.

Example C49_ex :
  let a := sdone [3]%Z [3]%Z in
  is_ok (finalize a) = true /\ sfinal a = Err (MisbehavingParticipants []) /\
  sfinal (agg_new (MkParams (u 3) (u 2)) sgroup []) = Panic /\
  Feqb (session_chal shash sgroup (ag_signers (ai_state a))) (mk 0) = false /\
  Feqb (interp0 (key_points [skey 3])) (mk 1000) = false.
Proof. vms. Qed.

(** C50 *)
Theorem C50_second_inclusion_mixes :
  forall (S : Suite) (L : SuiteLaws S) (p : Params) (gk : G) (msg : list byte) tr a i com1 P1 a1 com2 P2 o a2,
    agg_run (agg_new p gk msg) tr a -> (forall com, ~ first_pair tr i com) ->
    include_signer a i com1 (MkVK i P1) = (Ok tt, a1) ->
    include_signer a1 i com2 (MkVK i P2) = (o, a2) ->
    o = Ok tt /\ ag_signers (ai_state a2) = ag_signers (ai_state a1) /\
    In (MkSigner i com1) (ag_signers (ai_state a2)) /\ (com2 <> com1 -> ~ In (MkSigner i com2) (ag_signers (ai_state a2))) /\
    bget i (ag_keys (ai_state a2)) = Some P2 /\
    forall j, j <> i -> bget j (ag_keys (ai_state a2)) = bget j (ag_keys (ai_state a1)).
Proof.
  intros S L p gk msg tr a i com1 P1 a1 com2 P2 o a2 H Hf H1 H2. pose proof (holds_run _ _ _ _ _ H) as HH.
  destruct (include_signer_cases a i com1 (MkVK i P1)) as [(X & _)|(_ & l & El & [(Hn & E)|(Hn & E)])]; [destruct (X eq_refl)| |]; rewrite E in H1; [discriminate|].
  assert (E1 : a1 = set_signers a l (binsert i P1 (ag_keys (ai_state a)))) by (inversion H1; reflexivity).
  assert (HI : increasing (map sg_index l)) by (subst l; apply enlisted_increasing).
  assert (Hin : In i (map sg_index l)) by (subst l; apply enlisted_index; auto).
  assert (EN : enlisted l (MkSigner i com2) = l) by (apply (sd_snoc_old sg_index); assumption).
  assert (HM : In (MkSigner i com1) l).
  { subst l. apply enlisted_in; [apply HH|]. right. split; [|auto]. rewrite signer_in_index. intros (c & X). apply (hs_pairs _ _ _ _ _ HH) in X. destruct (Hf _ X). }
  destruct (include_signer_cases a1 i com2 (MkVK i P2)) as [(X & _)|(_ & l' & El' & [(Hn' & E')|(Hn' & E')])];
    [destruct (X eq_refl)| |]; rewrite E' in H2; injection H2 as <- <-; rewrite E1 in *; clear E E'; cbn [set_signers ai_state ag_signers ag_params ag_keys vk_share vk_index] in *; rewrite EN in El'; subst l'.
  - lia.
  - split; [reflexivity|]. split; [reflexivity|]. split; [exact HM|]. split.
    + intros Hne X. apply Hne. assert (HND := increasing_NoDup _ HI).
      assert (MkSigner i com2 = MkSigner i com1) as Q by (eapply (NoDup_map_inj_in sg_index); eauto). congruence.
    + split; [rewrite bget_binsert, u32_eqb_refl; reflexivity|].
      intros j Hj. apply u32_eqb_neq in Hj. rewrite (bget_binsert j i P2), Hj. reflexivity.
Qed.
Print Assumptions C50_second_inclusion_mixes.

Definition c50_run : result unit * result unit * AggInitial :=
  let '(o1, a1) := include_signer (sagg [3]%Z) (u 1) (published (spair 1 0)) (MkVK (u 1) (mk 5)) in
  let '(o2, a2) := include_signer a1 (u 1) (published (spair 1 1)) (MkVK (u 1) (mk 6)) in
  (o1, o2, a2).
Example C50_ex :
  fst c50_run = (Ok tt, Ok tt) /\
  ag_signers (ai_state (snd c50_run)) = [MkSigner (u 1) (published (spair 1 0)); ssigner 3 0] /\
  ag_keys (ai_state (snd c50_run)) = [(u 1, mk 6); (u 3, (toy_gen * mk 1231)%G)].
Proof. vms. Qed.

(** C51 *)
Theorem C51_order_of_calls_irrelevant :
  forall (S : Suite) (L : SuiteLaws S) (p : Params) (gk : G) (msg : list byte) tr tr' a a',
    agg_run (agg_new p gk msg) tr a -> agg_run (agg_new p gk msg) tr' a' ->
    Permutation (map fst tr) (map fst tr') ->
    NoDup (flat_map inc_of (map fst tr)) -> NoDup (flat_map part_of (map fst tr)) ->
    (N.of_nat (length (flat_map inc_of (map fst tr))) <= u32v (p_n p))%N ->
    a = a' /\ finalize a = finalize a' /\ forall c o, In (c, o) tr -> In (c, o) tr'.
Proof.
  intros S L p gk msg tr tr' a a' H H' HP H1 H2 H3.
  assert (P1 : Permutation (flat_map inc_of (map fst tr)) (flat_map inc_of (map fst tr'))) by (apply Permutation_flat_map, HP).
  assert (P2 : Permutation (flat_map part_of (map fst tr)) (flat_map part_of (map fst tr'))) by (apply Permutation_flat_map, HP).
  assert (H1' := Permutation_NoDup P1 H1). assert (H2' := Permutation_NoDup P2 H2).
  assert (H3' : (N.of_nat (length (flat_map inc_of (map fst tr'))) <= u32v (p_n p))%N) by (rewrite <- (Permutation_length P1); exact H3).
  (* outcomes are determined by the calls *)
  assert (K : forall tr a, agg_run (agg_new p gk msg) tr a -> (N.of_nat (length (flat_map inc_of (map fst tr))) <= u32v (p_n p))%N ->
    length (ag_signers (ai_state a)) <= length (flat_map inc_of (map fst tr)) /\
    forall c o, In (c, o) tr -> o = match c with CInc i _ pk => if u32_eqb i (vk_index pk) then Ok tt else Err (IndexMismatch i (vk_index pk)) | CPart _ => Ok tt end).
  { clear. induction tr as [|e tr IH] using rev_ind; intros a H Hn.
    - inversion H; subst. split; [cbn; lia|intros ? ? []].
    - rewrite map_app, flat_map_app, app_length in Hn. cbn [map flat_map] in Hn. rewrite app_nil_r in Hn.
      apply agg_run_app in H. destruct H as (a0 & A1 & A2). destruct (IH a0 A1) as (B1 & B2); [lia|]. pose proof (holds_run _ _ _ _ _ A1) as HH.
      rewrite map_app, flat_map_app, app_length. cbn [map flat_map]. rewrite app_nil_r.
      assert (Q : length (ag_signers (ai_state a)) <= length (flat_map inc_of (map fst tr)) + length (inc_of (fst e)) /\
        snd e = match fst e with CInc i _ pk => if u32_eqb i (vk_index pk) then Ok tt else Err (IndexMismatch i (vk_index pk)) | CPart _ => Ok tt end).
      { inversion A2 as [|x i com pk o x1 tr0 x3 HI HR|x q tr0 x3 HR]; subst; inversion HR; subst; cbn [fst snd inc_of length] in *.
        - destruct (include_signer_cases a0 i com pk) as [(X & E)|(-> & l & El & [(X & E)|(X & E)])]; rewrite E in HI; injection HI as <- <-.
          + apply u32_eqb_neq in X. rewrite X. split; [lia|reflexivity].
          + exfalso. rewrite (hs_params _ _ _ _ _ HH) in X. assert (length l <= length (ag_signers (ai_state a0)) + 1).
            { subst l. eapply Nat.le_trans; [apply (sd_length sg_index)|]. rewrite app_length. cbn. lia. } lia.
          + rewrite u32_eqb_refl. split; [|reflexivity]. cbn [set_signers ai_state ag_signers].
            assert (length l <= length (ag_signers (ai_state a0)) + 1).
            { subst l. eapply Nat.le_trans; [apply (sd_length sg_index)|]. rewrite app_length. cbn. lia. } lia.
        - split; [cbn; lia|reflexivity]. }
      destruct Q as (Q1 & Q2). split; [exact Q1|]. intros c o Hin. apply in_app_or in Hin. destruct Hin as [Hin|[Hin|[]]]; [apply B2, Hin|subst e; exact Q2]. }
  destruct (K tr a H H3) as (_ & K1). destruct (K tr' a' H' H3') as (_ & K2).
  assert (HI : forall c o, In (c, o) tr <-> In (c, o) tr').
  { intros c o. split; intros X.
    - assert (Y : In c (map fst tr')) by (eapply Permutation_in; [exact HP|]; apply in_map_iff; exists (c, o); auto).
      apply in_map_iff in Y. destruct Y as ([c' o'] & E & Y). cbn in E. subst c'. rewrite (K1 _ _ X). rewrite (K2 _ _ Y) in Y. exact Y.
    - assert (Y : In c (map fst tr)) by (eapply Permutation_in; [apply Permutation_sym, HP|]; apply in_map_iff; exists (c, o); auto).
      apply in_map_iff in Y. destruct Y as ([c' o'] & E & Y). cbn in E. subst c'. rewrite (K2 _ _ X). rewrite (K1 _ _ Y) in Y. exact Y. }
  assert (EA : a = a').
  { apply (holds_eq p gk msg tr a tr' a'); [apply holds_run, H|apply holds_run, H'| | |].
    - intros i com. rewrite !first_pair_distinct by assumption. split; intros (P & o & X); exists P, o; apply HI, X.
    - intros i P. rewrite !last_key_distinct by assumption. split; intros (com & X); exists com; apply HI, X.
    - intros i z. rewrite !last_partial_distinct by assumption. apply HI. }
  split; [exact EA|]. split; [rewrite EA; reflexivity|]. intros c o. apply HI.
Qed.
Print Assumptions C51_order_of_calls_irrelevant.

Example C51_ex :
  ag_signers (ai_state (sagg [3; 1; 2]%Z)) = ag_signers (ai_state (sagg [2; 3; 1]%Z)) /\
  ag_partials (ai_state (sdone [3; 1; 2] [2; 1; 3])%Z) = ag_partials (ai_state (sdone [1; 2; 3] [3; 2; 1])%Z).
Proof. vms. Qed.
