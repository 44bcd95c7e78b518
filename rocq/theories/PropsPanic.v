(** C73-C74: debug and release builds, and where the API can stop working. *)
From Coq Require Import String Strings.Byte Arith NArith ZArith Bool List Lia.
From Verif Require Import Base Suite Spec SpecDkg SpecCodec SpecPanic Types Algebra BaseLemmas ModelDkg ModelSign ModelCodec
  LemmasShare LemmasRound1 LemmasRound2 LemmasFinish LemmasBlame LemmasSign Toy Demo DemoDkg DemoSign PropsRound1 PropsRound2
  PropsBlame PropsFinish PropsSign PropsView.
Import ListNotations.

Section Agree.
  Context {S : Suite} {L : SuiteLaws S}.

  Lemma agrees_refl {A} (x : result A) : agrees x x.
  Proof. right; reflexivity. Qed.
  Lemma agrees_bind {A B} (x y : result A) (f g : A -> result B) :
    agrees x y -> (forall a, agrees (f a) (g a)) -> agrees (bind x f) (bind y g).
  Proof. intros [->| ->] H; [left; reflexivity|]. destruct y; cbn; [apply H|apply agrees_refl|apply agrees_refl]. Qed.
  Lemma agrees_sub a b : agrees (u32_sub Debug a b : result u32) (u32_sub Release a b).
  Proof. unfold u32_sub. destruct (u32_ltb a b); [left|right]; reflexivity. Qed.
  Lemma agrees_params n t : agrees (params_new Debug n t) (params_new Release n t).
  Proof. unfold params_new. cbn [is_debug andb]. destruct (_ || _ || _); [left|right]; reflexivity. Qed.
  Lemma agrees_check_one p fd fs q a : agrees (check_one Debug p fd fs q a) (check_one Release p fd fs q a).
  Proof.
    unfold check_one. destruct (is_ok _); [|apply agrees_refl]. destruct fs; [apply agrees_refl|].
    cbn [is_debug andb]. destruct fd; cbn [negb]; [apply agrees_refl|left; reflexivity].
  Qed.
  Lemma agrees_check_all p fd fs qs : forall a, agrees (check_all Debug p fd fs qs a) (check_all Release p fd fs qs a).
  Proof.
    induction qs as [|q qs IH]; intros a; cbn [check_all]; [apply agrees_refl|].
    apply agrees_bind; [apply agrees_check_one|exact IH].
  Qed.
  Lemma agrees_ns p x my co ps fd fs r :
    agrees (new_state_internal Debug p x my co ps fd fs r) (new_state_internal Release p x my co ps fd fs r).
  Proof.
    unfold new_state_internal. destruct (negb _); [apply agrees_refl|].
    apply agrees_bind; [apply agrees_check_all|]. intros a. destruct (N.ltb _ _); [apply agrees_refl|].
    destruct (negb fd && fs).
    - apply agrees_bind; [apply agrees_sub|]. intros n. apply agrees_bind; [apply agrees_params|]. intros q. apply agrees_refl.
    - apply agrees_bind; [apply agrees_refl|]. intros [es r'].
      apply agrees_bind; [apply agrees_sub|]. intros n. apply agrees_bind; [apply agrees_params|]. intros q. apply agrees_refl.
  Qed.
  Lemma agrees_reshare p sk ps r : agrees (reshare Debug p sk ps r) (reshare Release p sk ps r).
  Proof.
    unfold reshare. apply agrees_bind; [apply agrees_refl|]. intros [[[d co] x] r1]. destruct co as [cs|]; [|apply agrees_refl].
    apply agrees_bind; [apply agrees_ns|]. intros [[st l] r2]. apply agrees_refl.
  Qed.
  Lemma agrees_loop st es : forall sh cs r,
    agrees (round_two_loop Debug st es sh cs r) (round_two_loop Release st es sh cs r).
  Proof.
    induction es as [|e es IH]; intros sh cs r; cbn [round_two_loop]; [apply agrees_refl|].
    cbn [is_debug andb]. destruct (negb _); [left; reflexivity|].
    destruct (bget _ (ds_dhs st)); [|apply agrees_refl]. destruct (ds_comms st); [|apply agrees_refl].
    destruct (match find _ _ with Some _ => _ | None => _ end) as [cs' r']. apply IH.
  Qed.
  Lemma agrees_round_two s es r : agrees (to_round_two Debug s es r) (to_round_two Release s es r).
  Proof.
    unfold to_round_two. cbv zeta. destruct (N.ltb _ _); [apply agrees_refl|].
    apply agrees_bind; [apply agrees_loop|]. intros [[sh cs] r'].
    apply agrees_bind; [apply agrees_sub|]. intros n. apply agrees_refl.
  Qed.
  Lemma agrees_event s e : agrees (event Debug s e) (event Release s e).
  Proof.
    destruct s as [s|s], e as [es r|cs|]; try apply agrees_refl. cbn [event].
    apply agrees_bind; [apply agrees_round_two|]. intros [[s' cs] r']. apply agrees_refl.
  Qed.

  (** what a session that was begun holds *)
  Lemma begun_inv valid s : begun valid s -> exists st comms, s = R1 st /\ ds_comms st = Some comms /\
    NoDup (bkeys comms) /\ NoDup (bkeys (ds_dhs st)) /\
    (forall j, In j (bkeys comms) -> In j (map pt_index valid)) /\
    (forall j, In j (bkeys (ds_dhs st)) -> In j (map pt_index valid)) /\
    (forall j c, In (j, c) comms -> vss_points c <> []) /\
    u32v (p_n (ds_params st)) = N.of_nat (length valid).
  Proof.
    intros (m & params & x & my & ps & r & l & r' & Hl & H).
    assert (R : exists fd co, new_state_internal m params x my co ps fd true r = Ok (s, l, r') /\
                (fd = true -> exists cs, co = Some cs)).
    { destruct H as [H|[co H]]; [exists false, None|exists true, (Some co)]; (split; [exact H|]); [discriminate|eauto]. }
    clear H. destruct R as (fd & co & E & Hco).
    assert (Hf : fd = true \/ true = true) by (right; reflexivity).
    destruct (N.eq_dec (N.of_nat (length ps)) (u32v (p_n params))) as [Hn|Hn];
      [|rewrite ns_count in E by assumption; discriminate].
    destruct (true && existsb crashb ps) eqn:Hc; [rewrite ns_panic in E by assumption; discriminate|].
    destruct (N.eq_dec (u32v (p_t params)) 0) as [Ht|Ht].
    { rewrite ns_t0 in E by assumption. destruct m; discriminate. }
    assert (Ht' : (1 <= u32v (p_t params))%N) by lia.
    destruct (N.lt_ge_cases (N.of_nat (length (filter (okb fd true (p_t params)) ps))) (u32v (p_t params))) as [Hlt|Hle].
    { rewrite ns_toofew in E by assumption. discriminate. }
    destruct (ns_success m params x my co ps fd true r Hf Hco Ht' Hn Hc Hle) as (st & r1 & E1 & HR & HS & (comms & C1 & C2 & C3) & _).
    rewrite E in E1. injection E1 as -> -> _. cbn [pl_valid] in Hl. subst valid.
    set (valid := filter (okb fd true (p_t params)) ps) in *.
    assert (K : forall V (f : Participant -> option V) mp j, holds_last f valid mp -> In j (bkeys mp) ->
              exists p, In p valid /\ pt_index p = j /\ bget j mp = f p).
    { intros V f mp j Hh Hj. destruct (bget j mp) as [v|] eqn:Eg.
      - apply Hh in Eg. destruct Eg as (p & (l1 & l2 & -> & Hp & _) & Hv). exists p. split; [apply in_or_app; right; left; reflexivity|].
        split; [exact Hp|]. symmetry; exact Hv.
      - exfalso. apply bget_none in Eg. contradiction. }
    exists st, comms. split; [reflexivity|]. split; [exact C1|].
    split; [apply increasing_NoDup, C2|]. split; [apply increasing_NoDup, HS|].
    split. { intros j Hj. destruct (K _ _ _ _ C3 Hj) as (p & H1 & H2 & _). apply in_map_iff. exists p. auto. }
    split. { intros j Hj. destruct (K _ _ _ _ (rec_dhs _ _ _ _ _ HR) Hj) as (p & H1 & H2 & _). apply in_map_iff. exists p. auto. }
    split; [|apply (rec_n _ _ _ _ _ HR)].
    intros j c Hin. assert (Hj : In j (bkeys comms)) by (apply (in_map fst) in Hin; exact Hin).
    destruct (K _ _ _ _ C3 Hj) as (p & H1 & H2 & H3). apply in_bget in Hin; [|apply increasing_NoDup, C2].
    rewrite Hin in H3. unfold valid in H1. apply filter_In in H1. destruct H1 as [_ H1]. unfold okb in H1.
    apply andb_prop in H1. destruct H1 as [_ H1]. cbn [negb orb] in H1. apply andb_prop in H1. destruct H1 as [H1 _].
    apply keyb_iff in H1. destruct H1 as (c' & P & rest & pr & X1 & X2 & _). assert (c = c') by congruence. subst c'.
    rewrite X2. discriminate.
  Qed.
End Agree.

Section Late.
  Context {S : Suite} {L : SuiteLaws S}.
  (** what the state of a session after to_round_two holds *)
  Lemma second_round_inv valid s : second_round valid s -> exists st comms shares, s = R2 st /\
    ds_comms st = Some comms /\ ds_shares st = Some shares /\ NoDup (bkeys comms) /\ NoDup (bkeys shares) /\
    (forall j, In j (bkeys comms) -> In j (map pt_index valid)) /\
    (forall j, In j (bkeys shares) -> In j (map pt_index valid)) /\
    (forall j c, In (j, c) comms -> vss_points c <> []).
  Proof.
    induction 1 as [s1 m es r s cs r' Hb E|s cs ks s' H IH E].
    - destruct (begun_inv valid s1 Hb) as (st & comms & -> & Hc & N1 & N2 & K1 & K2 & Hp & _).
      destruct (to_round_two_inv m st comms es r s cs r' Hc N1 E) as (_ & _ & ->).
      pose proof (round_two_state_spec st es) as HA.
      destruct (ar_shares _ _ _ HA) as (shares & S1 & S2 & S3).
      exists (round_two_state st es), comms, shares. split; [reflexivity|].
      split; [rewrite (ar_comms _ _ _ HA); exact Hc|]. split; [exact S1|]. split; [exact N1|]. split; [exact S2|].
      split; [exact K1|]. split; [|exact Hp].
      intros j Hj. destruct (bget j shares) as [v|] eqn:Eg; [|apply bget_none in Eg; contradiction].
      apply S3 in Eg. destruct Eg as (e & (l1 & l2 & _ & (He & w & Hw) & _) & _). destruct Hw as (pk & Hk & _).
      apply K2. rewrite He in Hk. apply bget_in, (in_map fst) in Hk. exact Hk.
    - destruct IH as (st & comms & shares & -> & Hc & Hs & N1 & N2 & K1 & K2 & Hp).
      destruct (C22_blame_outcome S L st comms shares cs Hc Hs) as (l & keys & st' & Eb & _ & _ & _ & HP).
      rewrite E in Eb. injection Eb as _ ->.
      destruct HP as [_ _ _ _ _ _ (m1 & m1' & A1 & A2 & A3) (m2 & m2' & B1 & B2 & B3)].
      assert (m1 = comms) by congruence. assert (m2 = shares) by congruence. subst m1 m2.
      exists st', m1', m2'. split; [reflexivity|]. split; [exact A2|]. split; [exact B2|].
      split; [eapply without_nodup; eassumption|]. split; [eapply without_nodup; eassumption|].
      split. { intros j Hj. apply (without_keys _ _ _ A3) in Hj. apply K1, Hj. }
      split. { intros j Hj. apply (without_keys _ _ _ B3) in Hj. apply K2, Hj. }
      intros j c Hin. apply (without_in _ _ _ A3) in Hin. eapply Hp, Hin.
  Qed.
  Lemma signing_key_loop_no_panic idx shares : forall k, signing_key_loop idx shares k <> Panic.
  Proof.
    induction shares as [|[i s] l IH]; intros k; cbn [signing_key_loop]; [discriminate|].
    destruct (lagrange_cases i idx) as [->|[e ->]]; [apply IH|discriminate].
  Qed.
  Lemma group_key_loop_no_panic idx (comms : bmap Vss) : (forall j c, In (j, c) comms -> vss_points c <> []) ->
    forall k, group_key_loop idx comms k <> Panic.
  Proof.
    induction comms as [|[i c] l IH]; intros Hp k; cbn [group_key_loop]; [discriminate|].
    destruct (lagrange_cases i idx) as [->|[e ->]]; cbn [bind]; [|discriminate].
    unfold vss_public_key. destruct (vss_points c) eqn:E; [exfalso; apply (Hp i c); [left; reflexivity|exact E]|].
    cbn [hd_error]. apply IH. intros j d Hd. apply (Hp j d). right; exact Hd.
  Qed.
End Late.

(** C73 *)
Theorem C73_debug_panics_or_agrees :
  forall (S : Suite) (L : SuiteLaws S),
  (forall n t, agrees (params_new Debug n t) (params_new Release n t)) /\
  (forall params x my co ps r, agrees (bootstrap Debug params x my co ps r) (bootstrap Release params x my co ps r)) /\
  (forall params x my ps r, agrees (dkg_new Debug params x my ps r) (dkg_new Release params x my ps r)) /\
  (forall params sk ps r, agrees (reshare Debug params sk ps r) (reshare Release params sk ps r)) /\
  (forall s es r, agrees (to_round_two Debug s es r) (to_round_two Release s es r)) /\
  (forall k h gk l idx ss, sign Debug k h gk l idx ss = (Panic, l) \/
                           sign Debug k h gk l idx ss = sign Release k h gk l idx ss).
Proof.
  intros S L. split; [apply agrees_params|]. split; [intros; apply agrees_ns|]. split; [intros; apply agrees_ns|].
  split; [apply agrees_reshare|]. split; [apply agrees_round_two|].
  intros k h gk l idx ss. rewrite !sign_eq. unfold usize_succ. destruct (N.ltb _ _); [right|left]; reflexivity.
Qed.
Print Assumptions C73_debug_panics_or_agrees.

(** a whole session: a debug build shows the outcomes of the release build, or a first part of them followed by a panic *)
Theorem C73_sessions_agree_until_a_panic :
  forall (S : Suite) (L : SuiteLaws S) (s : Sess) (l : list Event),
  events Debug s l = events Release s l \/
  (snd (events Debug s l) = Panic /\ exists more, fst (events Release s l) = fst (events Debug s l) ++ more).
Proof.
  intros S L s l. revert s. induction l as [|e l IH]; intros s; cbn [events]; [left; reflexivity|].
  destruct (agrees_event s e) as [->| ->].
  - right. split; [reflexivity|]. eexists. reflexivity.
  - destruct (event Release s e) as [[o s']|x|]; [|left; reflexivity|left; reflexivity].
    specialize (IH s'). destruct (events Debug s' l) as [os f], (events Release s' l) as [os' f']. cbn [fst snd] in *.
    destruct IH as [E|[E [more E2]]]; [left; congruence|]. right. split; [exact E|]. exists more. rewrite E2. reflexivity.
Qed.
Print Assumptions C73_sessions_agree_until_a_panic.

(** the builds differ only on misuse: with parameters of [params_new], shares addressed to this participant,
    at most one per accepted participant, and a position other than the largest number, they do the same *)
Theorem C73_builds_agree_in_normal_use :
  forall (S : Suite) (L : SuiteLaws S),
  (forall n t, (1 <= u32v t <= u32v n)%N -> params_new Debug n t = params_new Release n t) /\
  (forall params, (1 <= u32v (p_t params))%N ->
     (forall x my co ps r, bootstrap Debug params x my co ps r = bootstrap Release params x my co ps r) /\
     (forall x my ps r, dkg_new Debug params x my ps r = dkg_new Release params x my ps r) /\
     (forall sk ps r, reshare Debug params sk ps r = reshare Release params sk ps r)) /\
  (forall valid s es r, begun valid s ->
     (forall e, In e es -> es_receiver e = ds_index (st1 s)) -> length es <= length valid ->
     to_round_two Debug s es r = to_round_two Release s es r /\ to_round_two Release s es r <> Panic) /\
  (forall k h gk l idx ss, (idx + 1 < 2 ^ 64)%N -> sign Debug k h gk l idx ss = sign Release k h gk l idx ss).
Proof.
  intros S L. split.
  { intros n t H. unfold params_new. cbn [is_debug andb]. unfold u32_eqb, u32_ltb. change (u32v u32_zero) with 0%N.
    replace (N.eqb (u32v n) 0) with false by (symmetry; apply N.eqb_neq; lia).
    replace (N.eqb (u32v t) 0) with false by (symmetry; apply N.eqb_neq; lia).
    replace (N.ltb (u32v n) (u32v t)) with false by (symmetry; apply N.ltb_ge; lia). reflexivity. }
  split.
  { intros params Ht. split; [|split].
    - intros x my co ps r. destruct (agrees_ns params x my (Some co) ps true true r) as [E|E]; [|exact E].
      unfold bootstrap. rewrite E. symmetry.
      apply (proj1 (C14_round_one_panics_exactly S L Release params x my co ps r Ht)).
      apply (proj1 (C14_round_one_panics_exactly S L Debug params x my co ps r Ht)). exact E.
    - intros x my ps r. destruct (agrees_ns params x my None ps false true r) as [E|E]; [|exact E].
      unfold dkg_new. rewrite E. symmetry.
      apply (proj2 (C14_round_one_panics_exactly S L Release params x my [] ps r Ht)).
      apply (proj2 (C14_round_one_panics_exactly S L Debug params x my [] ps r Ht)). exact E.
    - intros sk ps r. destruct (agrees_reshare params sk ps r) as [E|E]; [|exact E].
      destruct (C14_reshare_never_panics S L Debug params sk ps r Ht E). }
  split.
  { intros valid s es r Hb Hr Hl. destruct (begun_inv valid s Hb) as (st & comms & -> & Hc & N1 & N2 & K1 & K2 & Hp & Hn).
    assert (D : to_round_two Debug (R1 st) es r <> Panic).
    { destruct (N.lt_ge_cases (N.of_nat (length es)) (u32v (p_t (ds_params st)))) as [Ht|Ht].
      { rewrite to_round_two_few by exact Ht. discriminate. }
      destruct (acceptable_split Debug st es) as [HF|(es1 & e & es2 & -> & H1 & H2)].
      - destruct (to_round_two_done Debug st comms es r Hc N1 Ht HF) as (cs & r' & HL & ->).
        assert (Hcl : length cs <= length es).
        { clear - HL. induction HL; cbn [length]; lia. }
        unfold remaining. cbv zeta. rewrite Hn.
        replace (N.ltb _ _) with false; [destruct (N.ltb _ _); discriminate|]. symmetry. apply N.ltb_ge.
        eapply N.le_trans; [apply N.mod_le; discriminate|]. lia.
      - rewrite (to_round_two_stop Debug st comms) by assumption. cbn [is_debug andb].
        rewrite (Hr e) by (apply in_or_app; right; left; reflexivity). cbn [st1]. rewrite u32_eqb_refl. discriminate. }
    destruct (agrees_round_two (R1 st) es r) as [E|E]; [contradiction|]. split; [exact E|]. rewrite <- E. exact D. }
  intros k h gk l idx ss Hi. change (2 ^ 64)%N with 18446744073709551616%N in Hi.
  rewrite !sign_eq, !usize_succ_ok by exact Hi. reflexivity.
Qed.
Print Assumptions C73_builds_agree_in_normal_use.

(** where the builds differ: invalid parameters, a misaddressed share, more complaints than participants,
    the largest position; and a run in which they do not *)
Example C73_ex :
  params_new Debug (u 2) (u 3) = Panic /\ params_new Release (u 2) (u 3) = Err InvalidThresholdParams /\
  (let* (_, cs, _) := to_round_two Debug (demo_r1 demo_ps 3) (demo_shares 2) 7%N in Ok (length cs)) = Panic /\
  (let* (_, cs, _) := to_round_two Release (demo_r1 demo_ps 3) C17_flood 7%N in Ok (length cs)) = Ok 4 /\
  (let* (_, cs, _) := to_round_two Debug (demo_r1 demo_ps 3) C17_flood 7%N in Ok (length cs)) = Panic /\
  forallb (fun e => u32_eqb (es_receiver e) (ds_index (st1 (demo_r1 demo_ps 3)))) (demo_shares 3) = true /\
  Nat.leb (length (demo_shares 3)) 3 = true.
Proof. vms. Qed.

(** C74 *)
Theorem C74_nothing_panics_after_round_two :
  forall (S : Suite) (L : SuiteLaws S) (valid : list Participant) (s : RoundTwo),
  second_round valid s ->
  (forall cs, exists keys s', blame s cs = Ok (keys, s')) /\
  ((exists gk sk, finish s = Ok (gk, sk)) \/
   (In u32_zero (map pt_index valid) /\ exists e, finish s = Err e)).
Proof.
  intros S L valid s H. destruct (second_round_inv valid s H) as (st & comms & shares & -> & Hc & Hs & N1 & N2 & K1 & K2 & Hp).
  split.
  { intros cs. destruct (C22_blame_outcome S L st comms shares cs Hc Hs) as (l & keys & st' & Eb & _). eauto. }
  destruct (in_dec u32_eq_dec u32_zero (map pt_index valid)) as [Hz|Hz].
  - destruct (finish (R2 st)) as [[gk sk]|e|] eqn:E; [left; eauto|right; eauto|]. exfalso. revert E. unfold finish. cbn [st2].
    unfold calculate_signing_key, calculate_group_key. rewrite Hs, Hc.
    destruct (signing_key_loop _ _ _) as [k|e|] eqn:E1; cbn [bind]; [|discriminate|destruct (signing_key_loop_no_panic _ _ _ E1)].
    destruct (group_key_loop _ _ _) as [k'|e|] eqn:E2; cbn [bind]; [discriminate|discriminate|].
    destruct (group_key_loop_no_panic _ _ Hp _ E2).
  - left. do 2 eexists. apply (finish_ok st comms shares Hc Hs); [| |exact Hp].
    + split; [exact N1|]. intros X. apply Hz, K1, X.
    + split; [exact N2|]. intros X. apply Hz, K2, X.
Qed.
Print Assumptions C74_nothing_panics_after_round_two.

(** the functions working on public commitments never panic *)
Theorem C74_verifying_keys_never_panic :
  forall (S : Suite) (L : SuiteLaws S) (i : u32) (k : VerifyingKey) (cs : list Vss),
  ivk_generate i cs <> Panic /\ ivk_verify k cs <> Panic.
Proof.
  intros S L i k cs. split.
  - unfold ivk_generate. destruct (ivk_generate_loop _ _ _ _) eqn:E; try discriminate. exfalso. revert E.
    generalize (Gzero (Suite := S)). generalize (of_u32 i). generalize (map vss_index cs). intros idx x.
    induction cs as [|c cs IH]; intros g; cbn [ivk_generate_loop]; [discriminate|].
    destruct (lagrange_cases (vss_index c) idx) as [->|[e ->]]; cbn [bind]; [apply IH|discriminate].
  - unfold ivk_verify. destruct (ivk_verify_loop _ _ _ _) eqn:E; cbn [bind]; try (destruct (Geqb _ _); discriminate); try discriminate.
    exfalso. revert E.
    generalize (Gzero (Suite := S)). generalize (of_u32 (vk_index k)). generalize (map vss_index cs). intros idx x.
    induction cs as [|c cs IH]; intros g; cbn [ivk_verify_loop]; [discriminate|].
    destruct (lagrange_cases (vss_index c) idx) as [->|[e ->]]; cbn [bind]; [apply IH|discriminate].
Qed.
Print Assumptions C74_verifying_keys_never_panic.

(** sessions as in the hypotheses: the three-party run, and the run with a dealer of index zero *)
Lemma demo_begun_of (ps : list Participant) (i : N) s l r' :
  bootstrap Debug demo_params (dealer_x 3 2 i (10 * i)) (u i) (dealer_co 3 2 i (10 * i)) ps (1000 + i)%N = Ok (s, l, r') ->
  begun (pl_valid l) (demo_r1 ps i).
Proof.
  intros E. unfold demo_r1. rewrite E. cbn [got].
  exists Debug, demo_params, (dealer_x 3 2 i (10 * i)), (u i), ps, (1000 + i)%N, l, r'. split; [reflexivity|]. right. eexists. exact E.
Qed.
Lemma begun_if_ok (ps : list Participant) (i : N) :
  is_ok (bootstrap Debug demo_params (dealer_x 3 2 i (10 * i)) (u i) (dealer_co 3 2 i (10 * i)) ps (1000 + i)%N) = true ->
  exists valid, begun valid (demo_r1 ps i).
Proof.
  destruct (bootstrap Debug demo_params _ _ _ ps _) as [[[s l] r']|e|] eqn:E; try discriminate. intros _.
  exists (pl_valid l). eapply demo_begun_of, E.
Qed.
Lemma second_if_ok (ps : list Participant) (i : N) (es : list EncShare) (r : Rng) valid :
  begun valid (demo_r1 ps i) ->
  is_ok (to_round_two Debug (demo_r1 ps i) es r) = true ->
  exists s, second_round valid s /\ exists cs r', to_round_two Debug (demo_r1 ps i) es r = Ok (s, cs, r').
Proof.
  intros Hb. destruct (to_round_two Debug (demo_r1 ps i) es r) as [[[s cs] r']|e|] eqn:E; try discriminate. intros _.
  exists s. split; [eapply sr_start; [exact Hb|exact E]|eauto].
Qed.
Lemma C74_r1 : is_ok (bootstrap Debug demo_params (dealer_x 3 2 1 (10 * 1)) (u 1) (dealer_co 3 2 1 (10 * 1)) demo_ps (1000 + 1)%N) = true.
Proof. vmr. Qed.
Lemma C74_r2 : is_ok (to_round_two Debug (demo_r1 demo_ps 1) (demo_shares 1) 7%N) = true.
Proof. vmr. Qed.
Example C74_ex : exists valid s cs r', second_round valid s /\
  to_round_two Debug (demo_r1 demo_ps 1) (demo_shares 1) 7%N = Ok (s, cs, r').
Proof.
  destruct (begun_if_ok demo_ps 1 C74_r1) as [valid Hb]. exists valid.
  destruct (second_if_ok demo_ps 1 (demo_shares 1) 7%N valid Hb C74_r2) as (s & H1 & cs & r' & H2). exists s, cs, r'. auto.
Qed.
Example C74_ex_finish :
  is_ok (let* (s, _, _) := to_round_two Debug (demo_r1 demo_ps 1) (demo_shares 1) 7%N in finish s) = true /\
  is_ok (let* (s, _, _) := to_round_two Debug (demo_r1 demo_ps 1) (demo_shares 1) 7%N in
         let* (_, s) := blame s [victim_c 2 3; spoiled (victim_c 2 3)] in finish s) = true /\
  zero_end 1 = Err IndexIsZero.
Proof. vms. Qed.
