(** C130: the benchmarks never stop and time successful calls only; lists of nonces are not tied to a signer. *)
From Coq Require Import String Strings.Byte Arith NArith ZArith Bool List Lia Permutation Field.
From Verif Require Import Base BaseLemmas Suite Algebra Spec Types Toy ModelDkg ModelSign ModelDoc ModelBench SpecDkg SpecSign
  LemmasShare LemmasRound1 LemmasRound2 LemmasFinish PropsRound1 PropsShare PropsFinish PropsReshare LemmasSign PropsSign LemmasAgg PropsAgg
  PropsDoc PropsErase Demo DemoDkg DemoSign.
Import ListNotations.

Section Bench.
  Context {S : Suite} {L : SuiteLaws S}.

  Lemma ignored_ok {A} (x : result A) a : x = Ok a -> ignored x = Ok tt.
  Proof. intros ->. reflexivity. Qed.

  Lemma nodup_first {A} n (l : list A) : NoDup l -> NoDup (firstn n l).
  Proof.
    intros H. revert n. induction H as [|a l Ha _ IH]; intros [|n]; cbn [firstn]; constructor; [|apply IH].
    intros X. apply Ha. eapply in_firstn, X.
  Qed.
  Lemma rounds_ok m n t ids r :
    good_indices ids -> N.of_nat (length ids) = u32v n -> (1 <= u32v t <= u32v n)%N ->
    exists parties boxes s2s r' s out,
      bench_rounds m n t ids r = Ok (MkParams n t, map triple parties, combine (map y_st parties) boxes, s2s, r') /\
      map y_index parties = ids /\ honest_parties (MkParams n t) parties /\ all_bootstrapped m (MkParams n t) parties /\
      Forall2 (fun p box => forall r, exists s2 r', to_round_two m (y_st p) box r = Ok (s2, [], r') /\ finish s2 = Ok (out p)) parties boxes /\
      Forall2 (fun p s2 => finish s2 = Ok (out p)) parties s2s /\
      holders ids (N.to_nat (u32v t)) s (map out parties).
  Proof.
    intros Hg Hn Ht. unfold bench_rounds. rewrite params_ok by exact Ht. cbn [bind]. set (params := MkParams n t).
    destruct (doc_dealt m n t ids r Hg Hn Ht) as (parties & r1 & r2 & E1 & E2 & Qi & HH & HB & Hix & HQ). fold params in E1, E2, HH, HB.
    rewrite E1. cbn [bind]. rewrite map_map. change (map (fun x => fst (fst (triple x))) parties) with (map y_d parties). rewrite E2. cbn [bind].
    rewrite !map_map. change (map (fun x => fst (y_st x, y_es x)) parties) with (map y_st parties).
    change (map (fun x => snd (y_st x, y_es x)) parties) with (map y_es parties).
    destruct (C18_honest_agreement S L m params parties HH HB) as (s & Es & HA).
    set (out := fun p => ((gen * s)%G, MkSK (y_index p) (interp0 (dealt_values parties (of_u32 (y_index p)))))).
    destruct (traverse_ok (fun g i => In g parties /\ i = y_index g) (fun g box => In g parties /\ delivered parties g box)
      (doc_box (map y_es parties)) parties ids) as (boxes & E3 & HBox).
    { rewrite <- Qi. apply forall2_map_r. eapply forall2_impl; [|apply forall2_self with (P := fun g => In g parties)]; [|auto].
      intros a b [<- Ha]. auto. }
    { intros g i [Hgp ->]. destruct (traverse_ok (fun p es => In p parties /\ es = y_es p) (fun p e => bget (y_index g) (y_es p) = Some e)
        (fun es => unwrap (bget (y_index g) es)) parties (map y_es parties)) as (box & E & HF).
      - apply forall2_map_r. eapply forall2_impl; [|apply forall2_self with (P := fun g => In g parties)]; [|auto]. intros a b [<- Ha]. auto.
      - intros p es [Hp ->]. destruct (HQ p (y_index g) Hp) as (e & Ee); [rewrite <- Qi; apply in_map, Hgp|]. exists e. rewrite Ee. split; reflexivity.
      - exists box. split; [exact E|]. split; [exact Hgp|exact HF]. }
    rewrite E3. cbn [bind].
    assert (HR : Forall2 (fun p box => forall r, exists s2 r', to_round_two m (y_st p) box r = Ok (s2, [], r') /\ finish s2 = Ok (out p)) parties boxes).
    { eapply forall2_impl; [|exact HBox]. intros q box [Hq Hdel] r0.
      destruct (HA q parties box r0 Hq (Permutation_refl _) Hdel) as (s2 & r' & sk & B1 & B2 & B3 & B4 & _).
      exists s2, r'. split; [exact B1|]. unfold out. rewrite B2. f_equal. f_equal. destruct sk as [i k]. cbn in B3, B4. congruence. }
    destruct (each_ok (fun p (c : RoundOne * list EncShare) => forall r, exists s2 r', to_round_two m (fst c) (snd c) r = Ok (s2, [], r') /\ finish s2 = Ok (out p))
      (fun p s2 => finish s2 = Ok (out p)) (bench_round_two m) parties (combine (map y_st parties) boxes) r2) as (s2s & r3 & E4 & HF).
    { clear -HR. revert HR. generalize out. clear out. intros out HR. generalize dependent boxes. induction parties as [|p l IH]; intros boxes H; inversion H; subst; cbn [map combine]; constructor; [assumption|].
      apply IH. assumption. }
    { intros p c r0 H. destruct (H r0) as (s2 & r' & A & B). exists s2, r'. unfold bench_round_two. rewrite A. split; [reflexivity|exact B]. }
    rewrite E4. cbn [bind]. exists parties, boxes, s2s, r3, s, out. split; [reflexivity|].
    do 3 (split; [assumption|]). split; [exact HR|]. split; [exact HF|].
    split; [rewrite map_map; exact Qi|]. split.
    - rewrite map_map. cbn [out snd]. rewrite Es. apply (dealt_keys_sharing S L params parties HH).
    - intros o Ho. apply in_map_iff in Ho. destruct Ho as (p & <- & _). reflexivity.
  Qed.
End Bench.

Theorem C130_key_generation_benchmark :
  forall (S : Suite) (L : SuiteLaws S) (m : build) (n t : u32) (ids : list u32) (r : Rng),
  good_indices ids -> N.of_nat (length ids) = u32v n -> (1 <= u32v t <= u32v n)%N ->
  exists l, bench_dkg m n t ids r = Ok l /\ length l = 7 /\
    forall name f r', In (name, f) l -> f r' = Ok tt.
Proof.
  intros S L m n t ids r Hg Hn Ht. unfold bench_dkg.
  destruct (rounds_ok m n t ids r Hg Hn Ht) as (parties & boxes & s2s & r1 & s & out & E & Qi & HH & HB & H1 & H2 & HO).
  rewrite E. cbn [bind]. set (params := MkParams n t) in *.
  destruct parties as [|p parties]; [cbn in Qi; subst ids; cbn in Hn; lia|].
  inversion H1 as [|? box ? boxes' B1 B2]; subst boxes. inversion H2 as [|? s2 ? s2s' D1 D2]; subst s2s.
  assert (Eh : hd_error ids = Some (y_index p)) by (rewrite <- Qi; reflexivity). rewrite Eh.
  cbn [map combine hd_error unwrap bind triple]. 
  destruct (B1 r1) as (s2' & r2 & A1 & A2). rewrite A1. cbn [bind]. rewrite D1. cbn [bind].
  destruct (out p) as [gk key1] eqn:Eo. cbn [bind].
  assert (Hp : In p (p :: parties)) by (left; reflexivity).
  pose proof (honest_fresh params _ p HH Hp) as Fp.
  assert (Hi : y_index p <> u32_zero) by (intros X; apply Hg; rewrite <- Qi, <- X; left; reflexivity).
  destruct (each_ok (fun i i' => i = i' /\ In i ids) (fun i z => exists r r', new_signer params i r = Ok (z, r')) (new_signer params) ids ids r2)
    as (zs & r3 & E1 & HZ).
  { apply forall2_self. auto. }
  { intros i i' r0 [<- Hin]. destruct (C12_new_signer_well_formed S L params i r0) as (d & y0 & r' & X & _).
    - intros ->. apply Hg, Hin.
    - exists (d, y0), r'. split; [exact X|]. exists r0, r'. exact X. }
  rewrite E1. cbn [bind].
  assert (HZ0 : exists hs, map z_index hs = ids /\ map (fun z => (z_p z, z_x z)) hs = zs /\
             forall z, In z hs -> exists r r', new_signer params (z_index z) r = Ok (z_p z, z_x z, r')).
  { clear -HZ. induction HZ as [|i [p x] ids zs (r & r' & E) _ (hs & A & B & C)]; [exists []; cbn; repeat split; intros ? []|].
    exists (MkHeir i p x :: hs). cbn [map z_index z_p z_x]. rewrite A, B. repeat split. intros z [<-|Hz]; [exists r, r'; exact E|apply C, Hz]. }
  destruct HZ0 as (hs & Zi & Zz & HZs).
  assert (HHs : honest_heirs params hs).
  { constructor; cbn [p_n p_t params].
    - rewrite <- Hn, <- Zi, map_length. reflexivity.
    - exact Ht.
    - rewrite Zi. exact Hg.
    - intros z Hz. left. apply HZs, Hz. }
  assert (Ek : sk_index key1 = y_index p).
  { destruct HO as (X & _). cbn [map] in X. rewrite <- Qi, Eo in X. cbn [map snd] in X. congruence. }
  destruct hs as [|z hs]; [cbn in Zi; rewrite <- Zi in Qi; discriminate Qi|].
  rewrite <- Zz. cbn [map hd_error unwrap bind].
  eexists. split; [reflexivity|]. split; [reflexivity|].
  intros name f r' Hin. cbn [In] in Hin.
  destruct Hin as [X|[X|[X|[X|[X|[X|[X|[]]]]]]]]; injection X as <- <-.
  - destruct (C12_new_dealer_well_formed S L params (y_index p) r') as (d & co & y0 & r'' & X & _); [exact Hi|apply Ht|].
    eapply ignored_ok, X.
  - destruct (C12_new_signer_well_formed S L params (y_index p) r' Hi) as (d & y0 & r'' & X & _). eapply ignored_ok, X.
  - destruct (C18_round_one_succeeds S L m params (p :: parties) p (map y_d (p :: parties)) r' HH Hp (Permutation_refl _)) as (st & es & r'' & X & _).
    rewrite (fd_index _ _ _ _ _ Fp), map_map. change (map (fun x => fst (fst (triple x))) parties) with (map y_d parties).
    change (y_d p :: map y_d parties) with (map y_d (p :: parties)). eapply ignored_ok, X.
  - destruct (B1 r') as (s3 & r'' & X & _). eapply ignored_ok, X.
  - eapply ignored_ok, A2.
  - destruct (C32_reshare_succeeds S L m params (z :: hs) key1 (map z_p (z :: hs)) r' HHs (Permutation_refl _)) as (d & es & r'' & X & _).
    { rewrite Ek. exact Hi. }
    rewrite map_map. cbn [fst]. eapply ignored_ok. exact X.
  - rewrite map_map. change (map (fun x => fst (fst (triple x))) parties) with (map y_d parties).
    change (y_d p :: map y_d parties) with (map y_d (p :: parties)).
    assert (Hfr : forall d, In d (map y_d (p :: parties)) -> exists i co x, fresh_dealer params i d co x).
    { intros d Hd. apply in_map_iff in Hd. destruct Hd as (q & <- & Hq). do 3 eexists. apply (honest_fresh params _ q HH Hq). }
    destruct (C13_new_outcome S L m params (z_x z) (pt_index (z_p z)) (map y_d (p :: parties)) r') as (valid & mis & SP & _ & X).
    { rewrite map_length. apply (hp_count _ _ HH). }
    { apply Ht. }
    { intros d Hd. destruct (Hfr d Hd) as (i & co & y0 & FD). eapply fresh_not_crashing, FD. }
    assert (SA : splits ok_new (map y_d (p :: parties)) (map y_d (p :: parties)) []).
    { apply LemmasRound1.splits_all. intros d Hd. destruct (Hfr d Hd) as (i & co & y0 & FD).
      destruct (fresh_ok params i d co y0 (proj1 Ht) FD) as (A & B). split; [exact A|apply B]. }
    destruct (splits_fun _ _ _ _ _ _ SP SA) as [-> ->]. destruct X as (st & r'' & X & _).
    { rewrite map_length. rewrite (hp_count _ _ HH). apply Ht. }
    eapply ignored_ok, X.
Qed.
Print Assumptions C130_key_generation_benchmark.

(** the lists used by a signer were made by somebody, for whatever key *)
Definition borrowed {S : Suite} (g : Precomputed) : Prop :=
  (exists maker r n r', generate_commitment_share_lists r maker n = (pc_pub g, pc_sec g, r')) /\
  (pc_pos g + 1 < 18446744073709551616)%N /\ nth_error (pl_commitments (pc_pub g)) (N.to_nat (pc_pos g)) = Some (pc_pair g).

Theorem C130_lists_are_not_tied_to_a_signer :
  forall (S : Suite) (L : SuiteLaws S) (m : build) (p : Params) (msg : list byte) (t : nat) (s : F) (ks : list SigningKey)
    (gs : list Precomputed),
    recovers t s ks -> 1 <= t -> t <= length gs -> (N.of_nat (length gs) <= u32v (p_n p))%N ->
    (forall g, In g gs -> In (pc_key g) ks /\ borrowed g) -> NoDup (map (fun g => sk_index (pc_key g)) gs) ->
    let gk := (gen * s)%G in
    exists a1 ps,
      agg_run (agg_new p gk msg) (map (fun g => (CInc (sk_index (pc_key g)) (pc_pair g) (to_public (pc_key g)), Ok tt)) gs) a1 /\
      Forall2 (fun g q => fst (sign m (pc_key g) (h4 msg) gk (pc_sec g) (pc_pos g) (ag_signers (ai_state a1))) = Ok q) gs ps /\
      forall ps', Permutation ps' ps -> exists a2 f sig, agg_run a1 (deliver ps') a2 /\ finalize a2 = Ok f /\
        aggregate f = Ok sig /\ verify_signature gk sig (h4 msg) = Ok tt.
Proof.
  intros S L m p msg t s ks gs Hr H1 H2 H3 Hg Hnd gk.
  assert (X : exists qs, Forall2 (fun g q => q_key q = pc_key g /\ q_list q = pc_sec g /\ q_pos q = pc_pos g /\
      pc_pair g = published (q_pair q) /\ cosigner_ok q) gs qs).
  { clear H2 H3 Hnd. induction gs as [|g gs IH]; [exists []; constructor|].
    destruct IH as (qs & Hqs); [intros g' Hg'; apply Hg; right; exact Hg'|].
    destruct (Hg g (or_introl eq_refl)) as (_ & (maker & r & n & r' & E) & Hp & Hn).
    destruct (C37_lists_are_consistent S L r maker n) as (pub & sec & r2 & E2 & I & L1 & L2 & HC).
    rewrite E in E2. injection E2 as <- <- <-.
    assert (Hlt : N.to_nat (pc_pos g) < length (sl_commitments (pc_sec g))).
    { rewrite L1, <- L2. apply nth_error_Some. rewrite Hn. discriminate. }
    destruct (nth_error (sl_commitments (pc_sec g)) (N.to_nat (pc_pos g))) as [cs|] eqn:Ec; [|apply nth_error_None in Ec; lia].
    destruct (HC _ _ Ec) as [_ HP]. exists (MkCo (pc_key g) (pc_sec g) (pc_pos g) cs :: qs). constructor; [|exact Hqs].
    cbn [q_key q_list q_pos q_pair]. do 3 (split; [reflexivity|]). split; [congruence|]. split; [exact Hp|exact Ec]. }
  destruct X as (qs & HF).
  assert (EL : length qs = length gs) by (clear -HF; induction HF as [|g q gs qs _ _ IH]; [reflexivity|cbn [length]; rewrite IH; reflexivity]).
  assert (EA : announce qs = map (fun g => (CInc (sk_index (pc_key g)) (pc_pair g) (to_public (pc_key g)), Ok tt)) gs).
  { clear -HF. induction HF as [|g q gs qs (A & _ & _ & C & _) _ IH]; [reflexivity|]. cbn [announce map]. fold (announce qs). rewrite IH.
    unfold to_public. rewrite A, C. reflexivity. }
  assert (EI : map (fun q => sk_index (q_key q)) qs = map (fun g => sk_index (pc_key g)) gs).
  { clear -HF. induction HF as [|g q gs qs (A & _) _ IH]; [reflexivity|]. cbn [map]. rewrite IH, A. reflexivity. }
  destruct (C43_honest_signers_produce_a_valid_signature S L m p msg t s ks qs Hr H1) as (a1 & ps & A1 & A2 & A3).
  - rewrite EL. exact H2.
  - rewrite EL. exact H3.
  - intros q Hq. destruct (forall2_in_r _ _ _ HF q Hq) as (g & Hing & (A & _ & _ & _ & B)). rewrite A. split; [apply Hg, Hing|exact B].
  - rewrite EI. exact Hnd.
  - exists a1, ps. split; [rewrite <- EA; exact A1|]. split.
    + clear -HF A2. unfold signed in A2. revert ps A2. induction HF as [|g q gs qs (A & B & C & _) _ IH]; intros ps H; inversion H; subst; constructor.
      * rewrite <- A, <- B, <- C. assumption.
      * apply IH. assumption.
    + intros ps' Hps. destruct (A3 ps' Hps) as (a2 & f & sig & B1 & B2 & B3 & B4 & _). exists a2, f, sig. auto.
Qed.
Print Assumptions C130_lists_are_not_tied_to_a_signer.

Theorem C130_signing_benchmark :
  forall (S : Suite) (L : SuiteLaws S) (m : build) (n t : u32) (ids : list u32) (message : list byte) (r : Rng),
  good_indices ids -> N.of_nat (length ids) = u32v n -> (1 <= u32v t <= u32v n)%N ->
  exists l sig, bench_sign m n t ids message r = Ok (l, sig) /\ length l = 3 /\
    forall name f r', In (name, f) l -> f r' = Ok tt.
Proof.
  intros S L m n t ids message r Hg Hn Ht. unfold bench_sign.
  destruct (rounds_ok m n t ids r Hg Hn Ht) as (parties & boxes & s2s & r1 & s & out & E & Qi & HH & HB & _ & H2 & HO).
  rewrite E. cbn [bind]. set (params := MkParams n t) in *. clear E. set (k := N.to_nat (u32v t)) in *.
  assert (Hk : 1 <= k <= length ids) by (unfold k; lia). clearbody k.
  assert (HF : forall (l1 : list Party) l2, Forall2 (fun p s2 => finish s2 = Ok (out p)) l1 l2 -> traverse finish l2 = Ok (map out l1)).
  { intros l1 l2. induction 1 as [|a b l1 l2 X _ IH]; [reflexivity|]. cbn [traverse map]. rewrite X. cbn [bind]. rewrite IH. reflexivity. }
  assert (HFf : forall j (l1 : list Party) l2, Forall2 (fun p s2 => finish s2 = Ok (out p)) l1 l2 -> Forall2 (fun p s2 => finish s2 = Ok (out p)) (firstn j l1) (firstn j l2)).
  { intros j l1 l2 H. revert j. induction H; intros [|j]; cbn [firstn]; constructor; auto. }
  assert (HFs : forall j (l1 : list Party) l2, Forall2 (fun p s2 => finish s2 = Ok (out p)) l1 l2 -> Forall2 (fun p s2 => finish s2 = Ok (out p)) (skipn j l1) (skipn j l2)).
  { intros j l1 l2 H. revert j. induction H; intros [|j]; cbn [skipn]; try constructor; auto. }
  rewrite (HF _ _ (HFf k _ _ H2)). cbn [bind]. rewrite (HF _ _ (HFs (k + 1) _ _ H2)). cbn [bind].
  destruct HO as (Hi & HR & HK).
  set (mine := firstn k parties).
  assert (Lp : length parties = length ids) by (rewrite <- Qi, map_length; reflexivity).
  assert (Lm : length mine = k) by (unfold mine; rewrite firstn_length; lia).
  assert (Hmi : forall q, In q mine -> In q parties) by (intros q; apply in_firstn).
  destruct mine as [|p mine'] eqn:Em; [cbn in Lm; lia|]. rewrite <- Em in *. 
  assert (Eh : hd_error (map out mine) = Some (out p)) by (rewrite Em; reflexivity). rewrite Eh. cbn [unwrap bind].
  destruct (out p) as [gk key1] eqn:Eo.
  assert (Egk : gk = (gen * s)%G).
  { change gk with (fst (gk, key1)). rewrite <- Eo. apply HK, in_map, Hmi. rewrite Em. left. reflexivity. }
  rewrite Egk. clear Egk.
  destruct (generate_commitment_share_lists r1 key1 1) as [[pub1 sec1] r2] eqn:E1.
  set (keys := map snd (map out mine)).
  destruct (each_ok (fun o o' => o = o' /\ True)
    (fun (o : SigningKey) (x : PublicList * SecretList) => exists r r', generate_commitment_share_lists r o 1 = (fst x, snd x, r'))
    (fun key r => Ok (generate_commitment_share_lists r key 1)) keys keys r2) as (ls & r3 & E2 & HL).
  { apply forall2_self. auto. }
  { intros o o' r0 [<- _]. destruct (generate_commitment_share_lists r0 o 1) as [[pub sec] r'] eqn:E.
    exists (pub, sec), r'. split; [reflexivity|]. exists r0, r'. exact E. }
  rewrite E2. cbn [bind].
  assert (Lk : length keys = k) by (unfold keys; rewrite !map_length; exact Lm).
  assert (Ll : length ls = k) by (rewrite <- Lk; clear -HL; induction HL; cbn; congruence).
  assert (HM : forall x, In x ((pub1, sec1) :: ls) -> exists maker r r', generate_commitment_share_lists r maker 1 = (fst x, snd x, r')).
  { intros x [<-|Hx]; [exists key1, r1, r2; exact E1|]. destruct (forall2_in_r _ _ _ HL x Hx) as (o & _ & (a & b & X)). exists o, a, b. exact X. }
  set (signing := combine keys ((pub1, sec1) :: ls)).
  (* as signers with lists made by somebody *)
  assert (HG : exists gs, map (fun g => (pc_key g, (pc_pub g, pc_sec g))) gs = signing /\ map pc_key gs = keys /\
     forall g, In g gs -> pc_pos g = 0%N /\ borrowed g).
  { unfold signing. assert (Hle : length keys <= length ((pub1, sec1) :: ls)) by (cbn [length]; lia).
    revert HM Hle. generalize ((pub1, sec1) :: ls). generalize keys. clear -L. intros keys. induction keys as [|key keys IH]; intros l HM Hle.
    - exists []. cbn. repeat split; intros; contradiction.
    - destruct l as [|x l]; [cbn in Hle; lia|]. destruct (IH l) as (gs & X & Y & Z); [intros y Hy; apply HM; right; exact Hy|cbn in Hle; lia|].
      destruct (HM x (or_introl eq_refl)) as (maker & r & r' & E). destruct x as [pub sec]. cbn [fst snd] in E.
      destruct (C37_lists_are_consistent S L r maker 1) as (pub' & sec' & r2 & E' & I & L1 & L2 & _).
      rewrite E in E'. injection E' as <- <- <-. destruct (pl_commitments pub) as [|pair rest] eqn:Ep; [discriminate L2|].
      exists (MkPre S key pub sec 0%N pair :: gs). cbn [map combine pc_key pc_pub pc_sec]. rewrite X, Y. do 2 (split; [reflexivity|]).
      intros g [<-|Hg]; [|apply Z, Hg]. split; [reflexivity|]. split; [exists maker, r, 1, r'; exact E|]. split; [cbn; lia|].
      cbn [pc_pub pc_pos pc_pair]. rewrite Ep. reflexivity. }
  destruct HG as (gs & Eg & Eks & HG).
  assert (Lg : length gs = k) by (rewrite <- Lk, <- Eks, map_length; reflexivity).
  assert (Hki : map (fun g => sk_index (pc_key g)) gs = firstn k ids).
  { rewrite <- (map_map pc_key sk_index), Eks. unfold keys. rewrite !map_map, <- Hi, map_map. unfold mine. rewrite firstn_map. reflexivity. }
  assert (Hndf : NoDup (firstn k ids)).
  { apply nodup_first, Hg. }
  destruct (C130_lists_are_not_tied_to_a_signer S L m params message k s (map snd (map out parties)) gs HR) as (a1 & ps & R1' & R2' & R3').
  { lia. } { lia. } { rewrite Lg. cbn [p_n params]. lia. }
  { intros g Hgin. split; [|apply HG, Hgin]. assert (X : In (pc_key g) keys) by (rewrite <- Eks; apply in_map, Hgin).
    unfold keys in X. rewrite map_map in X |- *. apply in_map_iff in X. destruct X as (q & <- & Hq). apply (in_map (fun x => snd (out x))), Hmi, Hq. }
  { rewrite Hki. exact Hndf. }
  assert (EI : bench_include (agg_new params (gen * s)%G message) (combine ids signing) = Ok a1).
  { rewrite <- Eg. assert (EC : combine ids (map (fun g => (pc_key g, (pc_pub g, pc_sec g))) gs) =
      map (fun g => (sk_index (pc_key g), (pc_key g, (pc_pub g, pc_sec g)))) gs).
    { clear -Hki Lg Hk. revert gs k Hki Lg Hk. induction ids as [|i ids' IH]; intros gs k Hki Lg Hk.
      - destruct gs; [reflexivity|]. cbn in Hk. lia.
      - destruct gs as [|g gs]; [reflexivity|]. destruct k as [|k]; [discriminate Lg|]. cbn [map firstn] in Hki. injection Hki as Hj Ht.
        cbn [map combine]. rewrite Hj. f_equal. destruct k as [|k]; [destruct gs; [destruct ids'; reflexivity|discriminate Lg]|].
        apply IH with (k := Datatypes.S k); [exact Ht|cbn in Lg; congruence|cbn in Hk |- *; lia]. }
    rewrite EC. clear -R1' HG. revert R1'. generalize (agg_new params (gen * s)%G message). induction gs as [|g gs IH]; intros a H; cbn [map] in H.
    - inversion H; subst. reflexivity.
    - cbn [map bench_include]. destruct (HG g (or_introl eq_refl)) as (P0 & (_ & _ & Hnth)). rewrite P0 in Hnth. cbn [N.to_nat] in Hnth.
      rewrite Hnth. cbn [unwrap bind].
      inversion H as [|x i com pk o x1 tr x3 HI HRun|]; subst. rewrite HI. cbn [bind]. apply IH; [|exact HRun].
      intros g' Hg'. apply HG. right; exact Hg'. }
  rewrite EI. cbn [bind].
  assert (EP : traverse (fun x : SigningKey * (PublicList * SecretList) => fst (sign m (fst x) (h4 message) (gen * s)%G (snd (snd x)) 0 (ag_signers (ai_state a1)))) signing = Ok ps).
  { rewrite <- Eg. clear -R2' HG. induction R2' as [|g q gs ps E _ IH]; [reflexivity|]. cbn [map traverse fst snd].
    destruct (HG g (or_introl eq_refl)) as (P0 & _). rewrite P0 in E. rewrite E. cbn [bind].
    rewrite IH by (intros g' Hg'; apply HG; right; exact Hg'). reflexivity. }
  rewrite EP. cbn [bind].
  destruct (R3' ps (Permutation_refl _)) as (a2 & f & sig & B1 & B2 & B3 & B4).
  assert (EA : fold_left include_partial_signature ps a1 = a2).
  { clear -B1. unfold deliver in B1. revert a1 B1. induction ps as [|q ps IH]; intros a H; cbn [map] in H; inversion H; subst; [reflexivity|].
    cbn [fold_left]. apply IH. assumption. }
  rewrite EA, B2. cbn [bind]. rewrite B3. cbn [bind].
  eexists. exists sig. split; [reflexivity|]. split; [reflexivity|].
  intros name fn r' Hin. cbn [In] in Hin.
  destruct Hin as [X|[X|[X|[]]]]; injection X as <- <-.
  - assert (Es : exists rest, signing = (key1, (pub1, sec1)) :: rest).
    { unfold signing, keys. rewrite Em. cbn [map combine]. rewrite Eo. eexists. reflexivity. }
    destruct Es as (rest & Es). rewrite Es in EP. cbn [traverse fst snd] in EP.
    destruct (fst (sign m key1 (h4 message) (gen * s)%G sec1 0 (ag_signers (ai_state a1)))) as [q|e|] eqn:Eq; [|discriminate EP|discriminate EP].
    reflexivity.
  - reflexivity.
  - eapply ignored_ok. exact B4.
Qed.
Print Assumptions C130_signing_benchmark.

(** a list made by somebody else: its maker, who knows the nonces, learns the key from the signature *)
Theorem C130_maker_of_the_list_learns_the_key :
  forall (S : Suite) (L : SuiteLaws S) (m : build) (maker : SigningKey) (n : nat) (r r' : Rng) (pub : PublicList) (sec rest : SecretList)
    (k : SigningKey) (h : list byte) (gk : G) (pos : N) (ss : list Signer) (p : PartialSig),
  generate_commitment_share_lists r maker n = (pub, sec, r') ->
  sign m k h gk sec pos ss = (Ok p, rest) -> session_chal h gk ss <> F0 ->
  exists pair, nth_error (sl_commitments sec) (N.to_nat pos) = Some pair /\
    forall y, ps_z p = partial_value h gk ss (ps_index p) (co_secret (cs_hiding pair)) (co_secret (cs_binding pair)) y <-> y = sk_key k.
Proof.
  intros S L m maker n r r' pub sec rest k h gk pos ss p _ Hs Hc.
  destruct (sign_ok_inv m k h gk sec pos ss p rest Hs) as (cs & A & _ & Hg & -> & _). exists cs. split; [exact A|].
  intros y. cbn [ps_z ps_index]. split; [|intros ->; reflexivity].
  intros E. symmetry. eapply key_from_nonces; [exact Hg|exact Hc|exact E].
Qed.
Print Assumptions C130_maker_of_the_list_learns_the_key.

(** the benchmarks as they are, five participants with threshold three *)
Definition bench_ids : list u32 := [u 1; u 2; u 3; u 4; u 5].
Example C130_ex_hypotheses :
  good_indices bench_ids /\ N.of_nat (length bench_ids) = u32v (u 5) /\ (1 <= u32v (u 3) <= u32v (u 5))%N.
Proof.
  assert (V : u32v (u 3) = 3%N /\ u32v (u 5) = 5%N) by (split; reflexivity). destruct V as (V3 & V5). rewrite V3, V5.
  split; [good|]. split; [reflexivity|lia].
Qed.
Example C130_ex_dkg :
  (let* l := bench_dkg (S := Toy) Debug (u 5) (u 3) bench_ids 7%N in Ok (map (fun x => (fst x, snd x 5%N)) l))
  = Ok [("Participant creation (dealer)", Ok tt); ("Participant creation (signer)", Ok tt); ("Round One (dealer)", Ok tt);
        ("Round Two", Ok tt); ("Finish", Ok tt); ("Reshare", Ok tt); ("Round One (signer)", Ok tt)]%string.
Proof. vms. Qed.
Example C130_ex_sign :
  (let* (l, _) := bench_sign (S := Toy) Debug (u 5) (u 3) bench_ids [x68; x69] 7%N in Ok (map (fun x => (fst x, snd x 5%N)) l))
  = Ok [("Partial signature creation", Ok tt); ("Signature aggregation", Ok tt); ("Signature verification", Ok tt)]%string.
Proof. vms. Qed.

(** participants 1 and 3 sign with each other's lists *)
Definition exchanged (i j : Z) : Precomputed :=
  @MkPre Toy (skey i) (fst (fst (smade j))) (snd (fst (smade j))) 0%N (nth 0 (spub j) (mk 0, mk 0)).
Lemma exchanged_ok i j c : nth_error (pl_commitments (fst (fst (smade j)))) 0 = Some c -> c = nth 0 (spub j) (mk 0, mk 0) ->
  borrowed (exchanged i j).
Proof.
  intros E ->. split; [|split; [reflexivity|cbn [pc_pub exchanged pc_pos pc_pair]; exact E]].
  exists (skey j), (Z.to_N (50 * j)), 3, (snd (smade j)). cbn [pc_pub pc_sec exchanged]. fold (smade j).
  destruct (smade j) as [[? ?] ?]. reflexivity.
Qed.
Example C130_ex_exchanged :
  (forall g, In g [exchanged 1 3; exchanged 3 1] -> In (pc_key g) [skey 1; skey 2; skey 3] /\ borrowed g) /\
  NoDup (map (fun g => sk_index (pc_key g)) [exchanged 1 3; exchanged 3 1]).
Proof.
  split; [|cbn [map exchanged pc_key skey sk_index]; nodup]. intros g [<-|[<-|[]]].
  - split; [left; reflexivity|]. apply (exchanged_ok 1 3 (nth 0 (spub 3) (mk 0, mk 0))); [vmr|reflexivity].
  - split; [right; right; left; reflexivity|]. apply (exchanged_ok 3 1 (nth 0 (spub 1) (mk 0, mk 0))); [vmr|reflexivity].
Qed.
Definition exchanged_signers : list Signer := [MkSigner (u 1) (nth 0 (spub 3) (mk 0, mk 0)); MkSigner (u 3) (nth 0 (spub 1) (mk 0, mk 0))].
Example C130_ex_learns :
  is_ok (fst (sign (S := Toy) Debug (skey 1) shash sgroup (snd (fst (smade 3))) 0 exchanged_signers)) = true /\
  Feqb (session_chal shash sgroup exchanged_signers) (mk 0) = false.
Proof. vms. Qed.
