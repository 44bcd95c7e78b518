(** C13-C15: the first round of the key generation against arbitrary participant lists. *)
From Coq Require Import String Strings.Byte Arith NArith ZArith Bool List Lia.
From Verif Require Import Base Suite Spec SpecDkg Types Algebra BaseLemmas ModelDkg LemmasShare LemmasRound1
  Toy Demo DemoDkg.
Import ListNotations.

(** C13 *)
Theorem C13_count_mismatch :
  forall (S : Suite) (m : build) (params : Params) (x : F) (my : u32) (co : list F) (ps : list Participant) (r : Rng),
  N.of_nat (length ps) <> u32v (p_n params) ->
  bootstrap m params x my co ps r = Err (InvalidNumberOfParticipants (length ps) (p_n params)) /\
  dkg_new m params x my ps r = Err (InvalidNumberOfParticipants (length ps) (p_n params)).
Proof. intros. split; apply ns_count; assumption. Qed.
Print Assumptions C13_count_mismatch.

Theorem C13_bootstrap_outcome :
  forall (S : Suite) (L : SuiteLaws S) (m : build) (params : Params) (x : F) (my : u32) (co : list F)
         (ps : list Participant) (r : Rng),
  N.of_nat (length ps) = u32v (p_n params) -> (1 <= u32v (p_t params))%N ->
  (forall p, In p ps -> ~ crashing p) ->
  exists valid mis,
    splits (ok_bootstrap (p_t params)) ps valid mis /\
    ((N.of_nat (length valid) < u32v (p_t params))%N ->
       bootstrap m params x my co ps r = Err (TooManyInvalidParticipants mis)) /\
    ((u32v (p_t params) <= N.of_nat (length valid))%N ->
       exists st r', bootstrap m params x my co ps r = Ok (R1 st, MkPList valid (none_if_empty mis), r') /\
         records params my x valid st /\ records_comms valid st).
Proof.
  intros S L m params x my co ps r Hn Ht Hc.
  exists (filter (okb true true (p_t params)) ps),
         (map pt_index (filter (fun p => negb (okb true true (p_t params) p)) ps)).
  split; [apply splits_filter; intros; apply okb_bootstrap|].
  assert (Hc' : true && existsb crashb ps = false) by (apply existsb_crash_false, Hc).
  split; intros H.
  - apply ns_toofew; auto.
  - destruct (ns_success m params x my (Some co) ps true true r) as (st & r' & E & H1 & _ & H2 & _); eauto.
    exists st, r'. split; [exact E|]. split; [exact H1|].
    destruct H2 as (comms & A & _ & B). exists comms. auto.
Qed.
Print Assumptions C13_bootstrap_outcome.

Theorem C13_new_outcome :
  forall (S : Suite) (L : SuiteLaws S) (m : build) (params : Params) (x : F) (my : u32)
         (ps : list Participant) (r : Rng),
  N.of_nat (length ps) = u32v (p_n params) -> (1 <= u32v (p_t params))%N ->
  (forall p, In p ps -> ~ crashing p) ->
  exists valid mis,
    splits ok_new ps valid mis /\
    ((N.of_nat (length valid) < u32v (p_t params))%N ->
       dkg_new m params x my ps r = Err (TooManyInvalidParticipants mis)) /\
    ((u32v (p_t params) <= N.of_nat (length valid))%N ->
       exists st r', dkg_new m params x my ps r = Ok (R1 st, MkPList valid (none_if_empty mis), r') /\
         records params my x valid st /\ records_comms valid st).
Proof.
  intros S L m params x my ps r Hn Ht Hc.
  exists (filter (okb false true (p_t params)) ps),
         (map pt_index (filter (fun p => negb (okb false true (p_t params) p)) ps)).
  split; [apply splits_filter; intros; apply okb_new|].
  assert (Hc' : true && existsb crashb ps = false) by (apply existsb_crash_false, Hc).
  split; intros H.
  - apply ns_toofew; auto.
  - destruct (ns_success m params x my None ps false true r) as (st & r' & E & H1 & _ & H2 & _); eauto.
    { discriminate. }
    exists st, r'. split; [exact E|]. split; [exact H1|].
    destruct H2 as (comms & A & _ & B). exists comms. auto.
Qed.
Print Assumptions C13_new_outcome.

(** resharing: parameters and list are those of the new group; the returned dealer commits to the old key *)
Theorem C13_reshare_outcome :
  forall (S : Suite) (L : SuiteLaws S) (m : build) (params : Params) (sk : SigningKey)
         (ps : list Participant) (r : Rng),
  sk_index sk <> u32_zero -> (1 <= u32v (p_t params))%N ->
  (N.of_nat (length ps) <> u32v (p_n params) ->
     reshare m params sk ps r = Err (InvalidNumberOfParticipants (length ps) (p_n params))) /\
  (N.of_nat (length ps) = u32v (p_n params) ->
   exists valid mis,
    splits ok_reshare ps valid mis /\
    ((N.of_nat (length valid) < u32v (p_t params))%N ->
       reshare m params sk ps r = Err (TooManyInvalidParticipants mis)) /\
    ((u32v (p_t params) <= N.of_nat (length valid))%N ->
       exists d es r', reshare m params sk ps r = Ok (d, es, MkPList valid (none_if_empty mis), r') /\
         (exists co x, fresh_dealer params (sk_index sk) d co x /\ hd_error co = Some (sk_key sk) /\
                       shares_for_all (sk_index sk) x co ps es))).
Proof.
  intros S L m params sk ps r Hi Ht.
  destruct (new_internal_dealer params (sk_index sk) (Some (sk_key sk)) r Hi Ht) as (d & co & x & r1 & E & Hd & Ha).
  specialize (Ha _ eq_refl). unfold reshare. rewrite E. cbn [bind]. split.
  - intros H. rewrite (ns_count m params x (sk_index sk) (Some co) ps true false r1) by exact H. reflexivity.
  - intros Hn. exists (filter (okb true false (p_t params)) ps),
         (map pt_index (filter (fun p => negb (okb true false (p_t params) p)) ps)).
    split; [apply splits_filter; intros; apply okb_reshare|]. split; intros H.
    + rewrite (ns_toofew m params x (sk_index sk) (Some co) ps true false r1) by auto. reflexivity.
    + destruct (ns_success m params x (sk_index sk) (Some co) ps true false r1)
        as (st & r' & E1 & H1 & _ & _ & H2); eauto.
      cbn [negb andb] in H2. destruct H2 as (cs & es & [= <-] & H3 & _ & H4).
      rewrite E1. cbn [bind]. unfold their_encrypted_secret_shares. cbn [st1]. rewrite H3. cbn [bind].
      exists d, es, r'. split; [reflexivity|]. exists co, x. auto.
Qed.
Print Assumptions C13_reshare_outcome.

(** dealers 1 and 3 are honest, 2 replays the keys of a dealer with index 4 *)
Definition C13_list : list Participant :=
  [dealer 3 2 1 10; with_index (dealer 3 2 4 77) 2; dealer 3 2 3 30].
Example C13_ex :
  N.of_nat (length C13_list) = u32v (u 3) /\ existsb crashb C13_list = false /\
  (let* (st, l, _) := bootstrap Debug (MkParams (u 3) (u 2)) (dealer_x 3 2 1 10) (u 1) (dealer_co 3 2 1 10) C13_list 5%N in
   Ok (map pt_index (pl_valid l), pl_mis l, p_n (ds_params (st1 st)))) = Ok ([u 1; u 3], Some [u 2], u 2) /\
  (let* (st, l, _) := bootstrap Debug (MkParams (u 3) (u 3)) (mk 5) (u 1) [mk 1] C13_list 5%N in Ok tt)
    = Err (TooManyInvalidParticipants [u 1; u 2; u 3]) /\
  (let* (st, l, _) := dkg_new Debug (MkParams (u 3) (u 3)) (mk 5) (u 1) C13_list 5%N in Ok tt)
    = Err (TooManyInvalidParticipants [u 2]) /\
  (let* (_, es, l, _) := reshare Release (MkParams (u 3) (u 2)) (MkSK (u 9) (mk 1234)) C13_list 5%N in
   Ok (bkeys es, pl_mis l)) = Ok ([u 1; u 2; u 3], Some [u 2]).
Proof. vms. Qed.

(** C14 *)
Theorem C14_round_one_panics_exactly :
  forall (S : Suite) (L : SuiteLaws S) (m : build) (params : Params) (x : F) (my : u32) (co : list F)
         (ps : list Participant) (r : Rng),
  (1 <= u32v (p_t params))%N ->
  (bootstrap m params x my co ps r = Panic <->
     N.of_nat (length ps) = u32v (p_n params) /\ exists p, In p ps /\ crashing p) /\
  (dkg_new m params x my ps r = Panic <->
     N.of_nat (length ps) = u32v (p_n params) /\ exists p, In p ps /\ crashing p).
Proof.
  intros S L m params x my co ps r Ht.
  assert (G : forall fd c, (fd = true -> exists cs, c = Some cs) ->
    (new_state_internal m params x my c ps fd true r = Panic <->
     N.of_nat (length ps) = u32v (p_n params) /\ exists p, In p ps /\ crashing p)).
  { intros fd c Hc. rewrite <- existsb_crash.
    destruct (N.eq_dec (N.of_nat (length ps)) (u32v (p_n params))) as [Hn|Hn].
    - destruct (existsb crashb ps) eqn:Ec.
      + split; [auto|]. intros _. apply ns_panic; auto.
      + split; [|intros [_ H]; discriminate].
        destruct (N.lt_ge_cases (N.of_nat (length (filter (okb fd true (p_t params)) ps))) (u32v (p_t params))) as [Hl|Hl].
        * rewrite ns_toofew by auto. discriminate.
        * destruct (ns_success m params x my c ps fd true r) as (st & r' & E & _); auto. rewrite E. discriminate.
    - rewrite ns_count by exact Hn. split; [discriminate|]. intros [H _]. contradiction. }
  split; apply G; [eauto|discriminate].
Qed.
Print Assumptions C14_round_one_panics_exactly.

Theorem C14_reshare_never_panics :
  forall (S : Suite) (L : SuiteLaws S) (m : build) (params : Params) (sk : SigningKey)
         (ps : list Participant) (r : Rng),
  (1 <= u32v (p_t params))%N -> reshare m params sk ps r <> Panic.
Proof.
  intros S L m params sk ps r Ht.
  destruct (u32_eq_dec (sk_index sk) u32_zero) as [Hi|Hi].
  - unfold reshare, new_internal. rewrite Hi. cbn. discriminate.
  - destruct (C13_reshare_outcome S L m params sk ps r Hi Ht) as [H1 H2].
    destruct (N.eq_dec (N.of_nat (length ps)) (u32v (p_n params))) as [Hn|Hn]; [|rewrite H1 by exact Hn; discriminate].
    destruct (H2 Hn) as (valid & mis & _ & H3 & H4).
    destruct (N.lt_ge_cases (N.of_nat (length valid)) (u32v (p_t params))) as [Hl|Hl].
    + rewrite H3 by exact Hl. discriminate.
    + destruct (H4 Hl) as (d & es & r' & -> & _). discriminate.
Qed.
Print Assumptions C14_reshare_never_panics.

(** parameters with t = 0 exist only after deserialization; then round one never succeeds *)
Theorem C14_zero_threshold_never_succeeds :
  forall (S : Suite) (L : SuiteLaws S) (m : build) (params : Params) (x : F) (my : u32) (co : list F)
         (ps : list Participant) (r : Rng),
  u32v (p_t params) = 0%N ->
  is_ok (bootstrap m params x my co ps r) = false /\ is_ok (dkg_new m params x my ps r) = false.
Proof.
  intros S L m params x my co ps r Ht.
  assert (G : forall fd c, (fd = true -> exists cs, c = Some cs) ->
    is_ok (new_state_internal m params x my c ps fd true r) = false).
  { intros fd c Hc. destruct (N.eq_dec (N.of_nat (length ps)) (u32v (p_n params))) as [Hn|Hn].
    - destruct (true && existsb crashb ps) eqn:Ec.
      + rewrite ns_panic by auto. reflexivity.
      + rewrite ns_t0 by auto. destruct m; reflexivity.
    - rewrite ns_count by exact Hn. reflexivity. }
  split; apply G; [eauto|discriminate].
Qed.
Print Assumptions C14_zero_threshold_never_succeeds.

(** one participant without a proof of its key stops an otherwise honest run *)
Example C14_ex :
  (let* _ := bootstrap Release (MkParams (u 3) (u 2)) (dealer_x 3 2 1 10) (u 1) (dealer_co 3 2 1 10)
     [dealer 3 2 1 10; dealer 3 2 2 20; without_key_proof (dealer 3 2 3 30)] 5%N in Ok tt) = Panic /\
  (let* _ := dkg_new Release (MkParams (u 3) (u 0)) (mk 4) (u 1)
     [dealer 3 2 1 10; dealer 3 2 2 20; dealer 3 2 3 30] 5%N in Ok tt) = Err InvalidThresholdParams.
Proof. vms. Qed.

(** C15 *)
Theorem C15_bootstrap_shares :
  forall (S : Suite) (L : SuiteLaws S) (m : build) (params : Params) (x : F) (my : u32) (co : list F)
         (ps : list Participant) (r : Rng) st lists r',
  bootstrap m params x my co ps r = Ok (st, lists, r') ->
  exists es, their_encrypted_secret_shares st = Ok es /\
    (forall j, In j (bkeys es) <-> exists p, In p ps /\ pt_index p = j) /\
    (forall p y, NoDup (map pt_index ps) -> In p ps -> pt_dh_pk p = (gen * y)%G ->
       exists e, bget (pt_index p) es = Some e /\ es_sender e = my /\ es_receiver e = pt_index p /\
         decrypt_share e (enc_point ((gen * x) * y)%G) =
           Ok (MkShare my (pt_index p) (poly_value co (of_u32 (pt_index p))))).
Proof.
  intros S L m params x my co ps r st lists r' H. unfold bootstrap in H.
  assert (Hp : (1 <= u32v (p_t params))%N).
  { destruct (N.eq_dec (u32v (p_t params)) 0) as [Z|Z]; [|lia]. exfalso.
    destruct (C14_zero_threshold_never_succeeds S L m params x my co ps r Z) as [A _].
    unfold bootstrap in A. rewrite H in A. discriminate. }
  destruct (N.eq_dec (N.of_nat (length ps)) (u32v (p_n params))) as [Hn|Hn]; [|rewrite ns_count in H by exact Hn; discriminate].
  destruct (true && existsb crashb ps) eqn:Ec; [rewrite ns_panic in H by auto; discriminate|].
  destruct (N.lt_ge_cases (N.of_nat (length (filter (okb true true (p_t params)) ps))) (u32v (p_t params))) as [Hl|Hl];
    [rewrite ns_toofew in H by auto; discriminate|].
  destruct (ns_success m params x my (Some co) ps true true r) as (s & r1 & E & _ & _ & _ & H2); eauto.
  cbn [negb andb] in H2. destruct H2 as (cs & es & [= <-] & H3 & _ & [K1 K2]).
  rewrite H in E. injection E as -> _ _. exists es. unfold their_encrypted_secret_shares. cbn [st1]. rewrite H3.
  split; [reflexivity|]. split.
  - intros j. rewrite K1, in_map_iff. split; intros (p & A & B); exists p; auto.
  - intros p y Hnd Hin Hy.
    destruct (K2 (pt_index p) p) as (e & B1 & B2 & B3 & B4).
    { apply last_with_distinct; auto. }
    exists e. repeat split; auto. rewrite <- B4, Hy. do 2 f_equal. apply dh_shared.
Qed.
Print Assumptions C15_bootstrap_shares.

Theorem C15_reshare_shares :
  forall (S : Suite) (L : SuiteLaws S) (m : build) (params : Params) (sk : SigningKey)
         (ps : list Participant) (r : Rng) d es lists r',
  (1 <= u32v (p_t params))%N ->
  reshare m params sk ps r = Ok (d, es, lists, r') ->
  exists co, pt_comm d = Some (MkVss (sk_index sk) (committed co)) /\ hd_error co = Some (sk_key sk) /\
    length co = N.to_nat (u32v (p_t params)) /\
    (forall j, In j (bkeys es) <-> exists p, In p ps /\ pt_index p = j) /\
    (forall p y, NoDup (map pt_index ps) -> In p ps -> pt_dh_pk p = (gen * y)%G ->
       exists e, bget (pt_index p) es = Some e /\ es_sender e = sk_index sk /\ es_receiver e = pt_index p /\
         decrypt_share e (enc_point (pt_dh_pk d * y)%G) =
           Ok (MkShare (sk_index sk) (pt_index p) (poly_value co (of_u32 (pt_index p))))).
Proof.
  intros S L m params sk ps r d es lists r' Ht H.
  assert (Hi : sk_index sk <> u32_zero).
  { intros Hi. unfold reshare, new_internal in H. rewrite Hi in H. cbn in H. discriminate. }
  destruct (C13_reshare_outcome S L m params sk ps r Hi Ht) as [H1 H2].
  destruct (N.eq_dec (N.of_nat (length ps)) (u32v (p_n params))) as [Hn|Hn]; [|rewrite H1 in H by exact Hn; discriminate].
  destruct (H2 Hn) as (valid & mis & _ & H3 & H4).
  destruct (N.lt_ge_cases (N.of_nat (length valid)) (u32v (p_t params))) as [Hl|Hl];
    [rewrite H3 in H by exact Hl; discriminate|].
  destruct (H4 Hl) as (d' & es' & r1 & E & co & x & [] & B & [K1 K2]).
  rewrite H in E. injection E as -> -> _ _. exists co. repeat (split; [assumption|]). split.
  - intros j. rewrite K1, in_map_iff. split; intros (p & A & C); exists p; auto.
  - intros p y Hnd Hin Hy.
    destruct (K2 (pt_index p) p) as (e & B1 & B2 & B3 & B4).
    { apply last_with_distinct; auto. }
    exists e. repeat split; auto. rewrite <- B4, Hy, fd_pk. do 2 f_equal. apply dh_shared.
Qed.
Print Assumptions C15_reshare_shares.

Theorem C15_new_has_no_shares :
  forall (S : Suite) (L : SuiteLaws S) (m : build) (params : Params) (x : F) (my : u32)
         (ps : list Participant) (r : Rng) st lists r',
  dkg_new m params x my ps r = Ok (st, lists, r') ->
  their_encrypted_secret_shares st = Err NoEncryptedShares.
Proof.
  intros S L m params x my ps r st lists r' H. unfold dkg_new, new_state_internal in H.
  destruct (negb _); [discriminate|]. destruct (check_all _ _ _ _ _ _); try discriminate. cbn [bind] in H.
  destruct (N.ltb _ _); [discriminate|]. cbn [negb andb] in H.
  destruct (u32_sub _ _ _); try discriminate. cbn [bind] in H.
  destruct (params_new _ _ _); try discriminate. cbn [bind] in H. injection H as <- _ _. reflexivity.
Qed.
Print Assumptions C15_new_has_no_shares.

Example C15_ex :
  NoDup (map pt_index C13_list) /\ pt_dh_pk (dealer 3 2 3 30) = (toy_gen * dealer_x 3 2 3 30)%G /\
  (let* (st, _, _) := bootstrap Debug (MkParams (u 3) (u 2)) (dealer_x 3 2 1 10) (u 1) (dealer_co 3 2 1 10) C13_list 5%N in
   let* es := their_encrypted_secret_shares st in
   match bget (u 3) es with
   | Some e => let* s := decrypt_share e (enc_point ((toy_gen * dealer_x 3 2 1 10) * dealer_x 3 2 3 30)%G) in Ok (sh_value s)
   | None => Panic
   end) = Ok (poly_value (dealer_co 3 2 1 10) (mk 3)).
Proof. split; [nodup|]. vms. Qed.
