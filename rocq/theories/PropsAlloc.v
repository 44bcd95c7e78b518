(** C126: memory reserved for numbers given by the caller. *)
From Coq Require Import String Strings.Byte Arith NArith ZArith Bool List Lia.
From Verif Require Import Base Suite Spec SpecDkg Types ModelDkg ModelSign ModelAlloc Algebra BaseLemmas Toy Demo DemoDkg DemoSign.
Import ListNotations.

Lemma reserve_ok {S : Suite} max size n : (n * size <= max)%N -> reserve max size n = Ok tt.
Proof. intros H. unfold reserve. apply N.leb_le in H. rewrite H. reflexivity. Qed.
Lemma reserve_not {S : Suite} max size n : (max < n * size)%N -> reserve max size n = Panic.
Proof. intros H. unfold reserve. apply N.leb_gt in H. rewrite H. reflexivity. Qed.

(** C126 *)
(** where the reservations succeed, the calls are those of the other properties *)
Theorem C126_enough_memory :
  forall (S : Suite) (mem : Memory),
  (forall m params x i co ps r, (u32v (p_n params) * size_part mem <= mem_max mem)%N ->
     a_bootstrap mem m params x i co ps r = bootstrap m params x i co ps r) /\
  (forall m params x i ps r, (u32v (p_n params) * size_part mem <= mem_max mem)%N ->
     a_dkg_new mem m params x i ps r = dkg_new m params x i ps r) /\
  (forall params i r, (u32v (p_t params) * size_scalar mem <= mem_max mem)%N -> (u32v (p_t params) * size_point mem <= mem_max mem)%N ->
     a_new_dealer mem params i r = new_dealer params i r) /\
  (forall m params k ps r, (u32v (p_n params) * size_part mem <= mem_max mem)%N ->
     (u32v (p_t params) * size_scalar mem <= mem_max mem)%N -> (u32v (p_t params) * size_point mem <= mem_max mem)%N ->
     a_reshare mem m params k ps r = reshare m params k ps r) /\
  (forall params gk msg, (u32v (p_t params) * size_signer mem <= mem_max mem)%N -> a_agg_new mem params gk msg = Ok (agg_new params gk msg)) /\
  (forall r k n, (N.of_nat n * size_share mem <= mem_max mem)%N -> (N.of_nat n * size_pair mem <= mem_max mem)%N ->
     a_generate_lists mem r k n = Ok (generate_commitment_share_lists r k n)).
Proof.
  intros S mem.
  assert (HI : forall p sg i sec r, (u32v (p_t p) * size_scalar mem <= mem_max mem)%N -> (u32v (p_t p) * size_point mem <= mem_max mem)%N ->
    a_new_internal mem p sg i sec r = new_internal p sg i sec r).
  { intros p sg i sec r H1 H2. unfold a_new_internal. rewrite (reserve_ok _ _ _ H1), (reserve_ok _ _ _ H2). destruct (_ || _); reflexivity. }
  split; [intros; unfold a_bootstrap, a_new_state_internal; rewrite reserve_ok by assumption; reflexivity|].
  split; [intros; unfold a_dkg_new, a_new_state_internal; rewrite reserve_ok by assumption; reflexivity|].
  split; [intros; unfold a_new_dealer; rewrite HI by assumption; reflexivity|].
  split.
  { intros m params k ps r H1 H2 H3. unfold a_reshare, reshare. rewrite HI by assumption.
    destruct (new_internal _ _ _ _ _) as [[[[d co] x] r1]|e|]; cbn [bind]; try reflexivity.
    destruct co as [c|]; [|reflexivity]. unfold a_new_state_internal. rewrite reserve_ok by assumption. reflexivity. }
  split; [intros; unfold a_agg_new; rewrite reserve_ok by assumption; reflexivity|].
  intros r k n H1 H2. unfold a_generate_lists. rewrite !reserve_ok by assumption. reflexivity.
Qed.

(** the first round, for a list of participants that itself fits into memory: the call is that of the other properties, or
    it stops where that one returns an error about the length of the list; and it does stop whenever n is too large *)
Theorem C126_first_round_stops_before_the_length_check :
  forall (S : Suite) (mem : Memory) (m : build) (params : Params) (x : F) (i : u32) (co : option (list F)) (ps : list Participant)
    (from_dealer from_signer : bool) (r : Rng),
  (N.of_nat (length ps) * size_part mem <= mem_max mem)%N ->
  if (u32v (p_n params) * size_part mem <=? mem_max mem)%N
  then a_new_state_internal mem m params x i co ps from_dealer from_signer r = new_state_internal m params x i co ps from_dealer from_signer r
  else a_new_state_internal mem m params x i co ps from_dealer from_signer r = Panic /\
       new_state_internal m params x i co ps from_dealer from_signer r = Err (InvalidNumberOfParticipants (length ps) (p_n params)).
Proof.
  intros S mem m params x i co ps fd fs r H. unfold a_new_state_internal. destruct (N.leb_spec (u32v (p_n params) * size_part mem) (mem_max mem)) as [E|E].
  - rewrite reserve_ok by exact E. reflexivity.
  - rewrite reserve_not by exact E. split; [reflexivity|]. unfold new_state_internal.
    destruct (N.eqb_spec (N.of_nat (length ps)) (u32v (p_n params))) as [Q|Q]; [|reflexivity]. rewrite Q in H. lia.
Qed.

(** a list of the announced length is never affected *)
Theorem C126_matching_lists_unaffected :
  forall (S : Suite) (mem : Memory) (m : build) (params : Params) (x : F) (i : u32) (co : list F) (ps : list Participant) (r : Rng),
  N.of_nat (length ps) = u32v (p_n params) -> (N.of_nat (length ps) * size_part mem <= mem_max mem)%N ->
  a_bootstrap mem m params x i co ps r = bootstrap m params x i co ps r /\
  a_dkg_new mem m params x i ps r = dkg_new m params x i ps r.
Proof.
  intros S mem m params x i co ps r E H. rewrite E in H. destruct (C126_enough_memory S mem) as (A & B & _). split; [apply A|apply B]; exact H.
Qed.

(** resharing: the size of the new group, before the list of its members is looked at *)
Theorem C126_reshare_stops :
  forall (S : Suite) (mem : Memory) (m : build) (params : Params) (k : SigningKey) (ps : list Participant) (r : Rng),
  sk_index k <> u32_zero -> (mem_max mem < u32v (p_n params) * size_part mem)%N ->
  a_reshare mem m params k ps r = Panic.
Proof.
  intros S mem m params k ps r Hk H. unfold a_reshare, a_new_internal.
  destruct (u32_eqb (sk_index k) u32_zero) eqn:E; [apply u32_eqb_spec in E; contradiction|]. cbn [orb].
  unfold reserve at 1. destruct (N.leb _ _); [|reflexivity]. cbn [bind]. unfold reserve at 1. destruct (N.leb _ _); [|reflexivity]. cbn [bind].
  unfold new_internal. rewrite E. destruct (rand_scalar r) as [a r1]. destruct (nizk_prove _ _ _ _) as [pf r2]. destruct (rand_scalars _ _) as [l r4].
  destruct (vss_public_key _) as [pk|]; [|reflexivity]. destruct (nizk_prove _ _ _ _) as [pf' r5]. cbn [bind].
  unfold a_new_state_internal. rewrite reserve_not by exact H. reflexivity.
Qed.

(** the aggregator: the threshold, before any signer is included *)
Theorem C126_aggregator_stops :
  forall (S : Suite) (mem : Memory) (params : Params) (gk : G) (msg : list byte),
  (exists a, a_agg_new mem params gk msg = Ok a) <-> (u32v (p_t params) * size_signer mem <= mem_max mem)%N.
Proof.
  intros S mem params gk msg. unfold a_agg_new. destruct (N.le_gt_cases (u32v (p_t params) * size_signer mem) (mem_max mem)) as [E|E].
  - rewrite reserve_ok by exact E. cbn [bind]. split; [intros _; exact E|intros _; eauto].
  - rewrite reserve_not by exact E. cbn [bind]. split; [intros (a & A); discriminate|intros H; lia].
Qed.

(** examples: 16 GB, three participants of 500 bytes; n = 3 and n = 2^32 - 1, both accepted by ThresholdParameters::new *)
Definition pc : Memory := MkMemory 17179869184 500 32 96 200 256 192.
Example C126_ex_accepted_parameters : params_new Debug (u 4294967295) (u 2) = Ok (MkParams (u 4294967295) (u 2)).
Proof. vmr. Qed.
Example C126_ex_first_round :
  (N.of_nat (length demo_ps) * size_part pc <=? mem_max pc)%N = true /\
  (u32v (u 3) * size_part pc <=? mem_max pc)%N = true /\
  (u32v (u 4294967295) * size_part pc <=? mem_max pc)%N = false /\
  (match a_bootstrap pc Debug (MkParams (u 4294967295) (u 2)) (mk 5%Z) (u 1) [mk 1%Z; mk 2%Z] demo_ps 7%N with Panic => true | _ => false end) = true /\
  (match bootstrap Debug (MkParams (u 4294967295) (u 2)) (mk 5%Z) (u 1) [mk 1%Z; mk 2%Z] demo_ps 7%N with
   | Err (InvalidNumberOfParticipants k n) => Nat.eqb k 3 && u32_eqb n (u 4294967295) | _ => false end) = true /\
  (match a_bootstrap pc Debug demo_params (dealer_x 3 2 1 10) (u 1) (dealer_co 3 2 1 10) demo_ps 7%N with Ok _ => true | _ => false end) = true.
Proof. vms. Qed.
Example C126_ex_reshare_aggregator :
  u32_eqb (sk_index (skey 1)) u32_zero = false /\ (mem_max pc <? u32v (u 4294967295) * size_part pc)%N = true /\
  (match a_reshare pc Debug (MkParams (u 4294967295) (u 2)) (skey 1) demo_ps 7%N with Panic => true | _ => false end) = true /\
  is_ok (a_agg_new pc demo_params (mk 3%Z) []) = true /\
  is_ok (a_agg_new pc (MkParams (u 4294967295) (u 4294967295)) (mk 3%Z) []) = false.
Proof. vms. Qed.
Print Assumptions C126_enough_memory.
Print Assumptions C126_first_round_stops_before_the_length_check.
Print Assumptions C126_matching_lists_unaffected.
Print Assumptions C126_reshare_stops.
Print Assumptions C126_aggregator_stops.
