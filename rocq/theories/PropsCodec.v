(** Properties C54-C56, C59, C60: serialization and saved sessions. *)
From Coq Require Import String Strings.Byte Arith NArith ZArith Bool List Lia Sorted.
From Verif Require Import Base Suite Spec SpecDkg SpecSign SpecCodec Types ModelDkg ModelSign ModelCodec Algebra BaseLemmas LemmasShare LemmasCodec
  Toy Demo DemoDkg DemoSign.
Import ListNotations.

(** * C54: round trips *)
Theorem C54_keys_and_parameters_round_trip : forall (S : Suite) (L : SuiteLaws S),
  round_trips any ser_params de_params /\
  round_trips any ser_scalar de_scalar /\
  round_trips any ser_point de_point /\
  round_trips any ser_verifying_key de_verifying_key /\
  round_trips any ser_signing_key de_signing_key.
Proof.
  intros S L. split; [|split; [|split; [|split]]]; apply exact_round_trips.
  - apply exact_params.
  - apply exact_scalar.
  - apply exact_point.
  - apply exact_verifying_key.
  - apply exact_signing_key.
Qed.
Print Assumptions C54_keys_and_parameters_round_trip.

Theorem C54_dkg_values_round_trip : forall (S : Suite) (L : SuiteLaws S),
  round_trips fits ser_coefficients de_coefficients /\
  round_trips any ser_share de_share /\
  round_trips real_enc ser_encshare de_encshare /\
  round_trips real_vss ser_vss de_vss /\
  round_trips any ser_nizk de_nizk /\
  round_trips any ser_complaint_proof de_complaint_proof /\
  round_trips real_complaint ser_complaint de_complaint /\
  round_trips real_participant ser_participant de_participant /\
  round_trips real_part_list ser_part_list de_part_list.
Proof.
  intros S L. split; [|split; [|split; [|split; [|split; [|split; [|split; [|split]]]]]]]; apply exact_round_trips.
  - apply exact_coefficients.
  - apply exact_share.
  - apply exact_encshare.
  - apply exact_vss.
  - apply exact_nizk.
  - apply exact_complaint_proof.
  - apply exact_complaint.
  - apply exact_participant.
  - apply exact_part_list.
Qed.
Print Assumptions C54_dkg_values_round_trip.

Theorem C54_dkg_states_round_trip : forall (S : Suite) (L : SuiteLaws S),
  round_trips (fun s => real_state (st1 s)) ser_round_one de_round_one /\
  round_trips (fun s => real_state (st2 s)) ser_round_two de_round_two.
Proof. intros S L. split; apply exact_round_trips; [apply exact_round_one|apply exact_round_two]. Qed.
Print Assumptions C54_dkg_states_round_trip.

Theorem C54_signing_values_round_trip : forall (S : Suite) (L : SuiteLaws S),
  round_trips any ser_commitment de_commitment /\
  round_trips any ser_commitment_share de_commitment_share /\
  round_trips (fun l => fits (sl_commitments l)) ser_secret_list de_secret_list /\
  round_trips (fun l => fits (pl_commitments l)) ser_public_list de_public_list /\
  round_trips any ser_signer de_signer /\
  round_trips any ser_partial_sig de_partial_sig /\
  round_trips any ser_threshold_sig de_threshold_sig.
Proof.
  intros S L. split; [|split; [|split; [|split; [|split; [|split]]]]]; apply exact_round_trips.
  - apply exact_commitment.
  - apply exact_commitment_share.
  - apply exact_secret_list.
  - apply exact_public_list.
  - apply exact_signer.
  - apply exact_partial_sig.
  - apply exact_threshold_sig.
Qed.
Print Assumptions C54_signing_values_round_trip.

(** * C55: from_bytes is lenient *)
(** parameters no constructor produces *)
Theorem C55_invalid_parameters_are_read : forall (S : Suite) (n t : u32) (junk : list byte),
  (u32v t = 0 \/ u32v n < u32v t)%N ->
  (forall p, params_new Release n t <> Ok p) /\ (forall p, params_new Debug n t <> Ok p) /\
  exists b, from_bytes de_params (b ++ junk) = Ok (MkParams n t).
Proof.
  intros S n t junk H. assert (K : forall m p, params_new m n t <> Ok p).
  { intros m p E. unfold params_new in E.
    assert (X : u32_eqb n u32_zero || u32_eqb t u32_zero || u32_ltb n t = true).
    { destruct H as [H|H].
      - apply orb_true_iff. left. apply orb_true_iff. right. apply u32_eqb_spec. apply u32_ext. exact H.
      - apply orb_true_iff. right. apply u32_ltb_spec. exact H. }
    rewrite X, andb_true_r in E. destruct m; discriminate. }
  split; [apply K|]. split; [apply K|]. exists (ser_params (MkParams n t)). unfold from_bytes.
  rewrite exact_params by exact I. reflexivity.
Qed.
Print Assumptions C55_invalid_parameters_are_read.

(** every string of at least eight bytes is read as parameters *)
Theorem C55_any_eight_bytes_are_parameters : forall (S : Suite) (b : list byte),
  8 <= length b -> exists p, from_bytes de_params b = Ok p.
Proof.
  intros S b H. do 8 (destruct b as [|? b]; [cbn in H; lia|]). eexists. reflexivity.
Qed.
Print Assumptions C55_any_eight_bytes_are_parameters.

(** every DKG state that knows a participant is read from a second string, without leftover *)
Section Dup.
  Context {S : Suite} {L : SuiteLaws S}.
  Lemma de_map_dup {V} (R : V -> Prop) ser d k v (m : bmap V) r : exact R ser d -> real_map R ((k, v) :: m) ->
    de_map d (ser_map ser ((k, v) :: (k, v) :: m) ++ r) = Some ((k, v) :: m, r).
  Proof.
    intros H [H1 H2]. unfold ser_map, de_map.
    rewrite (exact_vec _ _ _ (exact_pair _ _ _ _ _ _ exact_u32 H)).
    - cbn [dthen]. f_equal. f_equal. cbn [fold_left fst snd binsert].
      destruct (u32_ltb k k) eqn:E; [apply u32_ltb_spec in E; unfold u32_lt in E; lia|]. rewrite u32_eqb_refl.
      apply (rebuild m [(k, v)]). exact H1.
    - split.
      + unfold fits. pose proof (increasing_length _ H1) as X. rewrite map_length in X. cbn [length] in *. lia.
      + intros [k' v'] Hin. split; [exact I|]. apply (H2 k' v'). destruct Hin as [E|Hin]; [left; exact E|exact Hin].
  Qed.
  Lemma ser_map_len {V} (ser : V -> list byte) k v (m : bmap V) : length (ser_map ser ((k, v) :: m)) = length (ser_map ser m) + length (u32_le k ++ ser v).
  Proof.
    unfold ser_map, ser_vec. rewrite !app_length. cbn [map concat]. rewrite app_length. unfold ser_pair at 1. cbn [fst snd].
    rewrite !le_bytes_len, app_length. lia.
  Qed.
End Dup.
Theorem C55_states_have_several_encodings : forall (S : Suite) (L : SuiteLaws S) (s : DkgState),
  real_state s -> ds_dhs s <> [] ->
  exists b, from_bytes de_round_one b = Ok (R1 s) /\ from_bytes de_round_two b = Ok (R2 s) /\
    de_state b = Some (s, []) /\ to_bytes ser_round_one (R1 s) <> Ok b /\ to_bytes ser_round_two (R2 s) <> Ok b.
Proof.
  intros S L [p i x pk cs dhs es sh] [H1 H2 H3 H4] Hne. cbn [ds_params ds_index ds_dh_sk ds_dh_pk ds_comms ds_dhs ds_enc ds_shares] in *.
  destruct dhs as [|[k P] dhs]; [contradiction|].
  set (b := ser_state (MkState p i x pk cs ((k, P) :: (k, P) :: dhs) es sh)).
  assert (E : de_state b = Some (MkState p i x pk cs ((k, P) :: dhs) es sh, [])).
  { rewrite <- (app_nil_r b). unfold b, ser_state, de_state. cbn [ds_params ds_index ds_dh_sk ds_dh_pk ds_comms ds_dhs ds_enc ds_shares].
    rewrite <- !app_assoc, exact_params by exact I. cbn [dthen]. rewrite exact_u32 by exact I. cbn [dthen].
    rewrite exact_scalar by exact I. cbn [dthen]. rewrite exact_point by exact I. cbn [dthen].
    rewrite (exact_option _ _ _ (exact_map _ _ _ exact_vss)) by exact H1. cbn [dthen].
    rewrite (de_map_dup _ _ _ _ _ _ _ exact_point H2). cbn [dthen].
    rewrite (exact_option _ _ _ (exact_map _ _ _ exact_encshare)) by exact H3. cbn [dthen].
    rewrite (exact_option _ _ _ (exact_map _ _ _ exact_share)) by exact H4. reflexivity. }
  assert (D : b <> ser_state (MkState p i x pk cs ((k, P) :: dhs) es sh)).
  { intros X. apply (f_equal (@length byte)) in X. unfold b, ser_state in X.
    cbn [ds_params ds_index ds_dh_sk ds_dh_pk ds_comms ds_dhs ds_enc ds_shares] in X. rewrite !app_length in X.
    rewrite (ser_map_len enc_point k P ((k, P) :: dhs)), app_length in X. unfold u32_le in X at 2. rewrite le_bytes_len in X. lia. }
  exists b. unfold from_bytes, de_round_one, de_round_two. rewrite E. split; [reflexivity|]. split; [reflexivity|]. split; [reflexivity|].
  clearbody b. split; intros X; apply (f_equal (fun o : result (list byte) => match o with Ok v => v | _ => b end)) in X; apply D; symmetry; exact X.
Qed.
Print Assumptions C55_states_have_several_encodings.

(** * C56: restarts *)
Theorem C56_restarts_are_transparent : forall (S : Suite) (L : SuiteLaws S) (m : build) (s : Sess) (l : list Event),
  match s with S1 s => real_state (st1 s) | S2 s => real_state (st2 s) end ->
  (** the outcomes and the final state without the restarts are those with them *)
  events m s (filter (fun e => negb (is_restart e)) l) =
    (filter (fun o => negb (restarted o)) (fst (events m s l)), snd (events m s l)) /\
  (** a restart never fails *)
  exists o s', event m s ERestart = Ok (o, s') /\ s' = s.
Proof.
  intros S L m s l H. split; [apply events_restarts; exact H|]. exists ORestarted, s. split; [apply event_restart; exact H|reflexivity].
Qed.
Print Assumptions C56_restarts_are_transparent.

(** the hypothesis holds of every state a session goes through *)
Theorem C56_session_states_are_real : forall (S : Suite) (L : SuiteLaws S) (m : build) (params : Params) (x : F) (my : u32)
    (co : list F) (ps : list Participant) (r : Rng) (s : RoundOne) (pl : PartList) (r' : Rng),
  (** lengths of the nonce and of ciphertexts are below 2^64 *)
  (N.of_nat nonce_len < 18446744073709551616)%N -> (forall k n v c, aead_enc k n (enc_scalar v) = Some c -> fits c) ->
  (forall p, In p ps -> real_participant p) ->
  (bootstrap m params x my co ps r = Ok (s, pl, r') \/ dkg_new m params x my ps r = Ok (s, pl, r') \/
   exists no_sk_check, new_state_internal m params x my None ps no_sk_check false r = Ok (s, pl, r')) ->
  forall l os f, events m (S1 s) l = (os, Ok f) -> match f with S1 s => real_state (st1 s) | S2 s => real_state (st2 s) end.
Proof.
  intros S L m params x my co ps r s pl r' H1 H2 Hp Hs.
  assert (HC : cipher_fits) by (split; [unfold fits; rewrite repeat_length; exact H1|exact H2]).
  assert (R : real_sess (S1 s)).
  { destruct Hs as [E|[E|[b E]]]; eapply new_state_real in E; try exact HC; try exact Hp; apply E. }
  clear Hs. intros l. revert R. generalize (S1 s). clear s. induction l as [|e l IH]; intros s R os f; cbn [events].
  - intros E. injection E as _ <-. exact R.
  - destruct (event m s e) as [[o s1]|?|] eqn:E; try discriminate. specialize (IH s1 (event_real _ _ _ _ _ R E)).
    destruct (events m s1 l) as [os1 f1]. intros X. injection X as _ ->. apply (IH os1 f). reflexivity.
Qed.
Print Assumptions C56_session_states_are_real.

(** * C59: the round is not part of the encoding *)
Theorem C59_round_one_bytes_are_read_as_round_two : forall (S : Suite) (L : SuiteLaws S) (s : RoundOne) (b junk : list byte),
  real_state (st1 s) -> ds_shares (st1 s) = None -> to_bytes ser_round_one s = Ok b ->
  exists s2, from_bytes de_round_two (b ++ junk) = Ok s2 /\ st2 s2 = st1 s /\ finish s2 = Panic.
Proof.
  intros S L [s] b junk H Hn E. injection E as <-. exists (R2 s). split; [|split; [reflexivity|]].
  - unfold from_bytes, de_round_two, ser_round_one. cbn [st1] in *. rewrite exact_state by exact H. reflexivity.
  - unfold finish, calculate_signing_key. cbn [st2]. cbn [st1] in Hn. rewrite Hn. reflexivity.
Qed.
Print Assumptions C59_round_one_bytes_are_read_as_round_two.

(** round-two bytes restart round two: to_round_two can be run again on the restored value, on other shares *)
Theorem C59_round_two_can_be_repeated : forall (S : Suite) (L : SuiteLaws S) (m : build) (s : RoundOne) (es : list EncShare) (r : Rng)
    (s2 : RoundTwo) (cs : list Complaint) (r' : Rng) (b : list byte),
  real_state (st1 s) -> to_round_two m s es r = Ok (s2, cs, r') -> to_bytes ser_round_two s2 = Ok b ->
  exists s1, from_bytes de_round_one b = Ok s1 /\ forall es' r1, to_round_two m s1 es' r1 = to_round_two m s es' r1.
Proof.
  intros S L m s es r s2 cs r' b H E Eb. injection Eb as <-. pose proof (to_round_two_real _ _ _ _ _ _ _ H E) as R2'.
  exists (R1 (st2 s2)). split.
  - unfold from_bytes, de_round_one, ser_round_two. rewrite <- (app_nil_r (ser_state _)). rewrite exact_state by exact R2'. reflexivity.
  - intros es' r1. unfold to_round_two in E. cbv zeta in E. destruct (N.ltb _ _); [discriminate|].
    destruct (round_two_loop _ _ _ _ _ _) as [[[sh cs1] rr]|e|]; cbn [bind] in E; try discriminate.
    destruct (u32_sub _ _ _) as [n'|e|]; cbn [bind] in E; try discriminate. destruct (u32_ltb _ _); [discriminate|].
    injection E as <- _ _. unfold to_round_two. cbn [st1 st2 ds_params ds_index ds_dh_sk ds_dh_pk ds_comms ds_dhs ds_enc ds_shares].
    assert (K : forall st st', ds_index st = ds_index st' -> ds_dh_sk st = ds_dh_sk st' -> ds_dh_pk st = ds_dh_pk st' ->
      ds_comms st = ds_comms st' -> ds_dhs st = ds_dhs st' -> forall es a c r, round_two_loop m st es a c r = round_two_loop m st' es a c r).
    { intros st st' K1 K2 K3 K4 K5. induction es0 as [|e es0 IH]; intros a c q; [reflexivity|]. cbn [round_two_loop].
      rewrite ?K1, ?K2, ?K3, ?K4, ?K5. destruct (is_debug m && _); [reflexivity|]. destruct (bget _ _); [|reflexivity].
      destruct (ds_comms st'); [|reflexivity]. destruct (find _ _); [|apply IH]. destruct (complaint_new _ _ _ _ _). apply IH. }
    rewrite (K _ (MkState (ds_params (st1 s)) (ds_index (st1 s)) (ds_dh_sk (st1 s)) (ds_dh_pk (st1 s)) (ds_comms (st1 s)) (ds_dhs (st1 s)) None (ds_shares (st1 s)))); reflexivity.
Qed.
Print Assumptions C59_round_two_can_be_repeated.

(** * C60: encodings of everything but DKG states are unique *)
Theorem C60_messages_have_one_encoding : forall S : Suite,
  (** the curve library's scalar and point decoders accept canonical encodings only *)
  canonical enc_scalar dec_scalar -> canonical enc_point dec_point ->
  canonical ser_params de_params /\ canonical ser_verifying_key de_verifying_key /\ canonical ser_signing_key de_signing_key /\
  canonical ser_coefficients de_coefficients /\ canonical ser_share de_share /\ canonical ser_encshare de_encshare /\
  canonical ser_vss de_vss /\ canonical ser_nizk de_nizk /\ canonical ser_complaint_proof de_complaint_proof /\
  canonical ser_complaint de_complaint /\ canonical ser_participant de_participant /\ canonical ser_part_list de_part_list /\
  canonical ser_commitment de_commitment /\ canonical ser_commitment_share de_commitment_share /\
  canonical ser_secret_list de_secret_list /\ canonical ser_public_list de_public_list /\ canonical ser_signer de_signer /\
  canonical ser_partial_sig de_partial_sig /\ canonical ser_threshold_sig de_threshold_sig.
Proof.
  intros S Hs Hp. repeat match goal with |- _ /\ _ => split end.
  - apply can_params.
  - apply can_verifying_key; assumption.
  - apply can_signing_key; assumption.
  - apply can_vec, Hs.
  - apply can_share; assumption.
  - apply can_encshare; assumption.
  - apply can_vss; assumption.
  - apply can_nizk; assumption.
  - apply can_complaint_proof; assumption.
  - apply can_complaint; assumption.
  - apply can_participant; assumption.
  - apply can_part_list; assumption.
  - apply can_commitment; assumption.
  - apply can_commitment_share; assumption.
  - apply can_secret_list; assumption.
  - apply can_public_list; assumption.
  - apply can_signer; assumption.
  - apply can_partial_sig; assumption.
  - apply can_threshold_sig; assumption.
Qed.
Print Assumptions C60_messages_have_one_encoding.

(** in particular signatures are not malleable at byte level: two strings of one length read as the same signature are equal *)
Theorem C60_signature_bytes_are_not_malleable : forall S : Suite,
  canonical enc_scalar dec_scalar -> canonical enc_point dec_point ->
  forall (b b' : list byte) (s : ThresholdSig),
    from_bytes de_threshold_sig b = Ok s -> from_bytes de_threshold_sig b' = Ok s ->
    exists e r r', b = e ++ r /\ b' = e ++ r' /\ to_bytes ser_threshold_sig s = Ok e.
Proof.
  intros S Hs Hp b b' s. unfold from_bytes. destruct (de_threshold_sig b) as [[v r]|] eqn:E; [|discriminate].
  destruct (de_threshold_sig b') as [[v' r']|] eqn:E'; [|discriminate]. intros X X'. injection X as ->. injection X' as ->.
  apply can_threshold_sig in E, E'; try assumption. exists (ser_threshold_sig s), r, r'. auto.
Qed.
Print Assumptions C60_signature_bytes_are_not_malleable.

(** * Examples *)
Lemma toy_canonical_scalar : @canonical F enc_scalar dec_scalar.
Proof.
  intros bs x r. change (toy_dec_scalar bs = Some (x, r) -> bs = toy_enc_scalar x ++ r). unfold toy_dec_scalar.
  destruct (Nat.ltb_spec (length bs) 5) as [|H]; [discriminate|]. cbv zeta.
  destruct (Z.ltb_spec (Z.of_N (le_value (firstn 5 bs))) P) as [HP|]; [|discriminate]. intros E.
  assert (Ex : x = mk (Z.of_N (le_value (firstn 5 bs)))) by congruence. assert (Er : r = skipn 5 bs) by congruence. clear E. subst.
  unfold toy_enc_scalar. assert (L5 : length (firstn 5 bs) = 5) by (rewrite firstn_length; lia).
  pose proof (le_bytes_value (firstn 5 bs)) as X. rewrite L5 in X.
  replace (fv (mk (Z.of_N (le_value (firstn 5 bs))))) with (Z.of_N (le_value (firstn 5 bs))).
  - rewrite N2Z.id, X. symmetry. apply firstn_skipn.
  - rewrite fv_mk. symmetry. apply Z.mod_small. split; [apply N2Z.is_nonneg|exact HP].
Qed.
Lemma toy_canonical_point : @canonical G enc_point dec_point.
Proof.
  intros bs x r. change (toy_dec_point bs = Some (x, r) -> bs = toy_enc_point x ++ r). unfold toy_dec_point.
  destruct bs as [|[] bs]; try discriminate. intros E. apply toy_canonical_scalar in E. unfold toy_enc_point. rewrite E. reflexivity.
Qed.

(** the demo session of participant 2: its states are real *)
Lemma toy_ciphers : @cipher_fits Toy.
Proof.
  split; [reflexivity|]. intros k n x c. change (toy_aead_enc k n (toy_enc_scalar x) = Some c -> fits c). unfold toy_aead_enc. intros E.
  assert (Ec : c = toy_tag k n (toy_enc_scalar x) ++ map (fun b => byte_of_N (Byte.to_N b + toy_stream k n)) (toy_enc_scalar x)) by congruence.
  subst c. unfold fits. rewrite app_length, map_length. unfold toy_tag, toy_digest, toy_enc_scalar. rewrite !le_bytes_len. reflexivity.
Qed.
Definition demo_run : result (@RoundOne Toy * @PartList Toy * @Rng Toy) :=
  bootstrap Debug demo_params (dealer_x 3 2 2 20) (u 2) (dealer_co 3 2 2 20) demo_ps 1002%N.
Lemma demo_run_ok : is_ok demo_run = true.
Proof. vmr. Qed.
Lemma demo_ps_comms : forallb (fun p : @Participant Toy => match pt_comm p with Some c => Nat.leb (length (vss_points c)) 2 | None => false end) demo_ps = true.
Proof. vmr. Qed.
Lemma demo_ps_real : forall p, In p demo_ps -> real_participant p.
Proof.
  intros p Hp c E. pose proof demo_ps_comms as X. rewrite forallb_forall in X. specialize (X p Hp). rewrite E in X.
  apply Nat.leb_le in X. unfold real_vss, fits. lia.
Qed.
Lemma demo_state_real : real_state (st1 (demo_r1 demo_ps 2)) /\ ds_shares (st1 (demo_r1 demo_ps 2)) = None.
Proof.
  change (demo_r1 demo_ps 2) with (let '(s, _, _) := got (R1 no_state, MkPList [] None, 0%N) demo_run in s).
  pose proof demo_run_ok as X. destruct demo_run as [[[s l] r]|e|] eqn:E; try discriminate X. cbn [got].
  apply (new_state_real _ _ _ _ _ _ _ _ _ _ _ _ toy_ciphers demo_ps_real E).
Qed.

Definition demo_b1 : list byte := @ser_round_one Toy (demo_r1 demo_ps 2).
Example C54_ex :
  real_state (st1 (demo_r1 demo_ps 2)) /\ length demo_b1 = 323 /\
  (let* s := from_bytes de_round_one (demo_b1 ++ [x2a; x2a]) in to_bytes ser_round_one s) = Ok demo_b1 /\
  is_ok (@from_bytes Toy _ de_round_one (firstn 322 demo_b1)) = false.
Proof. split; [apply demo_state_real|]. vms. Qed.

Example C55_ex :
  from_bytes de_params (ser_params (MkParams (u 2) (u 5)) ++ [x2a]) = Ok (MkParams (u 2) (u 5)) /\
  bkeys (ds_dhs (st1 (demo_r1 demo_ps 2))) = [u 1; u 2; u 3].
Proof. vms. Qed.

(** participant 2 receives a wrong share from 1, complains, and removes it, restarting all the time *)
Definition bad_shares : list (@EncShare Toy) :=
  wrong_share 1 2 (dealer_x 3 2 1 10) (toy_gen * dealer_x 3 2 2 20)%G (mk 5) :: tl (demo_shares 2).
Definition complaints_of (o : @Outcome Toy) : list (@Complaint Toy) := match o with OComplaints cs _ => cs | _ => [] end.
Definition demo_complaints : list (@Complaint Toy) :=
  flat_map complaints_of (fst (@events Toy Debug (S1 (demo_r1 demo_ps 2)) [ERoundTwo bad_shares 7%N])).
Definition demo_events : list (@Event Toy) :=
  [ERestart; ERoundTwo bad_shares 7%N; ERestart; EBlame demo_complaints; ERestart; ERestart].
Definition demo_session (l : list (@Event Toy)) : nat * result (list byte) :=
  let (os, f) := @events Toy Debug (S1 (demo_r1 demo_ps 2)) l in
  (length os, match f with Ok (S2 s) => Ok (ser_round_two s) | Ok (S1 _) => Panic | Err e => Err e | Panic => Panic end).
Example C56_ex :
  length demo_complaints = 1 /\ fst (demo_session demo_events) = 6 /\ is_ok (snd (demo_session demo_events)) = true /\
  fst (demo_session (filter (fun e : @Event Toy => negb (is_restart e)) demo_events)) = 2 /\
  snd (demo_session (filter (fun e : @Event Toy => negb (is_restart e)) demo_events)) = snd (demo_session demo_events).
Proof. vms. Qed.

Definition c59_run : result (@G Toy * @SigningKey Toy) := let* s := from_bytes de_round_two demo_b1 in finish s.
Example C59_ex : real_state (st1 (demo_r1 demo_ps 2)) /\ ds_shares (st1 (demo_r1 demo_ps 2)) = None /\
  is_ok (@from_bytes Toy _ de_round_two demo_b1) = true /\ c59_run = Panic.
Proof. split; [apply demo_state_real|]. split; [apply demo_state_real|]. vms. Qed.

Example C60_ex : canonical (@enc_scalar Toy) dec_scalar /\ canonical (@enc_point Toy) dec_point /\
  @from_bytes Toy _ de_scalar (le_bytes 5 4294967311) = Err DeserializationError /\
  is_ok (@from_bytes Toy _ de_scalar (le_bytes 5 4294967310)) = true.
Proof. split; [exact toy_canonical_scalar|]. split; [exact toy_canonical_point|]. vms. Qed.
