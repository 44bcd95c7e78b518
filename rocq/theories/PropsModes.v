(** C140: what is checked when a value is read from bytes, in every mode of reading and writing *)
From Coq Require Import String Strings.Byte Arith NArith ZArith Bool List Lia.
From Verif Require Import Base Suite Spec SpecDkg SpecSign SpecCodec Types ModelDkg ModelSign ModelCodec ModelCompare ModelModes
  Algebra BaseLemmas LemmasShare LemmasCodec PropsCompare Toy Demo.
Import ListNotations.

(** ** vocabulary *)
(** the points a value contains *)
Section PointsOf.
  Context {S : Suite}.
  Definition points_of_proof (p : ComplaintProof) : list G := [cp_a1 p; cp_a2 p].
  Definition points_of_complaint (x : Complaint) : list G := [c_shared x; c_pk x] ++ points_of_proof (c_proof x).
  Definition points_of_participant (p : Participant) : list G :=
    pt_dh_pk p :: match pt_comm p with Some x => vss_points x | None => [] end.
  Definition points_of_share (x : CommitmentShare) : list G := [co_commit (cs_hiding x); co_commit (cs_binding x)].
  Definition points_of_pair (p : G * G) : list G := [fst p; snd p].
  Definition points_of_state (s : DkgState) : list G :=
    ds_dh_pk s :: match ds_comms s with Some m => flat_map (fun kv => vss_points (snd kv)) m | None => [] end ++ map snd (ds_dhs s).
End PointsOf.

(** checking while reading is the same as reading and checking at the end *)
Definition check_at_end {A} (m : validate -> decoder A) (check : A -> bool) : Prop :=
  forall bs, m Checked bs = match m Unchecked bs with Some (a, r) => if check a then Some (a, r) else None | None => None end.
(** a check accepts exactly the values whose points are in the group *)
Definition checks_points {S : Suite} (pts : Points) {A} (check : A -> bool) (of : A -> list G) : Prop :=
  forall a, check a = true <-> forall P, In P (of a) -> in_group pts P = true.
(** what is written is read back, with whatever follows it; with checks, exactly if the value passes *)
Definition mode_trips {A} (R : A -> Prop) (check : A -> bool) (w : A -> list byte) (m : validate -> decoder A) : Prop :=
  forall a rest, R a ->
    m Unchecked (w a ++ rest) = Some (a, rest) /\ m Checked (w a ++ rest) = if check a then Some (a, rest) else None.
(** laws of the external crates: points and scalars are read back, and have sizes of their own *)
Record PointLaws {S : Suite} (pts : Points) : Prop := {
  point_back : forall c P rest, read_point pts c (write_point pts c P ++ rest) = Some (P, rest);
  scalar_back : forall x rest, dec_scalar (enc_scalar x ++ rest) = Some (x, rest);
  point_length : forall c P, length (write_point pts c P) = length (write_point pts c Gzero);
  scalar_length : forall x, length (enc_scalar x) = length (enc_scalar F0) }.

Ltac fullstep :=
  match goal with
  | |- context [if ?b then Some _ else None] => destruct b eqn:?
  | H : check_at_end ?m ?c |- context [dthen (?m Checked ?b) _] => rewrite (H b)
  | |- context [dthen (match ?x with Some _ => _ | None => None end) _] => destruct x as [[? ?]|]
  | |- context [dthen ?x _] => destruct x as [[? ?]|]
  end; cbn [dthen].
Ltac close := cbn in *; repeat match goal with H : ?x = true |- _ => rewrite H in * | H : ?x = false |- _ => rewrite H in * end;
  rewrite ?andb_true_r, ?andb_false_r in *; cbn in *; try congruence; try reflexivity.

(** ** combinators *)
Lemma full_vec {A} (check : A -> bool) d : check_at_end (m_vec check d) (forallb check).
Proof. intros bs. reflexivity. Qed.
Lemma full_plain {A} (d : decoder A) : check_at_end (m_plain d) check_plain.
Proof. intros bs. unfold m_plain. destruct (d bs) as [[? ?]|]; reflexivity. Qed.
Lemma full_option {A} (m : validate -> decoder A) check : check_at_end m check -> check_at_end (m_option m) (check_option check).
Proof.
  intros H bs. unfold m_option, de_option. destruct (de_u8 bs) as [[b r]|]; [|reflexivity]. cbn [dthen].
  destruct b; try reflexivity. rewrite (H r). destruct (m Unchecked r) as [[a r']|]; [|reflexivity]. cbn [dthen check_option].
  destruct (check a); reflexivity.
Qed.
Lemma full_pair {A B} (m : validate -> decoder A) (k : validate -> decoder B) f g : check_at_end m f -> check_at_end k g ->
  check_at_end (fun v => de_pair (m v) (k v)) (fun p => f (fst p) && g (snd p)).
Proof.
  intros H K bs. unfold de_pair. rewrite (H bs). destruct (m Unchecked bs) as [[a r]|]; [|reflexivity]. cbn [dthen].
  destruct (f a) eqn:Ef; cbn [dthen].
  - rewrite (K r). destruct (k Unchecked r) as [[b r']|]; [|reflexivity]. cbn [dthen fst snd]. rewrite Ef. cbn. destruct (g b); reflexivity.
  - destruct (k Unchecked r) as [[b r']|]; [|reflexivity]. cbn [dthen fst snd]. rewrite Ef. reflexivity.
Qed.
Lemma full_many {A} (m : validate -> decoder A) check : check_at_end m check -> forall k,
  check_at_end (fun v => de_many (m v) k) (forallb check).
Proof.
  intros H. induction k as [|k IH]; intros bs; [reflexivity|]. cbn [de_many]. rewrite (H bs).
  destruct (m Unchecked bs) as [[a r]|]; [|reflexivity]. cbn [dthen]. pose proof (IH r) as IHr. cbn beta in IHr.
  destruct (check a) eqn:Ea; cbn [dthen].
  - rewrite IHr. destruct (de_many (m Unchecked) k r) as [[l r']|]; [|reflexivity]. cbn [dthen forallb]. rewrite Ea. cbn.
    destruct (forallb check l); reflexivity.
  - destruct (de_many (m Unchecked) k r) as [[l r']|]; [|reflexivity]. cbn [dthen forallb]. rewrite Ea. reflexivity.
Qed.
(** a map: all entries are checked, then collected *)
Definition entry_ok {V} (check : V -> bool) (kv : u32 * V) : bool := check_plain (fst kv) && check (snd kv).
Lemma map_entries {V} (m : validate -> decoder V) check : check_at_end m check -> forall bs,
  de_vec (de_pair de_u32 (m Checked)) bs =
  match de_vec (de_pair de_u32 (m Unchecked)) bs with Some (l, r) => if forallb (entry_ok check) l then Some (l, r) else None | None => None end.
Proof.
  intros H bs. unfold de_vec. destruct (de_u64 bs) as [[n r]|]; [|reflexivity]. cbn [dthen].
  exact (full_many (fun v => de_pair (m_plain de_u32 v) (m v)) (entry_ok check) (full_pair _ _ _ _ (full_plain de_u32) H) (N.to_nat n) r).
Qed.
Lemma collect_ok {V} (check : V -> bool) : forall l (acc : bmap V), forallb (entry_ok check) l = true -> check_map check acc = true ->
  check_map check (fold_left (fun m kv => binsert (fst kv) (snd kv) m) l acc) = true.
Proof.
  induction l as [|[k v] l IH]; intros acc Hl Ha; [exact Ha|]. cbn [fold_left fst snd forallb] in *. apply andb_prop in Hl as [H1 H2].
  apply IH; [exact H2|]. unfold entry_ok, check_plain in H1. cbn in H1. clear - Ha H1. induction acc as [|[k' v'] acc IH]; cbn in *.
  - rewrite H1. reflexivity.
  - apply andb_prop in Ha as [A1 A2]. repeat match goal with |- context [if ?b then _ else _] => destruct b end; cbn; rewrite ?H1, ?A1, ?A2; try reflexivity. exact (IH A2).
Qed.
(** reading with checks succeeds only where reading without them does, with a value that passes *)
Definition passes {A} (m : validate -> decoder A) (check : A -> bool) : Prop :=
  forall bs a r, m Checked bs = Some (a, r) -> m Unchecked bs = Some (a, r) /\ check a = true.
Lemma full_passes {A} (m : validate -> decoder A) check : check_at_end m check -> passes m check.
Proof.
  intros H bs a r E. rewrite (H bs) in E. destruct (m Unchecked bs) as [[b q]|]; [|discriminate]. destruct (check b) eqn:Ec; [|discriminate].
  split; congruence.
Qed.
Lemma passes_map {V} (m : validate -> decoder V) check : check_at_end m check -> passes (m_map m) (check_map check).
Proof.
  intros H bs a r E. unfold m_map, de_map in *. rewrite (map_entries m check H bs) in E.
  destruct (de_vec (de_pair de_u32 (m Unchecked)) bs) as [[l q]|]; [|discriminate E]. destruct (forallb (entry_ok check) l) eqn:El; [|discriminate E].
  cbn [dthen] in *. split; [exact E|]. assert (Ha : a = fold_left (fun m kv => binsert (fst kv) (snd kv) m) l []) by congruence.
  rewrite Ha. apply collect_ok; [exact El|reflexivity].
Qed.
Lemma passes_option {A} (m : validate -> decoder A) check : passes m check -> passes (m_option m) (check_option check).
Proof.
  intros H bs a r E. unfold m_option, de_option in *. destruct (de_u8 bs) as [[b q]|]; [|discriminate E]. cbn [dthen] in *.
  destruct b; try discriminate E.
  - split; [exact E|]. assert (Ha : a = None) by congruence. rewrite Ha. reflexivity.
  - destruct (m Checked q) as [[x q']|] eqn:E1; [|discriminate E]. destruct (H _ _ _ E1) as [E2 E3]. rewrite E2. cbn [dthen] in *.
    split; [exact E|]. assert (Ha : a = Some x) by congruence. rewrite Ha. exact E3.
Qed.

(** ** the types of the crate *)
Section Types.
  Context {S : Suite} (pts : Points) (c : compress).
  Lemma full_point : check_at_end (m_point pts c) (check_point pts).
  Proof. intros bs. unfold m_point, then_check, check_point. reflexivity. Qed.
  Lemma full_verifying_key : check_at_end (m_verifying_key pts c) (check_verifying_key pts).
  Proof. intros bs. unfold m_verifying_key, check_verifying_key. pose proof full_point. repeat fullstep; close. Qed.
  Lemma full_encshare : check_at_end m_encshare check_encshare.
  Proof.
    intros bs. unfold m_encshare.
    assert (X : forall l : list byte, forallb check_plain l = true) by (induction l; auto).
    assert (Y : forall q, m_vec check_plain (m_plain de_u8) Checked q = m_vec check_plain (m_plain de_u8) Unchecked q).
    { intros q. unfold m_vec, then_check, m_plain. destruct (de_vec de_u8 q) as [[l r]|]; [rewrite X|]; reflexivity. }
    destruct (m_plain de_u32 Checked bs) as [[i r]|] eqn:E1; change (m_plain de_u32 Unchecked bs) with (m_plain de_u32 Checked bs); rewrite E1; cbn [dthen];
      [|reflexivity].
    destruct (m_plain de_u32 Checked r) as [[j r1]|] eqn:E2; change (m_plain de_u32 Unchecked r) with (m_plain de_u32 Checked r); rewrite E2; cbn [dthen];
      [|reflexivity].
    rewrite Y. destruct (m_vec check_plain (m_plain de_u8) Unchecked r1) as [[nv r2]|]; cbn [dthen]; [|reflexivity].
    destruct (nonce_of nv) as [n|]; [|reflexivity].
    rewrite Y. destruct (m_vec check_plain (m_plain de_u8) Unchecked r2) as [[ct r3]|]; cbn [dthen]; [|reflexivity].
    unfold check_encshare. rewrite !X. reflexivity.
  Qed.
  Lemma full_vss : check_at_end (m_vss pts c) (check_vss pts).
  Proof. intros bs. unfold m_vss, check_vss. pose proof (full_vec (check_point pts) (m_point pts c)). repeat fullstep; close. Qed.
  Lemma full_complaint_proof : check_at_end (m_complaint_proof pts c) (check_complaint_proof pts).
  Proof. intros bs. unfold m_complaint_proof, check_complaint_proof. pose proof full_point. repeat fullstep; close. Qed.
  Lemma full_complaint : check_at_end (m_complaint pts c) (check_complaint pts).
  Proof.
    intros bs. unfold m_complaint, check_complaint. pose proof full_point. pose proof full_encshare. pose proof full_complaint_proof.
    repeat fullstep; close.
  Qed.
  Lemma full_participant : check_at_end (m_participant pts c) (check_participant pts).
  Proof.
    intros bs. unfold m_participant, check_participant. pose proof full_point. pose proof (full_option _ _ full_vss).
    assert (X : forall o : option Nizk, check_option check_plain o = true) by (intros [?|]; reflexivity).
    repeat fullstep; cbn [pt_index pt_dh_pk pt_comm pt_sk_proof pt_dh_proof] in *; rewrite ?X in *; close.
  Qed.
  Lemma full_part_list : check_at_end (m_part_list pts c) (check_part_list pts).
  Proof.
    intros bs. unfold m_part_list, check_part_list. pose proof (full_vec (check_participant pts) (m_participant pts c)).
    assert (X : forall o : option (list u32), check_option (forallb check_plain) o = true).
    { intros [l|]; [|reflexivity]. cbn. induction l; auto. }
    repeat fullstep; cbn [pl_valid pl_mis] in *; rewrite ?X in *; close.
  Qed.
  Lemma full_commitment : check_at_end (m_commitment pts c) (check_commitment pts).
  Proof. intros bs. unfold m_commitment, check_commitment. pose proof full_point. repeat fullstep; close. Qed.
  Lemma full_commitment_share : check_at_end (m_commitment_share pts c) (check_commitment_share pts).
  Proof. intros bs. unfold m_commitment_share, check_commitment_share. pose proof full_commitment. repeat fullstep; close. Qed.
  Lemma full_secret_list : check_at_end (m_secret_list pts c) (check_secret_list pts).
  Proof.
    intros bs. unfold m_secret_list, check_secret_list. pose proof (full_vec (check_commitment_share pts) (m_commitment_share pts c)).
    repeat fullstep; close.
  Qed.
  Lemma full_points : check_at_end (m_points pts c) (check_points pts).
  Proof. exact (full_pair _ _ _ _ full_point full_point). Qed.
  Lemma full_public_list : check_at_end (m_public_list pts c) (check_public_list pts).
  Proof.
    intros bs. unfold m_public_list, check_public_list. pose proof (full_vec (check_points pts) (m_points pts c)). repeat fullstep; close.
  Qed.
  Lemma full_signer : check_at_end (m_signer pts c) (check_signer pts).
  Proof. intros bs. unfold m_signer, check_signer. pose proof full_points. repeat fullstep; close. Qed.
  Lemma full_threshold_sig : check_at_end (m_threshold_sig pts c) (check_threshold_sig pts).
  Proof. intros bs. unfold m_threshold_sig, check_threshold_sig. pose proof full_point. repeat fullstep; close. Qed.
End Types.

(** for every message: checking each point where it is read is the same as checking the value at the end *)
Theorem C140_checks_can_be_made_at_the_end :
  forall (S : Suite) (pts : Points) (c : compress),
  check_at_end (m_point pts c) (check_point pts) /\
  check_at_end (m_verifying_key pts c) (check_verifying_key pts) /\
  check_at_end m_encshare check_encshare /\
  check_at_end (m_vss pts c) (check_vss pts) /\
  check_at_end (m_complaint_proof pts c) (check_complaint_proof pts) /\
  check_at_end (m_complaint pts c) (check_complaint pts) /\
  check_at_end (m_participant pts c) (check_participant pts) /\
  check_at_end (m_part_list pts c) (check_part_list pts) /\
  check_at_end (m_commitment pts c) (check_commitment pts) /\
  check_at_end (m_commitment_share pts c) (check_commitment_share pts) /\
  check_at_end (m_secret_list pts c) (check_secret_list pts) /\
  check_at_end (m_public_list pts c) (check_public_list pts) /\
  check_at_end (m_signer pts c) (check_signer pts) /\
  check_at_end (m_threshold_sig pts c) (check_threshold_sig pts).
Proof.
  intros S pts c. split; [apply full_point|]. split; [apply full_verifying_key|]. split; [apply full_encshare|].
  split; [apply full_vss|]. split; [apply full_complaint_proof|]. split; [apply full_complaint|]. split; [apply full_participant|].
  split; [apply full_part_list|]. split; [apply full_commitment|]. split; [apply full_commitment_share|].
  split; [apply full_secret_list|]. split; [apply full_public_list|]. split; [apply full_signer|]. apply full_threshold_sig.
Qed.
Print Assumptions C140_checks_can_be_made_at_the_end.

(** ** what [check] looks at *)
Section Check.
  Context {S : Suite} (pts : Points).
  Lemma all_points (l : list G) : forallb (check_point pts) l = true <-> forall P, In P l -> in_group pts P = true.
  Proof. unfold check_point. apply forallb_forall. Qed.
  Lemma all_flat {A} (check : A -> bool) (of : A -> list G) l : checks_points pts check of ->
    (forallb check l = true <-> forall P, In P (flat_map of l) -> in_group pts P = true).
  Proof.
    intros H. rewrite forallb_forall. split.
    - intros K P HP. apply in_flat_map in HP as (a & Ha & HP). apply (H a); [apply K; exact Ha|exact HP].
    - intros K a Ha. apply (H a). intros P HP. apply K, in_flat_map. exists a. auto.
  Qed.
  Lemma ck_vss : checks_points pts (check_vss pts) vss_points.
  Proof. intros a. unfold check_vss, check_plain. cbn. apply all_points. Qed.
  Lemma ck_proof : checks_points pts (check_complaint_proof pts) points_of_proof.
  Proof.
    intros a. unfold check_complaint_proof, check_plain, points_of_proof. rewrite andb_true_r, andb_true_iff.
    rewrite <- all_points. cbn. rewrite andb_true_r, andb_true_iff. reflexivity.
  Qed.
  Lemma ck_encshare (e : EncShare) : check_encshare e = true.
  Proof.
    assert (X : forall l : list byte, forallb check_plain l = true) by (induction l; auto).
    unfold check_encshare. rewrite !X. reflexivity.
  Qed.
  Lemma ck_complaint : checks_points pts (check_complaint pts) points_of_complaint.
  Proof.
    intros a. unfold check_complaint, points_of_complaint. rewrite ck_encshare, <- all_points, forallb_app, !andb_true_iff.
    rewrite (ck_proof (c_proof a)), <- all_points. cbn. rewrite andb_true_r, !andb_true_iff. tauto.
  Qed.
  Lemma ck_participant : checks_points pts (check_participant pts) points_of_participant.
  Proof.
    intros a. rewrite <- all_points. unfold check_participant, points_of_participant.
    assert (X : forall o : option Nizk, check_option check_plain o = true) by (intros [?|]; reflexivity).
    rewrite X. unfold check_plain. cbn [andb forallb]. rewrite !andb_true_r, !andb_true_iff. destruct (pt_comm a) as [x|]; cbn [check_option].
    - rewrite (ck_vss x), <- all_points. tauto.
    - cbn. tauto.
  Qed.
  Lemma ck_part_list : checks_points pts (check_part_list pts) (fun l => flat_map points_of_participant (pl_valid l)).
  Proof.
    intros a. unfold check_part_list. rewrite andb_true_iff, (all_flat _ _ _ ck_participant).
    assert (X : check_option (forallb check_plain) (pl_mis a) = true).
    { destruct (pl_mis a) as [l|]; [|reflexivity]. cbn. induction l; auto. }
    rewrite X. tauto.
  Qed.
  Lemma ck_share : checks_points pts (check_commitment_share pts) points_of_share.
  Proof.
    intros a. unfold check_commitment_share, check_commitment, check_plain, points_of_share. cbn [andb].
    rewrite <- all_points. cbn. rewrite andb_true_r. reflexivity.
  Qed.
  Lemma ck_pair : checks_points pts (check_points pts) points_of_pair.
  Proof. intros a. unfold check_points, points_of_pair. rewrite <- all_points. cbn. rewrite andb_true_r. reflexivity. Qed.
  Lemma ck_state : checks_points pts (check_state pts) points_of_state.
  Proof.
    intros a. unfold check_state, points_of_state, check_plain. cbn [andb]. rewrite <- all_points. cbn [forallb]. rewrite forallb_app.
    assert (X : check_option (check_map (@check_encshare S)) (ds_enc a) = true).
    { destruct (ds_enc a) as [m|]; [|reflexivity]. cbn. unfold check_map. apply forallb_forall. intros kv _. apply ck_encshare. }
    assert (Y : check_option (check_map (fun _ : SecretShare => true)) (ds_shares a) = true).
    { destruct (ds_shares a) as [m|]; [|reflexivity]. cbn. unfold check_map. apply forallb_forall. reflexivity. }
    rewrite X, Y, !andb_true_r, !andb_true_iff.
    assert (Z : check_map (check_point pts) (ds_dhs a) = forallb (check_point pts) (map snd (ds_dhs a))).
    { unfold check_map. induction (ds_dhs a) as [|kv m IH]; [reflexivity|]. cbn. rewrite IH. reflexivity. }
    rewrite Z. destruct (ds_comms a) as [m|]; cbn [check_option forallb].
    - assert (W : check_map (check_vss pts) m = forallb (check_point pts) (flat_map (fun kv => vss_points (snd kv)) m)).
      { unfold check_map. induction m as [|kv m IH]; [reflexivity|]. cbn [forallb flat_map]. rewrite forallb_app, IH. reflexivity. }
      rewrite W. tauto.
    - tauto.
  Qed.
End Check.

(** [check] accepts a value exactly if every point in it is in the group *)
Theorem C140_check_looks_at_every_point :
  forall (S : Suite) (pts : Points),
  checks_points pts (check_verifying_key pts) (fun k => [vk_share k]) /\
  checks_points pts check_encshare (fun _ => []) /\
  checks_points pts (check_vss pts) vss_points /\
  checks_points pts (check_complaint_proof pts) points_of_proof /\
  checks_points pts (check_complaint pts) points_of_complaint /\
  checks_points pts (check_participant pts) points_of_participant /\
  checks_points pts (check_part_list pts) (fun l => flat_map points_of_participant (pl_valid l)) /\
  checks_points pts (check_commitment pts) (fun x => [co_commit x]) /\
  checks_points pts (check_commitment_share pts) points_of_share /\
  checks_points pts (check_secret_list pts) (fun l => flat_map points_of_share (sl_commitments l)) /\
  checks_points pts (check_public_list pts) (fun l => flat_map points_of_pair (pl_commitments l)) /\
  checks_points pts (check_signer pts) (fun s => points_of_pair (sg_com s)) /\
  checks_points pts (check_threshold_sig pts) (fun s => [ts_R s]) /\
  checks_points pts (check_round_one pts) (fun s => points_of_state (st1 s)) /\
  checks_points pts (check_round_two pts) (fun s => points_of_state (st2 s)).
Proof.
  intros S pts.
  split. { intros a. rewrite <- all_points. unfold check_verifying_key, check_plain. cbn. rewrite andb_true_r. reflexivity. }
  split. { intros a. rewrite ck_encshare. split; [intros _ P []|reflexivity]. }
  split; [apply ck_vss|]. split; [apply ck_proof|]. split; [apply ck_complaint|]. split; [apply ck_participant|].
  split; [apply ck_part_list|].
  split. { intros a. rewrite <- all_points. unfold check_commitment, check_plain. cbn. rewrite andb_true_r. reflexivity. }
  split; [apply ck_share|].
  split. { intros a. apply all_flat, ck_share. }
  split. { intros a. unfold check_public_list, check_plain. cbn [andb]. apply all_flat, ck_pair. }
  split. { intros a. unfold check_signer, check_plain. cbn [andb]. apply ck_pair. }
  split. { intros a. rewrite <- all_points. unfold check_threshold_sig, check_plain. cbn. rewrite !andb_true_r. reflexivity. }
  split; intros a; apply ck_state.
Qed.
Print Assumptions C140_check_looks_at_every_point.

(** ** saved sessions *)
Lemma dthen_some {A B} (x : option (A * list byte)) (f : A -> list byte -> option (B * list byte)) y : dthen x f = Some y ->
  exists a r, x = Some (a, r) /\ f a r = Some y.
Proof. destruct x as [[a r]|]; [|discriminate]. intros H. exists a, r. auto. Qed.
Section Sessions.
  Context {S : Suite} (pts : Points) (c : compress).
  Lemma passes_state : passes (m_state pts c) (check_state pts).
  Proof.
    intros bs a r E. unfold m_state in *.
    apply dthen_some in E as (p & r1 & E1 & E). rewrite E1. cbn [dthen].
    apply dthen_some in E as (i & r2 & E2 & E). rewrite E2. cbn [dthen].
    apply dthen_some in E as (x & r3 & E3 & E). rewrite E3. cbn [dthen].
    apply dthen_some in E as (pk & r4 & E4 & E). apply (full_passes _ _ (full_point pts c)) in E4 as [E4 K4]. rewrite E4. cbn [dthen].
    apply dthen_some in E as (cs & r5 & E5 & E).
    apply (passes_option _ _ (passes_map _ _ (full_vss pts c))) in E5 as [E5 K5]. rewrite E5. cbn [dthen].
    apply dthen_some in E as (dhs & r6 & E6 & E). apply (passes_map _ _ (full_point pts c)) in E6 as [E6 K6]. rewrite E6. cbn [dthen].
    apply dthen_some in E as (es & r7 & E7 & E). apply (passes_option _ _ (passes_map _ _ full_encshare)) in E7 as [E7 K7]. rewrite E7. cbn [dthen].
    apply dthen_some in E as (sh & r8 & E8 & E).
    apply (passes_option _ _ (passes_map _ _ (full_plain de_share))) in E8 as [E8 K8]. rewrite E8. cbn [dthen].
    split; [exact E|]. assert (Ha : a = MkState p i x pk cs dhs es sh) by congruence. rewrite Ha.
    unfold check_state, check_plain at 1 2 3. cbn [ds_params ds_index ds_dh_sk ds_dh_pk ds_comms ds_dhs ds_enc ds_shares andb].
    rewrite K4, K5, K6, K7, K8. reflexivity.
  Qed.
  Lemma passes_round_one : passes (m_round_one pts c) (check_round_one pts).
  Proof.
    intros bs a r E. unfold m_round_one in *. apply dthen_some in E as (s & q & E1 & E). apply passes_state in E1 as [E1 K]. rewrite E1. cbn [dthen].
    split; [exact E|]. assert (Ha : a = R1 s) by congruence. rewrite Ha. exact K.
  Qed.
  Lemma passes_round_two : passes (m_round_two pts c) (check_round_two pts).
  Proof.
    intros bs a r E. unfold m_round_two in *. apply dthen_some in E as (s & q & E1 & E). apply passes_state in E1 as [E1 K]. rewrite E1. cbn [dthen].
    split; [exact E|]. assert (Ha : a = R2 s) by congruence. rewrite Ha. exact K.
  Qed.
End Sessions.

(** ** round trips *)
Section Trips.
  Context {S : Suite} (pts : Points) (Lp : PointLaws pts) (c : compress).
  (** what can be read back in a mode *)
  Definition fine {A} (R : A -> Prop) (check : A -> bool) (v : validate) (a : A) : Prop := R a /\ (v = Checked -> check a = true).
  Lemma x_scalar : exact any enc_scalar dec_scalar.
  Proof. intros x r _. apply (scalar_back _ Lp). Qed.
  Lemma x_nizk : exact any ser_nizk de_nizk.
  Proof.
    intros [s x] r _. unfold ser_nizk, de_nizk. cbn [nz_s nz_r]. rewrite <- app_assoc, x_scalar by exact I. cbn [dthen].
    rewrite x_scalar by exact I. reflexivity.
  Qed.
  Lemma x_share : exact any ser_share de_share.
  Proof.
    intros [i j x] r _. unfold ser_share, de_share. cbn [sh_sender sh_receiver sh_value]. rewrite <- !app_assoc, exact_u32 by exact I. cbn [dthen].
    rewrite exact_u32 by exact I. cbn [dthen]. rewrite x_scalar by exact I. reflexivity.
  Qed.
  Lemma x_point v : exact (fine any (check_point pts) v) (w_point pts c) (m_point pts c v).
  Proof.
    intros P r [_ H]. unfold m_point, w_point. rewrite (point_back _ Lp). destruct v; [|reflexivity]. cbn. unfold check_point in H.
    rewrite H; reflexivity.
  Qed.
  Lemma x_vec {A} (R : A -> Prop) check w (m : validate -> decoder A) v : exact (fine R check Unchecked) w (m Unchecked) ->
    exact (fine (real_vec R) (forallb check) v) (ser_vec w) (m_vec check m v).
  Proof.
    intros H l r [[H1 H2] H3]. unfold m_vec. rewrite (exact_vec _ _ _ H).
    - destruct v; [|reflexivity]. cbn. rewrite H3; reflexivity.
    - split; [exact H1|]. intros a Ha. split; [apply H2; exact Ha|discriminate].
  Qed.
  Lemma x_option {A} (R : A -> Prop) check w (m : validate -> decoder A) v : exact (fine R check v) w (m v) ->
    exact (fine (real_option R) (check_option check) v) (ser_option w) (m_option m v).
  Proof.
    intros H o r [H1 H2]. unfold m_option. apply (exact_option _ _ _ H). intros a ->. split; [apply H1; reflexivity|exact H2].
  Qed.
  Lemma x_map {A} (R : A -> Prop) check w (m : validate -> decoder A) v : exact (fine R check v) w (m v) ->
    exact (fine (real_map R) (check_map check) v) (ser_map w) (m_map m v).
  Proof.
    intros H o r [[H1 H2] H3]. unfold m_map. apply (exact_map _ _ _ H). split; [exact H1|]. intros k a Hin. split; [exact (H2 _ _ Hin)|].
    intros Hv. pose proof (proj1 (forallb_forall _ _) (H3 Hv) _ Hin) as K. exact K.
  Qed.
  Lemma no_check {A} (R : A -> Prop) w (d : decoder A) v : exact R w d -> exact (fine R check_plain v) w (m_plain d v).
  Proof. intros H a r [Ha _]. apply H, Ha. Qed.
  Lemma x_bytes v : exact (fine (@fits byte) (forallb check_plain) v) (ser_vec (fun b => [b])) (m_vec check_plain (m_plain de_u8) v).
  Proof.
    intros l r [H _].
    apply (x_vec any check_plain (fun b => [b]) (m_plain de_u8) v).
    - apply no_check. intros b q _. reflexivity.
    - split; [split; [exact H|intros; exact I]|]. intros _. apply forallb_forall. reflexivity.
  Qed.
  Lemma x_encshare v : exact (fine real_enc check_encshare v) w_encshare (m_encshare v).
  Proof.
    intros [i j n ct] r [[H1 H2] _]. unfold w_encshare, m_encshare. cbn [es_sender es_receiver es_nonce es_ct] in *.
    assert (X : forall l : list byte, v = Checked -> forallb check_plain l = true) by (intros l _; apply forallb_forall; reflexivity).
    rewrite <- !app_assoc. unfold m_plain at 1. rewrite exact_u32 by exact I. cbn [dthen]. unfold m_plain at 1. rewrite exact_u32 by exact I. cbn [dthen].
    rewrite x_bytes by (split; [exact H1|apply X]). cbn [dthen]. rewrite nonce_of_ok. rewrite x_bytes by (split; [exact H2|apply X]). reflexivity.
  Qed.
  Lemma x_vss v : exact (fine real_vss (check_vss pts) v) (w_vss pts c) (m_vss pts c v).
  Proof.
    intros [i l] r [H K]. unfold w_vss, m_vss. cbn [vss_index vss_points] in *. rewrite <- app_assoc, exact_u32 by exact I. cbn [dthen].
    rewrite (x_vec any (check_point pts) (w_point pts c) (m_point pts c) v (x_point Unchecked)); [reflexivity|].
    split; [split; [exact H|intros; exact I]|]. intros Hv. exact (K Hv).
  Qed.
  Lemma x_proof v : exact (fine any (check_complaint_proof pts) v) (w_complaint_proof pts c) (m_complaint_proof pts c v).
  Proof.
    intros [a b z] r [_ K]. unfold w_complaint_proof, m_complaint_proof. unfold check_complaint_proof in K. cbn [cp_a1 cp_a2 cp_z] in *.
    rewrite <- !app_assoc, x_point. 2:{ split; [exact I|]. intros Hv. specialize (K Hv). apply andb_prop in K as [K _]. apply andb_prop in K as [K _]. exact K. }
    cbn [dthen]. rewrite x_point. 2:{ split; [exact I|]. intros Hv. specialize (K Hv). apply andb_prop in K as [K _]. apply andb_prop in K as [_ K]. exact K. }
    cbn [dthen]. rewrite x_scalar by exact I. reflexivity.
  Qed.
  Lemma x_complaint v : exact (fine real_complaint (check_complaint pts) v) (w_complaint pts c) (m_complaint pts c v).
  Proof.
    intros [k pk e p] r [H K]. unfold w_complaint, m_complaint. unfold check_complaint in K. cbn [c_shared c_pk c_share c_proof] in *.
    assert (K1 : v = Checked -> check_point pts k = true /\ check_point pts pk = true /\ check_encshare e = true /\ check_complaint_proof pts p = true).
    { intros Hv. specialize (K Hv). rewrite !andb_true_iff in K. tauto. }
    rewrite <- !app_assoc, x_point by (split; [exact I|intros Hv; apply (K1 Hv)]). cbn [dthen].
    rewrite x_point by (split; [exact I|intros Hv; apply (K1 Hv)]). cbn [dthen].
    rewrite x_encshare by (split; [exact H|intros Hv; apply (K1 Hv)]). cbn [dthen].
    rewrite x_proof by (split; [exact I|intros Hv; apply (K1 Hv)]). reflexivity.
  Qed.
  Lemma x_participant v : exact (fine real_participant (check_participant pts) v) (w_participant pts c) (m_participant pts c v).
  Proof.
    intros [i pk x p q] r [H K]. unfold w_participant, m_participant. unfold check_participant in K. cbn [pt_index pt_dh_pk pt_comm pt_sk_proof pt_dh_proof] in *.
    assert (K1 : v = Checked -> check_point pts pk = true /\ check_option (check_vss pts) x = true).
    { intros Hv. specialize (K Hv). rewrite !andb_true_iff in K. tauto. }
    rewrite <- !app_assoc, exact_u32 by exact I. cbn [dthen].
    rewrite x_point by (split; [exact I|intros Hv; apply (K1 Hv)]). cbn [dthen].
    rewrite (x_option _ _ _ _ v (x_vss v)) by (split; [exact H|intros Hv; apply (K1 Hv)]). cbn [dthen].
    rewrite (exact_option _ _ _ x_nizk) by (intros ? _; exact I). cbn [dthen]. rewrite x_nizk by exact I. reflexivity.
  Qed.
  Lemma x_part_list v : exact (fine real_part_list (check_part_list pts) v) (w_part_list pts c) (m_part_list pts c v).
  Proof.
    intros [l o] r [[H1 H2] K]. unfold w_part_list, m_part_list. unfold check_part_list in K. cbn [pl_valid pl_mis] in *. rewrite <- app_assoc.
    rewrite (x_vec real_participant (check_participant pts) (w_participant pts c) (m_participant pts c) v (x_participant Unchecked)).
    2:{ split; [exact H1|]. intros Hv. specialize (K Hv). apply andb_prop in K as [K _]. exact K. }
    cbn [dthen]. rewrite (exact_option _ _ _ (exact_vec _ _ _ exact_u32)); [reflexivity|]. intros a Ha. split; [apply H2; exact Ha|intros; exact I].
  Qed.
  Lemma x_commitment v : exact (fine any (check_commitment pts) v) (w_commitment pts c) (m_commitment pts c v).
  Proof.
    intros [x P] r [_ K]. unfold w_commitment, m_commitment. cbn [co_secret co_commit] in *. rewrite <- app_assoc, x_scalar by exact I.
    cbn [dthen]. rewrite x_point; [reflexivity|]. split; [exact I|exact K].
  Qed.
  Lemma x_cshare v : exact (fine any (check_commitment_share pts) v) (w_commitment_share pts c) (m_commitment_share pts c v).
  Proof.
    intros [h b] r [_ K]. unfold w_commitment_share, m_commitment_share. unfold check_commitment_share in K. cbn [cs_hiding cs_binding] in *.
    rewrite <- app_assoc, x_commitment. 2:{ split; [exact I|]. intros Hv. specialize (K Hv). apply andb_prop in K as [K _]. exact K. }
    cbn [dthen]. rewrite x_commitment; [reflexivity|]. split; [exact I|]. intros Hv. specialize (K Hv). apply andb_prop in K as [_ K]. exact K.
  Qed.
  Lemma x_secret_list v : exact (fine (fun l => fits (sl_commitments l)) (check_secret_list pts) v) (w_secret_list pts c) (m_secret_list pts c v).
  Proof.
    intros [l] r [H K]. unfold w_secret_list, m_secret_list. cbn [sl_commitments] in *.
    rewrite (x_vec any (check_commitment_share pts) (w_commitment_share pts c) (m_commitment_share pts c) v (x_cshare Unchecked)); [reflexivity|].
    split; [split; [exact H|intros; exact I]|exact K].
  Qed.
  Lemma x_points v : exact (fine any (check_points pts) v) (ser_pair (w_point pts c) (w_point pts c)) (m_points pts c v).
  Proof.
    apply (exact_mono (fun p => fine any (check_point pts) v (fst p) /\ fine any (check_point pts) v (snd p))).
    - intros p [_ K]. split; (split; [exact I|]); intros Hv; specialize (K Hv); apply andb_prop in K as [K1 K2]; assumption.
    - apply exact_pair; apply x_point.
  Qed.
  Lemma x_public_list v : exact (fine (fun l => fits (pl_commitments l)) (check_public_list pts) v) (w_public_list pts c) (m_public_list pts c v).
  Proof.
    intros [i l] r [H K]. unfold w_public_list, m_public_list. cbn [pl_index pl_commitments] in *. rewrite <- app_assoc, exact_u32 by exact I. cbn [dthen].
    rewrite (x_vec any (check_points pts) (ser_pair (w_point pts c) (w_point pts c)) (m_points pts c) v (x_points Unchecked)); [reflexivity|].
    split; [split; [exact H|intros; exact I]|exact K].
  Qed.
  Lemma x_signer v : exact (fine any (check_signer pts) v) (w_signer pts c) (m_signer pts c v).
  Proof.
    intros [i p] r [_ K]. unfold w_signer, m_signer. cbn [sg_index sg_com] in *. rewrite <- app_assoc, exact_u32 by exact I. cbn [dthen].
    rewrite x_points; [reflexivity|]. split; [exact I|exact K].
  Qed.
  Lemma x_sig v : exact (fine any (check_threshold_sig pts) v) (w_threshold_sig pts c) (m_threshold_sig pts c v).
  Proof.
    intros [R z] r [_ K]. unfold w_threshold_sig, m_threshold_sig. unfold check_threshold_sig in K. cbn [ts_R ts_z] in *. rewrite <- app_assoc, x_point.
    2:{ split; [exact I|]. intros Hv. specialize (K Hv). apply andb_prop in K as [K _]. exact K. }
    cbn [dthen]. rewrite x_scalar by exact I. reflexivity.
  Qed.
  Lemma x_vk v : exact (fine any (check_verifying_key pts) v) (w_verifying_key pts c) (m_verifying_key pts c v).
  Proof.
    intros [i P] r [_ K]. unfold w_verifying_key, m_verifying_key. cbn [vk_index vk_share] in *. rewrite <- app_assoc, exact_u32 by exact I. cbn [dthen].
    rewrite x_point; [reflexivity|]. split; [exact I|exact K].
  Qed.
  Lemma x_state v : exact (fine real_state (check_state pts) v) (w_state pts c) (m_state pts c v).
  Proof.
    intros [p i x pk cs dhs es sh] r [[H1 H2 H3 H4] K]. unfold w_state, m_state. unfold check_state in K.
    cbn [ds_params ds_index ds_dh_sk ds_dh_pk ds_comms ds_dhs ds_enc ds_shares] in *.
    assert (K1 : v = Checked -> check_point pts pk = true /\ check_option (check_map (check_vss pts)) cs = true /\
      check_map (check_point pts) dhs = true /\ check_option (check_map check_encshare) es = true /\ check_option (check_map check_plain) sh = true).
    { intros Hv. specialize (K Hv). rewrite !andb_true_iff in K. tauto. }
    rewrite <- !app_assoc, exact_params by exact I. cbn [dthen]. rewrite exact_u32 by exact I. cbn [dthen].
    rewrite x_scalar by exact I. cbn [dthen]. rewrite x_point by (split; [exact I|intros Hv; apply (K1 Hv)]). cbn [dthen].
    rewrite (x_option _ _ _ _ v (x_map _ _ _ _ v (x_vss v))) by (split; [exact H1|intros Hv; apply (K1 Hv)]). cbn [dthen].
    rewrite (x_map _ _ _ _ v (x_point v)) by (split; [exact H2|intros Hv; apply (K1 Hv)]). cbn [dthen].
    rewrite (x_option _ _ _ _ v (x_map _ _ _ _ v (x_encshare v))) by (split; [exact H3|intros Hv; apply (K1 Hv)]). cbn [dthen].
    rewrite (x_option _ _ _ _ v (x_map _ _ _ _ v (no_check any ser_share de_share v x_share))); [reflexivity|].
    split; [exact H4|intros Hv; apply (K1 Hv)].
  Qed.
  Lemma trips_of {A} (R : A -> Prop) check w (m : validate -> decoder A) : passes m check ->
    (forall v, exact (fine R check v) w (m v)) -> mode_trips R check w m.
  Proof.
    intros HP H a r Ha. assert (U : m Unchecked (w a ++ r) = Some (a, r)) by (apply H; split; [exact Ha|discriminate]).
    split; [exact U|]. destruct (check a) eqn:Ec.
    - apply H. split; [exact Ha|intros _; exact Ec].
    - destruct (m Checked (w a ++ r)) as [[b q]|] eqn:E; [|reflexivity]. apply HP in E as [E1 E2]. congruence.
  Qed.
End Trips.

(** every value is read back in every mode: without checks always, with checks exactly if all its points are in the group *)
Theorem C140_every_mode_round_trips :
  forall (S : Suite) (pts : Points) (c : compress), PointLaws pts ->
  mode_trips any (check_point pts) (w_point pts c) (m_point pts c) /\
  mode_trips any (check_verifying_key pts) (w_verifying_key pts c) (m_verifying_key pts c) /\
  mode_trips real_enc check_encshare w_encshare m_encshare /\
  mode_trips real_vss (check_vss pts) (w_vss pts c) (m_vss pts c) /\
  mode_trips any (check_complaint_proof pts) (w_complaint_proof pts c) (m_complaint_proof pts c) /\
  mode_trips real_complaint (check_complaint pts) (w_complaint pts c) (m_complaint pts c) /\
  mode_trips real_participant (check_participant pts) (w_participant pts c) (m_participant pts c) /\
  mode_trips real_part_list (check_part_list pts) (w_part_list pts c) (m_part_list pts c) /\
  mode_trips any (check_commitment pts) (w_commitment pts c) (m_commitment pts c) /\
  mode_trips any (check_commitment_share pts) (w_commitment_share pts c) (m_commitment_share pts c) /\
  mode_trips (fun l => fits (sl_commitments l)) (check_secret_list pts) (w_secret_list pts c) (m_secret_list pts c) /\
  mode_trips (fun l => fits (pl_commitments l)) (check_public_list pts) (w_public_list pts c) (m_public_list pts c) /\
  mode_trips any (check_signer pts) (w_signer pts c) (m_signer pts c) /\
  mode_trips any (check_threshold_sig pts) (w_threshold_sig pts c) (m_threshold_sig pts c) /\
  mode_trips (fun s => real_state (st1 s)) (check_round_one pts) (w_round_one pts c) (m_round_one pts c) /\
  mode_trips (fun s => real_state (st2 s)) (check_round_two pts) (w_round_two pts c) (m_round_two pts c).
Proof.
  intros S pts c Lp.
  split; [apply trips_of; [apply full_passes, full_point|intros v; apply x_point; exact Lp]|].
  split; [apply trips_of; [apply full_passes, full_verifying_key|intros v; apply x_vk; exact Lp]|].
  split; [apply trips_of; [apply full_passes, full_encshare|intros v; apply x_encshare]|].
  split; [apply trips_of; [apply full_passes, full_vss|intros v; apply x_vss; exact Lp]|].
  split; [apply trips_of; [apply full_passes, full_complaint_proof|intros v; apply x_proof; exact Lp]|].
  split; [apply trips_of; [apply full_passes, full_complaint|intros v; apply x_complaint; exact Lp]|].
  split; [apply trips_of; [apply full_passes, full_participant|intros v; apply x_participant; exact Lp]|].
  split; [apply trips_of; [apply full_passes, full_part_list|intros v; apply x_part_list; exact Lp]|].
  split; [apply trips_of; [apply full_passes, full_commitment|intros v; apply x_commitment; exact Lp]|].
  split; [apply trips_of; [apply full_passes, full_commitment_share|intros v; apply x_cshare; exact Lp]|].
  split; [apply trips_of; [apply full_passes, full_secret_list|intros v; apply x_secret_list; exact Lp]|].
  split; [apply trips_of; [apply full_passes, full_public_list|intros v; apply x_public_list; exact Lp]|].
  split; [apply trips_of; [apply full_passes, full_signer|intros v; apply x_signer; exact Lp]|].
  split; [apply trips_of; [apply full_passes, full_threshold_sig|intros v; apply x_sig; exact Lp]|].
  split.
  - apply trips_of; [apply passes_round_one|]. intros v [s] r H. unfold w_round_one, m_round_one. rewrite (x_state pts Lp c v) by exact H. reflexivity.
  - apply trips_of; [apply passes_round_two|]. intros v [s] r H. unfold w_round_two, m_round_two. rewrite (x_state pts Lp c v) by exact H. reflexivity.
Qed.
Print Assumptions C140_every_mode_round_trips.

(** ** sessions: one direction only *)
(** a session read with checks is also read without them, passes [check], and the same holds in the other direction for what the
    library writes *)
Theorem C140_sessions_are_checked :
  forall (S : Suite) (pts : Points) (c : compress) (bs : list byte) (rest : list byte),
  (forall s, m_round_one pts c Checked bs = Some (s, rest) ->
     m_round_one pts c Unchecked bs = Some (s, rest) /\ check_round_one pts s = true) /\
  (forall s, m_round_two pts c Checked bs = Some (s, rest) ->
     m_round_two pts c Unchecked bs = Some (s, rest) /\ check_round_two pts s = true) /\
  (PointLaws pts -> forall s, bs = w_round_one pts c s ++ rest -> real_state (st1 s) ->
     m_round_one pts c Unchecked bs = Some (s, rest) -> check_round_one pts s = true -> m_round_one pts c Checked bs = Some (s, rest)) /\
  (PointLaws pts -> forall s, bs = w_round_two pts c s ++ rest -> real_state (st2 s) ->
     m_round_two pts c Unchecked bs = Some (s, rest) -> check_round_two pts s = true -> m_round_two pts c Checked bs = Some (s, rest)).
Proof.
  intros S pts c bs rest. split; [intros s; apply passes_round_one|]. split; [intros s; apply passes_round_two|]. split.
  - intros Lp s -> H _ K. destruct (C140_every_mode_round_trips S pts c Lp) as (_ & _ & _ & _ & _ & _ & _ & _ & _ & _ & _ & _ & _ & _ & X & _).
    destruct (X s rest H) as [_ X2]. rewrite X2, K. reflexivity.
  - intros Lp s -> H _ K. destruct (C140_every_mode_round_trips S pts c Lp) as (_ & _ & _ & _ & _ & _ & _ & _ & _ & _ & _ & _ & _ & _ & _ & X).
    destruct (X s rest H) as [_ X2]. rewrite X2, K. reflexivity.
Qed.
Print Assumptions C140_sessions_are_checked.

Section Hidden.
  Context {S : Suite} (pts : Points) (Lp : PointLaws pts) (c : compress).
  (** the bytes of a session without participants other than i, whose key is listed twice *)
  Definition listed_twice (p : Params) (me : u32) (x : F) (X : G) (i : u32) (P Q : G) : list byte :=
    ser_params p ++ u32_le me ++ enc_scalar x ++ w_point pts c X ++ [x00] ++
    (ser_vec (ser_pair u32_le (w_point pts c)) [(i, P); (i, Q)]) ++ [x00] ++ [x00].
  Lemma hidden_unchecked p me x X i P Q rest :
    m_round_one pts c Unchecked (listed_twice p me x X i P Q ++ rest) = Some (R1 (MkState p me x X None [(i, Q)] None None), rest).
  Proof.
    unfold m_round_one, m_state, listed_twice. rewrite <- !app_assoc, exact_params by exact I. cbn [dthen]. rewrite exact_u32 by exact I. cbn [dthen].
    rewrite (x_scalar pts Lp) by exact I. cbn [dthen]. rewrite (x_point pts Lp c Unchecked) by (split; [exact I|discriminate]). cbn [dthen].
    unfold m_option at 1, de_option at 1. cbn [app de_u8 dthen]. unfold m_map, de_map.
    rewrite (exact_vec _ _ _ (exact_pair _ _ _ _ _ _ exact_u32 (x_point pts Lp c Unchecked))).
    - cbn [dthen fold_left fst snd binsert]. assert (E1 : u32_ltb i i = false) by (unfold u32_ltb; apply N.ltb_irrefl).
      assert (E2 : u32_eqb i i = true) by (apply u32_eqb_spec; reflexivity). rewrite E1, E2. reflexivity.
    - split; [unfold fits; cbn; lia|]. intros [k V] _. split; [exact I|]. split; [exact I|discriminate].
  Qed.
  Lemma hidden_checked p me x X i P Q rest : in_group pts P = false ->
    m_round_one pts c Checked (listed_twice p me x X i P Q ++ rest) = None.
  Proof.
    intros HP. unfold m_round_one, m_state, listed_twice. rewrite <- !app_assoc, exact_params by exact I. cbn [dthen]. rewrite exact_u32 by exact I. cbn [dthen].
    rewrite (x_scalar pts Lp) by exact I. cbn [dthen]. destruct (m_point pts c Checked _) as [[X' r]|] eqn:E; [|reflexivity].
    apply (full_passes _ _ (full_point pts c)) in E as [E _]. rewrite (x_point pts Lp c Unchecked) in E by (split; [exact I|discriminate]).
    assert (Hr : r = [x00] ++ ser_vec (ser_pair u32_le (w_point pts c)) [(i, P); (i, Q)] ++ [x00] ++ [x00] ++ rest) by congruence.
    rewrite Hr. cbn [dthen]. unfold m_option at 1, de_option at 1. cbn [app de_u8 dthen]. unfold m_map at 1, de_map at 1.
    rewrite (map_entries _ _ (full_point pts c)).
    rewrite (exact_vec _ _ _ (exact_pair _ _ _ _ _ _ exact_u32 (x_point pts Lp c Unchecked))).
    - cbn [forallb]. unfold entry_ok at 1, check_plain, check_point. cbn [fst snd andb]. rewrite HP. reflexivity.
    - split; [unfold fits; cbn; lia|]. intros [k V] _. split; [exact I|]. split; [exact I|discriminate].
  Qed.
End Hidden.
(** without that restriction it fails: a key outside the group that a second entry overwrites is refused by reading with checks and
    is invisible to a check made after reading, in both formats and whatever point it is *)
Theorem C140_overwritten_entries_escape_later_checks :
  forall (S : Suite) (pts : Points) (c : compress), PointLaws pts ->
  forall (p : Params) (me i : u32) (x : F) (X P Q : G),
  in_group pts X = true -> in_group pts Q = true -> in_group pts P = false ->
  exists bs s, m_round_one pts c Unchecked bs = Some (s, []) /\ check_round_one pts s = true /\
    m_round_one pts c Checked bs = None /\ bget i (ds_dhs (st1 s)) = Some Q.
Proof.
  intros S pts c Lp p me i x X P Q HX HQ HP. exists (listed_twice pts c p me x X i P Q), (R1 (MkState p me x X None [(i, Q)] None None)).
  pose proof (hidden_unchecked pts Lp c p me x X i P Q []) as U. pose proof (hidden_checked pts Lp c p me x X i P Q [] HP) as K.
  rewrite app_nil_r in U, K. split; [exact U|]. split; [|split; [exact K|]].
  - unfold check_round_one, check_state, check_map, check_point. cbn. rewrite HX, HQ. reflexivity.
  - cbn. rewrite (proj2 (u32_eqb_spec i i) eq_refl). reflexivity.
Qed.
Print Assumptions C140_overwritten_entries_escape_later_checks.

(** ** from_bytes: short format, with checks *)
Section FromBytes.
  Context {S : Suite} (pts : Points) (D : forall bs, dec_point bs = m_point pts Short Checked bs).
  Definition same {A} (d : decoder A) (m : validate -> decoder A) : Prop := forall bs, d bs = m Checked bs.
  Lemma many_ext {A} (d e : decoder A) : (forall bs, d bs = e bs) -> forall k bs, de_many d k bs = de_many e k bs.
  Proof.
    intros H. induction k as [|k IH]; intros bs; [reflexivity|]. cbn [de_many]. rewrite H. destruct (e bs) as [[a r]|]; [|reflexivity]. cbn [dthen].
    rewrite IH. reflexivity.
  Qed.
  Lemma vec_same {A} (d : decoder A) m check : check_at_end m check -> same d m -> same (de_vec d) (m_vec check m).
  Proof.
    intros F H bs. unfold m_vec, then_check, de_vec. destruct (de_u64 bs) as [[n r]|]; [|reflexivity]. cbn [dthen].
    rewrite (many_ext d (m Checked) H). exact (full_many m check F (N.to_nat n) r).
  Qed.
  Lemma option_same {A} (d : decoder A) m : same d m -> same (de_option d) (m_option m).
  Proof. intros H bs. unfold m_option, de_option. destruct (de_u8 bs) as [[b r]|]; [|reflexivity]. cbn [dthen]. rewrite (H r). reflexivity. Qed.
  Lemma pair_ext {A B} (d e : decoder A) (f g : decoder B) : (forall bs, d bs = e bs) -> (forall bs, f bs = g bs) -> forall bs, de_pair d f bs = de_pair e g bs.
  Proof. intros H K bs. unfold de_pair. rewrite H. destruct (e bs) as [[a r]|]; [|reflexivity]. cbn [dthen]. rewrite K. reflexivity. Qed.
  Lemma map_same {V} (d : decoder V) m : same d m -> same (de_map d) (m_map m).
  Proof.
    intros H bs. unfold m_map, de_map, de_vec. destruct (de_u64 bs) as [[n r]|]; [|reflexivity]. cbn [dthen].
    rewrite (many_ext _ (de_pair de_u32 (m Checked))); [reflexivity|]. apply pair_ext; [reflexivity|exact H].
  Qed.
  Ltac sames := intros bs; repeat (match goal with
    | H : same ?d _ |- context [dthen (?d ?b) _] => rewrite (H b)
    | H : forall bs, ?d bs = _ |- context [dthen (?d ?b) _] => rewrite (H b) end ||
    match goal with |- context [dthen ?x _] => destruct x as [[? ?]|]; cbn [dthen]; [|reflexivity] end); reflexivity.
  Lemma s_vk : same de_verifying_key (m_verifying_key pts Short).
  Proof. unfold de_verifying_key, m_verifying_key. sames. Qed.
  Lemma s_encshare : same de_encshare m_encshare.
  Proof.
    intros bs. unfold de_encshare, m_encshare. pose proof (vec_same de_u8 (m_plain de_u8) check_plain (full_plain de_u8) (fun b => eq_refl)) as Y.
    change (m_plain de_u32 Checked) with de_u32. destruct (de_u32 bs) as [[i r]|]; [|reflexivity]. cbn [dthen].
    destruct (de_u32 r) as [[j r1]|]; [|reflexivity]. cbn [dthen]. rewrite (Y r1). destruct (m_vec check_plain (m_plain de_u8) Checked r1) as [[nv r2]|]; [|reflexivity].
    cbn [dthen]. destruct (nonce_of nv) as [n|]; [|reflexivity]. rewrite (Y r2). reflexivity.
  Qed.
  Lemma s_vss : same de_vss (m_vss pts Short).
  Proof. unfold de_vss, m_vss. pose proof (vec_same _ _ _ (full_point pts Short) D). sames. Qed.
  Lemma s_proof : same de_complaint_proof (m_complaint_proof pts Short).
  Proof. unfold de_complaint_proof, m_complaint_proof. sames. Qed.
  Lemma s_complaint : same de_complaint (m_complaint pts Short).
  Proof. unfold de_complaint, m_complaint. pose proof s_encshare. pose proof s_proof. sames. Qed.
  Lemma s_participant : same de_participant (m_participant pts Short).
  Proof. unfold de_participant, m_participant. pose proof (option_same _ _ s_vss). sames. Qed.
  Lemma s_part_list : same de_part_list (m_part_list pts Short).
  Proof. unfold de_part_list, m_part_list. pose proof (vec_same _ _ _ (full_participant pts Short) s_participant). sames. Qed.
  Lemma s_commitment : same de_commitment (m_commitment pts Short).
  Proof. unfold de_commitment, m_commitment. sames. Qed.
  Lemma s_cshare : same de_commitment_share (m_commitment_share pts Short).
  Proof. unfold de_commitment_share, m_commitment_share. pose proof s_commitment. sames. Qed.
  Lemma s_secret_list : same de_secret_list (m_secret_list pts Short).
  Proof. unfold de_secret_list, m_secret_list. pose proof (vec_same _ _ _ (full_commitment_share pts Short) s_cshare). sames. Qed.
  Lemma s_points : same (de_pair dec_point dec_point) (m_points pts Short).
  Proof. intros bs. apply pair_ext; exact D. Qed.
  Lemma s_public_list : same de_public_list (m_public_list pts Short).
  Proof. unfold de_public_list, m_public_list. pose proof (vec_same _ _ _ (full_points pts Short) s_points). sames. Qed.
  Lemma s_signer : same de_signer (m_signer pts Short).
  Proof. unfold de_signer, m_signer. pose proof s_points. sames. Qed.
  Lemma s_sig : same de_threshold_sig (m_threshold_sig pts Short).
  Proof. unfold de_threshold_sig, m_threshold_sig. sames. Qed.
  Lemma s_state : same de_state (m_state pts Short).
  Proof.
    unfold de_state, m_state. pose proof (option_same _ _ (map_same _ _ s_vss)). pose proof (map_same _ _ D : same (de_map dec_point) _).
    pose proof (option_same _ _ (map_same _ _ s_encshare)). pose proof (option_same _ _ (map_same de_share (m_plain de_share) (fun b => eq_refl))). sames.
  Qed.
  Lemma s_round_one : same de_round_one (m_round_one pts Short).
  Proof. unfold de_round_one, m_round_one. pose proof s_state. sames. Qed.
  Lemma s_round_two : same de_round_two (m_round_two pts Short).
  Proof. unfold de_round_two, m_round_two. pose proof s_state. sames. Qed.
  (** every point of what is read is in the group *)
  Definition reads_group_points {A} (d : decoder A) (of : A -> list G) : Prop :=
    forall bs a, from_bytes d bs = Ok a -> forall P, In P (of a) -> in_group pts P = true.
  Lemma group_points {A} (d : decoder A) m check of : same d m -> passes m check -> checks_points pts check of -> reads_group_points d of.
  Proof.
    intros H1 H2 H3 bs a E. unfold from_bytes in E. destruct (d bs) as [[b r]|] eqn:Ed; [|discriminate E]. rewrite (H1 bs) in Ed.
    apply H2 in Ed as [_ K]. assert (b = a) as <- by congruence. exact (proj1 (H3 b) K).
  Qed.
End FromBytes.
(** reading points short and checked, from_bytes checks every point of every value, sessions included *)
Theorem C140_from_bytes_checks_every_point :
  forall (S : Suite) (pts : Points), (forall bs, dec_point bs = m_point pts Short Checked bs) ->
  reads_group_points pts de_point (fun P => [P]) /\
  reads_group_points pts de_verifying_key (fun k => [vk_share k]) /\
  reads_group_points pts de_vss vss_points /\
  reads_group_points pts de_complaint_proof points_of_proof /\
  reads_group_points pts de_complaint points_of_complaint /\
  reads_group_points pts de_participant points_of_participant /\
  reads_group_points pts de_part_list (fun l => flat_map points_of_participant (pl_valid l)) /\
  reads_group_points pts de_commitment (fun x => [co_commit x]) /\
  reads_group_points pts de_commitment_share points_of_share /\
  reads_group_points pts de_secret_list (fun l => flat_map points_of_share (sl_commitments l)) /\
  reads_group_points pts de_public_list (fun l => flat_map points_of_pair (pl_commitments l)) /\
  reads_group_points pts de_signer (fun s => points_of_pair (sg_com s)) /\
  reads_group_points pts de_threshold_sig (fun s => [ts_R s]) /\
  reads_group_points pts de_round_one (fun s => points_of_state (st1 s)) /\
  reads_group_points pts de_round_two (fun s => points_of_state (st2 s)).
Proof.
  intros S pts D.
  destruct (C140_check_looks_at_every_point S pts) as (K1 & _ & K2 & K3 & K4 & K5 & K6 & K7 & K8 & K9 & K10 & K11 & K12 & K13 & K14).
  split. { apply (group_points pts _ _ (check_point pts) _ D); [apply full_passes, full_point|]. intros P. rewrite <- all_points. cbn. rewrite andb_true_r. reflexivity. }
  split; [exact (group_points pts _ _ _ _ (s_vk pts D) (full_passes _ _ (full_verifying_key pts Short)) K1)|].
  split; [exact (group_points pts _ _ _ _ (s_vss pts D) (full_passes _ _ (full_vss pts Short)) K2)|].
  split; [exact (group_points pts _ _ _ _ (s_proof pts D) (full_passes _ _ (full_complaint_proof pts Short)) K3)|].
  split; [exact (group_points pts _ _ _ _ (s_complaint pts D) (full_passes _ _ (full_complaint pts Short)) K4)|].
  split; [exact (group_points pts _ _ _ _ (s_participant pts D) (full_passes _ _ (full_participant pts Short)) K5)|].
  split; [exact (group_points pts _ _ _ _ (s_part_list pts D) (full_passes _ _ (full_part_list pts Short)) K6)|].
  split; [exact (group_points pts _ _ _ _ (s_commitment pts D) (full_passes _ _ (full_commitment pts Short)) K7)|].
  split; [exact (group_points pts _ _ _ _ (s_cshare pts D) (full_passes _ _ (full_commitment_share pts Short)) K8)|].
  split; [exact (group_points pts _ _ _ _ (s_secret_list pts D) (full_passes _ _ (full_secret_list pts Short)) K9)|].
  split; [exact (group_points pts _ _ _ _ (s_public_list pts D) (full_passes _ _ (full_public_list pts Short)) K10)|].
  split; [exact (group_points pts _ _ _ _ (s_signer pts D) (full_passes _ _ (full_signer pts Short)) K11)|].
  split; [exact (group_points pts _ _ _ _ (s_sig pts D) (full_passes _ _ (full_threshold_sig pts Short)) K12)|].
  split; [exact (group_points pts _ _ _ _ (s_round_one pts D) (passes_round_one pts Short) K13)|].
  exact (group_points pts _ _ _ _ (s_round_two pts D) (passes_round_two pts Short) K14).
Qed.
Print Assumptions C140_from_bytes_checks_every_point.

(** ** sizes in both formats *)
Section Sizes.
  Context {S : Suite} (pts : Points) (Lp : PointLaws pts) (c : compress).
  Lemma len_point P : length (w_point pts c P) = z_point pts c.
  Proof. apply (point_length _ Lp). Qed.
  Lemma len_scalar x : length (enc_scalar x) = scalar_size.
  Proof. apply (scalar_length _ Lp). Qed.
  Lemma len_bytes l : length (ser_vec (fun b : byte => [b]) l) = vec_size (fun _ : byte => 1) l.
  Proof. apply vec_len. reflexivity. Qed.
  Lemma len_encshare e : length (w_encshare e) = encshare_size e.
  Proof. unfold w_encshare, encshare_size. rewrite !app_length, !u32_len, !len_bytes. lia. Qed.
  Lemma len_vss x : length (w_vss pts c x) = z_vss pts c x.
  Proof. unfold w_vss, z_vss. rewrite app_length, u32_len, (vec_len _ (fun _ => z_point pts c)); [reflexivity|apply len_point]. Qed.
  Lemma len_nizk p : length (ser_nizk p) = nizk_size p.
  Proof. unfold ser_nizk, nizk_size. rewrite app_length, !len_scalar. reflexivity. Qed.
  Lemma len_share s : length (ser_share s) = share_size s.
  Proof. unfold ser_share, share_size. rewrite !app_length, !u32_len, len_scalar. lia. Qed.
  Lemma len_complaint x : length (w_complaint pts c x) = z_complaint pts c x.
  Proof. unfold w_complaint, w_complaint_proof, z_complaint. rewrite !app_length, !len_point, len_encshare, len_scalar. lia. Qed.
  Lemma len_participant p : length (w_participant pts c p) = z_participant pts c p.
  Proof.
    unfold w_participant, z_participant. rewrite !app_length, u32_len, len_point, (option_len _ _ _ len_vss), (option_len _ _ _ len_nizk), len_nizk. lia.
  Qed.
  Lemma len_state s : length (w_state pts c s) = z_state pts c s.
  Proof.
    unfold w_state, z_state. rewrite !app_length, params_len, u32_len, len_scalar, len_point.
    rewrite (option_len _ (map_size (z_vss pts c))) by (intros; apply map_len, len_vss).
    rewrite (map_len _ (fun _ => z_point pts c)) by apply len_point.
    rewrite (option_len _ (map_size encshare_size)) by (intros; apply map_len, len_encshare).
    rewrite (option_len _ (map_size share_size)) by (intros; apply map_len, len_share). lia.
  Qed.
End Sizes.
(** the announced sizes are exact in both formats; an encrypted share has the same bytes in both *)
Theorem C140_sizes_are_exact_in_every_mode :
  forall (S : Suite) (pts : Points) (c : compress), PointLaws pts ->
  (forall e, length (w_encshare e) = encshare_size e /\ w_encshare e = ser_encshare e) /\
  (forall x, length (w_vss pts c x) = z_vss pts c x) /\
  (forall x, length (w_complaint pts c x) = z_complaint pts c x) /\
  (forall p, length (w_participant pts c p) = z_participant pts c p) /\
  (forall s, length (w_round_one pts c s) = z_state pts c (st1 s)) /\
  (forall s, length (w_round_two pts c s) = z_state pts c (st2 s)).
Proof.
  intros S pts c Lp. split.
  - intros e. split; [apply len_encshare|]. unfold w_encshare, ser_encshare, ser_vec, enc_bytes.
    assert (X : forall l : list byte, concat (map (fun b => [b]) l) = l) by (induction l as [|b l IH]; [reflexivity|cbn; rewrite IH; reflexivity]).
    rewrite !X. reflexivity.
  - split; [apply len_vss; exact Lp|]. split; [apply len_complaint; exact Lp|]. split; [apply len_participant; exact Lp|].
    split; intros s; apply len_state; exact Lp.
Qed.
Print Assumptions C140_sizes_are_exact_in_every_mode.

(** ** on the toy suite: 7 is taken to be outside the group, the long format writes the point twice *)
Definition toy_points : @Points Toy :=
  @MkPoints Toy
    (fun c P => match c with Short => @enc_point Toy P | Long => @enc_point Toy P ++ @enc_point Toy P end)
    (fun c bs => match c with
      | Short => @dec_point Toy bs
      | Long => let? (P, r) := @dec_point Toy bs in let? (Q, r') := @dec_point Toy r in if @Geqb Toy P Q then Some (P, r') else None
      end)
    (fun P => negb (@Geqb Toy P (mk 7))).
Section Double.
  Context {S : Suite} {L : SuiteLaws S}.
  Lemma double_back P rest :
    (let? (P, r) := dec_point ((enc_point P ++ enc_point P) ++ rest) in let? (Q, r') := dec_point r in if Geqb P Q then Some (P, r') else None) =
    Some (P, rest).
  Proof.
    rewrite <- app_assoc, exact_point by exact I. cbn [dthen]. rewrite exact_point by exact I. cbn [dthen].
    rewrite (proj2 (Geqb_spec P P) eq_refl). reflexivity.
  Qed.
  Lemma single_back P rest : dec_point (enc_point P ++ rest) = Some (P, rest).
  Proof. apply exact_point. exact I. Qed.
  Lemma scalars_back x rest : dec_scalar (enc_scalar x ++ rest) = Some (x, rest).
  Proof. apply exact_scalar. exact I. Qed.
  Lemma double_length P Q : length (enc_point P ++ enc_point P) = length (enc_point Q ++ enc_point Q).
  Proof. rewrite !app_length, (enc_point_len P Q). reflexivity. Qed.
End Double.
Lemma toy_point_laws : PointLaws toy_points.
Proof.
  split.
  - intros [|] P rest; [exact (@single_back Toy ToyLaws P rest)|exact (@double_back Toy ToyLaws P rest)].
  - exact (@scalars_back Toy ToyLaws).
  - intros [|] P; [exact (@enc_point_len Toy ToyLaws P _)|exact (@double_length Toy ToyLaws P _)].
  - intros x. exact (@enc_scalar_len Toy ToyLaws x _).
Qed.
(** a signature with a commitment outside the group, in both formats *)
Example C140_ex :
  let bad := MkTSig (S := Toy) (mk 7) (mk 5) in
  let good := MkTSig (S := Toy) (mk 8) (mk 5) in
  PointLaws toy_points /\
  m_threshold_sig toy_points Short Unchecked (w_threshold_sig toy_points Short bad) = Some (bad, []) /\
  m_threshold_sig toy_points Short Checked (w_threshold_sig toy_points Short bad) = None /\
  check_threshold_sig toy_points bad = false /\
  m_threshold_sig toy_points Long Checked (w_threshold_sig toy_points Long bad) = None /\
  m_threshold_sig toy_points Long Checked (w_threshold_sig toy_points Long good ++ [x01]) = Some (good, [x01]) /\
  m_threshold_sig toy_points Short Checked (w_threshold_sig toy_points Long good) <> Some (good, []) /\
  length (w_threshold_sig toy_points Long good) = 17.
Proof.
  cbv zeta. split; [exact toy_point_laws|]. split; [vmr|]. split; [vmr|]. split; [vmr|]. split; [vmr|]. split; [vmr|]. split; [|vmr].
  intros E. apply (f_equal (fun o => match o with Some (_, []) => true | _ => false end)) in E.
  assert (X : (match m_threshold_sig toy_points Short Checked (w_threshold_sig toy_points Long (MkTSig (S := Toy) (mk 8) (mk 5))) with
    | Some (_, []) => true | _ => false end) = false) by vmr.
  cbv beta in E. rewrite X in E. discriminate E.
Qed.
(** the participant whose key is listed twice *)
Example C140_ex_session :
  let bs := listed_twice toy_points Long (MkParams (u 3) (u 2)) (u 1) (mk 4) (mk 4) (u 2) (mk 7) (mk 9) in
  @in_group Toy toy_points (mk 7) = false /\
  (match m_round_one toy_points Long Unchecked bs with Some (s, _) => check_round_one toy_points s | None => false end) = true /\
  m_round_one toy_points Long Checked bs = None.
Proof. vms. Qed.
(** the toy suite with the point 7 refused by its reader *)
Definition Toy7 : Suite :=
  @Build_Suite (@F Toy) (@F0 Toy) (@F1 Toy) (@Fadd Toy) (@Fsub Toy) (@Fmul Toy) (@Fopp Toy) (@Finv Toy) (@Feqb Toy) (@of_u32 Toy)
    (@G Toy) (@Gzero Toy) (@Gadd Toy) (@Gopp Toy) (@Gmul Toy) (@gen Toy) (@Geqb Toy) (@enc_scalar Toy) (@dec_scalar Toy) (@enc_point Toy)
    (fun bs => @m_point Toy toy_points Short Checked bs) (@context_string Toy) (@inner_h2f Toy) (@sha256_h2f Toy) (@inner_digest Toy) (@hash_len Toy)
    (@hkdf Toy) (@nonce_len Toy) (@aead_enc Toy) (@aead_dec Toy) (@Rng Toy) (@rand_scalar Toy) (@rand_bytes Toy).
Definition toy7_points : @Points Toy7 := @MkPoints Toy7 (@write_point Toy toy_points) (@read_point Toy toy_points) (@in_group Toy toy_points).
Lemma toy7_reader : forall bs, @dec_point Toy7 bs = @m_point Toy7 toy7_points Short Checked bs.
Proof. intros bs. reflexivity. Qed.
Example C140_ex_from_bytes :
  let part := fun x : Z => @MkPart Toy7 (u 3) (mk x) (Some (@MkVss Toy7 (u 3) [mk 2; mk x])) None (@MkNizk Toy7 (mk 1) (mk 2)) in
  (forall bs, @dec_point Toy7 bs = @m_point Toy7 toy7_points Short Checked bs) /\
  @from_bytes Toy7 _ (@de_participant Toy7) (@ser_participant Toy7 (part 7%Z)) = Err DeserializationError /\
  @from_bytes Toy7 _ (@de_participant Toy7) (@ser_participant Toy7 (part 8%Z)) = Ok (part 8%Z).
Proof. cbv zeta. split; [exact toy7_reader|]. split; vmr. Qed.
