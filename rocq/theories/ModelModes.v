(** The readers and writers of ModelCodec.v for all modes of the traits CanonicalSerialize, CanonicalDeserialize and Valid which the
    types of the crate implement ([serialize_with_mode], [deserialize_with_mode], [check]): points are written short or long
    (ark_serialize::Compress) and read with or without the check that they belong to the group (ark_serialize::Validate). The
    implementations of EncryptedSecretShare and BoxedState are hand-written, the others derived: field by field. As in ark-serialize
    0.4, an external crate, a [Vec] is read without checks and its elements are checked together at the end, while the entries of a
    [BTreeMap] are read with the mode given. Integers, bytes and scalars have nothing to check and one format. In this file G is the
    type of all values of C::G, in the group or not: no law of the suite is used. *)
From Coq Require Import String Strings.Byte NArith Bool List.
From Verif Require Import Base Suite Types ModelDkg ModelSign ModelCodec ModelCompare.
Import ListNotations.

(** ark_serialize::Compress (src/dkg/secret_share.rs 165, src/dkg/key_generation.rs 587) *)
Inductive compress := Short | Long.
(** ark_serialize::Validate (src/dkg/secret_share.rs 192, src/dkg/key_generation.rs 601) *)
Inductive validate := Checked | Unchecked.
(** the point type of the suite (src/ciphersuite.rs 21): its format in both modes, read without a check, and its check *)
Record Points {S : Suite} := MkPoints {
  write_point : compress -> G -> list byte; read_point : compress -> decoder G; in_group : G -> bool }.

(** end of a reader that checks what it has read if asked to (ark-serialize; for points src/keys.rs 34-41) *)
Definition then_check {A} (check : A -> bool) (v : validate) (x : option (A * list byte)) : option (A * list byte) :=
  match v with
  | Unchecked => x
  | Checked => match x with Some (a, r) => if check a then Some (a, r) else None | None => None end
  end.
(** [Vec<T>], src/dkg/secret_share.rs 245: elements are read unchecked, then checked together *)
Definition m_vec {A} (check : A -> bool) (d : validate -> decoder A) (v : validate) : decoder (list A) := fun bs =>
  then_check (forallb check) v (de_vec (d Unchecked) bs).
(** [BTreeMap<u32, V>], src/dkg/key_generation.rs 544-551: every entry is read in the mode given *)
Definition m_map {V} (d : validate -> decoder V) (v : validate) : decoder (bmap V) := de_map (d v).
(** [check] of [BTreeMap], src/dkg/key_generation.rs 544-551 *)
Definition check_map {V} (check : V -> bool) (m : bmap V) : bool := forallb (fun kv => check (snd kv)) m.
(** [Option<T>], src/dkg/participant.rs 39, 43 *)
Definition m_option {A} (d : validate -> decoder A) (v : validate) : decoder (option A) := de_option (d v).
(** [check] of [Option], src/dkg/participant.rs 39, 43 *)
Definition check_option {A} (check : A -> bool) (o : option A) : bool := match o with None => true | Some a => check a end.
(** [check] of integers, bytes and scalars, src/dkg/secret_share.rs 151-152 *)
Definition check_plain {A} (a : A) : bool := true.
(** reading of integers, bytes and scalars, src/dkg/secret_share.rs 194-195 *)
Definition m_plain {A} (d : decoder A) (v : validate) : decoder A := d.

Section Modes.
  Context {S : Suite} (pts : Points) (c : compress).

  (** DiffieHellmanPublicKey and GroupVerifyingKey, src/keys.rs 34-41, 229-235 *)
  Definition w_point (P : G) : list byte := write_point pts c P.
  (** src/keys.rs 34-41, 229-235 *)
  Definition m_point (v : validate) : decoder G := fun bs => then_check (in_group pts) v (read_point pts c bs).
  (** src/keys.rs 34-41, 229-235 *)
  Definition check_point (P : G) : bool := in_group pts P.

  (** IndividualVerifyingKey, src/keys.rs 65-71 *)
  Definition w_verifying_key (k : VerifyingKey) : list byte := u32_le (vk_index k) ++ w_point (vk_share k).
  (** src/keys.rs 65-71 *)
  Definition m_verifying_key (v : validate) : decoder VerifyingKey := fun bs =>
    let? (i, r) := de_u32 bs in let? (P, r) := m_point v r in Some (MkVK i P, r).
  (** src/keys.rs 65-71 *)
  Definition check_verifying_key (k : VerifyingKey) : bool := check_plain (vk_index k) && check_point (vk_share k).

  (** EncryptedSecretShare, src/dkg/secret_share.rs 161-176 *)
  Definition w_encshare (e : EncShare) : list byte :=
    u32_le (es_sender e) ++ u32_le (es_receiver e) ++ ser_vec (fun b => [b]) (nonce_bytes (es_nonce e)) ++ ser_vec (fun b => [b]) (es_ct e).
  (** src/dkg/secret_share.rs 188-209 *)
  Definition m_encshare (v : validate) : decoder EncShare := fun bs =>
    let? (i, r) := m_plain de_u32 v bs in
    let? (j, r) := m_plain de_u32 v r in
    let? (nv, r) := m_vec check_plain (m_plain de_u8) v r in
    match nonce_of nv with
    | None => None
    | Some n => let? (ct, r) := m_vec check_plain (m_plain de_u8) v r in Some (MkEnc i j n ct, r)
    end.
  (** src/dkg/secret_share.rs 149-159 *)
  Definition check_encshare (e : EncShare) : bool :=
    check_plain (es_sender e) && check_plain (es_receiver e) && forallb check_plain (nonce_bytes (es_nonce e)) &&
    forallb check_plain (es_ct e).

  (** VerifiableSecretSharingCommitment, src/dkg/secret_share.rs 240-246 *)
  Definition w_vss (x : Vss) : list byte := u32_le (vss_index x) ++ ser_vec w_point (vss_points x).
  (** src/dkg/secret_share.rs 240-246 *)
  Definition m_vss (v : validate) : decoder Vss := fun bs =>
    let? (i, r) := de_u32 bs in let? (l, r) := m_vec check_point m_point v r in Some (MkVss i l, r).
  (** src/dkg/secret_share.rs 240-246 *)
  Definition check_vss (x : Vss) : bool := check_plain (vss_index x) && forallb check_point (vss_points x).

  (** ComplaintProof, src/dkg/complaint.rs 143-151 *)
  Definition w_complaint_proof (p : ComplaintProof) : list byte :=
    w_point (cp_a1 p) ++ w_point (cp_a2 p) ++ enc_scalar (cp_z p).
  (** src/dkg/complaint.rs 143-151 *)
  Definition m_complaint_proof (v : validate) : decoder ComplaintProof := fun bs =>
    let? (a1, r) := m_point v bs in let? (a2, r) := m_point v r in let? (z, r) := dec_scalar r in
    Some (MkCProof a1 a2 z, r).
  (** src/dkg/complaint.rs 143-151 *)
  Definition check_complaint_proof (p : ComplaintProof) : bool :=
    check_point (cp_a1 p) && check_point (cp_a2 p) && check_plain (cp_z p).

  (** Complaint, src/dkg/complaint.rs 25-35 *)
  Definition w_complaint (x : Complaint) : list byte :=
    w_point (c_shared x) ++ w_point (c_pk x) ++ w_encshare (c_share x) ++ w_complaint_proof (c_proof x).
  (** src/dkg/complaint.rs 25-35 *)
  Definition m_complaint (v : validate) : decoder Complaint := fun bs =>
    let? (k, r) := m_point v bs in let? (pk, r) := m_point v r in let? (e, r) := m_encshare v r in
    let? (p, r) := m_complaint_proof v r in Some (MkComplaint k pk e p, r).
  (** src/dkg/complaint.rs 25-35 *)
  Definition check_complaint (x : Complaint) : bool :=
    check_point (c_shared x) && check_point (c_pk x) && check_encshare (c_share x) && check_complaint_proof (c_proof x).

  (** Participant, src/dkg/participant.rs 30-47 *)
  Definition w_participant (p : Participant) : list byte :=
    u32_le (pt_index p) ++ w_point (pt_dh_pk p) ++ ser_option w_vss (pt_comm p) ++
    ser_option ser_nizk (pt_sk_proof p) ++ ser_nizk (pt_dh_proof p).
  (** src/dkg/participant.rs 30-47 *)
  Definition m_participant (v : validate) : decoder Participant := fun bs =>
    let? (i, r) := de_u32 bs in let? (pk, r) := m_point v r in let? (x, r) := m_option m_vss v r in
    let? (p, r) := de_option de_nizk r in let? (q, r) := de_nizk r in Some (MkPart i pk x p q, r).
  (** src/dkg/participant.rs 30-47 *)
  Definition check_participant (p : Participant) : bool :=
    check_plain (pt_index p) && check_point (pt_dh_pk p) && check_option check_vss (pt_comm p) &&
    check_option check_plain (pt_sk_proof p) && check_plain (pt_dh_proof p).

  (** DKGParticipantList, src/dkg/key_generation.rs 608-614 *)
  Definition w_part_list (l : PartList) : list byte :=
    ser_vec w_participant (pl_valid l) ++ ser_option (ser_vec u32_le) (pl_mis l).
  (** src/dkg/key_generation.rs 608-614 *)
  Definition m_part_list (v : validate) : decoder PartList := fun bs =>
    let? (x, r) := m_vec check_participant m_participant v bs in
    let? (o, r) := de_option (de_vec de_u32) r in Some (MkPList x o, r).
  (** src/dkg/key_generation.rs 608-614 *)
  Definition check_part_list (l : PartList) : bool :=
    forallb check_participant (pl_valid l) && check_option (forallb check_plain) (pl_mis l).

  (** Commitment and CommitmentShare, src/sign/precomputation.rs 77-83, 109-121 *)
  Definition w_commitment (x : Commitment) : list byte := enc_scalar (co_secret x) ++ w_point (co_commit x).
  (** src/sign/precomputation.rs 77-83 *)
  Definition m_commitment (v : validate) : decoder Commitment := fun bs =>
    let? (x, r) := dec_scalar bs in let? (P, r) := m_point v r in Some (MkCom x P, r).
  (** src/sign/precomputation.rs 77-83 *)
  Definition check_commitment (x : Commitment) : bool := check_plain (co_secret x) && check_point (co_commit x).
  (** src/sign/precomputation.rs 109-121 *)
  Definition w_commitment_share (x : CommitmentShare) : list byte := w_commitment (cs_hiding x) ++ w_commitment (cs_binding x).
  (** src/sign/precomputation.rs 109-121 *)
  Definition m_commitment_share (v : validate) : decoder CommitmentShare := fun bs =>
    let? (h, r) := m_commitment v bs in let? (b, r) := m_commitment v r in Some (MkCS h b, r).
  (** src/sign/precomputation.rs 109-121 *)
  Definition check_commitment_share (x : CommitmentShare) : bool := check_commitment (cs_hiding x) && check_commitment (cs_binding x).

  (** SecretCommitmentShareList, src/sign/precomputation.rs 145-151 *)
  Definition w_secret_list (l : SecretList) : list byte := ser_vec w_commitment_share (sl_commitments l).
  (** src/sign/precomputation.rs 145-151 *)
  Definition m_secret_list (v : validate) : decoder SecretList := fun bs =>
    let? (l, r) := m_vec check_commitment_share m_commitment_share v bs in Some (MkSecList l, r).
  (** src/sign/precomputation.rs 145-151 *)
  Definition check_secret_list (l : SecretList) : bool := forallb check_commitment_share (sl_commitments l).

  (** a pair of points, src/sign/precomputation.rs 163, src/sign/signature.rs 31 *)
  Definition m_points (v : validate) : decoder (G * G) := de_pair (m_point v) (m_point v).
  (** src/sign/precomputation.rs 163, src/sign/signature.rs 31 *)
  Definition check_points (p : G * G) : bool := check_point (fst p) && check_point (snd p).
  (** PublicCommitmentShareList, src/sign/precomputation.rs 158-166 *)
  Definition w_public_list (l : PublicList) : list byte :=
    u32_le (pl_index l) ++ ser_vec (ser_pair w_point w_point) (pl_commitments l).
  (** src/sign/precomputation.rs 158-166 *)
  Definition m_public_list (v : validate) : decoder PublicList := fun bs =>
    let? (i, r) := de_u32 bs in let? (l, r) := m_vec check_points m_points v r in Some (MkPubList i l, r).
  (** src/sign/precomputation.rs 158-166 *)
  Definition check_public_list (l : PublicList) : bool := check_plain (pl_index l) && forallb check_points (pl_commitments l).

  (** Signer, src/sign/signature.rs 25-32 *)
  Definition w_signer (s : Signer) : list byte := u32_le (sg_index s) ++ ser_pair w_point w_point (sg_com s).
  (** src/sign/signature.rs 25-32 *)
  Definition m_signer (v : validate) : decoder Signer := fun bs =>
    let? (i, r) := de_u32 bs in let? (x, r) := m_points v r in Some (MkSigner i x, r).
  (** src/sign/signature.rs 25-32 *)
  Definition check_signer (s : Signer) : bool := check_plain (sg_index s) && check_points (sg_com s).

  (** ThresholdSignature, src/sign/signature.rs 68-74 *)
  Definition w_threshold_sig (s : ThresholdSig) : list byte := w_point (ts_R s) ++ enc_scalar (ts_z s).
  (** src/sign/signature.rs 68-74 *)
  Definition m_threshold_sig (v : validate) : decoder ThresholdSig := fun bs =>
    let? (R, r) := m_point v bs in let? (z, r) := dec_scalar r in Some (MkTSig R z, r).
  (** src/sign/signature.rs 68-74 *)
  Definition check_threshold_sig (s : ThresholdSig) : bool := check_point (ts_R s) && check_plain (ts_z s).

  (** ActualState (derived) and BoxedState (passing on), src/dkg/key_generation.rs 529-552, 583-591 *)
  Definition w_state (s : DkgState) : list byte :=
    ser_params (ds_params s) ++ u32_le (ds_index s) ++ enc_scalar (ds_dh_sk s) ++ w_point (ds_dh_pk s) ++
    ser_option (ser_map w_vss) (ds_comms s) ++ ser_map w_point (ds_dhs s) ++
    ser_option (ser_map w_encshare) (ds_enc s) ++ ser_option (ser_map ser_share) (ds_shares s).
  (** src/dkg/key_generation.rs 529-552, 597-605 *)
  Definition m_state (v : validate) : decoder DkgState := fun bs =>
    let? (p, r) := de_params bs in let? (i, r) := de_u32 r in let? (x, r) := dec_scalar r in
    let? (pk, r) := m_point v r in let? (cs, r) := m_option (m_map m_vss) v r in
    let? (dhs, r) := m_map m_point v r in let? (es, r) := m_option (m_map m_encshare) v r in
    let? (sh, r) := m_option (m_map (m_plain de_share)) v r in
    Some (MkState p i x pk cs dhs es sh, r).
  (** src/dkg/key_generation.rs 529-552, 577-581 *)
  Definition check_state (s : DkgState) : bool :=
    check_plain (ds_params s) && check_plain (ds_index s) && check_plain (ds_dh_sk s) && check_point (ds_dh_pk s) &&
    check_option (check_map check_vss) (ds_comms s) && check_map check_point (ds_dhs s) &&
    check_option (check_map check_encshare) (ds_enc s) && check_option (check_map check_plain) (ds_shares s).

  (** DistributedKeyGeneration in both rounds, src/dkg/key_generation.rs 519-526 *)
  Definition w_round_one (s : RoundOne) : list byte := w_state (st1 s).
  (** src/dkg/key_generation.rs 519-526 *)
  Definition m_round_one (v : validate) : decoder RoundOne := fun bs => let? (s, r) := m_state v bs in Some (R1 s, r).
  (** src/dkg/key_generation.rs 519-526 *)
  Definition check_round_one (s : RoundOne) : bool := check_state (st1 s).
  (** src/dkg/key_generation.rs 519-526 *)
  Definition w_round_two (s : RoundTwo) : list byte := w_state (st2 s).
  (** src/dkg/key_generation.rs 519-526 *)
  Definition m_round_two (v : validate) : decoder RoundTwo := fun bs => let? (s, r) := m_state v bs in Some (R2 s, r).
  (** src/dkg/key_generation.rs 519-526 *)
  Definition check_round_two (s : RoundTwo) : bool := check_state (st2 s).

  (** ** announced sizes *)
  (** of a point, src/keys.rs 34-41 *)
  Definition z_point : nat := length (w_point Gzero).
  (** src/dkg/secret_share.rs 240-246 *)
  Definition z_vss (x : Vss) : nat := 4 + vec_size (fun _ => z_point) (vss_points x).
  (** src/dkg/complaint.rs 25-35, 143-151 *)
  Definition z_complaint (x : Complaint) : nat := z_point + z_point + encshare_size (c_share x) + (z_point + z_point + scalar_size).
  (** src/dkg/participant.rs 30-47 *)
  Definition z_participant (p : Participant) : nat :=
    4 + z_point + option_size z_vss (pt_comm p) + option_size nizk_size (pt_sk_proof p) + nizk_size (pt_dh_proof p).
  (** src/dkg/key_generation.rs 529-552, 592-594 *)
  Definition z_state (s : DkgState) : nat :=
    params_size (ds_params s) + 4 + scalar_size + z_point + option_size (map_size z_vss) (ds_comms s) +
    map_size (fun _ => z_point) (ds_dhs s) + option_size (map_size encshare_size) (ds_enc s) +
    option_size (map_size share_size) (ds_shares s).
End Modes.
