(** Model of serialization.rs and of the (derived) CanonicalSerialize / CanonicalDeserialize of every type
    with to_bytes / from_bytes. The formats of u32, u64, u8, bool, Option, Vec, BTreeMap and tuples are those
    of the external crate ark-serialize 0.4 (compressed mode, validation on): integers little-endian, Option
    as a bool byte and the value, Vec and BTreeMap as a u64 length and the elements, structs field by field,
    PhantomData and field-less structs as nothing. A decoder returns the value and the unread input, [None]
    for any error (from_bytes maps all of them to one error). Memory exhaustion by a huge length header is
    not modelled. *)
From Coq Require Import String Strings.Byte NArith Bool List.
From Verif Require Import Base Suite Types ModelDkg ModelSign.
Import ListNotations.

(** a decoder ([deserialize_with_mode], e.g. src/dkg/secret_share.rs 187-208); sequencing of decoders (the [?] operator) *)
Definition decoder (A : Type) := list byte -> option (A * list byte).
(** the [?] operator, e.g. src/dkg/secret_share.rs 193-198 *)
Definition dthen {A B} (x : option (A * list byte)) (f : A -> list byte -> option (B * list byte)) : option (B * list byte) :=
  match x with Some (a, r) => f a r | None => None end.
Notation "'let?' ( x , r ) := e 'in' k" := (dthen e (fun x r => k))
  (at level 200, x name, r name, e at level 100, k at level 200, right associativity).

(** integers of k bytes ([read_exact] and [from_le_bytes] of ark-serialize; u32 e.g. at src/dkg/secret_share.rs 193-194, u64 in
    the length headers, u8 in the byte vectors 195, 198) *)
Definition de_uint (k : nat) : decoder N := fun bs =>
  if Nat.ltb (length bs) k then None else Some (le_value (firstn k bs), skipn k bs).
(** src/dkg/secret_share.rs 193-194 *)
Definition de_u32 : decoder u32 := fun bs => let? (n, r) := de_uint 4 bs in Some (u32_of_N n, r).
(** length header of [Vec] and [BTreeMap], src/dkg/secret_share.rs 195, 198 *)
Definition de_u64 : decoder N := de_uint 8.
(** element of the byte vectors, src/dkg/secret_share.rs 195, 198 *)
Definition de_u8 : decoder byte := fun bs => match bs with [] => None | b :: r => Some (b, r) end.

(** [Option<T>] of ark-serialize (src/dkg/participant.rs 39, 43; src/dkg/key_generation.rs 544, 549, 551, 613) *)
Definition ser_option {A} (f : A -> list byte) (o : option A) : list byte :=
  match o with None => [x00] | Some a => x01 :: f a end.
(** src/dkg/participant.rs 39, 43 *)
Definition de_option {A} (d : decoder A) : decoder (option A) := fun bs =>
  let? (b, r) := de_u8 bs in
  match b with
  | x00 => Some (None, r)
  | x01 => let? (a, r') := d r in Some (Some a, r')
  | _ => None
  end.

(** [Vec<T>] of ark-serialize (e.g. src/dkg/secret_share.rs 33, 195, 198, 245) *)
Definition ser_vec {A} (f : A -> list byte) (l : list A) : list byte :=
  le_bytes 8 (N.of_nat (length l)) ++ concat (map f l).
(** loop of [Vec] of ark-serialize, src/dkg/secret_share.rs 33 *)
Fixpoint de_many {A} (d : decoder A) (k : nat) : decoder (list A) := fun bs =>
  match k with
  | O => Some ([], bs)
  | S k' => let? (a, r) := d bs in let? (l, r') := de_many d k' r in Some (a :: l, r')
  end.
(** src/dkg/secret_share.rs 33, 245 *)
Definition de_vec {A} (d : decoder A) : decoder (list A) := fun bs =>
  let? (n, r) := de_u64 bs in de_many d (N.to_nat n) r.

(** tuples of ark-serialize (map entries; src/sign/precomputation.rs 164, src/sign/signature.rs 31) *)
Definition ser_pair {A B} (f : A -> list byte) (g : B -> list byte) (p : A * B) : list byte := f (fst p) ++ g (snd p).
(** src/sign/precomputation.rs 164 *)
Definition de_pair {A B} (d : decoder A) (e : decoder B) : decoder (A * B) := fun bs =>
  let? (a, r) := d bs in let? (b, r') := e r in Some ((a, b), r').

(** [BTreeMap<u32, V>] of ark-serialize (src/dkg/key_generation.rs 544-551): entries in key order; read entry by entry with [insert] (as [collect] does) *)
Definition ser_map {V} (f : V -> list byte) (m : bmap V) : list byte := ser_vec (ser_pair u32_le f) m.
(** src/dkg/key_generation.rs 544-551 *)
Definition de_map {V} (d : decoder V) : decoder (bmap V) := fun bs =>
  let? (l, r) := de_vec (de_pair de_u32 d) bs in
  Some (fold_left (fun m kv => binsert (fst kv) (snd kv) m) l [], r).

(** ThresholdParameters, src/parameters.rs 13-20 *)
Definition ser_params (p : Params) : list byte := u32_le (p_n p) ++ u32_le (p_t p).
(** src/parameters.rs 13-20 *)
Definition de_params : decoder Params := fun bs =>
  let? (n, r) := de_u32 bs in let? (t, r) := de_u32 r in Some (MkParams n t, r).

Section Codec.
  Context {S : Suite}.

  (** to_bytes and from_bytes, src/serialization.rs 7-25 (writing to a vector cannot fail) *)
  Definition to_bytes {A} (ser : A -> list byte) (v : A) : result (list byte) := Ok (ser v).
  (** src/serialization.rs 21-23 *)
  Definition from_bytes {A} (d : decoder A) (bs : list byte) : result A :=
    match d bs with Some (v, _) => Ok v | None => Err DeserializationError end.

  (** DiffieHellmanPrivateKey 22-25, DiffieHellmanPublicKey 34-41, GroupVerifyingKey 229-235 (src/keys.rs):
      the scalar respectively the point *)
  Definition ser_scalar (x : F) : list byte := enc_scalar x.
  (** src/keys.rs 22-25 *)
  Definition de_scalar : decoder F := dec_scalar.
  (** src/keys.rs 34-41, 229-235 *)
  Definition ser_point (P : G) : list byte := enc_point P.
  (** src/keys.rs 34-41, 229-235 *)
  Definition de_point : decoder G := dec_point.

  (** IndividualVerifyingKey, src/keys.rs 65-71 *)
  Definition ser_verifying_key (k : VerifyingKey) : list byte := u32_le (vk_index k) ++ enc_point (vk_share k).
  (** src/keys.rs 65-71 *)
  Definition de_verifying_key : decoder VerifyingKey := fun bs =>
    let? (i, r) := de_u32 bs in let? (P, r) := dec_point r in Some (MkVK i P, r).

  (** IndividualSigningKey, src/keys.rs 186-192 (writer: [ser_signing_key] of ModelSign.v) *)
  Definition de_signing_key : decoder SigningKey := fun bs =>
    let? (i, r) := de_u32 bs in let? (x, r) := dec_scalar r in Some (MkSK i x, r).

  (** Coefficients, src/dkg/secret_share.rs 32-35 *)
  Definition ser_coefficients (l : list F) : list byte := ser_vec enc_scalar l.
  (** src/dkg/secret_share.rs 32-35 *)
  Definition de_coefficients : decoder (list F) := de_vec dec_scalar.

  (** SecretShare, src/dkg/secret_share.rs 45-56 *)
  Definition ser_share (s : SecretShare) : list byte :=
    u32_le (sh_sender s) ++ u32_le (sh_receiver s) ++ enc_scalar (sh_value s).
  (** src/dkg/secret_share.rs 45-56 *)
  Definition de_share : decoder SecretShare := fun bs =>
    let? (i, r) := de_u32 bs in let? (j, r) := de_u32 r in let? (v, r) := dec_scalar r in Some (MkShare i j v, r).

  (** Nonce::from_exact_iter, src/dkg/secret_share.rs 192-193 *)
  Definition nonce_of (l : list byte) : option Nonce :=
    match Nat.eqb (length l) nonce_len as b return (Nat.eqb (length l) nonce_len = b -> option Nonce) with
    | true => fun H => Some (MkNonce l H)
    | false => fun _ => None
    end eq_refl.
  (** EncryptedSecretShare, src/dkg/secret_share.rs 183-209 (writer: [ser_encshare] of ModelDkg.v) *)
  Definition de_encshare : decoder EncShare := fun bs =>
    let? (i, r) := de_u32 bs in let? (j, r) := de_u32 r in let? (nv, r) := de_vec de_u8 r in
    match nonce_of nv with
    | None => None
    | Some n => let? (c, r) := de_vec de_u8 r in Some (MkEnc i j n c, r)
    end.

  (** VerifiableSecretSharingCommitment, src/dkg/secret_share.rs 240-246 *)
  Definition ser_vss (c : Vss) : list byte := u32_le (vss_index c) ++ ser_vec enc_point (vss_points c).
  (** src/dkg/secret_share.rs 240-246 *)
  Definition de_vss : decoder Vss := fun bs =>
    let? (i, r) := de_u32 bs in let? (l, r) := de_vec dec_point r in Some (MkVss i l, r).

  (** NizkPokOfSecretKey, src/dkg/nizkpok.rs 30-36 *)
  Definition ser_nizk (p : Nizk) : list byte := enc_scalar (nz_s p) ++ enc_scalar (nz_r p).
  (** src/dkg/nizkpok.rs 30-36 *)
  Definition de_nizk : decoder Nizk := fun bs =>
    let? (s, r) := dec_scalar bs in let? (x, r) := dec_scalar r in Some (MkNizk s x, r).

  (** ComplaintProof, src/dkg/complaint.rs 143-151 *)
  Definition ser_complaint_proof (p : ComplaintProof) : list byte :=
    enc_point (cp_a1 p) ++ enc_point (cp_a2 p) ++ enc_scalar (cp_z p).
  (** src/dkg/complaint.rs 143-151 *)
  Definition de_complaint_proof : decoder ComplaintProof := fun bs =>
    let? (a1, r) := dec_point bs in let? (a2, r) := dec_point r in let? (z, r) := dec_scalar r in
    Some (MkCProof a1 a2 z, r).

  (** Complaint, src/dkg/complaint.rs 25-35 *)
  Definition ser_complaint (c : Complaint) : list byte :=
    enc_point (c_shared c) ++ enc_point (c_pk c) ++ ser_encshare (c_share c) ++ ser_complaint_proof (c_proof c).
  (** src/dkg/complaint.rs 25-35 *)
  Definition de_complaint : decoder Complaint := fun bs =>
    let? (k, r) := dec_point bs in let? (pk, r) := dec_point r in let? (e, r) := de_encshare r in
    let? (p, r) := de_complaint_proof r in Some (MkComplaint k pk e p, r).

  (** Participant, src/dkg/participant.rs 30-47 *)
  Definition ser_participant (p : Participant) : list byte :=
    u32_le (pt_index p) ++ enc_point (pt_dh_pk p) ++ ser_option ser_vss (pt_comm p) ++
    ser_option ser_nizk (pt_sk_proof p) ++ ser_nizk (pt_dh_proof p).
  (** src/dkg/participant.rs 30-47 *)
  Definition de_participant : decoder Participant := fun bs =>
    let? (i, r) := de_u32 bs in let? (pk, r) := dec_point r in let? (c, r) := de_option de_vss r in
    let? (p, r) := de_option de_nizk r in let? (q, r) := de_nizk r in Some (MkPart i pk c p q, r).

  (** ActualState and BoxedState, src/dkg/key_generation.rs 529-552, 583-605 *)
  Definition ser_state (s : DkgState) : list byte :=
    ser_params (ds_params s) ++ u32_le (ds_index s) ++ enc_scalar (ds_dh_sk s) ++ enc_point (ds_dh_pk s) ++
    ser_option (ser_map ser_vss) (ds_comms s) ++ ser_map enc_point (ds_dhs s) ++
    ser_option (ser_map ser_encshare) (ds_enc s) ++ ser_option (ser_map ser_share) (ds_shares s).
  (** src/dkg/key_generation.rs 529-552, 597-605 *)
  Definition de_state : decoder DkgState := fun bs =>
    let? (p, r) := de_params bs in let? (i, r) := de_u32 r in let? (x, r) := dec_scalar r in
    let? (pk, r) := dec_point r in let? (cs, r) := de_option (de_map de_vss) r in
    let? (dhs, r) := de_map dec_point r in let? (es, r) := de_option (de_map de_encshare) r in
    let? (sh, r) := de_option (de_map de_share) r in
    Some (MkState p i x pk cs dhs es sh, r).

  (** DistributedKeyGeneration in round one and two, src/dkg/key_generation.rs 519-526: the state and the
      field-less round marker (src/dkg/round_types.rs 13-19) *)
  Definition ser_round_one (s : RoundOne) : list byte := ser_state (st1 s).
  (** src/dkg/key_generation.rs 519-526 *)
  Definition de_round_one : decoder RoundOne := fun bs => let? (s, r) := de_state bs in Some (R1 s, r).
  (** src/dkg/key_generation.rs 519-526 *)
  Definition ser_round_two (s : RoundTwo) : list byte := ser_state (st2 s).
  (** src/dkg/key_generation.rs 519-526 *)
  Definition de_round_two : decoder RoundTwo := fun bs => let? (s, r) := de_state bs in Some (R2 s, r).

  (** Commitment and CommitmentShare, src/sign/precomputation.rs 77-83, 109-121 *)
  Definition ser_commitment (c : Commitment) : list byte := enc_scalar (co_secret c) ++ enc_point (co_commit c).
  (** src/sign/precomputation.rs 77-83 *)
  Definition de_commitment : decoder Commitment := fun bs =>
    let? (x, r) := dec_scalar bs in let? (P, r) := dec_point r in Some (MkCom x P, r).
  (** src/sign/precomputation.rs 109-121 *)
  Definition ser_commitment_share (c : CommitmentShare) : list byte :=
    ser_commitment (cs_hiding c) ++ ser_commitment (cs_binding c).
  (** src/sign/precomputation.rs 109-121 *)
  Definition de_commitment_share : decoder CommitmentShare := fun bs =>
    let? (h, r) := de_commitment bs in let? (b, r) := de_commitment r in Some (MkCS h b, r).

  (** SecretCommitmentShareList and PublicCommitmentShareList, src/sign/precomputation.rs 145-151, 158-166 *)
  Definition ser_secret_list (l : SecretList) : list byte := ser_vec ser_commitment_share (sl_commitments l).
  (** src/sign/precomputation.rs 145-151 *)
  Definition de_secret_list : decoder SecretList := fun bs =>
    let? (l, r) := de_vec de_commitment_share bs in Some (MkSecList l, r).
  (** src/sign/precomputation.rs 158-166 *)
  Definition ser_public_list (l : PublicList) : list byte :=
    u32_le (pl_index l) ++ ser_vec (ser_pair enc_point enc_point) (pl_commitments l).
  (** src/sign/precomputation.rs 158-166 *)
  Definition de_public_list : decoder PublicList := fun bs =>
    let? (i, r) := de_u32 bs in let? (l, r) := de_vec (de_pair dec_point dec_point) r in Some (MkPubList i l, r).

  (** Signer (without to_bytes; derived serialization), src/sign/signature.rs 25-32 *)
  Definition ser_signer (s : Signer) : list byte := u32_le (sg_index s) ++ ser_pair enc_point enc_point (sg_com s).
  (** src/sign/signature.rs 25-32 *)
  Definition de_signer : decoder Signer := fun bs =>
    let? (i, r) := de_u32 bs in let? (c, r) := de_pair dec_point dec_point r in Some (MkSigner i c, r).

  (** DKGParticipantList (derived serialization), src/dkg/key_generation.rs 608-614 *)
  Definition ser_part_list (l : PartList) : list byte :=
    ser_vec ser_participant (pl_valid l) ++ ser_option (ser_vec u32_le) (pl_mis l).
  (** src/dkg/key_generation.rs 608-614 *)
  Definition de_part_list : decoder PartList := fun bs =>
    let? (v, r) := de_vec de_participant bs in let? (o, r) := de_option (de_vec de_u32) r in Some (MkPList v o, r).

  (** PartialThresholdSignature and ThresholdSignature, src/sign/signature.rs 59-74 *)
  Definition ser_partial_sig (p : PartialSig) : list byte := u32_le (ps_index p) ++ enc_scalar (ps_z p).
  (** src/sign/signature.rs 59-65 *)
  Definition de_partial_sig : decoder PartialSig := fun bs =>
    let? (i, r) := de_u32 bs in let? (z, r) := dec_scalar r in Some (MkPSig i z, r).
  (** src/sign/signature.rs 68-74 *)
  Definition ser_threshold_sig (s : ThresholdSig) : list byte := enc_point (ts_R s) ++ enc_scalar (ts_z s).
  (** src/sign/signature.rs 68-74 *)
  Definition de_threshold_sig : decoder ThresholdSig := fun bs =>
    let? (R, r) := dec_point bs in let? (z, r) := dec_scalar r in Some (MkTSig R z, r).
End Codec.
