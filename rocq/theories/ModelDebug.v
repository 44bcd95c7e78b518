(** Model of the [Debug] text ([{:?}]) of every type of the crate: the derived implementations and the hand-written one of
    EncryptedSecretShare. The layout is that of the Rust core library ([debug_struct], [debug_tuple], lists, maps, options).
    The texts of scalars, points, the message hash and of [PhantomData<C>] come from external crates and are arguments.
    Simplified: the text of a point is a function of the group element, while arkworks prints the coordinates in which the
    point happens to be held; [{:#?}] is not modelled. *)
From Coq Require Import String Ascii Strings.Byte NArith Bool List.
From Verif Require Import Base Suite Types ModelDisplay.
Import ListNotations.
Local Open Scope string_scope.

(** texts of the external types: <C::G as Group>::ScalarField, C::G (src/ciphersuite.rs 21), C::HashOutput
    (src/ciphersuite.rs 24), PhantomData<C> (e.g. src/keys.rs 38) *)
Record Formats {S : Suite} := MkFormats {
  fmt_scalar : F -> string; fmt_point : G -> string; fmt_hash : list byte -> string; fmt_phantom : string }.

(** the fields of a struct after the first one and the closing brace (core library; derives such as src/keys.rs 186) *)
Fixpoint more_fields (l : list (string * string)) : string :=
  match l with [] => " }" | (n, v) :: l' => ", " ++ n ++ ": " ++ v ++ more_fields l' end.
(** derived [Debug] of a struct with named fields (core library [debug_struct]; derives such as src/keys.rs 186) *)
Definition debug_struct (name : string) (l : list (string * string)) : string :=
  match l with [] => name | (n, v) :: l' => name ++ " { " ++ n ++ ": " ++ v ++ more_fields l' end.
(** the fields of a tuple after the first one (core library; src/sign/precomputation.rs 37) *)
Fixpoint more_values (l : list string) : string :=
  match l with [] => ")" | v :: l' => ", " ++ v ++ more_values l' end.
(** derived [Debug] of a tuple struct, an enum variant with data or (without name) a tuple (core library [debug_tuple]; derives
    such as src/keys.rs 22 and src/error.rs 10) *)
Definition debug_tuple (name : string) (l : list string) : string :=
  match l with [] => name | v :: l' => name ++ "(" ++ v ++ more_values l' end.
(** [{:?}] of Option (core library; src/dkg/participant.rs 30-47) *)
Definition debug_option {A} (f : A -> string) (o : option A) : string :=
  match o with None => "None" | Some a => debug_tuple "Some" [f a] end.
(** the entries of a map and the closing brace (core library; src/dkg/key_generation.rs 529-552) *)
Fixpoint entries {A} (f : A -> string) (l : list (u32 * A)) : string :=
  match l with
  | [] => "}"
  | [(k, v)] => dec (u32v k) ++ ": " ++ f v ++ "}"
  | (k, v) :: l' => dec (u32v k) ++ ": " ++ f v ++ ", " ++ entries f l'
  end.
(** [{:?}] of BTreeMap<u32, _> (core library; src/dkg/key_generation.rs 529-552) *)
Definition debug_map {A} (f : A -> string) (m : bmap A) : string := "{" ++ entries f m.
(** [{:?}] of u32 (core library; e.g. src/keys.rs 187) *)
Definition debug_u32 (i : u32) : string := dec (u32v i).
(** [{:?}] of Vec<u8>, &[u8] and GenericArray<u8, _>: a list of decimal numbers (src/dkg/secret_share.rs 142-143,
    src/sign/signature.rs 394) *)
Definition debug_bytes (l : list byte) : string := debug_vec (fun b => dec (Byte.to_N b)) l.

Section Debug.
  Context {S : Suite} (fm : Formats).

  (** ThresholdParameters, src/parameters.rs 13-20 *)
  Definition debug_params (p : Params) : string :=
    debug_struct "ThresholdParameters" [("n", debug_u32 (p_n p)); ("t", debug_u32 (p_t p)); ("_phantom", fmt_phantom fm)].
  (** DiffieHellmanPrivateKey, src/keys.rs 22-23 *)
  Definition debug_dh_sk (x : F) : string := debug_tuple "DiffieHellmanPrivateKey" [fmt_scalar fm x].
  (** DiffieHellmanPublicKey, src/keys.rs 34-39 *)
  Definition debug_dh_pk (x : G) : string :=
    debug_struct "DiffieHellmanPublicKey" [("key", fmt_point fm x); ("_phantom", fmt_phantom fm)].
  (** IndividualVerifyingKey, src/keys.rs 65-71 *)
  Definition debug_vk (k : VerifyingKey) : string :=
    debug_struct "IndividualVerifyingKey" [("index", debug_u32 (vk_index k)); ("share", fmt_point fm (vk_share k))].
  (** IndividualSigningKey, src/keys.rs 186-192 *)
  Definition debug_sk (k : SigningKey) : string :=
    debug_struct "IndividualSigningKey" [("index", debug_u32 (sk_index k)); ("key", fmt_scalar fm (sk_key k))].
  (** GroupVerifyingKey, src/keys.rs 229-234 *)
  Definition debug_gk (x : G) : string :=
    debug_struct "GroupVerifyingKey" [("key", fmt_point fm x); ("_phantom", fmt_phantom fm)].
  (** Coefficients, src/dkg/secret_share.rs 32-33 *)
  Definition debug_coeffs (l : list F) : string := debug_tuple "Coefficients" [debug_vec (fmt_scalar fm) l].
  (** SecretShare, src/dkg/secret_share.rs 45-54 *)
  Definition debug_share (s : SecretShare) : string :=
    debug_struct "SecretShare" [("sender_index", debug_u32 (sh_sender s)); ("receiver_index", debug_u32 (sh_receiver s));
      ("polynomial_evaluation", fmt_scalar fm (sh_value s))].
  (** EncryptedSecretShare, written by hand without the phantom field, src/dkg/secret_share.rs 135-146 *)
  Definition debug_enc (e : EncShare) : string :=
    "EncryptedSecretShare { sender_index: " ++ dec (u32v (es_sender e)) ++ ", receiver_index: " ++ dec (u32v (es_receiver e)) ++
    ", nonce: " ++ debug_bytes (nonce_bytes (es_nonce e)) ++ ", encrypted_polynomial_evaluation: " ++ debug_bytes (es_ct e) ++ " }".
  (** VerifiableSecretSharingCommitment, src/dkg/secret_share.rs 240-246 *)
  Definition debug_vss (c : Vss) : string :=
    debug_struct "VerifiableSecretSharingCommitment"
      [("index", debug_u32 (vss_index c)); ("points", debug_vec (fmt_point fm) (vss_points c))].
  (** NizkPokOfSecretKey, src/dkg/nizkpok.rs 30-36 *)
  Definition debug_nizk (p : Nizk) : string :=
    debug_struct "NizkPokOfSecretKey" [("s", fmt_scalar fm (nz_s p)); ("r", fmt_scalar fm (nz_r p))].
  (** ComplaintProof, src/dkg/complaint.rs 143-151 *)
  Definition debug_cproof (p : ComplaintProof) : string :=
    debug_struct "ComplaintProof" [("a1", fmt_point fm (cp_a1 p)); ("a2", fmt_point fm (cp_a2 p)); ("z", fmt_scalar fm (cp_z p))].
  (** Complaint, src/dkg/complaint.rs 25-35 *)
  Definition debug_complaint (c : Complaint) : string :=
    debug_struct "Complaint" [("dh_shared_key", fmt_point fm (c_shared c)); ("dh_public_key", debug_dh_pk (c_pk c));
      ("encrypted_share", debug_enc (c_share c)); ("proof", debug_cproof (c_proof c))].
  (** Participant, src/dkg/participant.rs 30-47 *)
  Definition debug_participant (p : Participant) : string :=
    debug_struct "Participant" [("index", debug_u32 (pt_index p)); ("dh_public_key", debug_dh_pk (pt_dh_pk p));
      ("commitments", debug_option debug_vss (pt_comm p)); ("proof_of_secret_key", debug_option debug_nizk (pt_sk_proof p));
      ("proof_of_dh_private_key", debug_nizk (pt_dh_proof p))].
  (** ActualState inside BoxedState, src/dkg/key_generation.rs 529-555 *)
  Definition debug_state (s : DkgState) : string :=
    debug_tuple "BoxedState" [debug_struct "ActualState" [("parameters", debug_params (ds_params s));
      ("index", debug_u32 (ds_index s)); ("dh_private_key", debug_dh_sk (ds_dh_sk s)); ("dh_public_key", debug_dh_pk (ds_dh_pk s));
      ("their_commitments", debug_option (debug_map debug_vss) (ds_comms s));
      ("their_dh_public_keys", debug_map debug_dh_pk (ds_dhs s));
      ("their_encrypted_secret_shares", debug_option (debug_map debug_enc) (ds_enc s));
      ("my_secret_shares", debug_option (debug_map debug_share) (ds_shares s))]].
  (** DistributedKeyGeneration<RoundOne, _>, src/dkg/key_generation.rs 519-523, src/dkg/round_types.rs 13-14 *)
  Definition debug_round1 (r : RoundOne) : string :=
    debug_struct "DistributedKeyGeneration" [("state", debug_state (st1 r)); ("data", debug_struct "RoundOne" [])].
  (** DistributedKeyGeneration<RoundTwo, _>, src/dkg/key_generation.rs 519-523, src/dkg/round_types.rs 18-19 *)
  Definition debug_round2 (r : RoundTwo) : string :=
    debug_struct "DistributedKeyGeneration" [("state", debug_state (st2 r)); ("data", debug_struct "RoundTwo" [])].
  (** DKGParticipantList, src/dkg/key_generation.rs 608-614 *)
  Definition debug_plist (l : PartList) : string :=
    debug_struct "DKGParticipantList" [("valid_participants", debug_vec debug_participant (pl_valid l));
      ("misbehaving_participants", debug_option debug_indices (pl_mis l))].
  (** Commitment, src/sign/precomputation.rs 77-83 *)
  Definition debug_commitment (c : Commitment) : string :=
    debug_struct "Commitment" [("secret", fmt_scalar fm (co_secret c)); ("commit", fmt_point fm (co_commit c))].
  (** CommitmentShare, src/sign/precomputation.rs 109-119 *)
  Definition debug_cshare (c : CommitmentShare) : string :=
    debug_struct "CommitmentShare" [("hiding", debug_commitment (cs_hiding c)); ("binding", debug_commitment (cs_binding c))].
  (** SecretCommitmentShareList, src/sign/precomputation.rs 145-149 *)
  Definition debug_secret_list (l : SecretList) : string :=
    debug_struct "SecretCommitmentShareList" [("commitments", debug_vec debug_cshare (sl_commitments l))].
  (** a pair of points (src/sign/precomputation.rs 163, src/sign/signature.rs 31) *)
  Definition debug_pair (p : G * G) : string := debug_tuple "" [fmt_point fm (fst p); fmt_point fm (snd p)].
  (** PublicCommitmentShareList, src/sign/precomputation.rs 158-164 *)
  Definition debug_public_list (l : PublicList) : string :=
    debug_struct "PublicCommitmentShareList" [("participant_index", debug_u32 (pl_index l));
      ("commitments", debug_vec debug_pair (pl_commitments l))].
  (** Signer, src/sign/signature.rs 25-32 *)
  Definition debug_signer (s : Signer) : string :=
    debug_struct "Signer" [("participant_index", debug_u32 (sg_index s)); ("published_commitment_share", debug_pair (sg_com s))].
  (** PartialThresholdSignature, src/sign/signature.rs 59-63 *)
  Definition debug_psig (p : PartialSig) : string :=
    debug_struct "PartialThresholdSignature" [("index", debug_u32 (ps_index p)); ("z", fmt_scalar fm (ps_z p))].
  (** ThresholdSignature, src/sign/signature.rs 68-72 *)
  Definition debug_tsig (s : ThresholdSig) : string :=
    debug_struct "ThresholdSignature" [("group_commitment", fmt_point fm (ts_R s)); ("z", fmt_scalar fm (ts_z s))].
  (** AggregatorState, src/sign/signature.rs 348-361, with IndividualPublicKeys (127-128) and PartialThresholdSignatures (102-103) *)
  Definition debug_agg (a : AggState) : string :=
    debug_struct "AggregatorState" [("parameters", debug_params (ag_params a)); ("signers", debug_vec debug_signer (ag_signers a));
      ("public_keys", debug_tuple "IndividualPublicKeys" [debug_map (fmt_point fm) (ag_keys a)]);
      ("partial_signatures", debug_tuple "PartialThresholdSignatures" [debug_map (fmt_scalar fm) (ag_partials a)]);
      ("group_key", debug_gk (ag_group_key a))].
  (** SignatureAggregator<_, Initial>, src/sign/signature.rs 368-374, 393-397 *)
  Definition debug_initial (a : AggInitial) : string :=
    debug_struct "SignatureAggregator" [("state", debug_agg (ai_state a));
      ("aggregator", debug_struct "Initial" [("message", debug_bytes (ai_message a))])].
  (** SignatureAggregator<_, Finalized>, src/sign/signature.rs 368-374, 414-418 *)
  Definition debug_final (a : AggFinal) : string :=
    debug_struct "SignatureAggregator" [("state", debug_agg (af_state a));
      ("aggregator", debug_struct "Finalized" [("message_hash", fmt_hash fm (af_hash a))])].
  (** derived [Debug] of Error, src/error.rs 10-67 *)
  Definition debug_error (e : Error) : string :=
    match e with
    | SerializationError => "SerializationError" | DeserializationError => "DeserializationError"
    | CompressionError => "CompressionError" | DecompressionError => "DecompressionError"
    | DecryptionError => "DecryptionError" | EncryptionError => "EncryptionError"
    | ShareVerificationError => "ShareVerificationError" | ComplaintVerificationError => "ComplaintVerificationError"
    | IndexIsZero => "IndexIsZero"
    | IndexMismatch a b => debug_tuple "IndexMismatch" [debug_u32 a; debug_u32 b]
    | InvalidGroupKey => "InvalidGroupKey" | InvalidProofOfKnowledge => "InvalidProofOfKnowledge"
    | InvalidCommitmentLength => "InvalidCommitmentLength" | MissingShares => "MissingShares"
    | NoEncryptedShares => "NoEncryptedShares"
    | ComplaintErr l => debug_tuple "Complaint" [debug_vec debug_complaint l]
    | InvalidNumberOfParticipants len n => debug_tuple "InvalidNumberOfParticipants" [dec (N.of_nat len); debug_u32 n]
    | InvalidMSMParameters => "InvalidMSMParameters"
    | TooManyInvalidParticipants l => debug_tuple "TooManyInvalidParticipants" [debug_indices l]
    | TooManySigners len n => debug_tuple "TooManySigners" [dec (N.of_nat len); debug_u32 n]
    | MissingCommitmentShares => "MissingCommitmentShares" | InvalidBindingFactor => "InvalidBindingFactor"
    | InvalidChallenge => "InvalidChallenge" | InvalidSignature => "InvalidSignature"
    | MisbehavingParticipants l => debug_tuple "MisbehavingParticipants" [debug_indices l]
    | InvalidThresholdParams => "InvalidThresholdParams"
    | Custom s => debug_tuple "Custom" [debug_string s]
    end.
End Debug.
