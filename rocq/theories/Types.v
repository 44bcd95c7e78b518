(** Data types of the crate (structs and the error enum). *)
From Coq Require Import String Strings.Byte NArith Bool List.
From Verif Require Import Base Suite.
Import ListNotations.

(** src/parameters.rs 14-20 *)
Record Params := MkParams { p_n : u32; p_t : u32 }.

Section Types.
  Context {S : Suite}.

  (** [Nonce<C::Cipher>]: a byte array of fixed length (src/dkg/secret_share.rs 117) *)
  Record Nonce := MkNonce {
    nonce_bytes : list byte;
    nonce_ok : Nat.eqb (length nonce_bytes) nonce_len = true }.

  (** src/dkg/secret_share.rs 46-54 *)
  Record SecretShare := MkShare {
    sh_sender : u32; sh_receiver : u32; sh_value : F }.

  (** src/dkg/secret_share.rs 111-122 *)
  Record EncShare := MkEnc {
    es_sender : u32; es_receiver : u32; es_nonce : Nonce; es_ct : list byte }.

  (** VerifiableSecretSharingCommitment, src/dkg/secret_share.rs 241-246 *)
  Record Vss := MkVss { vss_index : u32; vss_points : list G }.

  (** NizkPokOfSecretKey, src/dkg/nizkpok.rs 31-36 *)
  Record Nizk := MkNizk { nz_s : F; nz_r : F }.

  (** src/dkg/complaint.rs 144-151 *)
  Record ComplaintProof := MkCProof { cp_a1 : G; cp_a2 : G; cp_z : F }.

  (** src/dkg/complaint.rs 26-35 *)
  Record Complaint := MkComplaint {
    c_shared : G; c_pk : G; c_share : EncShare; c_proof : ComplaintProof }.

  (** src/dkg/participant.rs 31-47 *)
  Record Participant := MkPart {
    pt_index : u32; pt_dh_pk : G; pt_comm : option Vss;
    pt_sk_proof : option Nizk; pt_dh_proof : Nizk }.

  (** src/keys.rs 66-71, 187-192 *)
  Record VerifyingKey := MkVK { vk_index : u32; vk_share : G }.
  (** src/keys.rs 187-192 *)
  Record SigningKey := MkSK { sk_index : u32; sk_key : F }.

  (** ActualState, src/dkg/key_generation.rs 530-552 *)
  Record DkgState := MkState {
    ds_params : Params;
    ds_index : u32;
    ds_dh_sk : F;
    ds_dh_pk : G;
    ds_comms : option (bmap Vss);
    ds_dhs : bmap G;
    ds_enc : option (bmap EncShare);
    ds_shares : option (bmap SecretShare) }.

  (** DistributedKeyGeneration<RoundOne,_> and <RoundTwo,_>, src/dkg/key_generation.rs 520-523 *)
  Inductive RoundOne := R1 (st : DkgState).
  (** src/dkg/key_generation.rs 520-523, src/dkg/round_types.rs 19 *)
  Inductive RoundTwo := R2 (st : DkgState).
  (** the field [state], src/dkg/key_generation.rs 521 *)
  Definition st1 (r : RoundOne) : DkgState := match r with R1 s => s end.
  (** the field [state], src/dkg/key_generation.rs 521 *)
  Definition st2 (r : RoundTwo) : DkgState := match r with R2 s => s end.

  (** DKGParticipantList, src/dkg/key_generation.rs 609-614 *)
  Record PartList := MkPList {
    pl_valid : list Participant; pl_mis : option (list u32) }.

  (** src/sign/precomputation.rs 78-83, 110-119 *)
  Record Commitment := MkCom { co_secret : F; co_commit : G }.
  (** src/sign/precomputation.rs 110-119 *)
  Record CommitmentShare := MkCS { cs_hiding : Commitment; cs_binding : Commitment }.

  (** SecretCommitmentShareList and PublicCommitmentShareList, src/sign/precomputation.rs 146-149, 159-164 *)
  Record SecretList := MkSecList { sl_commitments : list CommitmentShare }.
  (** src/sign/precomputation.rs 159-164 *)
  Record PublicList := MkPubList { pl_index : u32; pl_commitments : list (G * G) }.

  (** src/sign/signature.rs 26-32 *)
  Record Signer := MkSigner { sg_index : u32; sg_com : G * G }.

  (** src/sign/signature.rs 60-63, 69-72 *)
  Record PartialSig := MkPSig { ps_index : u32; ps_z : F }.
  (** src/sign/signature.rs 69-72 *)
  Record ThresholdSig := MkTSig { ts_R : G; ts_z : F }.

  (** AggregatorState, src/sign/signature.rs 349-361 *)
  Record AggState := MkAgg {
    ag_params : Params; ag_signers : list Signer; ag_keys : bmap G;
    ag_partials : bmap F; ag_group_key : G }.

  (** SignatureAggregator in state Initial (394-397) and Finalized (415-418) *)
  Record AggInitial := MkInit { ai_state : AggState; ai_message : list byte }.
  (** src/sign/signature.rs 415-418 *)
  Record AggFinal := MkFinal { af_state : AggState; af_hash : list byte }.

  (** src/error.rs 11-67 *)
  Inductive Error :=
  | SerializationError | DeserializationError | CompressionError | DecompressionError
  | DecryptionError | EncryptionError | ShareVerificationError | ComplaintVerificationError
  | IndexIsZero | IndexMismatch (a b : u32) | InvalidGroupKey | InvalidProofOfKnowledge
  | InvalidCommitmentLength | MissingShares | NoEncryptedShares
  | ComplaintErr (l : list Complaint)
  | InvalidNumberOfParticipants (len : nat) (n : u32)
  | InvalidMSMParameters
  | TooManyInvalidParticipants (l : list u32)
  | TooManySigners (len : nat) (n : u32)
  | MissingCommitmentShares | InvalidBindingFactor | InvalidChallenge | InvalidSignature
  | MisbehavingParticipants (l : list u32)
  | InvalidThresholdParams
  | Custom (s : string).

  (** FrostResult, src/error.rs 145 *)
  Definition result (A : Type) := res Error A.

  (** [Display] of the two errors [calculate_lagrange_coefficients] can produce
      (src/error.rs 82, 139); the text of the others is not modelled. *)
  Definition error_to_string (e : Error) : string :=
    match e with
    | IndexIsZero => "The indexs of a participant cannot be 0."
    | Custom s => String.append """" (String.append s """")
    | _ => ""
    end.
End Types.
