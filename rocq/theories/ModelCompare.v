(** Model of the comparison traits (PartialEq, Ord, PartialOrd; derived ones compare field by field) and of
    serialized_size (compressed mode), for the types with hand-written or derived implementations. *)
From Coq Require Import String Strings.Byte NArith Bool List.
From Verif Require Import Base Suite Types ModelDkg ModelSign ModelCodec.
Import ListNotations.

(** [==] of Vec, slices, Option, tuples and BTreeMap (used by the derived and hand-written comparisons cited below,
    e.g. src/dkg/secret_share.rs 128-129, src/dkg/key_generation.rs 529-552) *)
Fixpoint list_eqb {A} (eq : A -> A -> bool) (a b : list A) : bool :=
  match a, b with
  | [], [] => true
  | x :: a', y :: b' => eq x y && list_eqb eq a' b'
  | _, _ => false
  end.
(** [Option], src/dkg/key_generation.rs 544, 549, 551 *)
Definition option_eqb {A} (eq : A -> A -> bool) (a b : option A) : bool :=
  match a, b with
  | None, None => true
  | Some x, Some y => eq x y
  | _, _ => false
  end.
(** tuples, src/sign/precomputation.rs 164 *)
Definition pair_eqb {A B} (eqa : A -> A -> bool) (eqb : B -> B -> bool) (x y : A * B) : bool :=
  eqa (fst x) (fst y) && eqb (snd x) (snd y).
(** [BTreeMap], src/dkg/key_generation.rs 544-551 *)
Definition map_eqb {V} (eq : V -> V -> bool) (a b : bmap V) : bool := list_eqb (pair_eqb u32_eqb eq) a b.

(** src/parameters.rs 13 (derived) *)
Definition params_eqb (a b : Params) : bool := u32_eqb (p_n a) (p_n b) && u32_eqb (p_t a) (p_t b).

(** [u32::cmp] (src/sign/signature.rs 36, src/dkg/participant.rs 293) *)
Definition u32_cmp (a b : u32) : comparison := N.compare (u32v a) (u32v b).

Section Compare.
  Context {S : Suite}.

  (** Ord, PartialOrd and PartialEq of Signer, src/sign/signature.rs 34-55 *)
  Definition signer_cmp (a b : Signer) : comparison :=
    match u32_cmp (sg_index a) (sg_index b) with Lt => Lt | Eq => Eq | Gt => Gt end.
  (** src/sign/signature.rs 44-48 *)
  Definition signer_partial_cmp (a b : Signer) : option comparison := Some (signer_cmp a b).
  (** src/sign/signature.rs 51-55 *)
  Definition signer_eqb (a b : Signer) : bool := u32_eqb (sg_index a) (sg_index b).

  (** PartialOrd and PartialEq of Participant, src/dkg/participant.rs 291-305 *)
  Definition participant_partial_cmp (a b : Participant) : option comparison :=
    match u32_cmp (pt_index a) (pt_index b) with Lt => Some Lt | Eq => None | Gt => Some Gt end.
  (** src/dkg/participant.rs 301-305 *)
  Definition participant_eqb (a b : Participant) : bool := u32_eqb (pt_index a) (pt_index b).

  (** PartialEq of EncryptedSecretShare, src/dkg/secret_share.rs 124-131 *)
  Definition encshare_eqb (a b : EncShare) : bool :=
    u32_eqb (es_sender a) (es_sender b) && u32_eqb (es_receiver a) (es_receiver b) &&
    list_eqb Byte.eqb (nonce_bytes (es_nonce a)) (nonce_bytes (es_nonce b)) && list_eqb Byte.eqb (es_ct a) (es_ct b).

  (** derived PartialEq: src/dkg/secret_share.rs 45, 240; src/dkg/nizkpok.rs 30; src/dkg/complaint.rs 25, 143;
      src/keys.rs 22, 34, 65, 186, 229; src/dkg/key_generation.rs 529; src/sign/precomputation.rs 145, 158;
      src/sign/signature.rs 59, 68. Those of Commitment and CommitmentShare are [com_eqb], [cs_eqb] of ModelSign.v *)
  Definition share_eqb (a b : SecretShare) : bool :=
    u32_eqb (sh_sender a) (sh_sender b) && u32_eqb (sh_receiver a) (sh_receiver b) && Feqb (sh_value a) (sh_value b).
  (** src/dkg/secret_share.rs 240 *)
  Definition vss_eqb (a b : Vss) : bool :=
    u32_eqb (vss_index a) (vss_index b) && list_eqb Geqb (vss_points a) (vss_points b).
  (** src/dkg/nizkpok.rs 30 *)
  Definition nizk_eqb (a b : Nizk) : bool := Feqb (nz_s a) (nz_s b) && Feqb (nz_r a) (nz_r b).
  (** src/dkg/complaint.rs 143 *)
  Definition complaint_proof_eqb (a b : ComplaintProof) : bool :=
    Geqb (cp_a1 a) (cp_a1 b) && Geqb (cp_a2 a) (cp_a2 b) && Feqb (cp_z a) (cp_z b).
  (** src/dkg/complaint.rs 25 *)
  Definition complaint_eqb (a b : Complaint) : bool :=
    Geqb (c_shared a) (c_shared b) && Geqb (c_pk a) (c_pk b) && encshare_eqb (c_share a) (c_share b) &&
    complaint_proof_eqb (c_proof a) (c_proof b).
  (** src/keys.rs 65 *)
  Definition verifying_key_eqb (a b : VerifyingKey) : bool :=
    u32_eqb (vk_index a) (vk_index b) && Geqb (vk_share a) (vk_share b).
  (** src/keys.rs 186 *)
  Definition signing_key_eqb (a b : SigningKey) : bool :=
    u32_eqb (sk_index a) (sk_index b) && Feqb (sk_key a) (sk_key b).
  (** src/dkg/key_generation.rs 529 *)
  Definition state_eqb (a b : DkgState) : bool :=
    params_eqb (ds_params a) (ds_params b) && u32_eqb (ds_index a) (ds_index b) && Feqb (ds_dh_sk a) (ds_dh_sk b) &&
    Geqb (ds_dh_pk a) (ds_dh_pk b) && option_eqb (map_eqb vss_eqb) (ds_comms a) (ds_comms b) &&
    map_eqb Geqb (ds_dhs a) (ds_dhs b) && option_eqb (map_eqb encshare_eqb) (ds_enc a) (ds_enc b) &&
    option_eqb (map_eqb share_eqb) (ds_shares a) (ds_shares b).
  (** src/sign/precomputation.rs 145 *)
  Definition secret_list_eqb (a b : SecretList) : bool := list_eqb cs_eqb (sl_commitments a) (sl_commitments b).
  (** src/sign/precomputation.rs 158 *)
  Definition public_list_eqb (a b : PublicList) : bool :=
    u32_eqb (pl_index a) (pl_index b) && list_eqb (pair_eqb Geqb Geqb) (pl_commitments a) (pl_commitments b).
  (** src/sign/signature.rs 59 *)
  Definition partial_sig_eqb (a b : PartialSig) : bool := u32_eqb (ps_index a) (ps_index b) && Feqb (ps_z a) (ps_z b).
  (** src/sign/signature.rs 68 *)
  Definition threshold_sig_eqb (a b : ThresholdSig) : bool := Geqb (ts_R a) (ts_R b) && Feqb (ts_z a) (ts_z b).

  (** ** serialized_size in compressed mode (called through [compressed_size], src/serialization.rs 10). Scalars and points
      have a constant size (external crate); derived implementations add up the fields: src/parameters.rs 13-20,
      src/keys.rs 65-71, 186-192, src/dkg/secret_share.rs 32-35, 45-56 *)
  Definition scalar_size : nat := length (enc_scalar F0).
  (** points, src/keys.rs 34-41 *)
  Definition point_size : nat := length (enc_point Gzero).
  (** sum over the elements of a collection, src/dkg/secret_share.rs 33 *)
  Fixpoint sizes {A} (f : A -> nat) (l : list A) : nat :=
    match l with [] => 0 | x :: l' => f x + sizes f l' end.
  (** [Vec], src/dkg/secret_share.rs 33 *)
  Definition vec_size {A} (f : A -> nat) (l : list A) : nat := 8 + sizes f l.
  (** [Option], src/dkg/participant.rs 39, 43 *)
  Definition option_size {A} (f : A -> nat) (o : option A) : nat := 1 + match o with None => 0 | Some a => f a end.
  (** [BTreeMap], src/dkg/key_generation.rs 544-551 *)
  Definition map_size {V} (f : V -> nat) (m : bmap V) : nat := 8 + sizes (fun kv => 4 + f (snd kv)) m.
  (** src/parameters.rs 13-20 *)
  Definition params_size (p : Params) : nat := 4 + 4.
  (** src/keys.rs 65-71 *)
  Definition verifying_key_size (k : VerifyingKey) : nat := 4 + point_size.
  (** src/keys.rs 186-192 *)
  Definition signing_key_size (k : SigningKey) : nat := 4 + scalar_size.
  (** src/dkg/secret_share.rs 32-35 *)
  Definition coefficients_size (l : list F) : nat := vec_size (fun _ => scalar_size) l.
  (** src/dkg/secret_share.rs 45-56 *)
  Definition share_size (s : SecretShare) : nat := 4 + 4 + scalar_size.
  (** src/dkg/secret_share.rs 178-185: the nonce is measured as a byte slice (length header and bytes) *)
  Definition encshare_size (e : EncShare) : nat :=
    4 + 4 + vec_size (fun _ => 1) (nonce_bytes (es_nonce e)) + vec_size (fun _ => 1) (es_ct e).
  (** derived: src/dkg/secret_share.rs 240-246, src/dkg/nizkpok.rs 30-36, src/dkg/complaint.rs 25-35, 143-151,
      src/dkg/participant.rs 30-47 *)
  Definition vss_size (c : Vss) : nat := 4 + vec_size (fun _ => point_size) (vss_points c).
  (** src/dkg/nizkpok.rs 30-36 *)
  Definition nizk_size (p : Nizk) : nat := scalar_size + scalar_size.
  (** src/dkg/complaint.rs 143-151 *)
  Definition complaint_proof_size (p : ComplaintProof) : nat := point_size + point_size + scalar_size.
  (** src/dkg/complaint.rs 25-35 *)
  Definition complaint_size (c : Complaint) : nat :=
    point_size + point_size + encshare_size (c_share c) + complaint_proof_size (c_proof c).
  (** src/dkg/participant.rs 30-47 *)
  Definition participant_size (p : Participant) : nat :=
    4 + point_size + option_size vss_size (pt_comm p) + option_size nizk_size (pt_sk_proof p) + nizk_size (pt_dh_proof p).
  (** src/dkg/key_generation.rs 529-552 (derived), 592-594 *)
  Definition state_size (s : DkgState) : nat :=
    params_size (ds_params s) + 4 + scalar_size + point_size + option_size (map_size vss_size) (ds_comms s) +
    map_size (fun _ => point_size) (ds_dhs s) + option_size (map_size encshare_size) (ds_enc s) +
    option_size (map_size share_size) (ds_shares s).
  (** derived: src/sign/precomputation.rs 77-83, 109-121, 145-151, 158-166; src/sign/signature.rs 25-32, 59-74;
      src/dkg/key_generation.rs 608-614 *)
  Definition commitment_size (c : Commitment) : nat := scalar_size + point_size.
  (** src/sign/precomputation.rs 109-121 *)
  Definition commitment_share_size (c : CommitmentShare) : nat := commitment_size (cs_hiding c) + commitment_size (cs_binding c).
  (** src/sign/precomputation.rs 145-151 *)
  Definition secret_list_size (l : SecretList) : nat := vec_size commitment_share_size (sl_commitments l).
  (** src/sign/precomputation.rs 158-166 *)
  Definition public_list_size (l : PublicList) : nat := 4 + vec_size (fun _ => point_size + point_size) (pl_commitments l).
  (** src/sign/signature.rs 25-32 *)
  Definition signer_size (s : Signer) : nat := 4 + (point_size + point_size).
  (** src/dkg/key_generation.rs 608-614 *)
  Definition part_list_size (l : PartList) : nat :=
    vec_size participant_size (pl_valid l) + option_size (vec_size (fun _ : u32 => 4)) (pl_mis l).
  (** src/sign/signature.rs 59-65 *)
  Definition partial_sig_size (p : PartialSig) : nat := 4 + scalar_size.
  (** src/sign/signature.rs 68-74 *)
  Definition threshold_sig_size (s : ThresholdSig) : nat := point_size + scalar_size.
End Compare.
