(** The readers of ModelCodec.v with one more outcome: a [Vec] is reserved for the announced number of elements before the first of
    them is read (the reader of [Vec] of ark-serialize 0.4, an external crate; called for the fields cited below). [BTreeMap]s are
    filled entry by entry. Everything that contains no [Vec] is read as in ModelCodec.v. *)
From Coq Require Import String Strings.Byte Arith NArith Bool List.
From Verif Require Import Base Suite Types ModelDkg ModelSign ModelCodec ModelAlloc.
Import ListNotations.

(** outcome of reading: a value and the unread input, an error (from_bytes, src/serialization.rs 21-23), or the end of the process
    (capacity overflow or refused allocation) *)
Inductive reading (A : Type) : Type := Read (a : A) (rest : list byte) | Failed | Stopped.
Arguments Read {A}. Arguments Failed {A}. Arguments Stopped {A}.
(** e.g. src/dkg/secret_share.rs 187-208 *)
Definition reader (A : Type) := list byte -> reading A.
(** a reader that reserves nothing, e.g. src/dkg/secret_share.rs 193-194 *)
Definition plain {A} (d : decoder A) : reader A := fun bs => match d bs with Some (a, r) => Read a r | None => Failed end.
(** the [?] operator, e.g. src/dkg/secret_share.rs 193-198 *)
Definition rthen {A B} (x : reading A) (f : A -> reader B) : reading B :=
  match x with Read a r => f a r | Failed => Failed | Stopped => Stopped end.
Notation "'let!' ( x , r ) := e 'in' k" := (rthen e (fun x r => k))
  (at level 200, x name, r name, e at level 100, k at level 200, right associativity).

(** [Option<T>], src/dkg/participant.rs 39, 43 *)
Definition r_option {A} (d : reader A) : reader (option A) := fun bs =>
  let! (b, r) := plain de_u8 bs in
  match b with
  | x00 => Read None r
  | x01 => let! (a, r') := d r in Read (Some a) r'
  | _ => Failed
  end.
(** loop of [Vec], src/dkg/secret_share.rs 33 *)
Fixpoint r_many {A} (d : reader A) (k : nat) : reader (list A) := fun bs =>
  match k with
  | O => Read [] bs
  | S k' => let! (a, r) := d bs in let! (l, r') := r_many d k' r in Read (a :: l) r'
  end.
(** [Vec<T>], src/dkg/secret_share.rs 33, 195, 198, 245: the announced number of elements times their size is reserved first *)
Definition r_vec {A} (max size : N) (d : reader A) : reader (list A) := fun bs =>
  let! (n, r) := plain de_u64 bs in
  if N.leb (n * size) max then r_many d (N.to_nat n) r else Stopped.
(** map entries, src/dkg/key_generation.rs 544-551 *)
Definition r_pair {A B} (d : reader A) (e : reader B) : reader (A * B) := fun bs =>
  let! (a, r) := d bs in let! (b, r') := e r in Read (a, b) r'.
(** [BTreeMap<u32, V>], src/dkg/key_generation.rs 544-551: nothing is reserved *)
Definition r_map {V} (d : reader V) : reader (bmap V) := fun bs =>
  let! (n, r) := plain de_u64 bs in
  let! (l, r) := r_many (r_pair (plain de_u32) d) (N.to_nat n) r in
  Read (fold_left (fun m kv => binsert (fst kv) (snd kv) m) l []) r.

Section Read.
  Context {S : Suite} (mem : Memory).

  (** from_bytes, src/serialization.rs 21-23 *)
  Definition r_from_bytes {A} (d : reader A) (bs : list byte) : result A :=
    match d bs with Read v _ => Ok v | Failed => Err DeserializationError | Stopped => Panic end.

  (** Coefficients, src/dkg/secret_share.rs 32-35 *)
  Definition r_coefficients : reader (list F) := r_vec (mem_max mem) (size_scalar mem) (plain dec_scalar).
  (** byte vectors, src/dkg/secret_share.rs 195, 198 *)
  Definition r_bytes : reader (list byte) := r_vec (mem_max mem) 1 (plain de_u8).
  (** EncryptedSecretShare, src/dkg/secret_share.rs 187-208 *)
  Definition r_encshare : reader EncShare := fun bs =>
    let! (i, r) := plain de_u32 bs in let! (j, r) := plain de_u32 r in let! (nv, r) := r_bytes r in
    match nonce_of nv with
    | None => Failed
    | Some n => let! (c, r) := r_bytes r in Read (MkEnc i j n c) r
    end.
  (** VerifiableSecretSharingCommitment, src/dkg/secret_share.rs 240-246 *)
  Definition r_vss : reader Vss := fun bs =>
    let! (i, r) := plain de_u32 bs in let! (l, r) := r_vec (mem_max mem) (size_point mem) (plain dec_point) r in Read (MkVss i l) r.
  (** Complaint, src/dkg/complaint.rs 25-35 *)
  Definition r_complaint : reader Complaint := fun bs =>
    let! (k, r) := plain dec_point bs in let! (pk, r) := plain dec_point r in let! (e, r) := r_encshare r in
    let! (p, r) := plain de_complaint_proof r in Read (MkComplaint k pk e p) r.
  (** Participant, src/dkg/participant.rs 30-47 *)
  Definition r_participant : reader Participant := fun bs =>
    let! (i, r) := plain de_u32 bs in let! (pk, r) := plain dec_point r in let! (c, r) := r_option r_vss r in
    let! (p, r) := plain (de_option de_nizk) r in let! (q, r) := plain de_nizk r in Read (MkPart i pk c p q) r.
  (** DKGParticipantList, src/dkg/key_generation.rs 608-614 *)
  Definition r_part_list : reader PartList := fun bs =>
    let! (v, r) := r_vec (mem_max mem) (size_part mem) r_participant bs in
    let! (o, r) := r_option (r_vec (mem_max mem) 4 (plain de_u32)) r in Read (MkPList v o) r.
  (** ActualState and BoxedState, src/dkg/key_generation.rs 529-552, 597-605 *)
  Definition r_state : reader DkgState := fun bs =>
    let! (p, r) := plain de_params bs in let! (i, r) := plain de_u32 r in let! (x, r) := plain dec_scalar r in
    let! (pk, r) := plain dec_point r in let! (cs, r) := r_option (r_map r_vss) r in
    let! (dhs, r) := r_map (plain dec_point) r in let! (es, r) := r_option (r_map r_encshare) r in
    let! (sh, r) := r_option (r_map (plain de_share)) r in
    Read (MkState p i x pk cs dhs es sh) r.
  (** DistributedKeyGeneration, src/dkg/key_generation.rs 519-526 *)
  Definition r_round_one : reader RoundOne := fun bs => let! (s, r) := r_state bs in Read (R1 s) r.
  (** src/dkg/key_generation.rs 519-526 *)
  Definition r_round_two : reader RoundTwo := fun bs => let! (s, r) := r_state bs in Read (R2 s) r.
  (** SecretCommitmentShareList, src/sign/precomputation.rs 145-151 *)
  Definition r_secret_list : reader SecretList := fun bs =>
    let! (l, r) := r_vec (mem_max mem) (size_share mem) (plain de_commitment_share) bs in Read (MkSecList l) r.
  (** PublicCommitmentShareList, src/sign/precomputation.rs 158-166 *)
  Definition r_public_list : reader PublicList := fun bs =>
    let! (i, r) := plain de_u32 bs in
    let! (l, r) := r_vec (mem_max mem) (size_pair mem) (plain (de_pair dec_point dec_point)) r in Read (MkPubList i l) r.
End Read.
