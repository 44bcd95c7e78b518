(** Model of the erasure code: the Zeroize and Drop implementations, and the buffer of the list of nonces.
    A value after being wiped is the content its memory holds then. Simplified: copies made by the compiler
    when a value is moved (registers, stack) are not modelled; the buffer of a [Vec] is, see [Buf]. *)
From Coq Require Import String Strings.Byte Arith NArith Bool List.
From Verif Require Import Base Suite Types ModelDkg ModelSign.
Import ListNotations.

Section ModelErase.
  Context {S : Suite}.

  (** [zeroize] of a scalar, a u32 and bytes (crates ark-ff and zeroize; reached from the derives at src/keys.rs 22, 186,
      src/dkg/secret_share.rs 32, 45, 110, src/sign/precomputation.rs 37, 109): zero *)
  Definition wipe_scalar (_ : F) : F := F0.
  (** src/keys.rs 186-192 *)
  Definition wipe_u32 (_ : u32) : u32 := u32_zero.
  (** src/dkg/secret_share.rs 110-122 *)
  Definition wipe_bytes (l : list byte) : list byte := map (fun _ => x00) l.

  (** NoncePair, src/sign/precomputation.rs 37-44 (derived zeroize, called by drop) *)
  Definition wipe_nonce_pair (p : F * F) : F * F := (wipe_scalar (fst p), wipe_scalar (snd p)).
  (** Commitment, src/sign/precomputation.rs 85-99 *)
  Definition wipe_commitment (c : Commitment) : Commitment := MkCom (wipe_scalar (co_secret c)) Gzero.
  (** CommitmentShare, src/sign/precomputation.rs 109-127 (derived zeroize, called by drop) *)
  Definition wipe_commitment_share (c : CommitmentShare) : CommitmentShare :=
    MkCS (wipe_commitment (cs_hiding c)) (wipe_commitment (cs_binding c)).
  (** Coefficients, src/dkg/secret_share.rs 37-41: drop wipes every element *)
  Definition wipe_coefficients (l : list F) : list F := map wipe_scalar l.
  (** SecretShare, src/dkg/secret_share.rs 45-62 (derived zeroize, called by drop) *)
  Definition wipe_secret_share (s : SecretShare) : SecretShare :=
    MkShare (wipe_u32 (sh_sender s)) (wipe_u32 (sh_receiver s)) (wipe_scalar (sh_value s)).
  (** EncryptedSecretShare, src/dkg/secret_share.rs 110-122, 213-217 (derived zeroize, called by drop) *)
  Lemma zero_nonce_ok : Nat.eqb (length (repeat x00 nonce_len)) nonce_len = true.
  Proof. rewrite repeat_length. apply Nat.eqb_refl. Qed.
  (** src/dkg/secret_share.rs 117 *)
  Definition zero_nonce : Nonce := MkNonce (repeat x00 nonce_len) zero_nonce_ok.
  (** src/dkg/secret_share.rs 110-122, 213-217 *)
  Definition wipe_enc_share (e : EncShare) : EncShare :=
    MkEnc (wipe_u32 (es_sender e)) (wipe_u32 (es_receiver e)) zero_nonce (wipe_bytes (es_ct e)).
  (** DiffieHellmanPrivateKey, src/keys.rs 22-31 *)
  Definition wipe_dh_private (x : F) : F := wipe_scalar x.
  (** IndividualSigningKey, src/keys.rs 186-200 (derived zeroize, called by drop) *)
  Definition wipe_signing_key (k : SigningKey) : SigningKey :=
    MkSK (wipe_u32 (sk_index k)) (wipe_scalar (sk_key k)).

  (** values of a map dropped in place, the keys stay (drop of the maps of src/dkg/key_generation.rs 549-551) *)
  Definition drop_values {V} (f : V -> V) (m : bmap V) : bmap V := map (fun kv => (fst kv, f (snd kv))) m.
  (** ActualState has no Drop of its own; its fields are dropped, src/dkg/key_generation.rs 530-552 *)
  Definition drop_actual_state (st : DkgState) : DkgState :=
    MkState (ds_params st) (ds_index st) (wipe_dh_private (ds_dh_sk st)) (ds_dh_pk st) (ds_comms st) (ds_dhs st)
      (option_map (drop_values wipe_enc_share) (ds_enc st))
      (option_map (drop_values wipe_secret_share) (ds_shares st)).

  (** calculate_signing_key with the shares as it leaves them: each is wiped after use, an error stops the loop
      before the remaining ones, src/dkg/key_generation.rs 1033-1042 *)
  Fixpoint signing_key_erase (idx : list u32) (shares : bmap SecretShare) (key : F)
    : result F * bmap SecretShare :=
    match shares with
    | [] => (Ok key, [])
    | (i, s) :: rest =>
        match lagrange i idx with
        | Ok c =>
            let (o, rest') := signing_key_erase idx rest (key + sh_value s * c)%F in
            (o, (i, wipe_secret_share s) :: rest')
        | Err e => (Err (Custom (error_to_string e)), shares)
        | Panic => (Panic, shares)
        end
    end.
  (** finish(self), src/dkg/key_generation.rs 1012-1017: outcome, the state before it is dropped at the end of
      the call, and what its memory holds afterwards *)
  Definition finish_erase (s : RoundTwo) : result (G * SigningKey) * DkgState * DkgState :=
    let st := st2 s in
    match ds_shares st with
    | None => (Panic, st, drop_actual_state st)
    | Some shares =>
        let (o, left) := signing_key_erase (bkeys shares) shares F0 in
        let st' := MkState (ds_params st) (ds_index st) (ds_dh_sk st) (ds_dh_pk st) (ds_comms st) (ds_dhs st)
                     (ds_enc st) (Some left) in
        (let* key := o in
         let* gk := calculate_group_key st' in
         Ok (gk, MkSK (ds_index st) key), st', drop_actual_state st')
    end.

  (** ** the buffer of SecretCommitmentShareList::commitments, src/sign/precomputation.rs 146-149.
      A [Vec] owns [length bf_cells] cells of memory, the first [bf_len] are its elements. *)
  Record Buf := MkBuf { bf_cells : list CommitmentShare; bf_len : nat }.
  (** the elements ([Deref] of the [Vec], src/sign/precomputation.rs 146-149) *)
  Definition contents (b : Buf) : list CommitmentShare := firstn (bf_len b) (bf_cells b).
  (** the list made by generate_commitment_share_lists: capacity and length number_of_shares, lines 185-192 *)
  Definition buf_of (l : SecretList) : Buf := MkBuf (sl_commitments l) (length (sl_commitments l)).
  (** [Vec::remove(i)] of the standard library (called at src/sign/precomputation.rs 224): reads cell i out, moves the later elements one cell down
      (ptr::copy of len - i - 1 cells) and decrements the length. Cells past the new length keep their content. *)
  Definition buf_remove (b : Buf) (i : nat) : Buf :=
    MkBuf (firstn i (bf_cells b) ++ firstn (bf_len b - i - 1) (skipn (i + 1) (bf_cells b)) ++
           skipn (bf_len b - 1) (bf_cells b)) (bf_len b - 1).
  (** drop_share, src/sign/precomputation.rs 211-227: the element returned by [remove] is dropped, hence wiped,
      where it was moved to; the argument likewise *)
  Definition buf_drop_share (b : Buf) (c : CommitmentShare) : Buf :=
    match find_last c (contents b) 0 None with
    | Some i => buf_remove b i
    | None => b
    end.
  (** sign, src/sign/signature.rs 303-341, on the buffer *)
  Definition buf_sign (m : build) (k : SigningKey) (h : list byte) (gk : G) (b : Buf) (idx : N) (ss : list Signer)
    : result PartialSig * Buf :=
    match fst (sign m k h gk (MkSecList (contents b)) idx ss), nthN (contents b) idx with
    | Ok p, Some c => (Ok p, buf_drop_share b c)
    | o, _ => (o, b)
    end.
  (** the buffer freed by dropping the list (no Drop of its own, src/sign/precomputation.rs 145-151): [Vec] drops its elements in place, the allocator gets the cells *)
  Definition buf_free (b : Buf) : list CommitmentShare :=
    map wipe_commitment_share (contents b) ++ skipn (bf_len b) (bf_cells b).
End ModelErase.
