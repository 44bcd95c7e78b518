(** The calls that reserve memory for a number given by the caller, with the reservation as a step that may fail. *)
From Coq Require Import String Strings.Byte Arith NArith Bool List.
From Verif Require Import Base Suite Types ModelDkg ModelSign.
Import ListNotations.

(** the largest single allocation that succeeds, and the sizes in bytes of the elements of the vectors reserved at
    src/dkg/key_generation.rs 717, src/dkg/participant.rs 169, 172, src/sign/signature.rs 445, src/sign/precomputation.rs 184, 193 *)
Record Memory := MkMemory {
  mem_max : N; size_part : N; size_scalar : N; size_point : N; size_signer : N; size_share : N; size_pair : N }.

(** [Vec::with_capacity(count)], e.g. src/dkg/key_generation.rs 717: a capacity overflow panics and a refused allocation aborts the
    process, both are [Panic] here *)
Definition reserve {S : Suite} (max size count : N) : result unit := if N.leb (count * size) max then Ok tt else Panic.

Section Alloc.
  Context {S : Suite}.

  (** new_state_internal, src/dkg/key_generation.rs 704-886: the reservation at 717 precedes the length check at 723-728 *)
  Definition a_new_state_internal (mem : Memory) (m : build) (params : Params) (dh_sk : F) (my_index : u32)
      (coeffs : option (list F)) (ps : list Participant) (from_dealer from_signer : bool) (r : Rng)
    : result (RoundOne * PartList * Rng) :=
    let* _ := reserve (mem_max mem) (size_part mem) (u32v (p_n params)) in
    new_state_internal m params dh_sk my_index coeffs ps from_dealer from_signer r.
  (** bootstrap, src/dkg/key_generation.rs 640-658 *)
  Definition a_bootstrap (mem : Memory) (m : build) (params : Params) (dh_sk : F) (my_index : u32)
      (coeffs : list F) (ps : list Participant) (r : Rng) : result (RoundOne * PartList * Rng) :=
    a_new_state_internal mem m params dh_sk my_index (Some coeffs) ps true true r.
  (** new, src/dkg/key_generation.rs 684-701 *)
  Definition a_dkg_new (mem : Memory) (m : build) (params : Params) (dh_sk : F) (my_index : u32)
      (dealers : list Participant) (r : Rng) : result (RoundOne * PartList * Rng) :=
    a_new_state_internal mem m params dh_sk my_index None dealers false true r.
  (** new_internal, src/dkg/participant.rs 128-220: reservations at 169 and 172, for dealers only, after the index check at 135 *)
  Definition a_new_internal (mem : Memory) (p : Params) (is_signer : bool) (index : u32) (secret : option F) (r : Rng)
    : result (Participant * option (list F) * F * Rng) :=
    if u32_eqb index u32_zero || is_signer then new_internal p is_signer index secret r
    else
      let* _ := reserve (mem_max mem) (size_scalar mem) (u32v (p_t p)) in
      let* _ := reserve (mem_max mem) (size_point mem) (u32v (p_t p)) in
      new_internal p is_signer index secret r.
  (** new_dealer, src/dkg/participant.rs 81-93 *)
  Definition a_new_dealer (mem : Memory) (p : Params) (index : u32) (r : Rng) : result (Participant * list F * F * Rng) :=
    let* (dealer, co, dh_sk, r') := a_new_internal mem p false index None r in
    match co with
    | Some c => Ok (dealer, c, dh_sk, r')
    | None => Panic
    end.
  (** reshare, src/dkg/participant.rs 244-281 *)
  Definition a_reshare (mem : Memory) (m : build) (params : Params) (sk : SigningKey) (signers : list Participant) (r : Rng)
    : result (Participant * bmap EncShare * PartList * Rng) :=
    let* (dealer, co, dh_sk, r1) := a_new_internal mem params false (sk_index sk) (Some (sk_key sk)) r in
    match co with
    | None => Panic
    | Some coeffs =>
        let* (st, lists, r2) :=
          a_new_state_internal mem m params dh_sk (sk_index sk) (Some coeffs) signers true false r1 in
        let* es := their_encrypted_secret_shares st in
        Ok (dealer, es, lists, r2)
    end.
  (** SignatureAggregator::new, src/sign/signature.rs 440-460: the reservation at 445 *)
  Definition a_agg_new (mem : Memory) (p : Params) (group_key : G) (message : list byte) : result AggInitial :=
    let* _ := reserve (mem_max mem) (size_signer mem) (u32v (p_t p)) in
    Ok (agg_new p group_key message).
  (** generate_commitment_share_lists, src/sign/precomputation.rs 179-206: reservations at 184 and 193 *)
  Definition a_generate_lists (mem : Memory) (r : Rng) (k : SigningKey) (n : nat) : result (PublicList * SecretList * Rng) :=
    let* _ := reserve (mem_max mem) (size_share mem) (N.of_nat n) in
    let* _ := reserve (mem_max mem) (size_pair mem) (N.of_nat n) in
    Ok (generate_commitment_share_lists r k n).
End Alloc.
