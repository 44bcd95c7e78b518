(** Base types of the model: u32, bytes, outcomes, ordered maps, sorting.
    This file contains definitions only (the u32 range proofs excepted). *)
From Coq Require Import String Strings.Byte NArith Bool List.
Import ListNotations.

(** Rust [u32] (used for every participant index and for n, t; e.g.
    src/parameters.rs 16-18, src/dkg/participant.rs 33).
    Exactly the values below 2^32. *)
Record u32 := U32 { u32v : N; u32ok : (u32v <? 4294967296)%N = true }.

(** Truncating cast to [u32] (Rust [as u32], e.g. src/dkg/key_generation.rs 791, 987). *)
Definition u32_of_N (n : N) : u32 :=
  let m := (n mod 4294967296)%N in
  match (m <? 4294967296)%N as b return ((m <? 4294967296)%N = b -> u32) with
  | true => fun H => U32 m H
  | false => fun _ => U32 0%N eq_refl
  end eq_refl.

(** the literal [0] (src/dkg/participant.rs 135, src/utils.rs 54, src/sign/signature.rs 563) *)
Definition u32_zero : u32 := U32 0%N eq_refl.

(** Comparisons on [u32] (Ord/Eq of the primitive type, e.g. src/parameters.rs 32-38, src/dkg/participant.rs 135, 293, 303,
    src/utils.rs 49-58). *)
Definition u32_eqb (a b : u32) : bool := N.eqb (u32v a) (u32v b).
(** [<], src/parameters.rs 32-38 *)
Definition u32_ltb (a b : u32) : bool := N.ltb (u32v a) (u32v b).
(** [<=] used by [sort_unstable], src/utils.rs 47 *)
Definition u32_leb (a b : u32) : bool := N.leb (u32v a) (u32v b).

(** Build mode: [debug_assert!] (src/parameters.rs 32-34, src/dkg/key_generation.rs 773, 935) and overflow checks
    (key_generation.rs 791, 853, 987, src/sign/signature.rs 311) are active in [Debug] only. *)
Inductive build := Debug | Release.

(** [cfg!(debug_assertions)] of [debug_assert!], src/parameters.rs 32-34 *)
Definition is_debug (b : build) : bool := match b with Debug => true | Release => false end.

(** Outcome of a Rust call: [Ok], [Err] (FrostResult, src/error.rs 144-145), or a panic; sequencing (the [?] operator). *)
Inductive res (E A : Type) := Ok (a : A) | Err (e : E) | Panic.
Arguments Ok {E A} a.
Arguments Err {E A} e.
Arguments Panic {E A}.

(** the [?] operator, e.g. src/dkg/key_generation.rs 1013-1014 *)
Definition bind {E A B} (x : res E A) (f : A -> res E B) : res E B :=
  match x with Ok a => f a | Err e => Err e | Panic => Panic end.

Notation "'let*' x ':=' e 'in' k" := (bind e (fun x => k))
  (at level 200, x pattern, e at level 100, k at level 200, right associativity).

(** [a - b] on u32: panics on underflow in debug builds, wraps in release builds
    (used at src/dkg/key_generation.rs 791, 853, 987). *)
Definition u32_sub {E} (m : build) (a b : u32) : res E u32 :=
  if u32_ltb a b
  then match m with
       | Debug => Panic
       | Release => Ok (u32_of_N (4294967296 + u32v a - u32v b))
       end
  else Ok (u32_of_N (u32v a - u32v b)).

(** Little-endian byte encodings of integers: [to_le_bytes] and ark-serialize's
    integer format (e.g. src/dkg/nizkpok.rs 51, src/sign/signature.rs 157, 192). *)
Definition byte_of_N (n : N) : byte :=
  match Byte.of_N (n mod 256) with Some b => b | None => x00 end.

(** [to_le_bytes], src/dkg/nizkpok.rs 51, src/sign/signature.rs 157, 192 *)
Fixpoint le_bytes (k : nat) (n : N) : list byte :=
  match k with
  | O => []
  | S k' => byte_of_N n :: le_bytes k' (n / 256)%N
  end.

(** [from_le_bytes] of ark-serialize (u32 fields, src/dkg/secret_share.rs 193-194) *)
Fixpoint le_value (bs : list byte) : N :=
  match bs with
  | [] => 0
  | b :: bs' => (Byte.to_N b + 256 * le_value bs')%N
  end.

(** [u32::to_le_bytes], src/dkg/nizkpok.rs 51, src/sign/signature.rs 157, 192 *)
Definition u32_le (i : u32) : list byte := le_bytes 4 (u32v i).

(** ASCII bytes of a string literal ([as_bytes()], src/ciphersuite.rs 57-115, src/dkg/complaint.rs 53, 101). *)
Definition bytes_of_string (s : string) : list byte := list_byte_of_string s.

(** Indexing of a [Vec] by a [usize] given as [N] (src/sign/signature.rs 325-326). *)
Definition nthN {A} (l : list A) (i : N) : option A :=
  if (i <? N.of_nat (length l))%N then nth_error l (N.to_nat i) else None.

(** [BTreeMap<u32, V>] as an association list in increasing key order
    (src/utils.rs 9, 18; used in key_generation.rs 544-551, signature.rs 78-128). *)
Section Maps.
  Context {V : Type}.
  (** src/utils.rs 9, 18; src/dkg/key_generation.rs 544-551 *)
  Definition bmap := list (u32 * V).

  (** [BTreeMap::get] (src/dkg/key_generation.rs 940, 1132, 1142, 1180; src/sign/signature.rs 205, 525, 574, 627, 661, 667) *)
  Fixpoint bget (k : u32) (m : bmap) : option V :=
    match m with
    | [] => None
    | (k', v) :: m' => if u32_eqb k k' then Some v else bget k m'
    end.

  (** [BTreeMap::insert]: replaces the value of an existing key (src/dkg/key_generation.rs 765, 766, 776, 848, 979;
      src/sign/signature.rs 194, 501, 540) *)
  Fixpoint binsert (k : u32) (v : V) (m : bmap) : bmap :=
    match m with
    | [] => [(k, v)]
    | (k', v') :: m' =>
        if u32_ltb k k' then (k, v) :: m
        else if u32_eqb k k' then (k, v) :: m'
        else (k', v') :: binsert k v m'
    end.

  (** [BTreeMap::remove] (src/dkg/key_generation.rs 1107, 1113) *)
  Definition bremove (k : u32) (m : bmap) : bmap :=
    filter (fun kv => negb (u32_eqb k (fst kv))) m.

  (** [BTreeMap::keys] (increasing; src/dkg/key_generation.rs 1029, 1061) *)
  Definition bkeys (m : bmap) : list u32 := map fst m.
End Maps.
Arguments bmap V : clear implicits.

(** Sorting and deduplication by a u32 key. [sort] (stable, signature.rs 490, 531) is
    insertion sort that places a new element after equal ones; on plain u32 lists it
    also models [sort_unstable] (utils.rs 47, key_generation.rs 1171), where equal
    elements are identical. [dedup] keeps the first of each run of equal keys. *)
Section Sorting.
  Context {A : Type} (key : A -> u32).

  (** step of [sort], src/sign/signature.rs 490 *)
  Fixpoint insert_sorted (x : A) (l : list A) : list A :=
    match l with
    | [] => [x]
    | y :: l' => if u32_leb (key y) (key x) then y :: insert_sorted x l' else x :: l
    end.

  (** [sort] and [sort_unstable], src/sign/signature.rs 490, 531, src/utils.rs 47, src/dkg/key_generation.rs 1171 *)
  Definition sort_by (l : list A) : list A :=
    fold_left (fun acc x => insert_sorted x acc) l [].

  (** loop of [dedup], src/utils.rs 48 *)
  Fixpoint dedup_from (prev : A) (l : list A) : list A :=
    match l with
    | [] => []
    | y :: l' =>
        if u32_eqb (key y) (key prev) then dedup_from prev l'
        else y :: dedup_from y l'
    end.

  (** [dedup], src/utils.rs 48, src/sign/signature.rs 491, 532, src/dkg/key_generation.rs 1172 *)
  Definition dedup_by (l : list A) : list A :=
    match l with
    | [] => []
    | x :: l' => x :: dedup_from x l'
    end.
End Sorting.
