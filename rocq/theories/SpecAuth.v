(** Vocabulary for C79. *)
From Coq Require Import NArith Strings.Byte List.
From Verif Require Import Base Suite Types.
Import ListNotations.

Section SpecAuth.
  Context {S : Suite}.
  (** the same nonce and ciphertext under other names *)
  Definition relabelled (e : EncShare) (sender receiver : u32) : EncShare := MkEnc sender receiver (es_nonce e) (es_ct e).
End SpecAuth.
