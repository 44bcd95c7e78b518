(** Vocabulary for C77-C78: a nonce list kept in storage, and histories under another key. *)
From Coq Require Import NArith Strings.Byte List.
From Verif Require Import Base Suite Types Spec SpecDkg SpecSign ModelDkg ModelSign ModelCodec.
Import ListNotations.

Section SpecHist.
  Context {S : Suite}.

  (** a history of sign calls as [signings], interrupted any number of times by writing the current list with
      to_bytes, losing it, and reading back what was written *)
  Inductive kept (m : build) : list CommitmentShare -> list Use -> list CommitmentShare -> Prop :=
  | kp_nil l : kept m l [] l
  | kp_ok l k h gk idx ss p l1 cs us l2 :
      sign m k h gk (MkSecList l) idx ss = (Ok p, MkSecList l1) -> nth_error l (N.to_nat idx) = Some cs ->
      kept m l1 us l2 -> kept m l (MkUse k h gk ss cs p :: us) l2
  | kp_failed l k h gk idx ss o l1 us l2 :
      sign m k h gk (MkSecList l) idx ss = (o, MkSecList l1) -> (forall p, o <> Ok p) ->
      kept m l1 us l2 -> kept m l us l2
  | kp_restart l b l1 us l2 :
      to_bytes ser_secret_list (MkSecList l) = Ok b -> from_bytes de_secret_list b = Ok (MkSecList l1) ->
      kept m l1 us l2 -> kept m l us l2.

  (** the same call, made with the key [kk k] instead of [k]; signature unchanged, some other pair *)
  Definition under (kk : SigningKey -> SigningKey) (pp : CommitmentShare -> CommitmentShare) (x : Use) : Use :=
    MkUse (kk (us_key x)) (us_hash x) (us_gk x) (us_signers x) (pp (us_pair x)) (us_sig x).
End SpecHist.
