(** Specification vocabulary for the use of randomness: which values are drawn from the generator, in which
    order, and where each of them ends up. Written without the model's loops. *)
From Coq Require Import String Strings.Byte Arith NArith Bool List.
From Verif Require Import Base Suite Spec SpecDkg Types ModelDkg.
Import ListNotations.

Section SpecRandom.
  Context {S : Suite}.

  (** one value taken from the generator *)
  Inductive draw := DrawScalar (x : F) | DrawBytes (b : list byte).
  (** [drawn r l r']: taking the values l, each exactly once and in this order, leads from r to r' *)
  Inductive drawn : Rng -> list draw -> Rng -> Prop :=
  | dn_nil r : drawn r [] r
  | dn_scalar r x r1 l r2 : rand_scalar r = (x, r1) -> drawn r1 l r2 -> drawn r (DrawScalar x :: l) r2
  | dn_bytes r n b r1 l r2 : rand_bytes n r = (b, r1) -> drawn r1 l r2 -> drawn r (DrawBytes b :: l) r2.

  (** p is the Schnorr proof of knowledge of x for index i with the one-time scalar k *)
  Definition proof_with (k : F) (i : u32) (x : F) (p : Nizk) : Prop :=
    nz_s p = h0 (u32_le i ++ enc_point (gen * x)%G ++ enc_point (gen * k)%G) /\ nz_r p = (k + x * nz_s p)%F.

  (** c is made with DH secret x and the one-time scalar k; dhs are the registered keys *)
  Definition complaint_with (dhs : bmap G) (x k : F) (c : Complaint) : Prop :=
    cp_a1 (c_proof c) = (gen * k)%G /\
    (exists pk, bget (es_sender (c_share c)) dhs = Some pk /\ cp_a2 (c_proof c) = (pk * k)%G) /\
    exists h, cp_z (c_proof c) = (k + h * x)%F.

  (** the nonce of the share for index j is the string drawn for the last listed participant with that index *)
  Definition nonces_from (ps : list Participant) (bs : list (list byte)) (es : bmap EncShare) : Prop :=
    length bs = length ps /\ (forall b, In b bs -> length b = nonce_len) /\
    forall j e, bget j es = Some e -> exists l1 p b l2, combine ps bs = l1 ++ (p, b) :: l2 /\ pt_index p = j /\
      (forall q c, In (q, c) l2 -> pt_index q <> j) /\ nonce_bytes (es_nonce e) = b.
End SpecRandom.
