(** Concrete signing data over the Toy suite: keys on the line 1000 + 77 x (threshold two). *)
From Coq Require Import String Strings.Byte Arith NArith ZArith Bool List Lia.
From Verif Require Import Base Suite Spec SpecDkg SpecSign Types ModelDkg ModelSign Toy Demo.
Import ListNotations.

Definition skey (i : Z) : SigningKey := MkSK (u (Z.to_N i)) (mk (1000 + 77 * i)).
Definition sgroup : G := (toy_gen * mk 1000)%G.
Definition snonces (i : Z) : SecretList :=
  let '(_, l, _) := generate_commitment_share_lists (Z.to_N (50 * i)) (skey i) 3 in l.
Definition spub (i : Z) : list (G * G) :=
  let '(p, _, _) := generate_commitment_share_lists (Z.to_N (50 * i)) (skey i) 3 in pl_commitments p.
Definition spair (i : Z) (k : nat) : CommitmentShare :=
  nth k (sl_commitments (snonces i)) (MkCS (MkCom (mk 0) (mk 0)) (MkCom (mk 0) (mk 0))).
Definition ssigner (i : Z) (k : nat) : Signer := MkSigner (u (Z.to_N i)) (published (spair i k)).
Definition shash : list byte := h4 [x68; x69].
Definition spartial (i : Z) (k : N) (ss : list Signer) : PartialSig :=
  match fst (sign Debug (skey i) shash sgroup (snonces i) k ss) with Ok p => p | _ => MkPSig (u 0) (mk 0) end.
