(** Vocabulary for C101: what complaints published in a resharing reveal. *)
From Coq Require Import NArith List Permutation.
From Verif Require Import Base Suite Spec SpecDkg Types ModelDkg.
Import ListNotations.

Section SpecReveal.
  Context {S : Suite}.
  (** the new signer z, having taken the donors' messages ds and then the encrypted shares es, publishes cs *)
  Definition heir_complains (m : build) (params1 : Params) (ws : list Donor) (z : Heir) (es : list EncShare) (cs : list Complaint) : Prop :=
    exists ds r s1 lists r1 r2, Permutation ds (map w_d ws) /\
      dkg_new m params1 (z_x z) (z_index z) ds r = Ok (s1, lists, r1) /\
      (to_round_two m s1 es r2 = Err (ComplaintErr cs) \/ exists s2 r3, to_round_two m s1 es r2 = Ok (s2, cs, r3)).
  (** an eavesdropper opens, with the key in the complaint c, what the donor w sent to z, and finds v *)
  Definition opens_with (w : Donor) (z : Heir) (c : Complaint) (v : F) : Prop :=
    exists e, bget (z_index z) (w_es w) = Some e /\
      decrypt_share e (enc_point (c_shared c)) = Ok (MkShare (sk_index (w_key w)) (z_index z) v).
  (** v is interpolated from at least t values that complaints about w, made by different new signers, open *)
  Definition revealed (t : nat) (published : Heir -> Complaint -> Prop) (w : Donor) (v : F) : Prop :=
    exists (got : list (Heir * Complaint)) (vs : list F),
      (forall z c, In (z, c) got -> published z c /\ accused c = sk_index (w_key w)) /\
      NoDup (map (fun zc => z_index (fst zc)) got) /\ t <= length got /\
      Forall2 (fun zc y => opens_with w (fst zc) (snd zc) y) got vs /\
      v = interp0 (combine (map (fun zc => z_index (fst zc)) got) vs).
End SpecReveal.
