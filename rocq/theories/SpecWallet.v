(** The life of a machine that signs: it generates nonce lists for any keys, signs with any of the lists it holds, and uses
    its random generator for other things in between. *)
From Coq Require Import String Strings.Byte NArith Bool List.
From Verif Require Import Base Suite Spec SpecDkg SpecSign Types ModelDkg ModelSign.
Import ListNotations.

Section SpecWallet.
  Context {S : Suite}.

  (** the two secret nonces of each pair *)
  Definition nonces_of (l : list CommitmentShare) : list F :=
    flat_map (fun c => [co_secret (cs_hiding c); co_secret (cs_binding c)]) l.

  (** [lived m r w us ds w']: starting with generator state r and the nonce lists w, the signatures us were made, the
      strings ds were drawn for nonces (each with the key it was drawn for), and the lists w' are left *)
  Inductive lived (m : build) : Rng -> list (list CommitmentShare) -> list Use -> list (SigningKey * list byte) ->
      list (list CommitmentShare) -> Prop :=
  | lv_nil r w : lived m r w [] [] w
  | lv_lists r w k n pub sec r1 bs us ds w' :
      generate_commitment_share_lists r k n = (pub, sec, r1) -> draws r bs r1 -> length bs = 2 * n ->
      lived m r1 (sl_commitments sec :: w) us ds w' -> lived m r w us (map (pair k) bs ++ ds) w'
  | lv_sign r wa l wb k h gk idx ss p l1 cs us ds w' :
      sign m k h gk (MkSecList l) idx ss = (Ok p, MkSecList l1) -> nth_error l (N.to_nat idx) = Some cs ->
      lived m r (wa ++ l1 :: wb) us ds w' -> lived m r (wa ++ l :: wb) (MkUse k h gk ss cs p :: us) ds w'
  | lv_failed r wa l wb k h gk idx ss o l1 us ds w' :
      sign m k h gk (MkSecList l) idx ss = (o, MkSecList l1) -> (forall p, o <> Ok p) ->
      lived m r (wa ++ l1 :: wb) us ds w' -> lived m r (wa ++ l :: wb) us ds w'
  | lv_other r r1 w us ds w' : lived m r1 w us ds w' -> lived m r w us ds w'.

  (** what is hashed for a nonce *)
  Definition nonce_text (x : SigningKey * list byte) : list byte :=
    snd x ++ u32_le (sk_index (fst x)) ++ enc_scalar (sk_key (fst x)).
End SpecWallet.
