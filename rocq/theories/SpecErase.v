(** Vocabulary for C75-C76. *)
From Coq Require Import NArith Strings.Byte List.
From Verif Require Import Base Suite Types Spec SpecDkg SpecSign ModelDkg ModelSign ModelErase.
Import ListNotations.

Section SpecErase.
  Context {S : Suite}.

  (** two values of an optional map agree on the keys and on [f] of the values *)
  Definition same_shape {V W} (f : V -> W) (a b : option (bmap V)) : Prop :=
    option_map (map (fun kv => (fst kv, f (snd kv)))) a = option_map (map (fun kv => (fst kv, f (snd kv)))) b.
  (** two states that may differ in the Diffie-Hellman secret, the values of the received shares (sender, receiver
      and value) and the encrypted shares (up to the length of the ciphertext) *)
  Record same_public (a b : DkgState) : Prop := {
    sp_params : ds_params a = ds_params b;
    sp_index : ds_index a = ds_index b;
    sp_pk : ds_dh_pk a = ds_dh_pk b;
    sp_comms : ds_comms a = ds_comms b;
    sp_dhs : ds_dhs a = ds_dhs b;
    sp_enc : same_shape (fun e => length (es_ct e)) (ds_enc a) (ds_enc b);
    sp_shares : same_shape (fun _ => tt) (ds_shares a) (ds_shares b) }.

  (** a list of nonces in memory: calls of sign, with the uses of the pairs as in [signings] *)
  Inductive buf_signings (m : build) : Buf -> list Use -> Buf -> Prop :=
  | bs_nil b : buf_signings m b [] b
  | bs_ok b k h gk idx ss p b1 cs us b2 :
      buf_sign m k h gk b idx ss = (Ok p, b1) -> nth_error (contents b) (N.to_nat idx) = Some cs ->
      buf_signings m b1 us b2 -> buf_signings m b (MkUse k h gk ss cs p :: us) b2
  | bs_failed b k h gk idx ss o b1 us b2 :
      buf_sign m k h gk b idx ss = (o, b1) -> (forall p, o <> Ok p) ->
      buf_signings m b1 us b2 -> buf_signings m b us b2.
End SpecErase.
