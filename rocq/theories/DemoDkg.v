(** Concrete key generation runs over the Toy suite for examples and counterexamples. *)
From Coq Require Import String Strings.Byte Arith NArith ZArith Bool List Lia.
From Verif Require Import Base Suite Spec SpecDkg Types Algebra BaseLemmas ModelDkg Toy Demo.
Import ListNotations.

(** result of a successful run, a default otherwise *)
Definition got {A} (d : A) (x : result A) : A := match x with Ok a => a | _ => d end.

Definition no_nizk : Nizk := MkNizk (mk 0) (mk 0).
Definition no_part : Participant := MkPart (u 0) (mk 0) None None no_nizk.

(** honest dealer with index i and rng seed *)
Definition dealer_run (n t i seed : N) : Participant * list F * F * Rng :=
  got (no_part, [], mk 0, 0%N) (new_dealer (MkParams (u n) (u t)) (u i) seed).
Definition dealer (n t i seed : N) : Participant := let '(d, _, _, _) := dealer_run n t i seed in d.
Definition dealer_co (n t i seed : N) : list F := let '(_, c, _, _) := dealer_run n t i seed in c.
Definition dealer_x (n t i seed : N) : F := let '(_, _, x, _) := dealer_run n t i seed in x.

(** honest signer (resharing target) *)
Definition signer_run (n t i seed : N) : Participant * F * Rng :=
  got (no_part, mk 0, 0%N) (new_signer (MkParams (u n) (u t)) (u i) seed).
Definition signer (n t i seed : N) : Participant := let '(d, _, _) := signer_run n t i seed in d.
Definition signer_x (n t i seed : N) : F := let '(_, x, _) := signer_run n t i seed in x.

(** tampered participants *)
Definition with_index (p : Participant) (i : N) : Participant :=
  MkPart (u i) (pt_dh_pk p) (pt_comm p) (pt_sk_proof p) (pt_dh_proof p).
Definition without_key_proof (p : Participant) : Participant :=
  MkPart (pt_index p) (pt_dh_pk p) (pt_comm p) None (pt_dh_proof p).
Definition without_dh_proof (p : Participant) : Participant :=
  MkPart (pt_index p) (pt_dh_pk p) (pt_comm p) (pt_sk_proof p) no_nizk.

(** ** a three-party run with threshold two *)
Definition no_state : DkgState := MkState (MkParams (u 0) (u 0)) (u 0) (mk 0) (mk 0) None [] None None.
Definition demo_params : Params := MkParams (u 3) (u 2).
Definition demo_ps : list Participant := [dealer 3 2 1 10; dealer 3 2 2 20; dealer 3 2 3 30].
(** round one state of participant i (rng seed 10*i as in demo_ps) facing the list ps *)
Definition demo_r1 (ps : list Participant) (i : N) : RoundOne :=
  let '(s, _, _) := got (R1 no_state, MkPList [] None, 0%N)
    (bootstrap Debug demo_params (dealer_x 3 2 i (10 * i)) (u i) (dealer_co 3 2 i (10 * i)) ps (1000 + i)%N) in s.
(** the encrypted shares addressed to j, from the given dealers *)
Definition shares_to (j : N) (dealers : list RoundOne) : list EncShare :=
  flat_map (fun s => match their_encrypted_secret_shares s with
                     | Ok es => match bget (u j) es with Some e => [e] | None => [] end
                     | _ => [] end) dealers.
Definition demo_shares (j : N) : list EncShare := shares_to j (map (demo_r1 demo_ps) [1; 2; 3]%N).
(** a share with one ciphertext byte prepended *)
Definition garbled (e : EncShare) : EncShare := MkEnc (es_sender e) (es_receiver e) (es_nonce e) (x41 :: es_ct e).
(** a well encrypted but wrong share value *)
Definition wrong_share (i j : N) (x : F) (pk : G) (v : F) : EncShare :=
  match encrypt_share (MkShare (u i) (u j) v) (enc_point (pk * x)%G) 99%N with
  | Ok (e, _) => e | _ => MkEnc (u 0) (u 0) (fst (gen_nonce 0%N)) [] end.
