(** The helper do_keygen of the unit tests and the unit tests built on it, for any numbers of participants, and the small
    unit tests for any values: src/dkg/key_generation.rs 1200-1494 and 1792-1827, src/sign/signature.rs 730-1272,
    src/sign/precomputation.rs 298-331, src/dkg/participant.rs 313-322, src/dkg/nizkpok.rs 120-133, src/utils.rs 107-145.
    One generator is threaded through all calls. *)
From Coq Require Import String Strings.Byte Arith NArith Bool List.
From Verif Require Import Base Suite Types ModelDkg ModelSign ModelDoc ModelTests.
Import ListNotations.

Section Unit.
  Context {S : Suite}.

  (** the indices 1..=n, src/dkg/key_generation.rs 1223, 1313 *)
  Definition unit_ids (n : u32) : list u32 := map (fun k => u32_of_N (N.of_nat k)) (seq 1 (N.to_nat (u32v n))).
  (** one dealer, its proof checked at once, src/dkg/key_generation.rs 1224-1235 *)
  Definition unit_dealer (params : Params) (i : u32) (r : Rng) : result (Participant * list F * F * Rng) :=
    let* (p, co, x, r') := new_dealer params i r in
    let* pr := unwrap (pt_sk_proof p) in
    let* pk := unwrap (part_public_key p) in
    let* _ := nizk_verify pr (pt_index p) pk in
    Ok (p, co, x, r').
  (** the second half of do_keygen, src/dkg/key_generation.rs 1308-1386; the signers are made with the parameters of the
      old group (line 1315) *)
  Definition unit_reshare (m : build) (params : Params) (outs : list (G * SigningKey)) (n2 t2 : u32) (r : Rng)
    : result (Params * list (G * SigningKey) * Rng) :=
    let* new_params := params_new m n2 t2 in
    let* (ss, r1) := each (new_signer params) (unit_ids n2) r in
    let* (outs', r2) := doc_handover m params new_params outs ss r1 in
    Ok (new_params, outs', r2).
  (** do_keygen, src/dkg/key_generation.rs 1200-1389; the group key is the first participant's. Its four optional
      arguments are two numbers or none: with one of n2 and t2 missing the first group is returned (line 1308) *)
  Definition unit_keygen (m : build) (n1 t1 : u32) (n2 t2 : option u32) (r : Rng)
    : result (Params * list SigningKey * G * option (Params * list SigningKey) * Rng) :=
    let* params := params_new m n1 t1 in
    let* (ds, r1) := each (unit_dealer params) (unit_ids n1) r in
    let ps := map (fun d => fst (fst d)) ds in
    let* (ss, r2) := each (doc_round_one m params ps) ds r1 in
    let* (outs, r3) := doc_session m (unit_ids n1) (map fst ss) (map snd ss) r2 in
    let* o := unwrap (nth_error outs 0) in
    let* _ := doc_same_key (fst o) outs in
    match n2, t2 with
    | Some n2, Some t2 =>
        let* (new_params, outs', r4) := unit_reshare m params outs n2 t2 r3 in
        Ok (params, map snd outs, fst o, Some (new_params, map snd outs'), r4)
    | _, _ => Ok (params, map snd outs, fst o, None, r3)
    end.

  (** [Result::unwrap], e.g. src/sign/signature.rs 732, 757, 761 *)
  Definition unit_unwrap {A} (x : result A) : result A := match x with Ok a => Ok a | _ => Panic end.

  (** keygen_3_out_of_5, src/dkg/key_generation.rs 1468-1494, and single_party_keygen, 1461-1465, for any numbers: all keys
      together give the secret of the group key *)
  Fixpoint unit_sum (indices : list u32) (keys : list SigningKey) (acc : F) : result F :=
    match keys with
    | [] => Ok acc
    | k :: keys' => let* c := lagrange (sk_index k) indices in unit_sum indices keys' (acc + c * sk_key k)%F
    end.
  (** the same *)
  Definition unit_keygen_test (m : build) (n t : u32) (r : Rng) : result unit :=
    let* (_, keys, gk, _, _) := unit_unwrap (unit_keygen m n t None None r) in
    let* s := unit_unwrap (unit_sum (unit_ids n) keys F0) in
    assert_true (Geqb (gen * s)%G gk).

  (** include_signer with its result unwrapped, src/sign/signature.rs 742-744 *)
  Definition unit_include (a : AggInitial) (x : SigningKey * (PublicList * SecretList)) : result AggInitial :=
    let* com := unwrap (nth_error (pl_commitments (fst (snd x))) 0) in
    match include_signer a (sk_index (fst x)) com (to_public (fst x)) with
    | (Ok _, a') => Ok a'
    | _ => Panic
    end.
  (** the calls one after the other, src/sign/signature.rs 864-872 *)
  Fixpoint unit_include_all (a : AggInitial) (l : list (SigningKey * (PublicList * SecretList))) : result AggInitial :=
    match l with [] => Ok a | x :: l' => let* a' := unit_include a x in unit_include_all a' l' end.
  (** the key holders at the chosen positions sign, src/sign/signature.rs 733-770, 851-916 (and the same steps in the other
      tests): only they precompute, and every result is unwrapped *)
  Definition unit_signing (m : build) (params : Params) (keys : list SigningKey) (gk : G) (chosen : list nat) (message : list byte) (r : Rng)
    : result (ThresholdSig * Rng) :=
    let* ks := traverse (fun k => unwrap (nth_error keys k)) chosen in
    let* (lists, r1) := each (fun k r => Ok (generate_commitment_share_lists r k 1)) ks r in
    let signing := combine ks lists in
    let* a := unit_include_all (agg_new params gk message) signing in
    let signers := ag_signers (ai_state a) in
    let* partials := traverse (fun x => unit_unwrap (fst (sign m (fst x) (h4 message) gk (snd (snd x)) 0 signers))) signing in
    let a := fold_left include_partial_signature partials a in
    let* f := unit_unwrap (finalize a) in
    let* sig := unit_unwrap (aggregate f) in
    let* _ := test_is_ok (sig_verify sig gk (h4 message)) in
    let* _ := test_is_ok (verify_signature gk sig (h4 message)) in
    Ok (sig, r1).
  (** signing_and_verification_…, src/sign/signature.rs 730-1219, for any numbers: the first group signs, and so does
      the second if there is one, both under the same key *)
  Definition unit_signing_test (m : build) (n1 t1 : u32) (chosen : list nat) (next : option (u32 * u32 * list nat)) (message : list byte) (r : Rng)
    : result (G * ThresholdSig * option ThresholdSig) :=
    let n2 := match next with Some (n2, _, _) => Some n2 | None => None end in
    let t2 := match next with Some (_, t2, _) => Some t2 | None => None end in
    let* (params, keys, gk, new, r1) := unit_unwrap (unit_keygen m n1 t1 n2 t2 r) in
    let* (sig, r2) := unit_signing m params keys gk chosen message r1 in
    match next, new with
    | Some (_, _, chosen'), Some (new_params, keys') =>
        let* (sig', _) := unit_signing m new_params keys' gk chosen' message r2 in Ok (gk, sig, Some sig')
    | Some _, None => Panic
    | None, _ => Ok (gk, sig, None)
    end.

  (** aggregator_get_signers, src/sign/signature.rs 1222-1270, for any sequence of inclusions (positions in the list of keys,
      repeated at will) of any keys; [gk] is the zero point in the test *)
  Definition unit_signers (params : Params) (keys : list SigningKey) (order : list nat) (gk : G) (message : list byte) (r : Rng)
    : result (list Signer * list (PublicList * SecretList)) :=
    let* (lists, r1) := each (fun k r => Ok (generate_commitment_share_lists r k 1)) keys r in
    let* xs := traverse (fun k => unwrap (nth_error (combine keys lists) k)) order in
    let* a := unit_include_all (agg_new params gk message) xs in
    Ok (ag_signers (ai_state a), lists).

  (** drop_used_commitment_shares, src/sign/precomputation.rs 315-330, for any number and any position of the share *)
  Definition unit_drop (k : SigningKey) (n pos : nat) (r : Rng) : result (SecretList * SecretList) :=
    let '(_, sec, _) := generate_commitment_share_lists r k n in
    let* used := unwrap (nth_error (sl_commitments sec) pos) in
    Ok (sec, drop_share sec used).
  (** the four blocks of invalid_lagrange_interpolation, src/utils.rs 109-145; [upto a k] is a..k *)
  Definition upto (a k : nat) : list u32 := map (fun k => u32_of_N (N.of_nat k)) (seq a (k - a)).
  (** the same; the test has 0, 2 and 101 as index, 100 as [k], and 12 put at position 63 *)
  Definition unit_lagrange (i2 i3 i4 : u32) (k pos : nat) (v : u32) : result unit :=
    let* _ := test_is_err (lagrange u32_zero (upto 0 k)) in
    let* _ := test_is_err (lagrange i2 (upto 0 k)) in
    let* _ := test_is_err (lagrange i3 (upto 0 k)) in
    test_is_err (lagrange i4 (firstn pos (upto 1 k) ++ v :: skipn (Datatypes.S pos) (upto 1 k))).
End Unit.
