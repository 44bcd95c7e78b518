(** [hash_to_array] with its length check, and the calls that use it. The other files model a suite whose [HashOutput] has the
    length of its hasher's digest ([inner_digest_len]); here this is not assumed, and [copy_from_slice] panics on other lengths. *)
From Coq Require Import String Strings.Byte NArith Bool List.
From Verif Require Import Base Suite Types ModelDkg ModelSign.
Import ListNotations.

Section Model.
  Context {S : Suite}.

  (** hash_to_array, src/utils.rs 87-99: [copy_from_slice] (line 96) panics unless both lengths are equal *)
  Definition hash_to_array (context msg : list byte) : result (list byte) :=
    let d := inner_digest (context ++ msg) in
    if Nat.eqb (length d) hash_len then Ok d else Panic.

  (** src/ciphersuite.rs 103-105 *)
  Definition call_h4 (msg : list byte) : result (list byte) := hash_to_array (tag "message") msg.
  (** src/ciphersuite.rs 114-116 *)
  Definition call_h5 (msg : list byte) : result (list byte) := hash_to_array (tag "commitment") msg.

  (** compute_binding_factors, src/sign/signature.rs 169-198 *)
  Definition call_binding_factors (message : list byte) (signers : list Signer) : result (bmap F) :=
    let* mh := call_h4 message in
    let cl := commitment_list signers in
    let* enc := encode_group_commitment_list cl in
    let* ch := call_h5 enc in
    Ok (binding_loop (mh ++ ch) cl []).

  (** commitment_for_participant, src/sign/signature.rs 210-240 *)
  Definition call_commitment_for_participant (i : u32) (message : list byte) (signers : list Signer) : result G :=
    let* mh := call_h4 message in
    let (hiding, binding) := pair_of i signers (Gzero, Gzero) in
    let* enc := encode_group_commitment_list (commitment_list signers) in
    let* ch := call_h5 enc in
    Ok (hiding + binding * h1 (mh ++ ch ++ u32_le i))%G.

  (** sign, src/sign/signature.rs 303-341 *)
  Definition call_sign (m : build) (k : SigningKey) (message_hash : list byte) (group_key : G)
      (l : SecretList) (idx : N) (signers : list Signer) : result PartialSig * SecretList :=
    match usize_succ m idx with
    | Panic => (Panic, l)
    | Err e => (Err e, l)
    | Ok idx1 =>
    if N.ltb (N.of_nat (length (sl_commitments l))) idx1 then (Err MissingCommitmentShares, l)
    else
      match (let* bf := call_binding_factors message_hash signers in
             let* rho := binding_factor_for_participant (sk_index k) bf in
             let* R := compute_group_commitment signers bf in
             let* lambda := lagrange (sk_index k) (map sg_index signers) in
             match nthN (sl_commitments l) idx with
             | None => Panic
             | Some cs =>
                 let c := compute_challenge R group_key message_hash in
                 Ok (cs, co_secret (cs_hiding cs) + co_secret (cs_binding cs) * rho + lambda * sk_key k * c)%F
             end) with
      | Panic => (Panic, l)
      | Err e => (Err e, l)
      | Ok (cs, z) => (Ok (MkPSig (sk_index k) z), drop_share l cs)
      end
    end.

  (** finalize, src/sign/signature.rs 554-591 *)
  Definition call_finalize (a : AggInitial) : result AggFinal :=
    let st := ai_state a in
    let rem := remaining_signers a in
    let mis1 := match rem with [] => [] | _ => u32_zero :: map sg_index rem end in
    let mis2 := map sg_index
                  (filter (fun s => match bget (sg_index s) (ag_keys st) with
                                    | None => true | Some _ => false end) (ag_signers st)) in
    match mis1 ++ mis2 with
    | [] => let* h := call_h4 (ai_message a) in Ok (MkFinal st h)
    | mis => Err (MisbehavingParticipants mis)
    end.

  (** blaming loop of aggregate, src/sign/signature.rs 646-681 *)
  Fixpoint call_find_bad (st : AggState) (message_hash : list byte) (c : F) (idx : list u32)
      (signers : list Signer) (mis : list u32) : result (list u32) :=
    match signers with
    | [] => Ok mis
    | s :: l =>
        let i := sg_index s in
        let* lambda := lagrange i idx in
        match bget i (ag_partials st) with
        | None => Panic
        | Some p =>
        match bget i (ag_keys st) with
        | None => Panic
        | Some pk =>
            let* R_i := call_commitment_for_participant i message_hash (ag_signers st) in
            let bad := negb (Geqb (gen * p)%G (R_i + pk * (c * lambda)%F)%G) in
            call_find_bad st message_hash c idx l (if bad then mis ++ [i] else mis)
        end end
    end.

  (** aggregate, src/sign/signature.rs 602-684 *)
  Definition call_aggregate (a : AggFinal) : result ThresholdSig :=
    let st := af_state a in
    let* bf := call_binding_factors (af_hash a) (ag_signers st) in
    let* R := compute_group_commitment (ag_signers st) bf in
    let c := compute_challenge R (ag_group_key st) (af_hash a) in
    let* z := sum_partials (ag_partials st) (ag_signers st) F0 in
    let sig := MkTSig R z in
    if is_ok (sig_verify sig (ag_group_key st) (af_hash a)) then Ok sig
    else
      let* mis := call_find_bad st (af_hash a) c (map sg_index (ag_signers st)) (ag_signers st) [] in
      Err (MisbehavingParticipants mis).
End Model.
