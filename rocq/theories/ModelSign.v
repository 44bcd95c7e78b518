(** Model of sign/precomputation.rs and sign/signature.rs, and of signature verification in keys.rs. *)
From Coq Require Import String Strings.Byte NArith Bool List.
From Verif Require Import Base Suite Types ModelDkg.
Import ListNotations.

Section Model.
  Context {S : Suite}.

  (** ** sign/precomputation.rs *)

  (** derived serialization of IndividualSigningKey (src/keys.rs 186-192), used by nonce_generate *)
  Definition ser_signing_key (k : SigningKey) : list byte :=
    u32_le (sk_index k) ++ enc_scalar (sk_key k).

  (** nonce_generate, src/sign/precomputation.rs 24-35 *)
  Definition nonce_generate (k : SigningKey) (r : Rng) : F * Rng :=
    let (b, r') := rand_bytes hash_len r in
    (h3 (b ++ ser_signing_key k), r').

  (** NoncePair::new, src/sign/precomputation.rs 47-55 *)
  Definition nonce_pair (k : SigningKey) (r : Rng) : F * F * Rng :=
    let (a, r1) := nonce_generate k r in
    let (b, r2) := nonce_generate k r1 in
    (a, b, r2).

  (** From<NoncePair> for CommitmentShare, src/sign/precomputation.rs 58-74 *)
  Definition commitment_share (d e : F) : CommitmentShare :=
    MkCS (MkCom d (gen * d)%G) (MkCom e (gen * e)%G).

  (** publish, src/sign/precomputation.rs 138-140 *)
  Definition publish (c : CommitmentShare) : G * G :=
    (co_commit (cs_hiding c), co_commit (cs_binding c)).

  (** loop of generate_commitment_share_lists, src/sign/precomputation.rs 186-191 *)
  Fixpoint gen_shares (k : SigningKey) (n : nat) (r : Rng) : list CommitmentShare * Rng :=
    match n with
    | O => ([], r)
    | Datatypes.S n' =>
        let '(d, e, r1) := nonce_pair k r in
        let (l, r2) := gen_shares k n' r1 in
        (commitment_share d e :: l, r2)
    end.

  (** generate_commitment_share_lists, src/sign/precomputation.rs 179-206 *)
  Definition generate_commitment_share_lists (r : Rng) (k : SigningKey) (n : nat)
    : PublicList * SecretList * Rng :=
    let (l, r') := gen_shares k n r in
    (MkPubList (sk_index k) (map publish l), MkSecList l, r').

  (** PartialEq for Commitment and CommitmentShare, src/sign/precomputation.rs 102-106, 130-134 *)
  Definition com_eqb (a b : Commitment) : bool :=
    Feqb (co_secret a) (co_secret b) && Geqb (co_commit a) (co_commit b).
  (** src/sign/precomputation.rs 130-134 *)
  Definition cs_eqb (a b : CommitmentShare) : bool :=
    com_eqb (cs_hiding a) (cs_hiding b) && com_eqb (cs_binding a) (cs_binding b).

  (** search loop of drop_share, src/sign/precomputation.rs 212-222 ([None] stands for -1) *)
  Fixpoint find_last (c : CommitmentShare) (l : list CommitmentShare) (i : nat) (found : option nat)
    : option nat :=
    match l with
    | [] => found
    | s :: l' => find_last c l' (i + 1) (if cs_eqb s c then Some i else found)
    end.

  (** [Vec::remove] (src/sign/precomputation.rs 224) *)
  Definition remove_at {A} (l : list A) (i : nat) : list A := firstn i l ++ skipn (i + 1) l.

  (** drop_share, src/sign/precomputation.rs 211-227 *)
  Definition drop_share (l : SecretList) (c : CommitmentShare) : SecretList :=
    match find_last c (sl_commitments l) 0 None with
    | Some i => MkSecList (remove_at (sl_commitments l) i)
    | None => l
    end.

  (** ** sign/signature.rs: transcripts *)

  (** encode_group_commitment_list, src/sign/signature.rs 150-167.
      Line 154 indexes element 0, hence the panic on an empty list. *)
  Fixpoint encode_entries (l : list (u32 * G * G)) : list byte :=
    match l with
    | [] => []
    | (i, h, b) :: l' => u32_le i ++ enc_point h ++ enc_point b ++ encode_entries l'
    end.
  (** src/sign/signature.rs 150-167 *)
  Definition encode_group_commitment_list (l : list (u32 * G * G)) : result (list byte) :=
    match l with
    | [] => Panic
    | _ => Ok (encode_entries l)
    end.

  (** src/sign/signature.rs 177-183, 217-223 *)
  Definition commitment_list (signers : list Signer) : list (u32 * G * G) :=
    map (fun s => (sg_index s, fst (sg_com s), snd (sg_com s))) signers.

  (** insertion loop of compute_binding_factors, src/sign/signature.rs 189-195 *)
  Fixpoint binding_loop (prefix : list byte) (l : list (u32 * G * G)) (acc : bmap F) : bmap F :=
    match l with
    | [] => acc
    | (i, _, _) :: l' => binding_loop prefix l' (binsert i (h1 (prefix ++ u32_le i)) acc)
    end.

  (** compute_binding_factors, src/sign/signature.rs 169-198 *)
  Definition compute_binding_factors (message : list byte) (signers : list Signer) : result (bmap F) :=
    let cl := commitment_list signers in
    let* enc := encode_group_commitment_list cl in
    Ok (binding_loop (h4 message ++ h5 enc) cl []).

  (** binding_factor_for_participant, src/sign/signature.rs 200-208 *)
  Definition binding_factor_for_participant (i : u32) (bf : bmap F) : result F :=
    match bget i bf with Some x => Ok x | None => Err InvalidBindingFactor end.

  (** search of the participant's pair, src/sign/signature.rs 218-228 (last match wins) *)
  Fixpoint pair_of (i : u32) (signers : list Signer) (cur : G * G) : G * G :=
    match signers with
    | [] => cur
    | s :: l => pair_of i l (if u32_eqb i (sg_index s) then sg_com s else cur)
    end.

  (** commitment_for_participant, src/sign/signature.rs 210-240 *)
  Definition commitment_for_participant (i : u32) (message : list byte) (signers : list Signer) : result G :=
    let (hiding, binding) := pair_of i signers (Gzero, Gzero) in
    let* enc := encode_group_commitment_list (commitment_list signers) in
    let rho := h1 (h4 message ++ h5 enc ++ u32_le i) in
    Ok (hiding + binding * rho)%G.

  (** compute_group_commitment, src/sign/signature.rs 242-259 *)
  Fixpoint group_commitment_loop (signers : list Signer) (bf : bmap F) (acc : G) : result G :=
    match signers with
    | [] => Ok acc
    | s :: l =>
        let* rho := binding_factor_for_participant (sg_index s) bf in
        group_commitment_loop l bf (acc + (fst (sg_com s) + snd (sg_com s) * rho))%G
    end.
  (** src/sign/signature.rs 242-259 *)
  Definition compute_group_commitment (signers : list Signer) (bf : bmap F) : result G :=
    group_commitment_loop signers bf Gzero.

  (** compute_challenge, src/sign/signature.rs 261-278 *)
  Definition challenge_input (R pk : G) (message_hash : list byte) : list byte :=
    enc_point R ++ enc_point pk ++ message_hash.
  (** src/sign/signature.rs 261-278 *)
  Definition compute_challenge (R pk : G) (message_hash : list byte) : F :=
    h2 (challenge_input R pk message_hash).

  (** [idx + 1] on usize (64 bit; src/sign/signature.rs 311): overflow panics in debug builds and wraps in release builds *)
  Definition usize_succ (m : build) (i : N) : result N :=
    if N.ltb (i + 1) 18446744073709551616 then Ok (i + 1)%N
    else match m with Debug => Panic | Release => Ok ((i + 1) mod 18446744073709551616)%N end.

  (** sign, src/sign/signature.rs 303-341. Returns the outcome together with the secret list
      after the call (the list is a [&mut] argument). *)
  Definition sign (m : build) (k : SigningKey) (message_hash : list byte) (group_key : G)
      (l : SecretList) (idx : N) (signers : list Signer) : result PartialSig * SecretList :=
    match usize_succ m idx with
    | Panic => (Panic, l)
    | Err e => (Err e, l)
    | Ok idx1 =>
    if N.ltb (N.of_nat (length (sl_commitments l))) idx1 then (Err MissingCommitmentShares, l)
    else
      match compute_binding_factors message_hash signers with
      | Panic => (Panic, l)
      | Err e => (Err e, l)
      | Ok bf =>
      match binding_factor_for_participant (sk_index k) bf with
      | Panic => (Panic, l)
      | Err e => (Err e, l)
      | Ok rho =>
      match compute_group_commitment signers bf with
      | Panic => (Panic, l)
      | Err e => (Err e, l)
      | Ok R =>
      match lagrange (sk_index k) (map sg_index signers) with
      | Panic => (Panic, l)
      | Err e => (Err e, l)
      | Ok lambda =>
      match nthN (sl_commitments l) idx with
      | None => (Panic, l)
      | Some cs =>
          let c := compute_challenge R group_key message_hash in
          let z := (co_secret (cs_hiding cs) + co_secret (cs_binding cs) * rho
                    + lambda * sk_key k * c)%F in
          (Ok (MkPSig (sk_index k) z), drop_share l cs)
      end end end end end
    end.

  (** ** sign/signature.rs: aggregator *)

  (** SignatureAggregator::new, src/sign/signature.rs 440-460 *)
  Definition agg_new (p : Params) (group_key : G) (message : list byte) : AggInitial :=
    MkInit (MkAgg p [] [] [] group_key) message.

  (** include_signer, src/sign/signature.rs 473-503; returns the outcome and the aggregator after the call *)
  Definition include_signer (a : AggInitial) (i : u32) (com : G * G) (pk : VerifyingKey)
    : result unit * AggInitial :=
    let st := ai_state a in
    if negb (u32_eqb i (vk_index pk)) then (Err (IndexMismatch i (vk_index pk)), a)
    else
      let signers := dedup_by sg_index (sort_by sg_index (ag_signers st ++ [MkSigner i com])) in
      if N.ltb (u32v (p_n (ag_params st))) (N.of_nat (length signers))
      then (Err (TooManySigners (length signers) (p_n (ag_params st))),
            MkInit (MkAgg (ag_params st) signers (ag_keys st) (ag_partials st) (ag_group_key st))
                   (ai_message a))
      else (Ok tt,
            MkInit (MkAgg (ag_params st) signers
                      (binsert (vk_index pk) (vk_share pk) (ag_keys st))
                      (ag_partials st) (ag_group_key st))
                   (ai_message a)).

  (** remaining_signers, src/sign/signature.rs 518-534 *)
  Definition remaining_signers (a : AggInitial) : list Signer :=
    let st := ai_state a in
    dedup_by sg_index (sort_by sg_index
      (filter (fun s => match bget (sg_index s) (ag_partials st) with
                        | None => true | Some _ => false end) (ag_signers st))).

  (** include_partial_signature, src/sign/signature.rs 537-541 *)
  Definition include_partial_signature (a : AggInitial) (p : PartialSig) : AggInitial :=
    let st := ai_state a in
    MkInit (MkAgg (ag_params st) (ag_signers st) (ag_keys st)
              (binsert (ps_index p) (ps_z p) (ag_partials st)) (ag_group_key st))
           (ai_message a).

  (** finalize, src/sign/signature.rs 554-591 *)
  Definition finalize (a : AggInitial) : result AggFinal :=
    let st := ai_state a in
    let rem := remaining_signers a in
    let mis1 := match rem with [] => [] | _ => u32_zero :: map sg_index rem end in
    let mis2 := map sg_index
                  (filter (fun s => match bget (sg_index s) (ag_keys st) with
                                    | None => true | Some _ => false end) (ag_signers st)) in
    match mis1 ++ mis2 with
    | [] => Ok (MkFinal st (h4 (ai_message a)))
    | mis => Err (MisbehavingParticipants mis)
    end.

  (** ThresholdSignature::verify, src/sign/signature.rs 693-711 *)
  Definition sig_verify (s : ThresholdSig) (group_key : G) (message_hash : list byte) : result unit :=
    let c := compute_challenge (ts_R s) group_key message_hash in
    let R' := (gen * ts_z s + (- group_key) * c)%G in
    if Geqb (ts_R s) R' then Ok tt else Err InvalidSignature.

  (** GroupVerifyingKey::verify_signature, src/keys.rs 247-265 *)
  Definition verify_signature (group_key : G) (s : ThresholdSig) (message_hash : list byte) : result unit :=
    let c := compute_challenge (ts_R s) group_key message_hash in
    let R' := (gen * ts_z s + (- group_key) * c)%G in
    if Geqb (ts_R s) R' then Ok tt else Err InvalidSignature.

  (** summation loop of aggregate, src/sign/signature.rs 623-631 *)
  Fixpoint sum_partials (partials : bmap F) (signers : list Signer) (z : F) : result F :=
    match signers with
    | [] => Ok z
    | s :: l =>
        match bget (sg_index s) partials with
        | None => Panic
        | Some p => sum_partials partials l (z + p)%F
        end
    end.

  (** blaming loop of aggregate, src/sign/signature.rs 646-681 *)
  Fixpoint find_bad (st : AggState) (message_hash : list byte) (c : F) (idx : list u32)
      (signers : list Signer) (mis : list u32) : result (list u32) :=
    match signers with
    | [] => Ok mis
    | s :: l =>
        let i := sg_index s in
        let* lambda := lagrange i idx in
        match bget i (ag_partials st) with
        | None => Panic
        | Some p =>
        match bget i (ag_keys st) with
        | None => Panic
        | Some pk =>
            let* R_i := commitment_for_participant i message_hash (ag_signers st) in
            let bad := negb (Geqb (gen * p)%G (R_i + pk * (c * lambda)%F)%G) in
            find_bad st message_hash c idx l (if bad then mis ++ [i] else mis)
        end end
    end.

  (** aggregate, src/sign/signature.rs 602-684 *)
  Definition aggregate (a : AggFinal) : result ThresholdSig :=
    let st := af_state a in
    let* bf := compute_binding_factors (af_hash a) (ag_signers st) in
    let* R := compute_group_commitment (ag_signers st) bf in
    let c := compute_challenge R (ag_group_key st) (af_hash a) in
    let* z := sum_partials (ag_partials st) (ag_signers st) F0 in
    let sig := MkTSig R z in
    if is_ok (sig_verify sig (ag_group_key st) (af_hash a)) then Ok sig
    else
      let* mis := find_bad st (af_hash a) c (map sg_index (ag_signers st)) (ag_signers st) [] in
      Err (MisbehavingParticipants mis).
End Model.
