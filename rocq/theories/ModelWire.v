(** The programs of ModelDoc.v as participants in different places run them: whatever one participant hands to
    another, and whatever it keeps between two of its calls, goes through [to_bytes] and [from_bytes]. *)
From Coq Require Import String Strings.Byte Arith NArith Bool List.
From Verif Require Import Base Suite Types ModelDkg ModelSign ModelCompare ModelErase ModelCodec ModelDoc.
Import ListNotations.

Section Wire.
  Context {S : Suite}.

  (** writing and reading back, src/serialization.rs 7-25, as the test does, src/dkg/key_generation.rs 2486-2524 *)
  Definition wire {A} (ser : A -> list byte) (d : decoder A) (v : A) : result A :=
    let* b := to_bytes ser v in from_bytes d b.

  (** every entry of a map of encrypted shares is sent on its own, src/lib.rs 304-320 *)
  Definition wire_shares (es : bmap EncShare) : result (bmap EncShare) :=
    traverse (fun kv => let* e := wire ser_encshare de_encshare (snd kv) in Ok (fst kv, e)) es.

  (** the participant is published, the coefficients and the Diffie-Hellman key are stored, src/lib.rs 88-90 *)
  Definition wired_dealer (params : Params) (i : u32) (r : Rng) : result (Participant * list F * F * Rng) :=
    let* (p, co, x, r') := new_dealer params i r in
    let* p := wire ser_participant de_participant p in
    let* co := wire ser_coefficients de_coefficients co in
    let* x := wire ser_scalar de_scalar x in
    Ok (p, co, x, r').
  (** src/lib.rs 608-611 *)
  Definition wired_signer (params : Params) (i : u32) (r : Rng) : result (Participant * F * Rng) :=
    let* (p, x, r') := new_signer params i r in
    let* p := wire ser_participant de_participant p in
    let* x := wire ser_scalar de_scalar x in
    Ok (p, x, r').

  (** the state is stored, the shares are sent, src/lib.rs 122-131, 164 *)
  Definition wired_round_one (m : build) (params : Params) (ps : list Participant) (d : Participant * list F * F) (r : Rng)
    : result (RoundOne * bmap EncShare * Rng) :=
    let '(p, co, x) := d in
    let* (st, _, r') := bootstrap m params x (pt_index p) co ps r in
    let* es := their_encrypted_secret_shares st in
    let* st := wire ser_round_one de_round_one st in
    let* es := wire_shares es in
    Ok (st, es, r').

  (** src/lib.rs 372-384 *)
  Definition wired_round_two (m : build) (x : RoundOne * list EncShare) (r : Rng) : result (RoundTwo * Rng) :=
    let* (s2, r') := doc_round_two m x r in
    let* s2 := wire ser_round_two de_round_two s2 in
    Ok (s2, r').

  (** src/lib.rs 442-444 *)
  Definition wired_finish (s2 : RoundTwo) : result (G * SigningKey) :=
    let* (gk, sk) := finish s2 in
    let* gk := wire ser_point de_point gk in
    let* sk := wire ser_signing_key de_signing_key sk in
    Ok (gk, sk).

  (** src/lib.rs 304-320, 372-384, 442-444 *)
  Definition wired_session (m : build) (ids : list u32) (states : list RoundOne) (sent : list (bmap EncShare)) (r : Rng)
    : result (list (G * SigningKey) * Rng) :=
    let* boxes := traverse (doc_box sent) ids in
    let* (s2s, r1) := each (wired_round_two m) (combine states boxes) r in
    let* outs := traverse wired_finish s2s in
    Ok (outs, r1).

  (** src/lib.rs 53-452 *)
  Definition wired_generation (m : build) (n t : u32) (ids : list u32) (r : Rng)
    : result (Params * list Participant * list (G * SigningKey) * Rng) :=
    let* params := params_new m n t in
    let* params := wire ser_params de_params params in
    let* (ds, r1) := each (wired_dealer params) ids r in
    let ps := map (fun d => fst (fst d)) ds in
    let* (ss, r2) := each (wired_round_one m params ps) ds r1 in
    let* (outs, r3) := wired_session m (map pt_index ps) (map fst ss) (map snd ss) r2 in
    let* _ := doc_same_key (last (map fst outs) Gzero) outs in
    Ok (params, ps, outs, r3).

  (** the dealer's participant and shares are sent, src/lib.rs 616-624 *)
  Definition wired_reshare (m : build) (params : Params) (signers : list Participant) (o : G * SigningKey) (r : Rng)
    : result (Participant * bmap EncShare * Rng) :=
    let* (d, es, _, r') := reshare m params (snd o) signers r in
    let* d := wire ser_participant de_participant d in
    let* es := wire_shares es in
    Ok (d, es, r').
  (** src/lib.rs 702-737 *)
  Definition wired_new (m : build) (params : Params) (dealers : list Participant) (s : Participant * F) (r : Rng)
    : result (RoundOne * Rng) :=
    let* (st, _, r') := dkg_new m params (snd s) (pt_index (fst s)) dealers r in
    let* st := wire ser_round_one de_round_one st in
    Ok (st, r').
  (** src/lib.rs 543-970 *)
  Definition wired_resharing (m : build) (params : Params) (outs : list (G * SigningKey)) (n t : u32) (ids : list u32) (r : Rng)
    : result (Params * list (G * SigningKey) * Rng) :=
    let* new_params := params_new m n t in
    let* new_params := wire ser_params de_params new_params in
    let* (ss, r1) := each (wired_signer new_params) ids r in
    let signers := map fst ss in
    let* (ds, r2) := each (wired_reshare m new_params signers) outs r1 in
    let dealers := map fst ds in
    let* (states, r3) := each (wired_new m params dealers) ss r2 in
    let* (outs', r4) := wired_session m (map pt_index signers) states (map snd ds) r3 in
    let* _ := doc_same_key (hd Gzero (map fst outs)) outs' in
    Ok (new_params, outs', r4).

  (** the lists of commitments are published respectively stored, src/lib.rs 1229-1232 *)
  Definition wired_lists (o : G * SigningKey) (r : Rng) : result (PublicList * SecretList * Rng) :=
    let '(pub, sec, r') := generate_commitment_share_lists r (snd o) 1 in
    let* pub := wire ser_public_list de_public_list pub in
    let* sec := wire ser_secret_list de_secret_list sec in
    Ok (pub, sec, r').
  (** the partial signature is sent, src/lib.rs 1536-1549 *)
  Definition wired_sign (m : build) (message : list byte) (gk : G) (signers : list Signer) (x : SigningKey * (PublicList * SecretList))
    : result PartialSig :=
    let* p := fst (sign m (fst x) (h4 message) gk (snd (snd x)) 0 signers) in
    wire ser_partial_sig de_partial_sig p.
  (** the verifying key is sent to the aggregator, src/lib.rs 1382-1383 *)
  Definition wired_include (a : AggInitial) (x : SigningKey * (PublicList * SecretList)) : result AggInitial :=
    let* com := unwrap (nth_error (pl_commitments (fst (snd x))) 0) in
    let* pk := wire ser_verifying_key de_verifying_key (to_public (fst x)) in
    Ok (snd (include_signer a (sk_index (fst x)) com pk)).
  (** src/lib.rs 1382-1383 *)
  Fixpoint wired_include_all (a : AggInitial) (l : list (SigningKey * (PublicList * SecretList))) : result AggInitial :=
    match l with [] => Ok a | x :: l' => let* a' := wired_include a x in wired_include_all a' l' end.
  (** the list of signers is sent to each of them, the signature to whoever verifies it, src/lib.rs 1229-1590 *)
  Definition wired_signing (m : build) (params : Params) (outs : list (G * SigningKey)) (chosen : list nat) (message : list byte) (r : Rng)
    : result (ThresholdSig * Rng) :=
    let* (lists, r1) := each wired_lists outs r in
    let gk := hd Gzero (map fst outs) in
    let* signing := traverse (fun k => unwrap (nth_error (combine (map snd outs) lists) k)) chosen in
    let* a := wired_include_all (agg_new params gk message) signing in
    let* signers := traverse (wire ser_signer de_signer) (ag_signers (ai_state a)) in
    let* partials := traverse (wired_sign m message gk signers) signing in
    let a := fold_left include_partial_signature partials a in
    let* f := finalize a in
    let* sig := aggregate f in
    let* sig := wire ser_threshold_sig de_threshold_sig sig in
    let* _ := verify_signature gk sig (h4 message) in
    Ok (sig, r1).

  (** src/lib.rs 53-1590 *)
  Definition wired_tour (m : build) (n t : u32) (ids : list u32) (chosen : list nat)
      (n' t' : u32) (ids' : list u32) (chosen' : list nat) (message : list byte) (r : Rng) : result (G * ThresholdSig * ThresholdSig) :=
    let* (params, ps, outs, r1) := wired_generation m n t ids r in
    let* _ := doc_check ps outs in
    let* (sig, r2) := wired_signing m params outs chosen message r1 in
    let* (params', outs', r3) := wired_resharing m params outs n' t' ids' r2 in
    let* (sig', r4) := wired_signing m params' outs' chosen' message r3 in
    Ok (hd Gzero (map fst outs), sig, sig').

  (** src/lib.rs 1137-1143: the complaints are sent and the state is stored *)
  Definition wired_complaining_round_two (m : build) (victim : u32) (x : u32 * (RoundOne * list EncShare)) (r : Rng)
    : result (RoundTwo * list Complaint * Rng) :=
    let* (s2, cs, r') := doc_complaining_round_two m victim x r in
    let* s2 := wire ser_round_two de_round_two s2 in
    let* cs := traverse (wire ser_complaint de_complaint) cs in
    Ok (s2, cs, r').
  (** src/lib.rs 1210-1221: the state is stored between settling and finish *)
  Definition wired_settle (all : list Complaint) (bob_key : G) (s2 : RoundTwo) : result (G * SigningKey) :=
    let* (keys, s3) := blame s2 all in
    let* _ := assert_true (Nat.eqb (length keys) 1) in
    let* k := unwrap (nth_error keys 0) in
    let* k := wire ser_point de_point k in
    let* _ := assert_true (Geqb k bob_key) in
    let* s3 := wire ser_round_two de_round_two s3 in
    wired_finish s3.
  (** src/lib.rs 1111-1112: the changed share is sent *)
  Definition wired_garble (victim : u32) (es : bmap EncShare) : result (bmap EncShare) :=
    let* es := doc_garble victim es in wire_shares es.
  (** src/lib.rs 1079-1226 *)
  Definition wired_blamed (m : build) (n t : u32) (before : list u32) (bob : u32) (after : list u32) (victim : u32) (r : Rng)
    : result (list (G * SigningKey) * Rng) :=
    let* params := params_new m n t in
    let* params := wire ser_params de_params params in
    let* (ds, r1) := each (wired_dealer params) (before ++ bob :: after) r in
    let ps := map (fun d => fst (fst d)) ds in
    let* (ss, r2) := each (wired_round_one m params ps) ds r1 in
    let* sent := traverse (fun x => if u32_eqb (fst x) bob then wired_garble victim (snd x) else Ok (snd x))
                   (combine (map pt_index ps) (map snd ss)) in
    let others := filter (fun x => negb (u32_eqb (fst x) bob)) (combine (map pt_index ps) (map fst ss)) in
    let* boxes := traverse (doc_box sent) (map fst others) in
    let* (s2s, r3) := each (wired_complaining_round_two m victim)
                        (combine (map fst others) (combine (map snd others) boxes)) r2 in
    let all := concat (map snd s2s) in
    let* b := unwrap (find (fun p => u32_eqb (pt_index p) bob) ps) in
    let* outs := traverse (fun x => wired_settle all (pt_dh_pk b) (fst x)) s2s in
    let* _ := doc_same_key (hd Gzero (map fst outs)) outs in
    Ok (outs, r3).
End Wire.
