(** The programs of the crate documentation (src/lib.rs 53-1590, src/dkg/key_generation.rs 53-480), for any number of
    participants instead of three: Alice, Bob and Carol become the elements of a list, one generator is threaded
    through all calls as in the doc tests, [?] is [let*], [unwrap] and [assert!] panic when they fail. *)
From Coq Require Import String Strings.Byte Arith NArith Bool List.
From Verif Require Import Base Suite Types ModelDkg ModelSign ModelCompare ModelErase.
Import ListNotations.

Section Doc.
  Context {S : Suite}.

  (** [assert!], e.g. src/lib.rs 382-384 *)
  Definition assert_true (b : bool) : result unit := if b then Ok tt else Panic.
  (** [Option::unwrap], e.g. src/lib.rs 305-307 *)
  Definition unwrap {A} (o : option A) : result A := match o with Some a => Ok a | None => Panic end.

  (** the same call made once for every participant, in order, with one generator, e.g. src/lib.rs 88-90 *)
  Fixpoint each {A B} (f : A -> Rng -> result (B * Rng)) (l : list A) (r : Rng) : result (list B * Rng) :=
    match l with
    | [] => Ok ([], r)
    | a :: l' =>
        let* (b, r1) := f a r in
        let* (bs, r2) := each f l' r1 in
        Ok (b :: bs, r2)
    end.
  (** the same without randomness, e.g. src/lib.rs 442-444 *)
  Fixpoint traverse {A B} (f : A -> result B) (l : list A) : result (list B) :=
    match l with
    | [] => Ok []
    | a :: l' => let* b := f a in let* bs := traverse f l' in Ok (b :: bs)
    end.

  (** one participant's first round, src/lib.rs 122-131, 164 *)
  Definition doc_round_one (m : build) (params : Params) (ps : list Participant) (d : Participant * list F * F) (r : Rng)
    : result (RoundOne * bmap EncShare * Rng) :=
    let '(p, co, x) := d in
    let* (st, _, r') := bootstrap m params x (pt_index p) co ps r in
    let* es := their_encrypted_secret_shares st in
    Ok (st, es, r').

  (** the shares participant i collects from everybody, src/lib.rs 304-320 *)
  Definition doc_box (sent : list (bmap EncShare)) (i : u32) : result (list EncShare) :=
    traverse (fun es => unwrap (bget i es)) sent.

  (** one participant's second round, src/lib.rs 372-384 *)
  Definition doc_round_two (m : build) (x : RoundOne * list EncShare) (r : Rng) : result (RoundTwo * Rng) :=
    let* (s2, cs, r') := to_round_two m (fst x) (snd x) r in
    let* _ := assert_true (match cs with [] => true | _ :: _ => false end) in
    Ok (s2, r').

  (** collecting the shares, second round and finish of everybody, src/lib.rs 304-320, 372-384, 442-444, 819-853, 961-964 *)
  Definition doc_session (m : build) (ids : list u32) (states : list RoundOne) (sent : list (bmap EncShare)) (r : Rng)
    : result (list (G * SigningKey) * Rng) :=
    let* boxes := traverse (doc_box sent) ids in
    let* (s2s, r1) := each (doc_round_two m) (combine states boxes) r in
    let* outs := traverse finish s2s in
    Ok (outs, r1).

  (** all obtained the group key gk, src/lib.rs 446-447, 966-969 *)
  Definition doc_same_key (gk : G) (outs : list (G * SigningKey)) : result unit :=
    let* _ := traverse (fun o => assert_true (Geqb (fst o) gk)) outs in Ok tt.

  (** key generation, src/lib.rs 53-452, src/dkg/key_generation.rs 53-184; the group key compared with is the last
      participant's (Bob's in the documentation) *)
  Definition doc_generation (m : build) (n t : u32) (ids : list u32) (r : Rng)
    : result (Params * list Participant * list (G * SigningKey) * Rng) :=
    let* params := params_new m n t in
    let* (ds, r1) := each (new_dealer params) ids r in
    let ps := map (fun d => fst (fst d)) ds in
    let* (ss, r2) := each (doc_round_one m params ps) ds r1 in
    let* (outs, r3) := doc_session m (map pt_index ps) (map fst ss) (map snd ss) r2 in
    let* _ := doc_same_key (last (map fst outs) Gzero) outs in
    Ok (params, ps, outs, r3).

  (** checking the verifying keys against the commitments, taken in another order, src/lib.rs 513-539 *)
  Definition doc_check (ps : list Participant) (outs : list (G * SigningKey)) : result unit :=
    let* cs := traverse (fun p => unwrap (pt_comm p)) (rev ps) in
    let* _ := traverse (fun o =>
      let* pk := match ivk_generate (sk_index (snd o)) cs with Ok pk => Ok pk | _ => Panic end in
      assert_true (u32_eqb (vk_index pk) (vk_index (to_public (snd o))) &&
                   Geqb (vk_share pk) (vk_share (to_public (snd o))))) outs in
    let* _ := traverse (fun o =>
      assert_true (match ivk_verify (to_public (snd o)) cs with Ok _ => true | _ => false end)) outs in
    Ok tt.

  (** the old key holders reshare to the given signers, each with its Diffie-Hellman secret, and these finish,
      src/lib.rs 559-970 *)
  Definition doc_handover (m : build) (params new_params : Params) (outs : list (G * SigningKey)) (ss : list (Participant * F)) (r1 : Rng)
    : result (list (G * SigningKey) * Rng) :=
    let signers := map fst ss in
    let* (ds, r2) := each (fun o r => let* (d, es, _, r') := reshare m new_params (snd o) signers r in Ok (d, es, r')) outs r1 in
    let dealers := map fst ds in
    let* (states, r3) := each (fun s r =>
      let* (st, _, r') := dkg_new m params (snd s) (pt_index (fst s)) dealers r in Ok (st, r')) ss r2 in
    let* (outs', r4) := doc_session m (map pt_index signers) states (map snd ds) r3 in
    let* _ := doc_same_key (hd Gzero (map fst outs)) outs' in
    Ok (outs', r4).
  (** resharing to new participants, src/lib.rs 543-970, src/dkg/key_generation.rs 187-478 *)
  Definition doc_resharing (m : build) (params : Params) (outs : list (G * SigningKey)) (n t : u32) (ids : list u32) (r : Rng)
    : result (Params * list (G * SigningKey) * Rng) :=
    let* new_params := params_new m n t in
    let* (ss, r1) := each (new_signer new_params) ids r in
    let* (outs', r4) := doc_handover m params new_params outs ss r1 in
    Ok (new_params, outs', r4).

  (** the aggregator takes note of the chosen signers; the results of include_signer are ignored, src/lib.rs 1382-1383 *)
  Definition doc_include (a : AggInitial) (x : SigningKey * (PublicList * SecretList)) : result AggInitial :=
    let* com := unwrap (nth_error (pl_commitments (fst (snd x))) 0) in
    Ok (snd (include_signer a (sk_index (fst x)) com (to_public (fst x)))).
  (** the calls of include_signer, one after the other, src/lib.rs 1382-1383 *)
  Fixpoint doc_include_all (a : AggInitial) (l : list (SigningKey * (PublicList * SecretList))) : result AggInitial :=
    match l with [] => Ok a | x :: l' => let* a' := doc_include a x in doc_include_all a' l' end.

  (** signing and aggregation by the key holders at the positions [chosen], src/lib.rs 1229-1590: everybody precomputes
      one commitment share *)
  Definition doc_signing (m : build) (params : Params) (outs : list (G * SigningKey)) (chosen : list nat) (message : list byte) (r : Rng)
    : result (ThresholdSig * Rng) :=
    let* (lists, r1) := each (fun o r =>
      Ok (generate_commitment_share_lists r (snd o) 1)) outs r in
    let gk := hd Gzero (map fst outs) in
    let* signing := traverse (fun k => unwrap (nth_error (combine (map snd outs) lists) k)) chosen in
    let* a := doc_include_all (agg_new params gk message) signing in
    let signers := ag_signers (ai_state a) in
    let* partials := traverse (fun x => fst (sign m (fst x) (h4 message) gk (snd (snd x)) 0 signers)) signing in
    let a := fold_left include_partial_signature partials a in
    let* f := finalize a in
    let* sig := aggregate f in
    let* _ := verify_signature gk sig (h4 message) in
    Ok (sig, r1).

  (** the whole tour: key generation, its check, a signature, a resharing, a signature by the new group under the old key,
      src/lib.rs 53-1590 *)
  Definition doc_tour (m : build) (n t : u32) (ids : list u32) (chosen : list nat)
      (n' t' : u32) (ids' : list u32) (chosen' : list nat) (message : list byte) (r : Rng) : result (G * ThresholdSig * ThresholdSig) :=
    let* (params, ps, outs, r1) := doc_generation m n t ids r in
    let* _ := doc_check ps outs in
    let* (sig, r2) := doc_signing m params outs chosen message r1 in
    let* (params', outs', r3) := doc_resharing m params outs n' t' ids' r2 in
    let* (sig', r4) := doc_signing m params' outs' chosen' message r3 in
    Ok (hd Gzero (map fst outs), sig, sig').

  (** ** misbehaviour, src/lib.rs 973-1226. The indices are those of the participants before the misbehaving one (Bob),
      its own, and those after it; [victim] is Alice's. *)

  (** Bob's participant with the Diffie-Hellman key of another, src/lib.rs 997-1001 *)
  Definition doc_swap_key (bob other : Participant) : Participant :=
    MkPart (pt_index bob) (pt_dh_pk other) (pt_comm bob) (pt_sk_proof bob) (pt_dh_proof bob).
  (** everybody's dealer, src/lib.rs 998-1002 *)
  Definition doc_dealers (params : Params) (before : list u32) (bob : u32) (after : list u32) (r : Rng) :=
    let* (d1, r1) := each (new_dealer params) before r in
    let* (b, r2) := new_dealer params bob r1 in
    let* (d2, r3) := each (new_dealer params) after r2 in
    Ok (d1, b, d2, r3).
  (** round one of a participant who has to see Bob flagged and nobody else, src/lib.rs 1006-1022; the comparison of
      the lists of participants is the PartialEq of Participant, src/dkg/participant.rs 301-305 *)
  Definition doc_flagging_round_one (m : build) (params : Params) (ps others : list Participant) (bob : u32)
      (d : Participant * list F * F) (r : Rng) : result (RoundOne * bmap EncShare * Rng) :=
    let '(p, co, x) := d in
    let* (st, lists, r') := bootstrap m params x (pt_index p) co ps r in
    let* _ := assert_true (list_eqb participant_eqb (pl_valid lists) others) in
    let* _ := assert_true (match pl_mis lists with Some l => list_eqb u32_eqb l [bob] | None => false end) in
    let* es := their_encrypted_secret_shares st in
    Ok (st, es, r').
  (** Bob publishes the Diffie-Hellman key of the victim; the others flag Bob, ignore his shares and finish,
      src/lib.rs 981-1077 (the last steps as in the honest run) *)
  Definition doc_flagged (m : build) (n t : u32) (before : list u32) (bob : u32) (after : list u32) (victim : u32) (r : Rng)
    : result (list (G * SigningKey) * Rng) :=
    let* params := params_new m n t in
    let* (d1, b, d2, r3) := doc_dealers params before bob after r in
    let part := fun d : Participant * list F * F => fst (fst d) in
    let others := map part (d1 ++ d2) in
    let* v := unwrap (find (fun p => u32_eqb (pt_index p) victim) others) in
    let ps := map part d1 ++ doc_swap_key (part b) v :: map part d2 in
    let* (ss, r4) := each (doc_flagging_round_one m params ps others (pt_index (part b))) (d1 ++ d2) r3 in
    let* (outs, r5) := doc_session m (map pt_index others) (map fst ss) (map snd ss) r4 in
    let* _ := doc_same_key (hd Gzero (map fst outs)) outs in
    Ok (outs, r5).

  (** the share for the victim gets the all-zero nonce, src/lib.rs 1111-1112 *)
  Definition doc_garble (victim : u32) (es : bmap EncShare) : result (bmap EncShare) :=
    let* e := unwrap (bget victim es) in
    Ok (binsert victim (MkEnc (es_sender e) (es_receiver e) zero_nonce (es_ct e)) es).
  (** round two of a participant who has to make exactly one complaint (the victim) or none (the others),
      src/lib.rs 1137-1143 *)
  Definition doc_complaining_round_two (m : build) (victim : u32) (x : u32 * (RoundOne * list EncShare)) (r : Rng)
    : result (RoundTwo * list Complaint * Rng) :=
    let* (s2, cs, r') := to_round_two m (fst (snd x)) (snd (snd x)) r in
    let* _ := assert_true (Nat.eqb (length cs) (if u32_eqb (fst x) victim then 1 else 0)) in
    Ok (s2, cs, r').
  (** settling, with Bob's key returned and nothing else, then finish, src/lib.rs 1210-1221 *)
  Definition doc_settle (all : list Complaint) (bob_key : G) (s2 : RoundTwo) : result (G * SigningKey) :=
    let* (keys, s3) := blame s2 all in
    let* _ := assert_true (Nat.eqb (length keys) 1) in
    let* k := unwrap (nth_error keys 0) in
    let* _ := assert_true (Geqb k bob_key) in
    finish s3.
  (** Bob garbles the share of the victim; the victim complains, everybody but Bob settles and finishes,
      src/lib.rs 1079-1226 *)
  Definition doc_blamed (m : build) (n t : u32) (before : list u32) (bob : u32) (after : list u32) (victim : u32) (r : Rng)
    : result (list (G * SigningKey) * Rng) :=
    let* params := params_new m n t in
    let* (ds, r1) := each (new_dealer params) (before ++ bob :: after) r in
    let ps := map (fun d => fst (fst d)) ds in
    let* (ss, r2) := each (doc_round_one m params ps) ds r1 in
    let* sent := traverse (fun x => if u32_eqb (fst x) bob then doc_garble victim (snd x) else Ok (snd x))
                   (combine (map pt_index ps) (map snd ss)) in
    let others := filter (fun x => negb (u32_eqb (fst x) bob)) (combine (map pt_index ps) (map fst ss)) in
    let* boxes := traverse (doc_box sent) (map fst others) in
    let* (s2s, r3) := each (doc_complaining_round_two m victim)
                        (combine (map fst others) (combine (map snd others) boxes)) r2 in
    let all := concat (map snd s2s) in
    let* b := unwrap (find (fun p => u32_eqb (pt_index p) bob) ps) in
    let* outs := traverse (fun x => doc_settle all (pt_dh_pk b) (fst x)) s2s in
    let* _ := doc_same_key (hd Gzero (map fst outs)) outs in
    Ok (outs, r3).
End Doc.
