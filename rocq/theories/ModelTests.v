(** Six of the repository's own tests as client programs, for any number of participants: bringing in a key from outside
    (tests/ice_frost.rs 289-422), a resharing in which a dealer encrypts a wrong value for one of the new signers
    (src/dkg/key_generation.rs 2094-2407), a key generation in which a dealer's share for another is tampered with
    (src/dkg/key_generation.rs 1829-2091), a resharing to a group that keeps a member of the old one
    (src/dkg/key_generation.rs 1550-1790), a dealer with a polynomial of another degree
    (src/dkg/key_generation.rs 1496-1548) and the verifying keys after a dealer was removed
    (src/dkg/key_generation.rs 2617-2753). As in ModelDoc, one generator is threaded through all calls. *)
From Coq Require Import String Strings.Byte Arith NArith Bool List.
From Verif Require Import Base Suite Types ModelDkg ModelSign ModelDoc.
Import ListNotations.

Section Tests.
  Context {S : Suite}.

  (** resharing_from_non_frost_key, tests/ice_frost.rs 289-422: the owner of a Schnorr key reshares it as the only dealer of
      a 1-of-1 group; the first t new signers, the only ones to precompute, sign under the old public key. Simplified: the
      results of include_signer are ignored as in the documentation, the test unwraps them (tests/ice_frost.rs 392-400). *)
  Definition test_import (m : build) (key : F) (n t : u32) (ids : list u32) (message : list byte) (r : Rng)
    : result (list (G * SigningKey) * ThresholdSig * Rng) :=
    let* params := params_new m (u32_of_N 1) (u32_of_N 1) in
    let* (new_params, outs, r1) := doc_resharing m params [((gen * key)%G, from_single_key key)] n t ids r in
    let* (sig, r2) := doc_signing m new_params (firstn (N.to_nat (u32v t)) outs) (seq 0 (N.to_nat (u32v t))) message r1 in
    Ok (outs, sig, r2).

  (** the other signers' second round; their complaints are ignored, src/dkg/key_generation.rs 2371-2378 *)
  Definition test_round_two (m : build) (x : RoundOne * list EncShare) (r : Rng) : result (RoundTwo * Rng) :=
    let* (s2, _, r') := to_round_two m (fst x) (snd x) r in Ok (s2, r').
  (** blame and finish, src/dkg/key_generation.rs 2385-2396; in the test only one signer looks at the returned key, and
      the victim does not finish *)
  Definition test_settle (cs : list Complaint) (bob_key : G) (s2 : RoundTwo) : result (G * SigningKey) :=
    let* (keys, s3) := blame s2 cs in
    let* k := unwrap (nth_error keys 0) in
    let* _ := assert_true (Geqb k bob_key) in
    finish s3.
  (** what the victim receives of a dealer, src/dkg/key_generation.rs 2345-2355 *)
  Definition test_slot (bob victim : u32) (wrong : EncShare) (d : Participant * bmap EncShare) : result EncShare :=
    if u32_eqb (pt_index (fst d)) bob then Ok wrong else unwrap (bget victim (snd d)).
  (** keygen_verify_complaint_during_resharing, src/dkg/key_generation.rs 2217-2402: the old group [outs] reshares to the
      signers [before ++ victim :: after]; what the dealer [bob] sends the victim is [value] (42 in the test), properly
      encrypted; the victim complains, all blame and finish *)
  Definition test_resharing (m : build) (params : Params) (outs : list (G * SigningKey)) (n t : u32)
      (before : list u32) (victim : u32) (after : list u32) (bob : u32) (value : F) (r : Rng)
    : result (list (G * SigningKey) * Rng) :=
    let* new_params := params_new m n t in
    let* (ss, r1) := each (new_signer new_params) (before ++ victim :: after) r in
    let signers := map fst ss in
    let* (ds, r2) := each (fun o r => let* (d, es, _, r') := reshare m new_params (snd o) signers r in Ok (d, es, r')) outs r1 in
    let dealers := map fst ds in
    let* (states, r3) := each (fun s r =>
      let* (st, _, r') := dkg_new m params (snd s) (pt_index (fst s)) dealers r in Ok (st, r')) ss r2 in
    let* b := unwrap (find (fun d => u32_eqb (pt_index d) bob) dealers) in
    let named := combine (map pt_index signers) (combine (map snd ss) states) in
    let* v := unwrap (find (fun x => u32_eqb (fst x) victim) named) in
    let others := filter (fun x => negb (u32_eqb (fst x) victim)) named in
    let* (wrong, r4) := encrypt_share (MkShare bob victim value) (enc_point (pt_dh_pk b * fst (snd v))%G) r3 in
    let* box := traverse (test_slot bob victim wrong) ds in
    let* boxes := traverse (doc_box (map snd ds)) (map fst others) in
    let* (s2s, r5) := each (test_round_two m) (combine (map (fun x => snd (snd x)) others) boxes) r4 in
    let* (sv, cs, r6) := to_round_two m (snd (snd v)) box r5 in
    let* _ := assert_true (Nat.eqb (length cs) 1) in
    let* outs' := traverse (test_settle cs (pt_dh_pk b)) (s2s ++ [sv]) in
    let* _ := doc_same_key (hd Gzero (map fst outs)) outs' in
    Ok (outs', r6).

  (** what happens to the share of the bad dealer for the victim: another nonce, another ciphertext, or a value encrypted
      under the dealer's own key pair, src/dkg/key_generation.rs 1891-1893, 1949-1951, 2001-2018 *)
  Inductive tampering := TNonce (nonce : Nonce) | TCipher (ct : list byte) | TValue (value : F).
  (** the tampered share, same lines; [b], [x] are the dealer's participant and Diffie-Hellman secret *)
  Definition test_tamper (k : tampering) (b : Participant) (x : F) (e : EncShare) (r : Rng) : result (EncShare * Rng) :=
    match k with
    | TNonce nonce => Ok (MkEnc (es_sender e) (es_receiver e) nonce (es_ct e), r)
    | TCipher ct => Ok (MkEnc (es_sender e) (es_receiver e) (es_nonce e) ct, r)
    | TValue v => encrypt_share (MkShare (es_sender e) (es_receiver e) v) (enc_point (pt_dh_pk b * x)%G) r
    end.
  (** one scenario, src/dkg/key_generation.rs 1894-1938, 1952-1994, 2019-2061: everybody but the victim does the second
      round without complaint, then the victim with one; everybody (the bad dealer too) blames, sees the dealer's key
      first, and finishes, all with one group key *)
  Definition test_scenario (m : build) (bob_key : G) (victim : u32) (calls : list (u32 * (RoundOne * list EncShare))) (r : Rng)
    : result (list (G * SigningKey) * list Complaint * Rng) :=
    let* v := unwrap (find (fun x => u32_eqb (fst x) victim) calls) in
    let* (s2s, r1) := each (doc_round_two m) (map snd (filter (fun x => negb (u32_eqb (fst x) victim)) calls)) r in
    let* (sv, cs, r2) := to_round_two m (fst (snd v)) (snd (snd v)) r1 in
    let* _ := assert_true (Nat.eqb (length cs) 1) in
    let* outs := traverse (test_settle cs bob_key) (s2s ++ [sv]) in
    let* _ := doc_same_key (hd Gzero (map fst outs)) outs in
    Ok (outs, cs, r2).
  (** the complaint with its shared key doubled, src/dkg/key_generation.rs 1940-1942 *)
  Definition test_doubled (c : Complaint) : Complaint :=
    MkComplaint (c_shared c + c_shared c)%G (c_pk c) (c_share c) (c_proof c).
  (** keygen_verify_complaint, src/dkg/key_generation.rs 1829-2091, with one of its three scenarios and the final block
      2063-2086, in which [third] settles the doubled complaint and sees the victim's key first *)
  Definition test_complaint (m : build) (n t : u32) (ids : list u32) (bob victim third : u32) (k : tampering) (r : Rng)
    : result (list (G * SigningKey) * Rng) :=
    let* params := params_new m n t in
    let* (ds, r1) := each (new_dealer params) ids r in
    let ps := map (fun d => fst (fst d)) ds in
    let* _ := traverse (fun p => let* pr := unwrap (pt_sk_proof p) in
                                 let* pk := unwrap (part_public_key p) in
                                 nizk_verify pr (pt_index p) pk) ps in
    let* (ss, r2) := each (doc_round_one m params ps) ds r1 in
    let* boxes := traverse (doc_box (map snd ss)) (map pt_index ps) in
    let calls := combine (map pt_index ps) (combine (map fst ss) boxes) in
    let* b := unwrap (find (fun d => u32_eqb (pt_index (fst (fst d))) bob) ds) in
    let* w := unwrap (find (fun p => u32_eqb (pt_index p) victim) ps) in
    let* es := unwrap (find (fun x => u32_eqb (fst x) bob) (combine (map pt_index ps) (map snd ss))) in
    let* e := unwrap (bget victim (snd es)) in
    let* (wrong, r3) := test_tamper k (fst (fst b)) (snd b) e r2 in
    let* box := traverse (test_slot bob victim wrong) (combine ps (map snd ss)) in
    let* (outs, cs, r4) := test_scenario m (pt_dh_pk (fst (fst b))) victim
      (map (fun x => if u32_eqb (fst x) victim then (fst x, (fst (snd x), box)) else x) calls) r3 in
    let* c := unwrap (nth_error cs 0) in
    let* y := unwrap (find (fun x => u32_eqb (fst x) third) calls) in
    let* (s2, _, r5) := to_round_two m (fst (snd y)) (snd (snd y)) r4 in
    let* (keys, _) := blame s2 [test_doubled c] in
    let* key := unwrap (nth_error keys 0) in
    let* _ := assert_true (Geqb key (pt_dh_pk w)) in
    Ok (outs, r5).

  (** the proofs of the secret keys are verified, src/dkg/key_generation.rs 1508-1522, 1563-1577 *)
  Definition test_proofs (ps : list Participant) : result unit :=
    let* _ := traverse (fun p => let* pr := unwrap (pt_sk_proof p) in
                                 let* pk := unwrap (part_public_key p) in
                                 nizk_verify pr (pt_index p) pk) ps in Ok tt.
  (** a member of the next group: taken over from the old one with its participant and Diffie-Hellman secret when marked,
      otherwise new, src/dkg/key_generation.rs 1676-1679 *)
  Definition test_member (new_params : Params) (ds : list (Participant * list F * F)) (x : u32 * bool) (r : Rng)
    : result (Participant * F * Rng) :=
    if snd x then
      let* d := unwrap (find (fun d => u32_eqb (pt_index (fst (fst d))) (fst x)) ds) in Ok (fst (fst d), snd d, r)
    else new_signer new_params (fst x) r.
  (** keygen_static_2_out_of_3_with_common_participants, src/dkg/key_generation.rs 1550-1790; the test has the same
      parameters for both groups *)
  Definition test_common (m : build) (n t : u32) (ids : list u32) (n' t' : u32) (next : list (u32 * bool)) (r : Rng)
    : result (list (G * SigningKey) * list (G * SigningKey) * Rng) :=
    let* params := params_new m n t in
    let* (ds, r1) := each (new_dealer params) ids r in
    let ps := map (fun d => fst (fst d)) ds in
    let* _ := test_proofs ps in
    let* (ss, r2) := each (doc_round_one m params ps) ds r1 in
    let* (outs, r3) := doc_session m (map pt_index ps) (map fst ss) (map snd ss) r2 in
    let* _ := doc_same_key (last (map fst outs) Gzero) outs in
    let* new_params := params_new m n' t' in
    let* (zs, r4) := each (test_member new_params ds) next r3 in
    let* (outs', r5) := doc_handover m params new_params outs zs r4 in
    Ok (outs, outs', r5).

  (** keygen_2_out_of_3_with_malicious_party_high_degree_commitment_polynomial, src/dkg/key_generation.rs 1496-1548: the
      dealer [bad] has unchecked parameters with another threshold [t'] (5 in the test), [me] does the first round; returned are its
      lists, of which the test asserts that [bad] is among the misbehaving *)
  Definition test_degree (m : build) (n t t' : u32) (before : list u32) (bad : u32) (after : list u32) (me : u32) (r : Rng)
    : result (RoundOne * PartList * Rng) :=
    let* params := params_new m n t in
    let* (d1, r1) := each (new_dealer params) before r in
    let* (b, r2) := new_dealer (MkParams n t') bad r1 in
    let* (d2, r3) := each (new_dealer params) after r2 in
    let ps := map (fun d => fst (fst d)) (d1 ++ b :: d2) in
    let* _ := test_proofs ps in
    let* d := unwrap (find (fun d => u32_eqb (pt_index (fst (fst d))) me) (d1 ++ d2)) in
    bootstrap m params (snd d) (pt_index (fst (fst d))) (snd (fst d)) ps r3.

  (** assert!(x.is_err()), src/dkg/key_generation.rs 2735, 2740 *)
  Definition test_is_err {A} (x : result A) : result unit :=
    match x with Ok _ => Panic | Err _ => Ok tt | Panic => Panic end.
  (** assert!(x.is_ok()), src/dkg/key_generation.rs 2736-2737 *)
  Definition test_is_ok {A} (x : result A) : result unit :=
    match x with Ok _ => Ok tt | _ => Panic end.
  (** the end of the test, src/dkg/key_generation.rs 2719-2750: what the dealer [bob] obtained without settling the
      complaint, what the others obtained, and the commitments of the others *)
  Definition test_last_checks (bob_out : G * SigningKey) (outs : list (G * SigningKey)) (victim : u32) (cms : list Vss) : result unit :=
    let gk := hd Gzero (map fst outs) in
    let* _ := assert_true (negb (Geqb (fst bob_out) gk)) in
    let* _ := doc_same_key gk outs in
    let* _ := test_is_err (ivk_verify (to_public (snd bob_out)) cms) in
    let* _ := traverse (fun o => test_is_ok (ivk_verify (to_public (snd o)) cms)) outs in
    let* v := unwrap (find (fun o => u32_eqb (sk_index (snd o)) victim) outs) in
    let* _ := test_is_err (ivk_verify (to_public (snd v)) (tl cms)) in
    let* ks := traverse (fun o => ivk_generate (sk_index (snd o)) cms) outs in
    let* _ := traverse (fun x => assert_true (u32_eqb (vk_index (to_public (snd (fst x)))) (vk_index (snd x)) &&
                                              Geqb (vk_share (to_public (snd (fst x)))) (vk_share (snd x)))) (combine outs ks) in
    Ok tt.
  (** individual_public_key_share, src/dkg/key_generation.rs 2617-2753: the nonce of [bob]'s share for the victim is
      replaced; everybody but [bob] settles the victim's complaint; all finish. The test blames and finishes in another
      order, with states that do not depend on each other *)
  Definition test_keys (m : build) (n t : u32) (ids : list u32) (bob victim : u32) (nonce : Nonce) (r : Rng)
    : result ((G * SigningKey) * list (G * SigningKey) * Rng) :=
    let* params := params_new m n t in
    let* (ds, r1) := each (new_dealer params) ids r in
    let ps := map (fun d => fst (fst d)) ds in
    let* _ := test_proofs ps in
    let* (ss, r2) := each (doc_round_one m params ps) ds r1 in
    let* boxes := traverse (doc_box (map snd ss)) (map pt_index ps) in
    let calls := combine (map pt_index ps) (combine (map fst ss) boxes) in
    let* b := unwrap (find (fun p => u32_eqb (pt_index p) bob) ps) in
    let* es := unwrap (find (fun x => u32_eqb (fst x) bob) (combine (map pt_index ps) (map snd ss))) in
    let* e := unwrap (bget victim (snd es)) in
    let wrong := MkEnc (es_sender e) (es_receiver e) nonce (es_ct e) in
    let* box := traverse (test_slot bob victim wrong) (combine ps (map snd ss)) in
    let others := filter (fun x => negb (u32_eqb (fst x) victim)) calls in
    let* (s2s, r3) := each (doc_round_two m) (map snd others) r2 in
    let* v := unwrap (find (fun x => u32_eqb (fst x) victim) calls) in
    let* (sv, cs, r4) := to_round_two m (fst (snd v)) box r3 in
    let* _ := assert_true (Nat.eqb (length cs) 1) in
    let named := combine (map fst others ++ [victim]) (s2s ++ [sv]) in
    let* outs := traverse (test_settle cs (pt_dh_pk b)) (map snd (filter (fun x => negb (u32_eqb (fst x) bob)) named)) in
    let* sb := unwrap (find (fun x => u32_eqb (fst x) bob) named) in
    let* bob_out := finish (snd sb) in
    let* cms := traverse (fun p => unwrap (pt_comm p)) (rev (filter (fun p => negb (u32_eqb (pt_index p) bob)) ps)) in
    let* _ := test_last_checks bob_out outs victim cms in
    Ok (bob_out, outs, r4).
End Tests.
