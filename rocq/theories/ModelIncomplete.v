(** The repository's test of a group that loses one participant in each round of the key generation and signs all the
    same (signature_from_incomplete_set, src/sign/signature.rs 1274-1585), as a client program for any number of
    participants. As in ModelDoc, one generator is threaded through all calls (the test uses OsRng throughout). *)
From Coq Require Import String Strings.Byte Arith NArith Bool List.
From Verif Require Import Base Suite Types ModelDkg ModelSign ModelCompare ModelDoc.
Import ListNotations.

Section Incomplete.
  Context {S : Suite}.

  (** the published Diffie-Hellman key is doubled, src/sign/signature.rs 1280-1282 *)
  Definition inc_double (p : Participant) : Participant :=
    MkPart (pt_index p) (pt_dh_pk p + pt_dh_pk p)%G (pt_comm p) (pt_sk_proof p) (pt_dh_proof p).
  (** the proof of the secret key is verified, src/sign/signature.rs 1293-1297 *)
  Definition inc_sk_proof (p : Participant) : result unit :=
    let* pr := unwrap (pt_sk_proof p) in
    let* pk := unwrap (part_public_key p) in
    nizk_verify pr (pt_index p) pk.
  (** round one of a participant, who has to see [bad] flagged and nobody else, src/sign/signature.rs 1331-1341,
      1379-1388 (the assertions, made after all of the first rounds, are checked here at once) *)
  Definition inc_round_one (m : build) (params : Params) (ps : list Participant) (bad : u32) (d : Participant * list F * F) (r : Rng)
    : result (RoundOne * bmap EncShare * Rng) :=
    let '(p, co, x) := d in
    let* (st, lists, r') := bootstrap m params x (pt_index p) co ps r in
    let* es := their_encrypted_secret_shares st in
    let* _ := assert_true (match pl_mis lists with Some l => list_eqb u32_eqb l [bad] | None => false end) in
    Ok (st, es, r').
  (** the nonce written over the right one, src/sign/signature.rs 1393, 1418 *)
  Lemma nonce_42_ok : Nat.eqb (length (repeat x2a nonce_len)) nonce_len = true.
  Proof. rewrite repeat_length. apply Nat.eqb_refl. Qed.
  (** src/sign/signature.rs 1393, 1418 *)
  Definition nonce_42 : Nonce := MkNonce (repeat x2a nonce_len) nonce_42_ok.
  (** what q receives from one dealer: its share, with a wrong nonce when the dealer is [bob] and q one of the victims,
      src/sign/signature.rs 1390-1424 *)
  Definition inc_slot (bob : u32) (victims : list u32) (q : u32) (x : u32 * bmap EncShare) : result EncShare :=
    let* e := unwrap (bget q (snd x)) in
    Ok (if u32_eqb (fst x) bob && existsb (u32_eqb q) victims then MkEnc (es_sender e) (es_receiver e) nonce_42 (es_ct e) else e).
  (** round two of a participant, who has to make one complaint as a victim and none otherwise, src/sign/signature.rs
      1426-1448 *)
  Definition inc_round_two (m : build) (victims : list u32) (x : u32 * (RoundOne * list EncShare)) (r : Rng)
    : result (RoundTwo * list Complaint * Rng) :=
    let* (s2, cs, r') := to_round_two m (fst (snd x)) (snd (snd x)) r in
    let* _ := assert_true (Nat.eqb (length cs) (if existsb (u32_eqb (fst x)) victims then 1 else 0)) in
    Ok (s2, cs, r').
  (** everybody but [bob] settles all complaints and gets his key and no other, src/sign/signature.rs 1450-1460 *)
  Definition inc_settle (all : list Complaint) (bob : u32) (bob_key : G) (x : u32 * RoundTwo) : result RoundTwo :=
    if u32_eqb (fst x) bob then Ok (snd x) else
    let* (keys, s3) := blame (snd x) all in
    let* _ := assert_true (Nat.eqb (length keys) 1) in
    let* k := unwrap (nth_error keys 0) in
    let* _ := assert_true (Geqb k bob_key) in
    Ok s3.
  (** the public keys of those who remain are checked against their commitments, in another order (reversed here); the
      first one's must not pass when the first commitment of the list is left out; and they are computed anew,
      src/sign/signature.rs 1480-1507 *)
  Definition inc_check (ps : list Participant) (keep : list (G * SigningKey)) : result unit :=
    let* cs := traverse (fun p => unwrap (pt_comm p)) (rev ps) in
    let* _ := traverse (fun o => assert_true (match ivk_verify (to_public (snd o)) cs with Ok _ => true | _ => false end)) keep in
    let* first := unwrap (nth_error keep 0) in
    let* _ := assert_true (match ivk_verify (to_public (snd first)) (skipn 1 cs) with Err _ => true | _ => false end) in
    let* _ := traverse (fun o =>
      let* pk := match ivk_generate (sk_index (snd o)) cs with Ok pk => Ok pk | _ => Panic end in
      assert_true (u32_eqb (vk_index pk) (vk_index (to_public (snd o))) &&
                   Geqb (vk_share pk) (vk_share (to_public (snd o))))) keep in
    Ok tt.
  (** everything after round one for the accepted participants, with their states and shares, src/sign/signature.rs
      1390-1584: [bob] garbles the shares of the [victims], all others remain. Returned: the keys of those who remain,
      what bob ended with, the signature. Simplified: the results of include_signer are ignored as in the documentation,
      the test unwraps them (1522-1542); the signature is verified once, the test does so through two names of one
      function. *)
  Definition inc_second (m : build) (params : Params) (accepted : list Participant) (ss : list (RoundOne * bmap EncShare))
      (bob : u32) (victims : list u32) (message : list byte) (r : Rng)
    : result (list (G * SigningKey) * (G * SigningKey) * ThresholdSig * Rng) :=
    let ids := map pt_index accepted in
    let* boxes := traverse (fun q => traverse (inc_slot bob victims q) (combine ids (map snd ss))) ids in
    let* (s2s, r1) := each (inc_round_two m victims) (combine ids (combine (map fst ss) boxes)) r in
    let all := concat (map snd s2s) in
    let* dealer := unwrap (find (fun p => u32_eqb (pt_index p) bob) accepted) in
    let* s3s := traverse (inc_settle all bob (pt_dh_pk dealer)) (combine ids (map fst s2s)) in
    let* outs := traverse finish s3s in
    let named := combine ids outs in
    let keep := map snd (filter (fun x => negb (u32_eqb (fst x) bob)) named) in
    let* ob := unwrap (find (fun x => u32_eqb (fst x) bob) named) in
    let* _ := doc_same_key (hd Gzero (map fst keep)) keep in
    let* _ := assert_true (negb (Geqb (fst (snd ob)) (hd Gzero (map fst keep)))) in
    let* _ := inc_check (filter (fun p => negb (u32_eqb (pt_index p) bob)) accepted) keep in
    let* (sig, r2) := doc_signing m params keep (seq 0 (length keep)) message r1 in
    Ok (keep, snd ob, sig, r2).
  (** the whole test, src/sign/signature.rs 1274-1585: the participants are [l1 ++ bad :: l2]; [bad] publishes a wrong
      key *)
  Definition test_incomplete (m : build) (n t : u32) (l1 : list u32) (bad : u32) (l2 : list u32) (bob : u32) (victims : list u32)
      (message : list byte) (r : Rng) : result (list (G * SigningKey) * (G * SigningKey) * ThresholdSig * Rng) :=
    let* params := params_new m n t in
    let* (d1, b, d2, r1) := doc_dealers params l1 bad l2 r in
    let part := fun d : Participant * list F * F => fst (fst d) in
    let ps := map part d1 ++ inc_double (part b) :: map part d2 in
    let* _ := traverse inc_sk_proof ps in
    let* (ss1, r2) := each (inc_round_one m params ps bad) d1 r1 in
    let* (_, _, r3) := bootstrap m params (snd b) (pt_index (part b)) (snd (fst b)) ps r2 in
    let* (ss2, r4) := each (inc_round_one m params ps bad) d2 r3 in
    inc_second m params (map part (d1 ++ d2)) (ss1 ++ ss2) bob victims message r4.
End Incomplete.
