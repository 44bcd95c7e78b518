(** Vocabulary for the statements about nonces, signing and aggregation. The mathematical part does not
    mention the model; histories are relations built from the modelled API calls only. *)
From Coq Require Import String Strings.Byte NArith Bool List Permutation Sorted.
From Verif Require Import Base Suite Spec SpecDkg Types ModelDkg ModelSign.
Import ListNotations.

Section SpecSign.
  Context {S : Suite}.

  (** ** Schnorr equation *)

  (** the challenge of a signature with commitment R under the key pk *)
  Definition chal (R pk : G) (h : list byte) : F := h2 (enc_point R ++ enc_point pk ++ h).
  Definition schnorr (pk : G) (h : list byte) (R : G) (z : F) : Prop :=
    (gen * z)%G = (R + pk * chal R pk h)%G.

  (** ** one signing session: a message hash h and the list of signers with their published pairs *)

  (** the transcript of the signers *)
  Definition roll (ss : list Signer) : list byte :=
    concat (map (fun s => u32_le (sg_index s) ++ enc_point (fst (sg_com s)) ++ enc_point (snd (sg_com s))) ss).
  (** binding factor of index i *)
  Definition binding (h : list byte) (ss : list Signer) (i : u32) : F :=
    h1 (h4 h ++ h5 (roll ss) ++ u32_le i).
  (** nonce commitment of one signer, and of the group *)
  Definition nonce_point (h : list byte) (ss : list Signer) (s : Signer) : G :=
    (fst (sg_com s) + snd (sg_com s) * binding h ss (sg_index s))%G.
  Definition group_nonce (h : list byte) (ss : list Signer) : G := gsum (map (nonce_point h ss) ss).
  (** the challenge of the session under the group key *)
  Definition session_chal (h : list byte) (gk : G) (ss : list Signer) : F := chal (group_nonce h ss) gk h.
  (** the scalar a partial signature has to be: nonces (d, e), key x of index i *)
  Definition partial_value (h : list byte) (gk : G) (ss : list Signer) (i : u32) (d e x : F) : F :=
    (d + e * binding h ss i + weight i (map sg_index ss) * x * session_chal h gk ss)%F.
  (** the public check of the partial signature z of signer s with public key pk *)
  Definition partial_ok (h : list byte) (gk : G) (ss : list Signer) (s : Signer) (pk : G) (z : F) : Prop :=
    (gen * z)%G = (nonce_point h ss s + pk * (session_chal h gk ss * weight (sg_index s) (map sg_index ss))%F)%G.

  (** the published form of a nonce pair *)
  Definition published (c : CommitmentShare) : G * G :=
    ((gen * co_secret (cs_hiding c))%G, (gen * co_secret (cs_binding c))%G).
  (** the commitments of a pair belong to its secrets *)
  Definition consistent (c : CommitmentShare) : Prop :=
    co_commit (cs_hiding c) = (gen * co_secret (cs_hiding c))%G /\
    co_commit (cs_binding c) = (gen * co_secret (cs_binding c))%G.

  (** successive random byte strings of the hash length *)
  Inductive draws : Rng -> list (list byte) -> Rng -> Prop :=
  | dr_nil r : draws r [] r
  | dr_cons r b r1 bs r2 : rand_bytes hash_len r = (b, r1) -> draws r1 bs r2 -> draws r (b :: bs) r2.
  (** the nonce derived from random bytes and the signing key *)
  Definition nonce_from (k : SigningKey) (b : list byte) : F := h3 (b ++ u32_le (sk_index k) ++ enc_scalar (sk_key k)).
  (** every two strings give one pair *)
  Inductive paired (k : SigningKey) : list (list byte) -> list CommitmentShare -> Prop :=
  | pd_nil : paired k [] []
  | pd_cons b1 b2 bs c cs : co_secret (cs_hiding c) = nonce_from k b1 -> co_secret (cs_binding c) = nonce_from k b2 ->
      paired k bs cs -> paired k (b1 :: b2 :: bs) (c :: cs).

  (** ** histories of sign calls on one secret list: pairs used by the successful calls (with the
      signatures produced) and the list left *)
  Record Use := MkUse {
    us_key : SigningKey; us_hash : list byte; us_gk : G; us_signers : list Signer;
    us_pair : CommitmentShare; us_sig : PartialSig }.
  Inductive signings (m : build) : list CommitmentShare -> list Use -> list CommitmentShare -> Prop :=
  | sgs_nil l : signings m l [] l
  | sgs_ok l k h gk idx ss p l1 cs us l2 :
      sign m k h gk (MkSecList l) idx ss = (Ok p, MkSecList l1) -> nth_error l (N.to_nat idx) = Some cs ->
      signings m l1 us l2 -> signings m l (MkUse k h gk ss cs p :: us) l2
  | sgs_failed l k h gk idx ss o l1 us l2 :
      sign m k h gk (MkSecList l) idx ss = (o, MkSecList l1) -> (forall p, o <> Ok p) ->
      signings m l1 us l2 -> signings m l us l2.

  (** ** histories of aggregator calls *)
  Inductive ACall := CInc (i : u32) (com : G * G) (pk : VerifyingKey) | CPart (p : PartialSig).
  Definition trace := list (ACall * result unit).
  Inductive agg_run : AggInitial -> trace -> AggInitial -> Prop :=
  | ag_nil a : agg_run a [] a
  | ag_inc a i com pk o a1 tr a2 : include_signer a i com pk = (o, a1) -> agg_run a1 tr a2 ->
      agg_run a ((CInc i com pk, o) :: tr) a2
  | ag_part a p tr a2 : agg_run (include_partial_signature a p) tr a2 ->
      agg_run a ((CPart p, Ok tt) :: tr) a2.

  (** an inclusion of index i that passes the index check *)
  Definition includes (i : u32) (e : ACall * result unit) : Prop :=
    exists com pk, fst e = CInc i com pk /\ vk_index pk = i.
  (** com is the pair given with the first such inclusion of i *)
  Definition first_pair (tr : trace) (i : u32) (com : G * G) : Prop :=
    exists l1 P o l2, tr = l1 ++ (CInc i com (MkVK i P), o) :: l2 /\ forall e, In e l1 -> ~ includes i e.
  (** P is the public key given with the last accepted inclusion of i *)
  Definition last_key (tr : trace) (i : u32) (P : G) : Prop :=
    exists l1 com l2, tr = l1 ++ (CInc i com (MkVK i P), Ok tt) :: l2 /\
      forall com' pk', ~ In (CInc i com' pk', Ok tt) l2.
  (** z is the last partial signature given for i *)
  Definition last_partial (tr : trace) (i : u32) (z : F) : Prop :=
    exists l1 l2, tr = l1 ++ (CPart (MkPSig i z), Ok tt) :: l2 /\ forall z' o, ~ In (CPart (MkPSig i z'), o) l2.
  (** the indices included so far are exactly those of L, each once *)
  Definition included (tr : trace) (L : list u32) : Prop :=
    NoDup L /\ forall i, In i L <-> exists e, In e tr /\ includes i e.

  (** indices announced, and indices with a partial signature, in a list of calls *)
  Definition inc_of (c : ACall) : list u32 := match c with CInc i _ _ => [i] | CPart _ => [] end.
  Definition part_of (c : ACall) : list u32 := match c with CInc _ _ _ => [] | CPart p => [ps_index p] end.

  (** strictly increasing list of indices *)
  Definition ascending (l : list u32) : Prop := StronglySorted (fun a b => (u32v a < u32v b)%N) l.

  (** ** a signing session of honest signers *)
  (** a signer: key, its nonce list and the position it uses, and the pair found there *)
  Record Cosigner := MkCo { q_key : SigningKey; q_list : SecretList; q_pos : N; q_pair : CommitmentShare }.
  Definition cosigner_ok (q : Cosigner) : Prop :=
    (q_pos q + 1 < 18446744073709551616)%N /\
    nth_error (sl_commitments (q_list q)) (N.to_nat (q_pos q)) = Some (q_pair q).
  Definition as_signer (q : Cosigner) : Signer := MkSigner (sk_index (q_key q)) (published (q_pair q)).
  (** the calls announcing the signers, all accepted *)
  Definition announce (qs : list Cosigner) : trace :=
    map (fun q => (CInc (sk_index (q_key q)) (published (q_pair q))
                     (MkVK (sk_index (q_key q)) (gen * sk_key (q_key q))%G), Ok tt)) qs.
  (** the partial signatures made by the signers for the list ss *)
  Definition signed (m : build) (h : list byte) (gk : G) (ss : list Signer) (qs : list Cosigner) (ps : list PartialSig) : Prop :=
    Forall2 (fun q p => fst (sign m (q_key q) h gk (q_list q) (q_pos q) ss) = Ok p) qs ps.
  Definition deliver (ps : list PartialSig) : trace := map (fun p => (CPart p, Ok tt)) ps.
End SpecSign.
