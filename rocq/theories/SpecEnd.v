(** Vocabulary for statements about complete runs: key generation from the published list on, and repeated
    signing attempts with misbehaving signers. *)
From Coq Require Import String Strings.Byte Arith NArith Bool List Permutation.
From Verif Require Import Base Suite Spec SpecDkg SpecSign SpecRobust Types ModelDkg ModelSign.
Import ListNotations.

Section SpecEnd.
  Context {S : Suite}.

  (** ** key generation *)

  (** h ran bootstrap on the list ps, in its own order *)
  Definition begins (m : build) (params : Params) (ps : list Participant) (h : Follower) : Prop :=
    exists x my co ps' r l q, Permutation ps ps' /\ bootstrap m params x my co ps' r = Ok (R1 (h_st h), l, q).
  (** in round two it passes only shares addressed to itself, at least one of every accepted dealer *)
  Record takes_part (m : build) (params : Params) (ps : list Participant) (h : Follower) : Prop := {
    tp_begins : begins m params ps h;
    tp_mine : forall e, In e (h_es h) -> es_receiver e = ds_index (h_st h);
    tp_all : forall p, In p ps -> ok_bootstrap (p_t params) p -> exists e, In e (h_es h) /\ es_sender e = pt_index p;
    tp_run : to_round_two m (R1 (h_st h)) (h_es h) (h_r h) = Ok (h_s2 h, h_cs h, h_r' h) }.

  (** ** signing attempts *)

  (** public keys such that those of any t distinct participants among [all] interpolate to the group key *)
  Definition key_book (t : nat) (gk : G) (all : list u32) (book : u32 -> G) : Prop :=
    forall sub, NoDup sub -> incl sub all -> t <= length sub -> ginterp0 (map (fun i => (i, book i)) sub) = gk.
  (** the coordinator included exactly the signers of L, each with its key from the book; the pairs and the
      partial signatures are whatever arrived, in any order and any number *)
  Record attempt (p : Params) (gk : G) (msg : list byte) (book : u32 -> G) (L : list u32) (tr : trace) (a : AggInitial) : Prop := {
    at_run : agg_run (agg_new p gk msg) tr a;
    at_signers : forall i, In i L <-> exists com, first_pair tr i com;
    at_keys : forall i, In i L -> last_key tr i (book i) }.
  (** what the coordinator gets *)
  Definition outcome (a : AggInitial) : result ThresholdSig := let* f := finalize a in aggregate f.
  (** signer i followed the protocol: its published pair and its partial signature for this session were recorded *)
  Definition cooperates (m : build) (gk : G) (msg : list byte) (book : u32 -> G) (tr : trace) (a : AggInitial) (i : u32) : Prop :=
    exists k l pos cs q l', sk_index k = i /\ (gen * sk_key k)%G = book i /\
      sign m k (h4 msg) gk l pos (ag_signers (ai_state a)) = (Ok q, l') /\
      nth_error (sl_commitments l) (N.to_nat pos) = Some cs /\
      first_pair tr i (published cs) /\ last_partial tr i (ps_z q).
  (** an attempt in which at least the signers in H follow the protocol *)
  Definition honest_attempt (m : build) (p : Params) (gk : G) (msg : list byte) (book : u32 -> G) (H L : list u32) (a : AggInitial) : Prop :=
    exists tr, attempt p gk msg book L tr a /\ forall i, In i H -> cooperates m gk msg book tr a i.
  (** k failed attempts, each followed by a new one without the signers named in the error; from L to L' *)
  Inductive retries (m : build) (p : Params) (gk : G) (msg : list byte) (book : u32 -> G) (H : list u32) : list u32 -> nat -> list u32 -> Prop :=
  | rt_start L : retries m p gk msg book H L 0 L
  | rt_again L a bad L1 k L2 :
      honest_attempt m p gk msg book H L a -> outcome a = Err (MisbehavingParticipants bad) ->
      NoDup L1 -> (forall i, In i L1 <-> In i L /\ ~ In i bad) ->
      retries m p gk msg book H L1 k L2 -> retries m p gk msg book H L (Datatypes.S k) L2.
End SpecEnd.
