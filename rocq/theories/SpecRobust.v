(** Specification vocabulary for runs with misbehaving dealers. Nothing is assumed of the dealers: their
    commitments are arbitrary non-empty lists of points and their encrypted shares arbitrary bytes. *)
From Coq Require Import String Strings.Byte Arith NArith Bool List Permutation.
From Verif Require Import Base Suite Spec SpecDkg Types ModelDkg.
Import ListNotations.

Section SpecRobust.
  Context {S : Suite}.

  (** a participant that follows the protocol in round two: its state after round one, the shares it received,
      its randomness, the state and complaints it obtained, and the complaints it settles afterwards *)
  Record Follower := MkFollower {
    h_st : DkgState; h_es : list EncShare; h_r : Rng;
    h_s2 : RoundTwo; h_cs : list Complaint; h_r' : Rng; h_settles : list Complaint }.

  (** it has the common view of round one, received at least one share from every retained dealer and only
      shares of retained dealers addressed to itself, and round two succeeded *)
  Record follows (m : build) (params : Params) (dhs : bmap G) (comms : bmap Vss) (h : Follower) : Prop := {
    fo_params : ds_params (h_st h) = params;
    fo_dhs : ds_dhs (h_st h) = dhs;
    fo_comms : ds_comms (h_st h) = Some comms;
    fo_mine : forall e, In e (h_es h) -> es_receiver e = ds_index (h_st h) /\ In (es_sender e) (bkeys comms);
    fo_all : forall j, In j (bkeys comms) -> exists e, In e (h_es h) /\ es_sender e = j;
    fo_run : to_round_two m (R1 (h_st h)) (h_es h) (h_r h) = Ok (h_s2 h, h_cs h, h_r' h) }.

  (** all followers settle the same set of complaints, which contains their own *)
  Definition settle_together (hs : list Follower) (all : list Complaint) : Prop :=
    forall h, In h hs -> (forall c, In c (h_settles h) <-> In c all) /\ (forall c, In c (h_cs h) -> In c all).

  (** h ends with the commitments comms', the group key gk and the signing key sk *)
  Definition ends (h : Follower) (keys : list G) (comms' : bmap Vss) (gk : G) (sk : SigningKey) : Prop :=
    exists s3, blame (h_s2 h) (h_settles h) = Ok (keys, s3) /\ ds_comms (st2 s3) = Some comms' /\
      finish s3 = Ok (gk, sk) /\ sk_index sk = ds_index (h_st h).

  (** ** changing the index written inside a commitment *)
  (** the commitment published by participant j relabelled to f j; nothing else changes *)
  Definition relabel_vss (f : u32 -> u32) (j : u32) (c : Vss) : Vss := MkVss (f j) (vss_points c).
  Definition relabel_part (f : u32 -> u32) (p : Participant) : Participant :=
    MkPart (pt_index p) (pt_dh_pk p) (option_map (relabel_vss f (pt_index p)) (pt_comm p)) (pt_sk_proof p) (pt_dh_proof p).
  Definition relabel_map (f : u32 -> u32) (m : bmap Vss) : bmap Vss :=
    map (fun jc => (fst jc, relabel_vss f (fst jc) (snd jc))) m.
  Definition relabel_state (f : u32 -> u32) (st : DkgState) : DkgState :=
    MkState (ds_params st) (ds_index st) (ds_dh_sk st) (ds_dh_pk st) (option_map (relabel_map f) (ds_comms st))
      (ds_dhs st) (ds_enc st) (ds_shares st).
  Definition relabel_list (f : u32 -> u32) (l : PartList) : PartList :=
    MkPList (map (relabel_part f) (pl_valid l)) (pl_mis l).
  (** the same outcome, the value changed by g *)
  Definition rmap {A B} (g : A -> B) (x : result A) : result B :=
    match x with Ok a => Ok (g a) | Err e => Err e | Panic => Panic end.
End SpecRobust.
