(** Vocabulary for the life of a key: one key generation, then any number of resharings. *)
From Coq Require Import String Strings.Byte Arith NArith Bool List Permutation.
From Verif Require Import Base Suite Spec SpecDkg SpecSign SpecRobust SpecEnd Types ModelDkg ModelSign PropsHandover.
Import ListNotations.

Section SpecLife.
  Context {S : Suite}.

  (** what is known after a key generation or resharing: the group key, the number of signers needed, everybody's
      verifying key (from the retained commitments, by index), and which signing keys were handed out *)
  Record Epoch := MkEpoch { ep_gk : G; ep_t : nat; ep_book : u32 -> G; ep_holds : SigningKey -> Prop }.

  (** verifying keys as computed from commitments *)
  Definition book_of (comms : bmap Vss) (i : u32) : G := dealt_point comms (of_u32 i).
  (** the signing keys with which members of hs ended *)
  Definition held (hs : list Follower) (keys : list G) (comms : bmap Vss) (gk : G) (sk : SigningKey) : Prop :=
    exists h, In h hs /\ ends h keys comms gk sk.
  (** what the callers check of a dealer in a resharing: it commits to its current verifying key, with at most t points *)
  Definition continues (e : Epoch) (t : nat) (p : Participant) : Prop :=
    exists c rest, pt_comm p = Some c /\ vss_points c = ep_book e (pt_index p) :: rest /\ length (vss_points c) <= t.

  (** a key generation on a published list ps: the participants hs follow the protocol, the others do as they like *)
  Record generation (m : build) (params : Params) (ps : list Participant) (hs : list Follower) (all : list Complaint) : Prop := {
    gn_indices : good_indices (map pt_index ps);
    gn_bound : forall valid mis, splits (ok_bootstrap (p_t params)) ps valid mis ->
      forall h c, In h hs -> In c (h_cs h) -> (u32v (accused c) <= N.of_nat (length valid))%N;
    gn_follow : forall h, In h hs -> takes_part m params ps h;
    gn_some : hs <> [];
    gn_settle : settle_together hs all }.
  (** a resharing of epoch e to the new signers hs with threshold t: the accepted dealers pass the check, and as many
      of them as the old threshold asks for are not convicted *)
  Record resharing (m : build) (e : Epoch) (params : Params) (t : nat) (ps : list Participant) (hs : list Follower) (all : list Complaint) : Prop := {
    rs_indices : good_indices (map pt_index ps);
    rs_bound : forall valid mis, splits ok_new ps valid mis ->
      forall h c, In h hs -> In c (h_cs h) -> (u32v (accused c) <= N.of_nat (length valid))%N;
    rs_follow : forall h, In h hs -> receives m params ps h;
    rs_some : hs <> [];
    rs_settle : settle_together hs all;
    rs_threshold : 1 <= t;
    rs_check : forall q, In q ps -> ok_new q -> continues e t q;
    rs_kept : exists kept, NoDup kept /\ ep_t e <= length kept /\
      forall j, In j kept -> (exists q, In q ps /\ ok_new q /\ pt_index q = j) /\ forall h, In h hs -> ~ convicted (h_st h) all j }.

  (** epoch e arose from some key generation, with the values one of the followers ended with *)
  Inductive born (m : build) : Epoch -> Prop :=
  | born_by params ps hs all h keys comms gk sk :
      generation m params ps hs all -> In h hs -> ends h keys comms gk sk ->
      born m (MkEpoch gk (N.to_nat (u32v (p_t params))) (book_of comms) (held hs keys comms gk)).
  (** epoch e' arose from e by a resharing, with the values one of the new signers ended with *)
  Inductive next (m : build) (e : Epoch) : Epoch -> Prop :=
  | next_by params t ps hs all h keys comms gk sk :
      resharing m e params t ps hs all -> In h hs -> ends h keys comms gk sk ->
      next m e (MkEpoch gk t (book_of comms) (held hs keys comms gk)).
  (** any number of resharings *)
  Inductive later (m : build) (e : Epoch) : Epoch -> Prop :=
  | later_now : later m e e
  | later_next e1 e2 : later m e e1 -> next m e1 e2 -> later m e e2.
End SpecLife.
