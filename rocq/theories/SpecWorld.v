(** Vocabulary for C133: a whole key generation or resharing as a system of many participants whose calls interleave in
    any order. Two public boards: the list of participants and the complaint box. Everything else that happens between
    the participants, and everything that those who do not use the library do, is arbitrary. *)
From Coq Require Import String Strings.Byte Arith NArith Bool List Permutation.
From Verif Require Import Base Suite Spec SpecDkg SpecSign SpecCodec SpecRobust Types ModelDkg ModelCodec.
Import ListNotations.

Section SpecWorld.
  Context {S : Suite}.

  (** what a user of the library holds: the value returned by the last call. The follower records what it did so far. *)
  Inductive Node :=
  | Begun (s : RoundOne) (valid : list Participant)                (* bootstrap or new returned *)
  | Received (h : Follower)                                        (* to_round_two returned h_s2 h and h_cs h *)
  | Settled (h : Follower) (keys : list G) (s : RoundTwo)          (* blame returned keys and s *)
  | Done (h : Follower) (keys : list G) (s : RoundTwo) (gk : G) (sk : SigningKey)  (* finish returned gk and sk *)
  | Stopped.                                                       (* a call failed, the value is lost *)

  Record World := MkWorld {
    w_list : list Participant; (* published so far *)
    w_fixed : bool;            (* somebody used the list: nobody is added any more *)
    w_box : list Complaint;    (* complaints published so far *)
    w_shut : bool;             (* somebody used the box: nothing is added any more *)
    w_nodes : list Node }.
  Definition empty_world : World := MkWorld [] false [] false [].

  (** the two ways into a key generation: bootstrap when [boot], new (for the receivers of a resharing) otherwise *)
  Definition start (boot : bool) (m : build) (params : Params) (x : F) (my : u32) (co : list F) (ps : list Participant) (r : Rng) :
      result (RoundOne * PartList * Rng) :=
    if boot then bootstrap m params x my co ps r else dkg_new m params x my ps r.
  Definition fine (boot : bool) (params : Params) (p : Participant) : Prop := if boot then ok_bootstrap (p_t params) p else ok_new p.

  (** storing the value and reading it back *)
  Definition restored1 (s : RoundOne) : result RoundOne := let* b := to_bytes ser_round_one s in from_bytes de_round_one b.
  Definition restored2 (s : RoundTwo) : result RoundTwo := let* b := to_bytes ser_round_two s in from_bytes de_round_two b.
  Definition with_s2 (h : Follower) (s : RoundTwo) : Follower := MkFollower (h_st h) (h_es h) (h_r h) s (h_cs h) (h_r' h) (h_settles h).
  Definition with_settled (h : Follower) (cs : list Complaint) : Follower :=
    MkFollower (h_st h) (h_es h) (h_r h) (h_s2 h) (h_cs h) (h_r' h) cs.

  (** one node moves; the box may grow and may be shut *)
  Inductive moves (m : build) (w : World) : Node -> Node -> list Complaint -> bool -> Prop :=
  (* the messages handed to to_round_two are arbitrary; the complaints it returns are published *)
  | mv_receive s v es r s2 cs r' : w_shut w = false -> to_round_two m s es r = Ok (s2, cs, r') ->
      moves m w (Begun s v) (Received (MkFollower (st1 s) es r s2 cs r' [])) (cs ++ w_box w) false
  | mv_refused s v es r : (forall x, to_round_two m s es r <> Ok x) -> moves m w (Begun s v) Stopped (w_box w) (w_shut w)
  (* the complaints handed to blame are those of the box, in any order, any number of times *)
  | mv_settle h cs keys s : (forall c, In c cs <-> In c (w_box w)) -> blame (h_s2 h) cs = Ok (keys, s) ->
      moves m w (Received h) (Settled (with_settled h cs) keys s) (w_box w) true
  | mv_finish h keys s gk sk : finish s = Ok (gk, sk) -> moves m w (Settled h keys s) (Done h keys s gk sk) (w_box w) (w_shut w)
  | mv_unsettled h cs : (forall x, blame (h_s2 h) cs <> Ok x) -> moves m w (Received h) Stopped (w_box w) (w_shut w)
  | mv_unfinished h keys s : (forall x, finish s <> Ok x) -> moves m w (Settled h keys s) Stopped (w_box w) (w_shut w).

  (** restarts: the value is stored and read back *)
  Inductive restarts : Node -> Node -> Prop :=
  | rs_begun s v s' : restored1 s = Ok s' -> restarts (Begun s v) (Begun s' v)
  | rs_received h s' : restored2 (h_s2 h) = Ok s' -> restarts (Received h) (Received (with_s2 h s'))
  | rs_settled h keys s s' : restored2 s = Ok s' -> restarts (Settled h keys s) (Settled h keys s').

  Inductive step (boot : bool) (m : build) (params : Params) (w : World) : World -> Prop :=
  (* anything is published as a participant, under an index that is non-zero and not yet used *)
  | st_publish p : w_fixed w = false -> real_participant p -> pt_index p <> u32_zero -> ~ In (pt_index p) (map pt_index (w_list w)) ->
      step boot m params w (MkWorld (p :: w_list w) false (w_box w) (w_shut w) (w_nodes w))
  (* somebody starts, from the published list in any order; keys, index, polynomial and randomness are arbitrary *)
  | st_enter x my co ps r s l r' : Permutation (w_list w) ps -> start boot m params x my co ps r = Ok (s, l, r') ->
      step boot m params w (MkWorld (w_list w) true (w_box w) (w_shut w) (Begun s (pl_valid l) :: w_nodes w))
  (* anything is published as a complaint *)
  | st_accuse c : w_shut w = false -> step boot m params w (MkWorld (w_list w) (w_fixed w) (c :: w_box w) false (w_nodes w))
  | st_move l1 x y l2 box shut : w_nodes w = l1 ++ x :: l2 -> moves m w x y box shut ->
      step boot m params w (MkWorld (w_list w) (w_fixed w) box shut (l1 ++ y :: l2))
  | st_restart l1 x y l2 : w_nodes w = l1 ++ x :: l2 -> restarts x y ->
      step boot m params w (MkWorld (w_list w) (w_fixed w) (w_box w) (w_shut w) (l1 ++ y :: l2)).
  Inductive steps (boot : bool) (m : build) (params : Params) : World -> World -> Prop :=
  | ss_none w : steps boot m params w w
  | ss_step w w' w'' : steps boot m params w w' -> step boot m params w' w'' -> steps boot m params w w''.
  Definition reachable (boot : bool) (m : build) (params : Params) (w : World) : Prop := steps boot m params empty_world w.

  (** ** what the two boards say, without looking at any node *)

  (** the accepted participants *)
  Definition accepted (boot : bool) (params : Params) (w : World) (valid : list Participant) : Prop :=
    exists mis, splits (fine boot params) (w_list w) valid mis.
  (** the complaint is justified: it accuses an accepted participant whose index is not above the number of accepted ones,
      its proof verifies against the published key, and the share in it does not open to what was committed *)
  Definition justified (valid : list Participant) (c : Complaint) : Prop :=
    (u32v (accused c) <= N.of_nat (length valid))%N /\
    exists p com, In p valid /\ pt_index p = accused c /\ pt_comm p = Some com /\ complaint_verify c (pt_dh_pk p) = Ok tt /\
      ~ exists v, decrypt_share (c_share c) (enc_point (c_shared c)) = Ok (MkShare (accused c) (maker c) v) /\
          on_commitment com (maker c) v.
  (** a justified complaint removes the accused, another one removes its maker *)
  Definition removed (valid : list Participant) (box : list Complaint) (j : u32) : Prop :=
    exists c, In c box /\ ((justified valid c /\ j = accused c) \/ (~ justified valid c /\ j = maker c)).
  (** the commitments that remain *)
  Definition kept_comms (valid : list Participant) (box : list Complaint) (comms : bmap Vss) : Prop :=
    ascending (bkeys comms) /\
    forall j c, bget j comms = Some c <-> exists p, In p valid /\ pt_index p = j /\ pt_comm p = Some c /\ ~ removed valid box j.

  (** the keys reported: those of the accepted participants that are removed, by ascending index *)
  Definition reported (valid : list Participant) (box : list Complaint) (keys : list G) : Prop :=
    exists gone, ascending (map pt_index gone) /\ (forall p, In p gone <-> In p valid /\ removed valid box (pt_index p)) /\
      keys = map pt_dh_pk gone.

  (** x has become y: whoever got through to_round_two has its keys *)
  Definition completes (x y : Node) : Prop :=
    match x with
    | Received h => exists cs keys s gk sk, y = Done (with_settled h cs) keys s gk sk
    | Settled h keys s => exists gk sk, y = Done h keys s gk sk
    | _ => y = x
    end.

  (** it handed over at least one share of every accepted participant, only shares addressed to itself, and does not
      accuse an index above the number of accepted participants *)
  Definition served (valid : list Participant) (h : Follower) : Prop :=
    (forall e, In e (h_es h) -> es_receiver e = ds_index (h_st h)) /\
    (forall p, In p valid -> exists e, In e (h_es h) /\ es_sender e = pt_index p) /\
    (forall c, In c (h_cs h) -> (u32v (accused c) <= N.of_nat (length valid))%N).
End SpecWorld.
