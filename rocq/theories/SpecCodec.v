(** Vocabulary for the statements about serialization. *)
From Coq Require Import String Strings.Byte NArith Bool List Sorted.
From Verif Require Import Base Suite Spec SpecDkg SpecSign Types ModelDkg ModelSign ModelCodec.
Import ListNotations.

(** ** what every value of the Rust types satisfies: vectors shorter than 2^64, maps ordered by key *)
Definition fits {A} (l : list A) : Prop := (N.of_nat (length l) < 18446744073709551616)%N.
Definition real_map {V} (R : V -> Prop) (m : bmap V) : Prop :=
  ascending (map fst m) /\ forall k v, In (k, v) m -> R v.
Definition real_option {A} (R : A -> Prop) (o : option A) : Prop := forall a, o = Some a -> R a.
Definition real_vec {A} (R : A -> Prop) (l : list A) : Prop := fits l /\ forall a, In a l -> R a.
Definition any {A} (x : A) : Prop := True.

Section SpecCodec.
  Context {S : Suite}.
  Definition real_vss (c : Vss) : Prop := fits (vss_points c).
  Definition real_enc (e : EncShare) : Prop := fits (nonce_bytes (es_nonce e)) /\ fits (es_ct e).
  Definition real_complaint (c : Complaint) : Prop := real_enc (c_share c).
  Definition real_participant (p : Participant) : Prop := real_option real_vss (pt_comm p).
  Definition real_part_list (l : PartList) : Prop :=
    real_vec real_participant (pl_valid l) /\ real_option fits (pl_mis l).
  Record real_state (s : DkgState) : Prop := {
    re_comms : real_option (real_map real_vss) (ds_comms s);
    re_dhs : real_map any (ds_dhs s);
    re_enc : real_option (real_map real_enc) (ds_enc s);
    re_shares : real_option (real_map any) (ds_shares s) }.

  (** writing succeeds; reading what was written gives the value back, whatever follows; and what was
      written, with whatever follows, tells values apart *)
  Definition round_trips {A} (R : A -> Prop) (ser : A -> list byte) (d : decoder A) : Prop :=
    forall v, R v -> exists b, to_bytes ser v = Ok b /\
      (forall junk, from_bytes d (b ++ junk) = Ok v) /\
      (forall v' b' junk junk', R v' -> to_bytes ser v' = Ok b' -> b ++ junk = b' ++ junk' -> v = v' /\ b = b' /\ junk = junk').

  (** whatever is read without leftover was written *)
  Definition canonical {A} (ser : A -> list byte) (d : decoder A) : Prop :=
    forall bs v rest, d bs = Some (v, rest) -> bs = ser v ++ rest.

  (** ** a participant's session: calls, outcomes, and interruptions *)
  Inductive Sess := S1 (s : RoundOne) | S2 (s : RoundTwo).
  Inductive Event :=
  | ERoundTwo (es : list EncShare) (r : Rng)  (** the call of to_round_two *)
  | EBlame (cs : list Complaint)              (** a call of blame *)
  | ERestart.                                 (** to_bytes, loss of the value, from_bytes *)
  Inductive Outcome := OComplaints (cs : list Complaint) (r : Rng) | OBlamed (ks : list G) | ORestarted.
  (** the call sequence is enforced by the types: no other call is possible *)
  Definition event (m : build) (s : Sess) (e : Event) : result (Outcome * Sess) :=
    match s, e with
    | S1 s, ERoundTwo es r => let* (s', cs, r') := to_round_two m s es r in Ok (OComplaints cs r', S2 s')
    | S2 s, EBlame cs => let* (ks, s') := blame s cs in Ok (OBlamed ks, S2 s')
    | S1 s, ERestart => let* b := to_bytes ser_round_one s in let* s' := from_bytes de_round_one b in Ok (ORestarted, S1 s')
    | S2 s, ERestart => let* b := to_bytes ser_round_two s in let* s' := from_bytes de_round_two b in Ok (ORestarted, S2 s')
    | _, _ => Panic
    end.
  (** outcomes of a sequence of events up to the first failure, and the final state *)
  Fixpoint events (m : build) (s : Sess) (l : list Event) : list Outcome * result Sess :=
    match l with
    | [] => ([], Ok s)
    | e :: l' =>
        match event m s e with
        | Ok (o, s') => let (os, f) := events m s' l' in (o :: os, f)
        | Err x => ([], Err x)
        | Panic => ([], Panic)
        end
    end.
  Definition is_restart (e : Event) : bool := match e with ERestart => true | _ => false end.
  Definition restarted (o : Outcome) : bool := match o with ORestarted => true | _ => false end.
End SpecCodec.
