(** Vocabulary for key generation followed by any number of resharings, seen as dealings of polynomials, and for an
    adversary that corrupts other participants in every epoch. *)
From Coq Require Import NArith List.
From Verif Require Import Base Suite Spec.
Import ListNotations.

Section SpecEpoch.
  Context {S : Suite}.
  (** a dealer and the coefficients it dealt, constant term first *)
  Record Deal := MkDeal { dl_from : u32; dl_co : list F }.
  (** an epoch: the threshold of the keys it creates, and the dealings that create them *)
  Record Epoch := MkEpoch { ep_t : nat; ep_deals : list Deal }.
  (** the key of participant i after the epoch, and the secret shared by the keys *)
  Definition key_of (e : Epoch) (i : u32) : F :=
    interp0 (map (fun d => (dl_from d, poly_value (dl_co d) (of_u32 i))) (ep_deals e)).
  Definition secret_of (e : Epoch) : F :=
    interp0 (map (fun d => (dl_from d, poly_value (dl_co d) F0)) (ep_deals e)).
  Record well_dealt (e : Epoch) : Prop := {
    wd_positive : 1 <= ep_t e;
    wd_dealers : good_indices (map dl_from (ep_deals e));
    wd_length : forall d, In d (ep_deals e) -> length (dl_co d) = ep_t e }.
  (** next reshares the keys of e: enough participants of e deal, each its own key *)
  Definition follows (e next : Epoch) : Prop :=
    ep_t e <= length (ep_deals next) /\
    forall d, In d (ep_deals next) -> hd_error (dl_co d) = Some (key_of e (dl_from d)).
  Fixpoint chain (e : Epoch) (es : list Epoch) : Prop :=
    match es with [] => True | n :: es' => well_dealt n /\ follows e n /\ chain n es' end.

  (** an adversary that sees everything the dealers in B deal, everything dealt to A, and the resulting keys of A,
      cannot tell e' from e *)
  Record looks_same (B A : list u32) (e e' : Epoch) : Prop := {
    ls_t : ep_t e' = ep_t e;
    ls_deals : Forall2 (fun d d' => dl_from d' = dl_from d /\ (In (dl_from d) B -> dl_co d' = dl_co d) /\
      forall i, In i A -> poly_value (dl_co d') (of_u32 i) = poly_value (dl_co d) (of_u32 i)) (ep_deals e) (ep_deals e');
    ls_keys : forall i, In i A -> key_of e' i = key_of e i }.
  (** the same for all epochs: B corrupted when the first one is dealt, then A1, A2, ... after each epoch; whoever is
      corrupted after an epoch is so during the next dealing *)
  Inductive same_views : list u32 -> list (list u32) -> list Epoch -> list Epoch -> Prop :=
  | sv_nil B : same_views B [] [] []
  | sv_cons B A As e es e' es' : looks_same B A e e' -> same_views A As es es' ->
      same_views B (A :: As) (e :: es) (e' :: es').
  (** fewer participants corrupted in every epoch than its threshold *)
  Definition few (As : list (list u32)) (es : list Epoch) : Prop :=
    Forall2 (fun A e => good_indices A /\ length A < ep_t e) As es.
End SpecEpoch.
