(** Vocabulary for C135: the whole life of a group key. Generations of signers follow each other: each one got its keys in a
    key generation or resharing as in SpecWorld, from dealers that held the keys of the generation before. *)
From Coq Require Import String Strings.Byte Arith NArith Bool List Permutation.
From Verif Require Import Base Suite Spec SpecDkg SpecSign SpecCodec SpecRobust SpecEnd SpecWorld SpecHall Types ModelDkg ModelSign ModelCodec.
Import ListNotations.

Section SpecEra.
  Context {S : Suite}.

  (** the keys ks, under distinct non-zero indices, were obtained in the execution w by users who were served *)
  Definition obtained (w : World) (valid : list Participant) (gk : G) (ks : list SigningKey) : Prop :=
    good_indices (map sk_index ks) /\
    forall k, In k ks -> exists h keys s, In (Done h keys s gk k) (w_nodes w) /\ served valid h.
  (** every accepted dealer holds one of the keys ks, with which its commitment starts, and shares it with threshold t *)
  Definition deals_old_keys (ks : list SigningKey) (t : nat) (valid : list Participant) : Prop :=
    forall q, In q valid -> exists k c rest, In k ks /\ sk_index k = pt_index q /\ pt_comm q = Some c /\
      vss_points c = (gen * sk_key k)%G :: rest /\ length (vss_points c) <= t.
  (** at least t accepted dealers are not removed because of complaints *)
  Definition enough_remain (t : nat) (w : World) (valid : list Participant) : Prop :=
    exists kept, NoDup kept /\ incl kept (map pt_index valid) /\ t <= length kept /\ forall j, In j kept -> ~ removed valid (w_box w) j.

  (** [lineage m gk0 t gk ks]: after a key generation with group key gk0 and any number of resharings, the signers of the last
      generation hold the keys ks with threshold t and were told the group key gk *)
  Inductive lineage (m : build) (gk0 : G) : nat -> G -> list SigningKey -> Prop :=
  | ln_generated params w valid ks : reachable true m params w -> accepted true params w valid ->
      (1 <= u32v (p_t params))%N -> ks <> [] -> obtained w valid gk0 ks -> lineage m gk0 (N.to_nat (u32v (p_t params))) gk0 ks
  | ln_reshared t gk ks params w valid t' gk' ks' : lineage m gk0 t gk ks ->
      reachable false m params w -> accepted false params w valid ->
      1 <= t' -> deals_old_keys ks t' valid -> enough_remain t w valid -> ks' <> [] -> obtained w valid gk' ks' -> lineage m gk0 t' gk' ks'.
End SpecEra.
