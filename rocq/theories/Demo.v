(** Concrete data over the Toy suite used by the examples and counterexamples (tests, not proofs),
    and boolean checks of the hypotheses "distinct" and "admissible". *)
From Coq Require Import String Strings.Byte Arith NArith ZArith Bool List Lia.
From Verif Require Import Base Suite Spec Types Algebra BaseLemmas Toy.
Import ListNotations.

#[export] Existing Instance Toy.

Definition u (n : N) : u32 := u32_of_N n.

Fixpoint nodupb (l : list u32) : bool :=
  match l with [] => true | x :: l' => negb (existsb (u32_eqb x) l') && nodupb l' end.
Lemma nodupb_sound l : nodupb l = true -> NoDup l.
Proof.
  induction l as [|x l IH]; cbn; intros H; constructor; apply andb_prop in H; destruct H as [H1 H2].
  - intros Hin. apply negb_true_iff in H1.
    assert (existsb (u32_eqb x) l = true) by (apply existsb_exists; exists x; split; [exact Hin|apply u32_eqb_refl]).
    congruence.
  - apply IH, H2.
Qed.
Definition good_indicesb (l : list u32) : bool := nodupb l && negb (existsb (u32_eqb u32_zero) l).
Lemma good_indicesb_sound l : good_indicesb l = true -> good_indices l.
Proof.
  unfold good_indicesb. intros H. apply andb_prop in H. destruct H as [H1 H2]. split.
  - apply nodupb_sound, H1.
  - intros Hin. apply negb_true_iff in H2.
    assert (existsb (u32_eqb u32_zero) l = true) by (apply existsb_exists; exists u32_zero; split; [exact Hin|apply u32_eqb_refl]).
    congruence.
Qed.
Ltac good := apply good_indicesb_sound; vm_compute; reflexivity.
Ltac nodup := apply nodupb_sound; vm_compute; reflexivity.

(** closed equations by evaluation (the normal form of the suite itself is never computed) *)
Ltac vmr := match goal with |- ?a = ?b => vm_cast_no_check (@eq_refl _ b) end.
Ltac vms := cbv zeta; repeat match goal with |- _ /\ _ => split end; vmr.
