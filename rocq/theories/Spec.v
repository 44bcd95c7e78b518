(** Mathematical vocabulary for the statements, written without reference to the model:
    sums, products, powers, values of polynomials, Lagrange weights, interpolation at zero. *)
From Coq Require Import NArith Bool List.
From Verif Require Import Base Suite.
Import ListNotations.

Section Spec.
  Context {S : Suite}.

  (** finite sums and products of scalars, finite sums of points *)
  Fixpoint fsum (l : list F) : F := match l with [] => F0 | x :: l' => (x + fsum l')%F end.
  Fixpoint fprod (l : list F) : F := match l with [] => F1 | x :: l' => (x * fprod l')%F end.
  Fixpoint gsum (l : list G) : G := match l with [] => Gzero | x :: l' => (x + gsum l')%G end.

  Fixpoint fpow (x : F) (k : nat) : F :=
    match k with O => F1 | Datatypes.S k' => (x * fpow x k')%F end.

  (** sum_k a_k x^(k0+k) *)
  Fixpoint terms_from (k0 : nat) (a : list F) (x : F) : F :=
    match a with
    | [] => F0
    | c :: a' => (c * fpow x k0 + terms_from (Datatypes.S k0) a' x)%F
    end.

  (** value at x of the polynomial with coefficients a_0, a_1, ... *)
  Definition poly_value (a : list F) (x : F) : F := terms_from 0 a x.

  (** the same "in the exponent": sum_k x^k * P_k *)
  Fixpoint gterms_from (k0 : nat) (a : list G) (x : F) : G :=
    match a with
    | [] => Gzero
    | c :: a' => (c * fpow x k0 + gterms_from (Datatypes.S k0) a' x)%G
    end.
  Definition gpoly_value (a : list G) (x : F) : G := gterms_from 0 a x.

  (** commitment of a coefficient vector: g*a_0, g*a_1, ... *)
  Definition committed (a : list F) : list G := map (fun c => (gen * c)%G) a.

  (** the elements of L other than i *)
  Definition others (i : u32) (L : list u32) : list u32 :=
    filter (fun j => negb (u32_eqb j i)) L.

  (** Lagrange weight at zero: prod_{j<>i} j / (j - i) *)
  Definition weight (i : u32) (L : list u32) : F :=
    (fprod (map of_u32 (others i L)) *
     Finv (fprod (map (fun j => of_u32 j - of_u32 i)%F (others i L))))%F.

  (** value at zero of the interpolation through (i, v_i), and the same for points *)
  Definition interp0 (pts : list (u32 * F)) : F :=
    fsum (map (fun iv => (snd iv * weight (fst iv) (map fst pts))%F) pts).
  Definition ginterp0 (pts : list (u32 * G)) : G :=
    gsum (map (fun iv => (snd iv * weight (fst iv) (map fst pts))%G) pts).

  (** an admissible list of participant indices: distinct and non-zero *)
  Definition good_indices (L : list u32) : Prop := NoDup L /\ ~ In u32_zero L.
End Spec.
