(** What it means for a text to show a value. *)
From Coq Require Import String Ascii List.
From Verif Require Import Base Suite Types ModelDebug.
Import ListNotations.
Local Open Scope string_scope.

(** the first text occurs in full inside the second one *)
Definition shown (piece text : string) : Prop := exists a b, text = a ++ piece ++ b.

(** the characters that can follow a value in a [Debug] text *)
Definition stops : list ascii := [","; ")"; "]"; " "; "}"; ":"]%char.
Definition stop (x : string) : Prop := match x with "" => True | String c _ => In c stops end.

(** texts of a type that can be told apart and found inside a longer text: not empty, not beginning with a closing bracket, and
    followed by a punctuation mark only one value can have been meant. The decimal numbers, Rust's lists and arkworks' texts
    ("BigInt([1, 2])", "(x, y, z)", "infinity") are such texts. *)
Definition legible {A} (f : A -> string) : Prop :=
  (forall a, exists c r, f a = String c r /\ c <> "]"%char /\ c <> "}"%char) /\
  forall a b x y, stop x -> stop y -> f a ++ x = f b ++ y -> a = b /\ x = y.

Definition legible_formats {S : Suite} (fm : Formats) : Prop :=
  legible (fmt_scalar fm) /\ legible (fmt_point fm) /\ legible (fmt_hash fm).
