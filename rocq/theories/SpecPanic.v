(** Specification vocabulary for C73-C74: comparing builds, and sessions driven through the API only. *)
From Coq Require Import NArith List.
From Verif Require Import Base Suite Types Spec SpecDkg ModelDkg.
Import ListNotations.

Section SpecPanic.
  Context {S : Suite}.

  (** the checked outcome is a panic or the same outcome *)
  Definition agrees {A} (debug release : result A) : Prop := debug = Panic \/ debug = release.

  (** s was returned by one of the two functions starting a key generation, valid is the list of
      accepted participants returned with it *)
  Definition begun (valid : list Participant) (s : RoundOne) : Prop :=
    exists m params x my ps r l r', pl_valid l = valid /\
      (dkg_new m params x my ps r = Ok (s, l, r') \/
       exists co, bootstrap m params x my co ps r = Ok (s, l, r')).
  (** s was obtained from such a state by to_round_two and any number of calls of blame *)
  Inductive second_round (valid : list Participant) : RoundTwo -> Prop :=
  | sr_start s1 m es r s cs r' : begun valid s1 -> to_round_two m s1 es r = Ok (s, cs, r') -> second_round valid s
  | sr_blame s cs ks s' : second_round valid s -> blame s cs = Ok (ks, s') -> second_round valid s'.
End SpecPanic.
