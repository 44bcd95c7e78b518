(** Concrete cases for theorems of C21 and C34 (PropsFinish.v, PropsReshare.v) that have no example beside them. *)
From Coq Require Import String Strings.Byte Arith NArith ZArith Bool List Permutation Lia.
From Verif Require Import Base Suite Spec SpecDkg Types ModelDkg Algebra BaseLemmas LemmasShare LemmasFinish
  Toy Demo DemoDkg PropsShare PropsFinish PropsReshare.
Import ListNotations.

(** participant 3 of three holds the shares of 1 and 3 only *)
Definition case_vss (i : N) (a b : Z) : @Vss Toy := MkVss (u i) (committed (S := Toy) [mk a; mk b]).
Definition case_comms : bmap (@Vss Toy) := [(u 1, case_vss 1 3 7); (u 2, case_vss 2 4 5); (u 3, case_vss 3 6 1)].
Definition case_shares : bmap (@SecretShare Toy) := [(u 1, @MkShare Toy (u 1) (u 3) (mk 24%Z)); (u 3, @MkShare Toy (u 3) (u 3) (mk 9%Z))].
Definition case_state : @DkgState Toy :=
  @MkState Toy demo_params (u 3) (mk 8%Z) (mk 56%Z) (Some case_comms) [] None (Some case_shares).
Example C21_ex :
  good_indices (bkeys case_comms) /\ NoDup (bkeys case_shares) /\
  (forall j c, bget j case_comms = Some c -> vss_index c = j /\ vss_points c <> []) /\
  (forall j s, bget j case_shares = Some s -> exists c, bget j case_comms = Some c /\ on_commitment c (ds_index case_state) (sh_value s)) /\
  map fst (filter (fun jc => existsb (u32_eqb (fst jc)) (bkeys case_shares)) case_comms) = [u 1; u 3] /\
  exists gk sk,
    finish (S := Toy) (R2 (MkState demo_params (u 3) (mk 8%Z) (mk 56%Z)
      (Some (filter (fun jc => existsb (u32_eqb (fst jc)) (bkeys case_shares)) case_comms)) [] None (Some case_shares))) = Ok (gk, sk) /\
    ivk_generate (u 3) (map snd (filter (fun jc => existsb (u32_eqb (fst jc)) (bkeys case_shares)) case_comms)) = Ok (to_public sk).
Proof.
  assert (H1 : good_indices (bkeys case_comms)) by (cbn [bkeys map fst case_comms]; good).
  assert (H2 : NoDup (bkeys case_shares)) by (cbn [bkeys map fst case_shares]; nodup).
  assert (H3 : forall j c, bget j case_comms = Some c -> vss_index c = j /\ vss_points c <> []).
  { intros j c H. apply bget_in in H. destruct H as [H|[H|[H|[]]]]; injection H as <- <-; (split; [reflexivity|discriminate]). }
  assert (H4 : forall j s, bget j case_shares = Some s -> exists c, bget j case_comms = Some c /\ on_commitment c (ds_index case_state) (sh_value s)).
  { intros j s H. apply bget_in in H. destruct H as [H|[H|[]]]; injection H as <- <-.
    - exists (case_vss 1 3 7). split; [vmr|]. unfold on_commitment. vmr.
    - exists (case_vss 3 6 1). split; [vmr|]. unfold on_commitment. vmr. }
  split; [exact H1|]. split; [exact H2|]. split; [exact H3|]. split; [exact H4|]. split; [vmr|].
  exact (C21_removal_restores_agreement Toy ToyLaws case_state case_comms case_shares eq_refl eq_refl H1 H2 H3 H4).
Qed.

(** the key generation of the demo: three valid participants with two points each *)
Example C34_ex : exists r' st lists,
  bootstrap (S := Toy) Debug demo_params (y_x (demo_party 1)) (u 1) (y_co (demo_party 1)) demo_ps 1001%N = Ok (st, lists, r') /\
  length (pl_valid lists) = 3 /\ forall p, In p (pl_valid lists) -> commitment_length 2 p.
Proof.
  destruct (bootstrap (S := Toy) Debug demo_params (y_x (demo_party 1)) (u 1) (y_co (demo_party 1)) demo_ps 1001%N) as [[[st lists] r']|e|] eqn:E.
  2,3: exfalso; assert (X : is_ok (bootstrap (S := Toy) Debug demo_params (y_x (demo_party 1)) (u 1) (y_co (demo_party 1)) demo_ps 1001%N) = true) by vmr; rewrite E in X; discriminate.
  exists r', st, lists. split; [reflexivity|]. split.
  - assert (X : match bootstrap (S := Toy) Debug demo_params (y_x (demo_party 1)) (u 1) (y_co (demo_party 1)) demo_ps 1001%N with Ok (_, l, _) => length (pl_valid l) | _ => 0 end = 3) by vmr.
    rewrite E in X. exact X.
  - exact (C34_bootstrap_fixes_the_degree Toy ToyLaws _ _ _ _ _ _ _ _ _ _ E).
Qed.
