(** C90: what fewer than t receivers see of a dealer can be made from its public key alone. *)
From Coq Require Import String Strings.Byte Arith NArith ZArith Bool List Lia Permutation Field.
From Verif Require Import Base Suite Spec SpecDkg SpecSim Types Algebra BaseLemmas ModelDkg LemmasShare LemmasRound1 LemmasRound2
  LemmasFinish Toy Demo DemoDkg PropsShare PropsRound1 PropsReplay PropsSim.
Import ListNotations.

Section SimDealer.
  Context {S : Suite} {L : SuiteLaws S}.
  Add Field F_fld : F_field.

  Lemma through (js : list u32) (t : nat) (s : F) (v : u32 -> F) : good_indices js -> length js < t ->
    exists b, length b = t /\ hd_error b = Some s /\ forall j, In j js -> poly_value b (of_u32 j) = v j.
  Proof.
    intros [Hn H0] Hl. set (l := u32_zero :: js). assert (Hnl : NoDup l) by (constructor; assumption).
    destruct (polyfun_exact t (interp l (fun i => if u32_eqb i u32_zero then s else v i))) as (b & Hb & Hv).
    { apply (polyfun_mono (length l)); [cbn; lia|]. apply interp_polyfun, Hnl. }
    exists b. split; [exact Hb|]. split.
    - assert (E : poly_value b F0 = s).
      { rewrite poly_value_pv, <- Hv, <- of_u32_zero, interp_value; [|exact Hnl|left; reflexivity]. rewrite u32_eqb_refl. reflexivity. }
      rewrite poly_value_0 in E. destruct b; cbn in *; [lia|congruence].
    - intros j Hj. rewrite poly_value_pv, <- Hv, interp_value; [|exact Hnl|right; exact Hj].
      destruct (u32_eqb j u32_zero) eqn:E; [|reflexivity]. apply u32_eqb_spec in E. subst. contradiction.
  Qed.
  (** the points made from a key A *)
  Definition blind (A : G) (ws g : list F) : list G := map (fun wg => (A * fst wg + gen * snd wg)%G) (combine ws g).
  Lemma blind_length A ws g : length ws = length g -> length (blind A ws g) = length g.
  Proof. intros H. unfold blind. rewrite map_length, combine_length, H. lia. Qed.
  Lemma blind_hd A ws g : hd_error ws = Some F1 -> hd_error g = Some F0 -> blind A ws g = A :: tl (blind A ws g).
  Proof.
    unfold blind. destruct ws as [|w ws]; [discriminate|]. destruct g as [|y g]; [discriminate|]. cbn. intros E1 E2.
    injection E1 as ->. injection E2 as ->. f_equal. rewrite Gmul_1, gen_mul_0, Gadd_0_r. reflexivity.
  Qed.
  Lemma blind_share A ws g i j v : length ws = length g -> poly_value ws (of_u32 j) = F0 -> poly_value g (of_u32 j) = v ->
    share_verify (MkShare i j v) (MkVss i (blind A ws g)) = Ok tt.
  Proof.
    intros Hl Hw Hg. destruct (dlog_list (blind A ws g)) as [b Hb]. rewrite Hb. apply share_verify_committed. cbn [sh_value sh_receiver].
    apply gen_inj. rewrite <- gpoly_committed, <- Hb. unfold blind. rewrite blind_value by (symmetry; exact Hl). rewrite Hw, Hg, Gmul_0_r, Gadd_0_l. reflexivity.
  Qed.
  Lemma blind_accepted A ws g i t x pr prx : length ws = N.to_nat (u32v t) -> length g = N.to_nat (u32v t) ->
    hd_error ws = Some F1 -> hd_error g = Some F0 -> nizk_verify pr i A = Ok tt -> nizk_verify prx i (gen * x)%G = Ok tt ->
    ok_bootstrap t (MkPart i (gen * x)%G (Some (MkVss i (blind A ws g))) (Some pr) prx).
  Proof.
    intros H1 H2 H3 H4 V1 V2. split; [exact V2|]. split.
    - exists (MkVss i (blind A ws g)), A, (tl (blind A ws g)), pr. split; [reflexivity|]. split; [apply blind_hd; assumption|auto].
    - exists (MkVss i (blind A ws g)). split; [reflexivity|]. cbn [vss_points]. rewrite blind_length by congruence. lia.
  Qed.
  Lemma blind_real (ws g a : list F) js : length ws = length g -> length a = length g -> good_indices js -> Datatypes.S (length js) = length a ->
    hd_error ws = Some F1 -> hd_error g = Some F0 ->
    (forall j, In j js -> poly_value ws (of_u32 j) = F0) -> (forall j, In j js -> poly_value g (of_u32 j) = poly_value a (of_u32 j)) ->
    committed a = blind (gen * hd F0 a)%G ws g.
  Proof.
    intros H1 H2 [Hn H0] Hl Hw Hg Zw Zg. set (P := blind _ ws g). assert (HP : P = (gen * hd F0 a)%G :: tl P) by (apply blind_hd; assumption).
    assert (LP : length P = length g) by (apply blind_length, H1).
    assert (V : forall x, gpoly_value P x = (gen * (hd F0 a * poly_value ws x + poly_value g x)%F)%G).
    { intros x. unfold P, blind. rewrite blind_value by (symmetry; exact H1). rewrite Gmul_mul, gen_mul_add. reflexivity. }
    clearbody P. destruct (dlog_list P) as [b Hb]. subst P. f_equal. unfold committed in LP. rewrite map_length in LP.
    assert (V' : forall x, poly_value b x = (hd F0 a * poly_value ws x + poly_value g x)%F).
    { intros x. apply gen_inj. rewrite <- gpoly_committed. apply V. }
    apply (secrecy_unique (length a) a b js); auto; try lia.
    - rewrite V', !poly_value_0. destruct ws; [discriminate|]. destruct g; [discriminate|]. cbn in *. injection Hw as ->. injection Hg as ->. ring.
    - intros j Hj. rewrite V', Zw, Zg by exact Hj. ring.
  Qed.
End SimDealer.

(** C90 *)
Theorem C90_dealer_is_simulated :
  forall (S : Suite) (L : SuiteLaws S) (t : u32) (js : list u32),
  good_indices js -> (N.of_nat (length js) + 1 = u32v t)%N ->
  (** one vector of scalars for all *)
  exists ws : list F, length ws = N.to_nat (u32v t) /\ hd_error ws = Some F1 /\
  forall (A : G) (i : u32) (v : u32 -> F) (x s r : F),
  exists g : list F, length g = N.to_nat (u32v t) /\ hd_error g = Some F0 /\ (forall j, In j js -> poly_value g (of_u32 j) = v j) /\
    (** points made from A, shares v, the proof s r *)
    let pts := map (fun wg => (A * fst wg + gen * snd wg)%G) (combine ws g) in
    let y := (tag "nizkpok", nizk_message i A (gen * r + - (A * s))%G) in
    let S' := with_hash S (programmed [(y, s)] inner_h2f) sha256_h2f in
    SuiteLaws S' /\ @same_but S [y] (@inner_h2f S') (@inner_h2f S) /\
    (** are accepted in round one and the shares by their receivers *)
    (forall prx, @nizk_verify S' prx i (gen * x)%G = Ok tt ->
       @ok_bootstrap S' t (@MkPart S' i (gen * x)%G (Some (@MkVss S' i pts)) (Some (@MkNizk S' s r)) prx)) /\
    (forall j, In j js -> @share_verify S' (@MkShare S' i j (v j)) (@MkVss S' i pts) = Ok tt) /\
    (** and are what a dealer knowing a secret for A publishes and deals, for one polynomial and one random scalar *)
    (forall a rng, length a = N.to_nat (u32v t) -> (gen * hd F0 a)%G = A -> (forall j, In j js -> poly_value a (of_u32 j) = v j) ->
       committed a = pts /\ (forall j, In j js -> evaluate_polynomial i j a = MkShare i j (v j)) /\
       (fst (@rand_scalar S rng) = (r - hd F0 a * s)%F -> fst (@nizk_prove S' i (hd F0 a) A rng) = @MkNizk S' s r)) /\
    (forall a0, (gen * a0)%G = A -> exists a, length a = N.to_nat (u32v t) /\ hd_error a = Some a0 /\ (forall j, In j js -> poly_value a (of_u32 j) = v j)).
Proof.
  intros S L t js Hg Ht. assert (Hl : length js < N.to_nat (u32v t)) by lia.
  destruct (through js _ F1 (fun _ => F0) Hg Hl) as (ws & W1 & W2 & W3). exists ws. split; [exact W1|]. split; [exact W2|].
  intros A i v x s r. destruct (through js _ F0 v Hg Hl) as (g & G1 & G2 & G3). exists g. split; [exact G1|]. split; [exact G2|]. split; [exact G3|].
  intros pts y S'. destruct (C88_key_proofs_are_simulated S L i A s r) as (L' & X1 & X2 & X3). fold y S' in L', X1, X2, X3.
  split; [exact L'|]. split; [exact X1|]. split; [|split; [|split]].
  - intros prx V. exact (@blind_accepted S' L' A ws g i t x (@MkNizk S' s r) prx W1 G1 W2 G2 X2 V).
  - intros j Hj. exact (@blind_share S' L' A ws g i j (v j) (eq_trans W1 (eq_sym G1)) (W3 j Hj) (G3 j Hj)).
  - intros a rng Ha HA Hv. split; [|split].
    + unfold pts. rewrite <- HA. apply (blind_real ws g a js); auto; try congruence; try lia. intros j Hj. rewrite G3, Hv by exact Hj. reflexivity.
    + intros j Hj. rewrite evaluate_polynomial_eq, Hv by exact Hj. reflexivity.
    + intros Hr. apply X3; [symmetry; exact HA|exact Hr].
  - intros a0 _. destruct (through js _ a0 v Hg Hl) as (a & A1 & A2 & A3). exists a. auto.
Qed.
Print Assumptions C90_dealer_is_simulated.

(** threshold three, receivers 1 and 2 *)
Example C90_ex : good_indices [u 1; u 2] /\ (N.of_nat (length [u 1; u 2]) + 1 = u32v (u 3))%N /\
  (** a polynomial with secret 5 and its values there *)
  map (fun j => poly_value [mk 5; mk 6; mk 7] (of_u32 j)) [u 1; u 2] = [mk 18; mk 45].
Proof. split; [good|]. split; [reflexivity|vmr]. Qed.
