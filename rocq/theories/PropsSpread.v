(** C91: one dealer's secret spreads over all group keys. *)
From Coq Require Import String Strings.Byte Arith NArith ZArith Bool List Lia Permutation Field.
From Verif Require Import Base Suite Spec SpecDkg Types Algebra BaseLemmas ModelDkg LemmasShare LemmasRound1 LemmasRound2
  LemmasFinish LemmasBlame SpecSign LemmasSign Toy Demo DemoDkg PropsShare PropsRound1 PropsRound2 PropsFinish PropsAttack PropsSteer.
Import ListNotations.

Section Spread.
  Context {S : Suite} {L : SuiteLaws S}.
  Add Field F_fld : F_field.

  Lemma group_key_loop_good idx (comms : bmap Vss) : forall k gk, comms <> [] -> group_key_loop idx comms k = Ok gk ->
    good_indices idx /\ forall j c, In (j, c) comms -> vss_points c <> [].
  Proof.
    induction comms as [|[j c] comms IH]; intros k gk Hne E; [contradiction|]. cbn [group_key_loop] in E.
    destruct (lagrange j idx) as [w| |] eqn:Ew; try discriminate. cbn [bind] in E. unfold vss_public_key in E.
    destruct (vss_points c) as [|P rest] eqn:Ec; [discriminate|]. split; [apply (lagrange_good j idx w Ew)|].
    intros j' c' [X|X]; [injection X as <- <-; rewrite Ec; discriminate|].
    destruct comms as [|jc comms]; [contradiction|]. eapply (proj2 (IH _ _ ltac:(discriminate) E)), X.
  Qed.
  (** the group key of a finished session from the dealers' first points *)
  Lemma finish_key st comms gk sk : ds_comms st = Some comms -> finish (R2 st) = Ok (gk, sk) -> comms <> [] ->
    good_indices (bkeys comms) /\ (forall j c, In (j, c) comms -> vss_points c <> []) /\ gk = dealt_point comms F0.
  Proof.
    intros Hc E Hne. unfold finish in E. cbn [st2] in E. destruct (calculate_signing_key st) as [x| |]; try discriminate. cbn [bind] in E.
    assert (E' : calculate_group_key st = Ok gk).
    { destruct (calculate_group_key st) as [y| |]; try discriminate. cbn [bind] in E. injection E as -> _. reflexivity. }
    pose proof E' as E2. unfold calculate_group_key in E'. rewrite Hc in E'. destruct (group_key_loop_good _ _ _ _ Hne E') as [A B].
    split; [exact A|]. split; [exact B|]. rewrite (calculate_group_key_ok st comms Hc A B) in E2. congruence.
  Qed.
  Definition firsts (comms : bmap Vss) : list (u32 * option G) := map (fun jc => (fst jc, hd_error (vss_points (snd jc)))) comms.
  Definition some_or (x : u32 * option G) : u32 * G := (fst x, match snd x with Some P => P | None => Gzero end).
  Lemma gpoly_0 (P : list G) : gpoly_value P F0 = match hd_error P with Some x => x | None => Gzero end.
  Proof.
    destruct (dlog_list P) as [a ->]. rewrite gpoly_committed, poly_value_0. destruct a as [|x a]; cbn; [apply gen_mul_0|reflexivity].
  Qed.
  Lemma dealt_firsts comms : dealt_point comms F0 = ginterp0 (map some_or (firsts comms)).
  Proof. unfold dealt_point, firsts. rewrite map_map. f_equal. apply map_ext. intros [j c]. unfold some_or. cbn. rewrite gpoly_0. reflexivity. Qed.
  Lemma ginterp0_cons j P l : ginterp0 ((j, P) :: l) = (P * weight j (j :: map fst l) + gsum (map (fun x => snd x * weight (fst x) (j :: map fst l)) l))%G.
  Proof. reflexivity. Qed.
  Lemma Fadd_comm' (a b : F) : (a + b = b + a)%F.
  Proof. ring. Qed.
  Lemma Fsolve (B w k : F) : w <> F0 -> (B + (k - B) * Finv w * w = k)%F.
  Proof. intros H. field. exact H. Qed.
  Lemma Funiq (B w a a' : F) : w <> F0 -> (B + a * w = B + a' * w)%F -> a = a'.
  Proof.
    intros H E. assert (X : ((a - a') * w = F0)%F) by (transitivity ((B + a * w) - (B + a' * w))%F; [ring|rewrite E; ring]).
    apply Fmul_eq_0 in X. destruct X as [X|X]; [|contradiction]. apply Fsub_eq_0, X.
  Qed.
End Spread.

(** whatever the other dealers published (and after any complaints): the group key is a one-to-one function of one
    dealer's public key, a translate of a non-zero multiple *)
Theorem C91_group_key_is_one_to_one :
  forall (S : Suite) (L : SuiteLaws S) (j : u32) (others : list (u32 * option G)),
  good_indices (j :: map fst others) ->
  exists (B : G) (w : F), w <> F0 /\
    forall st comms gk sk P, finish (R2 st) = Ok (gk, sk) -> ds_comms st = Some comms ->
      Permutation (map (fun jc => (fst jc, hd_error (vss_points (snd jc)))) comms) ((j, Some P) :: others) ->
      gk = (B + P * w)%G.
Proof.
  intros S L j others Hg. set (l := map some_or others).
  assert (Hl : map fst l = map fst others) by (unfold l; rewrite map_map; apply map_ext; intros x; reflexivity).
  exists (gsum (map (fun x => snd x * weight (fst x) (j :: map fst l)) l))%G, (weight j (j :: map fst l)). split.
  { apply weight_neq_0. rewrite Hl. apply Hg. }
  intros st comms gk sk P E Hc HP. assert (Hne : comms <> []).
  { intros ->. cbn in HP. apply Permutation_nil in HP. discriminate. }
  destruct (finish_key st comms gk sk Hc E Hne) as (_ & _ & ->). rewrite dealt_firsts. unfold firsts.
  rewrite (ginterp0_perm _ _ (Permutation_map some_or HP)). cbn [map]. change (some_or (j, Some P)) with (j, P). fold l.
  rewrite ginterp0_cons. apply Gadd_comm.
Qed.
Print Assumptions C91_group_key_is_one_to_one.

(** for every key x and fixed secrets of the others there is exactly one secret of dealer j with which the key generation
    ends with x *)
Theorem C91_every_key_for_one_secret :
  forall (S : Suite) (L : SuiteLaws S) (m : build) (params : Params) (j : u32) (others : list (u32 * F)) (x : F),
  good_indices (j :: map fst others) ->
  exists a0 : F, forall (parties : list Party) (p : Party),
    honest_parties params parties -> all_bootstrapped m params parties -> In p parties -> y_index p = j ->
    (** the others deal these secrets *)
    Permutation (map (fun q => (y_index q, hd F0 (y_co q))) parties) ((j, hd F0 (y_co p)) :: others) ->
    forall q senders es r, In q parties -> Permutation senders parties -> delivered senders q es ->
    exists s2 r' gk sk, to_round_two m (y_st q) es r = Ok (s2, [], r') /\ finish s2 = Ok (gk, sk) /\
      (gk = (gen * x)%G <-> hd F0 (y_co p) = a0).
Proof.
  intros S L m params j others x Hg. set (w := weight j (j :: map fst others)).
  assert (Hw : w <> F0) by (apply weight_neq_0, Hg). set (B := fsum (map (fun iv => (snd iv * weight (fst iv) (j :: map fst others))%F) others)).
  exists ((x - B) * Finv w)%F. intros parties p H HB Hp Hj HP q senders es r Hq HS HD.
  destruct (C18_honest_agreement S L m params parties H HB) as (s & Es & C). destruct (C q senders es r Hq HS HD) as (s2 & r' & sk & E1 & E2 & _).
  exists s2, r', (gen * s)%G, sk. split; [exact E1|]. split; [exact E2|]. rewrite gen_mul_iff.
  assert (E : s = (B + hd F0 (y_co p) * w)%F).
  { rewrite Es. assert (X : dealt_values parties F0 = map (fun q => (y_index q, hd F0 (y_co q))) parties).
    { unfold dealt_values. apply map_ext. intros z. rewrite poly_value_0. reflexivity. }
    rewrite X, (interp0_perm _ _ HP). unfold interp0. cbn [map fst snd fsum]. fold w B. apply Fadd_comm'. }
  rewrite E. split.
  - intros X. apply (Funiq B w _ _ Hw). rewrite X, Fsolve by exact Hw. reflexivity.
  - intros ->. apply Fsolve, Hw.
Qed.
Print Assumptions C91_every_key_for_one_secret.

(** the demo key generation and dealer 1 *)
Example C91_ex :
  honest_parties demo_params demo_parties /\ all_bootstrapped Debug demo_params demo_parties /\ In (demo_party 1) demo_parties /\
  Permutation (map (fun q => (y_index q, hd F0 (y_co q))) demo_parties)
    ((u 1, hd F0 (y_co (demo_party 1))) :: map (fun q => (y_index q, hd F0 (y_co q))) [demo_party 2; demo_party 3]) /\
  good_indices (u 1 :: map fst (map (fun q => (y_index q, hd F0 (y_co q))) [demo_party 2; demo_party 3])).
Proof.
  split; [exact C18_ex_honest|]. split; [exact C18_ex_bootstrapped|]. split; [left; reflexivity|].
  split; [apply Permutation_refl|]. cbn [map fst y_index demo_party]. good.
Qed.
