(** C16-C17: the second round against arbitrary encrypted shares. *)
From Coq Require Import String Strings.Byte Arith NArith ZArith Bool List Lia.
From Verif Require Import Base Suite Spec SpecDkg Types Algebra BaseLemmas ModelDkg LemmasShare LemmasRound1
  LemmasRound2 Toy Demo DemoDkg.
Import ListNotations.

(** C16 *)
Theorem C16_complaints_exact :
  forall (S : Suite) (L : SuiteLaws S) (m : build) (st : DkgState) (comms : bmap Vss) (es : list EncShare) (r : Rng),
  ds_comms st = Some comms -> NoDup (bkeys comms) ->
  (forall s2 cs r', to_round_two m (R1 st) es r = Ok (s2, cs, r') ->
     complaint_list st es cs /\ after_round_two st es (st2 s2)) /\
  (forall cs, to_round_two m (R1 st) es r = Err (ComplaintErr cs) -> complaint_list st es cs).
Proof.
  intros S L m st comms es r Hc Hnd.
  destruct (N.lt_ge_cases (N.of_nat (length es)) (u32v (p_t (ds_params st)))) as [Hl|Hl].
  { rewrite to_round_two_few by exact Hl. split; intros; discriminate. }
  destruct (acceptable_split m st es) as [HF|(es1 & e & es2 & -> & H1 & H2)].
  - destruct (to_round_two_done m st comms es r Hc Hnd Hl HF) as (cs & r' & HL & ->).
    destruct (remaining _ _ _) as [x|]; [|split; intros; discriminate].
    destruct (N.ltb x _); split; intros.
    + discriminate.
    + congruence.
    + injection H as <- <- _. split; [exact HL|apply round_two_state_spec].
    + discriminate.
  - rewrite (to_round_two_stop m st comms) by assumption. destruct (_ && _); split; intros; discriminate.
Qed.
Print Assumptions C16_complaints_exact.

(** participant 3 gets a garbled share from 1 and a wrong but well encrypted one from 2 *)
Definition C16_shares : list EncShare :=
  match demo_shares 3 with
  | e1 :: _ :: e3 :: _ =>
      [garbled e1; e3; wrong_share 2 3 (dealer_x 3 2 2 20) (pt_dh_pk (dealer 3 2 3 30)) (mk 5)]
  | _ => []
  end.
Definition low_threshold (s : RoundOne) : DkgState :=
  let st := st1 s in
  MkState (MkParams (p_n (ds_params st)) (u 1)) (ds_index st) (ds_dh_sk st) (ds_dh_pk st)
    (ds_comms st) (ds_dhs st) (ds_enc st) (ds_shares st).
Example C16_ex :
  match ds_comms (st1 (demo_r1 demo_ps 3)) with Some comms => bkeys comms | None => [] end = [u 1; u 2; u 3] /\
  (let* (_, cs, _) := to_round_two Debug (demo_r1 demo_ps 3) (demo_shares 3) 7%N in Ok (length cs)) = Ok 0 /\
  match to_round_two Debug (demo_r1 demo_ps 3) C16_shares 7%N with
  | Err (ComplaintErr cs) => map (fun c => es_sender (c_share c)) cs
  | _ => [] end = [u 1; u 2] /\
  (let* (s2, cs, _) := to_round_two Debug (R1 (low_threshold (demo_r1 demo_ps 3))) C16_shares 7%N in
   Ok (map (fun c => es_sender (c_share c)) cs, match ds_shares (st2 s2) with Some m => bkeys m | None => [] end))
    = Ok ([u 1; u 2], [u 2; u 3]).
Proof. vms. Qed.

(** C17 *)
Theorem C17_round_two_outcome :
  forall (S : Suite) (L : SuiteLaws S) (m : build) (st : DkgState) (comms : bmap Vss) (es : list EncShare) (r : Rng),
  ds_comms st = Some comms -> NoDup (bkeys comms) ->
  let n := u32v (p_n (ds_params st)) in
  let t := u32v (p_t (ds_params st)) in
  let run := to_round_two m (R1 st) es r in
  ((N.of_nat (length es) < t)%N -> run = Err MissingShares) /\
  ((t <= N.of_nat (length es))%N ->
     (forall es1 e es2, es = es1 ++ e :: es2 -> Forall (acceptable m st) es1 ->
        (m = Debug -> es_receiver e <> ds_index st -> run = Panic) /\
        ((m = Debug -> es_receiver e = ds_index st) -> bget (es_sender e) (ds_dhs st) = None ->
           run = Err (Custom "to_round_two() was called with encrypted secret shares containing invalid indices"))) /\
     (Forall (acceptable m st) es ->
        exists cs, complaint_list st es cs /\
          (* the number of complaints is cast to u32 *)
          let k := (N.of_nat (length cs) mod 2 ^ 32)%N in
          ((k <= n)%N -> (n - k < t)%N -> run = Err (ComplaintErr cs)) /\
          ((k <= n)%N -> (t <= n - k)%N -> exists s2 r', run = Ok (s2, cs, r') /\ after_round_two st es (st2 s2)) /\
          ((n < k)%N -> m = Debug -> run = Panic) /\
          ((n < k)%N -> m = Release -> (t <= 2 ^ 32 + n - k)%N ->
             exists s2 r', run = Ok (s2, cs, r') /\ after_round_two st es (st2 s2)) /\
          ((n < k)%N -> m = Release -> (2 ^ 32 + n - k < t)%N -> run = Err (ComplaintErr cs)))).
Proof.
  intros S L m st comms es r Hc Hnd n t run. unfold run. split; [apply to_round_two_few|]. intros Hl. split.
  - intros es1 e es2 -> HF. split.
    + intros -> He. rewrite (to_round_two_stop Debug st comms) by (auto; intros [A _]; apply He, A, eq_refl).
      cbn. apply u32_eqb_neq in He. rewrite He. reflexivity.
    + intros Hm Hg. rewrite (to_round_two_stop m st comms) by (auto; intros [_ [pk A]]; congruence).
      destruct m; [|reflexivity]. cbn. rewrite (Hm eq_refl), u32_eqb_refl. reflexivity.
  - intros HF. destruct (to_round_two_done m st comms es r Hc Hnd Hl HF) as (cs & r' & HL & ->).
    exists cs. split; [exact HL|]. unfold remaining. cbv zeta. change (2 ^ 32)%N with 4294967296%N.
    generalize (N.of_nat (length cs) mod 4294967296)%N. intros k. fold n t.
    repeat split.
    + intros A B. rewrite (proj2 (N.ltb_ge _ _) A). apply N.ltb_lt in B. rewrite B. reflexivity.
    + intros A B. rewrite (proj2 (N.ltb_ge _ _) A). rewrite (proj2 (N.ltb_ge _ _) B).
      do 2 eexists. split; [reflexivity|apply round_two_state_spec].
    + intros A ->. apply N.ltb_lt in A. rewrite A. reflexivity.
    + intros A -> B. apply N.ltb_lt in A. rewrite A. rewrite (proj2 (N.ltb_ge _ _) B).
      do 2 eexists. split; [reflexivity|apply round_two_state_spec].
    + intros A -> B. apply N.ltb_lt in A. rewrite A. apply N.ltb_lt in B. rewrite B. reflexivity.
Qed.
Print Assumptions C17_round_two_outcome.

(** the three cases of the outcome above are exhaustive *)
Theorem C17_cases_exhaustive :
  forall (S : Suite) (m : build) (st : DkgState) (es : list EncShare),
  Forall (acceptable m st) es \/
  exists es1 e es2, es = es1 ++ e :: es2 /\ Forall (acceptable m st) es1 /\
    ((m = Debug /\ es_receiver e <> ds_index st) \/
     ((m = Debug -> es_receiver e = ds_index st) /\ bget (es_sender e) (ds_dhs st) = None)).
Proof.
  intros S m st es. destruct (acceptable_split m st es) as [H|(es1 & e & es2 & H1 & H2 & H3)]; [left; exact H|].
  right. exists es1, e, es2. repeat split; auto.
  destruct m.
  - destruct (u32_eq_dec (es_receiver e) (ds_index st)) as [E|E]; [|left; auto].
    right. split; [auto|]. destruct (bget (es_sender e) (ds_dhs st)) eqn:Eg; [|reflexivity].
    exfalso. apply H3. split; eauto.
  - right. split; [discriminate|]. destruct (bget (es_sender e) (ds_dhs st)) eqn:Eg; [|reflexivity].
    exfalso. apply H3. split; [discriminate|eauto].
Qed.
Print Assumptions C17_cases_exhaustive.

(** in a release build four bad shares pass a round with n = 3, t = 2 *)
Definition C17_flood : list EncShare :=
  match demo_shares 3 with
  | e1 :: e2 :: e3 :: _ => [garbled e1; garbled e2; garbled e3; garbled e1]
  | _ => []
  end.
Example C17_ex :
  (let* (_, cs, _) := to_round_two Release (demo_r1 demo_ps 3) C17_flood 7%N in Ok (length cs)) = Ok 4 /\
  (let* (_, cs, _) := to_round_two Debug (demo_r1 demo_ps 3) C17_flood 7%N in Ok (length cs)) = Panic /\
  (let* (_, cs, _) := to_round_two Debug (demo_r1 demo_ps 3) (firstn 1 (demo_shares 3)) 7%N in Ok (length cs)) = Err MissingShares /\
  (let* (_, cs, _) := to_round_two Debug (demo_r1 demo_ps 3) (demo_shares 2) 7%N in Ok (length cs)) = Panic /\
  (let* (_, cs, _) := to_round_two Release (demo_r1 [dealer 3 2 1 10; with_index (dealer 3 2 4 77) 2; dealer 3 2 3 30] 3) (demo_shares 3) 7%N in Ok (length cs)) =
    Err (Custom "to_round_two() was called with encrypted secret shares containing invalid indices").
Proof. vms. Qed.
