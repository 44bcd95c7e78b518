(** C128: a group may keep members of the old one, and a dealer of another degree is flagged. *)
From Coq Require Import String Strings.Byte Arith NArith ZArith Bool List Lia Permutation.
From Verif Require Import Base Suite Spec SpecDkg Types Algebra BaseLemmas ModelDkg ModelSign ModelCompare ModelErase ModelDoc ModelTests
  LemmasShare LemmasRound1 LemmasRound2 LemmasFinish Toy Demo DemoDkg PropsShare PropsRound1 PropsFinish PropsReshare PropsDoc PropsDocBad.
Import ListNotations.

Section Common.
  Context {S : Suite} {L : SuiteLaws S}.
  Add Field F_fld : F_field.

  Lemma proofs_ok ps : (forall p, In p ps -> exists params i co x, fresh_dealer params i p co x) -> test_proofs ps = Ok tt.
  Proof.
    intros H. unfold test_proofs.
    match goal with |- context [traverse ?f ps] => destruct (traverse_ok (fun p p' => p = p' /\ In p ps) (fun _ _ => True) f ps ps) as (b & -> & _) end.
    - apply forall2_self. auto.
    - intros p p' [<- Hp]. destruct (H p Hp) as (params & i & co & x & [A _ _ C _ (pr & a0 & D & E & V)]). exists tt. split; [|exact I].
      rewrite D. cbn [unwrap bind]. unfold part_public_key. rewrite C. destruct co as [|a co]; [discriminate E|]. injection E as ->.
      cbn [committed map vss_public_key vss_points hd_error unwrap bind]. rewrite A. exact V.
    - reflexivity.
  Qed.
  Lemma named_dealer {A} (name : A -> u32) (l : list A) i : In i (map name l) ->
    exists a, find (fun a => u32_eqb (name a) i) l = Some a /\ In a l /\ name a = i.
  Proof.
    intros H. destruct (find (fun a => u32_eqb (name a) i) l) as [a|] eqn:E.
    - apply find_some in E. destruct E as [E1 E2]. exists a. split; [reflexivity|]. split; [exact E1|apply u32_eqb_spec, E2].
    - exfalso. apply in_map_iff in H. destruct H as (a & <- & Ha). apply (find_none _ _ E) in Ha. rewrite u32_eqb_refl in Ha. discriminate.
  Qed.
  Lemma splits_one (ok : Participant -> Prop) l1 p l2 : (forall q, In q (l1 ++ l2) -> ok q) -> ~ ok p -> splits ok (l1 ++ p :: l2) (l1 ++ l2) [pt_index p].
  Proof.
    intros H Hp. induction l1 as [|a l1 IH]; cbn [app].
    - apply splits_bad; [exact Hp|]. apply LemmasRound1.splits_all. exact H.
    - apply splits_ok; [apply H; left; reflexivity|]. apply IH. intros q Hq. apply H. right; exact Hq.
  Qed.
End Common.

Theorem C128_common_participants :
  forall (S : Suite) (L : SuiteLaws S) (m : build) (n t : u32) (ids : list u32) (n' t' : u32) (next : list (u32 * bool)) (r : Rng),
  good_indices ids -> N.of_nat (length ids) = u32v n -> (1 <= u32v t <= u32v n)%N ->
  good_indices (map fst next) -> N.of_nat (length next) = u32v n' -> (1 <= u32v t' <= u32v n')%N ->
  (forall i, In (i, true) next -> In i ids) ->
  exists outs outs' r' s, test_common m n t ids n' t' next r = Ok (outs, outs', r') /\
    holders ids (N.to_nat (u32v t)) s outs /\ holders (map fst next) (N.to_nat (u32v t')) s outs'.
Proof.
  intros S L m n t ids n' t' next r Hg Hn Ht Hg' Hn' Ht' Hkeep.
  destruct (C107_documented_key_generation S L m n t ids r Hg Hn Ht) as (ps & outs & r3 & s & E & Ei & HO & _).
  destruct (doc_dealt m n t ids r Hg Hn Ht) as (parties & r1 & r2 & E1 & E2 & Qi & HH & _ & Hix & _).
  unfold doc_generation in E. unfold test_common. rewrite params_ok in E |- * by exact Ht. cbn [bind] in E |- *.
  rewrite E1 in E |- *. cbn [bind] in E |- *. rewrite map_map in E |- *. change (map (fun x => fst (fst (triple x))) parties) with (map y_d parties) in E |- *.
  rewrite E2 in E |- *. rewrite proofs_ok.
  2:{ intros p Hp. apply in_map_iff in Hp. destruct Hp as (q & <- & Hq). do 4 eexists. apply (honest_fresh _ _ q HH Hq). }
  cbn [bind] in E |- *.
  destruct (doc_session _ _ _ _ _) as [[outs0 r3']|e|]; cbn [bind] in E |- *; [|discriminate E|discriminate E].
  destruct (doc_same_key _ outs0) as [[]|e|]; cbn [bind] in E |- *; [|discriminate E|discriminate E].
  injection E as _ -> -> . rewrite params_ok by exact Ht'. cbn [bind]. set (params2 := MkParams n' t').
  (* the members of the next group *)
  destruct (each_ok (fun y y' => y = y' /\ In y next)
    (fun (y : u32 * bool) (z : Participant * F) => prepared params2 (MkHeir (fst y) (fst z) (snd z)))
    (test_member params2 (map triple parties)) next next r3) as (zs & r4 & E4 & HZ).
  { apply forall2_self. auto. }
  { intros [i b] y' r0 [<- Hy]. assert (Hi : i <> u32_zero).
    { intros ->. apply Hg'. apply (in_map fst) in Hy. exact Hy. }
    unfold test_member. cbn [fst snd]. destruct b.
    - destruct (named_dealer (fun d : Participant * list F * F => pt_index (fst (fst d))) (map triple parties) i) as (d & Ef & Hd & En).
      { rewrite map_map. rewrite (map_ext_in _ y_index parties) by exact Hix. rewrite Qi. apply Hkeep, Hy. }
      rewrite Ef. cbn [unwrap bind]. eexists (_, _), r0. split; [reflexivity|]. right. cbn [z_index z_p z_x fst snd].
      apply in_map_iff in Hd. destruct Hd as (p & <- & Hp). cbn [triple fst snd] in *. destruct (hp_dealt _ _ HH p Hp) as (q & q' & Eq).
      rewrite Hix in En by exact Hp. rewrite En in Eq. exists (MkParams n t), (y_co p), q, q'. exact Eq.
    - destruct (C12_new_signer_well_formed S L params2 i r0 Hi) as (d & x & r' & E' & _). exists (d, x), r'. split; [exact E'|].
      left. exists r0, r'. exact E'. }
  rewrite E4. cbn [bind].
  assert (H0 : exists hs, map z_index hs = map fst next /\ map (fun z => (z_p z, z_x z)) hs = zs /\ forall z, In z hs -> prepared params2 z).
  { clear -HZ. induction HZ as [|y [p x] next zs E _ (hs & A & B & C)]; [exists []; cbn; repeat split; intros ? []|].
    exists (MkHeir (fst y) p x :: hs). cbn [map z_index z_p z_x]. rewrite A, B. repeat split. intros z [<-|Hz]; [exact E|apply C, Hz]. }
  destruct H0 as (hs & Zi & <- & HZs).
  assert (HHr : honest_heirs params2 hs).
  { constructor; cbn [p_n p_t params2].
    - rewrite <- Hn', <- (map_length fst next), <- Zi, map_length. reflexivity.
    - exact Ht'.
    - rewrite Zi. exact Hg'.
    - exact HZs. }
  destruct (handover_ok S L m (MkParams n t) params2 outs ids s hs r4 HO Hn Ht HHr) as (outs' & r' & E5 & HO').
  rewrite E5. cbn [bind]. exists outs, outs', r', s. split; [reflexivity|]. split; [exact HO|]. rewrite <- Zi. exact HO'.
Qed.
Print Assumptions C128_common_participants.

Theorem C128_other_degree_is_flagged :
  forall (S : Suite) (L : SuiteLaws S) (m : build) (n t t' : u32) (before : list u32) (bad : u32) (after : list u32) (me : u32) (r : Rng),
  good_indices (before ++ bad :: after) -> N.of_nat (length (before ++ bad :: after)) = u32v n ->
  (1 <= u32v t <= u32v n)%N -> (1 <= u32v t')%N -> In me (before ++ after) ->
  exists others b,
    map pt_index (fst others ++ snd others) = before ++ after /\ pt_index b = bad /\
    (t' = t -> exists st r', test_degree m n t t' before bad after me r = Ok (st, MkPList (fst others ++ b :: snd others) None, r')) /\
    (t' <> t -> (u32v t < u32v n)%N ->
       exists st r', test_degree m n t t' before bad after me r = Ok (st, MkPList (fst others ++ snd others) (Some [bad]), r')) /\
    (t' <> t -> t = n -> test_degree m n t t' before bad after me r = Err (TooManyInvalidParticipants [bad])).
Proof.
  intros S L m n t t' before bad after me r [Hnd H0] Hn Ht Ht' Hme. set (params := MkParams n t). set (fake := MkParams n t').
  assert (H1 : ~ In u32_zero before) by (intros X; apply H0, in_or_app; left; exact X).
  assert (H2 : ~ In u32_zero after) by (intros X; apply H0, in_or_app; right; right; exact X).
  assert (Hb : bad <> u32_zero) by (intros ->; apply H0, in_elt).
  destruct (deal_all params before r H1 (proj1 Ht)) as (q1 & r1 & E1 & I1 & D1).
  destruct (C12_new_dealer_well_formed S L fake bad r1 Hb Ht') as (b & co & x & r2 & E2 & _).
  destruct (deal_all params after r2 H2 (proj1 Ht)) as (q2 & r3 & E3 & I2 & D2).
  pose proof (new_dealer_inv fake bad r1 b co x r2 Hb Ht' E2) as Fb.
  assert (Fo : forall q, In q (q1 ++ q2) -> fresh_dealer params (y_index q) (y_d q) (y_co q) (y_x q)).
  { intros q Hq. assert (Hi : In (y_index q) (before ++ after)) by (rewrite <- I1, <- I2, <- map_app; apply in_map, Hq).
    assert (HD : dealt_by params q) by (apply in_app_or in Hq; destruct Hq as [X|X]; auto). destruct HD as (ra & rb & E).
    eapply new_dealer_inv; [|apply Ht|exact E]. intros X. rewrite X in Hi. apply in_app_or in Hi. destruct Hi; auto. }
  exists (map y_d q1, map y_d q2), b. cbn [fst snd].
  assert (Hidx : map pt_index (map y_d q1 ++ map y_d q2) = before ++ after).
  { rewrite <- map_app, map_map, <- I1, <- I2, <- map_app. apply map_ext_in. intros q Hq. apply (fd_index _ _ _ _ _ (Fo q Hq)). }
  split; [exact Hidx|]. split; [apply (fd_index _ _ _ _ _ Fb)|].
  set (ps := map y_d q1 ++ b :: map y_d q2).
  assert (Hfr : forall p, In p ps -> p = b \/ In p (map y_d q1 ++ map y_d q2)).
  { intros p Hp. unfold ps in Hp. apply in_app_or in Hp. destruct Hp as [Hp|[<-|Hp]]; [right; apply in_or_app; left; exact Hp|left; reflexivity|right; apply in_or_app; right; exact Hp]. }
  assert (Hot : forall p, In p (map y_d q1 ++ map y_d q2) -> exists i co x, fresh_dealer params i p co x).
  { intros p Hp. rewrite <- map_app in Hp. apply in_map_iff in Hp. destruct Hp as (q & <- & Hq). do 3 eexists. apply (Fo q Hq). }
  assert (Hlen : N.of_nat (length ps) = u32v n).
  { rewrite <- Hn, <- I1, <- I2. unfold ps. rewrite !app_length. cbn [length]. rewrite !map_length. reflexivity. }
  (* the program up to the first round *)
  destruct (named_dealer (fun d : Participant * list F * F => pt_index (fst (fst d))) (map triple q1 ++ map triple q2) me) as (d & Ef & _).
  { replace (map _ (map triple q1 ++ map triple q2)) with (before ++ after); [exact Hme|]. rewrite <- Hidx, !map_app, !map_map. reflexivity. }
  assert (Et : test_degree m n t t' before bad after me r = bootstrap m params (snd d) (pt_index (fst (fst d))) (snd (fst d)) ps r3).
  { unfold test_degree. rewrite params_ok by exact Ht. cbn [bind]. fold params fake. rewrite E1. cbn [bind]. rewrite E2. cbn [bind]. rewrite E3. cbn [bind].
    replace (map _ (map triple q1 ++ (b, co, x) :: map triple q2)) with ps.
    2:{ rewrite map_app. cbn [map fst snd]. rewrite !map_map. reflexivity. }
    rewrite proofs_ok.
    2:{ intros p Hp. destruct (Hfr p Hp) as [->|Hp']; [do 4 eexists; exact Fb|]. destruct (Hot p Hp') as (i & c & y & X). do 4 eexists. exact X. }
    cbn [bind]. rewrite Ef. reflexivity. }
  rewrite Et.
  destruct (C13_bootstrap_outcome S L m params (snd d) (pt_index (fst (fst d))) (snd (fst d)) ps r3 Hlen (proj1 Ht)) as (valid & mis & HS & A & B).
  { intros p Hp. destruct (Hfr p Hp) as [->|Hp']; [exact (fresh_not_crashing _ _ _ _ _ Fb)|]. destruct (Hot p Hp') as (i & c & y & X). exact (fresh_not_crashing _ _ _ _ _ X). }
  assert (Hok : forall p, In p (map y_d q1 ++ map y_d q2) -> ok_bootstrap t p).
  { intros p Hp. destruct (Hot p Hp) as (i & c & y & X). apply (fresh_ok params i p c y (proj1 Ht) X). }
  cbn [p_t params] in HS, A, B.
  assert (Hbad : t' <> t -> valid = map y_d q1 ++ map y_d q2 /\ mis = [bad]).
  { intros Hne. assert (Hnb : ~ ok_bootstrap t b).
    { intros (_ & _ & c & X & Y). rewrite (fd_comm _ _ _ _ _ Fb) in X. injection X as <-. cbn [vss_points] in Y. unfold committed in Y.
      rewrite map_length, (fd_len _ _ _ _ _ Fb), N2Nat.id in Y. apply Hne, u32_ext. exact Y. }
    pose proof (splits_one (ok_bootstrap t) (map y_d q1) b (map y_d q2) Hok Hnb) as X. rewrite (fd_index _ _ _ _ _ Fb) in X.
    destruct (splits_fun _ _ _ _ _ _ HS X) as [-> ->]. auto. }
  assert (Hlo : N.of_nat (length (map y_d q1 ++ map y_d q2)) = (u32v n - 1)%N).
  { rewrite <- Hlen. unfold ps. rewrite !app_length. cbn [length]. lia. }
  split; [|split].
  - intros ->. destruct (splits_fun _ _ _ _ _ _ HS (LemmasRound1.splits_all (ok_bootstrap t) ps ltac:(
      intros p Hp; destruct (Hfr p Hp) as [->|Hp']; [exact (fresh_ok fake bad b co x (proj1 Ht) Fb)|apply Hok, Hp']))) as [-> ->].
    destruct B as (st & r' & E & _); [rewrite Hlen; apply Ht|]. exists (R1 st), r'. exact E.
  - intros Hne Htn. destruct (Hbad Hne) as [-> ->]. destruct B as (st & r' & E & _); [rewrite Hlo; lia|]. exists (R1 st), r'. exact E.
  - intros Hne Htn. destruct (Hbad Hne) as [-> ->]. apply A. rewrite Hlo, Htn. lia.
Qed.
Print Assumptions C128_other_degree_is_flagged.

(** participants 2, 1, 3 with threshold 2 hand over to 3 (kept), 5, 1 (a new participant with an old index), 2 (kept), threshold 3 *)
Definition common_next : list (u32 * bool) := [(u 3, true); (u 5, false); (u 1, false); (u 2, true)].
Example C128_ex_common :
  (good_indices [u 2; u 1; u 3] /\ good_indices (map fst common_next)) /\ (forall i, In (i, true) common_next -> In i [u 2; u 1; u 3]).
Proof.
  split; [split; good|]. intros i [X|[X|[X|[X|[]]]]]; pose proof (f_equal snd X) as Y; cbn [snd] in Y; try discriminate Y;
    apply (f_equal fst) in X; cbn [fst] in X; subst i; [right; right; left; reflexivity|left; reflexivity].
Qed.
Example C128_ex_runs :
  is_ok (test_common (S := Toy) Debug (u 3) (u 2) [u 2; u 1; u 3] (u 4) (u 3) common_next 5%N) = true /\
  is_ok (test_degree (S := Toy) Debug (u 3) (u 2) (u 2) [u 1; u 2] (u 3) [] (u 1) 5%N) = true /\
  (match test_degree (S := Toy) Debug (u 3) (u 2) (u 5) [u 1; u 2] (u 3) [] (u 1) 5%N with Ok (_, l, _) => pl_mis l | _ => None end) = Some [u 3] /\
  (match test_degree (S := Toy) Debug (u 3) (u 3) (u 5) [u 1; u 2] (u 3) [] (u 1) 5%N with Err (TooManyInvalidParticipants l) => l | _ => [] end) = [u 3].
Proof. repeat split; vmr. Qed.

Example C128_ex_indices : good_indices ([u 1; u 2] ++ u 3 :: []).
Proof. good. Qed.
