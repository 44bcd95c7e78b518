(** C22-C31, C58: settling complaints. *)
From Coq Require Import String Strings.Byte Arith NArith ZArith Bool List Lia Permutation Sorted.
From Verif Require Import Base Suite Spec SpecDkg Types Algebra BaseLemmas ModelDkg LemmasShare LemmasRound1
  LemmasRound2 LemmasFinish LemmasBlame Toy Demo DemoDkg.
Import ListNotations.

(** ** concrete runs *)
(** round two state and complaints of participant i of the demo run that received the shares es *)
Definition demo_r2 (i : N) (es : list EncShare) : DkgState * list Complaint :=
  match to_round_two Debug (demo_r1 demo_ps i) es (500 + i)%N with
  | Ok (s, cs, _) => (st2 s, cs)
  | _ => (no_state, [])
  end.
(** dealer k garbles the share for j *)
Definition garbled_from (k j : N) : list EncShare :=
  map (fun e => if u32_eqb (es_sender e) (u k) then garbled e else e) (demo_shares j).
Definition honest_st (i : N) : DkgState := fst (demo_r2 i (demo_shares i)).
Definition victim_cs (k j : N) : list Complaint := snd (demo_r2 j (garbled_from k j)).
Definition no_complaint : Complaint :=
  MkComplaint (mk 0) (mk 0) (MkEnc (u 0) (u 0) (fst (gen_nonce 0%N)) []) (MkCProof (mk 0) (mk 0) (mk 0)).
Definition victim_c (k j : N) : Complaint := hd no_complaint (victim_cs k j).
(** what can be seen of a call to blame: number of returned keys, retained commitments, retained shares *)
Definition blamed_view (st : DkgState) (cs : list Complaint) : list Z * list u32 * list u32 :=
  match blame (R2 st) cs with
  | Ok (ks, s) => (map fv ks, match ds_comms (st2 s) with Some m => bkeys m | None => [] end,
                   match ds_shares (st2 s) with Some m => bkeys m | None => [] end)
  | _ => ([], [], [])
  end.

(** C22 *)
Theorem C22_one_verdict_per_complaint :
  forall (S : Suite) (L : SuiteLaws S) (st : DkgState) (comms : bmap Vss) (c : Complaint),
  ds_comms st = Some comms ->
  exists j, (forall k, convicts st c k <-> k = j) /\ (j = accused c \/ j = maker c).
Proof.
  intros S L st comms c Hc. destruct (blame_one_cases st comms c Hc) as [[U _]|[U _]].
  - exists (accused c). split; [|auto]. intros k. unfold convicts. tauto.
  - exists (maker c). split; [|auto]. intros k. unfold convicts. tauto.
Qed.
Print Assumptions C22_one_verdict_per_complaint.

Theorem C22_blame_outcome :
  forall (S : Suite) (L : SuiteLaws S) (st : DkgState) (comms : bmap Vss) (shares : bmap SecretShare) (cs : list Complaint),
  ds_comms st = Some comms -> ds_shares st = Some shares ->
  exists l keys st', blame (R2 st) cs = Ok (keys, R2 st') /\
    (forall j, In j l <-> convicted st cs j) /\
    StronglySorted (fun i j => (u32v i < u32v j)%N) l /\ keys_of st l keys /\
    pruned (convicted st cs) st st'.
Proof.
  intros S L st comms shares cs Hc Hs. exists (verdicts st cs). do 2 eexists.
  split; [apply (blame_eq st comms shares cs Hc Hs)|].
  destruct (verdicts_spec st comms cs Hc) as [H1 H2]. split; [exact H2|]. split; [exact H1|].
  split; [apply lookup_all_keys|]. eapply drop_state_pruned; eassumption.
Qed.
Print Assumptions C22_blame_outcome.

(** dealer 2 garbled the share for 3; 3 complains. Participant 1 removes 2 and gets back 2's key.
    The same complaint addressed against dealer 9 or 0, or with a spoiled proof, convicts 3. *)
Definition against (k : N) (c : Complaint) : Complaint :=
  MkComplaint (c_shared c) (c_pk c)
    (MkEnc (u k) (es_receiver (c_share c)) (es_nonce (c_share c)) (es_ct (c_share c))) (c_proof c).
Definition spoiled (c : Complaint) : Complaint :=
  MkComplaint (c_shared c) (c_pk c) (c_share c) (MkCProof (cp_a1 (c_proof c)) (cp_a2 (c_proof c)) (cp_z (c_proof c) + mk 1)%F).
Example C22_ex :
  blamed_view (honest_st 1) (victim_cs 2 3) =
    ([fv (pt_dh_pk (dealer 3 2 2 20))], [u 1; u 3], [u 1; u 3]) /\
  blamed_view (honest_st 1) [against 9 (victim_c 2 3)] = ([fv (pt_dh_pk (dealer 3 2 3 30))], [u 1; u 2], [u 1; u 2]) /\
  blamed_view (honest_st 1) [against 0 (victim_c 2 3)] = ([fv (pt_dh_pk (dealer 3 2 3 30))], [u 1; u 2], [u 1; u 2]) /\
  blamed_view (honest_st 1) [against 1 (victim_c 2 3)] = ([fv (pt_dh_pk (dealer 3 2 3 30))], [u 1; u 2], [u 1; u 2]) /\
  blamed_view (honest_st 1) [spoiled (victim_c 2 3); victim_c 2 3] =
    ([fv (pt_dh_pk (dealer 3 2 2 20)); fv (pt_dh_pk (dealer 3 2 3 30))], [u 1], [u 1]).
Proof. vms. Qed.

(** C23 *)
Theorem C23_order_and_duplicates_irrelevant :
  forall (S : Suite) (L : SuiteLaws S) (st : DkgState) (comms : bmap Vss) (shares : bmap SecretShare) (cs cs' : list Complaint),
  ds_comms st = Some comms -> ds_shares st = Some shares ->
  (forall c, In c cs <-> In c cs') -> blame (R2 st) cs = blame (R2 st) cs'.
Proof.
  intros S L st comms shares cs cs' Hc Hs H.
  rewrite !(blame_eq st comms shares) by assumption.
  destruct (verdicts_spec st comms cs Hc) as [H1 H2], (verdicts_spec st comms cs' Hc) as [H1' H2'].
  assert (E : verdicts st cs = verdicts st cs').
  { apply increasing_unique; auto. intros j. rewrite H2, H2'. unfold convicted.
    split; intros (c & A & B); exists c; (split; [apply H, A|exact B]). }
  rewrite E. reflexivity.
Qed.
Print Assumptions C23_order_and_duplicates_irrelevant.

(** nothing but the convicted indices disappears, and they disappear from both maps *)
Theorem C23_blame_only_removes :
  forall (S : Suite) (L : SuiteLaws S) (st : DkgState) (comms : bmap Vss) (shares : bmap SecretShare) (cs : list Complaint) keys s',
  ds_comms st = Some comms -> ds_shares st = Some shares ->
  blame (R2 st) cs = Ok (keys, s') ->
  ds_params (st2 s') = ds_params st /\ ds_index (st2 s') = ds_index st /\ ds_dh_sk (st2 s') = ds_dh_sk st /\
  ds_dh_pk (st2 s') = ds_dh_pk st /\ ds_dhs (st2 s') = ds_dhs st /\ ds_enc (st2 s') = ds_enc st /\
  exists comms' shares', ds_comms (st2 s') = Some comms' /\ ds_shares (st2 s') = Some shares' /\
    forall j, (convicted st cs j -> bget j comms' = None /\ bget j shares' = None) /\
              (~ convicted st cs j -> bget j comms' = bget j comms /\ bget j shares' = bget j shares).
Proof.
  intros S L st comms shares cs keys s' Hc Hs E.
  destruct (C22_blame_outcome S L st comms shares cs Hc Hs) as (l & ks & st' & E' & _ & _ & _ & HP).
  rewrite E in E'. injection E' as -> ->. cbn [st2].
  destruct HP as [P1 P2 P3 P4 P5 P6 (m & m' & A1 & A2 & A3) (n & n' & B1 & B2 & B3)].
  repeat (split; [assumption|]). exists m', n'. split; [exact A2|]. split; [exact B2|].
  assert (m = comms) by congruence. assert (n = shares) by congruence. subst m n. intros j.
  destruct (without_bget _ _ _ A3 j), (without_bget _ _ _ B3 j). auto.
Qed.
Print Assumptions C23_blame_only_removes.

Example C23_ex :
  blamed_view (honest_st 1) [victim_c 2 3; spoiled (victim_c 2 3); victim_c 2 3] =
  blamed_view (honest_st 1) [spoiled (victim_c 2 3); victim_c 2 3] /\
  blamed_view (honest_st 1) [] = ([], [u 1; u 2; u 3], [u 1; u 2; u 3]).
Proof. vms. Qed.

(** C24 *)
Theorem C24_genuine_complaint_removes_cheater :
  forall (S : Suite) (L : SuiteLaws S) (m : build) (stA stB : DkgState) (comms : bmap Vss) (shares : bmap SecretShare)
         (es : list EncShare) (r : Rng) (cs cs' : list Complaint) (c : Complaint),
  ds_comms stA = Some comms -> NoDup (bkeys comms) ->
  (to_round_two m (R1 stA) es r = Err (ComplaintErr cs) \/
   exists s2 r', to_round_two m (R1 stA) es r = Ok (s2, cs, r')) ->
  In c cs ->
  ds_comms stB = Some comms -> ds_dhs stB = ds_dhs stA -> ds_shares stB = Some shares ->
  accused c <> u32_zero -> (u32v (accused c) <= u32v (p_n (ds_params stB)))%N ->
  In c cs' ->
  (forall k, convicts stB c k <-> k = accused c) /\
  exists pk keys s' comms' shares', blame (R2 stB) cs' = Ok (keys, s') /\
    bget (accused c) (ds_dhs stB) = Some pk /\ In pk keys /\
    ds_comms (st2 s') = Some comms' /\ ds_shares (st2 s') = Some shares' /\
    bget (accused c) comms' = None /\ bget (accused c) shares' = None.
Proof.
  intros S L m stA stB comms shares es r cs cs' c Hc Hnd Hrun Hin HcB Hd HsB H0 Hn Hin'.
  assert (HL : complaint_list stA es cs).
  { destruct Hrun as [E|(s2 & r' & E)]; [|eapply to_round_two_inv; eassumption].
    destruct (N.lt_ge_cases (N.of_nat (length es)) (u32v (p_t (ds_params stA)))) as [Hl|Hl].
    { rewrite to_round_two_few in E by exact Hl. discriminate. }
    destruct (acceptable_split m stA es) as [HF|(es1 & e & es2 & -> & H1 & H2)].
    - destruct (to_round_two_done m stA comms es r Hc Hnd Hl HF) as (cs1 & r1 & HL & E1). rewrite E in E1.
      destruct (remaining _ _ _) as [y|]; [|discriminate]. destruct (N.ltb y _); [|discriminate]. congruence.
    - rewrite (to_round_two_stop m stA comms) in E by assumption. destruct (_ && _); discriminate. }
  assert (Hbad : exists e, bad_for stA e /\ complains stA e c).
  { clear -HL Hin. induction HL as [|e es c0 cs B C HL IH|e es cs B HL IH]; [contradiction| |auto].
    destruct Hin as [<-|Hin]; [eauto|auto]. }
  destruct Hbad as (e & (m0 & com & A1 & A2 & A3) & (C1 & C2 & pk & C3 & C4 & C5)).
  assert (m0 = comms) by congruence. subst m0. subst e.
  assert (U : upheld stB c).
  { split; [exact H0|]. split; [exact Hn|]. exists comms, com, pk. split; [exact HcB|]. split; [exact A2|].
    split; [left; rewrite Hd; exact C3|]. split; [exact C5|]. intros (v & Hv & Ho). apply A3. exists v. split; [|exact Ho].
    exists pk. split; [exact C3|]. rewrite <- C4. exact Hv. }
  split; [intros k; unfold convicts; tauto|].
  destruct (C22_blame_outcome S L stB comms shares cs' HcB HsB) as (l & keys & st' & E & Hl & _ & Hk & HP).
  assert (Hcv : convicted stB cs' (accused c)) by (exists c; split; [exact Hin'|left; auto]).
  destruct HP as [_ _ _ _ _ _ (m1 & m1' & P1 & P2 & P3) (m2 & m2' & Q1 & Q2 & Q3)].
  exists pk, keys, (R2 st'), m1', m2'. split; [exact E|]. rewrite Hd. split; [exact C3|].
  split; [eapply keys_of_in; [exact Hk|apply Hl, Hcv|rewrite Hd; exact C3]|]. cbn [st2].
  split; [exact P2|]. split; [exact Q2|].
  split; [apply (without_bget _ _ _ P3), Hcv|apply (without_bget _ _ _ Q3), Hcv].
Qed.
Print Assumptions C24_genuine_complaint_removes_cheater.

Definition comm_view (st : DkgState) : list (u32 * u32 * list Z) :=
  match ds_comms st with
  | Some m => map (fun x => (fst x, vss_index (snd x), map fv (vss_points (snd x)))) m
  | None => []
  end.
(** the complaint of 3 against 2, seen by 1 *)
Example C24_ex :
  length (victim_cs 2 3) = 1 /\ accused (victim_c 2 3) = u 2 /\ maker (victim_c 2 3) = u 3 /\
  comm_view (st1 (demo_r1 demo_ps 3)) = comm_view (honest_st 1) /\
  map (fun x => (fst x, fv (snd x))) (ds_dhs (st1 (demo_r1 demo_ps 3))) = map (fun x => (fst x, fv (snd x))) (ds_dhs (honest_st 1)) /\
  u32v (p_n (ds_params (honest_st 1))) = 3%N.
Proof. vms. Qed.

(** C25: a complaint about a correct share that reveals the right key K or does not verify convicts its maker; in every call of
    blame it is settled in, the maker's commitment and share are removed and the maker's key is returned; settled alone, it
    changes nothing else *)
Theorem C25_complaint_on_correct_share_backfires :
  forall (S : Suite) (L : SuiteLaws S) (st : DkgState) (comms : bmap Vss) (shares : bmap SecretShare) (com : Vss) (c : Complaint) (pk K : G) (v : F),
  ds_comms st = Some comms -> ds_shares st = Some shares -> bget (accused c) comms = Some com ->
  bget (accused c) (ds_dhs st) = Some pk ->
  decrypt_share (c_share c) (enc_point K) = Ok (MkShare (accused c) (maker c) v) -> on_commitment com (maker c) v ->
  (c_shared c = K \/ complaint_verify c pk <> Ok tt) ->
  (forall k, convicts st c k <-> k = maker c) /\
  (forall cs, In c cs -> exists keys s' comms' shares', blame (R2 st) cs = Ok (keys, s') /\
     ds_comms (st2 s') = Some comms' /\ ds_shares (st2 s') = Some shares' /\
     bget (maker c) comms' = None /\ bget (maker c) shares' = None /\
     (forall pkm, bget (maker c) (ds_dhs st) = Some pkm -> In pkm keys)) /\
  (exists s' comms' shares',
     blame (R2 st) [c] = Ok (match bget (maker c) (ds_dhs st) with Some pkm => [pkm] | None => [] end, s') /\
     ds_comms (st2 s') = Some comms' /\ ds_shares (st2 s') = Some shares' /\
     forall j, j <> maker c -> bget j comms' = bget j comms /\ bget j shares' = bget j shares).
Proof.
  intros S L st comms shares com c pk K v Hc Hs Hb Hpk Hd Ho Hor.
  assert (U : ~ upheld st c).
  { intros (_ & _ & m & com' & pk' & A & B & [R|[R _]] & V & D); [|congruence].
    assert (pk' = pk) by congruence. subst pk'. destruct Hor as [<-|Hor]; [|contradiction].
    apply D. exists v. assert (m = comms) by congruence. subst m. assert (com' = com) by congruence. subst com'. auto. }
  assert (Hcv : forall k, convicts st c k <-> k = maker c) by (intros k; unfold convicts; tauto).
  split; [exact Hcv|]. split.
  - intros cs Hin. destruct (C22_blame_outcome S L st comms shares cs Hc Hs) as (l & keys & st' & E & Hl & _ & Hk & HP).
    assert (Hm : convicted st cs (maker c)) by (exists c; split; [exact Hin|apply Hcv; reflexivity]).
    destruct HP as [_ _ _ _ _ _ (m1 & m1' & P1 & P2 & P3) (m2 & m2' & Q1 & Q2 & Q3)].
    exists keys, (R2 st'), m1', m2'. split; [exact E|]. cbn [st2]. split; [exact P2|]. split; [exact Q2|].
    split; [apply (without_bget _ _ _ P3), Hm|]. split; [apply (without_bget _ _ _ Q3), Hm|].
    intros pkm Hpm. eapply keys_of_in; [exact Hk|apply Hl, Hm|exact Hpm].
  - destruct (C22_blame_outcome S L st comms shares [c] Hc Hs) as (l & keys & st' & E & Hl & Hi & Hk & HP).
    assert (Hv : forall k, convicted st [c] k <-> k = maker c).
    { intros k. split; [intros (c' & [<-|[]] & X); apply Hcv, X|]. intros ->. exists c. split; [left; reflexivity|apply Hcv; reflexivity]. }
    assert (El : l = [maker c]).
    { destruct l as [|i l]; [exfalso; apply (Hl (maker c)), Hv; reflexivity|].
      assert (Ei : i = maker c) by (apply Hv, Hl; left; reflexivity). destruct l as [|i' l]; [rewrite Ei; reflexivity|]. exfalso.
      assert (Ei' : i' = maker c) by (apply Hv, Hl; right; left; reflexivity).
      inversion Hi as [|? ? _ HF]; subst. inversion HF as [|? ? X _]; subst. lia. }
    assert (Ek : keys = match bget (maker c) (ds_dhs st) with Some pkm => [pkm] | None => [] end).
    { rewrite El in Hk. inversion Hk as [|i l' k ks X Y|i l' ks X Y]; subst; inversion Y; subst; rewrite X; reflexivity. }
    destruct HP as [_ _ _ _ _ _ (m1 & m1' & P1 & P2 & P3) (m2 & m2' & Q1 & Q2 & Q3)].
    exists (R2 st'), m1', m2'. rewrite <- Ek. split; [exact E|]. cbn [st2]. split; [exact P2|]. split; [exact Q2|].
    intros j Hj. assert (m1 = comms) by congruence. assert (m2 = shares) by congruence. subst m1 m2.
    split; [apply (without_bget _ _ _ P3)|apply (without_bget _ _ _ Q3)]; rewrite Hv; exact Hj.
Qed.
Print Assumptions C25_complaint_on_correct_share_backfires.

(** an honest dealer j (coefficients co, DH secret y): if every complaint accusing j is about a ciphertext made by j for its
    maker and none names j as its maker, then a call of blame removes j only if one of them carries a verifying proof for a key
    other than the Diffie-Hellman key of j and the receiver *)
Theorem C25_honest_dealer_convicted_only_by_another_key :
  forall (S : Suite) (L : SuiteLaws S) (st : DkgState) (comms : bmap Vss) (shares : bmap SecretShare) (j : u32) (co : list F) (y : F)
         (cs : list Complaint) keys s' comms',
  ds_comms st = Some comms -> ds_shares st = Some shares ->
  bget j comms = Some (MkVss j (committed co)) -> bget j (ds_dhs st) = Some (gen * y)%G ->
  (forall c, In c cs -> maker c <> j) ->
  (forall c, In c cs -> accused c = j -> exists p, share_for j y co p (c_share c)) ->
  blame (R2 st) cs = Ok (keys, s') -> ds_comms (st2 s') = Some comms' -> bget j comms' = None ->
  exists c p, In c cs /\ accused c = j /\ share_for j y co p (c_share c) /\
    complaint_verify c (gen * y)%G = Ok tt /\ c_shared c <> (pt_dh_pk p * y)%G.
Proof.
  intros S L st comms shares j co y cs keys s' comms' Hc Hs Hb Hpk Hmk Hown Hbl Hc' Hn.
  destruct (C22_blame_outcome S L st comms shares cs Hc Hs) as (l & keys' & st' & E & Hl & _ & Hk & HP).
  rewrite E in Hbl. injection Hbl as _ <-. cbn [st2] in Hc'.
  destruct HP as [_ _ _ _ _ _ (m1 & m1' & P1 & P2 & P3) _].
  assert (m1 = comms) by congruence. assert (m1' = comms') by congruence. subst m1 m1'.
  assert (HV : convicted st cs j).
  { destruct (verdicts_spec st comms cs Hc) as [_ V]. destruct (in_dec u32_eq_dec j (verdicts st cs)) as [I|I]; [apply V, I|].
    exfalso. rewrite (proj2 (without_bget _ _ _ P3 j)) in Hn; [congruence|]. intros X. apply I, V, X. }
  destruct HV as (c & Hin & [[U Ha]|[_ Hm]]); [|exfalso; apply (Hmk c Hin); symmetry; exact Hm].
  destruct (Hown c Hin (eq_sym Ha)) as (p & S1 & S2 & S3).
  destruct U as (_ & _ & m & com & pk & A & B & [R|[R _]] & V & D); rewrite <- Ha in *; [|congruence].
  assert (pk = (gen * y)%G) by congruence. subst pk. exists c, p. split; [exact Hin|]. split; [symmetry; exact Ha|].
  split; [split; [exact S1|split; [exact S2|exact S3]]|]. split; [exact V|]. intros EK. apply D.
  exists (poly_value co (of_u32 (pt_index p))). unfold maker. rewrite S2, EK. split; [exact S3|].
  assert (m = comms) by congruence. subst m. rewrite Hb in B. injection B as <-.
  unfold on_commitment. cbn [vss_points]. rewrite gpoly_committed. reflexivity.
Qed.
Print Assumptions C25_honest_dealer_convicted_only_by_another_key.

(** participant 3 complains about the correct share of 2, revealing the right key: 3 is removed *)
Definition false_complaint : Complaint :=
  fst (complaint_new (pt_dh_pk (dealer 3 2 2 20)) (dealer_x 3 2 3 30)
         (pt_dh_pk (dealer 3 2 2 20) * dealer_x 3 2 3 30)%G (nth 1 (demo_shares 3) (c_share no_complaint)) 77%N).
Example C25_ex :
  accused false_complaint = u 2 /\ maker false_complaint = u 3 /\
  (let* s := decrypt_share (c_share false_complaint) (enc_point (c_shared false_complaint)) in
   Ok (sh_value s)) = Ok (poly_value (dealer_co 3 2 2 20) (mk 3)) /\
  complaint_verify false_complaint (pt_dh_pk (dealer 3 2 2 20)) = Ok tt /\
  blamed_view (honest_st 1) [false_complaint] = ([fv (pt_dh_pk (dealer 3 2 3 30))], [u 1; u 2], [u 1; u 2]).
Proof. vms. Qed.

(** C26 *)
Theorem C26_complaints_above_reduced_n_are_lost :
  forall (S : Suite) (L : SuiteLaws S) (m : build) (params : Params) (x : F) (my : u32) (co : list F)
         (ps : list Participant) (r r' : Rng) (st st' : DkgState) (lists : PartList) (comms : bmap Vss)
         (shares : bmap SecretShare) (cs : list Complaint) (j : u32),
  N.of_nat (length ps) = u32v (p_n params) -> (1 <= u32v (p_t params))%N -> (forall p, In p ps -> ~ crashing p) ->
  bootstrap m params x my co ps r = Ok (R1 st, lists, r') ->
  (N.of_nat (length (pl_valid lists)) < u32v j)%N ->
  (* any later state of this participant: the parameters never change again *)
  ds_params st' = ds_params st -> ds_comms st' = Some comms -> ds_shares st' = Some shares ->
  (forall c, In c cs -> accused c = j) ->
  (forall c k, In c cs -> (convicts st' c k <-> k = maker c)) /\
  exists keys s' comms', blame (R2 st') cs = Ok (keys, s') /\ ds_comms (st2 s') = Some comms' /\
    (forall c, In c cs -> bget (maker c) comms' = None) /\
    ((forall c, In c cs -> maker c <> j) -> bget j comms' = bget j comms).
Proof.
  intros S L m params x my co ps r r' st st' lists comms shares cs j Hn Ht Hcr E Hj Hp Hc Hs Hcs.
  assert (HR : u32v (p_n (ds_params st)) = N.of_nat (length (pl_valid lists))).
  { assert (Hc' : true && existsb crashb ps = false) by (apply existsb_crash_false, Hcr).
    destruct (N.lt_ge_cases (N.of_nat (length (filter (okb true true (p_t params)) ps))) (u32v (p_t params))) as [Hl|Hl].
    - unfold bootstrap in E. rewrite ns_toofew in E; auto; discriminate.
    - destruct (ns_success m params x my (Some co) ps true true r) as (st0 & r0 & E0 & H1 & _); eauto.
      unfold bootstrap in E. rewrite E in E0. injection E0 as -> -> ->. cbn [pl_valid]. apply H1. }
  assert (U : forall c, In c cs -> ~ upheld st' c).
  { intros c Hin (_ & H & _). rewrite (Hcs c Hin), Hp, HR in H. lia. }
  split; [intros c k Hin; specialize (U c Hin); unfold convicts; tauto|].
  destruct (C22_blame_outcome S L st' comms shares cs Hc Hs) as (l & keys & st'' & Eb & _ & _ & _ & HP).
  destruct HP as [_ _ _ _ _ _ (m1 & m1' & P1 & P2 & P3) _]. assert (m1 = comms) by congruence. subst m1.
  exists keys, (R2 st''), m1'. split; [exact Eb|]. split; [exact P2|]. split.
  - intros c Hin. apply (without_bget _ _ _ P3). exists c. split; [exact Hin|]. right. split; [apply U, Hin|reflexivity].
  - intros Hm. apply (without_bget _ _ _ P3). intros (c & Hin & [[X _]|[_ X]]); [exact (U c Hin X)|].
    symmetry in X. exact (Hm c Hin X).
Qed.
Print Assumptions C26_complaints_above_reduced_n_are_lost.

(** four participants, threshold 2; participant 1 has a spoiled proof and is excluded; dealer 4 garbles the share
    for 2; 2 complains; 3 removes the honest 2 and keeps the cheater 4 *)
Definition C26_ps : list Participant :=
  [without_dh_proof (dealer 4 2 1 10); dealer 4 2 2 20; dealer 4 2 3 30; dealer 4 2 4 40].
Definition C26_r1 (i : N) : RoundOne * PartList :=
  let '(s, l, _) := got (R1 no_state, MkPList [] None, 0%N)
    (bootstrap Debug (MkParams (u 4) (u 2)) (dealer_x 4 2 i (10 * i)) (u i) (dealer_co 4 2 i (10 * i)) C26_ps (1000 + i)%N) in (s, l).
Definition C26_shares (j : N) : list EncShare := shares_to j (map (fun i => fst (C26_r1 i)) [2; 3; 4]%N).
Definition C26_run (j : N) (es : list EncShare) : DkgState * list Complaint :=
  match to_round_two Debug (fst (C26_r1 j)) es 5%N with Ok (s, cs, _) => (st2 s, cs) | _ => (no_state, []) end.
Definition C26_complaints : list Complaint :=
  snd (C26_run 2 (map (fun e => if u32_eqb (es_sender e) (u 4) then garbled e else e) (C26_shares 2))).
Example C26_ex :
  length (pl_valid (snd (C26_r1 3))) = 3 /\ pl_mis (snd (C26_r1 3)) = Some [u 1] /\
  map (fun c => (accused c, maker c)) C26_complaints = [(u 4, u 2)] /\
  blamed_view (fst (C26_run 3 (C26_shares 3))) C26_complaints =
    ([fv (pt_dh_pk (dealer 4 2 2 20))], [u 3; u 4], [u 3; u 4]).
Proof. vms. Qed.

(** C27 *)
Theorem C27_anyone_can_frame_an_honest_dealer :
  forall (S : Suite) (L : SuiteLaws S) (st : DkgState) (comms : bmap Vss) (shares : bmap SecretShare) (com : Vss)
         (pk : G) (e : EncShare) (x : F) (r : Rng),
  ds_comms st = Some comms -> ds_shares st = Some shares ->
  let j := es_sender e in
  j <> u32_zero -> (u32v j <= u32v (p_n (ds_params st)))%N ->
  bget j comms = Some com -> bget j (ds_dhs st) = Some pk ->
  (* x is any scalar; e any ciphertext, for instance the genuine one; it does not open to the committed value under
     the key derived from x *)
  ~ (exists v, decrypt_share e (enc_point (pk * x)%G) = Ok (MkShare j (es_receiver e) v) /\ on_commitment com (es_receiver e) v) ->
  let c := fst (complaint_new pk x (pk * x)%G e r) in
  complaint_verify c pk = Ok tt /\
  (forall k, convicts st c k <-> k = j) /\
  exists keys s' comms', blame (R2 st) [c] = Ok (keys, s') /\ In pk keys /\ ds_comms (st2 s') = Some comms' /\
    bget j comms' = None /\ forall k, k <> j -> bget k comms' = bget k comms.
Proof.
  intros S L st comms shares com pk e x r Hc Hs j H0 Hn Hb Hpk Hx c.
  assert (V : complaint_verify c pk = Ok tt) by apply complaint_complete.
  assert (E1 : c_share c = e) by (unfold c, complaint_new; destruct (rand_scalar r); reflexivity).
  assert (E2 : c_shared c = (pk * x)%G) by (unfold c, complaint_new; destruct (rand_scalar r); reflexivity).
  assert (U : upheld st c).
  { unfold upheld, accused, maker. rewrite E1, E2. split; [exact H0|]. split; [exact Hn|]. exists comms, com, pk.
    split; [exact Hc|]. split; [exact Hb|]. split; [left; exact Hpk|]. split; [exact V|exact Hx]. }
  assert (A : accused c = j) by (unfold accused; rewrite E1; reflexivity).
  assert (Hk : forall k, convicts st c k <-> k = j) by (intros k; unfold convicts; rewrite A; tauto).
  split; [exact V|]. split; [exact Hk|].
  destruct (C22_blame_outcome S L st comms shares [c] Hc Hs) as (l & keys & st'' & Eb & Hl & _ & Hko & HP).
  destruct HP as [_ _ _ _ _ _ (m1 & m1' & P1 & P2 & P3) _]. assert (m1 = comms) by congruence. subst m1.
  assert (Hcv : forall k, convicted st [c] k <-> k = j).
  { intros k. rewrite <- Hk. split; [intros (c' & [<-|[]] & X); exact X|]. intros X. exists c. split; [left; reflexivity|exact X]. }
  exists keys, (R2 st''), m1'. split; [exact Eb|].
  split; [eapply keys_of_in; [exact Hko|apply Hl, Hcv; reflexivity|exact Hpk]|]. split; [exact P2|]. split.
  - apply (without_bget _ _ _ P3), Hcv. reflexivity.
  - intros k Hkj. apply (without_bget _ _ _ P3). rewrite Hcv. exact Hkj.
Qed.
Print Assumptions C27_anyone_can_frame_an_honest_dealer.

(** an outsider with key 987654321 frames the honest dealer 2 with 2's genuine ciphertext for 3 *)
Definition framing : Complaint :=
  fst (complaint_new (pt_dh_pk (dealer 3 2 2 20)) (mk 987654321) (pt_dh_pk (dealer 3 2 2 20) * mk 987654321)%G
         (nth 1 (demo_shares 3) (c_share no_complaint)) 5%N).
Example C27_ex :
  is_ok (decrypt_share (c_share framing) (enc_point (pt_dh_pk (dealer 3 2 2 20) * mk 987654321)%G)) = false /\
  blamed_view (honest_st 1) [framing] = ([fv (pt_dh_pk (dealer 3 2 2 20))], [u 1; u 3], [u 1; u 3]).
Proof. vms. Qed.

(** C28 *)
Theorem C28_separate_calls_remove_the_second_maker :
  forall (S : Suite) (L : SuiteLaws S) (st : DkgState) (comms : bmap Vss) (shares : bmap SecretShare) (a b : Complaint),
  ds_comms st = Some comms -> ds_shares st = Some shares ->
  upheld st a -> upheld st b -> accused a = accused b ->
  (forall k, convicted st [a; b] k <-> k = accused a) /\
  (exists keys s comms', blame (R2 st) [a; b] = Ok (keys, s) /\ ds_comms (st2 s) = Some comms' /\
     bget (accused a) comms' = None /\ forall k, k <> accused a -> bget k comms' = bget k comms) /\
  exists keys1 s1, blame (R2 st) [a] = Ok (keys1, s1) /\
    (forall k, convicted (st2 s1) [b] k <-> k = maker b) /\
    exists keys2 s2 comms', blame s1 [b] = Ok (keys2, s2) /\ ds_comms (st2 s2) = Some comms' /\
      bget (accused a) comms' = None /\ bget (maker b) comms' = None /\
      forall k, k <> accused a -> k <> maker b -> bget k comms' = bget k comms.
Proof.
  intros S L st comms shares a b Hc Hs Ua Ub Eab.
  assert (HA : forall k, convicted st [a; b] k <-> k = accused a).
  { intros k. split.
    + intros (c & [<-|[<-|[]]] & [[_ X]|[X _]]); try contradiction; congruence.
    + intros ->. exists a. split; [left; reflexivity|left; auto]. }
  split; [exact HA|]. split.
  { destruct (verdicts_spec st comms [a; b] Hc) as [_ HV].
    assert (W := drop_keys_without (verdicts st [a; b]) comms (convicted st [a; b]) HV).
    exists (lookup_all (ds_dhs st) (verdicts st [a; b])), (R2 (drop_state (verdicts st [a; b]) st)), (drop_keys (verdicts st [a; b]) comms).
    split; [apply (blame_eq st comms shares [a; b] Hc Hs)|]. split; [cbn; rewrite Hc; reflexivity|].
    split; [apply (without_bget _ _ _ W), HA; reflexivity|]. intros k Hk. apply (without_bget _ _ _ W). intros X. apply HA in X. contradiction. }
  do 2 eexists. split; [apply (blame_eq st comms shares [a] Hc Hs)|]. cbn [st2].
  assert (HB : forall k, convicted (drop_state (verdicts st [a]) st) [b] k <-> k = maker b).
  {
    destruct (verdicts_spec st comms [a] Hc) as [_ HV].
    assert (N : ~ upheld (drop_state (verdicts st [a]) st) b).
    { intros (_ & _ & m & com & pk & A & B & _). cbn in A. rewrite Hc in A. cbn in A. injection A as <-.
      assert (W := drop_keys_without (verdicts st [a]) comms (convicted st [a]) HV).
      assert (X : bget (accused b) (drop_keys (verdicts st [a]) comms) = None).
      { apply (without_bget _ _ _ W). exists a. split; [left; reflexivity|left; auto]. }
      congruence. }
    intros k. split.
    + intros (c & [<-|[]] & [[X _]|[_ X]]); [contradiction|exact X].
    + intros ->. exists b. split; [left; reflexivity|right; auto]. }
  split; [exact HB|].
  assert (Hc1 : ds_comms (drop_state (verdicts st [a]) st) = Some (drop_keys (verdicts st [a]) comms)) by (cbn; rewrite Hc; reflexivity).
  assert (Hs1 : ds_shares (drop_state (verdicts st [a]) st) = Some (drop_keys (verdicts st [a]) shares)) by (cbn; rewrite Hs; reflexivity).
  destruct (verdicts_spec st comms [a] Hc) as [_ HV1]. assert (W1 := drop_keys_without (verdicts st [a]) comms (convicted st [a]) HV1).
  destruct (verdicts_spec _ _ [b] Hc1) as [_ HV2].
  assert (W2 := drop_keys_without (verdicts (drop_state (verdicts st [a]) st) [b]) (drop_keys (verdicts st [a]) comms) _ HV2).
  do 3 eexists. split; [apply (blame_eq _ _ _ [b] Hc1 Hs1)|]. split; [cbn; rewrite Hc; reflexivity|].
  assert (HA1 : forall k, convicted st [a] k <-> k = accused a).
  { intros k. split; [intros (c & [<-|[]] & [[_ X]|[X _]]); [exact X|contradiction]|]. intros ->. exists a. split; [left; reflexivity|left; auto]. }
  split.
  { destruct (u32_eq_dec (accused a) (maker b)) as [E|E].
    - rewrite E. apply (without_bget _ _ _ W2), HB. reflexivity.
    - rewrite (proj2 (without_bget _ _ _ W2 (accused a))); [|intros X; apply HB in X; contradiction].
      apply (without_bget _ _ _ W1), HA1. reflexivity. }
  split; [apply (without_bget _ _ _ W2), HB; reflexivity|]. intros k H1 H2.
  rewrite (proj2 (without_bget _ _ _ W2 k)); [|intros X; apply HB in X; contradiction].
  apply (without_bget _ _ _ W1). intros X. apply HA1 in X. contradiction.
Qed.
Print Assumptions C28_separate_calls_remove_the_second_maker.

Theorem C28_separate_calls_agree_if_accused_survive :
  forall (S : Suite) (L : SuiteLaws S) (st : DkgState) (comms : bmap Vss) (shares : bmap SecretShare) (cs1 cs2 : list Complaint),
  ds_comms st = Some comms -> ds_shares st = Some shares ->
  (forall c, In c cs2 -> ~ convicted st cs1 (accused c)) ->
  exists keys keys1 keys2 s1 s2,
    blame (R2 st) cs1 = Ok (keys1, s1) /\ blame s1 cs2 = Ok (keys2, s2) /\
    blame (R2 st) (cs1 ++ cs2) = Ok (keys, s2).
Proof.
  intros S L st comms shares cs1 cs2 Hc Hs H.
  pose proof (blame_eq st comms shares cs1 Hc Hs) as E1.
  set (l1 := verdicts st cs1) in *. set (st1' := drop_state l1 st) in *.
  destruct (verdicts_spec st comms cs1 Hc) as [_ H1].
  assert (Hc1 : ds_comms st1' = Some (drop_keys l1 comms)) by (unfold st1'; cbn; rewrite Hc; reflexivity).
  assert (Hs1 : ds_shares st1' = Some (drop_keys l1 shares)) by (unfold st1'; cbn; rewrite Hs; reflexivity).
  pose proof (blame_eq st1' _ _ cs2 Hc1 Hs1) as E2.
  pose proof (blame_eq st comms shares (cs1 ++ cs2) Hc Hs) as E3.
  destruct (verdicts_spec st1' _ cs2 Hc1) as [_ H2]. destruct (verdicts_spec st comms (cs1 ++ cs2) Hc) as [_ H3].
  assert (W := drop_keys_without l1 comms (convicted st cs1) H1).
  assert (U : forall c, In c cs2 -> (upheld st1' c <-> upheld st c)).
  { intros c Hin. destruct (without_bget _ _ _ W (accused c)) as [_ X]. specialize (X (H c Hin)).
    assert (EA : forall v, bget (accused c) (drop_keys l1 comms) = Some v <-> bget (accused c) comms = Some v)
      by (intros v; rewrite X; tauto).
    unfold upheld. rewrite Hc1, Hc. split; intros (A & B & m & com & pk & [= <-] & D & R); (split; [exact A|]); (split; [exact B|]);
      do 3 eexists; (split; [reflexivity|]); (split; [apply EA, D|]); exact R. }
  assert (HV : forall j, In j (verdicts st (cs1 ++ cs2)) <-> In j l1 \/ In j (verdicts st1' cs2)).
  { intros j. unfold l1. rewrite H3, H2, H1. unfold convicted. split.
    - intros (c & Hin & X). apply in_app_or in Hin. destruct Hin as [Hin|Hin]; [left; eauto|right].
      exists c. split; [exact Hin|]. unfold convicts in *. rewrite (U c Hin). exact X.
    - intros [(c & Hin & X)|(c & Hin & X)]; exists c; (split; [apply in_or_app; auto|]); [exact X|].
      unfold convicts in *. rewrite <- (U c Hin). exact X. }
  rewrite <- (drop_state_app st l1 (verdicts st1' cs2) _ HV) in E3. fold st1' in E3.
  do 5 eexists. split; [exact E1|]. split; [exact E2|exact E3].
Qed.
Print Assumptions C28_separate_calls_agree_if_accused_survive.

(** dealer 2 cheats both 1 and 3; participant 3 settles both complaints *)
Definition blame_twice (st : DkgState) (a b : list Complaint) : list u32 :=
  match (let* (_, s) := blame (R2 st) a in blame s b) with
  | Ok (_, s) => match ds_comms (st2 s) with Some m => bkeys m | None => [] end
  | _ => []
  end.
Example C28_ex :
  accused (victim_c 2 1) = u 2 /\ accused (victim_c 2 3) = u 2 /\
  blamed_view (honest_st 1) [victim_c 2 1; victim_c 2 3] = ([fv (pt_dh_pk (dealer 3 2 2 20))], [u 1; u 3], [u 1; u 3]) /\
  blame_twice (honest_st 1) [victim_c 2 1] [victim_c 2 3] = [u 1] /\
  (* dealer 2 cheats 3, dealer 1 cheats 2: the order does not matter *)
  blame_twice (honest_st 3) [victim_c 2 3] [victim_c 1 2] = [u 3] /\
  blamed_view (honest_st 3) [victim_c 2 3; victim_c 1 2] =
    ([fv (pt_dh_pk (dealer 3 2 1 10)); fv (pt_dh_pk (dealer 3 2 2 20))], [u 3], [u 3]).
Proof. vms. Qed.

(** C29 *)
Theorem C29_rejected_complaint_removes_the_makers_index :
  forall (S : Suite) (L : SuiteLaws S) (st : DkgState) (comms : bmap Vss) (shares : bmap SecretShare) (cs : list Complaint)
         (c : Complaint),
  ds_comms st = Some comms -> ds_shares st = Some shares -> In c cs -> ~ upheld st c ->
  exists keys s' comms' shares', blame (R2 st) cs = Ok (keys, s') /\
    ds_comms (st2 s') = Some comms' /\ ds_shares (st2 s') = Some shares' /\
    bget (maker c) comms' = None /\ bget (maker c) shares' = None.
Proof.
  intros S L st comms shares cs c Hc Hs Hin U.
  destruct (C22_blame_outcome S L st comms shares cs Hc Hs) as (l & keys & st'' & Eb & _ & _ & _ & HP).
  destruct HP as [_ _ _ _ _ _ (m1 & m1' & P1 & P2 & P3) (m2 & m2' & Q1 & Q2 & Q3)].
  assert (X : convicted st cs (maker c)) by (exists c; split; [exact Hin|right; auto]).
  exists keys, (R2 st''), m1', m2'. split; [exact Eb|]. split; [exact P2|]. split; [exact Q2|].
  split; [apply (without_bget _ _ _ P3), X|apply (without_bget _ _ _ Q3), X].
Qed.
Print Assumptions C29_rejected_complaint_removes_the_makers_index.

(** resharing from the dealers 1, 2, 3 (threshold 2) to the signers 1, 2: signer 2 makes a false complaint against
    dealer 1; at signer 1 the honest dealer 2 loses its commitment and share *)
Definition C29_params : Params := MkParams (u 2) (u 2).
Definition C29_signers : list Participant := [signer 2 2 1 61; signer 2 2 2 62].
Definition C29_dealing (i : N) : Participant * bmap EncShare :=
  match reshare Debug C29_params (MkSK (u i) (mk (100 + Z.of_N i))) C29_signers (70 + i)%N with
  | Ok (d, es, _, _) => (d, es)
  | _ => (no_part, [])
  end.
Definition C29_r1 (i : N) : RoundOne :=
  let '(s, _, _) := got (R1 no_state, MkPList [] None, 0%N)
    (dkg_new Debug (MkParams (u 3) (u 2)) (signer_x 2 2 i (60 + i)) (u i) (map (fun i => fst (C29_dealing i)) [1; 2; 3]%N) 3%N) in s.
Definition C29_shares (j : N) : list EncShare :=
  flat_map (fun i => match bget (u j) (snd (C29_dealing i)) with Some e => [e] | None => [] end) [1; 2; 3]%N.
Definition C29_r2 : DkgState :=
  match to_round_two Debug (C29_r1 1) (C29_shares 1) 4%N with Ok (s, _, _) => st2 s | _ => no_state end.
Definition C29_false : Complaint :=
  fst (complaint_new (pt_dh_pk (fst (C29_dealing 1))) (signer_x 2 2 2 62)
         (pt_dh_pk (fst (C29_dealing 1)) * signer_x 2 2 2 62)%G (nth 0 (C29_shares 2) (c_share no_complaint)) 5%N).
Example C29_ex :
  blamed_view C29_r2 [] = ([], [u 1; u 2; u 3], [u 1; u 2; u 3]) /\
  accused C29_false = u 1 /\ maker C29_false = u 2 /\
  blamed_view C29_r2 [C29_false] = ([fv (pt_dh_pk (fst (C29_dealing 2)))], [u 1; u 3], [u 1; u 3]).
Proof. vms. Qed.

(** C30 *)
Theorem C30_finish_succeeds_for_any_retained_set :
  forall (S : Suite) (L : SuiteLaws S) (st : DkgState) (comms : bmap Vss) (shares : bmap SecretShare) (cs : list Complaint),
  ds_comms st = Some comms -> ds_shares st = Some shares ->
  good_indices (bkeys comms) -> good_indices (bkeys shares) ->
  (forall j c, bget j comms = Some c -> vss_points c <> []) ->
  exists keys s' gk sk comms', blame (R2 st) cs = Ok (keys, s') /\ ds_comms (st2 s') = Some comms' /\
    finish s' = Ok (gk, sk) /\ sk_index sk = ds_index st /\ first_points comms' gk /\
    ((forall j, In j (bkeys comms) \/ In j (bkeys shares) -> convicted st cs j) -> gk = Gzero /\ sk_key sk = F0).
Proof.
  intros S L st comms shares cs Hc Hs Hg Hg' Hne.
  destruct (C22_blame_outcome S L st comms shares cs Hc Hs) as (l & keys & st'' & Eb & _ & _ & _ & HP).
  destruct HP as [P1 P2 _ _ _ _ (m1 & m1' & A1 & A2 & A3) (m2 & m2' & B1 & B2 & B3)].
  assert (m1 = comms) by congruence. assert (m2 = shares) by congruence. subst m1 m2.
  assert (G1 : good_indices (bkeys m1')).
  { split; [eapply without_nodup; [exact A3|apply Hg]|]. intros X. apply (without_keys _ _ _ A3) in X. apply Hg, X. }
  assert (G2 : good_indices (bkeys m2')).
  { split; [eapply without_nodup; [exact B3|apply Hg']|]. intros X. apply (without_keys _ _ _ B3) in X. apply Hg', X. }
  assert (Hne' : forall j c, In (j, c) m1' -> vss_points c <> []).
  { intros j c Hin. apply (without_in _ _ _ A3) in Hin. destruct Hin as [Hin _]. apply in_bget in Hin; [|apply Hg].
    eapply Hne, Hin. }
  pose proof (finish_ok st'' m1' m2' A2 B2 G1 G2 Hne') as Ef.
  exists keys, (R2 st''). do 3 eexists. split; [exact Eb|]. split; [exact A2|]. split; [exact Ef|].
  split; [exact P2|]. split; [apply first_points_ex, Hne'|]. intros Hall.
  assert (m1' = []).
  { destruct m1' as [|[j c] rest]; [reflexivity|]. exfalso.
    destruct (proj1 (without_keys _ _ _ A3 j) (or_introl eq_refl)) as [X Y]. apply Y, Hall. left; exact X. }
  assert (m2' = []).
  { destruct m2' as [|[j c] rest]; [reflexivity|]. exfalso.
    destruct (proj1 (without_keys _ _ _ B3 j) (or_introl eq_refl)) as [X Y]. apply Y, Hall. right; exact X. }
  subst. split; reflexivity.
Qed.
Print Assumptions C30_finish_succeeds_for_any_retained_set.

(** threshold 2: with one dealer left, and with none left *)
Definition finish_after (st : DkgState) (cs : list Complaint) : result (G * F) :=
  let* (_, s) := blame (R2 st) cs in let* (gk, sk) := finish s in Ok (gk, sk_key sk).
Example C30_ex :
  finish_after (honest_st 1) [victim_c 2 3; spoiled (victim_c 2 3)] =
    Ok ((toy_gen * hd (mk 0) (dealer_co 3 2 1 10))%G, poly_value (dealer_co 3 2 1 10) (mk 1)) /\
  finish_after (honest_st 1) [victim_c 2 3; spoiled (victim_c 2 3); spoiled (victim_c 2 1)] = Ok (mk 0, mk 0).
Proof. vms. Qed.

(** C31 *)
Theorem C31_same_complaints_same_view :
  forall (S : Suite) (L : SuiteLaws S) (stA stB : DkgState) (comms : bmap Vss) (sharesA sharesB : bmap SecretShare)
         (csA csB : list Complaint),
  ds_params stA = ds_params stB -> ds_dhs stA = ds_dhs stB ->
  ds_comms stA = Some comms -> ds_comms stB = Some comms -> NoDup (bkeys comms) ->
  ds_shares stA = Some sharesA -> ds_shares stB = Some sharesB ->
  (forall c, In c csA <-> In c csB) ->
  exists keys sA sB, blame (R2 stA) csA = Ok (keys, sA) /\ blame (R2 stB) csB = Ok (keys, sB) /\
    ds_comms (st2 sA) = ds_comms (st2 sB) /\
    forall gkA skA gkB skB, finish sA = Ok (gkA, skA) -> finish sB = Ok (gkB, skB) -> gkA = gkB.
Proof.
  intros S L stA stB comms shA shB csA csB Hp Hd HA HB Hnd HsA HsB Hcs.
  assert (Hup : forall c, upheld stA c <-> upheld stB c).
  { intros c. unfold upheld, registered. rewrite HA, HB, Hd, Hp. tauto. }
  assert (Hcv : forall j, convicted stA csA j <-> convicted stB csB j).
  { intros j. unfold convicted, convicts. split; intros (c & H1 & H2); exists c; (split; [apply Hcs, H1|]);
      [rewrite <- (Hup c)|rewrite (Hup c)]; exact H2. }
  destruct (verdicts_spec stA comms csA HA) as [I1 V1], (verdicts_spec stB comms csB HB) as [I2 V2].
  assert (EV : verdicts stA csA = verdicts stB csB).
  { apply increasing_unique; auto. intros j. rewrite V1, V2. apply Hcv. }
  exists (lookup_all (ds_dhs stA) (verdicts stA csA)). do 2 eexists.
  split; [apply (blame_eq stA comms shA csA HA HsA)|].
  split; [rewrite EV, Hd; apply (blame_eq stB comms shB csB HB HsB)|]. rewrite EV. cbn [st2].
  split; [unfold drop_state; cbn; rewrite HA, HB; reflexivity|].
  intros gkA skA gkB skB FA FB. unfold finish in FA, FB. cbn [st2] in FA, FB.
  destruct (calculate_signing_key (drop_state _ stA)); try discriminate.
  destruct (calculate_signing_key (drop_state _ stB)); try discriminate. cbn [bind] in FA, FB.
  assert (EG : calculate_group_key (drop_state (verdicts stB csB) stA) = calculate_group_key (drop_state (verdicts stB csB) stB)).
  { unfold calculate_group_key, drop_state. cbn [ds_comms]. rewrite HA, HB. reflexivity. }
  rewrite EG in FA. destruct (calculate_group_key _); try discriminate. cbn [bind] in FA, FB. congruence.
Qed.
Print Assumptions C31_same_complaints_same_view.

Example C31_ex :
  (let* (g1, _) := finish_after (honest_st 1) [victim_c 2 3; victim_c 2 1] in
   let* (g3, _) := finish_after (honest_st 3) [victim_c 2 1; victim_c 2 3; victim_c 2 1] in Ok (Geqb g1 g3, fv g1)) =
  (let* (g1, _) := finish_after (honest_st 1) [victim_c 2 3] in Ok (true, fv g1)).
Proof. vmr. Qed.

(** C58: the maker of a complaint is not authenticated. A complaint naming the accused 0 convicts whatever index is
    written into its receiver field, without any proof; a list of such complaints removes everyone. *)
Theorem C58_unproven_complaint_removes_anyone :
  forall (S : Suite) (L : SuiteLaws S) (st : DkgState) (comms : bmap Vss) (shares : bmap SecretShare) (victims : list u32),
  ds_comms st = Some comms -> ds_shares st = Some shares ->
  forall (c : u32 -> Complaint), (forall j, accused (c j) = u32_zero /\ maker (c j) = j) ->
  exists keys s' comms' shares', blame (R2 st) (map c victims) = Ok (keys, s') /\
    ds_comms (st2 s') = Some comms' /\ ds_shares (st2 s') = Some shares' /\
    forall j, (In j victims -> bget j comms' = None /\ bget j shares' = None) /\
              (~ In j victims -> bget j comms' = bget j comms /\ bget j shares' = bget j shares).
Proof.
  intros S L st comms shares victims Hc Hs c Hcj.
  assert (CV : forall j, convicted st (map c victims) j <-> In j victims).
  { intros j. unfold convicted. split.
    - intros (x & Hin & Hx). apply in_map_iff in Hin. destruct Hin as (k & <- & Hk). destruct (Hcj k) as [A B].
      destruct Hx as [[(X & _) _]|[_ ->]]; [contradiction|]. rewrite B. exact Hk.
    - intros Hj. exists (c j). split; [apply in_map, Hj|]. destruct (Hcj j) as [A B]. right. split; [|congruence].
      intros (X & _). contradiction. }
  destruct (C22_blame_outcome S L st comms shares (map c victims) Hc Hs) as (l & ks & st' & E' & _).
  destruct (C23_blame_only_removes S L st comms shares (map c victims) ks (R2 st') Hc Hs E')
    as (_ & _ & _ & _ & _ & _ & m & n & A & B & C).
  exists ks, (R2 st'), m, n. split; [exact E'|]. split; [exact A|]. split; [exact B|]. intros j.
  specialize (C j). rewrite (CV j) in C. exact C.
Qed.
Print Assumptions C58_unproven_complaint_removes_anyone.

(** zero bytes instead of a proof, nobody accused, maker j *)
Definition empty_complaint (j : u32) : Complaint :=
  MkComplaint (mk 0) (mk 0) (MkEnc u32_zero j (fst (gen_nonce 0%N)) []) (MkCProof (mk 0) (mk 0) (mk 0)).
Example C58_ex :
  (forall j, accused (empty_complaint j) = u32_zero /\ maker (empty_complaint j) = j) /\
  blamed_view (honest_st 1) (map empty_complaint [u 2; u 3]) =
    ([fv (pt_dh_pk (dealer 3 2 2 20)); fv (pt_dh_pk (dealer 3 2 3 30))], [u 1], [u 1]) /\
  finish_after (honest_st 1) (map empty_complaint [u 1; u 2; u 3]) = Ok (mk 0, mk 0).
Proof. split; [split; reflexivity|]. vms. Qed.
