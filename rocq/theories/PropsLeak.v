(** C80: complaints reveal the maker's own shares. *)
From Coq Require Import String Strings.Byte Arith NArith ZArith Bool List Lia Permutation Sorted.
From Verif Require Import Base Suite Spec SpecDkg SpecAuth Types Algebra BaseLemmas ModelDkg LemmasShare LemmasRound1 LemmasRound2
  LemmasFinish LemmasBlame Toy Demo DemoDkg PropsRound2 PropsFinish PropsBlame PropsReflect.
Import ListNotations.

Section Leak.
  Context {S : Suite} {L : SuiteLaws S}.

  Lemma same_index params parties (p q : Party) : honest_parties params parties -> In p parties -> In q parties ->
    y_index p = y_index q -> p = q.
  Proof.
    intros H Hz Hz' Ez. destruct (hp_indices _ _ H) as [I _]. clear - I Hz Hz' Ez. induction parties as [|a l IH]; [contradiction|].
    cbn [map] in I. apply NoDup_cons_iff in I. destruct I as [I1 I2].
    destruct Hz as [->|Hz], Hz' as [->|Hz']; auto.
    - destruct I1. rewrite Ez. apply in_map, Hz'.
    - destruct I1. rewrite <- Ez. apply in_map, Hz.
  Qed.
  Lemma complaint_list_in st es cs : complaint_list st es cs -> forall c, In c cs -> exists e, In e es /\ bad_for st e /\ complains st e c.
  Proof.
    induction 1 as [|e es c cs B C HL IH|e es cs B HL IH]; intros c0 Hc; [contradiction| |].
    - destruct Hc as [<-|Hc]; [exists e; cbn; auto|]. destruct (IH c0 Hc) as (e0 & I & J). exists e0. cbn. auto.
    - destruct (IH c0 Hc) as (e0 & I & J). exists e0. cbn. auto.
  Qed.
  Lemma complaint_list_tail st es bads cs : complaint_list st (es ++ bads) cs -> (forall x, In x es -> ~ bad_for st x) ->
    (forall x, In x bads -> bad_for st x) -> map accused cs = map es_sender bads.
  Proof.
    revert cs. induction es as [|x es IH]; intros cs HL HG HB; cbn [app] in HL.
    - clear HG. revert cs HL. induction bads as [|x bads IH]; intros cs HL.
      + inversion HL; subst. reflexivity.
      + inversion HL as [|e0 es c cs' B C HL' E1 E2|e0 es cs' B HL' E1 E2]; subst.
        * cbn [map]. destruct C as [C _]. unfold accused at 1. rewrite C. f_equal. apply IH; [|exact HL'].
          intros y Hy. apply HB. right; exact Hy.
        * destruct B. apply HB. left; reflexivity.
    - inversion HL as [|e0 es0 c cs' B C HL' E1 E2|e0 es0 cs' B HL' E1 E2]; subst.
      + destruct (HG x (or_introl eq_refl) B).
      + apply IH; auto. intros y Hy. apply HG. right; exact Hy.
  Qed.
  Lemma round_two_complaints m st comms es r cs : ds_comms st = Some comms -> NoDup (bkeys comms) ->
    (to_round_two m (R1 st) es r = Err (ComplaintErr cs) \/ exists s2 r', to_round_two m (R1 st) es r = Ok (s2, cs, r')) ->
    complaint_list st es cs.
  Proof.
    intros Hc Hnd [E|(s2 & r' & E)].
    - apply (proj2 (C16_complaints_exact S L m st comms es r Hc Hnd) cs E).
    - apply (proj1 (C16_complaints_exact S L m st comms es r Hc Hnd) s2 cs r' E).
  Qed.
End Leak.

(** C80 *)
Theorem C80_complaints_reveal_the_makers_shares :
  forall (S : Suite) (L : SuiteLaws S) (m : build) (params : Params) (parties : list Party) (q : Party)
    (es : list EncShare) (r : Rng) (cs : list Complaint),
  honest_parties params parties -> all_bootstrapped m params parties -> In q parties ->
  (to_round_two m (y_st q) es r = Err (ComplaintErr cs) \/ exists s2 r', to_round_two m (y_st q) es r = Ok (s2, cs, r')) ->
  (** each complaint opens the maker's own share for the accused *)
  (forall c, In c cs -> exists p e, In p parties /\ accused c = y_index p /\ bget (y_index p) (y_es q) = Some e /\
     decrypt_share e (enc_point (c_shared c)) =
       Ok (MkShare (y_index q) (y_index p) (poly_value (y_co q) (of_u32 (y_index p))))) /\
  (** t of them give the maker's secret, from the complaints and the encrypted shares the maker sent *)
  (forall cs0 pts, (forall c, In c cs0 -> In c cs) -> NoDup (map accused cs0) -> (u32v (p_t params) <= N.of_nat (length cs0))%N ->
     Forall2 (fun c iv => fst iv = accused c /\ exists e, bget (accused c) (y_es q) = Some e /\
        decrypt_share e (enc_point (c_shared c)) = Ok (MkShare (y_index q) (accused c) (snd iv))) cs0 pts ->
     hd_error (y_co q) = Some (interp0 pts)).
Proof.
  intros S L m params parties q es r cs H HB Hq E.
  destruct (honest_state m params parties q H HB Hq) as (st & comms & ps & Est & HPs & [K1 K2] & R & Hc & Hnd & Hcm & Hdh).
  rewrite Est in E. pose proof (round_two_complaints m st comms es r cs Hc Hnd E) as HL.
  assert (A : forall c, In c cs -> exists p e, In p parties /\ accused c = y_index p /\ bget (y_index p) (y_es q) = Some e /\
     decrypt_share e (enc_point (c_shared c)) =
       Ok (MkShare (y_index q) (y_index p) (poly_value (y_co q) (of_u32 (y_index p))))).
  { intros c Hin. destruct (complaint_list_in st es cs HL c Hin) as (e & _ & (c0 & com & B1 & B2 & _) & C1 & C2 & pk & C3 & C4 & _).
    assert (c0 = comms) by congruence. subst c0. apply Hcm in B2. destruct B2 as (p & Hp & Ep & _).
    destruct (honest_fresh params parties p H Hp) as [Hi _ _ _ _ _].
    destruct (K2 (y_index p) (y_d p)) as (e' & G1 & _).
    { apply last_with_distinct; [eapply honest_nodup_ps; eassumption|]. split; [|exact Hi].
      eapply Permutation_in; [apply Permutation_sym, HPs|]. apply in_map, Hp. }
    exists p, e'. split; [exact Hp|]. split; [unfold accused; rewrite C1; congruence|]. split; [exact G1|].
    rewrite <- Ep, Hdh in C3 by exact Hp. injection C3 as <-. rewrite C4, (rec_sk _ _ _ _ _ R).
    eapply own_share; eassumption. }
  split; [exact A|]. intros cs0 pts Hsub Hn Ht HF.
  assert (Ep : pts = map (fun i => (i, poly_value (y_co q) (of_u32 i))) (map accused cs0)).
  { clear - A Hsub HF. induction HF as [|c [i v] cs0 pts (F1 & e & F2 & F3) HF IH]; [reflexivity|]. cbn [map fst snd] in *.
    destruct (A c (Hsub c (or_introl eq_refl))) as (p & e' & _ & E1 & E2 & E3). rewrite E1 in *. rewrite F2 in E2. injection E2 as <-.
    rewrite E3 in F3. injection F3 as F3. rewrite F1, <- F3. f_equal. apply IH. intros c0 Hc0. apply Hsub. right; exact Hc0. }
  destruct (honest_fresh params parties q H Hq) as [_ _ Hlen _ _ _].
  rewrite Ep, interp0_poly; [|exact Hn|rewrite map_length; lia].
  destruct (y_co q) as [|a0 co]; [|].
  - cbn in Hlen. destruct (hp_threshold _ _ H) as [T _]. lia.
  - cbn [hd_error]. f_equal. symmetry. apply poly_value_0.
Qed.
Print Assumptions C80_complaints_reveal_the_makers_shares.

(** an adversary who only adds messages to what q receives makes q publish such complaints against any dealers it likes *)
Theorem C80_the_network_chooses_the_accused :
  forall (S : Suite) (L : SuiteLaws S) (m : build) (params : Params) (parties : list Party) (q : Party)
    (senders : list Party) (es bads : list EncShare) (r : Rng),
  honest_parties params parties -> all_bootstrapped m params parties -> In q parties ->
  Permutation senders parties -> delivered senders q es ->
  (forall e, In e bads -> exists p, In p parties /\ es_sender e = y_index p /\ es_receiver e = y_index q /\
     decrypt_share e (enc_point ((gen * y_x p) * y_x q)%G) <>
       Ok (MkShare (y_index p) (y_index q) (poly_value (y_co p) (of_u32 (y_index q))))) ->
  (u32v (p_t params) + N.of_nat (length bads) <= u32v (p_n params))%N ->
  exists s2 cs r', to_round_two m (y_st q) (es ++ bads) r = Ok (s2, cs, r') /\ map accused cs = map es_sender bads.
Proof.
  intros S L m params parties q senders es bads r H HB Hq HP HD Hbad Ht.
  destruct (honest_state m params parties q H HB Hq) as (st & comms & ps & Est & HPs & _ & R & Hc & Hnd & Hcm & Hdh).
  pose proof (honest_delivered m params parties senders q es H HB Hq HP HD) as HF.
  assert (Hpn : u32v (p_n (ds_params st)) = u32v (p_n params)).
  { rewrite (rec_n _ _ _ _ _ R), (Permutation_length HPs), map_length. apply H. }
  assert (Hin : forall x, In x es -> exists z, In z parties /\ es_sender x = y_index z /\ es_receiver x = y_index q /\
    decrypt_share x (enc_point ((gen * y_x z) * y_x q)%G) = Ok (MkShare (y_index z) (y_index q) (poly_value (y_co z) (of_u32 (y_index q))))).
  { assert (Hs : forall z, In z senders -> In z parties) by (intros z Hz; eapply Permutation_in; eassumption).
    clear - HF Hs. revert es HF. induction senders as [|z zs IH]; intros l HF x Hx; cbn [map] in HF.
    - inversion HF; subst. contradiction.
    - inversion HF as [|? x0 ? l0 A B]; subst. destruct Hx as [<-|Hx].
      + exists z. split; [apply Hs; left; reflexivity|]. exact A.
      + apply (IH (fun y Hy => Hs y (or_intror Hy)) l0 B x Hx). }
  assert (Hok : forall x, In x es -> acceptable m st x /\ ~ bad_for st x).
  { intros x Hx. destruct (Hin x Hx) as (z & Hz & E1 & E2 & E3). split.
    - split; [intros _; rewrite (rec_index _ _ _ _ _ R); exact E2|]. exists (gen * y_x z)%G. rewrite E1. apply Hdh, Hz.
    - intros (c0 & com & A1 & A2 & A3). apply A3. assert (c0 = comms) by congruence. subst c0.
      rewrite E1 in A2. apply Hcm in A2. destruct A2 as (z' & Hz' & Ez & ->).
      pose proof (same_index params parties z' z H Hz' Hz Ez) as ->.
      exists (poly_value (y_co z) (of_u32 (y_index q))). split.
      + exists (gen * y_x z)%G. rewrite E1, E2, (rec_sk _ _ _ _ _ R). split; [apply Hdh, Hz|exact E3].
      + unfold on_commitment. cbn [vss_points]. rewrite gpoly_committed, E2. reflexivity. }
  assert (Hko : forall x, In x bads -> acceptable m st x /\ bad_for st x).
  { intros x Hx. destruct (Hbad x Hx) as (p & Hp & Es & Er & Hd). split.
    - split; [intros _; rewrite (rec_index _ _ _ _ _ R); exact Er|]. exists (gen * y_x p)%G. rewrite Es. apply Hdh, Hp.
    - exists comms, (MkVss (y_index p) (committed (y_co p))). split; [exact Hc|]. split; [rewrite Es; apply Hcm; eauto|].
      intros (v & (pk & O1 & O2) & O3). apply Hd. rewrite Es, Hdh in O1 by exact Hp. injection O1 as <-.
      rewrite (rec_sk _ _ _ _ _ R), Es, Er in O2. rewrite O2. unfold on_commitment in O3. cbn [vss_points] in O3.
      rewrite gpoly_committed, Er in O3. apply gen_inj in O3. rewrite O3. reflexivity. }
  destruct (to_round_two_done m st comms (es ++ bads) r Hc Hnd) as (cs & r' & HL & E).
  { rewrite (rec_t _ _ _ _ _ R). apply Forall2_len in HF. rewrite map_length, (Permutation_length HP) in HF.
    rewrite app_length. destruct H as [H1 H2 _ _]. lia. }
  { apply Forall_app. split; apply Forall_forall; intros x Hx; [apply Hok, Hx|apply Hko, Hx]. }
  pose proof (complaint_list_tail st es bads cs HL (fun x Hx => proj2 (Hok x Hx)) (fun x Hx => proj2 (Hko x Hx))) as M.
  assert (Hlen : length cs = length bads) by (rewrite <- (map_length accused cs), M, map_length; reflexivity).
  unfold remaining in E. rewrite Hlen, Hpn, (rec_t _ _ _ _ _ R) in E. pose proof (u32_bound (p_n params)) as Hb.
  rewrite (N.mod_small (N.of_nat (length bads))) in E by lia.
  replace (u32v (p_n params) <? N.of_nat (length bads))%N with false in E by (symmetry; apply N.ltb_ge; lia).
  replace (u32v (p_n params) - N.of_nat (length bads) <? u32v (p_t params))%N with false in E by (symmetry; apply N.ltb_ge; lia).
  rewrite Est. eexists _, cs, r'. split; [exact E|exact M].
Qed.
Print Assumptions C80_the_network_chooses_the_accused.

(** participant 1 gets its own shares for 2 and 3 back; its two complaints give its secret (threshold two) *)
Definition reflected_from (o : option EncShare) (j : N) : list EncShare :=
  match o with None => [] | Some e => [relabelled e (u j) (u 1)] end.
Definition C80_bads : list EncShare :=
  reflected_from (bget (u 2) (y_es (demo_party 1))) 2 ++ reflected_from (bget (u 3) (y_es (demo_party 1))) 3.
Definition complaints_in (o : result (RoundTwo * list Complaint * Rng)) : list Complaint :=
  match o with Err (ComplaintErr cs) => cs | Ok (_, cs, _) => cs | _ => [] end.
Definition C80_complaints : list Complaint := complaints_in (to_round_two Debug (demo_r1 demo_ps 1) (demo_shares 1 ++ C80_bads) 7%N).
Definition opened (c : Complaint) (o : option EncShare) : list (u32 * F) :=
  match o with
  | Some e => match decrypt_share e (enc_point (c_shared c)) with Ok s => [(sh_receiver s, sh_value s)] | _ => [] end
  | None => []
  end.
Definition C80_points : list (u32 * F) := flat_map (fun c => opened c (bget (accused c) (y_es (demo_party 1)))) C80_complaints.
Definition is_complaint_error (o : result (RoundTwo * list Complaint * Rng)) : bool :=
  match o with Err (ComplaintErr _) => true | _ => false end.
Example C80_ex :
  is_complaint_error (to_round_two Debug (demo_r1 demo_ps 1) (demo_shares 1 ++ C80_bads) 7%N) = true /\
  map accused C80_complaints = [u 2; u 3] /\ map fst C80_points = [u 2; u 3] /\
  hd_error (dealer_co 3 2 1 10) = Some (interp0 C80_points).
Proof. vms. Qed.
(** with one of the two the call returns *)
Example C80_ex_one :
  is_ok (to_round_two Debug (demo_r1 demo_ps 1) (demo_shares 1 ++ firstn 1 C80_bads) 7%N) = true /\
  map (fun e => (es_sender e, es_receiver e)) (firstn 1 C80_bads) = [(u 2, u 1)] /\
  Feqb (poly_value (y_co (demo_party 1)) (mk 2)) (poly_value (y_co (demo_party 2)) (mk 1)) = false.
Proof. vms. Qed.
