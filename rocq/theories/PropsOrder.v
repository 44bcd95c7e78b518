(** C110: the order in which messages arrive does not matter, if nobody's message is there twice. *)
From Coq Require Import String Strings.Byte Arith NArith ZArith Bool List Lia Permutation Field.
From Verif Require Import Base BaseLemmas Suite Algebra Spec Types Toy ModelDkg ModelSign SpecDkg LemmasShare LemmasRound1 LemmasRound2 LemmasFinish
  LemmasBlame PropsShare PropsRound1 PropsFinish PropsBlame PropsView Demo DemoDkg.
Import ListNotations.

Section Order.
  Context {S : Suite} {L : SuiteLaws S}.

  (** what a complaint says, without its proof *)
  Definition says (c : Complaint) : G * G * EncShare := (c_shared c, c_pk c, c_share c).

  (** round one, of a key generation or of a resharing *)
  Definition round_one (reshared : bool) (m : build) (params : Params) (x : F) (my : u32) (co : list F) (ps : list Participant) (r : Rng) :=
    if reshared then dkg_new m params x my ps r else bootstrap m params x my co ps r.
  (** one participant's session: round one with the published participants, round two with the shares received, settling
      of the published complaints, finish *)
  Definition session (reshared : bool) (m : build) (params : Params) (x : F) (my : u32) (co : list F) (ps : list Participant)
      (es : list EncShare) (cs : list Complaint) (r q : Rng) : result (list Complaint * list G * G * SigningKey) :=
    let* (s1, _, _) := round_one reshared m params x my co ps r in
    let* (s2, raised, _) := to_round_two m s1 es q in
    let* (keys, s3) := blame s2 cs in
    let* (gk, sk) := finish s3 in
    Ok (raised, keys, gk, sk).

  Lemma binsert_all_perm {V} (l l' : list (u32 * V)) : Permutation l l' -> NoDup (map fst l) -> forall m, ksorted m ->
    binsert_all l m = binsert_all l' m.
  Proof.
    induction 1 as [|[k v] l l' HP IH|[k v] [k' v'] l|l l1 l2 H1 IH1 H2 IH2]; intros Hnd m Hm.
    - reflexivity.
    - cbn. inversion Hnd; subst. apply IH; [assumption|apply ksorted_binsert, Hm].
    - cbn. inversion Hnd as [|? ? Hni Hnd']; subst. rewrite binsert_comm; [reflexivity|exact Hm|].
      intros ->. apply Hni. left. reflexivity.
    - rewrite IH1 by assumption. apply IH2; [|assumption]. eapply Permutation_NoDup; [apply Permutation_map, H1|exact Hnd].
  Qed.
  Lemma flat_map_perm {A B} (f : A -> list B) l l' : Permutation l l' -> Permutation (flat_map f l) (flat_map f l').
  Proof.
    induction 1; cbn; auto.
    - apply Permutation_app_head; assumption.
    - rewrite !app_assoc. apply Permutation_app_tail, Permutation_app_comm.
    - eapply Permutation_trans; eassumption.
  Qed.
  Lemma opened_keys st es k : In k (map fst (opened st es)) -> In k (map es_sender es).
  Proof.
    induction es as [|e es IH]; cbn; [auto|]. rewrite map_app, in_app_iff. intros [H|H]; [|right; apply IH, H].
    destruct (bget _ _); [|contradiction]. destruct (decrypt_share _ _); try contradiction. destruct H as [<-|[]]. left; reflexivity.
  Qed.
  Lemma opened_nodup st es : NoDup (map es_sender es) -> NoDup (map fst (opened st es)).
  Proof.
    induction es as [|e es IH]; cbn; intros H; [constructor|]. inversion H as [|? ? H1 H2]; subst.
    destruct (bget _ _); [|apply IH, H2]. destruct (decrypt_share _ _); try (apply IH, H2). cbn. constructor; [|apply IH, H2].
    intros X. apply opened_keys in X. contradiction.
  Qed.
  Lemma state_perm st es es' : NoDup (map es_sender es) -> Permutation es es' -> round_two_state st es = round_two_state st es'.
  Proof.
    intros Hnd HP. unfold round_two_state. f_equal. f_equal. apply binsert_all_perm; [apply flat_map_perm, HP|apply opened_nodup, Hnd|apply ksorted_nil].
  Qed.
  Lemma complaints_perm st es es' : Permutation es es' -> forall cs, complaint_list st es cs -> exists cs', complaint_list st es' cs' /\ Permutation cs cs'.
  Proof.
    induction 1 as [|e l l' HP IH|e e' l|l l1 l2 H1 IH1 H2 IH2]; intros cs H.
    - exists cs. auto.
    - inversion H as [|? ? c cs1 A B C|? ? ? A C]; subst.
      + destruct (IH _ C) as (cs' & D & P). exists (c :: cs'). split; [constructor; assumption|constructor; exact P].
      + destruct (IH _ C) as (cs' & D & P). exists cs'. split; [constructor; assumption|exact P].
    - inversion H as [|? ? c cs1 A B C|? ? ? A C]; subst; inversion C as [|? ? c' cs2 A' B' C'|? ? ? A' C']; subst.
      + exists (c' :: c :: cs2). split; [repeat (constructor; try assumption)|apply perm_swap].
      + exists (c :: cs1). split; [apply cl_good; [assumption|]; constructor; assumption|apply Permutation_refl].
      + exists (c' :: cs2). split; [constructor; try assumption; apply cl_good; assumption|apply Permutation_refl].
      + exists cs. split; [repeat (apply cl_good; try assumption)|apply Permutation_refl].
    - destruct (IH1 _ H) as (cs1 & A & P). destruct (IH2 _ A) as (cs2 & B & Q). exists cs2. split; [exact B|eapply Permutation_trans; eassumption].
  Qed.
  Lemma complaints_same st es : forall cs cs', complaint_list st es cs -> complaint_list st es cs' -> map says cs = map says cs'.
  Proof.
    induction es as [|e es IH]; intros cs cs' H H'.
    - inversion H; inversion H'; reflexivity.
    - inversion H as [|? ? c cs1 A B C|? ? ? A C]; subst; inversion H' as [|? ? c' cs1' A' B' C'|? ? ? A' C']; subst; try contradiction.
      + cbn [map]. f_equal; [|apply IH; assumption]. destruct B as (B1 & B2 & pk & B3 & B4 & _), B' as (D1 & D2 & pk' & D3 & D4 & _).
        unfold says. congruence.
      + apply IH; assumption.
  Qed.
  Lemma complaints_order st es es' cs cs' : Permutation es es' -> complaint_list st es cs -> complaint_list st es' cs' ->
    Permutation (map says cs) (map says cs').
  Proof.
    intros HP H H'. destruct (complaints_perm st es es' HP cs H) as (cs1 & A & P). rewrite <- (complaints_same st es' cs1 cs' A H').
    apply Permutation_map, P.
  Qed.
  Lemma round_two_perm m st comms es es' r r' s2 cs q : ds_comms st = Some comms -> NoDup (bkeys comms) -> NoDup (map es_sender es) -> Permutation es es' ->
    to_round_two m (R1 st) es r = Ok (s2, cs, q) ->
    exists cs' q', to_round_two m (R1 st) es' r' = Ok (s2, cs', q') /\ Permutation (map says cs) (map says cs').
  Proof.
    intros Hc Hk Hnd HP E.
    destruct (N.lt_ge_cases (N.of_nat (length es)) (u32v (p_t (ds_params st)))) as [Hl|Hl]; [rewrite to_round_two_few in E by exact Hl; discriminate|].
    destruct (to_round_two_inv m st comms es r s2 cs q Hc Hk E) as (HF & HL & ->).
    assert (HF' : Forall (acceptable m st) es') by (rewrite Forall_forall in *; intros e He; apply HF; eapply Permutation_in; [apply Permutation_sym, HP|exact He]).
    assert (Hl' : (u32v (p_t (ds_params st)) <= N.of_nat (length es'))%N) by (rewrite <- (Permutation_length HP); exact Hl).
    destruct (to_round_two_done m st comms es r Hc Hk Hl HF) as (cs0 & q0 & HL0 & E0). rewrite E in E0.
    destruct (to_round_two_done m st comms es' r' Hc Hk Hl' HF') as (cs' & q' & HL' & E').
    pose proof (complaints_order st es es' cs0 cs' HP HL0 HL') as HPc. pose proof (Permutation_length HPc) as Hlen. rewrite !map_length in Hlen.
    rewrite Hlen in E0. exists cs', q'. split; [|apply (complaints_order st es es' cs cs' HP HL HL')].
    rewrite E'. destruct (remaining _ _ _) as [z|]; [|discriminate]. destruct (z <? _)%N; [discriminate|]. rewrite (state_perm st es es' Hnd HP). reflexivity.
  Qed.

  (** the parts of the state that round two uses *)
  Lemma round_two_same m st st' es r : ds_params st = ds_params st' -> ds_index st = ds_index st' -> ds_dh_sk st = ds_dh_sk st' -> ds_dh_pk st = ds_dh_pk st' ->
    ds_comms st = ds_comms st' -> ds_dhs st = ds_dhs st' -> ds_shares st = ds_shares st' -> to_round_two m (R1 st) es r = to_round_two m (R1 st') es r.
  Proof.
    destruct st as [p i x pk c d e s], st' as [p' i' x' pk' c' d' e' s']. cbn. intros -> -> -> -> -> -> ->. reflexivity.
  Qed.
End Order.

(** * C110: round two *)
Theorem C110_order_of_shares :
  forall (S : Suite) (L : SuiteLaws S) (m : build) (st : DkgState) (comms : bmap Vss) (es es' : list EncShare) (r r' q : Rng)
         (s2 : RoundTwo) (raised : list Complaint),
  ds_comms st = Some comms -> NoDup (bkeys comms) -> NoDup (map es_sender es) -> Permutation es es' ->
  to_round_two m (R1 st) es r = Ok (s2, raised, q) ->
  exists raised' q', to_round_two m (R1 st) es' r' = Ok (s2, raised', q') /\
    Permutation (map says raised) (map says raised').
Proof.
  intros S L m st comms es es' r r' q s2 raised H1 H2 H3 H4 E. apply (round_two_perm m st comms es es' r r' s2 raised q H1 H2 H3 H4 E).
Qed.
Print Assumptions C110_order_of_shares.

(** * C110: the whole session *)
Theorem C110_order_of_arrival :
  forall (S : Suite) (L : SuiteLaws S) (reshared : bool) (m : build) (params : Params) (x : F) (my : u32) (co : list F)
         (ps ps' : list Participant) (es es' : list EncShare) (cs cs' : list Complaint) (r r' q q' : Rng)
         (raised : list Complaint) (keys : list G) (gk : G) (sk : SigningKey),
  NoDup (map pt_index ps) -> Permutation ps ps' ->
  NoDup (map es_sender es) -> Permutation es es' ->
  (forall c, In c cs <-> In c cs') ->
  session reshared m params x my co ps es cs r q = Ok (raised, keys, gk, sk) ->
  exists raised', session reshared m params x my co ps' es' cs' r' q' = Ok (raised', keys, gk, sk) /\
    Permutation (map says raised) (map says raised').
Proof.
  intros S L reshared m params x my co ps ps' es es' cs cs' r r' q q' raised keys gk sk Hnd HP Hnd2 HP2 HCs.
  unfold session. set (one := round_one reshared m params x my co).
  destruct (one ps r) as [[[s1 l] r1]|e|] eqn:E1; cbn [bind]; try discriminate.
  assert (HS : exists s1' l' r1', one ps' r' = Ok (s1', l', r1')).
  { destruct (C62_same_list_same_outcome S L m m params x x my my co co ps ps' r r' HP) as [A B]. unfold one, round_one in *.
    destruct reshared.
    - rewrite E1 in B. destruct (dkg_new m params x my ps' r') as [[[a b] c]|e|]; try discriminate B. eauto.
    - rewrite E1 in A. destruct (bootstrap m params x my co ps' r') as [[[a b] c]|e|]; try discriminate A. eauto. }
  destruct HS as (s1' & l' & r1' & E1'). rewrite E1'. cbn [bind].
  assert (HN : forall l r s pl q, one l r = Ok (s, pl, q) -> exists co' fd, (fd = true -> exists cs, co' = Some cs) /\ new_state_internal m params x my co' l fd true r = Ok (s, pl, q) /\ fd = negb reshared).
  { intros l0 r0 s pl q0 E. unfold one, round_one in E. destruct reshared; [exists None, false|exists (Some co), true]; (split; [eauto; discriminate|split; [exact E|reflexivity]]). }
  destruct (HN _ _ _ _ _ E1) as (co1 & fd1 & C1 & N1 & D1). destruct (HN _ _ _ _ _ E1') as (co2 & fd2 & C2 & N2 & D2).
  destruct (round_one_ok _ _ _ _ _ _ _ _ _ _ _ C1 N1) as (_ & _ & _ & _ & _ & st & -> & R & _ & comms & Hc & Kc & _).
  destruct (round_one_ok _ _ _ _ _ _ _ _ _ _ _ C2 N2) as (_ & _ & _ & _ & _ & st' & -> & R' & _).
  assert (HV : ds_params st = ds_params st' /\ ds_dhs st = ds_dhs st' /\ ds_comms st = ds_comms st').
  { destruct (C62_same_list_same_view S L m m params x x my my co co ps ps' r r' r1 r1' st st' l l' Hnd HP) as (A & B & C & _); [|auto].
    unfold one, round_one in E1, E1'. destruct reshared; [right|left]; auto. }
  destruct HV as (V1 & V2 & V3). destruct R as [_ _ R3 R4 R5 _ R7], R' as [_ _ R3' R4' R5' _ R7'].
  destruct (to_round_two m (R1 st) es q) as [[[s2 raised1] q1]|e|] eqn:E2; cbn [bind]; try discriminate.
  destruct (round_two_perm m st comms es es' q q' s2 raised1 q1 Hc (increasing_NoDup _ Kc) Hnd2 HP2 E2) as (raised' & q2 & E2' & HPr).
  rewrite <- (round_two_same m st st' es' q') by congruence. rewrite E2'. cbn [bind].
  destruct (to_round_two_inv m st comms es q s2 raised1 q1 Hc (increasing_NoDup _ Kc) E2) as (_ & _ & ->).
  rewrite <- (C23_order_and_duplicates_irrelevant S L (round_two_state st es) comms (binsert_all (opened st es) []) cs cs' Hc eq_refl HCs).
  destruct (blame (R2 (round_two_state st es)) cs) as [[ks s3]|e|]; cbn [bind]; try discriminate.
  destruct (finish s3) as [[g k]|e|]; cbn [bind]; try discriminate.
  intros X. injection X as <- <- <- <-. exists raised'. split; [reflexivity|exact HPr].
Qed.
Print Assumptions C110_order_of_arrival.

(** participant 2 receives a wrong share from 1 and settles its own complaint; the same with all lists reversed *)
Definition order_bad : list (@EncShare Toy) :=
  wrong_share 1 2 (dealer_x 3 2 1 10) (toy_gen * dealer_x 3 2 2 20)%G (mk 5) :: tl (demo_shares 2).
Definition order_own : list (@Complaint Toy) :=
  match @to_round_two Toy Debug (demo_r1 demo_ps 2) order_bad 7%N with Ok (_, cs, _) => cs | _ => [] end.
Definition order_run (ps : list (@Participant Toy)) (es : list EncShare) (cs : list Complaint) (r q : N) : result (list Complaint * list G * G * SigningKey) :=
  session (S := Toy) false Debug demo_params (dealer_x 3 2 2 20) (u 2) (dealer_co 3 2 2 20) ps es cs r q.
Definition order_view (x : result (list (@Complaint Toy) * list (@G Toy) * @G Toy * @SigningKey Toy)) : result (list u32 * list u32 * list G * G * SigningKey) :=
  let* (raised, keys, gk, sk) := x in Ok (map (fun c => es_sender (c_share c)) raised, map (fun c => es_receiver (c_share c)) raised, keys, gk, sk).
Example C110_ex_hypotheses : NoDup (map (@pt_index Toy) demo_ps) /\ NoDup (map (@es_sender Toy) order_bad).
Proof.
  assert (E1 : map (@pt_index Toy) demo_ps = [u 1; u 2; u 3]) by vmr. assert (E2 : map (@es_sender Toy) order_bad = [u 1; u 2; u 3]) by vmr.
  rewrite E1, E2. split; nodup.
Qed.
Example C110_ex :
  is_ok (order_run demo_ps order_bad order_own 1002%N 7%N) = true /\ length order_own = 1 /\
  order_view (order_run (rev demo_ps) (rev order_bad) (order_own ++ order_own) 3%N 4%N) = order_view (order_run demo_ps order_bad order_own 1002%N 7%N).
Proof. vms. Qed.

(** with two messages of one sender the order decides which of them counts: the complaint is raised in both orders, the key
    obtained without settling it is the right one in one order only *)
Definition twice_key (es : list (@EncShare Toy)) : result (nat * @SigningKey Toy) :=
  let* (s2, cs, _) := @to_round_two Toy Debug (demo_r1 demo_ps 2) es 7%N in let* (_, sk) := @finish Toy s2 in Ok (length cs, sk).
Definition twice_first : list (@EncShare Toy) := firstn 1 order_bad ++ demo_shares 2.
Definition twice_last : list (@EncShare Toy) := demo_shares 2 ++ firstn 1 order_bad.
Definition twice_view (es : list (@EncShare Toy)) : result (nat * bool) :=
  let* (k, sk) := twice_key es in let* (_, sk') := twice_key (demo_shares 2) in Ok (k, Feqb (@sk_key Toy sk) (@sk_key Toy sk')).
Theorem C110_repeated_senders_refuted : twice_view twice_first = Ok (1, true) /\ twice_view twice_last = Ok (1, false).
Proof. vms. Qed.
Print Assumptions C110_repeated_senders_refuted.
