(** C135: the whole life of a group key: a key generation, any number of resharings, and any number of concurrent signing
    sessions of every generation. *)
From Coq Require Import String Strings.Byte Arith NArith ZArith Bool List Permutation Sorted Lia Field.
From Verif Require Import Base Suite Spec SpecDkg SpecSign SpecCodec SpecRobust SpecEnd SpecWorld SpecHall SpecEra Types ModelDkg ModelSign ModelCodec
  Algebra BaseLemmas LemmasFinish Toy Demo DemoDkg DemoSign PropsSign PropsWallet PropsBlame PropsRobust PropsReshare PropsEnd PropsHandover PropsWorld PropsHall LemmasAgg LemmasRound1 PropsRound1.
Import ListNotations.

(** the keys obtained in any execution recover the secret behind the group key *)
Theorem C135_obtained_keys_recover :
  forall (S : Suite) (L : SuiteLaws S) (boot : bool) (m : build) (params : Params) (w : World) (valid : list Participant)
         (t : nat) (gk : G) (ks : list SigningKey),
  sizes -> reachable boot m params w -> accepted boot params w valid ->
  ((boot = true /\ N.of_nat t = u32v (p_t params)) \/ (forall q c, In q valid -> pt_comm q = Some c -> length (vss_points c) <= t)) ->
  obtained w valid gk ks -> ks <> [] -> exists s, gk = (gen * s)%G /\ recovers t s ks.
Proof.
  intros S L boot m params w valid t gk ks HC Hr Ha Ht [Hg Ho] Hne.
  assert (Hlen : forall q c, In q valid -> pt_comm q = Some c -> length (vss_points c) <= t).
  { destruct Ht as [[-> Et]|Ht]; [|exact Ht]. intros q c Hq1 Hc. destruct Ha as (mis & HS). apply (splits_in _ _ _ _ HS) in Hq1.
    destruct Hq1 as [_ (_ & _ & c' & C1 & C2)]. rewrite Hc in C1. injection C1 as <-. lia. }
  destruct ks as [|k0 ks0]; [congruence|]. destruct (Ho k0 (or_introl eq_refl)) as (h0 & keys0 & s0 & Hin0 & Hsv0).
  destruct (C133_all_finish_alike S L boot m params w valid HC Hr Ha) as [A _].
  destruct (A _ _ _ _ _ Hin0) as (comms & _ & Hk & _ & FP & _).
  assert (HL : forall j c, In (j, c) comms -> length (vss_points c) <= t).
  { intros j c Hj. apply in_bget in Hj; [|apply increasing_NoDup, Hk]. apply Hk in Hj. destruct Hj as (q & Q1 & _ & Q3 & _). apply (Hlen q c Q1 Q3). }
  assert (HK : forall k, In k (k0 :: ks0) -> (gen * sk_key k)%G = dealt_point comms (of_u32 (sk_index k))).
  { intros k Hk'. destruct (Ho k Hk') as (h & keys & s & Hin & Hsv).
    exact (C133_served_hold_their_keys S L boot m params w valid comms h keys s gk k HC Hr Ha Hk Hin Hsv). }
  destruct (dealt_polyfun comms t HL) as (f & Hf & Ef). exists (f F0). split; [rewrite <- Ef; apply first_points_dealt, FP|].
  split; [exact Hg|]. intros sub H1 H2 H3. apply gen_inj. rewrite <- Ef. apply (keys_interpolate comms t); auto.
Qed.
Print Assumptions C135_obtained_keys_recover.

Section Lem.
  Context {S : Suite} {L : SuiteLaws S}.
  Definition book_of (ks : list SigningKey) (i : u32) : G :=
    match find (fun k => u32_eqb (sk_index k) i) ks with Some k => (gen * sk_key k)%G | None => Gzero end.
  Lemma book_of_key ks k : NoDup (map sk_index ks) -> In k ks -> book_of ks (sk_index k) = (gen * sk_key k)%G.
  Proof.
    intros HN Hk. unfold book_of. destruct (find (fun k' => u32_eqb (sk_index k') (sk_index k)) ks) as [k'|] eqn:E.
    - apply find_some in E. destruct E as [E1 E2]. apply u32_eqb_spec in E2. f_equal. f_equal.
      apply (NoDup_map_inj_in sk_index ks); auto.
    - apply (find_none _ _ E) in Hk. cbn beta in Hk. assert (u32_eqb (sk_index k) (sk_index k) = true) by (apply u32_eqb_spec; reflexivity). congruence.
  Qed.
  Lemma dealers_vouched ks t valid : NoDup (map sk_index ks) -> deals_old_keys ks t valid ->
    forall q, In q valid -> vouched (map sk_index ks) (book_of ks) t q.
  Proof.
    intros HN H q Hq. destruct (H q Hq) as (k & c & rest & H1 & H2 & H3 & H4 & H5). split; [rewrite <- H2; apply in_map, H1|].
    exists c, rest. split; [exact H3|]. split; [|exact H5]. rewrite <- H2, book_of_key; assumption.
  Qed.
  Lemma forall2_weaken {A B} (R Q : A -> B -> Prop) l l' : (forall a b, R a b -> Q a b) -> Forall2 R l l' -> Forall2 Q l l'.
  Proof. intros H F. induction F; constructor; auto. Qed.
  Lemma forall2_with_in {A B} (R : A -> B -> Prop) l l' : Forall2 R l l' -> Forall2 (fun a b => In a l /\ R a b) l l'.
  Proof.
    induction 1 as [|a b l l' H F IH]; constructor; [split; [left; reflexivity|exact H]|].
    eapply forall2_weaken; [|exact IH]. intros x y [X Y]. split; [right; exact X|exact Y].
  Qed.
End Lem.

(** in all generations the group key is the first one, and any t signers of the last generation can recover its secret *)
Theorem C135_the_group_key_never_changes :
  forall (S : Suite) (L : SuiteLaws S) (m : build) (gk0 : G) (t : nat) (gk : G) (ks : list SigningKey),
  sizes -> lineage m gk0 t gk ks -> gk = gk0 /\ 1 <= t /\ exists s, gk0 = (gen * s)%G /\ recovers t s ks.
Proof.
  intros S L m gk0 t gk ks HC H.
  induction H as [params w valid ks Hr Ha Ht Hne Ho|t gk ks params w valid t' gk' ks' H IH Hr Ha Ht Hd (kept & K1 & K2 & K3 & K4) Hne Ho].
  - split; [reflexivity|]. split; [lia|].
    apply (C135_obtained_keys_recover S L true m params w valid _ gk0 ks HC Hr Ha); auto. left. split; [reflexivity|lia].
  - destruct IH as (-> & _ & s & Es & HR).
    assert (Eg : gk' = gk0).
    { destruct ks' as [|k0 ks0]; [congruence|]. destruct (proj2 Ho k0 (or_introl eq_refl)) as (h & keys & s' & Hin & _).
      apply (C133_resharing_keeps_the_key S L false m params w valid t t' gk0 (map sk_index ks) kept (book_of ks) HC Hr Ha) with (h := h) (keys := keys) (s := s') (sk := k0); auto.
      - rewrite Es. apply book_of_recovers; [exact HR|]. intros k Hk. apply book_of_key; [apply HR|exact Hk].
      - apply dealers_vouched; [apply HR|exact Hd]. }
    split; [exact Eg|]. split; [exact Ht|]. subst gk'.
    destruct (C135_obtained_keys_recover S L false m params w valid t' gk0 ks' HC Hr Ha) as (s' & E' & HR'); auto.
    { right. intros q c Hq Hc. destruct (Hd q Hq) as (k & c' & rest & _ & _ & D3 & _ & D5). rewrite Hc in D3. injection D3 as <-. exact D5. }
    exists s'. auto.
Qed.
Print Assumptions C135_the_group_key_never_changes.

(** at any age, whatever its signers did so far: all sessions that can be finished can be finished together, and their
    signatures are valid under the first group key *)
Theorem C135_sessions_of_any_generation_finish :
  forall (S : Suite) (L : SuiteLaws S) (m : build) (gk0 : G) (t : nat) (gk : G) (ks : list SigningKey) (h : Hall) (pick : Table -> bool),
  sizes -> lineage m gk0 t gk ks -> happened m ks h ->
  (forall tb, In tb (hl_tables h) -> pick tb = true -> tb_gk tb = gk /\ t <= length (seated tb) /\ booked ks h tb /\ reserved h tb) ->
  (forall a tb b tb' c, hl_tables h = a ++ tb :: b ++ tb' :: c -> pick tb = true -> pick tb' = true ->
     forall x, In x (seated tb) -> ~ In x (seated tb')) ->
  exists h', deeds m h h' /\ Forall2 (fun tb tb' => goes_on tb tb' /\ (pick tb = true ->
    exists sig, outcome (tb_agg tb') = Ok sig /\ verify_signature gk0 sig (h4 (tb_msg tb)) = Ok tt)) (hl_tables h) (hl_tables h').
Proof.
  intros S L m gk0 t gk ks h pick HC HL H HT HX. destruct (C135_the_group_key_never_changes S L m gk0 t gk ks HC HL) as (-> & Ht & s & Es & HR).
  destruct (C134_disjoint_tables_do_not_interfere S L m ks t s h pick H HR Ht) as (h' & D & F).
  - intros tb Ht1 Hp. rewrite <- Es. apply HT; assumption.
  - exact HX.
  - exists h'. split; [exact D|]. apply forall2_with_in in F.
    eapply forall2_weaken; [|exact F]. intros tb tb' [Hin [Hg Hf]]. split; [exact Hg|]. intros Hp.
    destruct (Hf Hp) as (sig & O & V). exists sig. split; [exact O|]. destruct Hg as (_ & G2 & G3 & _). destruct (HT tb Hin Hp) as [G4 _].
    rewrite G2, G3, G4 in V. exact V.
Qed.
Print Assumptions C135_sessions_of_any_generation_finish.

(** ** a life of two generations *)
Section Two.
  Context {S : Suite} {L : SuiteLaws S}.
  (** two users settle what is in the box and finish *)
  Lemma two_end boot m params w fa fb cs ka sa gka ska kb sb gkb skb : reachable boot m params w -> w_nodes w = [Received fa; Received fb] ->
    cs = w_box w ->
    blame (h_s2 fa) cs = Ok (ka, sa) -> finish sa = Ok (gka, ska) -> blame (h_s2 fb) cs = Ok (kb, sb) -> finish sb = Ok (gkb, skb) ->
    exists w', reachable boot m params w' /\ w_list w' = w_list w /\ w_box w' = w_box w /\
      w_nodes w' = [Done (with_settled fa cs) ka sa gka ska; Done (with_settled fb cs) kb sb gkb skb].
  Proof.
    intros R E Ec Ba Fa Bb Fb.
    pose (w1 := MkWorld (w_list w) (w_fixed w) (w_box w) true [Settled (with_settled fa cs) ka sa; Received fb]).
    pose (w2 := MkWorld (w_list w) (w_fixed w) (w_box w) true [Done (with_settled fa cs) ka sa gka ska; Received fb]).
    pose (w3 := MkWorld (w_list w) (w_fixed w) (w_box w) true [Done (with_settled fa cs) ka sa gka ska; Settled (with_settled fb cs) kb sb]).
    assert (R1 : reachable boot m params w1).
    { eapply ss_step; [exact R|]. apply (st_move boot m params w [] (Received fa) (Settled (with_settled fa cs) ka sa) [Received fb] (w_box w) true E).
      apply mv_settle; [intros c; rewrite Ec; reflexivity|exact Ba]. }
    assert (R2 : reachable boot m params w2).
    { eapply ss_step; [exact R1|].
      apply (st_move boot m params w1 [] (Settled (with_settled fa cs) ka sa) (Done (with_settled fa cs) ka sa gka ska) [Received fb] (w_box w) true eq_refl).
      apply (mv_finish m w1); exact Fa. }
    assert (R3 : reachable boot m params w3).
    { eapply ss_step; [exact R2|].
      apply (st_move boot m params w2 [Done (with_settled fa cs) ka sa gka ska] (Received fb) (Settled (with_settled fb cs) kb sb) [] (w_box w) true eq_refl).
      apply (mv_settle m w2); [intros c; rewrite Ec; reflexivity|exact Bb]. }
    eexists. split; [eapply ss_step; [exact R3|]|split; [|split]].
    - apply (st_move boot m params w3 [Done (with_settled fa cs) ka sa gka ska] (Settled (with_settled fb cs) kb sb) (Done (with_settled fb cs) kb sb gkb skb) [] (w_box w) true eq_refl).
      apply (mv_finish m w3); exact Fb.
    - reflexivity.
    - reflexivity.
    - reflexivity.
  Qed.
  Lemma two_obtained w valid gk ha ka sa ska hb kb sb skb : w_nodes w = [Done ha ka sa gk ska; Done hb kb sb gk skb] ->
    served valid ha -> served valid hb -> good_indices [sk_index ska; sk_index skb] -> obtained w valid gk [ska; skb].
  Proof.
    intros E Ha Hb Hg. split; [exact Hg|]. rewrite E. intros k [<-|[<-|[]]]; [exists ha, ka, sa|exists hb, kb, sb]; (split; [|assumption]); [left|right; left]; reflexivity.
  Qed.
End Two.
(** what a user gets who hands over the shares es and settles the complaints box *)
Definition life_run (s1 : RoundOne) (es : list EncShare) (r : N) (box : list Complaint) : result (G * SigningKey) :=
  let* (s2, _, _) := to_round_two Debug s1 es r in let* (_, s) := blame s2 box in finish s.
Definition life_end (s1 : RoundOne) (es : list EncShare) (r : N) (box : list Complaint) : G * SigningKey :=
  got (mk 0%Z, MkSK (u 0) (mk 0%Z)) (life_run s1 es r box).
Lemma life_got s1 es r box s2 cs r' : is_ok (life_run s1 es r box) = true -> to_round_two Debug s1 es r = Ok (s2, cs, r') ->
  exists k s, blame s2 box = Ok (k, s) /\ finish s = Ok (fst (life_end s1 es r box), snd (life_end s1 es r box)).
Proof.
  intros H E. unfold life_end. unfold life_run in *. rewrite E in *. cbn [bind] in *. destruct (blame s2 box) as [[k s]| |]; try discriminate. cbn [bind] in *.
  exists k, s. split; [reflexivity|]. destruct (finish s) as [[g sk]| |]; try discriminate. reflexivity.
Qed.
(** first generation: participants 1 and 3 of C133_ex *)
Definition gen1 (i : N) : G * SigningKey := life_end (whole_r1 i) (whole_shares i) (500 + i)%N whole_box.
Definition gen1_gk : G := fst (gen1 1).
(** they reshare to 5 and 6, again with threshold two; somebody publishes a senseless complaint *)
Definition gen2_donors : list Donor := [re_donor (MkParams (u 4) (u 2)) (snd (gen1 1)) 81%N; re_donor (MkParams (u 4) (u 2)) (snd (gen1 3)) 83%N].
Definition gen2_ps : list Participant := map w_d gen2_donors.
Definition gen2_params : Params := MkParams (u 2) (u 2).
Definition gen2_run (i : N) : result (RoundOne * PartList * Rng) :=
  start false Debug gen2_params (z_x (re_heir i)) (z_index (re_heir i)) [] gen2_ps (820 + i)%N.
Definition gen2_shares (i : N) : list EncShare := re_shares gen2_donors (re_heir i).
Definition gen2 (i : N) : G * SigningKey := life_end (state_of (gen2_run i)) (gen2_shares i) (920 + i)%N [no_complaint].
Example C135_ex_keys :
  map (fun g => fv (fst g)) [gen1 3; gen2 5; gen2 6] = [fv gen1_gk; fv gen1_gk; fv gen1_gk] /\
  map (fun g => sk_index (snd g)) [gen1 1; gen1 3; gen2 5; gen2 6] = map u [1; 3; 5; 6]%N /\ N.eqb (Z.to_N (fv gen1_gk)) 0 = false.
Proof. vms. Qed.
Lemma life_1 : is_ok (life_run (whole_r1 1) (whole_shares 1) 501%N whole_box) = true. Proof. vmr. Qed.
Lemma life_3 : is_ok (life_run (whole_r1 3) (whole_shares 3) 503%N whole_box) = true. Proof. vmr. Qed.
Lemma life_5 : is_ok (life_run (state_of (gen2_run 5)) (gen2_shares 5) 925%N [no_complaint]) = true. Proof. vmr. Qed.
Lemma life_6 : is_ok (life_run (state_of (gen2_run 6)) (gen2_shares 6) 926%N [no_complaint]) = true. Proof. vmr. Qed.
Lemma gen1_same : fst (gen1 3) = gen1_gk. Proof. vmr. Qed.
Lemma gen2_5 : fst (gen2 5) = gen1_gk. Proof. vmr. Qed.
Lemma gen2_6 : fst (gen2 6) = gen1_gk. Proof. vmr. Qed.
Lemma gen1_good : good_indices [sk_index (snd (gen1 1)); sk_index (snd (gen1 3))].
Proof. replace [sk_index (snd (gen1 1)); sk_index (snd (gen1 3))] with (map u [1; 3]%N) by (symmetry; vmr). good. Qed.
Lemma gen2_good : good_indices [sk_index (snd (gen2 5)); sk_index (snd (gen2 6))].
Proof. replace [sk_index (snd (gen2 5)); sk_index (snd (gen2 6))] with (map u [5; 6]%N) by (symmetry; vmr). good. Qed.
(** the first generation *)
Section First.
  Context {S : Suite} {L : SuiteLaws S}.
  Lemma lineage_first m params w valid t gk ha ka sa ska hb kb sb skb : reachable true m params w -> accepted true params w valid ->
    w_nodes w = [Done ha ka sa gk ska; Done hb kb sb gk skb] -> served valid ha -> served valid hb -> good_indices [sk_index ska; sk_index skb] ->
    t = N.to_nat (u32v (p_t params)) -> 1 <= t -> lineage m gk t gk [ska; skb].
  Proof.
    intros R A E Ha Hb Hg -> Ht. apply (ln_generated m gk params w valid); auto; [lia|discriminate|]. eapply two_obtained; eassumption.
  Qed.
  Lemma lineage_next m gk0 t gk ks params w valid t' gk' ha ka sa ska hb kb sb skb : lineage m gk0 t gk ks ->
    reachable false m params w -> accepted false params w valid -> 1 <= t' -> deals_old_keys ks t' valid -> enough_remain t w valid ->
    w_nodes w = [Done ha ka sa gk' ska; Done hb kb sb gk' skb] -> served valid ha -> served valid hb -> good_indices [sk_index ska; sk_index skb] ->
    lineage m gk0 t' gk' [ska; skb].
  Proof.
    intros H R A Ht D En E Ha Hb Hg. apply (ln_reshared m gk0 t gk ks params w valid); auto; [discriminate|]. eapply two_obtained; eassumption.
  Qed.
End First.
Lemma gen1_eq_1 : life_end (whole_r1 1) (whole_shares 1) 501%N whole_box = gen1 1. Proof. unfold gen1. replace (500 + 1)%N with 501%N by reflexivity. reflexivity. Qed.
Lemma gen1_eq_3 : life_end (whole_r1 3) (whole_shares 3) 503%N whole_box = gen1 3. Proof. unfold gen1. replace (500 + 3)%N with 503%N by reflexivity. reflexivity. Qed.
Lemma gen1_eq_gk : fst (gen1 1) = gen1_gk. Proof. unfold gen1_gk. reflexivity. Qed.
Example C135_ex_first : lineage Debug gen1_gk 2 gen1_gk [snd (gen1 1); snd (gen1 3)].
Proof.
  destruct (got1 (whole_run whole_ps 1) whole_1) as (la & qa & Ea). rewrite <- whole_r1_1, whole_start in Ea.
  destruct (got1 (whole_run whole_ps' 3) whole_3) as (lb & qb & Eb). rewrite <- whole_r1_3, whole_start in Eb.
  destruct (got2 _ whole_2_1) as (s2a & r2a & Ta). destruct (got2 _ whole_2_3) as (s2b & r2b & Tb).
  destruct (life_got _ _ _ _ _ _ _ life_1 Ta) as (ka & sa & Ba & Fa). destruct (life_got _ _ _ _ _ _ _ life_3 Tb) as (kb & sb & Bb & Fb).
  rewrite whole_no_cs in Ta. rewrite whole_cs_eq in Tb. pose proof whole_perm as HP. pose proof whole_good as Hg. pose proof (real_if _ whole_real_b) as Hr.
  assert (V1 : @served Toy whole_valid (MkFollower (st1 (whole_r1 1)) (whole_shares 1) 501%N s2a [] r2a [])).
  { apply served_if; [exact whole_mine_1|exact whole_from_1|reflexivity]. }
  assert (V3 : @served Toy whole_valid (MkFollower (st1 (whole_r1 3)) (whole_shares 3) 503%N s2b whole_cs r2b [])).
  { apply served_if; [exact whole_mine_3|exact whole_from_3|exact whole_accused_b]. }
  assert (EB : whole_box = forged (hd (victim_c 2 3) whole_cs) :: whole_cs ++ [] ++ []) by (unfold whole_box; rewrite app_nil_r; reflexivity).
  pose proof gen1_same as HS. pose proof whole_acc as HA. pose proof gen1_good as HG.
  rewrite gen1_eq_1, gen1_eq_gk in Fa. rewrite gen1_eq_3, HS in Fb. clear HS.
  assert (Ht : 2 = N.to_nat (u32v (p_t whole_params))) by reflexivity.
  revert Ea Eb Ta Tb HP Hg Hr Ba Fa Bb Fb V1 V3 EB HA HG Ht.
  generalize (gen1 1) as g1, (gen1 3) as g3, gen1_gk as gk, whole_box as box, whole_valid as valid.
  generalize (whole_r1 1) as a, (whole_r1 3) as b, (whole_shares 1) as esa, (whole_shares 3) as esb, whole_cs as cs, whole_ps as ps, whole_ps' as ps', whole_params as params.
  generalize (dealer_x 4 2 1 (10 * 1)) as xa, (dealer_x 4 2 3 (10 * 3)) as xb, (dealer_co 4 2 1 (10 * 1)) as coa, (dealer_co 4 2 3 (10 * 3)) as cob.
  intros xa xb coa cob a b esa esb cs ps ps' params g1 g3 gk box valid Ea Eb Ta Tb HP Hg Hr Ba Fa Bb Fb V1 V3 EB HA HG Ht.
  pose proof (two_users true Debug params ps a xa _ coa ps _ la qa esa 501%N s2a [] r2a
    b xb _ cob ps' _ lb qb esb 503%N s2b cs r2b (forged (hd (victim_c 2 3) cs)) toy_sizes Hg Hr (Permutation_refl _) Ea Ta HP Eb Tb) as R.
  rewrite <- EB in R.
  destruct (two_end true Debug params _ _ _ box ka sa gk (snd g1) kb sb gk (snd g3) R eq_refl eq_refl Ba Fa Bb Fb) as (w & R' & W1 & W2 & W3).
  apply (lineage_first Debug params w valid 2 gk _ _ _ _ _ _ _ _ R' (HA w W1) W3 V1 V3 HG Ht). lia.
Qed.
(** the second generation *)
Lemma gen2_valid : filter (okb false true (p_t gen2_params)) gen2_ps = gen2_ps. Proof. vmr. Qed.
Lemma gen2_mis : map pt_index (filter (fun p => negb (okb false true (p_t gen2_params) p)) gen2_ps) = []. Proof. vmr. Qed.
Lemma gen2_acc (w : World) : w_list w = gen2_ps -> accepted false gen2_params w gen2_ps.
Proof.
  intros E. exists []. rewrite E. rewrite <- gen2_valid at 2. rewrite <- gen2_mis. apply PropsEnd.splits_filter. intros p. apply okb_new.
Qed.
Definition dealsb (ks : list SigningKey) (t : nat) (p : Participant) : bool :=
  existsb (fun k => u32_eqb (sk_index k) (pt_index p) &&
    match pt_comm p with
    | Some c => match vss_points c with P :: rest => Geqb P (toy_gen * sk_key k)%G && Nat.leb (length (P :: rest)) t | [] => false end
    | None => false end) ks.
Lemma dealsb_ok ks t ps : forallb (dealsb ks t) ps = true -> @deals_old_keys Toy ks t ps.
Proof.
  intros H q Hq. apply (proj1 (forallb_forall _ _) H) in Hq. apply existsb_exists in Hq. destruct Hq as (k & Hk & X). apply andb_prop in X.
  destruct X as [X1 X2]. apply u32_eqb_spec in X1. destruct (pt_comm q) as [c|]; [|discriminate].
  destruct (vss_points c) as [|P rest] eqn:E; [discriminate|]. apply andb_prop in X2. destruct X2 as [X2 X3].
  apply (@Geqb_spec Toy ToyLaws) in X2. apply Nat.leb_le in X3. exists k, c, rest. split; [exact Hk|]. split; [exact X1|]. split; [reflexivity|].
  rewrite E, X2. split; [reflexivity|]. rewrite X2 in X3. exact X3.
Qed.
Lemma gen2_deals_b : forallb (dealsb [snd (gen1 1); snd (gen1 3)] 2) gen2_ps = true. Proof. vmr. Qed.
Lemma gen2_indices : map pt_index gen2_ps = [u 1; u 3]. Proof. vmr. Qed.
Lemma gen2_remain (w : World) : w_box w = [no_complaint] -> enough_remain 2 w gen2_ps.
Proof.
  intros E. exists [u 1; u 3]. split; [nodup|]. split; [rewrite gen2_indices; apply incl_refl|]. split; [apply le_n|].
  intros j Hj (c & Hc & X). rewrite E in Hc. destruct Hc as [<-|[]].
  assert (Z : j = u 0) by (destruct X as [[_ X]|[_ X]]; exact X). clear X. subst j.
  destruct Hj as [Z|[Z|[]]]; apply u32_eqb_spec in Z; revert Z; vm_compute; discriminate.
Qed.
Lemma gen2_run_5 : is_ok (gen2_run 5) = true. Proof. vmr. Qed.
Lemma gen2_run_6 : is_ok (gen2_run 6) = true. Proof. vmr. Qed.
Definition gen2_r1 (i : N) : RoundOne := state_of (gen2_run i).
Lemma gen2_two_5 : is_ok (to_round_two Debug (gen2_r1 5) (gen2_shares 5) 925%N) = true. Proof. vmr. Qed.
Lemma gen2_two_6 : is_ok (to_round_two Debug (gen2_r1 6) (gen2_shares 6) 926%N) = true. Proof. vmr. Qed.
Lemma gen2_cs_5 : PropsEnd.complaints_of (to_round_two Debug (gen2_r1 5) (gen2_shares 5) 925%N) = []. Proof. vmr. Qed.
Lemma gen2_cs_6 : PropsEnd.complaints_of (to_round_two Debug (gen2_r1 6) (gen2_shares 6) 926%N) = []. Proof. vmr. Qed.
Lemma gen2_mine_5 : forallb (fun e => u32_eqb (es_receiver e) (ds_index (st1 (gen2_r1 5)))) (gen2_shares 5) = true. Proof. vmr. Qed.
Lemma gen2_mine_6 : forallb (fun e => u32_eqb (es_receiver e) (ds_index (st1 (gen2_r1 6)))) (gen2_shares 6) = true. Proof. vmr. Qed.
Lemma gen2_from_5 : forallb (fun p => existsb (fun e => u32_eqb (es_sender e) (pt_index p)) (gen2_shares 5)) gen2_ps = true. Proof. vmr. Qed.
Lemma gen2_from_6 : forallb (fun p => existsb (fun e => u32_eqb (es_sender e) (pt_index p)) (gen2_shares 6)) gen2_ps = true. Proof. vmr. Qed.
Lemma gen2_real_b : forallb (fun p : @Participant Toy => match pt_comm p with Some c => Nat.leb (length (vss_points c)) 4 | None => true end) gen2_ps = true.
Proof. vmr. Qed.
Lemma gen2_ps_good : good_indices (map pt_index gen2_ps). Proof. rewrite gen2_indices. good. Qed.
Lemma gen2_start i : gen2_run i = start false Debug gen2_params (z_x (re_heir i)) (z_index (re_heir i)) [] gen2_ps (820 + i)%N. Proof. unfold gen2_run. reflexivity. Qed.
Lemma gen2_state i : state_of (gen2_run i) = gen2_r1 i. Proof. unfold gen2_r1. reflexivity. Qed.
Lemma gen2_eq_5 : life_end (gen2_r1 5) (gen2_shares 5) 925%N [no_complaint] = gen2 5. Proof. unfold gen2, gen2_r1. replace (920 + 5)%N with 925%N by reflexivity. reflexivity. Qed.
Lemma gen2_eq_6 : life_end (gen2_r1 6) (gen2_shares 6) 926%N [no_complaint] = gen2 6. Proof. unfold gen2, gen2_r1. replace (920 + 6)%N with 926%N by reflexivity. reflexivity. Qed.
Example C135_ex_second : lineage Debug gen1_gk 2 gen1_gk [snd (gen2 5); snd (gen2 6)] /\ @sizes Toy.
Proof.
  split; [|exact toy_sizes].
  destruct (got1 _ gen2_run_5) as (la & qa & Ea). destruct (got1 _ gen2_run_6) as (lb & qb & Eb).
  rewrite gen2_state, gen2_start in Ea, Eb.
  destruct (got2 _ gen2_two_5) as (s2a & r2a & Ta). destruct (got2 _ gen2_two_6) as (s2b & r2b & Tb).
  pose proof life_5 as L5. pose proof life_6 as L6. rewrite gen2_state in L5, L6.
  destruct (life_got _ _ _ _ _ _ _ L5 Ta) as (ka & sa & Ba & Fa). destruct (life_got _ _ _ _ _ _ _ L6 Tb) as (kb & sb & Bb & Fb). clear L5 L6.
  rewrite gen2_cs_5 in Ta. rewrite gen2_cs_6 in Tb. pose proof gen2_ps_good as Hg. pose proof (real_if _ gen2_real_b) as Hr.
  assert (V5 : @served Toy gen2_ps (MkFollower (st1 (gen2_r1 5)) (gen2_shares 5) 925%N s2a [] r2a [])).
  { apply served_if; [exact gen2_mine_5|exact gen2_from_5|reflexivity]. }
  assert (V6 : @served Toy gen2_ps (MkFollower (st1 (gen2_r1 6)) (gen2_shares 6) 926%N s2b [] r2b [])).
  { apply served_if; [exact gen2_mine_6|exact gen2_from_6|reflexivity]. }
  pose proof gen2_acc as HA. pose proof gen2_good as HG. pose proof C135_ex_first as HL. pose proof (dealsb_ok _ _ _ gen2_deals_b) as HD. pose proof gen2_remain as HE.
  rewrite gen2_eq_5, gen2_5 in Fa. rewrite gen2_eq_6, gen2_6 in Fb.
  revert Ea Eb Ta Tb Hg Hr Ba Fa Bb Fb V5 V6 HA HG HL HD HE.
  generalize (gen1 1) as g1, (gen1 3) as g3, (gen2 5) as g5, (gen2 6) as g6, gen1_gk as gk.
  generalize (gen2_r1 5) as a, (gen2_r1 6) as b, (gen2_shares 5) as esa, (gen2_shares 6) as esb, gen2_ps as ps, gen2_params as params, (re_heir 5) as za, (re_heir 6) as zb, no_complaint as c.
  intros a b esa esb ps params za zb c g1 g3 g5 g6 gk Ea Eb Ta Tb Hg Hr Ba Fa Bb Fb V5 V6 HA HG HL HD HE.
  pose proof (two_users false Debug params ps a (z_x za) (z_index za) [] ps _ la qa esa 925%N s2a [] r2a
    b (z_x zb) (z_index zb) [] ps _ lb qb esb 926%N s2b [] r2b c toy_sizes Hg Hr (Permutation_refl _) Ea Ta (Permutation_refl _) Eb Tb) as R.
  cbn [app] in R.
  destruct (two_end false Debug params _ _ _ [c] ka sa gk (snd g5) kb sb gk (snd g6) R eq_refl eq_refl Ba Fa Bb Fb) as (w & R' & W1 & W2 & W3).
  exact (lineage_next Debug gk 2 gk [snd g1; snd g3] params w ps 2 gk _ _ _ _ _ _ _ _ HL R' (HA w W1) (le_S _ _ (le_n 1)) HD (HE w W2) W3 V5 V6 HG).
Qed.
(** a session of the second generation: 5 and 6 made a pair each and are listed at a table *)
Section Session.
  Context {S : Suite} {L : SuiteLaws S}.
  Variables (m : build) (k5 k6 : SigningKey) (r5 r6 r5' r6' : Rng) (pub5 pub6 : PublicList) (a b : CommitmentShare) (p : Params) (gk : G) (msg : list byte)
    (A1 A2 : AggInitial).
  Let vk (k : SigningKey) : VerifyingKey := MkVK (sk_index k) (gen * sk_key k)%G.
  Hypothesis G5 : generate_commitment_share_lists r5 k5 1 = (pub5, MkSecList [a], r5').
  Hypothesis G6 : generate_commitment_share_lists r6 k6 1 = (pub6, MkSecList [b], r6').
  Hypothesis I1 : include_signer (agg_new p gk msg) (sk_index k5) (published a) (vk k5) = (Ok tt, A1).
  Hypothesis I2 : include_signer A1 (sk_index k6) (published b) (vk k6) = (Ok tt, A2).
  Hypothesis HK : sk_index k5 <> sk_index k6.
  Hypothesis HS : ag_signers (ai_state A2) = [MkSigner (sk_index k5) (published a); MkSigner (sk_index k6) (published b)].
  Definition session_table : Table := MkTable p gk msg [(CInc (sk_index k5) (published a) (vk k5), Ok tt); (CInc (sk_index k6) (published b) (vk k6), Ok tt)] A2.
  Definition session_hall : Hall := MkHall [MkMachine k5 [[a]]; MkMachine k6 [[b]]] [(k6, b); (k5, a)] [] [session_table].
  Ltac tidy D := cbn [sl_commitments opening hl_machines hl_made hl_answers hl_tables tb_params tb_gk tb_msg tb_calls tb_agg app map] in D.
  Lemma session_happened : happened m [k5; k6] session_hall.
  Proof.
    pose proof (ds_none m (opening [k5; k6])) as D.
    lazymatch type of D with deeds _ _ ?h => pose proof (ds_deed m _ _ _ D (dd_lists m h [] k5 [] [MkMachine k6 []] r5 1 _ _ _ eq_refl eq_refl G5)) as D1 end; tidy D1.
    lazymatch type of D1 with deeds _ _ ?h => pose proof (ds_deed m _ _ _ D1 (dd_lists m h [MkMachine k5 [[a]]] k6 [] [] r6 1 _ _ _ eq_refl eq_refl G6)) as D2 end; tidy D2.
    lazymatch type of D2 with deeds _ _ ?h => pose proof (ds_deed m _ _ _ D2 (dd_open m h p gk msg)) as D3 end; tidy D3.
    lazymatch type of D3 with deeds _ _ ?h => pose proof (ds_deed m _ _ _ D3 (dd_seat m h [] (MkTable p gk msg [] (agg_new p gk msg)) [] _ _ _ _ _ eq_refl I1)) as D4 end; tidy D4.
    lazymatch type of D4 with deeds _ _ ?h => exact (ds_deed m _ _ _ D4 (dd_seat m h [] (MkTable p gk msg [(CInc (sk_index k5) (published a) (vk k5), Ok tt)] A1) [] _ _ _ _ _ eq_refl I2)) end.
  Qed.
  Lemma session_ready tb : In tb (hl_tables session_hall) ->
    tb_gk tb = gk /\ 2 <= length (seated tb) /\ booked [k5; k6] session_hall tb /\ reserved session_hall tb.
  Proof.
    intros [<-|[]]. unfold seated. cbn [session_table tb_gk tb_agg]. rewrite HS. split; [reflexivity|]. split; [apply le_n|]. split.
    - intros s Hs. unfold seated in Hs. cbn [session_table tb_agg] in Hs. rewrite HS in Hs. destruct Hs as [<-|[<-|[]]].
      + exists k5, a. split; [left; reflexivity|]. repeat (split; [reflexivity|]). split; [right; left; reflexivity|].
        exists [], (published a), [(CInc (sk_index k6) (published b) (vk k6), Ok tt)]. split; [reflexivity|]. intros com0 pk0 [X|[]]. injection X as X _ _. exact (HK (eq_sym X)).
      + exists k6, b. split; [right; left; reflexivity|]. repeat (split; [reflexivity|]). split; [left; reflexivity|].
        exists [(CInc (sk_index k5) (published a) (vk k5), Ok tt)], (published b), []. split; [reflexivity|]. intros ? ? [].
    - intros s w _ [].
  Qed.
End Session.
Definition gen2_list (i : N) : PublicList * SecretList * N := generate_commitment_share_lists (940 + i)%N (snd (gen2 i)) 1.
Definition gen2_pair (i : N) : CommitmentShare := hd (spair 1 0) (sl_commitments (snd (fst (gen2_list i)))).
Definition gen2_sit (a : AggInitial) (i : N) : result unit * AggInitial :=
  include_signer a (sk_index (snd (gen2 i))) (published (gen2_pair i)) (@MkVK Toy (sk_index (snd (gen2 i))) (gen * sk_key (snd (gen2 i)))%G).
Definition gen2_A1 : AggInitial := snd (gen2_sit (agg_new gen2_params gen1_gk [x68]) 5).
Definition gen2_A2 : AggInitial := snd (gen2_sit gen2_A1 6).
Definition gen2_hall : Hall := session_hall (snd (gen2 5)) (snd (gen2 6)) (gen2_pair 5) (gen2_pair 6) gen2_params gen1_gk [x68] gen2_A2.
Lemma gen2_list_5 : generate_commitment_share_lists 945%N (snd (gen2 5)) 1 = (fst (fst (gen2_list 5)), MkSecList [gen2_pair 5], snd (gen2_list 5)). Proof. vmr. Qed.
Lemma gen2_list_6 : generate_commitment_share_lists 946%N (snd (gen2 6)) 1 = (fst (fst (gen2_list 6)), MkSecList [gen2_pair 6], snd (gen2_list 6)). Proof. vmr. Qed.
Lemma sit_ok {A} (x : result unit * A) a : fst x = Ok tt -> snd x = a -> x = (Ok tt, a).
Proof. destruct x as [o a']. cbn. intros -> ->. reflexivity. Qed.
Lemma gen2_I1 : include_signer (agg_new gen2_params gen1_gk [x68]) (sk_index (snd (gen2 5))) (published (gen2_pair 5)) (@MkVK Toy (sk_index (snd (gen2 5))) (gen * sk_key (snd (gen2 5)))%G) =
  (Ok tt, gen2_A1).
Proof. apply sit_ok; vmr. Qed.
Lemma gen2_I2 : include_signer gen2_A1 (sk_index (snd (gen2 6))) (published (gen2_pair 6)) (@MkVK Toy (sk_index (snd (gen2 6))) (gen * sk_key (snd (gen2 6)))%G) =
  (Ok tt, gen2_A2).
Proof. apply sit_ok; vmr. Qed.
Lemma gen2_HK : sk_index (snd (gen2 5)) <> sk_index (snd (gen2 6)).
Proof. generalize gen2_good. generalize (sk_index (snd (gen2 5))), (sk_index (snd (gen2 6))). intros x y [H _] ->. apply NoDup_cons_iff in H. apply (proj1 H). left. reflexivity. Qed.
Lemma gen2_HS : ag_signers (ai_state gen2_A2) =
  [@MkSigner Toy (sk_index (snd (gen2 5))) (published (gen2_pair 5)); MkSigner (sk_index (snd (gen2 6))) (published (gen2_pair 6))]. Proof. vmr. Qed.
Lemma gen2_happened : happened Debug [snd (gen2 5); snd (gen2 6)] gen2_hall.
Proof.
  exact (session_happened (S := Toy) Debug (snd (gen2 5)) (snd (gen2 6)) 945%N 946%N (snd (gen2_list 5)) (snd (gen2_list 6))
      (fst (fst (gen2_list 5))) (fst (fst (gen2_list 6))) (gen2_pair 5) (gen2_pair 6) gen2_params gen1_gk [x68]
      gen2_A1 gen2_A2 gen2_list_5 gen2_list_6 gen2_I1 gen2_I2).
Qed.
Lemma gen2_one : length (hl_tables gen2_hall) = 1. Proof. reflexivity. Qed.
Lemma gen2_ready tb : In tb (hl_tables gen2_hall) ->
    tb_gk tb = gen1_gk /\ 2 <= length (seated tb) /\ booked [snd (gen2 5); snd (gen2 6)] gen2_hall tb /\ reserved gen2_hall tb.
Proof. exact (session_ready (S := Toy) (snd (gen2 5)) (snd (gen2 6)) (gen2_pair 5) (gen2_pair 6) gen2_params gen1_gk [x68] gen2_A2 gen2_HK gen2_HS tb). Qed.
Example C135_ex_session : lineage Debug gen1_gk 2 gen1_gk [snd (gen2 5); snd (gen2 6)] /\ happened Debug [snd (gen2 5); snd (gen2 6)] gen2_hall /\
  length (hl_tables gen2_hall) = 1 /\
  forall tb, In tb (hl_tables gen2_hall) ->
    tb_gk tb = gen1_gk /\ 2 <= length (seated tb) /\ booked [snd (gen2 5); snd (gen2 6)] gen2_hall tb /\ reserved gen2_hall tb.
Proof. split; [exact (proj1 C135_ex_second)|]. split; [exact gen2_happened|]. split; [exact gen2_one|exact gen2_ready]. Qed.
