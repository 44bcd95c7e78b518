(** C108: the programs of the documentation about misbehaviour, for any number of participants and every generator:
    a participant that publishes somebody else's Diffie-Hellman key is flagged by everybody, one that sends an
    unreadable share is convicted by everybody, and the others finish with a sharing of one secret. *)
From Coq Require Import String Strings.Byte Arith NArith ZArith Bool List Lia Permutation Field.
From Verif Require Import Base BaseLemmas Suite Algebra Spec Types Toy ModelDkg ModelSign ModelCompare ModelErase ModelDoc SpecDkg SpecSign
  SpecRobust LemmasShare LemmasRound1 LemmasRound2 LemmasFinish LemmasBlame PropsShare PropsRound1 PropsRound2 PropsFinish PropsReshare
  PropsBlame PropsRobust PropsView PropsReflect PropsAgg PropsDoc Demo DemoDkg.
Import ListNotations.

Section DocBad.
  Context {S : Suite} {L : SuiteLaws S}.
  Add Field F_fld : F_field.

  (** everybody's dealer *)
  Lemma deal_all params l r : ~ In u32_zero l -> (1 <= u32v (p_t params))%N ->
    exists parties r', each (new_dealer params) l r = Ok (map triple parties, r') /\ map y_index parties = l /\
      forall p, In p parties -> dealt_by params p.
  Proof.
    intros H0 Ht.
    destruct (each_ok (fun i i' => i = i' /\ In i l) (fun i d => exists r r', new_dealer params i r = Ok (d, r')) (new_dealer params) l l r)
      as (ds & r1 & E1 & HD).
    { apply forall2_self. auto. }
    { intros i i' r0 [<- Hi]. destruct (C12_new_dealer_well_formed S L params i r0) as (d & co & x & r' & E & _).
      - intros ->. apply H0, Hi.
      - exact Ht.
      - exists (d, co, x), r'. split; [exact E|]. exists r0, r'. exact E. }
    destruct (forall2_parties params (fun _ _ => True) l ds HD (map (fun _ => (blank params, [])) ds)) as (pre & Pi & Pd & _ & HP).
    { clear. induction ds; cbn; constructor; auto. }
    exists pre, r1. unfold triple. rewrite Pd. split; [exact E1|]. split; [exact Pi|]. intros p Hp. apply HP, Hp.
  Qed.

  Lemma filter_all {A} (f : A -> bool) l : (forall a, In a l -> f a = true) -> filter f l = l.
  Proof.
    induction l as [|a l IH]; intros H; cbn; [reflexivity|]. rewrite (H a (or_introl eq_refl)). f_equal. apply IH.
    intros b Hb. apply H. right; exact Hb.
  Qed.
  Lemma filter_none {A} (f : A -> bool) l : (forall a, In a l -> f a = false) -> filter f l = [].
  Proof.
    induction l as [|a l IH]; intros H; cbn; [reflexivity|]. rewrite (H a (or_introl eq_refl)). apply IH.
    intros b Hb. apply H. right; exact Hb.
  Qed.

  (** round one of an honest participant when one of the listed ones does not pass *)
  Lemma flagged_round_one m params (p1 p2 : list Party) bad x my co r :
    (forall q, In q (p1 ++ p2) -> fresh_dealer params (y_index q) (y_d q) (y_co q) (y_x q)) ->
    NoDup (map pt_index (map y_d p1 ++ bad :: map y_d p2)) ->
    N.of_nat (Datatypes.S (length (p1 ++ p2))) = u32v (p_n params) ->
    (1 <= u32v (p_t params) <= N.of_nat (length (p1 ++ p2)))%N ->
    ~ ok_bootstrap (p_t params) bad -> ~ crashing bad ->
    let ps := map y_d p1 ++ bad :: map y_d p2 in
    exists st es comms r', bootstrap m params x my co ps r = Ok (R1 st, MkPList (map y_d (p1 ++ p2)) (Some [pt_index bad]), r') /\
      their_encrypted_secret_shares (R1 st) = Ok es /\ shares_for_all my x co ps es /\
      records params my x (map y_d (p1 ++ p2)) st /\ ds_comms st = Some comms /\ NoDup (bkeys comms) /\
      (forall j c, bget j comms = Some c <-> exists q, In q (p1 ++ p2) /\ y_index q = j /\ c = MkVss j (committed (y_co q))) /\
      (forall q, In q (p1 ++ p2) -> bget (y_index q) (ds_dhs st) = Some (gen * y_x q)%G).
  Proof.
    intros Hf Hnd Hn Ht Hbad Hcr ps.
    assert (Hok : forall p, In p (map y_d (p1 ++ p2)) -> okb true true (p_t params) p = true).
    { intros p Hp. apply in_map_iff in Hp. destruct Hp as (q & <- & Hq). apply okb_bootstrap. eapply fresh_ok; [lia|apply Hf, Hq]. }
    assert (Hob : okb true true (p_t params) bad = false).
    { apply not_true_iff_false. intros X. apply Hbad, okb_bootstrap, X. }
    assert (Hok1 : forall p, In p (map y_d p1) -> okb true true (p_t params) p = true)
      by (intros p Hp; apply Hok; rewrite map_app; apply in_or_app; left; exact Hp).
    assert (Hok2 : forall p, In p (map y_d p2) -> okb true true (p_t params) p = true)
      by (intros p Hp; apply Hok; rewrite map_app; apply in_or_app; right; exact Hp).
    assert (Hv : filter (okb true true (p_t params)) ps = map y_d (p1 ++ p2)).
    { unfold ps. rewrite filter_app. cbn [filter]. rewrite Hob, map_app. f_equal; apply filter_all; assumption. }
    assert (Hm : filter (fun p => negb (okb true true (p_t params) p)) ps = [bad]).
    { unfold ps. rewrite filter_app. cbn [filter]. rewrite Hob. cbn [negb].
      rewrite !(filter_none (fun p => negb (okb true true (p_t params) p))); [reflexivity| |];
        intros p Hp; [rewrite (Hok2 p Hp)|rewrite (Hok1 p Hp)]; reflexivity. }
    assert (Hc : true && existsb crashb ps = false).
    { apply existsb_crash_false. intros p Hp. unfold ps in Hp. apply in_app_or in Hp.
      assert (Hp' : p = bad \/ In p (map y_d (p1 ++ p2))).
      { rewrite map_app. destruct Hp as [Hp|[Hp|Hp]]; [right; apply in_or_app; left; exact Hp|left; symmetry; exact Hp|right; apply in_or_app; right; exact Hp]. }
      destruct Hp' as [->|Hp']; [exact Hcr|]. apply in_map_iff in Hp'. destruct Hp' as (q & <- & Hq). eapply fresh_not_crashing, Hf, Hq. }
    assert (Hnd' : NoDup (map pt_index (map y_d (p1 ++ p2)))).
    { rewrite map_app in Hnd. cbn [map] in Hnd. apply NoDup_remove_1 in Hnd. rewrite map_app, map_app. exact Hnd. }
    destruct (ns_success m params x my (Some co) ps true true r) as (st & r' & E & H1 & _ & H2 & H3); eauto; try lia.
    { rewrite <- Hn. f_equal. unfold ps. rewrite !app_length. cbn [length]. rewrite !map_length. lia. }
    { rewrite Hv, map_length. lia. }
    rewrite Hv, Hm in E. rewrite Hv in H1, H2. cbn [negb andb] in H3. cbn [map none_if_empty] in E.
    destruct H2 as (comms & C1 & C2 & C3). destruct H3 as (cs & es & [= <-] & E1 & _ & E2).
    exists st, es, comms, r'. split; [exact E|]. split; [unfold their_encrypted_secret_shares; cbn; rewrite E1; reflexivity|].
    split; [exact E2|]. split; [exact H1|]. split; [exact C1|]. split; [apply increasing_NoDup, C2|]. split.
    - intros j c. rewrite (C3 j c). split.
      + intros (p & Hl & Hc'). apply last_with_distinct in Hl; [|exact Hnd']. destruct Hl as [Hp Hj].
        apply in_map_iff in Hp. destruct Hp as (q & <- & Hq). exists q. destruct (Hf q Hq) as [A1 _ _ A4 _ _].
        split; [exact Hq|]. split; [congruence|]. rewrite A4 in Hc'. injection Hc' as <-. congruence.
      + intros (q & Hq & Hj & ->). exists (y_d q). destruct (Hf q Hq) as [A1 _ _ A4 _ _]. split.
        * apply last_with_distinct; [exact Hnd'|]. split; [apply in_map, Hq|congruence].
        * rewrite A4, Hj. reflexivity.
    - intros q Hq. destruct (Hf q Hq) as [A1 A2 _ _ _ _]. apply (rec_dhs _ _ _ _ _ H1). exists (y_d q). split.
      + apply last_with_distinct; [exact Hnd'|]. split; [apply in_map, Hq|congruence].
      + rewrite A2. reflexivity.
  Qed.

  Lemma list_eqb_refl {A} (eq : A -> A -> bool) l : (forall a, eq a a = true) -> list_eqb eq l l = true.
  Proof. intros H. induction l as [|a l IH]; cbn; [reflexivity|]. rewrite H. exact IH. Qed.
  Lemma list_eqb_length {A} (eq : A -> A -> bool) : forall l l', list_eqb eq l l' = true -> length l = length l'.
  Proof.
    induction l as [|a l IH]; intros [|b l'] H; cbn in H; try discriminate; [reflexivity|].
    apply andb_true_iff in H. cbn. f_equal. apply IH, H.
  Qed.
  Lemma splits_all (ok : Participant -> Prop) ps v mis : (forall p, In p ps -> ok p) -> splits ok ps v mis -> v = ps /\ mis = [].
  Proof.
    intros H HS. induction HS as [|p ps v mi Hp _ IH|p ps v mi Hp _ IH]; [auto| |].
    - destruct IH as [-> ->]; [intros q Hq; apply H; right; exact Hq|]. auto.
    - exfalso. apply Hp, H. left; reflexivity.
  Qed.
  Lemma fresh_swapped params i d co x v : fresh_dealer params i d co x -> (1 <= u32v (p_t params))%N ->
    pt_index (doc_swap_key d v) = i /\ ~ crashing (doc_swap_key d v) /\
    (ok_bootstrap (p_t params) (doc_swap_key d v) <-> nizk_verify (pt_dh_proof d) i (pt_dh_pk v) = Ok tt).
  Proof.
    intros H Ht. pose proof (fresh_ok params i d co x Ht H) as (_ & K1 & K2). pose proof (fresh_not_crashing params i d co x H) as K3.
    destruct H as [H1 H2 H3 H4 H5 (pr & a0 & H6 & H7 & H8)].
    split; [exact H1|]. split; [intros (_ & _ & X); cbn in X; congruence|].
    unfold ok_bootstrap, dh_proof_ok, doc_swap_key. cbn [pt_dh_proof pt_index pt_dh_pk]. rewrite H1. split; [tauto|].
    intros E. split; [exact E|]. split.
    - destruct K1 as (c & P & rest & q & A & B & C & D). exists c, P, rest, q. split; [exact A|]. split; [exact B|]. split; [exact C|]. cbn [pt_index]. rewrite <- H1. exact D.
    - destruct K2 as (c & A & B). exists c. split; [exact A|exact B].
  Qed.
End DocBad.

(** Bob publishes the Diffie-Hellman key of another participant. Either his proof happens to verify for that key as
    well (the program then stops at the first assertion), or everybody else flags exactly Bob, and they finish with
    keys of which any t recover one secret. *)
Theorem C108_documented_flagging :
  forall (S : Suite) (L : SuiteLaws S) (m : build) (n t : u32) (before : list u32) (bob : u32) (after : list u32) (victim : u32) (r : Rng),
  good_indices (before ++ bob :: after) -> N.of_nat (length (before ++ bob :: after)) = u32v n ->
  (1 <= u32v t)%N -> (u32v t < u32v n)%N -> In victim (before ++ after) ->
  exists d1 b d2 r1 v, doc_dealers (MkParams n t) before bob after r = Ok (d1, b, d2, r1) /\
    In v (map (fun d => fst (fst d)) (d1 ++ d2)) /\ pt_index v = victim /\
    (nizk_verify (pt_dh_proof (fst (fst b))) bob (pt_dh_pk v) = Ok tt /\ doc_flagged m n t before bob after victim r = Panic \/
     nizk_verify (pt_dh_proof (fst (fst b))) bob (pt_dh_pk v) <> Ok tt /\
     exists outs r' s, doc_flagged m n t before bob after victim r = Ok (outs, r') /\
       holders (before ++ after) (N.to_nat (u32v t)) s outs).
Proof.
  intros S L m n t before bob after victim r [Hnd H0] Hn Ht1 Htn Hv. set (params := MkParams n t).
  assert (H0a : ~ In u32_zero before) by (intros X; apply H0, in_or_app; left; exact X).
  assert (H0b : bob <> u32_zero) by (intros X; apply H0, in_or_app; right; left; exact X).
  assert (H0c : ~ In u32_zero after) by (intros X; apply H0, in_or_app; right; right; exact X).
  destruct (deal_all params before r H0a Ht1) as (p1 & r1 & E1 & I1 & D1).
  destruct (C12_new_dealer_well_formed S L params bob r1 H0b Ht1) as (d & co & x & r2 & E2 & _).
  destruct (deal_all params after r2 H0c Ht1) as (p2 & r3 & E3 & I2 & D2).
  pose proof (new_dealer_inv params bob r1 d co x r2 H0b Ht1 E2) as Fb.
  set (parties := p1 ++ p2).
  assert (Hi : map y_index parties = before ++ after) by (unfold parties; rewrite map_app, I1, I2; reflexivity).
  assert (H0' : ~ In u32_zero (before ++ after)) by (intros X; apply in_app_or in X; tauto).
  assert (HF : forall q, In q parties -> fresh_dealer params (y_index q) (y_d q) (y_co q) (y_x q)).
  { intros q Hq. assert (X : dealt_by params q) by (apply in_app_or in Hq; destruct Hq; auto). destruct X as (ra & rb & E).
    eapply new_dealer_inv; [|exact Ht1|exact E]. intros Z. apply H0'. rewrite <- Hi, <- Z. apply in_map, Hq. }
  assert (Hix : forall q, In q parties -> pt_index (y_d q) = y_index q) by (intros q Hq; apply (HF q Hq)).
  assert (Hid : map pt_index (map y_d parties) = before ++ after) by (rewrite map_map, <- Hi; apply map_ext_in, Hix).
  (* the victim *)
  assert (Hw : exists w, find (fun p => u32_eqb (pt_index p) victim) (map y_d parties) = Some (y_d w) /\ In w parties /\ y_index w = victim).
  { destruct (find (fun p => u32_eqb (pt_index p) victim) (map y_d parties)) as [w|] eqn:Ew.
    - apply find_some in Ew. destruct Ew as [Ew1 Ew2]. apply u32_eqb_spec in Ew2. apply in_map_iff in Ew1. destruct Ew1 as (q & <- & Hq).
      exists q. split; [reflexivity|]. split; [exact Hq|]. rewrite <- (Hix q Hq). exact Ew2.
    - exfalso. rewrite <- Hid in Hv. apply in_map_iff in Hv. destruct Hv as (p & Ep & Hp). pose proof (find_none _ _ Ew p Hp) as X.
      cbn beta in X. rewrite Ep, u32_eqb_refl in X. discriminate. }
  destruct Hw as (w & Ew & Hw & Iw).
  exists (map triple p1), (d, co, x), (map triple p2), r3, (y_d w). cbn [fst].
  assert (ED : doc_dealers params before bob after r = Ok (map triple p1, (d, co, x), map triple p2, r3)).
  { unfold doc_dealers. rewrite E1. cbn [bind]. rewrite E2. cbn [bind]. rewrite E3. reflexivity. }
  split; [exact ED|].
  assert (Epart : forall l, map (fun d : Participant * list F * F => fst (fst d)) (map triple l) = map y_d l) by (intros l; rewrite map_map; reflexivity).
  split; [rewrite <- map_app, Epart; apply in_map, Hw|]. split; [rewrite (Hix w Hw); exact Iw|].
  unfold doc_flagged. rewrite params_ok by (fold params; lia). cbn [bind]. fold params. rewrite ED. cbn [bind fst].
  rewrite <- map_app. fold parties. rewrite !Epart, Ew. cbn [unwrap bind].
  destruct (fresh_swapped params bob d co x (y_d w) Fb Ht1) as (B1 & B2 & B3).
  set (bad := doc_swap_key d (y_d w)) in *. set (ps := map y_d p1 ++ bad :: map y_d p2).
  assert (Hlen : length (before ++ bob :: after) = Datatypes.S (length parties)).
  { rewrite !app_length. cbn [length]. unfold parties. rewrite app_length, <- I1, <- I2, !map_length. lia. }
  assert (Hlps : length ps = Datatypes.S (length parties)).
  { unfold ps, parties. rewrite !app_length. cbn [length]. rewrite !map_length. lia. }
  assert (Hndp : NoDup (map pt_index ps)).
  { unfold ps. rewrite map_app. cbn [map]. rewrite B1.
    replace (map pt_index (map y_d p1)) with before; [replace (map pt_index (map y_d p2)) with after; [exact Hnd|]|].
    - rewrite map_map, <- I2. symmetry. apply map_ext_in. intros q Hq. apply Hix. apply in_or_app. right; exact Hq.
    - rewrite map_map, <- I1. symmetry. apply map_ext_in. intros q Hq. apply Hix. apply in_or_app. left; exact Hq. }
  assert (Eb : pt_index d = bob) by apply Fb. rewrite Eb.
  assert (DV : nizk_verify (pt_dh_proof d) bob (pt_dh_pk (y_d w)) = Ok tt \/ nizk_verify (pt_dh_proof d) bob (pt_dh_pk (y_d w)) <> Ok tt).
  { destruct (nizk_verify (pt_dh_proof d) bob (pt_dh_pk (y_d w))) as [[]|e|]; [left; reflexivity|right; discriminate|right; discriminate]. }
  destruct DV as [EV|EV].
  - (* the proof verifies all the same *)
    left. split; [exact EV|]. destruct parties as [|q rest] eqn:Ep; [destruct Hw|]. cbn [map each].
    assert (Hbad : ok_bootstrap (p_t params) bad) by (apply B3, EV).
    assert (Hall : forall p, In p ps -> ok_bootstrap (p_t params) p /\ ~ crashing p).
    { intros p Hp. assert (Hp' : p = bad \/ exists q', In q' (p1 ++ p2) /\ p = y_d q').
      { unfold ps in Hp. apply in_app_or in Hp. destruct Hp as [Hp|[Hp|Hp]]; [right|left; symmetry; exact Hp|right];
          apply in_map_iff in Hp; destruct Hp as (q' & <- & Hq'); exists q'; (split; [apply in_or_app; tauto|reflexivity]). }
      destruct Hp' as [->|(q' & Hq' & ->)]; [split; assumption|]. unfold parties in Ep. rewrite Ep in Hq'. pose proof (HF q' Hq') as Fq.
      split; [eapply fresh_ok; [exact Ht1|exact Fq]|eapply fresh_not_crashing, Fq]. }
    unfold doc_flagging_round_one at 1. unfold triple at 1.
    destruct (C13_bootstrap_outcome S L m params (y_x q) (pt_index (y_d q)) (y_co q) ps r3) as (valid & mis & HS & _ & HOk).
    { rewrite Hlps, <- Hlen. exact Hn. } { exact Ht1. } { intros p Hp. apply Hall, Hp. }
    destruct (splits_all _ _ _ _ (fun p Hp => proj1 (Hall p Hp)) HS) as [-> ->].
    destruct HOk as (st & r' & Eboot & _); [cbn [p_t params]; rewrite Hlps, <- Hlen; lia|]. rewrite Eboot. cbn [bind pl_valid].
    assert (EL : list_eqb participant_eqb ps (y_d q :: map y_d rest) = false).
    { apply not_true_iff_false. intros X. apply list_eqb_length in X. rewrite Hlps in X. cbn in X. rewrite map_length in X. lia. }
    rewrite EL. reflexivity.
  - right. split; [exact EV|].
    assert (Hbad : ~ ok_bootstrap (p_t params) bad) by (intros X; apply EV, B3, X).
    assert (Hcount : N.of_nat (Datatypes.S (length parties)) = u32v (p_n params)) by (rewrite <- Hlen; exact Hn).
    assert (Htp : (1 <= u32v (p_t params) <= N.of_nat (length parties))%N) by (cbn [p_t p_n params] in *; lia).
    set (Q := fun (q : Party) (s : RoundOne * bmap EncShare) => exists st comms, fst s = R1 st /\
      shares_for_all (y_index q) (y_x q) (y_co q) ps (snd s) /\ records params (y_index q) (y_x q) (map y_d parties) st /\
      ds_comms st = Some comms /\ NoDup (bkeys comms) /\
      (forall j c, bget j comms = Some c <-> exists q, In q parties /\ y_index q = j /\ c = MkVss j (committed (y_co q))) /\
      (forall q, In q parties -> bget (y_index q) (ds_dhs st) = Some (gen * y_x q)%G)).
    destruct (each_ok (fun q dd => In q parties /\ dd = triple q) (fun q s => In q parties /\ Q q s)
      (doc_flagging_round_one m params ps (map y_d parties) bob) parties (map triple parties) r3) as (ss & r4 & E4 & HSS).
    { apply forall2_map_r. eapply forall2_impl; [|apply forall2_self with (P := fun g => In g parties)]; [|auto]. intros a b [<- Ha]. auto. }
    { intros q dd r0 [Hq ->]. unfold doc_flagging_round_one, triple. rewrite (Hix q Hq).
      destruct (flagged_round_one m params p1 p2 bad (y_x q) (y_index q) (y_co q) r0 HF Hndp Hcount Htp Hbad B2)
        as (st & es & comms & r' & A1 & A2 & A3 & A4 & A5 & A6 & A7 & A8).
      fold ps in A1, A3. rewrite A1. cbn [bind pl_valid pl_mis]. fold parties. rewrite list_eqb_refl by (intros p; apply u32_eqb_refl).
      cbn [assert_true bind]. rewrite B1. rewrite list_eqb_refl by apply u32_eqb_refl. cbn [assert_true bind]. rewrite A2. cbn [bind].
      exists (R1 st, es), r'. split; [reflexivity|]. split; [exact Hq|]. exists st, comms. cbn [fst snd]. auto 10. }
    rewrite E4. cbn [bind]. rewrite Hid.
    set (s := interp0 (dealt_values parties F0)).
    set (out := fun p => ((gen * s)%G, MkSK (y_index p) (interp0 (dealt_values parties (of_u32 (y_index p)))))).
    (* the share of p for q *)
    assert (HSh : forall p q sx, In q parties -> Q p sx -> exists e, bget (y_index q) (snd sx) = Some e /\ share_for (y_index p) (y_x p) (y_co p) (y_d q) e).
    { intros p q sx Hq (st & comms & _ & [_ K] & _). apply K. apply last_with_distinct; [exact Hndp|]. split; [|apply Hix, Hq].
      unfold ps. apply in_app_or in Hq. apply in_or_app. destruct Hq as [Hq|Hq]; [left|right; right]; apply in_map, Hq. }
    destruct (session_ok m y_index out parties (map fst ss) (map snd ss) r4) as (r5 & E5).
    { intros q es Hq Hes. apply in_map_iff in Hes. destruct Hes as (sx & <- & Hsx).
      destruct (forall2_in_r _ _ _ HSS sx Hsx) as (p & Hp & _ & HQp).
      destruct (HSh p q sx Hq HQp) as (e & He & _). exists e. exact He. }
    { apply forall2_map_r. eapply forall2_impl; [|exact HSS]. intros q sx (Hq & st & comms & Est & _ & R & Hc & Hndc & Hcm & Hdh) box r0 Hbox.
      rewrite Est.
      destruct (dealing_ok m st comms (map dealing parties) (map dealing parties) box r0) as (s2 & r' & X1 & _ & X2); auto.
      - assert (Hdi : map (fun d => fst (fst d)) (map dealing parties) = before ++ after) by (rewrite map_map; exact Hi).
        rewrite Hdi. split; [apply NoDup_remove_1 in Hnd; exact Hnd|exact H0'].
      - intros j c. rewrite Hcm. split.
        + intros (p & Hp & <- & ->). exists (y_x p), (y_co p). split; [|reflexivity]. apply (in_map dealing), Hp.
        + intros (y & cy & Hin & ->). apply in_map_iff in Hin. destruct Hin as (p & [= <- <- <-] & Hp). exists p. auto.
      - intros j y cy Hin. apply in_map_iff in Hin. destruct Hin as (p & [= <- <- <-] & Hp). split; [|apply Hdh, Hp].
        destruct (HF p Hp) as [_ _ Hl _ _ _]. intros E. rewrite E in Hl. cbn in Hl. cbn [p_t params] in *. lia.
      - rewrite (rec_n _ _ _ _ _ R), (rec_t _ _ _ _ _ R), map_length. apply Htp.
      - rewrite (rec_t _ _ _ _ _ R), map_length. apply Htp.
      - rewrite (rec_index _ _ _ _ _ R), (rec_sk _ _ _ _ _ R).
        destruct (HF q Hq) as [Hqi Hpk _ _ _ _].
        assert (HS2 : Forall2 (fun p sx => exists e, bget (y_index q) (snd sx) = Some e /\ share_for (y_index p) (y_x p) (y_co p) (y_d q) e) parties ss).
        { eapply forall2_impl; [|exact HSS]. intros p sx' [_ X]. apply HSh; assumption. }
        clear -HS2 Hbox Hqi Hpk L. revert box Hbox HS2. generalize parties ss. clear parties ss.
        intros parties ss box Hbox HS2. revert box Hbox. induction HS2 as [|p sx ps0 ss0 (e & He & K1 & K2 & K3) HS2 IH]; intros box Hbox;
          inversion Hbox as [|? y ? box' Hy Hbox']; subst; cbn [map]; constructor.
        + cbn [dealing]. rewrite He in Hy. injection Hy as <-.
          rewrite Hqi in K2, K3. split; [exact K1|]. split; [exact K2|]. rewrite <- K3, Hpk. do 2 f_equal. apply dh_shared.
        + apply IH. assumption.
      - exists s2, r'. split; [exact X1|]. rewrite X2, (rec_index _ _ _ _ _ R), !map_map. reflexivity. }
    rewrite Hi in E5. rewrite E5. cbn [bind].
    assert (Hne : parties <> []) by (intros X; rewrite X in Hw; exact Hw).
    rewrite map_map. rewrite (hd_map_const parties _ (gen * s)%G) by (auto; reflexivity).
    rewrite same_key_ok by (intros o Ho; apply in_map_iff in Ho; destruct Ho as (p & <- & _); reflexivity). cbn [bind].
    exists (map out parties), r5, s. split; [reflexivity|]. split; [rewrite map_map; exact Hi|]. split.
    + rewrite map_map. cbn [out snd].
      assert (HP : honest_parties (MkParams (u32_of_N (N.of_nat (length parties))) t) parties).
      { pose proof (u32_bound n). cbn [p_n params] in Hcount. constructor; cbn [p_n p_t].
        - rewrite u32_of_N_small by lia. reflexivity.
        - rewrite u32_of_N_small by lia. exact Htp.
        - rewrite Hi. split; [apply NoDup_remove_1 in Hnd; exact Hnd|exact H0'].
        - intros p Hp. apply in_app_or in Hp. destruct Hp as [Hp|Hp]; [apply D1 in Hp|apply D2 in Hp]; exact Hp. }
      exact (dealt_keys_sharing S L _ parties HP).
    + intros o Ho. apply in_map_iff in Ho. destruct Ho as (p & <- & _). reflexivity.
Qed.
Print Assumptions C108_documented_flagging.

Section DocBlame.
  Context {S : Suite} {L : SuiteLaws S}.
  Lemma combine_maps {A B C} (f : A -> B) (g : A -> C) l : combine (map f l) (map g l) = map (fun x => (f x, g x)) l.
  Proof. induction l as [|a l IH]; cbn; congruence. Qed.
  Lemma filter_map_comm {A B} (f : A -> B) (p : B -> bool) l : filter p (map f l) = map f (filter (fun a => p (f a)) l).
  Proof. induction l as [|a l IH]; cbn; [reflexivity|]. destruct (p (f a)); cbn; congruence. Qed.
  Lemma each_panic {A B} (f : A -> Rng -> result (B * Rng)) l : forall r a, In a l -> (forall r, f a r = Panic) ->
    (forall b r, In b l -> f b r = Panic \/ exists c r', f b r = Ok (c, r')) -> each f l r = Panic.
  Proof.
    induction l as [|x l IH]; intros r a Ha Hp Ho; [destruct Ha|]. cbn [each]. destruct (Ho x r (or_introl eq_refl)) as [E|(c & r' & E)].
    - rewrite E. reflexivity.
    - rewrite E. cbn [bind]. destruct Ha as [->|Ha]; [rewrite Hp in E; discriminate|].
      rewrite (IH r' a Ha Hp); [reflexivity|]. intros b r0 Hb. apply Ho. right; exact Hb.
  Qed.
  Lemma decrypt_dec e k s : decrypt_share e k = Ok s \/ decrypt_share e k <> Ok s.
  Proof.
    destruct (decrypt_share e k) as [s'|x|]; [|right; discriminate|right; discriminate].
    destruct s as [a b v], s' as [a' b' v']. destruct (u32_eq_dec a' a) as [->|Ha]; [|right; intros [= X _ _]; contradiction].
    destruct (u32_eq_dec b' b) as [->|Hb]; [|right; intros [= X _]; contradiction].
    destruct (Feqb v' v) eqn:E; [left; apply Feqb_spec in E; congruence|right]. intros [= X]. apply Feqb_spec in X. congruence.
  Qed.
  Lemma followers_list {X} (P : X -> Follower -> Prop) gs (s2s : list (RoundTwo * list Complaint)) :
    Forall2 (fun q x => exists h, h_s2 h = fst x /\ h_cs h = snd x /\ P q h) gs s2s ->
    exists hs, Forall2 (fun h x => h_s2 h = fst x /\ h_cs h = snd x) hs s2s /\ Forall2 P gs hs.
  Proof.
    induction 1 as [|q x gs s2s (h & A & B & C) _ (hs & D & E)]; [exists []; split; constructor|].
    exists (h :: hs). split; constructor; auto.
  Qed.
  Lemma same_party (parties : list Party) p q : NoDup (map y_index parties) -> In p parties -> In q parties -> y_index p = y_index q -> p = q.
  Proof.
    intros I Hp Hq E. induction parties as [|a l IH]; [contradiction|]. cbn [map] in I. apply NoDup_cons_iff in I. destruct I as [I1 I2].
    destruct Hp as [->|Hp], Hq as [->|Hq]; auto.
    - destruct I1. rewrite E. apply in_map, Hq.
    - destruct I1. rewrite <- E. apply in_map, Hp.
  Qed.
  Lemma forall2_in_l {A B} (R : A -> B -> Prop) l l' : Forall2 R l l' -> forall a, In a l -> exists b, In b l' /\ R a b.
  Proof.
    induction 1 as [|x y l l' H _ IH]; intros a Ha; [destruct Ha|]. destruct Ha as [<-|Ha]; [exists y; split; [left; reflexivity|exact H]|].
    destruct (IH a Ha) as (b & Hb & HR). exists b. split; [right; exact Hb|exact HR].
  Qed.
  Lemma calls_spec {X A B C} (f : X -> A) (g : X -> B) (P : X -> C -> Prop) l l' : Forall2 P l l' ->
    Forall2 (fun q x => fst x = f q /\ fst (snd x) = g q /\ P q (snd (snd x))) l (combine (map f l) (combine (map g l) l')).
  Proof. induction 1; cbn [map combine]; constructor; auto. Qed.
  Lemma forall2_impl_in {A B} (R R' : A -> B -> Prop) l l' : (forall a b, In a l -> R a b -> R' a b) -> Forall2 R l l' -> Forall2 R' l l'.
  Proof.
    intros H HF. induction HF as [|a b l l' Hab HF IH]; constructor; [apply H; [left; reflexivity|exact Hab]|].
    apply IH. intros x y Hx. apply H. right; exact Hx.
  Qed.
  Lemma forall2_cons_l {A B} (R : A -> B -> Prop) a l l' : Forall2 R (a :: l) l' -> exists b l2, l' = b :: l2 /\ R a b /\ Forall2 R l l2.
  Proof. inversion 1; subst; eauto. Qed.
  Lemma forall2_flip {A B} (R : A -> B -> Prop) l l' : Forall2 R l l' -> Forall2 (fun b a => R a b) l' l.
  Proof. induction 1; constructor; auto. Qed.
  Lemma forall2_compose {A B C} (R : A -> B -> Prop) (R' : B -> C -> Prop) (Q : A -> C -> Prop) : (forall a b c, R a b -> R' b c -> Q a c) ->
    forall l l' l'', Forall2 R l l' -> Forall2 R' l' l'' -> Forall2 Q l l''.
  Proof.
    intros H l l' l'' HF. revert l''. induction HF as [|a b l l' Hab HF IH]; intros l'' HF'; inversion HF'; subst; constructor; eauto.
  Qed.
  Lemma find_dealer (parties : list Party) b bob : NoDup (map y_index parties) -> (forall p, In p parties -> pt_index (y_d p) = y_index p) ->
    In b parties -> y_index b = bob -> find (fun p => u32_eqb (pt_index p) bob) (map y_d parties) = Some (y_d b).
  Proof.
    intros Hnd Hix Hb Eb. assert (Hu : forall p, In p parties -> y_index p = bob -> p = b)
      by (intros p Hp E; apply (same_party parties); auto; congruence).
    clear Hnd. induction parties as [|a l IH]; [contradiction|]. cbn [map find]. destruct (u32_eqb (pt_index (y_d a)) bob) eqn:E.
    - apply u32_eqb_spec in E. rewrite Hix in E by (left; reflexivity). rewrite (Hu a (or_introl eq_refl) E). reflexivity.
    - destruct Hb as [->|Hb].
      + rewrite Hix, Eb, u32_eqb_refl in E by (left; reflexivity). discriminate.
      + apply IH; auto; intros p Hp; [apply Hix|apply Hu]; right; exact Hp.
  Qed.
  (** what a participant needs to see for having nothing to complain about *)
  Definition opens_to (q p : Party) (e : EncShare) : Prop :=
    es_sender e = y_index p /\ es_receiver e = y_index q /\
    decrypt_share e (enc_point ((gen * y_x p) * y_x q)%G) = Ok (MkShare (y_index p) (y_index q) (poly_value (y_co p) (of_u32 (y_index q)))).
  Lemma delivered_opens m params parties p q e : honest_parties params parties -> all_bootstrapped m params parties ->
    In p parties -> In q parties -> bget (y_index q) (y_es p) = Some e -> opens_to q p e.
  Proof.
    intros H HB Hp Hq He.
    assert (X : Forall2 (fun d e => let '(j, x, co) := d in es_sender e = j /\ es_receiver e = y_index q /\
       decrypt_share e (enc_point ((gen * x) * y_x q)%G) =
         Ok (MkShare j (y_index q) (poly_value co (of_u32 (y_index q))))) (map dealing [p]) [e]).
    { apply (honest_delivered_some m params parties [p] q [e] H HB Hq); [intros z [<-|[]]; exact Hp|]. constructor; [exact He|constructor]. }
    inversion X; subst. assumption.
  Qed.
  Lemma quiet_round_two m params parties q es r : honest_parties params parties -> all_bootstrapped m params parties ->
    In q parties -> Forall2 (opens_to q) parties es -> exists s2 r', to_round_two m (y_st q) es r = Ok (s2, [], r').
  Proof.
    intros H HB Hq HF.
    destruct (honest_state m params parties q H HB Hq) as (st & comms & ps & Est & HPs & _ & R & Hc & Hnd & Hcm & Hdh).
    destruct (dealing_ok m st comms (map dealing parties) (map dealing parties) es r) as (s2 & r' & E1 & _ & E2); auto.
    - rewrite map_map. apply H.
    - intros j c. rewrite Hcm. split.
      + intros (p & Hp & <- & ->). exists (y_x p), (y_co p). split; [|reflexivity]. apply (in_map dealing), Hp.
      + intros (x & co & Hin & ->). apply in_map_iff in Hin. destruct Hin as (p & [= <- <- <-] & Hp). exists p. auto.
    - intros j x co Hin. apply in_map_iff in Hin. destruct Hin as (p & [= <- <- <-] & Hp). split; [|apply Hdh, Hp].
      destruct (honest_fresh params parties p H Hp) as [_ _ Hl _ _ _]. intros E. rewrite E in Hl. cbn in Hl.
      destruct (hp_threshold _ _ H) as [T1 T2]. lia.
    - rewrite (rec_n _ _ _ _ _ R), (rec_t _ _ _ _ _ R), (Permutation_length HPs), map_length, (hp_count _ _ H). apply H.
    - rewrite (rec_t _ _ _ _ _ R), map_length, (hp_count _ _ H). apply H.
    - rewrite (rec_index _ _ _ _ _ R), (rec_sk _ _ _ _ _ R). clear -HF. induction HF; cbn [map]; constructor; assumption.
    - rewrite Est. exists s2, r'. exact E1.
  Qed.
  (** what one participant's round two may be, for the shares it receives *)
  Lemma one_concat {X} (w : X) (c0 : list Complaint -> Prop) l cs :
    NoDup l -> In w l -> Forall2 (fun q c => (q = w /\ c0 c) \/ (q <> w /\ c = [])) l cs -> c0 (concat cs).
  Proof.
    intros Hnd Hw HF. induction HF as [|q c l cs Hq HF IH]; [contradiction|]. apply NoDup_cons_iff in Hnd. destruct Hnd as [N1 N2].
    cbn [concat]. destruct Hq as [[-> Hc]|[Hq ->]].
    - assert (E : concat cs = []).
      { clear -HF N1. induction HF as [|q c' l cs Hq HF IH]; [reflexivity|]. cbn [concat].
        destruct Hq as [[-> _]|[_ ->]]; [destruct N1; left; reflexivity|]. apply IH. intros X0. apply N1. right; exact X0. }
      rewrite E, app_nil_r. exact Hc.
    - cbn [app]. apply IH; [exact N2|]. destruct Hw as [Hw|Hw]; [contradiction|exact Hw].
  Qed.
End DocBlame.

(** Bob sends the victim a share with a wrong nonce. Either it happens to open to the right value all the same (then
    nobody complains and the program stops at its assertion), or the victim complains, everybody convicts Bob and nobody
    else, and they finish with keys of which any t recover one secret. *)
Theorem C108_documented_blaming :
  forall (S : Suite) (L : SuiteLaws S) (m : build) (n t : u32) (before : list u32) (bob : u32) (after : list u32) (victim : u32) (r : Rng),
  good_indices (before ++ bob :: after) -> N.of_nat (length (before ++ bob :: after)) = u32v n ->
  (1 <= u32v t)%N -> (u32v t < u32v n)%N -> (u32v bob <= u32v n)%N -> In victim (before ++ after) ->
  exists parties r1 r2 b w e,
    each (new_dealer (MkParams n t)) (before ++ bob :: after) r = Ok (map triple parties, r1) /\
    each (doc_round_one m (MkParams n t) (map y_d parties)) (map triple parties) r1 = Ok (map (fun p => (y_st p, y_es p)) parties, r2) /\
    In b parties /\ y_index b = bob /\ In w parties /\ y_index w = victim /\ bget victim (y_es b) = Some e /\
    let opened := decrypt_share (MkEnc (es_sender e) (es_receiver e) zero_nonce (es_ct e)) (enc_point ((gen * y_x b) * y_x w)%G) in
    let right := Ok (MkShare bob victim (poly_value (y_co b) (of_u32 victim))) in
    (opened = right /\ doc_blamed m n t before bob after victim r = Panic \/
     opened <> right /\
     exists outs r' s, doc_blamed m n t before bob after victim r = Ok (outs, r') /\
       holders (before ++ after) (N.to_nat (u32v t)) s outs).
Proof.
  intros S L m n t before bob after victim r Hg Hn Ht1 Htn Hbn Hv. set (params := MkParams n t).
  destruct (doc_dealt m n t (before ++ bob :: after) r Hg Hn ltac:(lia)) as (parties & r1 & r2 & E1 & E2 & Qi & H & HB & Hix & HQ).
  fold params in E1, E2, H, HB.
  destruct (map_eq_app y_index parties _ _ Qi) as (p1 & p2' & Ep & I1 & I2').
  destruct (map_eq_cons y_index p2' I2') as (b & p2 & -> & Ib & I2).
  assert (Hb : In b parties) by (rewrite Ep; apply in_elt).
  set (rest := p1 ++ p2).
  assert (Hrest : map y_index rest = before ++ after) by (unfold rest; rewrite map_app, I1, I2; reflexivity).
  assert (Hin : forall q, In q rest -> In q parties).
  { intros q Hq. rewrite Ep. apply in_or_app. apply in_app_or in Hq. destruct Hq; [left|right; right]; assumption. }
  destruct Hg as [Hnd H0]. pose proof (NoDup_remove_2 _ _ _ Hnd) as Hbob.
  assert (Hne : forall q, In q rest -> y_index q <> bob).
  { intros q Hq X. apply Hbob. rewrite <- Hrest, <- X. apply in_map, Hq. }
  assert (Hv' := Hv). rewrite <- Hrest in Hv'. apply in_map_iff in Hv'. destruct Hv' as (w & Iw & Hw).
  assert (Hvb : victim <> bob) by (rewrite <- Iw; apply Hne, Hw).
  destruct (HQ b victim Hb) as (e & He); [apply in_or_app; apply in_app_or in Hv; destruct Hv; [left|right; right]; assumption|].
  exists parties, r1, r2, b, w, e. split; [exact E1|]. split; [exact E2|]. split; [exact Hb|]. split; [exact Ib|].
  split; [apply Hin, Hw|]. split; [exact Iw|]. split; [exact He|]. cbv zeta.
  set (e' := MkEnc (es_sender e) (es_receiver e) zero_nonce (es_ct e)).

  pose proof (delivered_opens m params parties b w e H HB Hb (Hin w Hw) ltac:(rewrite Iw; exact He)) as (Hs1 & Hs2 & _).
  set (sent := fun p : Party => if u32_eqb (y_index p) bob then binsert victim e' (y_es p) else y_es p).
  assert (Es : map pt_index (map y_d parties) = map y_index parties) by (rewrite map_map; apply map_ext_in; exact Hix).
  assert (Esent : traverse (fun x => if u32_eqb (fst x) bob then doc_garble victim (snd x) else Ok (snd x))
    (map (fun p => (y_index p, y_es p)) parties) = Ok (map sent parties)).
  { destruct (traverse_ok (fun p x => In p parties /\ x = (y_index p, y_es p)) (fun p es => es = sent p)
      (fun x => if u32_eqb (fst x) bob then doc_garble victim (snd x) else Ok (snd x)) parties (map (fun p => (y_index p, y_es p)) parties)) as (l & E & HF).
    - apply forall2_map_r. eapply forall2_impl; [|apply forall2_self with (P := fun p => In p parties)]; [|auto].
      intros a a' [<- Ha]. split; [exact Ha|reflexivity].
    - intros p x [Hp ->]. cbn [fst snd]. unfold sent. destruct (u32_eqb (y_index p) bob) eqn:E; [|eauto].
      apply u32_eqb_spec in E. assert (p = b).
      { apply (same_party parties); auto; [rewrite Qi; exact Hnd|congruence]. }
      subst p. exists (binsert victim e' (y_es b)). unfold doc_garble. rewrite He. split; reflexivity.
    - rewrite E. f_equal. apply forall2_eq_map, HF. }
  assert (Eoth : filter (fun x : u32 * RoundOne => negb (u32_eqb (fst x) bob)) (map (fun p => (y_index p, y_st p)) parties) = map (fun p => (y_index p, y_st p)) rest).
  { rewrite filter_map_comm. cbn [fst]. f_equal. rewrite Ep, filter_app. cbn [filter]. rewrite Ib, u32_eqb_refl. cbn [negb].
    unfold rest. f_equal; apply filter_all; intros q Hq; apply negb_true_iff, u32_eqb_neq, Hne; apply in_or_app; auto. }
  assert (Hbox : forall q p, In q parties -> In p parties -> exists x, bget (y_index q) (sent p) = Some x).
  { intros q p Hq Hp. unfold sent. destruct (u32_eqb (y_index p) bob).
    - rewrite bget_binsert. destruct (u32_eqb (y_index q) victim); [eauto|]. apply HQ; [exact Hp|]. rewrite <- Qi. apply in_map, Hq.
    - apply HQ; [exact Hp|]. rewrite <- Qi. apply in_map, Hq. }
  assert (Eboxes : exists boxes, traverse (doc_box (map sent parties)) (map y_index rest) = Ok boxes /\
    Forall2 (fun q box => In q rest /\ Forall2 (fun p x => In p parties /\ bget (y_index q) (sent p) = Some x) parties box) rest boxes).
  { apply traverse_ok with (Q := fun q i => In q rest /\ i = y_index q).
    - apply forall2_map_r. eapply forall2_impl; [|apply forall2_self with (P := fun p => In p rest)]; [|auto].
      intros a a' [<- Ha]. split; [exact Ha|reflexivity].
    - intros q i [Hq ->]. unfold doc_box.
      destruct (traverse_ok (fun p es => In p parties /\ es = sent p) (fun p x => In p parties /\ bget (y_index q) (sent p) = Some x)
        (fun es => unwrap (bget (y_index q) es)) parties (map sent parties)) as (box & E & HF).
      + apply forall2_map_r. eapply forall2_impl; [|apply forall2_self with (P := fun p => In p parties)]; [|auto].
        intros a a' [<- Ha]. split; [exact Ha|reflexivity].
      + intros p es [Hp ->]. destruct (Hbox q p (Hin q Hq) Hp) as (x & E). exists x. split; [rewrite E; reflexivity|split; [exact Hp|exact E]].
      + exists box. split; [exact E|split; [exact Hq|exact HF]]. }
  destruct Eboxes as (boxes & Eb & HFb).
  assert (Hopen : forall q p x, In q rest -> In p parties -> bget (y_index q) (sent p) = Some x ->
    opens_to q p x \/ q = w /\ p = b /\ x = e').
  { intros q p x Hq Hp Hx. unfold sent in Hx. destruct (u32_eqb (y_index p) bob) eqn:E.
    - apply u32_eqb_spec in E. assert (p = b) by (apply (same_party parties); auto; [rewrite Qi; exact Hnd|congruence]). subst p.
      rewrite bget_binsert in Hx. destruct (u32_eqb (y_index q) victim) eqn:Eq.
      + apply u32_eqb_spec in Eq. right. injection Hx as <-. split; [|auto].
        apply (same_party parties); auto; [rewrite Qi; exact Hnd|congruence].
      + left. eapply delivered_opens; eauto.
    - left. eapply delivered_opens; eauto. }
  assert (Edoc : forall y, bind (each (doc_complaining_round_two m victim) (combine (map y_index rest) (combine (map y_st rest) boxes)) r2)
      (fun z => let '(s2s, r3) := z in
       let all := concat (map snd s2s) in
       let* outs := traverse (fun x => doc_settle all (pt_dh_pk (y_d b)) (fst x)) s2s in
       let* _ := doc_same_key (hd Gzero (map fst outs)) outs in Ok (outs, r3)) = y ->
    doc_blamed m n t before bob after victim r = y).
  { intros y <-. unfold doc_blamed. rewrite params_ok by lia. cbn [bind]. fold params. rewrite E1. cbn [bind]. rewrite map_map.
    change (map (fun x => fst (fst (triple x))) parties) with (map y_d parties). rewrite E2. cbn [bind].
    rewrite Es, !map_map. cbn [fst snd]. rewrite !combine_maps, Esent. cbn [bind]. rewrite Eoth, !map_map. cbn [fst snd].
    change (map (fun x : Party => y_index x) rest) with (map y_index rest). change (map (fun x : Party => y_st x) rest) with (map y_st rest).
    rewrite Eb. cbn [bind].
    assert (Ef : find (fun p => u32_eqb (pt_index p) bob) (map y_d parties) = Some (y_d b)).
    { apply find_dealer; auto. rewrite Qi. exact Hnd. }
    rewrite Ef. cbn [unwrap bind]. destruct (each _ _ r2) as [[s2s r3]| |]; reflexivity. }
  set (calls := combine (map y_index rest) (combine (map y_st rest) boxes)) in *.
  assert (HC : Forall2 (fun q x => fst x = y_index q /\ fst (snd x) = y_st q /\ In q rest /\
     Forall2 (fun p x => In p parties /\ bget (y_index q) (sent p) = Some x) parties (snd (snd x))) rest calls).
  { apply (calls_spec y_index y_st _ rest boxes HFb). }
  destruct (decrypt_dec e' (enc_point ((gen * y_x b) * y_x w)%G) (MkShare bob victim (poly_value (y_co b) (of_u32 victim)))) as [Hacc|Hacc].
  - left. split; [exact Hacc|]. apply Edoc.
    assert (Hqt : forall q x r0, fst x = y_index q /\ fst (snd x) = y_st q /\ In q rest /\
      Forall2 (fun p x => In p parties /\ bget (y_index q) (sent p) = Some x) parties (snd (snd x)) ->
      exists s2 r', to_round_two m (fst (snd x)) (snd (snd x)) r0 = Ok (s2, [], r')).
    { intros q x r0 (X1 & X2 & X3 & X4). rewrite X2. apply (quiet_round_two m params parties q _ r0 H HB (Hin q X3)).
      eapply forall2_impl; [|exact X4]. intros p y [Hp Hy]. destruct (Hopen q p y X3 Hp Hy) as [X|(-> & -> & ->)]; [exact X|].
      split; [exact Hs1|]. split; [exact Hs2|]. rewrite Ib, Iw. exact Hacc. }
    assert (Ew : exists x, In x calls /\ fst x = y_index w /\ fst (snd x) = y_st w /\ In w rest /\
      Forall2 (fun p x => In p parties /\ bget (y_index w) (sent p) = Some x) parties (snd (snd x))).
    { destruct (forall2_in_l _ _ _ HC w Hw) as (x & Hx & X). exists x. split; [exact Hx|exact X]. }
    destruct Ew as (xw & Hxw & X1 & X2).
    rewrite (each_panic _ calls r2 xw Hxw); [reflexivity| |].
    + intros r0. unfold doc_complaining_round_two. destruct (Hqt w xw r0 (conj X1 X2)) as (s2 & r' & E). rewrite E. cbn [bind].
      rewrite X1, Iw, u32_eqb_refl. reflexivity.
    + intros x r0 Hx. destruct (forall2_in_r _ _ _ HC x Hx) as (q & Hq & X). destruct (Hqt q x r0 X) as (s2 & r' & E).
      unfold doc_complaining_round_two. rewrite E. cbn [bind]. destruct (u32_eqb (fst x) victim); [left; reflexivity|right; exists (s2, []), r'; reflexivity].
  - right. split; [exact Hacc|].
    assert (Hsp : forall p q, In p parties -> In q parties -> y_index p = y_index q -> p = q).
    { intros p q Hp Hq. apply (same_party parties); auto. rewrite Qi. exact Hnd. }
    set (ran := fun (q : Party) (x : RoundTwo * list Complaint) =>
      (exists box r0 r', In q rest /\ Forall2 (fun p y => In p parties /\ bget (y_index q) (sent p) = Some y) parties box /\
         to_round_two m (y_st q) box r0 = Ok (fst x, snd x, r')) /\
      (q = w /\ (exists c, snd x = [c] /\ accused c = bob /\
          forall z es rw sw csw rw', In z parties -> to_round_two m (y_st z) es rw = Ok (sw, csw, rw') ->
            exists s', blame sw [c] = Ok ([(gen * y_x b)%G], s')) \/ q <> w /\ snd x = [])).
    destruct (each_ok _ ran (doc_complaining_round_two m victim) rest calls r2 HC) as (s2s & r3 & E3 & HR).
    { intros q x r0 (X1 & X2 & X3 & X4). unfold doc_complaining_round_two. rewrite X1, X2.
      destruct (u32_eq_dec (y_index q) victim) as [Eq|Eq].
      - assert (q = w) by (apply Hsp; auto; congruence). subst q.
        assert (Hbx : exists l1 l2, snd (snd x) = l1 ++ e' :: l2 /\ delivered (p1 ++ p2) w (l1 ++ l2)).
        { revert X4. generalize (snd (snd x)). intros box X4.
          apply (forall2_impl _ (fun p y => bget (y_index w) (sent p) = Some y)) in X4; [|intros p y [_ X]; exact X].
          rewrite Ep in X4. apply Forall2_app_inv_l in X4. destruct X4 as (l1 & l2' & Y1 & Y2 & ->).
          destruct (forall2_cons_l _ _ _ _ Y2) as (y & l2 & -> & Y3 & Y4). exists l1, l2. split.
          - f_equal. f_equal. unfold sent in Y3. rewrite Ib, u32_eqb_refl, bget_binsert, Iw, u32_eqb_refl in Y3. congruence.
          - apply Forall2_app; (eapply forall2_impl_in; [|eassumption]); intros p z Hp Hz; unfold sent in Hz;
              (rewrite (proj2 (u32_eqb_neq _ _)) in Hz; [exact Hz|]); apply Hne; unfold rest; apply in_or_app; auto. }
        destruct Hbx as (l1 & l2 & Ebx & HD). rewrite Ebx.
        destruct (bad_message S L m params parties b w e' (p1 ++ p2) l1 l2 r0 H HB Hb (Hin w Hw)) as (s2 & c & r' & B1 & B2 & B3 & B4); auto.
        + cbn [p_n params]. rewrite Ib. exact Hbn.
        + rewrite Ib, Iw. exact Hacc.
        + pose proof (hp_count _ _ H) as Q. cbn [p_n params] in Q. cbn [p_t params]. rewrite Ep, app_length in Q. cbn [length] in Q. rewrite app_length. lia.
        + rewrite B1. cbn [bind]. rewrite Eq, u32_eqb_refl. exists (s2, [c]), r'. split; [reflexivity|]. split.
          * exists (l1 ++ e' :: l2), r0, r'. rewrite <- Ebx at 1. auto.
          * left. split; [reflexivity|]. exists c. split; [reflexivity|]. split; [congruence|].
            intros z es rw sw csw rw' Hz Ez. destruct (B4 z es rw sw csw rw' Hz Ez) as (s' & comms' & B & _). eauto.
      - assert (q <> w) by (intros ->; contradiction).
        destruct (quiet_round_two m params parties q (snd (snd x)) r0 H HB (Hin q X3)) as (s2 & r' & E).
        { eapply forall2_impl; [|exact X4]. intros p y [Hp Hy]. destruct (Hopen q p y X3 Hp Hy) as [X|(-> & _)]; [exact X|contradiction]. }
        rewrite E. cbn [bind]. rewrite (proj2 (u32_eqb_neq _ _) Eq). exists (s2, []), r'. split; [reflexivity|]. split.
        + exists (snd (snd x)), r0, r'. auto.
        + right. split; [assumption|reflexivity]. }
    set (all := concat (map snd s2s)).
    assert (Hall : exists c, all = [c] /\ accused c = bob /\
          forall z es rw sw csw rw', In z parties -> to_round_two m (y_st z) es rw = Ok (sw, csw, rw') ->
            exists s', blame sw [c] = Ok ([(gen * y_x b)%G], s')).
    { unfold all. apply (one_concat w (fun l => exists c, l = [c] /\ accused c = bob /\
          forall z es rw sw csw rw', In z parties -> to_round_two m (y_st z) es rw = Ok (sw, csw, rw') ->
            exists s', blame sw [c] = Ok ([(gen * y_x b)%G], s')) rest).
      - apply (NoDup_map_inv y_index). rewrite Hrest. apply NoDup_remove_1 in Hnd. exact Hnd.
      - exact Hw.
      - apply forall2_map_r. eapply forall2_impl; [|exact HR]. intros q x [_ X]. exact X. }
    destruct Hall as (c & Eall & Hc & Hbl).
    destruct (honest_state m params parties w H HB (Hin w Hw)) as (st & comms & ps & Est & HPs & _ & R & Hcm & Hnc & Hcs & Hdh).
    assert (Hview : forall q, In q parties -> exists st', y_st q = R1 st' /\ ds_index st' = y_index q /\ ds_params st' = ds_params st /\ ds_dhs st' = ds_dhs st /\ ds_comms st' = Some comms).
    { intros q Hq. destruct (honest_state m params parties q H HB Hq) as (st' & comms' & ps' & Est' & _ & _ & R' & _).
      exists st'. split; [exact Est'|]. split; [apply (rec_index _ _ _ _ _ R')|].
      destruct (HB q Hq) as (psq & Pq & rq & lq & rq' & Eq & _). destruct (HB w (Hin w Hw)) as (psw & Pw & rw & lw & rw' & Ew & _).
      rewrite Est' in Eq. rewrite Est in Ew.
      destruct (C62_same_list_same_view S L m m params (y_x q) (y_x w) (y_index q) (y_index w) (y_co q) (y_co w) psq psw rq rw rq' rw' st' st lq lw) as (V1 & V2 & V3 & _).
      - apply (Permutation_NoDup (Permutation_map pt_index (Permutation_sym Pq))). rewrite Es, Qi. exact Hnd.
      - etransitivity; [exact Pq|apply Permutation_sym, Pw].
      - left. split; assumption.
      - rewrite V1, V2, V3. auto. }
    destruct (followers_list (fun q h => In q rest /\ ds_index (h_st h) = y_index q /\ h_settles h = all /\ follows m (ds_params st) (ds_dhs st) comms h /\
       to_round_two m (y_st q) (h_es h) (h_r h) = Ok (h_s2 h, h_cs h, h_r' h)) rest s2s) as (hs & F1 & F2).
    { eapply forall2_impl; [|exact HR]. intros q x [(box & r0 & r' & Y1 & Y2 & Y3) _].
      destruct (Hview q (Hin q Y1)) as (st' & V0 & V1 & V2 & V3 & V4).
      exists (MkFollower st' box r0 (fst x) (snd x) r' all). cbn [h_st h_es h_r h_s2 h_cs h_r' h_settles].
      split; [reflexivity|]. split; [reflexivity|]. split; [exact Y1|]. split; [exact V1|]. split; [reflexivity|]. split; [|exact Y3].
      assert (Hmine : forall p y, In p parties -> bget (y_index q) (sent p) = Some y -> es_sender y = y_index p /\ es_receiver y = y_index q).
      { intros p y Hp Hy. destruct (Hopen q p y Y1 Hp Hy) as [(A & B & _)|(-> & -> & ->)]; auto. }
      constructor; cbn [h_st h_es h_r h_s2 h_cs h_r' h_settles]; auto.
      - intros y Hy. destruct (forall2_in_r _ _ _ Y2 y Hy) as (p & _ & Hp & E). destruct (Hmine p y Hp E) as [A B].
        rewrite V1, B, A. split; [reflexivity|]. apply bget_some_key with (v := MkVss (y_index p) (committed (y_co p))). apply Hcs. exists p. auto.
      - intros j Hj. apply bget_key_some in Hj. destruct Hj as (v & Hj). apply Hcs in Hj. destruct Hj as (p & Hp & <- & _).
        destruct (forall2_in_l _ _ _ Y2 p Hp) as (y & Hy & _ & E). exists y. split; [exact Hy|apply (Hmine p y Hp E)].
      - rewrite <- V0. exact Y3. }
    assert (Hh : forall h, In h hs -> exists q, In q rest /\ ds_index (h_st h) = y_index q /\ h_settles h = all /\
        follows m (ds_params st) (ds_dhs st) comms h /\ to_round_two m (y_st q) (h_es h) (h_r h) = Ok (h_s2 h, h_cs h, h_r' h)).
    { intros h Hh. destruct (forall2_in_r _ _ _ F2 h Hh) as (q & _ & X). exists q. exact X. }
    assert (Hcall : forall h x, In h hs -> In x (h_cs h) -> In x all).
    { intros h x Hi Hx. destruct (forall2_in_l _ _ _ F1 h Hi) as (z & Hz & _ & E). rewrite E in Hx. unfold all. apply in_concat.
      exists (snd z). split; [apply in_map, Hz|exact Hx]. }
    assert (Hgc : good_indices (bkeys comms)).
    { split; [exact Hnc|]. intros X. apply bget_key_some in X. destruct X as (v & X). apply Hcs in X. destruct X as (p & Hp & E & _).
      apply (proj2 (hp_indices _ _ H)). rewrite <- E. apply in_map, Hp. }
    destruct (C61_followers_agree_and_hold_keys S L m (ds_params st) (ds_dhs st) comms hs all Hgc) as (keys & comms' & gk & K1 & K2 & K3 & K4).
    { intros h x Hi Hx. apply (Hcall h x Hi) in Hx. rewrite Eall in Hx. destruct Hx as [<-|[]]. rewrite Hc.
      rewrite (rec_n _ _ _ _ _ R), (Permutation_length HPs), map_length, (hp_count _ _ H). exact Hbn. }
    { intros j v Hj. apply Hcs in Hj. destruct Hj as (p & Hp & _ & ->). cbn [vss_points].
      destruct (honest_fresh params parties p H Hp) as [_ _ Hl _ _ _]. cbn [p_t params] in Hl.
      unfold committed. destruct (y_co p); [cbn in Hl; lia|discriminate]. }
    { intros h Hi. destruct (Hh h Hi) as (q & _ & _ & _ & X & _). exact X. }
    { intros h Hi. destruct (Hh h Hi) as (q & _ & _ & X & _). rewrite X. split; [reflexivity|]. intros x. apply (Hcall h x Hi). }
    assert (Hk : forall h, In h hs -> keys = [pt_dh_pk (y_d b)]).
    { intros h Hi. destruct (K3 h Hi) as (sk & (s3 & B1 & _) & _). destruct (Hh h Hi) as (q & X1 & X2 & X3 & X4 & X5).
      rewrite X3, Eall in B1. destruct (Hbl q (h_es h) (h_r h) (h_s2 h) (h_cs h) (h_r' h) (Hin q X1) X5) as (s' & B2).
      destruct (honest_fresh params parties b H Hb) as [_ -> _ _ _ _]. rewrite B2 in B1. congruence. }
    assert (F3 : Forall2 (fun q x => exists h, In h hs /\ h_s2 h = fst x /\ h_settles h = all /\ ds_index (h_st h) = y_index q) rest s2s).
    { clear -F1 F2. assert (G : Forall2 (fun q h => In h hs /\ h_settles h = all /\ ds_index (h_st h) = y_index q) rest hs).
      { apply forall2_flip, forall2_with, forall2_flip in F2. eapply forall2_impl; [|exact F2]. cbn beta. intros q h (A & _ & B & C & _). auto. }
      revert G F1. apply forall2_compose. intros q h x (A & B & C) (D & _). exists h. auto. }
    destruct (traverse_ok _ (fun q o => fst o = gk /\ sk_index (snd o) = y_index q /\ exists h, In h hs /\ ends h keys comms' gk (snd o))
      (fun x => doc_settle all (pt_dh_pk (y_d b)) (fst x)) rest s2s F3) as (outs & E4 & HO).
    { intros q x (h & Hi & X1 & X2 & X3). destruct (K3 h Hi) as (sk & E & _). assert (E0 := E). destruct E0 as (s3 & B1 & _ & B3 & B4).
      exists (gk, sk). cbn [fst snd]. split; [|split; [reflexivity|]; split; [congruence|eauto]].
      unfold doc_settle. rewrite <- X1, <- X2, B1. cbn [bind]. rewrite (Hk h Hi). cbn [length Nat.eqb assert_true bind nth_error unwrap].
      rewrite Geqb_refl. exact B3. }
    set (s := interp0 (key_points (map snd outs))). exists outs, r3, s.
    assert (Hlen : length outs = length rest) by (clear -HO; induction HO; cbn; congruence).
    assert (Hlr : N.of_nat (Datatypes.S (length rest)) = u32v n).
    { rewrite <- Hn, !app_length. cbn [length]. rewrite <- (map_length y_index rest), Hrest, app_length. lia. }
    assert (Hfst : forall o, In o outs -> fst o = gk).
    { intros o Ho. destruct (forall2_in_r _ _ _ HO o Ho) as (q & _ & X & _). exact X. }
    assert (Hidx : map (fun o => sk_index (snd o)) outs = before ++ after).
    { rewrite <- Hrest. clear -HO. induction HO as [|q o rest outs (_ & X & _) _ IH]; cbn; congruence. }
    assert (HI : forall sub, (forall k, In k sub -> In k (map snd outs)) -> NoDup (map sk_index sub) -> N.to_nat (u32v t) <= length sub ->
      (gen * interp0 (key_points sub))%G = gk).
    { intros sub Hs Hnds Hl. apply (K4 (N.to_nat (u32v t)) sub); auto.
      - intros j v Hj. destruct hs as [|h0 hs0]; [inversion F2 as [Z|]; rewrite <- Z in Hw; destruct Hw|].
        pose proof (K2 h0 (or_introl eq_refl)) as W.
        apply bget_in, (without_in _ _ _ W) in Hj. destruct Hj as [Hj _]. apply in_bget in Hj; [|exact Hnc]. apply Hcs in Hj.
        destruct Hj as (p & Hp & _ & ->). cbn [vss_points]. unfold committed. rewrite map_length.
        destruct (honest_fresh params parties p H Hp) as [_ _ Hl' _ _ _]. cbn [p_t params] in Hl'. lia.
      - intros k Hk'. apply Hs, in_map_iff in Hk'. destruct Hk' as (o & <- & Ho).
        destruct (forall2_in_r _ _ _ HO o Ho) as (q & _ & _ & _ & X). exact X. }
    assert (Hsk : map sk_index (map snd outs) = before ++ after) by (rewrite map_map; exact Hidx).
    assert (Hgr : good_indices (before ++ after)).
    { split; [apply NoDup_remove_1 in Hnd; exact Hnd|]. intros X. apply H0, in_or_app. apply in_app_or in X. destruct X; [left|right; right]; assumption. }
    assert (Egk : (gen * s)%G = gk).
    { apply HI; auto; [rewrite Hsk; apply Hgr|]. rewrite map_length. lia. }
    split.
    + apply Edoc. rewrite E3. cbn [bind]. fold all. rewrite E4. cbn [bind].
      rewrite (same_key_ok (hd Gzero (map fst outs)) outs); [reflexivity|].
      intros o Ho. rewrite (Hfst o Ho). symmetry. apply hd_map_const; [intros ->; destruct Ho|exact Hfst].
    + split; [exact Hidx|]. split.
      * split; [rewrite Hsk; exact Hgr|]. intros sub A1 A2 A3. apply gen_inj. rewrite Egk. apply HI; assumption.
      * intros o Ho. rewrite Egk. apply Hfst, Ho.
Qed.
Print Assumptions C108_documented_blaming.

(** four participants listed as 4, 1, 3, 2 with threshold 2: 3 misbehaves towards 2 *)
Definition bad_n : u32 := u 4.
Definition bad_t : u32 := u 2.
Definition flag_run : result (list (G * SigningKey) * Rng) := doc_flagged (S := Toy) Debug bad_n bad_t [u 4; u 1] (u 3) [u 2] (u 2) 77%N.
Definition blame_run (bob : N) : result (list (G * SigningKey) * Rng) := doc_blamed (S := Toy) Debug bad_n bad_t [u 4; u 1] (u bob) [u 2] (u 2) 77%N.
Definition seen (x : result (list (G * SigningKey) * Rng)) : result (list u32 * bool * bool * bool) :=
  let* y := x in
  let outs := fst y in
  let keys := map snd outs in
  Ok (map sk_index keys, match outs with o :: _ => Geqb (fst o) Gzero | [] => true end,
      Feqb (interp0 (key_points (firstn 2 keys))) (interp0 (key_points (skipn 1 keys))),
      match outs with o :: _ => Geqb (fst o) (gen * interp0 (key_points (firstn 2 keys)))%G | [] => false end).
Example C108_ex_hypotheses :
  good_indices ([u 4; u 1] ++ u 3 :: [u 2]) /\ N.of_nat (length ([u 4; u 1] ++ u 3 :: [u 2])) = u32v bad_n /\
  (1 <= u32v bad_t)%N /\ (u32v bad_t < u32v bad_n)%N /\ (u32v (u 3) <= u32v bad_n)%N /\ In (u 2) ([u 4; u 1] ++ [u 2]).
Proof.
  unfold bad_n, bad_t. assert (V : u32v (u 2) = 2%N /\ u32v (u 3) = 3%N /\ u32v (u 4) = 4%N) by (split; [|split]; reflexivity).
  destruct V as (V2 & V3 & V4). rewrite V2, V3, V4.
  repeat match goal with |- _ /\ _ => split end; try (cbn; lia); try good; try reflexivity. cbn. auto.
Qed.
Example C108_ex_flagging : seen flag_run = Ok ([u 4; u 1; u 2], false, true, true).
Proof. vms. Qed.
Example C108_ex_blaming : seen (blame_run 3) = Ok ([u 4; u 1; u 2], false, true, true).
Proof. vms. Qed.
(** the bound on Bob's index is needed: if he is number 9 of the four, the victim is convicted in his place and the
    documented assertion on the returned key fails (C26) *)
Theorem C108_documented_blaming_unbounded_refuted : blame_run 9 = Panic.
Proof. vms. Qed.
Print Assumptions C108_documented_blaming_unbounded_refuted.
