(** Property C146: what an adversary sees that corrupts other participants in every epoch, always fewer than the threshold, is not only
    possible with every secret (C72) but arises from the same number of choices of all dealers of all epochs for every secret. *)
From Coq Require Import String Strings.Byte Arith NArith ZArith Bool List Permutation Lia Field.
From Verif Require Import Base Suite Spec SpecDkg SpecEpoch Types ModelDkg Algebra BaseLemmas LemmasShare LemmasFinish
  Toy Demo DemoDkg PropsShare PropsFinish PropsReshare PropsAttack PropsEpoch PropsLikely PropsChance PropsJoint.
Import ListNotations.

(** * specification *)
Section Vocabulary.
  Context {S : Suite}.
  (** the dealers of the epoch that are not in B *)
  Definition hidden (B : list u32) (e : Epoch) : nat :=
    length (filter (fun d => if in_dec u32_eq_dec (dl_from d) B then false else true) (ep_deals e)).
  (** the coefficients that stay free in the resharings: each dealer outside the coalition deals its key, and values of the coalition are seen *)
  Fixpoint free_later (B : list u32) (As : list (list u32)) (es : list Epoch) : nat :=
    match As, es with A :: As', e :: es' => (ep_t e - 1 - length A) * hidden B e + free_later A As' es' | _, _ => 0 end.
  (** a history of dealings that begins with key generation, has the given secret throughout, and looks like the given one *)
  Definition explains (A : list u32) (As : list (list u32)) (seen : list Epoch) (s : F) (h : list Epoch) : Prop :=
    exists e' es', h = e' :: es' /\ well_dealt e' /\ chain e' es' /\ same_views A As seen h /\ forall x, In x h -> secret_of x = s.
End Vocabulary.

Section Count.
  Context {S : Suite} {L : SuiteLaws S}.
  Add Field F_fld : F_field.
  Lemma exactly_one {A} (a : A) : exactly 1 (fun x => x = a).
  Proof. exists [a]. split; [constructor; [intros []|constructor]|]. split; [reflexivity|]. intros x. split; [intros [->|[]]; reflexivity|intros ->; left; reflexivity]. Qed.

  (** what a dealing must satisfy to look like d *)
  Definition alike (t : nat) (B A : list u32) (d d' : Deal) : Prop :=
    dl_from d' = dl_from d /\ (In (dl_from d) B -> dl_co d' = dl_co d) /\
    (forall i, In i A -> poly_value (dl_co d') (of_u32 i) = poly_value (dl_co d) (of_u32 i)) /\ length (dl_co d') = t.

  Lemma deals_same from (A : list u32) co co' : deals from A (fun i => poly_value co (of_u32 i)) co' <->
    forall i, In i A -> poly_value co' (of_u32 i) = poly_value co (of_u32 i).
  Proof.
    unfold deals. split; intros H i Hi; specialize (H i Hi).
    - rewrite evaluate_polynomial_eq in H. congruence.
    - rewrite evaluate_polynomial_eq. congruence.
  Qed.

  Lemma count_alike q t B A d : exactly q (fun _ : F => True) -> (N.of_nat t < 4294967296)%N -> good_indices A -> length A < t -> ~ In (dl_from d) B ->
    exactly (q ^ (t - length A)) (alike t B A d).
  Proof.
    intros Hq Ht Hg Hl HB. apply (exactly_image _ (fits_shares t A (fun _ i => poly_value (dl_co d) (of_u32 i)) (dl_from d)) _ (MkDeal (dl_from d))).
    - congruence.
    - intros d'. split.
      + intros (H1 & _ & H2 & H3). exists (dl_co d'). split; [split; [exact H3|apply deals_same, H2]|]. destruct d'. cbn in *. congruence.
      + intros (co & (H1 & H2) & ->). split; [reflexivity|]. split; [contradiction|]. cbn [dl_co]. split; [apply (deals_same (dl_from d)), H2|exact H1].
    - apply count_fits; assumption.
  Qed.
  Lemma count_alike_key q t B A d k : exactly q (fun _ : F => True) -> (N.of_nat t < 4294967296)%N -> good_indices A -> length A < t -> ~ In (dl_from d) B ->
    exactly (q ^ (t - 1 - length A)) (fun d' => alike t B A d d' /\ hd_error (dl_co d') = Some k).
  Proof.
    intros Hq Ht Hg Hl HB.
    apply (exactly_image _ (fun a => length a = t /\ hd_error a = Some k /\ deals (dl_from d) A (fun i => poly_value (dl_co d) (of_u32 i)) a) _ (MkDeal (dl_from d))).
    - congruence.
    - intros d'. split.
      + intros ((H1 & _ & H2 & H3) & H4). exists (dl_co d'). split; [split; [exact H3|split; [exact H4|apply deals_same, H2]]|]. destruct d'. cbn in *. congruence.
      + intros (co & (H1 & H2 & H3) & ->). split; [|exact H2]. split; [reflexivity|]. split; [contradiction|]. cbn [dl_co]. split; [apply (deals_same (dl_from d)), H3|exact H1].
    - apply (C139_shares_are_uniform S L); assumption.
  Qed.
  Lemma count_known t B A d : In (dl_from d) B -> length (dl_co d) = t -> exactly 1 (alike t B A d).
  Proof.
    intros HB Hl. apply (exactly_iff _ (fun x => x = d)); [|apply exactly_one]. intros d'. split.
    - intros ->. split; [reflexivity|]. split; [reflexivity|]. split; [reflexivity|exact Hl].
    - intros (H1 & H2 & _). specialize (H2 HB). destruct d, d'. cbn in *. congruence.
  Qed.

  (** lists of dealings, one for each *)
  Definition hid (B : list u32) (ds : list Deal) : nat := length (filter (fun d => if in_dec u32_eq_dec (dl_from d) B then false else true) ds).
  Lemma hid_in B d ds : In (dl_from d) B -> hid B (d :: ds) = hid B ds.
  Proof. intros H. unfold hid. cbn [filter]. destruct (in_dec u32_eq_dec (dl_from d) B); [reflexivity|contradiction]. Qed.
  Lemma hid_out B d ds : ~ In (dl_from d) B -> hid B (d :: ds) = Datatypes.S (hid B ds).
  Proof. intros H. unfold hid. cbn [filter]. destruct (in_dec u32_eq_dec (dl_from d) B); [contradiction|reflexivity]. Qed.

  Lemma exactly_cons {X} n m (P : X -> Prop) (Q : X -> list X -> Prop) (R : list X -> Prop) :
    (forall l, R l <-> exists x r, l = x :: r /\ P x /\ Q x r) -> exactly n P -> (forall x, P x -> exactly m (Q x)) -> exactly (n * m) R.
  Proof.
    intros HR HP HQ. apply (exactly_iff _ (fun l => exists x, P x /\ exists r, Q x r /\ l = x :: r)).
    - intros l. rewrite HR. split; [intros (x & H1 & r & H2 & H3)|intros (x & r & H1 & H2 & H3)]; eauto 6.
    - apply exactly_sum; [exact HP| |].
      + intros x Hx. apply (exactly_image _ (Q x) _ (cons x)); [congruence| |apply HQ, Hx]. intros b. split; intros (r & H1 & H2); exists r; auto.
      + intros x x' l _ _ (r & _ & E) (r' & _ & E'). congruence.
  Qed.

  Lemma count_reshare q t B A (k : u32 -> F) (ds : list Deal) : exactly q (fun _ : F => True) -> (N.of_nat t < 4294967296)%N -> good_indices A -> length A < t ->
    (forall d, In d ds -> length (dl_co d) = t) -> (forall d, In d ds -> In (dl_from d) B -> hd_error (dl_co d) = Some (k (dl_from d))) ->
    exactly (q ^ ((t - 1 - length A) * hid B ds)) (Forall2 (fun d d' => alike t B A d d' /\ hd_error (dl_co d') = Some (k (dl_from d))) ds).
  Proof.
    intros Hq Ht Hg Hl. induction ds as [|d ds IH]; intros Hlen Hk.
    - unfold hid. cbn [filter length]. rewrite Nat.mul_0_r. apply (exactly_iff _ (fun x => x = [])); [|apply exactly_one].
      intros x. split; [intros ->; constructor|intros H; inversion H; reflexivity].
    - specialize (IH (fun x H => Hlen x (or_intror H)) (fun x H => Hk x (or_intror H))).
      assert (HR : forall l, Forall2 (fun d d' => alike t B A d d' /\ hd_error (dl_co d') = Some (k (dl_from d))) (d :: ds) l <->
        exists x r, l = x :: r /\ (alike t B A d x /\ hd_error (dl_co x) = Some (k (dl_from d))) /\
          Forall2 (fun d d' => alike t B A d d' /\ hd_error (dl_co d') = Some (k (dl_from d))) ds r).
      { intros l. split; [intros H; inversion H as [|? x ? r H1 H2]; subst; eauto|intros (x & r & -> & H1 & H2); constructor; assumption]. }
      destruct (in_dec u32_eq_dec (dl_from d) B) as [HB|HB].
      + rewrite (hid_in B d ds HB). rewrite <- (Nat.mul_1_l (q ^ _)). eapply exactly_cons; [exact HR| |intros; exact IH].
        apply (exactly_iff _ (alike t B A d)); [|apply count_known; [exact HB|apply Hlen; left; reflexivity]].
        intros x. split; [|intros [H _]; exact H]. intros H. split; [exact H|]. destruct H as (_ & H & _). rewrite (H HB). apply Hk; [left; reflexivity|exact HB].
      + rewrite (hid_out B d ds HB), Nat.mul_succ_r, Nat.add_comm, Nat.pow_add_r. eapply exactly_cons; [exact HR| |intros; exact IH].
        apply count_alike_key; assumption.
  Qed.

  (** the weighted sum of the constant terms *)
  Definition wsum (w : u32 -> F) (ds : list Deal) : F := fsum (map (fun d => (poly_value (dl_co d) F0 * w (dl_from d))%F) ds).
  Lemma wsum_cons w d ds : wsum w (d :: ds) = (poly_value (dl_co d) F0 * w (dl_from d) + wsum w ds)%F.
  Proof. reflexivity. Qed.
  Lemma move_term (a b s : F) : (a + b = s)%F <-> b = (s - a)%F.
  Proof. split; [intros <-; ring|intros ->; ring]. Qed.

  Lemma all_known t B A (ds : list Deal) : hid B ds = 0 -> (forall d, In d ds -> length (dl_co d) = t) ->
    forall ds', Forall2 (alike t B A) ds ds' <-> ds' = ds.
  Proof.
    induction ds as [|d ds IH]; intros H Hlen ds'.
    - split; [intros K; inversion K; reflexivity|intros ->; constructor].
    - destruct (in_dec u32_eq_dec (dl_from d) B) as [HB|HB]; [|rewrite (hid_out B d ds HB) in H; discriminate].
      rewrite (hid_in B d ds HB) in H. specialize (IH H (fun x K => Hlen x (or_intror K))). split.
      + intros K. inversion K as [|? d' ? r K1 K2]; subst. f_equal; [|apply IH, K2]. destruct K1 as (K1 & K3 & _). specialize (K3 HB). destruct d, d'. cbn in *. congruence.
      + intros ->. constructor; [|apply IH; reflexivity]. split; [reflexivity|]. split; [reflexivity|]. split; [reflexivity|apply Hlen; left; reflexivity].
  Qed.

  Lemma count_first q t B A (w : u32 -> F) (ds : list Deal) : exactly q (fun _ : F => True) -> (N.of_nat t < 4294967296)%N -> good_indices A -> length A < t ->
    (forall d, In d ds -> length (dl_co d) = t) -> (forall d, In d ds -> w (dl_from d) <> F0) -> 0 < hid B ds ->
    forall s, exactly (q ^ ((t - length A) * hid B ds - 1)) (fun ds' => Forall2 (alike t B A) ds ds' /\ wsum w ds' = s).
  Proof.
    intros Hq Ht Hg Hl. induction ds as [|d ds IH]; intros Hlen Hw Hh s; [unfold hid in Hh; cbn [filter length] in Hh; lia|].
    specialize (IH (fun x H => Hlen x (or_intror H)) (fun x H => Hw x (or_intror H))).
    assert (HR : forall l, Forall2 (alike t B A) (d :: ds) l /\ wsum w l = s <->
      exists x r, l = x :: r /\ alike t B A d x /\ (Forall2 (alike t B A) ds r /\ wsum w r = (s - poly_value (dl_co x) F0 * w (dl_from d))%F)).
    { intros l. split.
      - intros [H E]. inversion H as [|? x ? r H1 H2]; subst. exists x, r. split; [reflexivity|]. split; [exact H1|]. split; [exact H2|].
        apply move_term. rewrite <- (proj1 H1). symmetry. apply wsum_cons.
      - intros (x & r & -> & H1 & H2 & E). split; [constructor; assumption|]. rewrite wsum_cons, (proj1 H1). apply move_term, E. }
    destruct (in_dec u32_eq_dec (dl_from d) B) as [HB|HB].
    - rewrite (hid_in B d ds HB) in *. rewrite <- (Nat.mul_1_l (q ^ _)). eapply exactly_cons; [exact HR| |intros x _; apply IH, Hh].
      apply count_known; [exact HB|apply Hlen; left; reflexivity].
    - rewrite (hid_out B d ds HB) in *. destruct (Nat.eq_dec (hid B ds) 0) as [Hz|Hz].
      + rewrite Hz. replace ((t - length A) * 1 - 1) with (t - 1 - length A) by lia.
        pose proof (all_known t B A ds Hz (fun x K => Hlen x (or_intror K))) as HA.
        apply (exactly_image _ (fun x => alike t B A d x /\ hd_error (dl_co x) = Some ((s - wsum w ds) * Finv (w (dl_from d)))%F) _ (fun x => x :: ds)).
        * congruence.
        * intros l. rewrite HR. pose proof (Hw d (or_introl eq_refl)) as Hwd. split.
          -- intros (x & r & -> & H1 & H2 & E). apply HA in H2. subst r. exists x. split; [|reflexivity]. split; [exact H1|].
             symmetry in E. apply eq_sym, move_term in E. apply (joint_solve _ _ _ _ Hwd) in E. rewrite poly_value_0 in E.
             destruct H1 as (_ & _ & _ & H1). destruct (dl_co x) as [|c co]; [cbn [length] in H1; lia|]. cbn in *. congruence.
          -- intros (x & (H1 & E) & ->). exists x, ds. split; [reflexivity|]. split; [exact H1|]. split; [apply HA; reflexivity|].
             apply move_term, (joint_solve _ _ _ _ Hwd). rewrite poly_value_0. destruct (dl_co x); [discriminate|]. cbn in *. congruence.
        * apply count_alike_key; assumption.
      + replace ((t - length A) * Datatypes.S (hid B ds) - 1) with ((t - length A) + ((t - length A) * hid B ds - 1)).
        * rewrite Nat.pow_add_r. eapply exactly_cons; [exact HR|apply count_alike; assumption|intros x _; apply IH; lia].
        * rewrite Nat.mul_succ_r. assert (K : 0 < (t - length A) * hid B ds) by (apply Nat.mul_pos_pos; lia).
          revert K. generalize ((t - length A) * hid B ds) as z. intros z K. lia.
  Qed.
  Lemma hid_outside B ds d : In d ds -> ~ In (dl_from d) B -> 0 < hid B ds.
  Proof.
    intros H1 H2. unfold hid. assert (K : In d (filter (fun d => if in_dec u32_eq_dec (dl_from d) B then false else true) ds)).
    { apply filter_In. split; [exact H1|]. destruct (in_dec u32_eq_dec (dl_from d) B); [contradiction|reflexivity]. }
    destruct (filter _ ds); [destruct K|cbn [length]; lia].
  Qed.

  (** epochs *)
  Lemma epoch_of B A (n : Epoch) (R : Deal -> Prop) : well_dealt n -> forall n',
    (well_dealt n' /\ looks_same B A n n' /\ (forall d', In d' (ep_deals n') -> R d')) <->
    exists ds', Forall2 (fun d d' => alike (ep_t n) B A d d' /\ R d') (ep_deals n) ds' /\ n' = MkEpoch (ep_t n) ds'.
  Proof.
    intros Hn n'. split.
    - intros (H1 & H2 & H3). exists (ep_deals n'). split.
      + pose proof (ls_deals _ _ _ _ H2) as HF. pose proof (wd_length _ H1) as HL. rewrite (ls_t _ _ _ _ H2) in HL. clear -HF HL H3.
        induction HF as [|d d' ds ds' (E1 & E2 & E3) HF IH]; constructor.
        * split; [|apply H3; left; reflexivity]. split; [exact E1|]. split; [exact E2|]. split; [exact E3|apply HL; left; reflexivity].
        * apply IH; intros; [apply H3|apply HL]; right; assumption.
      + pose proof (ls_t _ _ _ _ H2). destruct n'. cbn in *. congruence.
    - intros (ds' & HF & ->).
      assert (HI : map dl_from ds' = map dl_from (ep_deals n)).
      { clear -HF. induction HF as [|d d' ds ds' ((E & _) & _) HF IH]; [reflexivity|]. cbn [map]. rewrite IH, E. reflexivity. }
      assert (HG : Forall2 (fun d d' => dl_from d' = dl_from d /\ (In (dl_from d) B -> dl_co d' = dl_co d) /\
        forall i, In i A -> poly_value (dl_co d') (of_u32 i) = poly_value (dl_co d) (of_u32 i)) (ep_deals n) ds').
      { clear -HF. induction HF as [|d d' ds ds' ((E1 & E2 & E3 & _) & _) HF IH]; constructor; auto. }
      assert (HL : forall d', In d' ds' -> length (dl_co d') = ep_t n /\ R d').
      { clear -HF. induction HF as [|d d' ds ds' ((_ & _ & _ & E) & E') HF IH]; intros x [].
        - subst x. auto.
        - apply IH. assumption. }
      split; [|split].
      + constructor; cbn [ep_t ep_deals]; [apply Hn|rewrite HI; apply Hn|intros d Hd; apply HL, Hd].
      + constructor; cbn [ep_t ep_deals]; [reflexivity|exact HG|]. intros i Hi. unfold key_of. cbn [ep_deals]. f_equal.
        apply (same_keys A); [|exact Hi]. clear -HG. induction HG as [|d d' ds ds' (A1 & _ & A2) R IH]; constructor; auto.
      + intros d Hd. apply HL, Hd.
  Qed.

  Lemma count_chain q es : exactly q (fun _ : F => True) -> forall e e' A As, well_dealt e -> ep_t e' = ep_t e -> (forall i, In i A -> key_of e' i = key_of e i) ->
    chain e es -> few As es -> (forall x, In x es -> (N.of_nat (ep_t x) < 4294967296)%N) ->
    exactly (q ^ free_later A As es) (fun es' => chain e' es' /\ same_views A As es es').
  Proof.
    intros Hq. induction es as [|n es IH]; intros e e' A As He Ht HK HC HF HS.
    - inversion HF; subst. cbn [free_later Nat.pow]. apply (exactly_iff _ (fun x => x = [])); [|apply exactly_one].
      intros x. split; [intros ->; split; [exact I|constructor]|intros [_ H]; inversion H; reflexivity].
    - destruct HC as (Hn & Hf & HC). inversion HF as [|An n0 As' es0 [G1 G2] HF']; subst. cbn [free_later]. rewrite Nat.pow_add_r.
      apply (exactly_cons _ _ (fun n' => well_dealt n' /\ looks_same A An n n' /\ (forall d', In d' (ep_deals n') -> hd_error (dl_co d') = Some (key_of e' (dl_from d'))))
        (fun n' es' => chain n' es' /\ same_views An As' es es')).
      + intros l. split.
        * intros [H1 H2]. inversion H2 as [|B0 A0 As0 e0 es0 n' es' H3 H4]; subst. destruct H1 as (K1 & [_ K2] & K3). exists n', es'. auto 7.
        * intros (n' & es' & -> & (H1 & H2 & H3) & H4 & H5). split; [|constructor; assumption]. cbn [chain]. split; [exact H1|]. split; [|exact H4].
          split; [|exact H3]. rewrite Ht. rewrite <- (Forall2_len _ _ _ (ls_deals _ _ _ _ H2)). apply Hf.
      + apply (exactly_image _ (Forall2 (fun d d' => alike (ep_t n) A An d d' /\ hd_error (dl_co d') = Some (key_of e' (dl_from d))) (ep_deals n)) _ (MkEpoch (ep_t n))).
        * congruence.
        * intros n'. rewrite (epoch_of A An n _ Hn n'). split; intros (ds' & H1 & H2); exists ds'; (split; [|exact H2]);
            (eapply Forall2_weaken; [|exact H1]); cbv beta; intros d d' [K1 K2]; (split; [exact K1|]); pose proof (proj1 K1); congruence.
        * apply count_reshare; auto; [apply HS; left; reflexivity|apply Hn|]. intros d Hd Hin. rewrite (HK _ Hin). apply Hf, Hd.
      + intros n' (N1 & N2 & N3). apply (IH n); auto; [apply N2|apply N2|]. intros x Hx. apply HS. right. exact Hx.
  Qed.

  Lemma secret_wsum e (ds : list Deal) : map dl_from ds = map dl_from (ep_deals e) ->
    secret_of (MkEpoch (ep_t e) ds) = wsum (fun i => weight i (map dl_from (ep_deals e))) ds.
  Proof.
    intros E. unfold secret_of, interp0, wsum. cbn [ep_deals]. rewrite !map_map. cbn [fst snd]. rewrite <- E. reflexivity.
  Qed.
  Lemma chain_secret es : forall e, well_dealt e -> chain e es -> forall x, In x (e :: es) -> secret_of x = secret_of e.
  Proof.
    induction es as [|n es IH]; intros e He HC x Hx; [destruct Hx as [<-|[]]; reflexivity|]. destruct HC as (Hn & Hf & HC). destruct Hx as [<-|Hx]; [reflexivity|].
    rewrite (IH n Hn HC x Hx). apply follows_secret; assumption.
  Qed.
End Count.

(** C146: key generation and resharings, with fewer corrupted participants than the threshold in every epoch. For every secret, the same
    number of histories of dealings has this secret and looks to the adversary like the given one; the number is given. *)
Theorem C146_every_secret_equally_likely :
  forall (S : Suite) (L : SuiteLaws S) (q : nat) (e : Epoch) (es : list Epoch) (A : list u32) (As : list (list u32)) (s : F),
  exactly q (fun _ : F => True) ->
  well_dealt e -> ep_t e <= length (ep_deals e) -> chain e es -> few (A :: As) (e :: es) ->
  (forall x, In x (e :: es) -> (N.of_nat (ep_t x) < 4294967296)%N) ->
  exactly (q ^ ((ep_t e - length A) * hidden A e - 1 + free_later A As es)) (explains A (A :: As) (e :: es) s).
Proof.
  intros S L q e es A As s Hq He Hl HC HF HS. inversion HF as [|A0 e0 As0 es0 [HA HAl] HF']; subst. rewrite Nat.pow_add_r.
  apply (exactly_cons _ _ (fun e' => well_dealt e' /\ looks_same A A e e' /\ secret_of e' = s) (fun e' es' => chain e' es' /\ same_views A As es es')).
  - intros l. unfold explains. split.
    + intros (e' & es' & -> & H1 & H2 & H3 & H4). inversion H3; subst. exists e', es'. split; [reflexivity|]. split; [|auto]. split; [exact H1|]. split; [assumption|].
      apply H4. left. reflexivity.
    + intros (e' & es' & -> & (H1 & H2 & H3) & H4 & H5). exists e', es'. split; [reflexivity|]. split; [exact H1|]. split; [exact H4|]. split; [constructor; assumption|].
      intros x Hx. rewrite (chain_secret es' e' H1 H4 x Hx). exact H3.
  - set (w := fun i => weight i (map dl_from (ep_deals e))).
    apply (exactly_image _ (fun ds' => Forall2 (alike (ep_t e) A A) (ep_deals e) ds' /\ wsum w ds' = s) _ (MkEpoch (ep_t e))).
    + congruence.
    + intros e'. assert (HI : forall ds', Forall2 (alike (ep_t e) A A) (ep_deals e) ds' -> map dl_from ds' = map dl_from (ep_deals e)).
      { intros ds' K. clear -K. induction K as [|d d' ds ds' (E & _) K IH]; [reflexivity|]. cbn [map]. rewrite IH, E. reflexivity. }
      pose proof (epoch_of A A e (fun _ => True) He e') as HE. split.
      * intros (H1 & H2 & H3). destruct (proj1 HE) as (ds' & K1 & ->); [auto|]. exists ds'. split; [|reflexivity].
        assert (K : Forall2 (alike (ep_t e) A A) (ep_deals e) ds') by (eapply Forall2_weaken; [|exact K1]; cbv beta; tauto).
        split; [exact K|]. rewrite <- H3. symmetry. apply secret_wsum, HI, K.
      * intros (ds' & (K1 & K2) & ->). destruct (proj2 HE) as (H1 & H2 & _).
        { exists ds'. split; [|reflexivity]. eapply Forall2_weaken; [|exact K1]; cbv beta; tauto. }
        split; [exact H1|]. split; [exact H2|]. rewrite <- K2. apply secret_wsum, HI, K1.
    + destruct (outside A (map dl_from (ep_deals e))) as (h & Hh & HhA); [apply He|rewrite map_length; lia|].
      apply in_map_iff in Hh as (d & <- & Hd).
      apply (count_first q (ep_t e) A A w (ep_deals e)); auto; [apply HS; left; reflexivity|apply He| |exact (hid_outside A _ d Hd HhA)].
      intros d' Hd'. apply weight_neq_0. apply He.
  - intros e' (H1 & H2 & H3). apply (count_chain q es Hq e); auto; [apply H2|apply H2|]. intros x Hx. apply HS. right. exact Hx.
Qed.
Print Assumptions C146_every_secret_equally_likely.

Lemma history_chain : forall (S : Suite) (L : SuiteLaws S) (m : build) (t t' : nat) (ks ks' : list SigningKey) (rest : list (list G)),
  history m t ks rest t' ks' ->
  forall e, ep_t e = t -> (forall k, In k ks -> sk_key k = key_of e (sk_index k)) ->
  exists es, chain e es /\ length es = length rest /\ (forall x, In x es -> (N.of_nat (ep_t x) < 4294967296)%N) /\
    Forall2 (fun x gks => forall gk, In gk gks -> gk = (gen * secret_of x)%G) es rest /\
    forall k, In k ks' -> sk_key k = key_of (last es e) (sk_index k).
Proof.
  intros S L m t t' ks ks' rest HH. induction HH as [t ks|t1 ks gks t2 ks2 rest t3 ks3 HR HH IH]; intros e Ht HK.
  - exists []. cbn. repeat split; auto. intros x [].
  - subst t1. destruct (C72_resharing_is_an_epoch S L m e ks gks t2 ks2 HK HR) as (n & N1 & N2 & N3 & _ & N4 & N5).
    destruct (IH n N3 N4) as (es & C1 & C2 & C3 & C4 & C5). exists (n :: es).
    assert (E : forall d, last (n :: es) d = last es n).
    { clear. revert n. induction es as [|x es IH]; intros n d; [reflexivity|]. change (last (x :: es) d = last (x :: es) n). rewrite !IH. reflexivity. }
    rewrite E. cbn [chain length]. split; [auto|]. split; [auto|]. split; [|split; [constructor; assumption|exact C5]].
    intros x [<-|Hx]; [|apply C3, Hx]. rewrite N3. destruct HR as (params1 & params2 & hs & ws & outs & _ & _ & _ & -> & _). apply u32_bound.
Qed.

(** the histories of the API: key generation by parties that follow the protocol, then any number of resharings. The keys obtained are
    those of dealings to which the count applies, and the group keys are the secret of all of them, up to the discrete logarithm. *)
Theorem C146_for_the_api :
  forall (S : Suite) (L : SuiteLaws S) (m : build) (q : nat) (params : Params) (parties : list Party) (outs : list (G * SigningKey))
    (t' : nat) (ks' : list SigningKey) (rest : list (list G)),
  exactly q (fun _ : F => True) -> honest_parties params parties -> all_bootstrapped m params parties ->
  Forall2 (party_run m parties) parties outs ->
  history m (N.to_nat (u32v (p_t params))) (map snd outs) rest t' ks' ->
  let e := generation params parties in
  exists es, chain e es /\ length es = length rest /\
    (forall gk sk, In (gk, sk) outs -> gk = (gen * secret_of e)%G /\ sk_key sk = key_of e (sk_index sk)) /\
    (forall gks gk, In gks rest -> In gk gks -> gk = (gen * secret_of e)%G) /\
    (forall k, In k ks' -> sk_key k = key_of (last es e) (sk_index k)) /\
    forall A As, few (A :: As) (e :: es) ->
    forall s, exactly (q ^ ((ep_t e - length A) * hidden A e - 1 + free_later A As es)) (explains A (A :: As) (e :: es) s).
Proof.
  intros S L m q params parties outs t' ks' rest Hq HP HB HR HH e.
  destruct (C72_key_generation_is_an_epoch S L m params parties HP HB) as (W1 & W2 & W3). fold e in W1, W2, W3.
  assert (HK : forall gk sk, In (gk, sk) outs -> gk = (gen * secret_of e)%G /\ sk_key sk = key_of e (sk_index sk)).
  { intros gk sk Hk. destruct (forall2_right _ _ _ _ HR Hk) as (p & Hp & senders & sh & r & s2 & cs & r' & K2 & K3 & K4 & K5).
    destruct (W3 p senders sh r Hp K2 K3) as (s2' & r'' & E1 & E2). rewrite K4 in E1. injection E1 as <- _ _. rewrite K5 in E2. injection E2 as -> ->. split; reflexivity. }
  destruct (history_chain S L m _ t' (map snd outs) ks' rest HH e eq_refl) as (es & C1 & C2 & C3 & C4 & C5).
  { intros k Hk. apply in_map_iff in Hk as ((gk & k') & <- & Hk). apply (HK gk k' Hk). }
  exists es. split; [exact C1|]. split; [exact C2|]. split; [exact HK|]. split; [|split; [exact C5|]].
  - intros gks gk Hg Hk. destruct (forall2_right _ _ _ _ C4 Hg) as (x & Hx & E). rewrite (E gk Hk). f_equal. apply (chain_secret es e W1 C1). right. exact Hx.
  - intros A As HF s. apply (C146_every_secret_equally_likely S L); auto. intros x [<-|Hx]; [|apply C3, Hx]. unfold e. cbn [generation ep_t].
    rewrite N2Nat.id. apply u32_bound.
Qed.
Print Assumptions C146_for_the_api.

(** the epochs of C72_ex: the first has 2 dealers outside the coalition with 1 free coefficient each, tied by the secret; the second is dealt
    by 1 and 3, of whom none is corrupted, and nothing is left free: two values of each polynomial and its constant term are fixed *)
Example C146_ex : exists q, exactly q (fun _ : @F Toy => True) /\ few [[u 2]; [u 5; u 7]] [c72_first; c72_second] /\
  forall s, exactly (q ^ 1) (explains (S := Toy) [u 2] [[u 2]; [u 5; u 7]] [c72_first; c72_second] s).
Proof.
  destruct toy_count as (q & _ & H). exists q. split; [exact H|].
  assert (HF : few (S := Toy) [[u 2]; [u 5; u 7]] [c72_first; c72_second]) by (constructor; [split; [good|vm_compute; lia]|]; constructor; [split; [good|vm_compute; lia]|constructor]).
  split; [exact HF|]. intros s.
  replace 1 with ((ep_t c72_first - length [u 2]) * hidden [u 2] c72_first - 1 + free_later (S := Toy) [u 2] [[u 5; u 7]] [c72_second]) by vmr.
  apply (C146_every_secret_equally_likely Toy ToyLaws q c72_first [c72_second] [u 2] [[u 5; u 7]] s); auto; [apply c72_first_ok|apply c72_first_ok| |].
  - split; [|split; [|exact I]].
    + constructor; [vm_compute; lia|good|]. intros d [<-|[<-|[]]]; reflexivity.
    + split; [vm_compute; lia|]. intros d [<-|[<-|[]]]; reflexivity.
  - intros x [<-|[<-|[]]]; vm_compute; reflexivity.
Qed.

(** the demo key generation (2 of 3), reshared by its three participants *)
Example C146_ex_api : exists q outs gks ks', exactly q (fun _ : @F Toy => True) /\ Forall2 (party_run (S := Toy) Debug demo_parties) demo_parties outs /\
  history (S := Toy) Debug 2 (map snd outs) [gks] (N.to_nat (u32v (p_t re_params))) ks' /\ length ks' = length re_heirs /\
  exists es, length es = 1 /\ chain (generation demo_params demo_parties) es.
Proof.
  destruct toy_count as (q & _ & H).
  destruct (party_runs_exist Toy ToyLaws Debug demo_params demo_parties demo_parties C18_ex_honest C18_ex_bootstrapped (fun q H => H) 7%N) as (outs & Ho).
  destruct (C33_key_generation_is_a_sharing Toy ToyLaws Debug demo_params demo_parties outs C18_ex_honest C18_ex_bootstrapped Ho) as (s & R1 & R2 & _).
  destruct (C33_next_epoch_exists Toy ToyLaws Debug (map snd outs) s demo_params re_params re_heirs 7%N R1) as (gks & ks' & K1 & K2).
  { rewrite map_length, R2. vmr. }
  { vm_compute. split; discriminate. }
  { exact C32_ex_heirs. }
  assert (HH : history (S := Toy) Debug 2 (map snd outs) [gks] (N.to_nat (u32v (p_t re_params))) ks') by (eapply hist_cons; [exact K1|constructor]).
  exists q, outs, gks, ks'. split; [exact H|]. split; [exact Ho|]. split; [exact HH|]. split; [exact K2|].
  destruct (C146_for_the_api Toy ToyLaws Debug q demo_params demo_parties outs _ ks' [gks] H C18_ex_honest C18_ex_bootstrapped Ho HH) as (es & C1 & C2 & _).
  exists es. split; [exact C2|exact C1].
Qed.
