(** C32-C34: resharing. *)
From Coq Require Import String Strings.Byte Arith NArith ZArith Bool List Lia Permutation.
From Verif Require Import Base Suite Spec SpecDkg Types Algebra BaseLemmas ModelDkg LemmasShare LemmasRound1
  LemmasRound2 LemmasFinish Toy Demo DemoDkg PropsRound1 PropsFinish.
Import ListNotations.

Section Reshare.
  Context {S : Suite} {L : SuiteLaws S}.
  Add Field F_fld : F_field.

  Lemma poly_const s x : poly_value [s] x = s.
  Proof. unfold poly_value. cbn. ring. Qed.

  Lemma heir_facts params hs z : honest_heirs params hs -> In z hs ->
    pt_index (z_p z) = z_index z /\ pt_dh_pk (z_p z) = (gen * z_x z)%G /\ ok_reshare (z_p z).
  Proof.
    intros H Hz.
    assert (Hi : z_index z <> u32_zero).
    { intros X. destruct (hh_indices _ _ H) as [_ Hn]. apply Hn. rewrite <- X. apply in_map, Hz. }
    destruct (hh_made _ _ H z Hz) as [(r & r' & E)|(params' & co & r & r' & E)].
    2:{ assert (Ht : (1 <= u32v (p_t params'))%N).
        { destruct (N.eq_dec (u32v (p_t params')) 0) as [X|X]; [|lia]. exfalso. revert E.
          unfold new_dealer, new_internal. rewrite (proj2 (u32_eqb_neq _ _) Hi). unfold u32_nat. rewrite X. cbn [N.to_nat firstn map Nat.sub rand_scalars].
          destruct (rand_scalar r) as [x r1]. destruct (nizk_prove _ _ _ r1) as [dp r2]. destruct (rand_scalar r2) as [a r3]. discriminate. }
        destruct (new_dealer_inv params' (z_index z) r _ _ _ _ Hi Ht E) as [A B _ _ C _].
        split; [exact A|]. split; [exact B|]. unfold ok_reshare, dh_proof_ok. rewrite A. exact C. }
    destruct (new_internal_signer params (z_index z) None r Hi) as (d & x & r1 & E1 & A & B & _ & _ & C).
    unfold new_signer in E. rewrite E1 in E. cbn in E. injection E as <- <- <-.
    split; [exact A|]. split; [exact B|]. unfold ok_reshare, dh_proof_ok. rewrite A. exact C.
  Qed.
  Lemma heir_indices params hs : honest_heirs params hs -> map pt_index (map z_p hs) = map z_index hs.
  Proof.
    intros H. rewrite map_map. apply map_ext_in. intros z Hz. apply (heir_facts params hs z H Hz).
  Qed.
  Lemma splits_all ok ps valid mis : splits ok ps valid mis -> (forall p, In p ps -> ok p) -> valid = ps /\ mis = [].
  Proof.
    induction 1 as [|p ps v m Hp H IH|p ps v m Hp H IH]; intros Hall; [auto| |].
    - destruct IH as [-> ->]; [intros q Hq; apply Hall; right; exact Hq|auto].
    - exfalso. apply Hp, Hall. left; reflexivity.
  Qed.

  (** what a donor's published data mean *)
  Definition donated (params : Params) (hs : list Heir) (w : Donor) (d : u32 * F * list F) : Prop :=
    let '(j, x, co) := d in
    j = sk_index (w_key w) /\ fresh_dealer params j (w_d w) co x /\ hd_error co = Some (sk_key (w_key w)) /\
    forall z, In z hs -> exists e, bget (z_index z) (w_es w) = Some e /\ es_sender e = j /\ es_receiver e = z_index z /\
      decrypt_share e (enc_point ((gen * x) * z_x z)%G) = Ok (MkShare j (z_index z) (poly_value co (of_u32 (z_index z)))).

  Lemma reshare_honest m params hs sk ps r : honest_heirs params hs -> Permutation ps (map z_p hs) ->
    sk_index sk <> u32_zero ->
    exists d es r', reshare m params sk ps r = Ok (d, es, MkPList ps None, r') /\
      exists x co, donated params hs (MkDonor sk d es) (sk_index sk, x, co).
  Proof.
    intros H HP Hi. pose proof (hh_threshold _ _ H) as Ht.
    destruct (C13_reshare_outcome S L m params sk ps r Hi) as [_ H2]; [lia|].
    assert (Hn : N.of_nat (length ps) = u32v (p_n params)).
    { rewrite (Permutation_length HP), map_length. apply H. }
    assert (Hin : forall p, In p ps -> exists z, In z hs /\ p = z_p z).
    { intros p Hp. eapply Permutation_in in Hp; [|exact HP]. apply in_map_iff in Hp. destruct Hp as (z & <- & Hz). eauto. }
    destruct (H2 Hn) as (valid & mis & Hs & _ & H4).
    destruct (splits_all _ _ _ _ Hs) as [-> ->].
    { intros p Hp. destruct (Hin p Hp) as (z & Hz & ->). apply (heir_facts params hs z H Hz). }
    destruct H4 as (d & es & r' & E & co & x & Hf & Ha & K1 & K2); [lia|].
    exists d, es, r'. split; [exact E|]. exists x, co. split; [reflexivity|]. split; [exact Hf|]. split; [exact Ha|].
    intros z Hz. destruct (heir_facts params hs z H Hz) as (A & B & _).
    assert (Hnd : NoDup (map pt_index ps)).
    { eapply Permutation_NoDup; [apply Permutation_map, Permutation_sym, HP|].
      rewrite (heir_indices params hs H). apply H. }
    destruct (K2 (z_index z) (z_p z)) as (e & B1 & B2 & B3 & B4).
    { apply last_with_distinct; [exact Hnd|]. split; [|exact A].
      eapply Permutation_in; [apply Permutation_sym, HP|]. apply in_map, Hz. }
    exists e. cbn [w_es]. rewrite A in B3. split; [exact B1|]. split; [exact B2|]. split; [exact B3|].
    rewrite A, B in B4. rewrite <- B4. do 2 f_equal. apply dh_shared.
  Qed.

  Lemma donor_facts m params hs ws w : honest_heirs params hs -> honest_donors m params hs ws -> In w ws ->
    exists x co, donated params hs w (sk_index (w_key w), x, co).
  Proof.
    intros H HD Hw. destruct (hd_reshared _ _ _ _ HD w Hw) as (ps & r & lists & r' & HP & E).
    assert (Hi : sk_index (w_key w) <> u32_zero).
    { intros X. destruct (hd_indices _ _ _ _ HD) as [_ Hn]. apply Hn. rewrite <- X.
      apply (in_map (fun w => sk_index (w_key w))), Hw. }
    destruct (reshare_honest m params hs (w_key w) ps r H HP Hi) as (d & es & r1 & E1 & x & co & Hd).
    rewrite E in E1. injection E1 as <- <- _ _. exists x, co. destruct w. exact Hd.
  Qed.
  Lemma donors_list m params hs ws : honest_heirs params hs -> honest_donors m params hs ws ->
    exists ds, Forall2 (donated params hs) ws ds.
  Proof.
    intros H HD. assert (X : forall w, In w ws -> exists d, donated params hs w d).
    { intros w Hw. destruct (donor_facts m params hs ws w H HD Hw) as (x & co & Hd). eauto. }
    clear HD. induction ws as [|w ws IH]; [exists []; constructor|].
    destruct (X w (or_introl eq_refl)) as [d Hd]. destruct IH as [ds Hds]; [intros w' Hw'; apply X; right; exact Hw'|].
    exists (d :: ds). constructor; assumption.
  Qed.

  (** round one of a new signer *)
  Lemma new_honest m params1 params hs (trip : list (Donor * (u32 * F * list F))) x my r ps :
    (1 <= u32v (p_t params))%N ->
    N.of_nat (length trip) = u32v (p_n params1) -> (1 <= u32v (p_t params1) <= u32v (p_n params1))%N ->
    NoDup (map (fun wd => fst (fst (snd wd))) trip) ->
    (forall w d, In (w, d) trip -> donated params hs w d) ->
    Permutation ps (map (fun wd => w_d (fst wd)) trip) ->
    exists st comms r', dkg_new m params1 x my ps r = Ok (R1 st, MkPList ps None, r') /\
      records params1 my x ps st /\ ds_comms st = Some comms /\ NoDup (bkeys comms) /\
      (forall j c, bget j comms = Some c <-> exists w y co, In (w, (j, y, co)) trip /\ c = MkVss j (committed co)) /\
      (forall w j y co, In (w, (j, y, co)) trip -> bget j (ds_dhs st) = Some (gen * y)%G).
  Proof.
    intros Ht2 Hn Ht Hnd Hd HP.
    assert (Hin : forall p, In p ps -> exists w j y co, In (w, (j, y, co)) trip /\ p = w_d w /\ pt_index p = j).
    { intros p Hp. eapply Permutation_in in Hp; [|exact HP]. apply in_map_iff in Hp. destruct Hp as ([w [[j y] co]] & <- & Hp).
      exists w, j, y, co. split; [exact Hp|]. split; [reflexivity|]. apply Hd in Hp. apply Hp. }
    assert (Hin' : forall w d, In (w, d) trip -> In (w_d w) ps).
    { intros w d H. eapply Permutation_in; [apply Permutation_sym, HP|].
      apply (in_map (fun wd => w_d (fst wd)) _ _ H). }
    assert (Hndp : NoDup (map pt_index ps)).
    { eapply Permutation_NoDup; [apply Permutation_map, Permutation_sym, HP|]. rewrite map_map.
      rewrite (map_ext_in _ (fun wd => fst (fst (snd wd)))); [exact Hnd|]. intros [w [[j y] co]] H. cbn.
      apply Hd in H. apply H. }
    assert (Hlen : N.of_nat (length ps) = u32v (p_n params1)).
    { rewrite (Permutation_length HP), map_length. exact Hn. }
    assert (Hok : forall p, In p ps -> okb false true (p_t params1) p = true).
    { intros p Hp. destruct (Hin p Hp) as (w & j & y & co & H & -> & Hj). apply okb_new. apply Hd in H.
      destruct H as (_ & Hf & _). apply fresh_ok in Hf; [|exact Ht2]. destruct Hf as (A & B & _). split; assumption. }
    assert (Hv : filter (okb false true (p_t params1)) ps = ps).
    { clear -Hok. induction ps as [|p ps IH]; cbn; [reflexivity|].
      rewrite (Hok p (or_introl eq_refl)). f_equal. apply IH. intros q Hq. apply Hok. right; exact Hq. }
    assert (Hm : filter (fun p => negb (okb false true (p_t params1) p)) ps = []).
    { clear -Hok. induction ps as [|p ps IH]; cbn; [reflexivity|].
      rewrite (Hok p (or_introl eq_refl)). cbn. apply IH. intros q Hq. apply Hok. right; exact Hq. }
    assert (Hc : true && existsb crashb ps = false).
    { apply existsb_crash_false. intros p Hp. destruct (Hin p Hp) as (w & j & y & co & H & -> & Hj).
      apply Hd in H. destruct H as (_ & Hf & _). eapply fresh_not_crashing, Hf. }
    destruct (ns_success m params1 x my None ps false true r) as (st & r' & E & H1 & _ & H2 & _); eauto; try lia; try discriminate.
    { rewrite Hv. lia. }
    rewrite Hv, Hm in E. rewrite Hv in H1, H2. destruct H2 as (comms & C1 & C2 & C3).
    exists st, comms, r'. split; [exact E|]. split; [exact H1|]. split; [exact C1|]. split; [apply increasing_NoDup, C2|]. split.
    - intros j c. rewrite (C3 j c). split.
      + intros (p & Hl & Hc'). apply last_with_distinct in Hl; [|exact Hndp]. destruct Hl as [Hp Hj].
        destruct (Hin p Hp) as (w & j' & y & co & H & -> & Hj'). rewrite Hj in Hj'. subst j'.
        exists w, y, co. split; [exact H|]. apply Hd in H. destruct H as (_ & Hf & _). rewrite (fd_comm _ _ _ _ _ Hf) in Hc'. congruence.
      + intros (w & y & co & H & ->). exists (w_d w). pose proof H as H'. apply Hd in H'. destruct H' as (_ & Hf & _). split.
        * apply last_with_distinct; [exact Hndp|]. split; [eapply Hin', H|apply (fd_index _ _ _ _ _ Hf)].
        * apply (fd_comm _ _ _ _ _ Hf).
    - intros w j y co H. pose proof H as H'. apply Hd in H'. destruct H' as (_ & Hf & _).
      apply (rec_dhs _ _ _ _ _ H1). exists (w_d w). split.
      + apply last_with_distinct; [exact Hndp|]. split; [eapply Hin', H|apply (fd_index _ _ _ _ _ Hf)].
      + rewrite (fd_pk _ _ _ _ _ Hf). reflexivity.
  Qed.

  Definition new_key (ds : list (u32 * F * list F)) (i : u32) : F :=
    interp0 (map (fun d => (fst (fst d), poly_value (snd d) (of_u32 i))) ds).
  Definition old_points (ds : list (u32 * F * list F)) : list (u32 * F) :=
    map (fun d => (fst (fst d), poly_value (snd d) F0)) ds.

  Lemma donated_points params hs ws ds : Forall2 (donated params hs) ws ds -> old_points ds = key_points (map w_key ws).
  Proof.
    unfold old_points, key_points. induction 1 as [|w [[j x] co] ws ds (A & _ & B & _) HF IH]; [reflexivity|].
    cbn [map fst snd]. rewrite IH. f_equal. rewrite A. f_equal. apply poly_value_hd, B.
  Qed.
  Lemma donated_indices params hs ws ds : Forall2 (donated params hs) ws ds ->
    map (fun d => fst (fst d)) ds = map (fun w => sk_index (w_key w)) ws.
  Proof.
    induction 1 as [|w [[j x] co] ws ds (A & _) HF IH]; [reflexivity|]. cbn. rewrite IH, A. reflexivity.
  Qed.
  Lemma Forall2_combine {A B} (R : A -> B -> Prop) l l' : Forall2 R l l' -> forall a b, In (a, b) (combine l l') -> R a b.
  Proof.
    induction 1 as [|a b l l' H HF IH]; intros x y Hin; [contradiction|]. destruct Hin as [[= <- <-]|Hin]; auto.
  Qed.
  Lemma Forall2_impl_in {A B} (R Q : A -> B -> Prop) l l' : Forall2 R l l' ->
    (forall a b, In a l -> R a b -> Q a b) -> Forall2 Q l l'.
  Proof.
    induction 1 as [|a b l l' H HF IH]; intros X; constructor.
    - apply X; [left; reflexivity|exact H].
    - apply IH. intros a' b' Ha Hr. apply X; [right; exact Ha|exact Hr].
  Qed.
  Lemma combine_fst {A B C} (f : A -> C) (l : list A) (l' : list B) : length l = length l' ->
    map (fun ab => f (fst ab)) (combine l l') = map f l.
  Proof. revert l'. induction l as [|a l IH]; intros [|b l'] H; cbn in *; try discriminate; [reflexivity|]. f_equal. apply IH. lia. Qed.
  Lemma combine_snd {A B C} (f : B -> C) (l : list A) (l' : list B) : length l = length l' ->
    map (fun ab => f (snd ab)) (combine l l') = map f l'.
  Proof. revert l'. induction l as [|a l IH]; intros [|b l'] H; cbn in *; try discriminate; [reflexivity|]. f_equal. apply IH. lia. Qed.

  (** everything about one resharing, for fixed dealings *)
  Lemma heir_ok m params1 params hs ws ds z ps senders es r r2 :
    honest_heirs params hs -> good_indices (map (fun w => sk_index (w_key w)) ws) ->
    Forall2 (donated params hs) ws ds ->
    N.of_nat (length ws) = u32v (p_n params1) -> (1 <= u32v (p_t params1) <= u32v (p_n params1))%N ->
    In z hs -> Permutation ps (map w_d ws) -> Permutation senders ws -> received senders z es ->
    exists s1 r1 s2 r3, dkg_new m params1 (z_x z) (z_index z) ps r = Ok (s1, MkPList ps None, r1) /\
      to_round_two m s1 es r2 = Ok (s2, [], r3) /\
      finish s2 = Ok ((gen * interp0 (key_points (map w_key ws)))%G, MkSK (z_index z) (new_key ds (z_index z))).
  Proof.
    intros H Hgi HF Hn Ht Hz HPs HPw HR.
    pose proof (Forall2_len _ _ _ HF) as Hlen.
    assert (Hnd : NoDup (map (fun wd => fst (fst (snd wd))) (combine ws ds))).
    { rewrite (combine_snd (fun d => fst (fst d))) by exact Hlen. rewrite (donated_indices _ _ _ _ HF). apply Hgi. }
    destruct (new_honest m params1 params hs (combine ws ds) (z_x z) (z_index z) r ps) as (st & comms & r1 & E & R & C1 & C2 & C3 & C4); auto.
    - apply H.
    - rewrite combine_length, <- Hlen, Nat.min_id. exact Hn.
    - intros w d Hwd. eapply Forall2_combine; eassumption.
    - rewrite combine_fst by exact Hlen. exact HPs.
    - assert (Hds : forall d, In d ds -> exists w, In (w, d) (combine ws ds)).
      { intros d Hd. apply in_split in Hd. 
        assert (X : In d (map (fun ab => snd ab) (combine ws ds))).
        { rewrite (combine_snd (fun d => d)) by exact Hlen. rewrite map_id. destruct Hd as (l1 & l2 & ->). apply in_elt. }
        apply in_map_iff in X. destruct X as ([w d'] & <- & X). eauto. }
      assert (HP2 : exists ds', Permutation ds' ds /\ Forall2 (donated params hs) senders ds').
      { clear -HF HPw. revert ds HF. apply Permutation_sym in HPw.
        induction HPw as [|w l l' HP IH|w w' l|l l' l'' HP IH HP' IH']; intros ds HF.
        - inversion HF; subst. exists []. auto.
        - inversion HF as [|? d ? ds0 H1 H2]; subst. destruct (IH ds0 H2) as (ds' & P & F').
          exists (d :: ds'). split; [constructor; exact P|constructor; assumption].
        - inversion HF as [|? d ? ds0 H1 H2]; subst. inversion H2 as [|? d' ? ds1 H3 H4]; subst.
          exists (d' :: d :: ds1). split; [constructor|]. repeat constructor; assumption.
        - destruct (IH ds HF) as (ds' & P & F'). destruct (IH' ds' F') as (ds'' & P' & F'').
          exists ds''. split; [etransitivity; eassumption|exact F'']. }
      destruct HP2 as (ds' & P2 & F2).
      destruct (dealing_ok m st comms ds ds' es r2) as (s2 & r3 & E1 & _ & E2); auto.
      + rewrite (donated_indices _ _ _ _ HF). exact Hgi.
      + intros j c. rewrite C3. split.
        * intros (w & y & co & Hin & ->). exists y, co. split; [eapply in_combine_r, Hin|reflexivity].
        * intros (y & co & Hin & ->). destruct (Hds _ Hin) as [w Hw]. exists w, y, co. auto.
      + intros j x co Hin. destruct (Hds _ Hin) as [w Hw]. split; [|eapply C4, Hw].
        pose proof (Forall2_combine _ _ _ HF _ _ Hw) as (_ & _ & Ha & _). intros ->. discriminate.
      + rewrite (rec_n _ _ _ _ _ R), (rec_t _ _ _ _ _ R), (Permutation_length HPs), map_length, Hn. apply Ht.
      + rewrite (rec_t _ _ _ _ _ R), <- Hlen, Hn. apply Ht.
      + rewrite (rec_index _ _ _ _ _ R), (rec_sk _ _ _ _ _ R). unfold received in HR.
        clear -F2 HR Hz. revert es HR. induction F2 as [|w [[j x] co] ws ds (A & _ & _ & B) HF IH]; intros es HR;
          inversion HR as [|? e ? es' H1 H2]; subst; constructor; [|apply IH; exact H2].
        destruct (B z Hz) as (e' & B1 & B2 & B3 & B4). assert (e' = e) by congruence. subst e'. auto.
      + exists (R1 st), r1, s2, r3. split; [exact E|]. split; [exact E1|]. rewrite E2, (rec_index _ _ _ _ _ R).
        fold (old_points ds). rewrite (donated_points _ _ _ _ HF). reflexivity.
  Qed.

  Lemma new_keys_recover params hs ws ds : Forall2 (donated params hs) ws ds ->
    forall ks, (forall k, In k ks -> sk_key k = new_key ds (sk_index k)) -> NoDup (map sk_index ks) ->
      N.to_nat (u32v (p_t params)) <= length ks -> interp0 (key_points ks) = interp0 (key_points (map w_key ws)).
  Proof.
    intros HF ks Hk Hnd Hl.
    set (comms := map (fun d : u32 * F * list F => (fst (fst d), MkVss (fst (fst d)) (committed (snd d)))) ds).
    assert (E : forall x, dealt_point comms x = (gen * interp0 (map (fun d => (fst (fst d), poly_value (snd d) x)) ds))%G).
    { intros x. unfold dealt_point, comms. rewrite <- ginterp0_gen. rewrite !map_map.
      cbn [fst snd vss_points]. f_equal. apply map_ext. intros p. rewrite gpoly_committed. reflexivity. }
    rewrite <- (donated_points _ _ _ _ HF). apply gen_inj. unfold old_points. rewrite <- E.
    apply (keys_interpolate comms (N.to_nat (u32v (p_t params)))); auto.
    - intros j c Hjc. apply in_map_iff in Hjc. destruct Hjc as (d & [= <- <-] & Hd). cbn [vss_points].
      unfold committed. rewrite map_length. clear -HF Hd.
      induction HF as [|w [[j x] co] ws ds (_ & A & _) HF IH]; [contradiction|]. destruct Hd as [<-|Hd]; [|apply IH, Hd].
      cbn. rewrite (fd_len _ _ _ _ _ A). lia.
    - intros k Hin. rewrite E, (Hk k Hin). reflexivity.
  Qed.
End Reshare.

(** C32 *)
Theorem C32_reshare_succeeds :
  forall (S : Suite) (L : SuiteLaws S) (m : build) (params : Params) (hs : list Heir) (sk : SigningKey)
         (ps : list Participant) (r : Rng),
  honest_heirs params hs -> Permutation ps (map z_p hs) -> sk_index sk <> u32_zero ->
  exists d es r', reshare m params sk ps r = Ok (d, es, MkPList ps None, r') /\
    forall z, In z hs -> exists e, bget (z_index z) es = Some e.
Proof.
  intros S L m params hs sk ps r H HP Hi.
  destruct (reshare_honest m params hs sk ps r H HP Hi) as (d & es & r' & E & x & co & _ & _ & _ & Hd).
  exists d, es, r'. split; [exact E|]. intros z Hz. destruct (Hd z Hz) as (e & He & _). exists e. exact He.
Qed.
Print Assumptions C32_reshare_succeeds.

Theorem C32_resharing_preserves_group_key :
  forall (S : Suite) (L : SuiteLaws S) (m : build) (params1 params2 : Params) (hs : list Heir) (ws : list Donor)
         (old : list SigningKey) (s : F),
  (* old is a sharing of s with threshold t1; the donors are at least t1 of its holders *)
  recovers (N.to_nat (u32v (p_t params1))) s old -> (forall w, In w ws -> In (w_key w) old) ->
  honest_heirs params2 hs -> honest_donors m params2 hs ws ->
  N.of_nat (length ws) = u32v (p_n params1) -> (1 <= u32v (p_t params1) <= u32v (p_n params1))%N ->
  exists key : u32 -> F,
    (forall z ds senders es r r2, In z hs -> Permutation ds (map w_d ws) -> Permutation senders ws -> received senders z es ->
       exists s1 r1 s2 r3, dkg_new m params1 (z_x z) (z_index z) ds r = Ok (s1, MkPList ds None, r1) /\
         to_round_two m s1 es r2 = Ok (s2, [], r3) /\
         finish s2 = Ok ((gen * s)%G, MkSK (z_index z) (key (z_index z)))) /\
    recovers (N.to_nat (u32v (p_t params2))) s (map (fun z => MkSK (z_index z) (key (z_index z))) hs).
Proof.
  intros S L m params1 params2 hs ws old s [Ho1 Ho2] Hin H HD Hn Ht.
  destruct (donors_list m params2 hs ws H HD) as (ds & HF).
  assert (Es : interp0 (key_points (map w_key ws)) = s).
  { apply Ho2.
    - intros k Hk. apply in_map_iff in Hk. destruct Hk as (w & <- & Hw). apply Hin, Hw.
    - rewrite map_map. apply (hd_indices _ _ _ _ HD).
    - rewrite map_length. lia. }
  exists (new_key ds). split.
  - intros z ps senders es r r2 Hz HPs HPw HR. rewrite <- Es.
    eapply heir_ok; try eassumption. apply HD.
  - split; [rewrite map_map; apply H|]. intros sub Hsub Hnd Hl. rewrite <- Es.
    apply (new_keys_recover params2 hs ws ds HF); auto.
    intros k Hk. apply Hsub, in_map_iff in Hk. destruct Hk as (z & <- & _). reflexivity.
Qed.
Print Assumptions C32_resharing_preserves_group_key.

(** C33 *)
Theorem C33_history_preserves_group_key :
  forall (S : Suite) (L : SuiteLaws S) (m : build) (t t' : nat) (ks ks' : list SigningKey) (epochs : list (list G)) (s : F),
  recovers t s ks -> history m t ks epochs t' ks' ->
  recovers t' s ks' /\ forall gks gk, In gks epochs -> In gk gks -> gk = (gen * s)%G.
Proof.
  intros S L m t t' ks ks' epochs s H HH.
  induction HH as [t ks|t1 ks gks t2 ks2 rest t3 ks3 HR HH IH]; [split; [exact H|intros ? ? []]|].
  destruct HR as (params1 & params2 & hs & ws & outs & A1 & A2 & A3 & A4 & A5 & A6 & A7 & A8 & -> & ->).
  assert (E1 : t1 = N.to_nat (u32v (p_t params1))) by lia. assert (E2 : t2 = N.to_nat (u32v (p_t params2))) by lia.
  subst t1 t2.
  destruct (C32_resharing_preserves_group_key S L m params1 params2 hs ws ks s H A5 A6 A7 A1 A3) as (key & K1 & K2).
  assert (HO : Forall2 (fun z out => out = ((gen * s)%G, MkSK (z_index z) (key (z_index z)))) hs outs).
  { eapply Forall2_impl_in; [exact A8|].
    intros z out Hz (ds & senders & es & r & lists & r1 & s1 & r2 & s2 & cs & r3 & P1 & P2 & P3 & P4 & P5 & P6).
    destruct (K1 z ds senders es r r2 Hz P1 P2 P3) as (s1' & r1' & s2' & r3' & Q1 & Q2 & Q3).
    rewrite P4 in Q1. injection Q1 as <- _ _. rewrite P5 in Q2. injection Q2 as <- _ _. rewrite P6 in Q3. congruence. }
  assert (Hks : map snd outs = map (fun z => MkSK (z_index z) (key (z_index z))) hs).
  { clear -HO. induction HO as [|z out hs outs -> HF IH]; cbn; [reflexivity|]. f_equal. exact IH. }
  rewrite Hks in *. destruct (IH K2) as [I1 I2]. split; [exact I1|].
  intros gks gk [<-|Hg] Hk; [|eapply I2; eassumption].
  clear -HO Hk. induction HO as [|z out hs outs -> HF IH]; cbn in Hk; [contradiction|]. destruct Hk as [<-|Hk]; auto.
Qed.
Print Assumptions C33_history_preserves_group_key.

(** a resharing is always possible: for any holders of at least t keys and any honest new signers *)
Theorem C33_next_epoch_exists :
  forall (S : Suite) (L : SuiteLaws S) (m : build) (ks : list SigningKey) (s : F) (params1 params2 : Params) (hs : list Heir) (r : Rng),
  recovers (N.to_nat (u32v (p_t params1))) s ks ->
  N.of_nat (length ks) = u32v (p_n params1) -> (1 <= u32v (p_t params1) <= u32v (p_n params1))%N ->
  honest_heirs params2 hs ->
  exists gks ks', resharing m (N.to_nat (u32v (p_t params1))) ks gks (N.to_nat (u32v (p_t params2))) ks' /\
    length ks' = length hs.
Proof.
  intros S L m ks s params1 params2 hs r HR Hn Ht H.
  assert (HW : exists ws, map w_key ws = ks /\ forall w, In w ws -> exists ps r lists r', Permutation ps (map z_p hs) /\
      reshare m params2 (w_key w) ps r = Ok (w_d w, w_es w, lists, r')).
  { destruct HR as [[_ Hz] _]. clear Hn. induction ks as [|k ks IH]; [exists []; split; [reflexivity|intros ? []]|].
    destruct IH as (ws & <- & Hws); [intros X; apply Hz; right; exact X|].
    destruct (C32_reshare_succeeds S L m params2 hs k (map z_p hs) r H (Permutation_refl _)) as (d & es & r' & E & _).
    { intros X. apply Hz. left; exact X. }
    exists (MkDonor k d es :: ws). split; [reflexivity|]. intros w [<-|Hw]; [|apply Hws, Hw]. cbn. eauto 10. }
  destruct HW as (ws & Ek & Hws).
  assert (HD : honest_donors m params2 hs ws).
  { constructor; [|exact Hws]. destruct HR as [Hg _]. rewrite <- Ek, map_map in Hg. exact Hg. }
  assert (Hin : forall w, In w ws -> In (w_key w) ks) by (intros w Hw; rewrite <- Ek; apply in_map, Hw).
  assert (Hl : N.of_nat (length ws) = u32v (p_n params1)) by (rewrite <- Hn, <- Ek, map_length; reflexivity).
  destruct (C32_resharing_preserves_group_key S L m params1 params2 hs ws ks s HR Hin H HD Hl Ht) as (key & K1 & _).
  destruct (donors_list m params2 hs ws H HD) as (ds & HF).
  set (outs := map (fun z => ((gen * s)%G, MkSK (z_index z) (key (z_index z)))) hs).
  exists (map fst outs), (map snd outs). split; [|rewrite map_length; unfold outs; apply map_length].
  exists params1, params2, hs, ws, outs. repeat (split; [first [assumption|lia]|]). split; [|split; reflexivity].
  assert (X : forall z, In z hs -> heir_run m params1 ws z ((gen * s)%G, MkSK (z_index z) (key (z_index z)))).
  { intros z Hz. assert (HE : exists es, received ws z es).
    { clear -HF Hz. unfold received. induction HF as [|w [[j x] co] ws ds (_ & _ & _ & A) HF IH]; [exists []; constructor|].
      destruct (A z Hz) as (e & He & _), IH as (es & Hes). exists (e :: es). constructor; assumption. }
    destruct HE as [es Hes].
    destruct (K1 z (map w_d ws) ws es r r Hz (Permutation_refl _) (Permutation_refl _) Hes) as (s1 & r1 & s2 & r3 & E1 & E2 & E3).
    exists (map w_d ws), ws, es, r, (MkPList (map w_d ws) None), r1, s1, r, s2, [], r3. auto 10. }
  unfold outs. clear -X. induction hs as [|z hs IH]; cbn; constructor.
  - apply X. left; reflexivity.
  - apply IH. intros z' Hz'. apply X. right; exact Hz'.
Qed.
Print Assumptions C33_next_epoch_exists.

(** starting points of histories: a single imported key, and a finished key generation *)
Theorem C33_single_key_is_a_sharing :
  forall (S : Suite) (L : SuiteLaws S) (s : F), recovers 1 s [from_single_key s].
Proof.
  intros S L s. assert (G1 : good_indices [u32_of_N 1]).
  { split; [constructor; [intros []|constructor]|]. intros [X|[]]. apply (f_equal u32v) in X. vm_compute in X. discriminate. }
  split; [exact G1|]. intros sub Hsub Hnd Hl. destruct sub as [|k sub]; [cbn in Hl; lia|].
  assert (k = from_single_key s) by (destruct (Hsub k (or_introl eq_refl)) as [<-|[]]; reflexivity). subst k.
  destruct sub as [|k' sub].
  - pose proof (interp0_poly [u32_of_N 1] [s]) as X. cbn [map] in X. unfold key_points, from_single_key. cbn [map sk_index sk_key].
    rewrite !poly_const in X. apply X; [apply G1|cbn; lia].
  - exfalso. assert (k' = from_single_key s) by (destruct (Hsub k' (or_intror (or_introl eq_refl))) as [<-|[]]; reflexivity).
    subst k'. inversion Hnd as [|? ? X _]. apply X. left; reflexivity.
Qed.
Print Assumptions C33_single_key_is_a_sharing.

Lemma dealt_keys_sharing :
  forall (S : Suite) (L : SuiteLaws S) (params : Params) (parties : list Party),
  honest_parties params parties ->
  recovers (N.to_nat (u32v (p_t params))) (interp0 (dealt_values parties F0))
    (map (fun p => MkSK (y_index p) (interp0 (dealt_values parties (of_u32 (y_index p))))) parties).
Proof.
  intros S L params parties H. split; [rewrite map_map; apply H|]. intros sub Hsub Hnd Hl.
  assert (HQ : exists qs, sub = map (fun p => MkSK (y_index p) (interp0 (dealt_values parties (of_u32 (y_index p))))) qs /\
                 forall q, In q qs -> In q parties).
  { clear Hnd Hl. induction sub as [|k sub IH]; [exists []; split; [reflexivity|intros ? []]|].
    destruct IH as (qs & -> & Hqs); [intros k' Hk'; apply Hsub; right; exact Hk'|].
    pose proof (Hsub k (or_introl eq_refl)) as Hk. apply in_map_iff in Hk. destruct Hk as (p & <- & Hp).
    exists (p :: qs). split; [reflexivity|]. intros q [<-|Hq]; auto. }
  destruct HQ as (qs & -> & Hqs). rewrite map_length in Hl.
  apply (dealt_keys_reconstruct S L params parties qs); auto.
  - rewrite map_map in Hnd. cbn [sk_index] in Hnd. eapply NoDup_map_inv, Hnd.
  - lia.
  - clear. induction qs as [|q qs IH]; cbn; constructor; auto.
Qed.
Theorem C33_key_generation_is_a_sharing :
  forall (S : Suite) (L : SuiteLaws S) (m : build) (params : Params) (parties : list Party) (outs : list (G * SigningKey)),
  honest_parties params parties -> all_bootstrapped m params parties -> Forall2 (party_run m parties) parties outs ->
  exists s, recovers (N.to_nat (u32v (p_t params))) s (map snd outs) /\ length outs = length parties /\
    forall gk sk, In (gk, sk) outs -> gk = (gen * s)%G.
Proof.
  intros S L m params parties outs H HB HF. destruct (C18_honest_agreement S L m params parties H HB) as (s & Es & HA). exists s.
  set (mk := fun p => MkSK (y_index p) (interp0 (dealt_values parties (of_u32 (y_index p))))).
  assert (K : outs = map (fun p => ((gen * s)%G, mk p)) parties).
  { enough (X : forall qs, (forall q, In q qs -> In q parties) -> Forall2 (party_run m parties) qs outs -> outs = map (fun p => ((gen * s)%G, mk p)) qs)
      by (apply X; auto).
    clear HF. intros qs Hin HF.
    induction HF as [|q out qs outs (senders & es & r & s2 & cs & r' & P1 & P2 & P3 & P4) HF IH]; cbn [map]; [reflexivity|].
    rewrite IH by (intros q' Hq'; apply Hin; right; exact Hq'). f_equal.
    destruct (HA q senders es r (Hin q (or_introl eq_refl)) P1 P2) as (s2' & r2 & [i k] & A1 & A2 & A3 & A4 & _).
    rewrite P3 in A1. injection A1 as <- _ _. rewrite P4 in A2. injection A2 as ->. cbn in A3, A4. unfold mk. congruence. }
  rewrite K. split; [|split; [apply map_length|]].
  - rewrite map_map. cbn [snd]. rewrite Es. exact (dealt_keys_sharing S L params parties H).
  - intros gk sk Hg. apply in_map_iff in Hg. destruct Hg as (p & [= <- _] & _). reflexivity.
Qed.
Print Assumptions C33_key_generation_is_a_sharing.

(** the keys of participants 1 and 3 of the demo key generation (threshold 2 of 3) are reshared to the signers
    5, 6, 7, 8 with threshold 3 *)
Definition re_params : Params := MkParams (u 4) (u 3).
Definition re_heir (i : N) : Heir := MkHeir (u i) (signer 4 3 i (60 + i)) (signer_x 4 3 i (60 + i)).
Definition re_heirs : list Heir := map re_heir [5; 6; 7; 8]%N.
Definition re_donor (params : Params) (k : SigningKey) (seed : N) : Donor :=
  match reshare Debug params k (map z_p re_heirs) seed with
  | Ok (d, es, _, _) => MkDonor k d es
  | _ => MkDonor k no_part []
  end.
Definition re_donors : list Donor := [re_donor re_params (demo_key 3) 71%N; re_donor re_params (demo_key 1) 72%N].
Definition re_shares (ws : list Donor) (z : Heir) : list EncShare :=
  flat_map (fun w => match bget (z_index z) (w_es w) with Some e => [e] | None => [] end) ws.
(** misbehaving participants, number of complaints, group key, signing key *)
Definition re_run (params1 : Params) (ws : list Donor) (z : Heir) : result (option (list u32) * nat * G * SigningKey) :=
  let* (s1, lists, r1) := dkg_new Debug params1 (z_x z) (z_index z) (map w_d ws) 3%N in
  let* (s2, cs, _) := to_round_two Debug s1 (re_shares ws z) r1 in
  let* (gk, sk) := finish s2 in
  Ok (pl_mis lists, length cs, gk, sk).
Definition re_key (params1 : Params) (ws : list Donor) (i : N) : SigningKey :=
  match re_run params1 ws (re_heir i) with Ok (_, _, _, sk) => sk | _ => MkSK (u 0) (mk 0) end.

Example C32_ex_old : recovers 2 (interp0 (dealt_values demo_parties (mk 0))) (map demo_key [1; 2; 3]%N).
Proof. exact (dealt_keys_sharing Toy ToyLaws demo_params demo_parties C18_ex_honest). Qed.
Example C32_ex_heirs : honest_heirs re_params re_heirs.
Proof.
  constructor.
  - vmr.
  - split; vm_compute; discriminate.
  - good.
  - intros z [<-|[<-|[<-|[<-|[]]]]].
    + left. exists 65%N, (let '(_, _, r) := signer_run 4 3 5 65 in r). vmr.
    + left. exists 66%N, (let '(_, _, r) := signer_run 4 3 6 66 in r). vmr.
    + left. exists 67%N, (let '(_, _, r) := signer_run 4 3 7 67 in r). vmr.
    + left. exists 68%N, (let '(_, _, r) := signer_run 4 3 8 68 in r). vmr.
Qed.
Example C32_ex_donors : honest_donors Debug re_params re_heirs re_donors.
Proof.
  constructor; [good|].
  assert (K : forall k seed, sk_index k <> u32_zero -> exists ps r lists r', Permutation ps (map z_p re_heirs) /\
    reshare Debug re_params (w_key (re_donor re_params k seed)) ps r =
      Ok (w_d (re_donor re_params k seed), w_es (re_donor re_params k seed), lists, r')).
  { intros k seed Hk.
    destruct (C32_reshare_succeeds Toy ToyLaws Debug re_params re_heirs k (map z_p re_heirs) seed C32_ex_heirs
      (Permutation_refl _) Hk) as (d & es & r' & E & _).
    exists (map z_p re_heirs), seed, (MkPList (map z_p re_heirs) None), r'. split; [apply Permutation_refl|].
    unfold re_donor. rewrite E. exact E. }
  intros w [<-|[<-|[]]]; apply K; apply u32_eqb_neq; vmr.
Qed.
Example C32_ex :
  re_run (MkParams (u 2) (u 2)) re_donors (re_heir 5) =
    Ok (None, 0, (toy_gen * interp0 (dealt_values demo_parties (mk 0)))%G, re_key (MkParams (u 2) (u 2)) re_donors 5) /\
  interp0 (key_points (map (re_key (MkParams (u 2) (u 2)) re_donors) [8; 5; 7]%N)) =
    interp0 (dealt_values demo_parties (mk 0)).
Proof. vms. Qed.

(** and on to two signers 5, 6 of the next epoch, and from a single imported key *)
Example C33_ex :
  re_run (MkParams (u 1) (u 1)) [re_donor re_params (from_single_key (mk 424242)) 9%N] (re_heir 8) =
    Ok (None, 0, (toy_gen * mk 424242)%G, re_key (MkParams (u 1) (u 1)) [re_donor re_params (from_single_key (mk 424242)) 9%N] 8) /\
  (let ks := map (re_key (MkParams (u 2) (u 2)) re_donors) [6; 8; 5]%N in
   let ws := [re_donor re_params (nth 0 ks (demo_key 1)) 81%N; re_donor re_params (nth 1 ks (demo_key 1)) 82%N;
              re_donor re_params (nth 2 ks (demo_key 1)) 83%N] in
   let* (mis, n, gk, sk) := re_run (MkParams (u 3) (u 3)) ws (re_heir 7) in Ok (mis, n, gk)) =
  Ok (None, 0, (toy_gen * interp0 (dealt_values demo_parties (mk 0)))%G).
Proof. vms. Qed.

(** C34 *)
Theorem C34_bootstrap_fixes_the_degree :
  forall (S : Suite) (L : SuiteLaws S) (m : build) (params : Params) (x : F) (my : u32) (co : list F)
         (ps : list Participant) (r r' : Rng) st lists,
  bootstrap m params x my co ps r = Ok (st, lists, r') ->
  forall p, In p (pl_valid lists) -> commitment_length (u32v (p_t params)) p.
Proof.
  intros S L m params x my co ps r r' st lists E p Hp. unfold bootstrap in E.
  destruct (N.eq_dec (N.of_nat (length ps)) (u32v (p_n params))) as [Hn|Hn];
    [|rewrite ns_count in E by exact Hn; discriminate].
  destruct (N.eq_dec (u32v (p_t params)) 0) as [T0|T0].
  { destruct (C14_zero_threshold_never_succeeds S L m params x my co ps r T0) as [X _]. unfold bootstrap in X. rewrite E in X. discriminate. }
  assert (T1 : (1 <= u32v (p_t params))%N) by lia.
  destruct (true && existsb crashb ps) eqn:Hc; [rewrite ns_panic in E by auto; discriminate|].
  destruct (N.lt_ge_cases (N.of_nat (length (filter (okb true true (p_t params)) ps))) (u32v (p_t params))) as [Hl|Hl].
  { rewrite ns_toofew in E by auto. discriminate. }
  destruct (ns_success m params x my (Some co) ps true true r) as (st0 & r0 & E0 & _); eauto.
  rewrite E in E0. injection E0 as _ -> _. cbn [pl_valid] in Hp. apply filter_In in Hp. destruct Hp as [_ Hp].
  apply okb_bootstrap in Hp. apply Hp.
Qed.
Print Assumptions C34_bootstrap_fixes_the_degree.

(** donor 3 deals with four coefficients although the new threshold is 3: nothing is noticed, everybody gets the
    right group key, but three new keys do not interpolate to it *)
Definition C34_params : Params := MkParams (u 4) (u 4).
Definition C34_donors : list Donor := [re_donor C34_params (demo_key 3) 71%N; re_donor re_params (demo_key 1) 72%N].
Lemma C34_run p1 w1 w2 z gk k :
  re_run p1 [w1; w2] z = Ok (None, 0, gk, k) -> sk_index k = z_index z ->
  match bget (z_index z) (w_es w1), bget (z_index z) (w_es w2) with Some _, Some _ => true | _, _ => false end = true ->
  pl_valid (let '(_, l, _) := got (R1 no_state, MkPList [] None, 0%N)
     (dkg_new Debug p1 (z_x z) (z_index z) [w_d w1; w_d w2] 3%N) in l) = [w_d w1; w_d w2] ->
  sk_index k = z_index z /\
  exists es r s1 r1 s2 r2, received [w1; w2] z es /\
    dkg_new Debug p1 (z_x z) (z_index z) [w_d w1; w_d w2] r = Ok (s1, MkPList [w_d w1; w_d w2] None, r1) /\
    to_round_two Debug s1 es r1 = Ok (s2, [], r2) /\ finish s2 = Ok (gk, k).
Proof.
  intros E Hi Hb Hv. split; [exact Hi|]. unfold re_run in E.
  assert (HR : received [w1; w2] z (re_shares [w1; w2] z)).
  { unfold received, re_shares. cbn [flat_map].
    destruct (bget (z_index z) (w_es w1)) eqn:E1; [|discriminate].
    destruct (bget (z_index z) (w_es w2)) eqn:E2; [|discriminate].
    cbn [app]. repeat constructor; assumption. }
  cbn [map] in E.
  destruct (dkg_new Debug p1 (z_x z) (z_index z) _ 3%N) as [[[s1 lists] r1]| |] eqn:E1; try discriminate. cbn [bind got] in E, Hv.
  destruct (to_round_two Debug s1 (re_shares [w1; w2] z) r1) as [[[s2 cs] r2]| |] eqn:E2; try discriminate. cbn [bind] in E.
  destruct (finish s2) as [[gk' sk]| |] eqn:E3; try discriminate. cbn [bind] in E.
  injection E as Em Ec Eg Ek. exists (re_shares [w1; w2] z), 3%N, s1, r1, s2, r2.
  split; [exact HR|]. destruct lists as [v mis]. cbn [pl_mis pl_valid] in *. subst v mis.
  split; [exact E1|]. destruct cs; [|discriminate]. split; [exact E2|]. rewrite E3, Eg, Ek. reflexivity.
Qed.
Theorem C34_resharing_degree_unbounded :
  exists (S : Suite) (L : SuiteLaws S) (m : build) (params1 params2 params3 : Params) (hs : list Heir) (w1 w2 : Donor)
         (old : list SigningKey) (s : F) (outs : list SigningKey),
    recovers (N.to_nat (u32v (p_t params1))) s old /\ In (w_key w1) old /\ In (w_key w2) old /\
    sk_index (w_key w1) <> sk_index (w_key w2) /\
    honest_heirs params2 hs /\ honest_donors m params2 hs [w2] /\
    (* w1 used another threshold *)
    (u32v (p_t params2) < u32v (p_t params3))%N /\ honest_donors m params3 hs [w1] /\
    Forall2 (fun z k => sk_index k = z_index z /\ exists es r s1 r1 s2 r2, received [w1; w2] z es /\
      dkg_new m params1 (z_x z) (z_index z) [w_d w1; w_d w2] r = Ok (s1, MkPList [w_d w1; w_d w2] None, r1) /\
      to_round_two m s1 es r1 = Ok (s2, [], r2) /\ finish s2 = Ok ((gen * s)%G, k)) hs outs /\
    exists sub, (forall k, In k sub -> In k outs) /\ NoDup (map sk_index sub) /\
      N.of_nat (length sub) = u32v (p_t params2) /\ interp0 (key_points sub) <> s.
Proof.
  set (p1 := MkParams (u 2) (u 2)).
  assert (H3 : honest_heirs C34_params re_heirs).
  { constructor.
    - vmr.
    - split; vm_compute; discriminate.
    - good.
    - intros z Hz. apply (hh_made _ _ C32_ex_heirs) in Hz. destruct Hz as [(r & r' & E)|E]; [left; exists r, r'; exact E|right; exact E]. }
  assert (K : forall params k seed, honest_heirs params re_heirs -> sk_index k <> u32_zero ->
    honest_donors Debug params re_heirs [re_donor params k seed]).
  { intros params k seed HH Hk.
    destruct (C32_reshare_succeeds Toy ToyLaws Debug params re_heirs k (map z_p re_heirs) seed HH
      (Permutation_refl _) Hk) as (d & es & r' & E & _).
    unfold re_donor. rewrite E. constructor; cbn [map w_key].
    - split; [constructor; [intros []|constructor]|]. intros [X|[]]. contradiction.
    - intros w [<-|[]]. cbn [w_key w_d w_es]. exists (map z_p re_heirs), seed, (MkPList (map z_p re_heirs) None), r'.
      split; [apply Permutation_refl|exact E]. }
  exists Toy, ToyLaws, Debug, p1, re_params, C34_params, re_heirs, (re_donor C34_params (demo_key 3) 71%N),
    (re_donor re_params (demo_key 1) 72%N), (map demo_key [1; 2; 3]%N), (interp0 (dealt_values demo_parties (mk 0))),
    (map (re_key p1 C34_donors) [5; 6; 7; 8]%N).
  split; [exact C32_ex_old|].
  assert (W : forall params k seed, w_key (re_donor params k seed) = k).
  { intros params k seed. unfold re_donor. destruct (reshare _ _ _ _ _) as [[[[]]]| |]; reflexivity. }
  rewrite !W. split; [right; right; left; reflexivity|]. split; [left; reflexivity|].
  split; [apply u32_eqb_neq; vmr|]. split; [exact C32_ex_heirs|].
  split; [apply K; [exact C32_ex_heirs|apply u32_eqb_neq; vmr]|]. split; [vm_compute; reflexivity|].
  split; [apply K; [exact H3|apply u32_eqb_neq; vmr]|]. split.
  - unfold re_heirs. cbn [map].
    unfold C34_donors.
    repeat (constructor; [apply C34_run; vmr|]). constructor.
  - exists (map (re_key p1 C34_donors) [5; 6; 7]%N). split; [intros k [<-|[<-|[<-|[]]]]; [left|right; left|right; right; left]; reflexivity|].
    split; [nodup|]. split; [vmr|].
    intros X. apply (f_equal fv) in X. vm_compute in X. discriminate.
Qed.
Print Assumptions C34_resharing_degree_unbounded.
