(** C122: a commitment altered on its way to one participant. *)
From Coq Require Import String Strings.Byte Arith NArith ZArith Bool List Lia Permutation Sorted Field.
From Verif Require Import Base Suite Spec SpecDkg SpecRobust SpecAuth SpecEnd Types Algebra BaseLemmas ModelDkg LemmasShare LemmasRound1 LemmasRound2
  LemmasFinish LemmasBlame Toy Demo DemoDkg PropsRound1 PropsRound2 PropsFinish PropsBlame PropsRobust PropsView PropsEnd PropsReflect PropsLeak PropsAttack
  PropsSteer PropsMix PropsSplit.
Import ListNotations.

Section Tamper.
  Context {S : Suite} {L : SuiteLaws S}.

  (** the entry d with all points of its commitment but the first replaced *)
  Definition altered (d : Participant) (tail : list G) : Participant :=
    MkPart (pt_index d) (pt_dh_pk d)
      (option_map (fun c => MkVss (vss_index c) (match vss_points c with [] => [] | P :: _ => P :: tail end)) (pt_comm d))
      (pt_sk_proof d) (pt_dh_proof d).

  Lemma ok_not_crashing t d : ok_bootstrap t d -> ~ crashing d.
  Proof. intros (_ & (c & P & rs & pr & _ & _ & A & _) & _) (_ & _ & B). congruence. Qed.

  (** round one with a list of entries that all pass *)
  Lemma all_pass m params x my co ps r : N.of_nat (length ps) = u32v (p_n params) -> NoDup (map pt_index ps) ->
    (1 <= u32v (p_t params) <= u32v (p_n params))%N -> (forall d, In d ps -> ok_bootstrap (p_t params) d) ->
    exists st es comms r', bootstrap m params x my co ps r = Ok (R1 st, MkPList ps None, r') /\
      their_encrypted_secret_shares (R1 st) = Ok es /\ shares_for_all my x co ps es /\
      records params my x ps st /\ ds_comms st = Some comms /\ NoDup (bkeys comms) /\
      (forall j c, bget j comms = Some c <-> exists d, In d ps /\ pt_index d = j /\ pt_comm d = Some c) /\
      (forall d, In d ps -> bget (pt_index d) (ds_dhs st) = Some (pt_dh_pk d)).
  Proof.
    intros Hn Hnd Ht Hok.
    assert (Hok' : forall p, In p ps -> okb true true (p_t params) p = true) by (intros p Hp; apply okb_bootstrap, Hok, Hp).
    assert (Hv : filter (okb true true (p_t params)) ps = ps).
    { clear -Hok'. induction ps as [|p ps IH]; cbn; [reflexivity|].
      rewrite (Hok' p (or_introl eq_refl)). f_equal. apply IH. intros q Hq. apply Hok'. right; exact Hq. }
    assert (Hm : filter (fun p => negb (okb true true (p_t params) p)) ps = []).
    { clear -Hok'. induction ps as [|p ps IH]; cbn; [reflexivity|].
      rewrite (Hok' p (or_introl eq_refl)). cbn. apply IH. intros q Hq. apply Hok'. right; exact Hq. }
    destruct (ns_success m params x my (Some co) ps true true r) as (st & r' & E & H1 & _ & H2 & H3); eauto; try lia.
    { apply existsb_crash_false. intros p Hp. eapply ok_not_crashing, Hok, Hp. }
    { rewrite Hv. lia. }
    rewrite Hv, Hm in E. rewrite Hv in H1, H2. cbn [negb andb] in H3. cbn [map none_if_empty] in E.
    destruct H2 as (comms & C1 & C2 & C3). destruct H3 as (cs & es & [= <-] & E1 & _ & E2).
    exists st, es, comms, r'. split; [exact E|]. split; [unfold their_encrypted_secret_shares; cbn; rewrite E1; reflexivity|].
    split; [exact E2|]. split; [exact H1|]. split; [exact C1|]. split; [apply increasing_NoDup, C2|]. split.
    - intros j c. rewrite (C3 j c). split.
      + intros (p & Hl & Hc'). apply last_with_distinct in Hl; [|exact Hnd]. exists p. tauto.
      + intros (d & Hd & Hj & Hc'). exists d. split; [apply last_with_distinct; auto|exact Hc'].
    - intros d Hd. apply (rec_dhs _ _ _ _ _ H1). exists d. split; [apply last_with_distinct; auto|reflexivity].
  Qed.

  (** z ran bootstrap on a list with the genuine indices and Diffie-Hellman keys *)
  Record listed_all (params : Params) (parties : list Party) (ps : list Participant) : Prop := {
    la_indices : Permutation (map pt_index ps) (map y_index parties);
    la_ok : forall d, In d ps -> ok_bootstrap (p_t params) d;
    la_keys : forall z, In z parties -> exists d, In d ps /\ pt_index d = y_index z /\ pt_dh_pk d = (gen * y_x z)%G }.
  Lemma party_state m params parties ps q : honest_parties params parties -> listed_all params parties ps -> bootstrapped m params ps q ->
    exists st comms, y_st q = R1 st /\ records params (y_index q) (y_x q) ps st /\ ds_comms st = Some comms /\ NoDup (bkeys comms) /\
      u32v (p_n (ds_params st)) = u32v (p_n params) /\
      (forall j c, bget j comms = Some c <-> exists d, In d ps /\ pt_index d = j /\ pt_comm d = Some c) /\
      (forall z, In z parties -> bget (y_index z) (ds_dhs st) = Some (gen * y_x z)%G) /\
      (forall z e, In z parties -> bget (y_index z) (y_es q) = Some e -> es_sender e = y_index q /\ es_receiver e = y_index z /\
         decrypt_share e (enc_point ((gen * y_x q) * y_x z)%G) = Ok (MkShare (y_index q) (y_index z) (poly_value (y_co q) (of_u32 (y_index z))))).
  Proof.
    intros H [P1 P2 P3] (r & l & r' & E & Ee).
    assert (Hlen : length ps = length parties) by (apply Permutation_length in P1; rewrite !map_length in P1; exact P1).
    assert (Hnd : NoDup (map pt_index ps)) by (eapply Permutation_NoDup; [apply Permutation_sym, P1|apply H]).
    destruct (all_pass m params (y_x q) (y_index q) (y_co q) ps r) as (st & es & comms & r1 & E1 & E2 & [_ K] & R & C1 & C2 & C3 & C4); auto.
    { rewrite Hlen. apply H. } { apply H. }
    rewrite E in E1. injection E1 as Es _ _. rewrite Es in Ee. rewrite E2 in Ee. injection Ee as ->.
    exists st, comms. split; [exact Es|]. split; [exact R|]. split; [exact C1|]. split; [exact C2|].
    split; [rewrite (rec_n _ _ _ _ _ R), Hlen; apply H|]. split; [exact C3|]. split.
    - intros z Hz. destruct (P3 z Hz) as (d & D1 & D2 & D3). rewrite <- D2, <- D3. apply C4, D1.
    - intros z e Hz He. destruct (P3 z Hz) as (d & D1 & D2 & D3).
      destruct (K (y_index z) d) as (e' & G1 & G2 & G3 & G4); [apply last_with_distinct; auto|].
      rewrite He in G1. injection G1 as <-. rewrite D2 in G3, G4. split; [exact G2|]. split; [exact G3|].
      rewrite <- G4, D3. do 2 f_equal. apply dh_shared.
  Qed.

  (** what arrives at q when every party ran on such a list *)
  Lemma arrives m params parties q senders es : honest_parties params parties -> In q parties ->
    (forall z, In z parties -> exists ps, listed_all params parties ps /\ bootstrapped m params ps z) ->
    Permutation senders parties -> delivered senders q es ->
    (forall e, In e es -> exists z, In z parties /\ es_sender e = y_index z /\ es_receiver e = y_index q /\
       decrypt_share e (enc_point ((gen * y_x z) * y_x q)%G) = Ok (MkShare (y_index z) (y_index q) (poly_value (y_co z) (of_u32 (y_index q))))) /\
    (forall z, In z parties -> exists e, In e es /\ es_sender e = y_index z) /\ length es = length parties /\
    NoDup (map es_sender es).
  Proof.
    intros H Hq HB HP HD.
    assert (Hs : forall p, In p senders <-> In p parties) by (intros p; split; apply Permutation_in; [|apply Permutation_sym]; exact HP).
    assert (A : forall z e, In z parties -> bget (y_index q) (y_es z) = Some e -> es_sender e = y_index z /\ es_receiver e = y_index q /\
       decrypt_share e (enc_point ((gen * y_x z) * y_x q)%G) = Ok (MkShare (y_index z) (y_index q) (poly_value (y_co z) (of_u32 (y_index q))))).
    { intros z e Hz He. destruct (HB z Hz) as (ps & LA & B). destruct (party_state m params parties ps z H LA B) as (st & comms & _ & _ & _ & _ & _ & _ & _ & X).
      apply X; assumption. }
    assert (Em : map es_sender es = map y_index senders /\ length es = length senders /\
      (forall e, In e es -> exists z, In z senders /\ bget (y_index q) (y_es z) = Some e) /\
      (forall z, In z senders -> exists e, In e es /\ bget (y_index q) (y_es z) = Some e)).
    { assert (A' : forall z e, In z senders -> bget (y_index q) (y_es z) = Some e -> es_sender e = y_index z).
      { intros z e Hz He. apply Hs in Hz. apply (A z e Hz He). }
      clear - HD A'. unfold delivered in HD. induction HD as [|z e zs es He HD IH].
      - cbn. repeat split; intros ? [].
      - destruct IH as (I1 & I2 & I3 & I4); [intros z0 e0 Hz0; apply A'; right; exact Hz0|]. cbn [map length].
        split; [rewrite I1, (A' z e (or_introl eq_refl) He); reflexivity|]. split; [rewrite I2; reflexivity|]. split.
        + intros e0 [<-|X]; [exists z; split; [left; reflexivity|exact He]|]. destruct (I3 e0 X) as (z0 & X1 & X2). exists z0. split; [right; exact X1|exact X2].
        + intros z0 [<-|X]; [exists e; split; [left; reflexivity|exact He]|]. destruct (I4 z0 X) as (e0 & X1 & X2). exists e0. split; [right; exact X1|exact X2]. }
    destruct Em as (M1 & M2 & M3 & M4). split; [|split; [|split]].
    - intros e He. destruct (M3 e He) as (z & Hz & X). apply Hs in Hz. exists z. split; [exact Hz|]. apply A; assumption.
    - intros z Hz. destruct (M4 z (proj2 (Hs z) Hz)) as (e & X1 & X2). exists e. split; [exact X1|]. apply (A z e Hz X2).
    - rewrite M2. apply Permutation_length, HP.
    - rewrite M1. eapply Permutation_NoDup; [apply Permutation_map, Permutation_sym, HP|]. apply H.
  Qed.

  (** a single verdict *)
  Lemma blame_single st comms shares c i pk : ds_comms st = Some comms -> ds_shares st = Some shares ->
    (forall j, convicted st [c] j <-> j = i) -> bget i (ds_dhs st) = Some pk ->
    exists st', blame (R2 st) [c] = Ok ([pk], R2 st').
  Proof.
    intros Hc Hs Hcv Hpk. destruct (C22_blame_outcome S L st comms shares [c] Hc Hs) as (l & keys & st' & E1 & Hl & Hso & Hk & HPr).
    assert (El : l = [i]).
    { assert (I0 : In i l) by (apply Hl, Hcv; reflexivity).
      assert (I1 : forall j, In j l -> j = i) by (intros j Hj; apply Hcv, Hl, Hj).
      clear - Hso I0 I1. destruct l as [|a [|b l]]; [contradiction| |].
      - rewrite (I1 a (or_introl eq_refl)). reflexivity.
      - exfalso. apply StronglySorted_inv in Hso. destruct Hso as [_ Hs]. apply Forall_inv in Hs.
        rewrite (I1 a), (I1 b) in Hs by (cbn; auto). lia. }
    subst l. exists st'. rewrite E1. do 2 f_equal. inversion Hk as [|i0 l0 k ks K1 K2 F1 F2|i0 l0 ks K1 K2 F1 F2]; subst.
    - inversion K2; subst. rewrite Hpk in K1. injection K1 as <-. reflexivity.
    - rewrite Hpk in K1. discriminate.
  Qed.

  (** how a participant ends that settles one complaint convicting i *)
  Lemma ends_without m params parties ps q st comms es r s2 cs r' c i pk (keep : list Party) :
    honest_parties params parties -> listed_all params parties ps -> y_st q = R1 st -> records params (y_index q) (y_x q) ps st ->
    ds_comms st = Some comms -> NoDup (bkeys comms) -> u32v (p_n (ds_params st)) = u32v (p_n params) ->
    (forall j v, bget j comms = Some v <-> exists d, In d ps /\ pt_index d = j /\ pt_comm d = Some v) ->
    (forall e, In e es -> exists z, In z parties /\ es_sender e = y_index z /\ es_receiver e = y_index q) ->
    (forall z, In z parties -> exists e, In e es /\ es_sender e = y_index z) ->
    to_round_two m (R1 st) es r = Ok (s2, cs, r') -> (cs = [] \/ cs = [c] /\ (u32v (accused c) <= u32v (p_n params))%N) ->
    (forall j, convicted st [c] j <-> j = i) -> bget i (ds_dhs st) = Some pk ->
    NoDup keep -> (forall z, In z keep <-> In z parties /\ y_index z <> i) ->
    (forall z, In z keep -> In (y_d z) ps) ->
    exists s3 sk, blame s2 [c] = Ok ([pk], s3) /\ finish s3 = Ok ((gen * interp0 (dealt_values keep F0))%G, sk) /\ sk_index sk = y_index q.
  Proof.
    intros H [P1 P2 P3] Est R Hc Hnd Hpn Hcm Hin Hcov E2 Hcs Hcv Hpk Hnk Hkeep Hgen.
    assert (Hnp : NoDup (map pt_index ps)) by (eapply Permutation_NoDup; [apply Permutation_sym, P1|apply H]).
    assert (Hkeys : forall j, In j (bkeys comms) <-> exists z, In z parties /\ y_index z = j).
    { intros j. split.
      - intros Hj. apply bget_key_some in Hj. destruct Hj as [v Hj]. apply Hcm in Hj. destruct Hj as (d & A & B & _).
        assert (X : In j (map y_index parties)) by (rewrite <- B; eapply Permutation_in; [exact P1|apply in_map, A]).
        apply in_map_iff in X. destruct X as (z & X1 & X2). eauto.
      - intros (z & A & B). destruct (P3 z A) as (d & D1 & D2 & _). destruct (P2 d D1) as (_ & (v & _ & _ & _ & V & _) & _).
        eapply bget_some_key, Hcm. exists d. split; [exact D1|]. split; [congruence|exact V]. }
    assert (Hgood : good_indices (bkeys comms)).
    { split; [exact Hnd|]. intros Hz. apply Hkeys in Hz. destruct Hz as (p & A & B). apply (proj2 (hp_indices _ _ H)). rewrite <- B. apply in_map, A. }
    set (h := MkFollower st es r s2 cs r' [c]).
    assert (HF : follows m (ds_params st) (ds_dhs st) comms h).
    { split; cbn [h h_st h_es h_r h_s2 h_cs h_r']; auto.
      - intros e He. destruct (Hin e He) as (z & A & B & C). rewrite (rec_index _ _ _ _ _ R), Hkeys. split; [exact C|]. exists z. auto.
      - intros j Hj. apply Hkeys in Hj. destruct Hj as (z & A & <-). apply Hcov, A. }
    destruct (C61_followers_agree_and_hold_keys S L m (ds_params st) (ds_dhs st) comms [h] [c] Hgood) as (keys & comms' & gk & K1 & K2 & K3 & _).
    { intros h0 c0 [<-|[]] Hc0. cbn [h h_cs] in Hc0. rewrite Hpn. destruct Hcs as [->|[-> B]]; [destruct Hc0|]. destruct Hc0 as [<-|[]]. exact B. }
    { intros j v Hj. apply Hcm in Hj. destruct Hj as (d & A & _ & B). destruct (P2 d A) as (_ & (v' & P & rs & _ & V & W & _) & _). congruence. }
    { intros h0 [<-|[]]. exact HF. }
    { intros h0 [<-|[]]. split; [reflexivity|]. cbn [h h_cs]. destruct Hcs as [->|[-> B]]; [intros c0 []|auto]. }
    destruct (K3 h (or_introl eq_refl)) as (sk & (s3 & B1 & _ & B3 & B4) & _). cbn [h h_s2 h_settles h_st] in B1, B4.
    specialize (K2 h (or_introl eq_refl)). cbn [h h_st] in K2.
    assert (Egk : gk = (gen * interp0 (dealt_values keep F0))%G).
    { eapply (first_points_parties parties keep comms' gk).
      - apply (hp_indices _ _ H).
      - intros p Hp Eco. destruct (honest_fresh params parties p H Hp) as [_ _ Hlen _ _ _]. rewrite Eco in Hlen. cbn in Hlen.
        destruct (hp_threshold _ _ H). lia.
      - exact Hnk.
      - intros p Hp. apply Hkeep, Hp.
      - eapply without_nodup; eassumption.
      - intros j v. rewrite (without_in _ _ _ K2), Hcv. split.
        + intros [A B]. apply in_bget in A; [|exact Hnd]. pose proof A as A'. apply Hcm in A. destruct A as (d & A1 & A2 & A3).
          destruct (proj1 (Hkeys j)) as (z & Z1 & Z2); [eapply bget_some_key, A'|].
          assert (Hz : In z keep) by (apply Hkeep; split; [exact Z1|congruence]).
          destruct (honest_fresh params parties z H Z1) as [F1 _ _ F4 _ _].
          assert (Ed : d = y_d z).
          { assert (U : forall l (a b : Participant), NoDup (map pt_index l) -> In a l -> In b l -> pt_index a = pt_index b -> a = b).
            { clear. intros l. induction l as [|x l IH]; intros a b Hn Ha Hb E; [contradiction|]. cbn [map] in Hn.
              apply NoDup_cons_iff in Hn. destruct Hn as [N1 N2]. destruct Ha as [<-|Ha], Hb as [<-|Hb]; auto.
              - destruct N1. rewrite E. apply in_map, Hb.
              - destruct N1. rewrite <- E. apply in_map, Ha. }
            apply (U ps); auto. congruence. }
          subst d. exists z. split; [exact Hz|]. split; [congruence|]. rewrite F4 in A3. injection A3 as <-. congruence.
        + intros (z & A & -> & ->). pose proof A as Az. apply Hkeep in A. destruct A as [A B]. split; [|exact B].
          destruct (honest_fresh params parties z H A) as [F1 _ _ F4 _ _]. apply bget_in, Hcm. exists (y_d z). auto.
      - exact K1. }
    destruct (to_round_two_inv m st comms es r s2 cs r' Hc Hnd E2) as (_ & _ & Es2).
    destruct (round_two_state_spec st es) as [A1 A2 A3 A4 A5 A6 A7 (shares & A8 & _)].
    assert (Hcv2 : forall j, convicted (round_two_state st es) [c] j <-> j = i).
    { intros j. rewrite <- (Hcv j). unfold convicted, convicts, upheld, registered. rewrite A1, A5, A6. reflexivity. }
    destruct (blame_single (round_two_state st es) comms shares c i pk) as (st' & Eb); try assumption.
    exists s3, sk. rewrite <- Egk. split; [|split; [exact B3|rewrite B4; apply (rec_index _ _ _ _ _ R)]].
    rewrite Es2 in B1 |- *. rewrite Eb in B1 |- *. injection B1 as _ <-. reflexivity.
  Qed.

  Lemma party_eq params parties p z : honest_parties params parties -> In p parties -> In z parties -> y_index p = y_index z -> p = z.
  Proof.
    intros H Hp Hz E. pose proof (proj1 (hp_indices _ _ H)) as I. clear H. revert I Hp Hz. induction parties as [|a l IH]; intros I Hp Hz; [contradiction|].
    cbn [map] in I. apply NoDup_cons_iff in I. destruct I as [I1 I2].
    destruct Hz as [->|Hz], Hp as [->|Hp]; auto.
    - destruct I1. rewrite <- E. apply in_map, Hp.
    - destruct I1. rewrite E. apply in_map, Hz.
  Qed.
  Lemma genuine_list params parties ps : honest_parties params parties -> Permutation ps (map y_d parties) -> listed_all params parties ps.
  Proof.
    intros H HP. assert (Hs : forall d, In d ps <-> exists z, In z parties /\ d = y_d z).
    { intros d. split.
      - intros X. apply (Permutation_in _ HP) in X. apply in_map_iff in X. destruct X as (z & <- & X). eauto.
      - intros (z & X & ->). eapply Permutation_in; [apply Permutation_sym, HP|]. apply in_map, X. }
    split.
    - eapply perm_trans; [apply Permutation_map, HP|]. rewrite (honest_indices params parties H). apply Permutation_refl.
    - intros d Hd. apply Hs in Hd. destruct Hd as (z & Hz & ->). eapply fresh_ok; [apply H|apply (honest_fresh params parties z H Hz)].
    - intros z Hz. exists (y_d z). split; [apply Hs; eauto|]. destruct (honest_fresh params parties z H Hz) as [F1 F2 _ _ _ _]. auto.
  Qed.
  Lemma altered_list params parties p others ps tail : honest_parties params parties -> Permutation parties (p :: others) ->
    Permutation ps (altered (y_d p) tail :: map y_d others) -> N.of_nat (Datatypes.S (length tail)) = u32v (p_t params) ->
    listed_all params parties ps.
  Proof.
    intros H HPp HP Hl. assert (Hs : forall d, In d ps <-> d = altered (y_d p) tail \/ exists z, In z others /\ d = y_d z).
    { intros d. split.
      - intros X. apply (Permutation_in _ HP) in X. destruct X as [<-|X]; [left; reflexivity|]. apply in_map_iff in X. destruct X as (z & <- & X). eauto.
      - intros X. eapply Permutation_in; [apply Permutation_sym, HP|]. destruct X as [->|(z & X & ->)]; [left; reflexivity|right; apply in_map, X]. }
    assert (Hz : forall z, In z parties <-> z = p \/ In z others).
    { intros z. split; intros X.
      - apply (Permutation_in _ HPp) in X. destruct X as [<-|X]; auto.
      - eapply Permutation_in; [apply Permutation_sym, HPp|]. destruct X as [->|X]; [left; reflexivity|right; exact X]. }
    assert (Hp : In p parties) by (apply Hz; auto).
    destruct (honest_fresh params parties p H Hp) as [F1 F2 F3 F4 F5 (pr & a0 & F6 & F7 & F8)].
    split.
    - eapply perm_trans; [apply Permutation_map, HP|]. eapply perm_trans; [|apply Permutation_map, Permutation_sym, HPp].
      cbn [map]. unfold altered at 1. cbn [pt_index]. rewrite F1. apply perm_skip. rewrite map_map.
      erewrite map_ext_in; [apply Permutation_refl|]. intros z X. cbn. apply (honest_fresh params parties z H (proj2 (Hz z) (or_intror X))).
    - intros d Hd. apply Hs in Hd. destruct Hd as [->|(z & X & ->)].
      + unfold altered. rewrite F4. cbn [option_map vss_index vss_points].
        destruct (y_co p) as [|a co] eqn:Eco; [discriminate F7|]. cbn [committed map].
        apply (C121_the_proofs_cover_the_first_point_only S L (p_t params) (y_d p) (MkVss (y_index p) (committed (y_co p)))
                 (gen * a)%G (map (fun c => (gen * c)%G) co) tail (y_index p)).
        * rewrite Eco. exact F4.
        * rewrite Eco. reflexivity.
        * rewrite map_length. cbn [length] in F3. lia.
        * eapply fresh_ok; [apply H|apply (honest_fresh params parties p H Hp)].
      + eapply fresh_ok; [apply H|apply (honest_fresh params parties z H (proj2 (Hz z) (or_intror X)))].
    - intros z X. apply Hz in X. destruct X as [->|X].
      + exists (altered (y_d p) tail). split; [apply Hs; auto|]. unfold altered. cbn [pt_index pt_dh_pk]. auto.
      + exists (y_d z). split; [apply Hs; eauto|]. destruct (honest_fresh params parties z H (proj2 (Hz z) (or_intror X))) as [G1 G2 _ _ _ _]. auto.
  Qed.
End Tamper.

(** the altered list passes round one, nobody is reported *)
Theorem C122_an_altered_commitment_is_accepted :
  forall (S : Suite) (L : SuiteLaws S) (m : build) (params : Params) (parties others : list Party) (p q : Party) (tail : list G)
    (ps : list Participant) (r : Rng),
  honest_parties params parties -> Permutation parties (p :: others) -> In q parties ->
  Permutation ps (altered (y_d p) tail :: map y_d others) -> N.of_nat (Datatypes.S (length tail)) = u32v (p_t params) ->
  exists st r', bootstrap m params (y_x q) (y_index q) (y_co q) ps r = Ok (st, MkPList ps None, r').
Proof.
  intros S L m params parties others p q tail ps r H HPp Hq HP Hl.
  destruct (altered_list params parties p others ps tail H HPp HP Hl) as [P1 P2 P3].
  assert (Hlen : length ps = length parties) by (apply Permutation_length in P1; rewrite !map_length in P1; exact P1).
  destruct (all_pass m params (y_x q) (y_index q) (y_co q) ps r) as (st & es & comms & r1 & E1 & _); eauto.
  - rewrite Hlen. apply H.
  - eapply Permutation_NoDup; [apply Permutation_sym, P1|apply H].
  - apply H.
Qed.
Print Assumptions C122_an_altered_commitment_is_accepted.

(** q received the entry of p with altered points; everybody else the genuine list. All behave honestly. *)
Theorem C122_the_receiver_is_convicted :
  forall (S : Suite) (L : SuiteLaws S) (m : build) (params : Params) (parties rest : list Party) (p q : Party) (tail : list G)
    (psq : list Participant) (senders : list Party) (es : list EncShare) (r : Rng),
  honest_parties params parties -> Permutation parties (p :: q :: rest) ->
  (forall z, In z (p :: rest) -> exists ps, Permutation ps (map y_d parties) /\ bootstrapped m params ps z) ->
  Permutation psq (altered (y_d p) tail :: map y_d (q :: rest)) -> N.of_nat (Datatypes.S (length tail)) = u32v (p_t params) ->
  bootstrapped m params psq q ->
  Permutation senders parties -> delivered senders q es ->
  let fits := gpoly_value ((gen * hd F0 (y_co p))%G :: tail) (of_u32 (y_index q)) = (gen * poly_value (y_co p) (of_u32 (y_index q)))%G in
  (fits -> exists s2 r', to_round_two m (y_st q) es r = Ok (s2, [], r')) /\
  (~ fits -> (u32v (p_t params) < u32v (p_n params))%N ->
   exists s2 c r', to_round_two m (y_st q) es r = Ok (s2, [c], r') /\ accused c = y_index p /\ maker c = y_index q /\
     (* the victim removes the dealer *)
     ((u32v (y_index p) <= u32v (p_n params))%N ->
      exists s3 sk, blame s2 [c] = Ok ([(gen * y_x p)%G], s3) /\
        finish s3 = Ok ((gen * interp0 (dealt_values (q :: rest) F0))%G, sk) /\ sk_index sk = y_index q) /\
     (* everybody else removes the victim *)
     forall w sendersw esw rw, In w (p :: rest) -> Permutation sendersw parties -> delivered sendersw w esw ->
      exists s2w rw' s3w skw, to_round_two m (y_st w) esw rw = Ok (s2w, [], rw') /\
        blame s2w [c] = Ok ([(gen * y_x q)%G], s3w) /\
        finish s3w = Ok ((gen * interp0 (dealt_values (p :: rest) F0))%G, skw) /\ sk_index skw = y_index w).
Proof.
  intros S L m params parties rest p q tail psq senders es r H HPp HBo HPq Hl HBq HP HD fits.
  pose proof (altered_list params parties p (q :: rest) psq tail H HPp HPq Hl) as LAq.
  assert (Hz : forall z, In z parties <-> z = p \/ z = q \/ In z rest).
  { intros z. split; intros X.
    - apply (Permutation_in _ HPp) in X. destruct X as [<-|[<-|X]]; auto.
    - eapply Permutation_in; [apply Permutation_sym, HPp|]. destruct X as [->|[->|X]]; cbn; auto. }
  assert (Hp : In p parties) by (apply Hz; auto). assert (Hq : In q parties) by (apply Hz; auto).
  assert (Hndp : NoDup (map y_index (p :: q :: rest))).
  { eapply Permutation_NoDup; [apply Permutation_map, HPp|apply H]. }
  cbn [map] in Hndp. apply NoDup_cons_iff in Hndp. destruct Hndp as [Np Hndp]. apply NoDup_cons_iff in Hndp. destruct Hndp as [Nq Hndr].
  assert (Npq : y_index p <> y_index q) by (intros X; apply Np; left; symmetry; exact X).
  assert (Nrp : forall z, In z rest -> y_index z <> y_index p) by (intros z X E; apply Np; right; rewrite <- E; apply in_map, X).
  assert (Nrq : forall z, In z rest -> y_index z <> y_index q) by (intros z X E; apply Nq; rewrite <- E; apply in_map, X).
  assert (Hnr : NoDup rest) by (eapply NoDup_map_inv, Hndr).
  assert (HB : forall z, In z parties -> exists ps, listed_all params parties ps /\ bootstrapped m params ps z).
  { intros z X. apply Hz in X. destruct X as [->|[->|X]].
    - destruct (HBo p (or_introl eq_refl)) as (ps & A & B). exists ps. split; [apply genuine_list; assumption|exact B].
    - exists psq. split; [exact LAq|exact HBq].
    - destruct (HBo z (or_intror X)) as (ps & A & B). exists ps. split; [apply genuine_list; assumption|exact B]. }
  destruct (party_state m params parties psq q H LAq HBq) as (st & comms & Est & R & Hc & Hnd & Hpn & Hcm & Hdh & _).
  destruct (arrives m params parties q senders es H Hq HB HP HD) as (Q1 & Q2 & Q3 & Q4).
  destruct (honest_fresh params parties p H Hp) as [F1 F2 F3 F4 F5 F6].
  set (co := y_co p) in *. set (cp := MkVss (y_index p) ((gen * hd F0 co)%G :: tail)).
  assert (Eal : pt_comm (altered (y_d p) tail) = Some cp).
  { unfold altered. cbn [pt_comm]. rewrite F4. cbn [option_map vss_index vss_points]. unfold cp. destruct co as [|a l]; [|reflexivity].
    cbn [length] in F3. destruct (hp_threshold _ _ H). lia. }
  assert (Hcp : bget (y_index p) comms = Some cp).
  { apply Hcm. exists (altered (y_d p) tail). split; [eapply Permutation_in; [apply Permutation_sym, HPq|left; reflexivity]|].
    split; [exact F1|exact Eal]. }
  assert (Hcz : forall z, In z (q :: rest) -> bget (y_index z) comms = Some (MkVss (y_index z) (committed (y_co z)))).
  { intros z X. assert (Xz : In z parties) by (apply Hz; destruct X as [<-|X]; auto).
    destruct (honest_fresh params parties z H Xz) as [G1 _ _ G4 _ _]. apply Hcm. exists (y_d z).
    split; [eapply Permutation_in; [apply Permutation_sym, HPq|right; apply in_map, X]|]. auto. }
  assert (Hac : Forall (acceptable m st) es).
  { apply Forall_forall. intros e He. destruct (Q1 e He) as (z & Z1 & Z2 & Z3 & _).
    split; [intros _; rewrite (rec_index _ _ _ _ _ R); exact Z3|]. exists (gen * y_x z)%G. rewrite Z2. apply Hdh, Z1. }
  assert (Hgood : forall e, In e es -> es_sender e <> y_index p -> ~ bad_for st e).
  { intros e He Hne (c0 & com & A1 & A2 & A3). apply A3. assert (c0 = comms) by congruence. subst c0.
    destruct (Q1 e He) as (z & Z1 & Z2 & Z3 & Z4). assert (Hzr : In z (q :: rest)).
    { apply Hz in Z1. destruct Z1 as [->|[->|Z1]]; [contradiction|left; reflexivity|right; exact Z1]. }
    rewrite Z2, (Hcz z Hzr) in A2. injection A2 as <-. exists (poly_value (y_co z) (of_u32 (y_index q))). split.
    - exists (gen * y_x z)%G. rewrite Z2, Z3, (rec_sk _ _ _ _ _ R). split; [apply Hdh, Z1|exact Z4].
    - unfold on_commitment. cbn [vss_points]. rewrite gpoly_committed, Z3. reflexivity. }
  assert (Hbad : forall e, In e es -> es_sender e = y_index p -> (bad_for st e <-> ~ fits)).
  { intros e He Hs. destruct (Q1 e He) as (z & Z1 & Z2 & Z3 & Z4).
    assert (z = p) by (eapply party_eq; eauto; congruence). subst z. split.
    - intros (c0 & com & A1 & A2 & A3) Hf. apply A3. assert (c0 = comms) by congruence. subst c0. rewrite Hs, Hcp in A2. injection A2 as <-.
      exists (poly_value co (of_u32 (y_index q))). split.
      + exists (gen * y_x p)%G. rewrite Z2, Z3, (rec_sk _ _ _ _ _ R). split; [apply Hdh, Hp|exact Z4].
      + unfold on_commitment, cp. cbn [vss_points]. rewrite Z3. symmetry. exact Hf.
    - intros Hf. exists comms, cp. split; [exact Hc|]. split; [rewrite Hs; exact Hcp|]. intros (v & (pk & O1 & O2) & O3). apply Hf.
      rewrite Hs, Hdh in O1 by exact Hp. injection O1 as <-. rewrite (rec_sk _ _ _ _ _ R), Z4 in O2. injection O2 as _ _ <-.
      unfold on_commitment, cp in O3. cbn [vss_points] in O3. rewrite Z3 in O3. symmetry. exact O3. }
  destruct (Q2 p Hp) as (e & He & Hs). apply in_split in He. destruct He as (l1 & l2 & ->).
  assert (Hoth : forall x, In x (l1 ++ l2) -> es_sender x <> y_index p).
  { intros x Hx E. rewrite map_app in Q4. cbn [map] in Q4. apply NoDup_remove_2 in Q4. apply Q4. rewrite Hs, <- E, <- map_app. apply in_map, Hx. }
  assert (Hall : forall x, In x (l1 ++ l2) -> In x (l1 ++ e :: l2)).
  { intros x Hx. apply in_app_or in Hx. apply in_or_app. cbn. tauto. }
  assert (Hein : In e (l1 ++ e :: l2)) by apply in_elt.
  destruct (hp_threshold _ _ H) as [T1 T2].
  destruct (to_round_two_done m st comms (l1 ++ e :: l2) r Hc Hnd) as (cs & r' & HL & E).
  { rewrite (rec_t _ _ _ _ _ R), Q3. rewrite (hp_count _ _ H). exact T2. }
  { exact Hac. }
  rewrite Est. rewrite Hpn, (rec_t _ _ _ _ _ R) in E. split.
  - intros Hf. assert (cs = []).
    { assert (K : forall l cs, complaint_list st l cs -> (forall x, In x l -> ~ bad_for st x) -> cs = []).
      { induction 1 as [|x l c0 cs' B C HL' IH|x l cs' B HL' IH]; intros K; [reflexivity| |].
        - destruct (K x (or_introl eq_refl) B).
        - apply IH. intros y Hy. apply K. right; exact Hy. }
      apply (K _ _ HL). intros x Hx. destruct (u32_eq_dec (es_sender x) (y_index p)) as [Ex|Ex].
      - intros B. apply (Hbad x Hx Ex) in B. contradiction.
      - apply Hgood; assumption. }
    subst cs. rewrite E. unfold remaining. cbn [length]. rewrite (proj2 (N.ltb_ge _ _)) by (change (N.of_nat 0 mod 4294967296)%N with 0%N; lia).
    change (N.of_nat 0 mod 4294967296)%N with 0%N.
    replace (u32v (p_n params) - 0 <? u32v (p_t params))%N with false by (symmetry; apply N.ltb_ge; lia). eauto.
  - intros Hf Hlt.
    destruct (complaint_list_one st l1 e l2 cs HL (proj2 (Hbad e Hein Hs) Hf) (fun x Hx => Hgood x (Hall x Hx) (Hoth x Hx))) as (c & -> & C1 & C2 & pk & C3 & C4 & C5).
    destruct (Q1 e Hein) as (z & Z1 & Z2 & Z3 & Z4). assert (z = p) by (eapply party_eq; eauto; congruence). subst z.
    rewrite Hs, Hdh in C3 by exact Hp. injection C3 as <-. rewrite (rec_sk _ _ _ _ _ R) in C4.
    assert (Hacc : accused c = y_index p) by (unfold accused; rewrite C1; exact Hs).
    assert (Hmk : maker c = y_index q) by (unfold maker; rewrite C1; exact Z3).
    cbn [length] in E. unfold remaining in E. change (N.of_nat 1 mod 4294967296)%N with 1%N in E.
    replace (u32v (p_n params) <? 1)%N with false in E by (symmetry; apply N.ltb_ge; lia).
    replace (u32v (p_n params) - 1 <? u32v (p_t params))%N with false in E by (symmetry; apply N.ltb_ge; lia).
    eexists _, c, r'. split; [exact E|]. split; [exact Hacc|]. split; [exact Hmk|].
    assert (Hzero : accused c <> u32_zero).
    { rewrite Hacc. intros X. apply (proj2 (hp_indices _ _ H)). rewrite <- X. apply in_map, Hp. }
    split.
    + intros Hle.
      assert (U : upheld st c).
      { split; [exact Hzero|]. split; [rewrite Hacc, Hpn; exact Hle|]. exists comms, cp, (gen * y_x p)%G. rewrite Hacc, Hmk.
        split; [exact Hc|]. split; [exact Hcp|]. split; [left; apply Hdh, Hp|]. split; [exact C5|].
        intros (v & V1 & V2). apply Hf. rewrite C1, C4, Z4 in V1. injection V1 as <-. unfold on_commitment, cp in V2. cbn [vss_points] in V2. symmetry. exact V2. }
      apply (ends_without m params parties psq q st comms (l1 ++ e :: l2) r (R2 (round_two_state st (l1 ++ e :: l2))) [c] r' c (y_index p) _ (q :: rest)); auto.
      * intros x Hx. destruct (Q1 x Hx) as (z & X1 & X2 & X3 & _). eauto.
      * right. split; [reflexivity|]. rewrite Hacc. exact Hle.
      * intros j. unfold convicted, convicts. split.
        -- intros (c0 & [<-|[]] & [[_ ->]|[N _]]); [exact Hacc|contradiction].
        -- intros ->. exists c. split; [left; reflexivity|]. left. auto.
      * constructor; [|exact Hnr]. intros X. apply Nq, in_map, X.
      * intros z. rewrite Hz. cbn [In]. split.
        -- intros [<-|X]; [split; [auto|congruence]|]. split; [auto|]. apply Nrp, X.
        -- intros [[->|[->|X]] N]; [contradiction|auto|auto].
      * intros z X. eapply Permutation_in; [apply Permutation_sym, HPq|]. right. apply in_map, X.
    + intros w sendersw esw rw Hw HPw HDw.
      assert (Hwp : In w parties) by (apply Hz; destruct Hw as [<-|Hw]; auto).
      destruct (HBo w Hw) as (psw & PSw & BSw). pose proof (genuine_list params parties psw H PSw) as LAw.
      destruct (party_state m params parties psw w H LAw BSw) as (stw & commsw & Estw & Rw & Hcw & Hndw & Hpnw & Hcmw & Hdhw & _).
      destruct (arrives m params parties w sendersw esw H Hwp HB HPw HDw) as (W1 & W2 & W3 & W4).
      assert (Hczw : forall z, In z parties -> bget (y_index z) commsw = Some (MkVss (y_index z) (committed (y_co z)))).
      { intros z X. destruct (honest_fresh params parties z H X) as [G1 _ _ G4 _ _]. apply Hcmw. exists (y_d z).
        split; [eapply Permutation_in; [apply Permutation_sym, PSw|apply in_map, X]|]. auto. }
      destruct (to_round_two_done m stw commsw esw rw Hcw Hndw) as (csw & rw' & HLw & Ew).
      { rewrite (rec_t _ _ _ _ _ Rw), W3. rewrite (hp_count _ _ H). exact T2. }
      { apply Forall_forall. intros x Hx. destruct (W1 x Hx) as (z & X1 & X2 & X3 & _).
        split; [intros _; rewrite (rec_index _ _ _ _ _ Rw); exact X3|]. exists (gen * y_x z)%G. rewrite X2. apply Hdhw, X1. }
      assert (csw = []).
      { assert (K : forall l cs, complaint_list stw l cs -> (forall x, In x l -> ~ bad_for stw x) -> cs = []).
        { induction 1 as [|x l c0 cs' B C HL' IH|x l cs' B HL' IH]; intros K; [reflexivity| |].
          - destruct (K x (or_introl eq_refl) B).
          - apply IH. intros y Hy. apply K. right; exact Hy. }
        apply (K _ _ HLw). intros x Hx (c0 & com & A1 & A2 & A3). apply A3. assert (c0 = commsw) by congruence. subst c0.
        destruct (W1 x Hx) as (z & X1 & X2 & X3 & X4). rewrite X2, (Hczw z X1) in A2. injection A2 as <-.
        exists (poly_value (y_co z) (of_u32 (y_index w))). split.
        - exists (gen * y_x z)%G. rewrite X2, X3, (rec_sk _ _ _ _ _ Rw). split; [apply Hdhw, X1|exact X4].
        - unfold on_commitment. cbn [vss_points]. rewrite gpoly_committed, X3. reflexivity. }
      subst csw. rewrite Hpnw, (rec_t _ _ _ _ _ Rw) in Ew. unfold remaining in Ew. cbn [length] in Ew. change (N.of_nat 0 mod 4294967296)%N with 0%N in Ew.
      replace (u32v (p_n params) <? 0)%N with false in Ew by (symmetry; apply N.ltb_ge; lia).
      replace (u32v (p_n params) - 0 <? u32v (p_t params))%N with false in Ew by (symmetry; apply N.ltb_ge; lia).
      assert (U : ~ upheld stw c).
      { intros (_ & _ & cm & com & pk & A1 & A2 & A3 & A4 & A5). apply A5. assert (cm = commsw) by congruence. subst cm.
        rewrite Hacc, (Hczw p Hp) in A2. injection A2 as <-. exists (poly_value co (of_u32 (y_index q))). rewrite C1, C4, Z4, Hacc, Hmk.
        split; [reflexivity|]. unfold on_commitment. cbn [vss_points]. rewrite gpoly_committed. reflexivity. }
      destruct (ends_without m params parties psw w stw commsw esw rw (R2 (round_two_state stw esw)) [] rw' c (y_index q) (gen * y_x q)%G (p :: rest))
        as (s3 & sk & B1 & B2 & B3); auto.
      * intros x Hx. destruct (W1 x Hx) as (z & X1 & X2 & X3 & _). eauto.
      * intros j. unfold convicted, convicts. split.
        -- intros (c0 & [<-|[]] & [[X _]|[_ ->]]); [contradiction|exact Hmk].
        -- intros ->. exists c. split; [left; reflexivity|]. right. auto.
      * constructor; [|exact Hnr]. intros X. apply Np. right. apply in_map, X.
      * intros z. rewrite Hz. cbn [In]. split.
        -- intros [<-|X]; [split; [auto|congruence]|]. split; [auto|]. apply Nrq, X.
        -- intros [[->|[->|X]] N]; [auto|contradiction|auto].
      * intros z X. eapply Permutation_in; [apply Permutation_sym, PSw|]. apply in_map, Hz. destruct X as [<-|X]; auto.
      * rewrite Estw. eauto 10.
Qed.
Print Assumptions C122_the_receiver_is_convicted.

(** participant 2 received the entry of 1 with another second point *)
Definition tm_seed (i : N) : N := (10 * i * i)%N.
Definition tm_d (i : N) : Participant := dealer 3 2 i (tm_seed i).
Definition tm_genuine : list Participant := [tm_d 1; tm_d 2; tm_d 3].
Definition tm_list : list Participant := altered (tm_d 1) [mk 5] :: [tm_d 2; tm_d 3].
Definition tm_run (ps : list Participant) (i : N) : result (RoundOne * PartList * Rng) :=
  bootstrap Debug demo_params (dealer_x 3 2 i (tm_seed i)) (u i) (dealer_co 3 2 i (tm_seed i)) ps (1000 + i)%N.
Definition tm_party (ps : list Participant) (i : N) : Party :=
  MkParty (u i) (tm_d i) (dealer_co 3 2 i (tm_seed i)) (dealer_x 3 2 i (tm_seed i))
    (state_of (tm_run ps i)) (got [] (their_encrypted_secret_shares (state_of (tm_run ps i)))).
Definition tm_p : Party := tm_party tm_genuine 1.
Definition tm_q : Party := tm_party tm_list 2.
Definition tm_w : Party := tm_party tm_genuine 3.
Definition tm_parties : list Party := [tm_p; tm_q; tm_w].
Definition tm_share (j : N) (p : Party) : EncShare :=
  match bget (u j) (y_es p) with Some e => e | None => @MkEnc Toy (u 0) (u 0) (fst (gen_nonce 0%N)) [] end.
Definition tm_shares (j : N) : list EncShare := map (tm_share j) tm_parties.
Lemma tm_honest : honest_parties demo_params tm_parties.
Proof.
  constructor.
  - vmr.
  - split; vm_compute; discriminate.
  - good.
  - intros p [<-|[<-|[<-|[]]]]; unfold dealt_by.
    + exists (tm_seed 1), (let '(_, _, _, r) := dealer_run 3 2 1 (tm_seed 1) in r). vmr.
    + exists (tm_seed 2), (let '(_, _, _, r) := dealer_run 3 2 2 (tm_seed 2) in r). vmr.
    + exists (tm_seed 3), (let '(_, _, _, r) := dealer_run 3 2 3 (tm_seed 3) in r). vmr.
Qed.
Lemma tm_boot ps i : is_ok (tm_run ps i) && is_ok (their_encrypted_secret_shares (state_of (tm_run ps i))) = true ->
  bootstrapped Debug demo_params ps (tm_party ps i).
Proof.
  intros H. apply andb_prop in H. destruct H as [H1 H2]. unfold tm_party. generalize dependent (tm_d i). intros d.
  unfold bootstrapped. cbn [y_x y_index y_co y_st y_es]. fold (tm_run ps i) in *. exists (1000 + i)%N. fold (tm_run ps i).
  revert H1 H2. generalize (tm_run ps i) as x. intros x H1 H2. destruct x as [[[st l] r]| |]; try discriminate H1.
  exists l, r. split; [reflexivity|]. revert H2. change (state_of (Ok (st, l, r))) with st. generalize (their_encrypted_secret_shares st). intros y Hy.
  destruct y; [reflexivity|discriminate Hy|discriminate Hy].
Qed.
Lemma tm_boot_p : bootstrapped Debug demo_params tm_genuine tm_p. Proof. apply tm_boot. vmr. Qed.
Lemma tm_boot_q : bootstrapped Debug demo_params tm_list tm_q. Proof. apply tm_boot. vmr. Qed.
Lemma tm_boot_w : bootstrapped Debug demo_params tm_genuine tm_w. Proof. apply tm_boot. vmr. Qed.
Lemma tm_delivered j : In j [1; 2; 3]%N -> forall w, y_index w = u j -> delivered tm_parties w (tm_shares j).
Proof.
  intros Hj w Hw. unfold delivered, tm_shares, tm_parties. cbn [map]. rewrite Hw. clear w Hw.
  destruct Hj as [<-|[<-|[<-|[]]]]; repeat constructor; vmr.
Qed.
Lemma tm_differs : @Geqb Toy (gpoly_value ((@gen Toy * hd (@F0 Toy) (y_co tm_p))%G :: [mk 5]) (of_u32 (u 2)))
    (@gen Toy * poly_value (y_co tm_p) (of_u32 (u 2)))%G = false.
Proof. vmr. Qed.
Lemma Geqb_differ (S : Suite) (L : SuiteLaws S) (A B : G) : Geqb A B = false -> A <> B.
Proof. intros E ->. rewrite Geqb_refl in E. discriminate. Qed.
Example C122_ex :
  honest_parties demo_params tm_parties /\
  (forall z, In z [tm_p; tm_w] -> exists ps, Permutation ps (map y_d tm_parties) /\ bootstrapped Debug demo_params ps z) /\
  bootstrapped Debug demo_params tm_list tm_q /\ tm_list = altered (y_d tm_p) [mk 5] :: map y_d [tm_q; tm_w] /\
  delivered tm_parties tm_q (tm_shares 2) /\ delivered tm_parties tm_p (tm_shares 1) /\ delivered tm_parties tm_w (tm_shares 3) /\
  gpoly_value ((@gen Toy * hd (@F0 Toy) (y_co tm_p))%G :: [mk 5]) (of_u32 (u 2)) <> (@gen Toy * poly_value (y_co tm_p) (of_u32 (u 2)))%G /\
  @Feqb Toy (interp0 (dealt_values [tm_q; tm_w] (mk 0))) (interp0 (dealt_values [tm_p; tm_w] (mk 0))) = false.
Proof.
  split; [exact tm_honest|]. split.
  { intros z [<-|[<-|[]]]; exists tm_genuine; (split; [apply Permutation_refl|]); [exact tm_boot_p|exact tm_boot_w]. }
  split; [exact tm_boot_q|]. split; [reflexivity|].
  split; [apply tm_delivered; [cbn; auto|reflexivity]|]. split; [apply tm_delivered; [cbn; auto|reflexivity]|]. split; [apply tm_delivered; [cbn; auto|reflexivity]|].
  split; [exact (Geqb_differ Toy ToyLaws _ _ tm_differs)|vmr].
Qed.
(** 2 complains about 1; 2 then removes 1 while 1 and 3 remove 2 *)
Definition tm_two (j : N) := to_round_two (S := Toy) Debug (y_st (if N.eqb j 2 then tm_q else if N.eqb j 1 then tm_p else tm_w)) (tm_shares j) (500 + j)%N.
Definition tm_complaints : list Complaint := flat_map (fun j => got [] (let* (_, cs, _) := tm_two j in Ok cs)) [1; 2; 3]%N.
Definition tm_end (j : N) : result (list G * (G * SigningKey)) :=
  let* (s2, _, _) := tm_two j in let* (bad, s3) := blame (S := Toy) s2 tm_complaints in let* out := finish s3 in Ok (bad, out).
Example C122_ex_run :
  map accused tm_complaints = [u 1] /\ map maker tm_complaints = [u 2] /\
  (let* (bad, (gk, sk)) := tm_end 2 in Ok (bad, gk, sk_index sk)) =
    Ok ([(toy_gen * y_x tm_p)%G], (toy_gen * interp0 (dealt_values [tm_q; tm_w] (mk 0)))%G, u 2) /\
  (let* (bad, (gk, sk)) := tm_end 1 in Ok (bad, gk, sk_index sk)) =
    Ok ([(toy_gen * y_x tm_q)%G], (toy_gen * interp0 (dealt_values [tm_p; tm_w] (mk 0)))%G, u 1) /\
  (let* (bad, (gk, sk)) := tm_end 3 in Ok (bad, gk, sk_index sk)) =
    Ok ([(toy_gen * y_x tm_q)%G], (toy_gen * interp0 (dealt_values [tm_p; tm_w] (mk 0)))%G, u 3).
Proof. vms. Qed.
