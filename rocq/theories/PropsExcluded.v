(** C116: a participant excluded in round one still obtains a working signing key. *)
From Coq Require Import String Strings.Byte Arith NArith ZArith Bool List Lia Permutation.
From Verif Require Import Base Suite Spec SpecDkg SpecSign Types Algebra BaseLemmas ModelDkg ModelSign LemmasShare LemmasRound1
  LemmasRound2 LemmasFinish PropsRound1 PropsFinish PropsAgg Toy Demo DemoDkg DemoSign.
Import ListNotations.

Section Spec.
  Context {S : Suite}.
  (** the published list ps: the accepted entries are those of the dealers in [parties], who follow the protocol
      (each lists the others in its own order); the remaining entries fail a check of round one *)
  Record published_list (m : build) (params : Params) (ps : list Participant) (parties : list Party) : Prop := {
    ls_count : N.of_nat (length ps) = u32v (p_n params);
    ls_threshold : (1 <= u32v (p_t params) <= N.of_nat (length parties))%N;
    ls_indices : good_indices (map pt_index ps);
    ls_distinct : NoDup (map y_index parties);
    ls_dealt : forall p, In p parties -> In (y_d p) ps /\ dealt_by params p;
    ls_others : forall d, In d ps -> (exists p, In p parties /\ y_d p = d) \/ ~ ok_bootstrap (p_t params) d;
    ls_quiet : forall d, In d ps -> ~ crashing d;
    ls_began : forall p, In p parties -> exists ps', Permutation ps ps' /\ bootstrapped m params ps' p }.
  (** what the listed entry d with Diffie-Hellman secret y can do: run round one itself on the published list, pass
      the shares the dealers sent to its index to round two, and finish *)
  Definition obtains (m : build) (params : Params) (ps : list Participant) (parties : list Party)
      (d : Participant) (out : G * SigningKey) : Prop :=
    exists y co ps' r st lists r1 senders es r2 s2 r3,
      pt_dh_pk d = (gen * y)%G /\ Permutation ps ps' /\
      bootstrap m params y (pt_index d) co ps' r = Ok (st, lists, r1) /\
      Permutation senders parties /\ Forall2 (fun p e => bget (pt_index d) (y_es p) = Some e) senders es /\
      to_round_two m st es r2 = Ok (s2, [], r3) /\ finish s2 = Ok out.
End Spec.

Section Run.
  Context {S : Suite} {L : SuiteLaws S}.

  Lemma listed_fresh m params ps parties p : published_list m params ps parties -> In p parties ->
    fresh_dealer params (y_index p) (y_d p) (y_co p) (y_x p).
  Proof.
    intros H Hp. destruct (ls_dealt _ _ _ _ H p Hp) as (Hd & r & r' & E).
    eapply new_dealer_inv; [|apply (ls_threshold _ _ _ _ H)|exact E].
    intros Hz. rewrite Hz in E. discriminate E.
  Qed.
  Lemma listed_index m params ps parties p : published_list m params ps parties -> In p parties -> pt_index (y_d p) = y_index p.
  Proof. intros H Hp. apply (listed_fresh m params ps parties p H Hp). Qed.
  Lemma listed_accepted m params ps parties p : published_list m params ps parties -> In p parties -> ok_bootstrap (p_t params) (y_d p).
  Proof. intros H Hp. eapply fresh_ok; [apply (ls_threshold _ _ _ _ H)|]. apply (listed_fresh m params ps parties p H Hp). Qed.
  Lemma listed_nodup m params ps ps' parties : published_list m params ps parties -> Permutation ps ps' -> NoDup (map pt_index ps').
  Proof. intros H HP. eapply Permutation_NoDup; [apply Permutation_map, HP|apply H]. Qed.
  (** the accepted entries of any ordering are those of the dealers *)
  Lemma listed_valid m params ps ps' parties : published_list m params ps parties -> Permutation ps ps' ->
    Permutation (filter (okb true true (p_t params)) ps') (map y_d parties).
  Proof.
    intros H HP. assert (Hi : map pt_index (map y_d parties) = map y_index parties).
    { rewrite map_map. apply map_ext_in. intros p Hp. apply (listed_index m params ps parties p H Hp). }
    apply NoDup_Permutation.
    - apply NoDup_filter. eapply NoDup_map_inv, listed_nodup; eassumption.
    - eapply NoDup_map_inv. rewrite Hi. apply H.
    - intros d. rewrite filter_In, okb_bootstrap, in_map_iff. split.
      + intros [Hd Ho]. destruct (ls_others _ _ _ _ H d) as [(p & Hp & E)|N]; [|exists p; auto|contradiction].
        eapply Permutation_in; [apply Permutation_sym, HP|exact Hd].
      + intros (p & <- & Hp). split; [|apply (listed_accepted m params ps parties p H Hp)].
        eapply Permutation_in; [exact HP|]. apply (ls_dealt _ _ _ _ H p Hp).
  Qed.
  (** the dealers sent a share to every listed entry *)
  Lemma listed_share m params ps parties p d : published_list m params ps parties -> In p parties -> In d ps ->
    exists e, bget (pt_index d) (y_es p) = Some e /\ share_for (y_index p) (y_x p) (y_co p) d e.
  Proof.
    intros H Hp Hd. destruct (ls_began _ _ _ _ H p Hp) as (ps' & HP & r & lists & r' & E & Ee).
    assert (Hv := Permutation_length (listed_valid m params ps ps' parties H HP)). rewrite map_length in Hv.
    destruct (ns_success m params (y_x p) (y_index p) (Some (y_co p)) ps' true true r) as (st & r1 & E1 & _ & _ & _ & E2); eauto.
    { apply H. }
    { rewrite <- (Permutation_length HP). apply H. }
    { apply existsb_crash_false. intros q Hq. apply (ls_quiet _ _ _ _ H).
      eapply Permutation_in; [apply Permutation_sym, HP|exact Hq]. }
    { rewrite Hv. apply H. }
    unfold bootstrap in E. rewrite E in E1. injection E1 as Es _ _. cbn [negb andb] in E2. rewrite Es in Ee.
    destruct E2 as (cs & es & [= <-] & F1 & _ & _ & F2).
    unfold their_encrypted_secret_shares in Ee. cbn in Ee. rewrite F1 in Ee. injection Ee as <-.
    apply (F2 (pt_index d) d). apply last_with_distinct; [eapply listed_nodup; eassumption|].
    split; [eapply Permutation_in; eassumption|reflexivity].
  Qed.
  Definition line (p : Party) : u32 * F * list F := (y_index p, y_x p, y_co p).

  Lemma listed_run m params ps parties d y co ps' r : published_list m params ps parties -> In d ps -> pt_dh_pk d = (gen * y)%G ->
    Permutation ps ps' ->
    exists st valid mis r1, bootstrap m params y (pt_index d) co ps' r = Ok (st, MkPList valid (none_if_empty mis), r1) /\
      splits (ok_bootstrap (p_t params)) ps' valid mis /\
      forall senders es r2, Permutation senders parties -> Forall2 (fun p e => bget (pt_index d) (y_es p) = Some e) senders es ->
        exists s2 r3, to_round_two m st es r2 = Ok (s2, [], r3) /\
          finish s2 = Ok ((gen * interp0 (dealt_values parties F0))%G,
            MkSK (pt_index d) (interp0 (dealt_values parties (of_u32 (pt_index d))))).
  Proof.
    intros H Hd Hy HP. pose proof (listed_valid m params ps ps' parties H HP) as HV.
    pose proof (Permutation_length HV) as Hv. rewrite map_length in Hv.
    set (valid := filter (okb true true (p_t params)) ps') in *.
    assert (Hnv : NoDup (map pt_index valid)).
    { eapply Permutation_NoDup; [apply Permutation_map, Permutation_sym, HV|].
      rewrite map_map. rewrite (map_ext_in _ y_index); [apply H|]. intros p Hp. apply (listed_index m params ps parties p H Hp). }
    destruct (ns_success m params y (pt_index d) (Some co) ps' true true r) as (st & r1 & E1 & R & _ & C & _); eauto.
    { apply H. }
    { rewrite <- (Permutation_length HP). apply H. }
    { apply existsb_crash_false. intros q Hq. apply (ls_quiet _ _ _ _ H).
      eapply Permutation_in; [apply Permutation_sym, HP|exact Hq]. }
    { fold valid. rewrite Hv. apply H. }
    fold valid in E1, R, C. destruct C as (comms & C1 & C2 & C3).
    eexists (R1 st), valid, _, r1. split; [exact E1|]. split; [apply splits_filter; intros; apply okb_bootstrap|].
    intros senders es r2 HS HF.
    assert (Hin : forall p, In p parties -> In (y_d p) valid).
    { intros p Hp. eapply Permutation_in; [apply Permutation_sym, HV|]. apply in_map, Hp. }
    destruct (dealing_ok m st comms (map line parties) (map line senders) es r2) as (s2 & r3 & G1 & _ & G2).
    - rewrite map_map. split; [apply H|]. intros Hz. apply in_map_iff in Hz. destruct Hz as (p & Ez & Hp).
      destruct (ls_indices _ _ _ _ H) as [_ Hn]. apply Hn. rewrite <- Ez. cbn [line fst].
      rewrite <- (listed_index m params ps parties p H Hp). apply in_map, (ls_dealt _ _ _ _ H p Hp).
    - exact C1.
    - apply increasing_NoDup, C2.
    - intros j c. rewrite (C3 j c). split.
      + intros (q & Hl & Hc). apply last_with_distinct in Hl; [|exact Hnv]. destruct Hl as [Hq Hj].
        apply (Permutation_in _ HV) in Hq. apply in_map_iff in Hq. destruct Hq as (p & <- & Hp).
        exists (y_x p), (y_co p). pose proof (listed_fresh m params ps parties p H Hp) as Hf.
        rewrite (fd_comm _ _ _ _ _ Hf) in Hc. injection Hc as <-. rewrite (fd_index _ _ _ _ _ Hf) in Hj. subst j.
        split; [apply (in_map line), Hp|reflexivity].
      + intros (x & co' & Hp & ->). apply in_map_iff in Hp. destruct Hp as (p & [= <- <- <-] & Hp).
        exists (y_d p). pose proof (listed_fresh m params ps parties p H Hp) as Hf. split; [|apply Hf].
        apply last_with_distinct; [exact Hnv|]. split; [apply Hin, Hp|apply Hf].
    - intros j x co' Hp. apply in_map_iff in Hp. destruct Hp as (p & [= <- <- <-] & Hp).
      pose proof (listed_fresh m params ps parties p H Hp) as Hf. split.
      + intros E. pose proof (fd_len _ _ _ _ _ Hf) as Hl. rewrite E in Hl. cbn in Hl.
        destruct (ls_threshold _ _ _ _ H). lia.
      + apply (rec_dhs _ _ _ _ _ R). exists (y_d p). split; [|rewrite (fd_pk _ _ _ _ _ Hf); reflexivity].
        apply last_with_distinct; [exact Hnv|]. split; [apply Hin, Hp|apply Hf].
    - rewrite (rec_n _ _ _ _ _ R), (rec_t _ _ _ _ _ R), Hv. apply H.
    - rewrite (rec_t _ _ _ _ _ R), map_length. apply H.
    - apply Permutation_map, HS.
    - rewrite (rec_index _ _ _ _ _ R), (rec_sk _ _ _ _ _ R).
      assert (HS' : forall p, In p senders -> In p parties) by (intros p Hp; eapply Permutation_in; eassumption).
      clear HS G1 || clear HS. induction HF as [|p e senders es He HF IH]; cbn [map]; constructor.
      + cbn. destruct (listed_share m params ps parties p d H (HS' p (or_introl eq_refl)) Hd) as (e' & F1 & F2 & F3 & F4).
        rewrite He in F1. injection F1 as <-. repeat split; auto. rewrite <- F4, Hy. do 2 f_equal. apply dh_shared.
      + apply IH. intros p' Hp'. apply HS'. right; exact Hp'.
    - exists s2, r3. split; [exact G1|]. rewrite G2, (rec_index _ _ _ _ _ R), !map_map. reflexivity.
  Qed.

  (** keys at listed indices on the dealt polynomial *)
  Lemma dealt_recovers m params ps parties ks : published_list m params ps parties ->
    (forall k, In k ks -> sk_key k = interp0 (dealt_values parties (of_u32 (sk_index k)))) -> good_indices (map sk_index ks) ->
    recovers (N.to_nat (u32v (p_t params))) (interp0 (dealt_values parties F0)) ks.
  Proof.
    intros H Hk Hg. split; [exact Hg|]. intros sub Hs Hn Hl.
    set (comms := map (fun p => (y_index p, MkVss (y_index p) (committed (y_co p)))) parties).
    assert (E : forall x, dealt_point comms x = (gen * interp0 (dealt_values parties x))%G).
    { intros x. unfold dealt_point, comms. rewrite <- ginterp0_gen. unfold dealt_values. rewrite !map_map.
      cbn [fst snd vss_points]. f_equal. apply map_ext. intros p. rewrite gpoly_committed. reflexivity. }
    apply gen_inj. rewrite <- E. apply (keys_interpolate comms (N.to_nat (u32v (p_t params)))); auto.
    - intros j c Hjc. apply in_map_iff in Hjc. destruct Hjc as (p & [= <- <-] & Hp). cbn [vss_points].
      unfold committed. rewrite map_length. pose proof (fd_len _ _ _ _ _ (listed_fresh m params ps parties p H Hp)). lia.
    - intros k Hin. rewrite E. f_equal. apply Hk, Hs, Hin.
  Qed.
End Run.

(** every listed participant, excluded or not, ends with the same group key and a key on the dealt polynomial *)
Theorem C116_excluded_participants_obtain_keys :
  forall (S : Suite) (L : SuiteLaws S) (m : build) (params : Params) (ps : list Participant) (parties : list Party),
  published_list m params ps parties ->
  (* the excluded entry d, its owner knows the Diffie-Hellman secret y *)
  forall (d : Participant) (y : F), In d ps -> ~ ok_bootstrap (p_t params) d -> pt_dh_pk d = (gen * y)%G ->
  (forall p, In p parties -> exists e, bget (pt_index d) (y_es p) = Some e) /\
  forall (co : list F) (ps' : list Participant) (r : Rng), Permutation ps ps' ->
  exists st valid mis r1,
    bootstrap m params y (pt_index d) co ps' r = Ok (st, MkPList valid (Some mis), r1) /\
    In (pt_index d) mis /\ ~ In d valid /\
    forall senders es r2, Permutation senders parties -> Forall2 (fun p e => bget (pt_index d) (y_es p) = Some e) senders es ->
      exists s2 r3 sk, to_round_two m st es r2 = Ok (s2, [], r3) /\
        finish s2 = Ok ((gen * interp0 (dealt_values parties F0))%G, sk) /\
        sk_index sk = pt_index d /\ sk_key sk = interp0 (dealt_values parties (of_u32 (pt_index d))) /\
        forall cs, Permutation cs (map (fun p => MkVss (y_index p) (committed (y_co p))) parties) ->
          ivk_generate (pt_index d) cs = Ok (to_public sk).
Proof.
  intros S L m params ps parties H d y Hd Hn Hy. split.
  { intros p Hp. destruct (listed_share m params ps parties p d H Hp Hd) as (e & E & _). eauto. }
  intros co ps' r HP. destruct (listed_run m params ps parties d y co ps' r H Hd Hy HP) as (st & valid & mis & r1 & E & HS & K).
  assert (Hd' : In d ps') by (eapply Permutation_in; eassumption).
  assert (Hm : In (pt_index d) mis).
  { clear -HS Hn Hd'. induction HS as [|p ps v m Ho HS IH|p ps v m Ho HS IH]; [contradiction| |].
    - destruct Hd' as [->|Hd']; [contradiction|auto].
    - destruct Hd' as [->|Hd']; [left; reflexivity|right; auto]. }
  exists st, valid, mis, r1. split; [rewrite E; destruct mis; [contradiction|reflexivity]|]. split; [exact Hm|]. split.
  { intros Hv. apply (splits_valid _ _ _ _ HS) in Hv. apply Hn, Hv. }
  intros senders es r2 HP2 HF. destruct (K senders es r2 HP2 HF) as (s2 & r3 & E1 & E2).
  exists s2, r3, (MkSK (pt_index d) (interp0 (dealt_values parties (of_u32 (pt_index d))))).
  split; [exact E1|]. split; [exact E2|]. split; [reflexivity|]. split; [reflexivity|]. intros cs Hcs.
  assert (P : Permutation (map vss_index cs) (map y_index parties)).
  { apply (Permutation_map vss_index) in Hcs. rewrite map_map in Hcs. exact Hcs. }
  rewrite ivk_generate_ok.
  - unfold to_public. cbn [sk_index sk_key]. do 2 f_equal. unfold by_index. rewrite (dealt_point_perm _ _ _ (Permutation_map _ Hcs)).
    unfold dealt_point. rewrite <- ginterp0_gen. unfold dealt_values. rewrite !map_map. cbn [fst snd vss_points vss_index].
    f_equal. apply map_ext. intros p. rewrite gpoly_committed. reflexivity.
  - split; [eapply Permutation_NoDup; [apply Permutation_sym, P|apply H]|]. intros Hz.
    apply (Permutation_in _ P) in Hz. apply in_map_iff in Hz. destruct Hz as (p & Ez & Hp).
    destruct (ls_indices _ _ _ _ H) as [_ Hnz]. apply Hnz. rewrite <- Ez, <- (listed_index m params ps parties p H Hp).
    apply in_map, (ls_dealt _ _ _ _ H p Hp).
Qed.
Print Assumptions C116_excluded_participants_obtain_keys.

(** a key of a listed participant, accepted or excluded: what it obtained is determined *)
Lemma obtains_value (S : Suite) (L : SuiteLaws S) m params ps parties d gk sk : published_list m params ps parties -> In d ps ->
  obtains m params ps parties d (gk, sk) -> gk = (gen * interp0 (dealt_values parties F0))%G /\ sk_index sk = pt_index d /\
    sk_key sk = interp0 (dealt_values parties (of_u32 (sk_index sk))).
Proof.
  intros H Hd (y & co & ps' & r & st & lists & r1 & senders & es & r2 & s2 & r3 & Hy & HP & E1 & HS & HF & E2 & E3).
  destruct (listed_run m params ps parties d y co ps' r H Hd Hy HP) as (st' & valid & mis & r1' & F1 & _ & K).
  rewrite E1 in F1. injection F1 as <- _ _. destruct (K senders es r2 HS HF) as (s2' & r3' & F2 & F3).
  rewrite E2 in F2. injection F2 as <- _. rewrite E3 in F3. injection F3 as -> ->. auto.
Qed.

Lemma listed_obtains (S : Suite) (L : SuiteLaws S) m params ps parties d y (r : Rng) : published_list m params ps parties -> In d ps ->
  pt_dh_pk d = (gen * y)%G -> obtains m params ps parties d
    ((gen * interp0 (dealt_values parties F0))%G, MkSK (pt_index d) (interp0 (dealt_values parties (of_u32 (pt_index d))))).
Proof.
  intros H Hd Hy. destruct (listed_run m params ps parties d y [] ps r H Hd Hy (Permutation_refl _)) as (st & valid & mis & r1 & E & _ & K).
  assert (HF : exists es, Forall2 (fun p e => bget (pt_index d) (y_es p) = Some e) parties es).
  { assert (HS : forall p, In p parties -> exists e, bget (pt_index d) (y_es p) = Some e).
    { intros p Hp. destruct (listed_share m params ps parties p d H Hp Hd) as (e & A & _). eauto. }
    revert HS. generalize parties. intros l. induction l as [|p l IH]; intros HS; [exists []; constructor|].
    destruct IH as [es IH]; [intros p' Hp'; apply HS; right; exact Hp'|]. destruct (HS p (or_introl eq_refl)) as [e He].
    exists (e :: es). constructor; assumption. }
  destruct HF as [es HF]. destruct (K parties es r (Permutation_refl _) HF) as (s2 & r3 & K1 & K2).
  exists y, [], ps, r, st, (MkPList valid (none_if_empty mis)), r1, parties, es, r, s2, r3. auto 10.
Qed.

(** any t of them, all of them excluded if there are enough, reconstruct the secret and sign under the group key *)
Theorem C116_excluded_participants_sign :
  forall (S : Suite) (L : SuiteLaws S) (m : build) (params : Params) (ps : list Participant) (parties : list Party)
    (gk : G) (msg : list byte) (qs : list Cosigner),
  published_list m params ps parties ->
  (forall q, In q qs -> cosigner_ok q /\ exists d, In d ps /\ obtains m params ps parties d (gk, q_key q)) ->
  NoDup (map (fun q => sk_index (q_key q)) qs) -> (u32v (p_t params) <= N.of_nat (length qs))%N ->
  (gen * interp0 (key_points (map q_key qs)))%G = gk /\
  exists a1 pss, agg_run (agg_new params gk msg) (announce qs) a1 /\
    signed m (h4 msg) gk (ag_signers (ai_state a1)) qs pss /\
    forall ps', Permutation ps' pss -> exists a2 f sig, agg_run a1 (deliver ps') a2 /\ finalize a2 = Ok f /\
      aggregate f = Ok sig /\ verify_signature gk sig (h4 msg) = Ok tt.
Proof.
  intros S L m params ps parties gk msg qs H Hq Hnd Hl.
  assert (V : forall q, In q qs -> gk = (gen * interp0 (dealt_values parties F0))%G /\ In (sk_index (q_key q)) (map pt_index ps) /\
    sk_key (q_key q) = interp0 (dealt_values parties (of_u32 (sk_index (q_key q))))).
  { intros q Hin. destruct (Hq q Hin) as (_ & d & Hd & Ho).
    destruct (obtains_value S L m params ps parties d gk (q_key q) H Hd Ho) as (A & B & C). split; [exact A|]. split; [|exact C].
    rewrite B. apply in_map, Hd. }
  assert (Eg : gk = (gen * interp0 (dealt_values parties F0))%G).
  { destruct qs as [|q qs]; [cbn in Hl; destruct (ls_threshold _ _ _ _ H); lia|]. apply (V q (or_introl eq_refl)). }
  set (ks := map q_key qs).
  assert (Hg : good_indices (map sk_index ks)).
  { unfold ks. rewrite map_map. split; [exact Hnd|]. intros Hz. apply in_map_iff in Hz. destruct Hz as (q & Ez & Hin).
    apply (ls_indices _ _ _ _ H). change (In u32_zero (map pt_index ps)). rewrite <- Ez. apply (V q Hin). }
  assert (HR : recovers (N.to_nat (u32v (p_t params))) (interp0 (dealt_values parties F0)) ks).
  { apply (dealt_recovers m params ps parties ks H); [|exact Hg]. intros k Hk. unfold ks in Hk. apply in_map_iff in Hk.
    destruct Hk as (q & <- & Hin). apply (V q Hin). }
  split.
  { rewrite Eg. f_equal. apply HR; [auto|apply Hg|]. unfold ks. rewrite map_length. lia. }
  destruct (C43_honest_signers_produce_a_valid_signature S L m params msg _ _ ks qs HR) as (a1 & pss & A1 & A2 & A3).
  - destruct (ls_threshold _ _ _ _ H). lia.
  - lia.
  - rewrite <- (ls_count _ _ _ _ H). 
    assert (Hi : incl (map (fun q => sk_index (q_key q)) qs) (map pt_index ps)).
    { intros j Hj. apply in_map_iff in Hj. destruct Hj as (q & <- & Hin). apply (V q Hin). }
    pose proof (NoDup_incl_length Hnd Hi) as X. rewrite !map_length in X. lia.
  - intros q Hin. split; [apply in_map, Hin|apply (Hq q Hin)].
  - exact Hnd.
  - rewrite <- Eg in *. exists a1, pss. split; [exact A1|]. split; [exact A2|]. intros ps' HP.
    destruct (A3 ps' HP) as (a2 & f & sig & B1 & B2 & B3 & B4 & _). eauto 10.
Qed.
Print Assumptions C116_excluded_participants_sign.

(** the accepted ones end with the same group key, so the excluded one holds a share of the same secret *)
Theorem C116_accepted_participants_share_that_key :
  forall (S : Suite) (L : SuiteLaws S) (m : build) (params : Params) (ps : list Participant) (parties : list Party),
  published_list m params ps parties ->
  forall (q : Party) (senders : list Party) (es : list EncShare) (r : Rng),
  In q parties -> Permutation senders parties -> delivered senders q es ->
  exists s2 r' sk, to_round_two m (y_st q) es r = Ok (s2, [], r') /\
    finish s2 = Ok ((gen * interp0 (dealt_values parties F0))%G, sk) /\
    sk_index sk = y_index q /\ sk_key sk = interp0 (dealt_values parties (of_u32 (y_index q))).
Proof.
  intros S L m params ps parties H q senders es r Hq HS HD.
  destruct (ls_began _ _ _ _ H q Hq) as (ps' & HP & r0 & lists & r1 & E & _).
  pose proof (listed_fresh m params ps parties q H Hq) as Hf.
  destruct (listed_run m params ps parties (y_d q) (y_x q) (y_co q) ps' r0 H) as (st & valid & mis & r1' & F1 & _ & K).
  - apply (ls_dealt _ _ _ _ H q Hq).
  - apply Hf.
  - exact HP.
  - rewrite (fd_index _ _ _ _ _ Hf) in *. rewrite E in F1. injection F1 as -> _ _.
    destruct (K senders es r HS HD) as (s2 & r3 & G1 & G2). eauto 10.
Qed.
Print Assumptions C116_accepted_participants_share_that_key.

(** four published entries, threshold two; the fourth has no Diffie-Hellman proof and is excluded *)
Definition ex_params : Params := MkParams (u 4) (u 2).
Definition ex_out : Participant := without_dh_proof (dealer 4 2 4 40).
Definition ex_ps : list Participant := [dealer 4 2 1 10; ex_out; dealer 4 2 2 20; dealer 4 2 3 30].
Definition ex_r1 (i : N) : RoundOne :=
  fst (fst (got (R1 no_state, MkPList [] None, 0%N)
    (bootstrap Debug ex_params (dealer_x 4 2 i (10 * i)) (u i) (dealer_co 4 2 i (10 * i)) ex_ps (1000 + i)%N))).
Definition ex_party (i : N) : Party :=
  MkParty (u i) (dealer 4 2 i (10 * i)) (dealer_co 4 2 i (10 * i)) (dealer_x 4 2 i (10 * i))
    (ex_r1 i) (got [] (their_encrypted_secret_shares (ex_r1 i))).
Definition ex_parties : list Party := map ex_party [1; 2; 3]%N.
Definition ex_gk : G := (toy_gen * interp0 (dealt_values ex_parties (mk 0)))%G.
Definition ex_key (i : N) : SigningKey := MkSK (u i) (interp0 (dealt_values ex_parties (@of_u32 Toy (u i)))).

Lemma got_ok {A} (d : A) (x : result A) : is_ok x = true -> x = Ok (got d x).
Proof. destruct x; cbn; congruence. Qed.
Lemma ex_out_bad : ~ @ok_bootstrap Toy (u 2) ex_out.
Proof.
  intros X. assert (E : is_ok (nizk_verify (pt_dh_proof ex_out) (pt_index ex_out) (pt_dh_pk ex_out)) = false) by vmr.
  destruct X as [X _]. unfold dh_proof_ok in X. rewrite X in E. discriminate E.
Qed.
Lemma ex_began i : is_ok (bootstrap Debug ex_params (dealer_x 4 2 i (10 * i)) (u i) (dealer_co 4 2 i (10 * i)) ex_ps (1000 + i)%N) = true ->
  is_ok (their_encrypted_secret_shares (ex_r1 i)) = true -> bootstrapped Debug ex_params ex_ps (ex_party i).
Proof.
  intros H1 H2. apply (got_ok (R1 no_state, MkPList [] None, 0%N)) in H1. apply (got_ok []) in H2.
  exists (1000 + i)%N.
  exists (snd (fst (got (R1 no_state, MkPList [] None, 0%N)
    (bootstrap Debug ex_params (dealer_x 4 2 i (10 * i)) (u i) (dealer_co 4 2 i (10 * i)) ex_ps (1000 + i)%N)))).
  exists (snd (got (R1 no_state, MkPList [] None, 0%N)
    (bootstrap Debug ex_params (dealer_x 4 2 i (10 * i)) (u i) (dealer_co 4 2 i (10 * i)) ex_ps (1000 + i)%N))).
  cbn [y_x y_index y_co y_st y_es ex_party]. split; [|exact H2].
  rewrite H1 at 1. unfold ex_r1. destruct (got _ _) as [[a b] c]. reflexivity.
Qed.
Example C116_ex_list : published_list Debug ex_params ex_ps ex_parties.
Proof.
  constructor.
  - vmr.
  - split; vm_compute; discriminate.
  - good.
  - nodup.
  - intros p [<-|[<-|[<-|[]]]]; (split; [cbn; tauto|]); unfold dealt_by.
    + exists 10%N, (let '(_, _, _, r) := dealer_run 4 2 1 10 in r). vmr.
    + exists 20%N, (let '(_, _, _, r) := dealer_run 4 2 2 20 in r). vmr.
    + exists 30%N, (let '(_, _, _, r) := dealer_run 4 2 3 30 in r). vmr.
  - intros d [<-|[<-|[<-|[<-|[]]]]].
    + left. exists (ex_party 1). split; [left; reflexivity|reflexivity].
    + right. exact ex_out_bad.
    + left. exists (ex_party 2). split; [right; left; reflexivity|reflexivity].
    + left. exists (ex_party 3). split; [right; right; left; reflexivity|reflexivity].
  - intros d Hd X. apply crashb_iff in X. assert (E : existsb crashb ex_ps = false) by vmr.
    assert (Y : existsb crashb ex_ps = true) by (apply existsb_exists; exists d; auto). congruence.
  - intros p [<-|[<-|[<-|[]]]]; exists ex_ps; (split; [apply Permutation_refl|]); apply ex_began; vmr.
Qed.
(** the excluded participant finishes, with a key; its key and that of participant 1 interpolate to the group key *)
Definition ex_shares : list EncShare := shares_to 4 (map ex_r1 [1; 2; 3]%N).
Example C116_ex :
  (let* (st, lists, r1) := bootstrap Debug ex_params (dealer_x 4 2 4 40) (u 4) [] ex_ps 77%N in
   let* (s2, cs, _) := to_round_two Debug st ex_shares 7%N in
   let* (gk, sk) := finish s2 in Ok (pl_mis lists, length cs, gk, sk)) = Ok (Some [u 4], 0, ex_gk, ex_key 4) /\
  (toy_gen * interp0 (key_points [ex_key 4; ex_key 1]))%G = ex_gk /\
  (toy_gen * interp0 (key_points [ex_key 1; ex_key 2]))%G = ex_gk.
Proof. vms. Qed.
Definition ex_cosigner (i : N) : Cosigner :=
  let l := snd (fst (generate_commitment_share_lists (50 * i)%N (ex_key i) 2)) in
  MkCo (ex_key i) l 0%N (nth 0 (sl_commitments l) (MkCS (MkCom (mk 0) (mk 0)) (MkCom (mk 0) (mk 0)))).
Example C116_ex_cosigners : forall q, In q [ex_cosigner 4; ex_cosigner 1] ->
  cosigner_ok q /\ exists d, In d ex_ps /\ obtains Debug ex_params ex_ps ex_parties d (ex_gk, q_key q).
Proof.
  intros q [<-|[<-|[]]].
  - split; [split; [reflexivity|vmr]|]. exists ex_out. split; [right; left; reflexivity|].
    apply (listed_obtains Toy ToyLaws Debug ex_params ex_ps ex_parties ex_out (dealer_x 4 2 4 40) 7%N C116_ex_list);
      [right; left; reflexivity|vmr].
  - split; [split; [reflexivity|vmr]|]. exists (dealer 4 2 1 10). split; [left; reflexivity|].
    apply (listed_obtains Toy ToyLaws Debug ex_params ex_ps ex_parties (dealer 4 2 1 10) (dealer_x 4 2 1 10) 7%N C116_ex_list);
      [left; reflexivity|vmr].
Qed.
