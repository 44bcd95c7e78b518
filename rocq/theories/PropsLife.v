(** C93: one group key for the whole life of a key, through any number of resharings. *)
From Coq Require Import String Strings.Byte Arith NArith ZArith Bool List Permutation Sorted Lia Field.
From Verif Require Import Base Suite Spec SpecDkg SpecSign SpecRobust SpecEnd SpecLife Types ModelDkg ModelSign Algebra BaseLemmas LemmasShare LemmasRound1
  LemmasRound2 LemmasFinish LemmasBlame LemmasSign LemmasAgg Toy Demo DemoDkg DemoSign PropsRound1 PropsFinish PropsBlame PropsReshare PropsSign
  PropsAgg PropsRobust PropsView PropsEnd PropsHandover.
Import ListNotations.

Section Life.
  Context {S : Suite} {L : SuiteLaws S}.

  (** what stays true of every epoch *)
  Definition sound_epoch (gk : G) (e : Epoch) : Prop :=
    ep_gk e = gk /\ 1 <= ep_t e /\ (forall members, key_book (ep_t e) gk members (ep_book e)) /\
    (exists sk, ep_holds e sk) /\
    forall sk, ep_holds e sk -> (gen * sk_key sk)%G = ep_book e (sk_index sk).

  Lemma ends_functional (h : Follower) keys comms gk sk keys' comms' gk' sk' :
    ends h keys comms gk sk -> ends h keys' comms' gk' sk' -> keys = keys' /\ comms = comms' /\ gk = gk' /\ sk = sk'.
  Proof.
    intros (s & A1 & A2 & A3 & _) (s' & B1 & B2 & B3 & _). rewrite A1 in B1. injection B1 as <- <-.
    rewrite A2 in B2. injection B2 as <-. rewrite A3 in B3. injection B3 as <- <-. auto.
  Qed.
  Lemma split_exists (ok : Participant -> Prop) f ps : (forall p, f p = true <-> ok p) -> exists valid mis, splits ok ps valid mis.
  Proof. intros H. do 2 eexists. apply (PropsEnd.splits_filter f ok ps H). Qed.
  Lemma splits_in (ok : Participant -> Prop) ps valid mis : splits ok ps valid mis -> forall q, In q valid <-> In q ps /\ ok q.
  Proof. intros HS. induction HS as [|q ps v mis Hq HS IH|q ps v mis Hq HS IH]; intros y; cbn [In]; [tauto| |]; rewrite IH; intuition congruence. Qed.

  Lemma generation_ends m params ps hs all : generation m params ps hs all ->
    exists keys comms gk, sound_epoch gk (MkEpoch gk (N.to_nat (u32v (p_t params))) (book_of comms) (held hs keys comms gk)) /\
      forall h, In h hs -> exists sk, ends h keys comms gk sk.
  Proof.
    intros [G1 G2 G3 G4 G5].
    destruct (split_exists _ _ ps (okb_bootstrap (p_t params))) as (valid & mis & HS).
    destruct (C68_key_generation_and_signing_despite_misbehaviour S L m params ps valid mis hs all params [] G1 HS (G2 _ _ HS) G3 G4 G5)
      as (keys & comms & gk & A1 & A2 & A3 & _).
    exists keys, comms, gk. split.
    - split; [reflexivity|]. destruct hs as [|h0 hs]; [contradiction|].
      destruct (begins_view m params ps h0 G1 (tp_begins _ _ _ _ (G3 h0 (or_introl eq_refl)))) as (_ & _ & _ & _ & _ & _ & T & _).
      cbn [ep_t ep_book ep_holds]. split; [lia|]. split; [exact A3|]. split.
      + destruct (A2 h0 (or_introl eq_refl)) as (sk & X & _). exists sk, h0. split; [left; reflexivity|exact X].
      + intros sk (h & Hh & He). destruct (A2 h Hh) as (sk' & X & Y). destruct (ends_functional _ _ _ _ _ _ _ _ _ He X) as (_ & _ & _ & ->). exact Y.
    - intros h Hh. destruct (A2 h Hh) as (sk & X & _). exists sk. exact X.
  Qed.
  Lemma resharing_ends m e params t ps hs all gk : sound_epoch gk e -> resharing m e params t ps hs all ->
    exists keys comms, sound_epoch gk (MkEpoch gk t (book_of comms) (held hs keys comms gk)) /\
      forall h, In h hs -> exists sk, ends h keys comms gk sk.
  Proof.
    intros (E1 & E2 & E3 & E4 & E5) [G1 G2 G3 G4 G5 G6 G7 (kept & K1 & K2 & K3)].
    destruct (split_exists _ _ ps (okb_new (p_t params))) as (valid & mis & HS).
    pose proof (splits_in _ _ _ _ HS) as HV.
    destruct (C85_checked_resharing_keeps_the_key S L m params ps valid mis hs all (ep_t e) t gk (map pt_index valid) kept (ep_book e) params []
      G1 HS (G2 _ _ HS) G3 G4 G5 (E3 _) G6) as (keys & comms & A2 & A3 & _); auto.
    - intros q Hq. split; [apply in_map, Hq|]. apply HV in Hq. destruct Hq. apply G7; assumption.
    - intros j Hj. destruct (proj1 (K3 j Hj)) as (q & X & Y & <-). apply in_map, HV. auto.
    - intros h j Hh Hj. apply (proj2 (K3 j Hj)), Hh.
    - exists keys, comms. split.
      + split; [reflexivity|]. split; [exact G6|]. split; [exact A3|]. split.
        * destruct hs as [|h0 hs]; [contradiction|]. destruct (A2 h0 (or_introl eq_refl)) as (sk & X & _). exists sk, h0. split; [left; reflexivity|exact X].
        * intros sk (h & Hh & He). destruct (A2 h Hh) as (sk' & X & Y). destruct (ends_functional _ _ _ _ _ _ _ _ _ He X) as (_ & _ & _ & ->). exact Y.
      + intros h Hh. destruct (A2 h Hh) as (sk & X & _). exists sk. exact X.
  Qed.
  Lemma born_sound m e : born m e -> sound_epoch (ep_gk e) e.
  Proof.
    intros [params ps hs all h keys comms gk sk HG Hh He]. cbn [ep_gk].
    destruct (generation_ends _ _ _ _ _ HG) as (keys' & comms' & gk' & X & Y). destruct (Y h Hh) as (sk' & Z).
    destruct (ends_functional _ _ _ _ _ _ _ _ _ He Z) as (-> & -> & -> & _). exact X.
  Qed.
  Lemma next_sound m e e' gk : sound_epoch gk e -> next m e e' -> sound_epoch gk e'.
  Proof.
    intros HE [params t ps hs all h keys comms gk1 sk HG Hh He].
    destruct (resharing_ends _ _ _ _ _ _ _ _ HE HG) as (keys' & comms' & X & Y). destruct (Y h Hh) as (sk' & Z).
    destruct (ends_functional _ _ _ _ _ _ _ _ _ He Z) as (-> & -> & -> & _). exact X.
  Qed.
  Lemma later_sound m e e' : born m e -> later m e e' -> sound_epoch (ep_gk e) e'.
  Proof. intros HB HL. induction HL as [|e1 e2 HL IH HN]; [apply (born_sound m), HB|]. eapply next_sound; [exact IH|exact HN]. Qed.
End Life.

(** the group key never changes, and in every epoch the keys handed out match the public verifying keys, of which any
    t interpolate to the group key *)
Theorem C93_one_group_key_for_life :
  forall (S : Suite) (L : SuiteLaws S) (m : build) (e0 e : Epoch),
  born m e0 -> later m e0 e ->
  ep_gk e = ep_gk e0 /\ (forall members, key_book (ep_t e) (ep_gk e0) members (ep_book e)) /\
  forall sk, ep_holds e sk -> (gen * sk_key sk)%G = ep_book e (sk_index sk).
Proof. intros S L m e0 e HB HL. destruct (later_sound m e0 e HB HL) as (A & _ & B & _ & C). auto. Qed.
Print Assumptions C93_one_group_key_for_life.

(** in every epoch the current threshold of key holders signs under the first group key *)
Theorem C93_every_epoch_signs :
  forall (S : Suite) (L : SuiteLaws S) (m : build) (e0 e : Epoch) (p : Params) (msg : list byte) (qs : list Cosigner),
  born m e0 -> later m e0 e ->
  (forall q, In q qs -> cosigner_ok q /\ ep_holds e (q_key q)) ->
  good_indices (map (fun q => sk_index (q_key q)) qs) ->
  ep_t e <= length qs -> (N.of_nat (length qs) <= u32v (p_n p))%N ->
  exists a1 pss, agg_run (agg_new p (ep_gk e0) msg) (announce qs) a1 /\
    signed m (h4 msg) (ep_gk e0) (ag_signers (ai_state a1)) qs pss /\
    forall ps', Permutation ps' pss -> exists a2 f sig, agg_run a1 (deliver ps') a2 /\ finalize a2 = Ok f /\
      aggregate f = Ok sig /\ verify_signature (ep_gk e0) sig (h4 msg) = Ok tt.
Proof.
  intros S L m e0 e p msg qs HB HL Hq Hg Ht Hn. destruct (later_sound m e0 e HB HL) as (_ & T & B & _ & C).
  assert (Eks : map sk_index (map q_key qs) = map (fun q => sk_index (q_key q)) qs) by (rewrite map_map; reflexivity).
  assert (HI : forall sub, (forall k, In k sub -> In k (map q_key qs)) -> NoDup (map sk_index sub) -> ep_t e <= length sub ->
    (gen * interp0 (key_points sub))%G = ep_gk e0).
  { intros sub Hs Hnd Hl. rewrite <- (B (map sk_index sub) (map sk_index sub) Hnd (incl_refl _)) by (rewrite map_length; exact Hl).
    rewrite <- ginterp0_gen. unfold key_points. rewrite !map_map. f_equal. apply map_ext_in. intros k Hk. cbn [fst snd]. f_equal. apply C.
    apply Hs, in_map_iff in Hk. destruct Hk as (q & <- & Hk). apply (Hq q Hk). }
  assert (Egk : (gen * interp0 (key_points (map q_key qs)))%G = ep_gk e0).
  { apply HI; auto; [rewrite Eks; apply Hg|]. rewrite map_length. lia. }
  assert (HR : recovers (ep_t e) (interp0 (key_points (map q_key qs))) (map q_key qs)).
  { split; [rewrite Eks; exact Hg|]. intros sub H1 H2 H3. apply gen_inj. rewrite Egk. apply HI; assumption. }
  rewrite <- Egk.
  destruct (C43_honest_signers_produce_a_valid_signature S L m p msg _ _ _ qs HR ltac:(lia) ltac:(lia) Hn) as (a1 & pss & B1 & B2 & B3).
  - intros q Hin. split; [apply in_map, Hin|apply (Hq q Hin)].
  - apply Hg.
  - exists a1, pss. split; [exact B1|]. split; [exact B2|]. intros ps' Hps. destruct (B3 ps' Hps) as (a2 & f & sig & D1 & D2 & D3 & D4 & _).
    exists a2, f, sig. auto.
Qed.
Print Assumptions C93_every_epoch_signs.

(** in every epoch, an attempt with at least t signers following the protocol succeeds or names only others *)
Theorem C93_every_epoch_names_culprits :
  forall (S : Suite) (L : SuiteLaws S) (m : build) (e0 e : Epoch) (p : Params) (msg : list byte) (H LL : list u32) (a : AggInitial),
  born m e0 -> later m e0 e ->
  good_indices LL -> NoDup H -> incl H LL -> ep_t e <= length H ->
  honest_attempt m p (ep_gk e) msg (ep_book e) H LL a ->
  (exists sig, outcome a = Ok sig /\ verify_signature (ep_gk e0) sig (h4 msg) = Ok tt) \/
  (exists bad, outcome a = Err (MisbehavingParticipants bad) /\
     (exists i, In i bad /\ In i LL) /\ (forall i, In i bad -> i = u32_zero \/ In i LL) /\ (forall i, In i bad -> ~ In i H)).
Proof.
  intros S L m e0 e p msg H LL a HB HL HG HN HI Ht Ha. destruct (later_sound m e0 e HB HL) as (A & T & B & _ & C).
  rewrite A in Ha. exact (C69_attempt_succeeds_or_names_culprits S L m p _ msg _ _ LL H LL a (B LL) T HG (incl_refl _) HN HI Ht Ha).
Qed.
Print Assumptions C93_every_epoch_names_culprits.

(** the life never gets stuck: a key generation always gives an epoch in which every follower holds a key, and so does
    every resharing that meets the checks, with the same key *)
Theorem C93_every_step_succeeds :
  forall (S : Suite) (L : SuiteLaws S) (m : build) (params : Params) (ps : list Participant) (hs : list Follower) (all : list Complaint),
  (generation m params ps hs all ->
   exists e, born m e /\ ep_t e = N.to_nat (u32v (p_t params)) /\
     forall h, In h hs -> exists sk keys comms, ep_holds e sk /\ ends h keys comms (ep_gk e) sk /\ sk_index sk = ds_index (h_st h)) /\
  (forall e0 e t, born m e0 -> later m e0 e -> resharing m e params t ps hs all ->
   exists e', next m e e' /\ ep_t e' = t /\ ep_gk e' = ep_gk e0 /\
     forall h, In h hs -> exists sk keys comms, ep_holds e' sk /\ ends h keys comms (ep_gk e0) sk /\ sk_index sk = ds_index (h_st h)).
Proof.
  intros S L m params ps hs all. split.
  - intros HG. destruct (generation_ends _ _ _ _ _ HG) as (keys & comms & gk & _ & Y).
    destruct hs as [|h0 hs]; [destruct (gn_some _ _ _ _ _ HG eq_refl)|]. destruct (Y h0 (or_introl eq_refl)) as (sk0 & E0).
    eexists. split; [exact (born_by m params ps _ all h0 keys comms gk sk0 HG (or_introl eq_refl) E0)|]. cbn [ep_t ep_holds ep_gk].
    split; [reflexivity|]. intros h Hh. destruct (Y h Hh) as (sk & E). exists sk, keys, comms. split; [exists h; auto|]. split; [exact E|].
    destruct E as (s & _ & _ & _ & X). exact X.
  - intros e0 e t HB HL HG. pose proof (later_sound m e0 e HB HL) as HE. destruct (resharing_ends _ _ _ _ _ _ _ _ HE HG) as (keys & comms & _ & Y).
    destruct hs as [|h0 hs]; [destruct (rs_some _ _ _ _ _ _ _ HG eq_refl)|]. destruct (Y h0 (or_introl eq_refl)) as (sk0 & E0).
    eexists. split; [exact (next_by m e params t ps _ all h0 keys comms (ep_gk e0) sk0 HG (or_introl eq_refl) E0)|]. cbn [ep_t ep_holds ep_gk].
    split; [reflexivity|]. split; [reflexivity|]. intros h Hh. destruct (Y h Hh) as (sk & E). exists sk, keys, comms. split; [exists h; auto|]. split; [exact E|].
    destruct E as (s & _ & _ & _ & X). exact X.
Qed.
Print Assumptions C93_every_step_succeeds.

(** the demo key generation (1, 2, 3 with threshold two), then its resharing to 5, 6, 7, 8 with threshold three in which dealer 2 garbles
    its share for 5 *)
Definition comms_after (h : Follower) : bmap Vss :=
  match blame (h_s2 h) (h_settles h) with Ok (_, s) => match ds_comms (st2 s) with Some c => c | None => [] end | _ => [] end.
Definition keys_after (h : Follower) : list G := match blame (h_s2 h) (h_settles h) with Ok (k, _) => k | _ => [] end.
Definition final_after (h : Follower) : G * SigningKey :=
  match (let* (_, s) := blame (h_s2 h) (h_settles h) in finish s) with Ok x => x | _ => (@Gzero Toy, MkSK (u 0) (mk 0)) end.
Definition ended (h : Follower) : bool :=
  match blame (h_s2 h) (h_settles h) with
  | Ok (_, s) => match ds_comms (st2 s) with
                 | Some _ => match finish s with Ok (_, sk) => u32_eqb (sk_index sk) (ds_index (h_st h)) | _ => false end
                 | None => false end
  | _ => false end.
Lemma ended_ends h : ended h = true -> ends h (keys_after h) (comms_after h) (fst (final_after h)) (snd (final_after h)).
Proof.
  unfold ended, keys_after, comms_after, final_after, ends. destruct (blame (h_s2 h) (h_settles h)) as [[k s]| |]; try discriminate.
  cbn [bind]. intros H. exists s. split; [reflexivity|]. destruct (ds_comms (st2 s)) as [c|]; [|discriminate]. split; [reflexivity|].
  destruct (finish s) as [[gk sk]| |]; try discriminate. cbn [fst snd]. split; [reflexivity|]. apply u32_eqb_spec, H.
Qed.

Definition lf_follower (i : N) : Follower := follower_of (demo_r1 demo_ps i) (500 + i) (demo_shares i) [].
Definition lf_followers : list Follower := [lf_follower 1; lf_follower 2; lf_follower 3].
Definition lf_run (i : N) : result (RoundOne * PartList * Rng) :=
  bootstrap Debug demo_params (dealer_x 3 2 i (10 * i)) (u i) (dealer_co 3 2 i (10 * i)) demo_ps (1000 + i)%N.
Definition lf_two (i : N) := to_round_two Debug (demo_r1 demo_ps i) (demo_shares i) (500 + i)%N.
Definition lf_mine (i : N) : bool := forallb (fun e => u32_eqb (es_receiver e) (ds_index (st1 (demo_r1 demo_ps i)))) (demo_shares i).
Definition lf_all (i : N) : bool :=
  forallb (fun p => implb (okb true true (p_t demo_params) p) (existsb (fun e => u32_eqb (es_sender e) (pt_index p)) (demo_shares i))) demo_ps.
Definition lf_ok (i : N) : bool := is_ok (lf_run i) && is_ok (lf_two i) && lf_mine i && lf_all i && ended (lf_follower i).
Definition lf_none (i : N) : bool := match h_cs (lf_follower i) with [] => true | _ => false end.
Lemma lf_ok_1 : lf_ok 1 = true. Proof. vmr. Qed.
Lemma lf_ok_2 : lf_ok 2 = true. Proof. vmr. Qed.
Lemma lf_ok_3 : lf_ok 3 = true. Proof. vmr. Qed.
Lemma lf_none_all : (lf_none 1 && lf_none 2 && lf_none 3)%bool = true. Proof. vmr. Qed.
Lemma lf_parts i : lf_ok i = true -> is_ok (lf_run i) = true /\ is_ok (lf_two i) = true /\ lf_mine i = true /\ lf_all i = true /\ ended (lf_follower i) = true.
Proof.
  unfold lf_ok. intros H. apply andb_prop in H. destruct H as [H H5]. apply andb_prop in H. destruct H as [H H4]. apply andb_prop in H.
  destruct H as [H H3]. apply andb_prop in H. destruct H as [H1 H2]. split; [exact H1|]. split; [exact H2|]. split; [exact H3|]. split; [exact H4|exact H5].
Qed.
Lemma lf_takes_part i : lf_ok i = true -> takes_part Debug demo_params demo_ps (lf_follower i).
Proof.
  intros H. apply lf_parts in H. destruct H as (H1 & H2 & H3 & H4 & _). unfold lf_follower.
  eapply follower_of_takes_part with (ps' := demo_ps).
  - unfold lf_run in H1. exact H1.
  - unfold demo_r1, state_of. reflexivity.
  - unfold lf_two in H2. exact H2.
  - apply Permutation_refl.
  - unfold lf_mine in H3. exact H3.
  - unfold lf_all in H4. exact H4.
Qed.
Lemma lf_filter : filter (okb true true (p_t demo_params)) demo_ps = demo_ps. Proof. vmr. Qed.
Lemma lf_in h : In h lf_followers -> exists i, h = lf_follower i /\ lf_ok i = true /\ lf_none i = true.
Proof.
  pose proof lf_none_all as X. apply andb_prop in X. destruct X as [X X3]. apply andb_prop in X. destruct X as [X1 X2].
  cbn [lf_followers In]. intros [<-|[<-|[<-|[]]]]; [exists 1%N|exists 2%N|exists 3%N]; (split; [reflexivity|]).
  - split; [exact lf_ok_1|exact X1].
  - split; [exact lf_ok_2|exact X2].
  - split; [exact lf_ok_3|exact X3].
Qed.
Lemma lf_settles i : lf_ok i = true -> h_settles (lf_follower i) = [].
Proof.
  intros H. apply lf_parts in H. destruct H as (_ & H2 & _). unfold lf_follower. rewrite follower_of_settles by exact H2. reflexivity.
Qed.
Lemma lf_generation : generation Debug demo_params demo_ps lf_followers [].
Proof.
  constructor.
  - good.
  - intros valid mis HS h c Hh Hc. destruct (lf_in h Hh) as (i & -> & _ & Y).
    unfold lf_none in Y. destruct (h_cs (lf_follower i)); [destruct Hc|discriminate].
  - intros h Hh. destruct (lf_in h Hh) as (i & -> & X & _). apply lf_takes_part, X.
  - discriminate.
  - intros h Hh. destruct (lf_in h Hh) as (i & -> & X & Y). split.
    + intros c. rewrite (lf_settles i X). exact (iff_refl _).
    + unfold lf_none in Y. destruct (h_cs (lf_follower i)); [intros c []|discriminate].
Qed.
Definition lf_first : Epoch :=
  MkEpoch (fst (final_after (lf_follower 1))) 2 (book_of (comms_after (lf_follower 1)))
    (held lf_followers (keys_after (lf_follower 1)) (comms_after (lf_follower 1)) (fst (final_after (lf_follower 1)))).
Definition lf_heir : Follower := follower_of (ho_r1 5) 905 (ho_shares 5) ho_cs.
Definition lf_second : Epoch :=
  MkEpoch (fst (final_after lf_heir)) 3 (book_of (comms_after lf_heir))
    (held ho_followers (keys_after lf_heir) (comms_after lf_heir) (fst (final_after lf_heir))).
Lemma lf_heir_ended : ended lf_heir = true. Proof. vmr. Qed.
Definition lf_continuesb (p : Participant) : bool :=
  match pt_comm p with
  | Some c => match vss_points c with
              | P :: rest => Geqb P (book_of (comms_after (lf_follower 1)) (pt_index p)) && Nat.leb (length (P :: rest)) 3
              | [] => false end
  | None => false end.
Lemma lf_continuesb_ok p : lf_continuesb p = true -> continues lf_first 3 p.
Proof.
  unfold lf_continuesb, continues. destruct (pt_comm p) as [c|]; [|discriminate]. destruct (vss_points c) as [|P rest] eqn:Ep; [discriminate|].
  intros H. apply andb_prop in H. destruct H as [H1 H2].
  apply (@Geqb_spec Toy ToyLaws) in H1. apply Nat.leb_le in H2. exists c, rest. rewrite Ep.
  split; [reflexivity|]. split; [|exact H2]. f_equal. exact H1.
Qed.
Lemma lf_continues : forallb lf_continuesb ho_ps = true. Proof. vmr. Qed.
Lemma lf_ho_bound : forallb (fun c => N.leb (u32v (accused c)) (N.of_nat (length ho_ps))) ho_cs = true. Proof. vmr. Qed.
Lemma lf_ho_indices : map pt_index ho_ps = [u 1; u 2; u 3]. Proof. vmr. Qed.
Lemma lf_resharing : resharing Debug lf_first ho_params 3 ho_ps ho_followers ho_cs.
Proof.
  destruct C85_ex as (X1 & X2 & X3 & X4 & _ & _ & X7 & X8).
  pose proof (@splits_in Toy _ _ _ _ X2) as HV.
  constructor.
  - exact X1.
  - intros valid mis HS h c Hh Hc. pose proof (PropsEnd.splits_length _ _ _ _ _ _ HS X2) as E. rewrite E. apply N.leb_le.
    exact (proj1 (forallb_forall _ _) lf_ho_bound c (proj2 (X4 h Hh) c Hc)).
  - exact X3.
  - discriminate.
  - exact X4.
  - lia.
  - intros q Hq _. apply lf_continuesb_ok. exact (proj1 (forallb_forall _ _) lf_continues q Hq).
  - exists [u 1; u 3]. split; [nodup|]. split; [cbn [ep_t lf_first length]; lia|]. intros j Hj. split.
    + apply X7, in_map_iff in Hj. destruct Hj as (q & E & Hq). exists q. split; [exact Hq|]. split; [apply HV, Hq|exact E].
    + intros h Hh. apply X8; assumption.
Qed.
Example C93_ex : born Debug lf_first /\ next Debug lf_first lf_second /\ later Debug lf_first lf_second /\ ep_t lf_first = 2 /\ ep_t lf_second = 3.
Proof.
  assert (B : born Debug lf_first).
  { apply (born_by Debug demo_params demo_ps lf_followers [] (lf_follower 1) _ _ _ (snd (final_after (lf_follower 1))) lf_generation (or_introl eq_refl)).
    apply ended_ends. exact (proj2 (proj2 (proj2 (proj2 (lf_parts 1 lf_ok_1))))). }
  assert (N : next Debug lf_first lf_second).
  { apply (next_by Debug lf_first ho_params 3 ho_ps ho_followers ho_cs lf_heir _ _ _ (snd (final_after lf_heir)) lf_resharing (or_introl eq_refl)).
    apply ended_ends, lf_heir_ended. }
  split; [exact B|]. split; [exact N|]. split; [eapply later_next; [apply later_now|exact N]|]. split; reflexivity.
Qed.
(** the two epochs have the same group key, and different signing keys *)
Example C93_ex_run :
  fv (ep_gk lf_second) = fv (ep_gk lf_first) /\ fv (ep_gk lf_first) = fv ho_gk /\
  map fst (comms_after lf_heir) = [u 1; u 3] /\ map fst (comms_after (lf_follower 1)) = [u 1; u 2; u 3].
Proof. split; [vmr|]. split; [vmr|]. split; vmr. Qed.
