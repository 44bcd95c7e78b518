(** C77-C78: nonce lists in storage; partial signatures and the key. *)
From Coq Require Import String Strings.Byte Arith NArith ZArith Bool List Lia Permutation Field.
From Verif Require Import Base Suite Spec SpecDkg SpecSign SpecCodec SpecHist Types Algebra BaseLemmas ModelDkg ModelSign ModelCodec
  LemmasShare LemmasSign LemmasCodec Toy Demo DemoSign PropsSign PropsCodec.
Import ListNotations.

Section Hist.
  Context {S : Suite} {L : SuiteLaws S}.
  Add Field F_fld : F_field.

  Lemma signings_fits m l us l' : signings m l us l' -> fits l -> fits l'.
  Proof.
    intros H Hf. destruct (C40_pairs_used_and_left S L m l l' us H) as [P _]. apply Permutation_length in P.
    rewrite app_length, map_length in P. unfold fits in *. lia.
  Qed.
  Lemma secret_list_back l b l1 : fits l -> to_bytes ser_secret_list (MkSecList l) = Ok b ->
    from_bytes de_secret_list b = Ok l1 -> l1 = MkSecList l.
  Proof.
    intros Hf Hb Hd. destruct (proj1 (proj2 (proj2 (C54_signing_values_round_trip S L))) (MkSecList l) Hf) as (b' & E1 & E2 & _).
    rewrite Hb in E1. injection E1 as <-. specialize (E2 []). rewrite app_nil_r in E2. congruence.
  Qed.
  Lemma kept_signings m l us l' : kept m l us l' -> fits l -> signings m l us l'.
  Proof.
    induction 1 as [l|l k h gk idx ss p l1 cs us l2 Hs Hc A IH|l k h gk idx ss o l1 us l2 Hs Ho A IH|l b l1 us l2 Hb Hd A IH];
      intros Hf.
    - constructor.
    - econstructor; [exact Hs|exact Hc|]. apply IH.
      apply (signings_fits m l [MkUse k h gk ss cs p] l1); [|exact Hf]. econstructor; [exact Hs|exact Hc|constructor].
    - eapply sgs_failed; [exact Hs|exact Ho|]. apply IH.
      apply (signings_fits m l [] l1); [|exact Hf]. eapply sgs_failed; [exact Hs|exact Ho|constructor].
    - pose proof (secret_list_back l b _ Hf Hb Hd) as E. injection E as ->. apply IH, Hf.
  Qed.
  (** sign succeeds again with the same pair in any session in which it may *)
  Lemma sign_again m k h gk l idx ss p l' cs h2 gk2 ss2 :
    sign m k h gk l idx ss = (Ok p, l') -> nth_error (sl_commitments l) (N.to_nat idx) = Some cs ->
    In (sk_index k) (map sg_index ss2) -> good_indices (map sg_index ss2) ->
    fst (sign m k h2 gk2 l idx ss2) = Ok (MkPSig (sk_index k) (partial_value h2 gk2 ss2 (sk_index k)
      (co_secret (cs_hiding cs)) (co_secret (cs_binding cs)) (sk_key k))).
  Proof.
    rewrite !sign_eq. destruct (usize_succ m idx) as [i1|e|]; try discriminate. destruct (N.ltb _ _); [discriminate|].
    intros _ Hc Hin Hg. unfold sign_outcome. destruct ss2 as [|s0 ss0]; [contradiction|].
    assert (E : existsb (fun s => u32_eqb (sk_index k) (sg_index s)) (s0 :: ss0) = true) by (apply index_existsb; exact Hin).
    rewrite E, (lagrange_ok _ _ Hg), Hc. reflexivity.
  Qed.

  Lemma partial_shift h gk ss i d e x x' :
    partial_value h gk ss i (d + weight i (map sg_index ss) * session_chal h gk ss * (x - x'))%F e x' = partial_value h gk ss i d e x.
  Proof. unfold partial_value. ring. Qed.

  (** *** the same calls on a renamed list *)
  Variable f : CommitmentShare -> CommitmentShare.
  Definition inj_on (l : list CommitmentShare) : Prop := forall a b, In a l -> In b l -> f a = f b -> a = b.
  Lemma find_last_map l c : inj_on l -> In c l -> forall i o, find_last (f c) (map f l) i o = find_last c l i o.
  Proof.
    intros Hi Hc. assert (K : forall q, (forall x, In x q -> In x l) -> forall i o,
      find_last (f c) (map f q) i o = find_last c q i o); [|apply K; auto].
    induction q as [|s q IH]; intros Hq i o; [reflexivity|]. cbn [map find_last].
    rewrite IH by (intros; apply Hq; right; assumption). f_equal.
    destruct (cs_eqb s c) eqn:E.
    - apply cs_eqb_spec in E. subst s. assert (E : cs_eqb (f c) (f c) = true) by (apply cs_eqb_spec; reflexivity).
      rewrite E. reflexivity.
    - destruct (cs_eqb (f s) (f c)) eqn:E2; [|reflexivity]. apply cs_eqb_spec in E2.
      apply Hi in E2; [|apply Hq; left; reflexivity|exact Hc]. subst s.
      assert (E' : cs_eqb c c = true) by (apply cs_eqb_spec; reflexivity). congruence.
  Qed.
  Lemma drop_share_map l c : inj_on l -> In c l ->
    drop_share (MkSecList (map f l)) (f c) = MkSecList (map f (sl_commitments (drop_share (MkSecList l) c))).
  Proof.
    intros Hi Hc. unfold drop_share. cbn [sl_commitments]. rewrite (find_last_map l c Hi Hc).
    destruct (find_last c l 0 None) as [i|]; [|reflexivity]. cbn [sl_commitments]. f_equal.
    unfold remove_at. rewrite map_app, firstn_map, skipn_map. reflexivity.
  Qed.
  Lemma sign_map_ok m k k' h gk l idx ss p l1 cs : sk_index k' = sk_index k -> inj_on l ->
    sign m k h gk (MkSecList l) idx ss = (Ok p, MkSecList l1) -> nth_error l (N.to_nat idx) = Some cs ->
    partial_value h gk ss (sk_index k) (co_secret (cs_hiding (f cs))) (co_secret (cs_binding (f cs))) (sk_key k') =
    partial_value h gk ss (sk_index k) (co_secret (cs_hiding cs)) (co_secret (cs_binding cs)) (sk_key k) ->
    sign m k' h gk (MkSecList (map f l)) idx ss = (Ok p, MkSecList (map f l1)).
  Proof.
    intros Hk Hi Hs Hc Hv. rewrite sign_eq in *. cbn [sl_commitments] in *. rewrite map_length.
    destruct (usize_succ m idx) as [i1|e|]; try discriminate. destruct (N.ltb _ _); [discriminate|].
    unfold sign_outcome in *. rewrite Hk. destruct ss as [|s0 ss0]; [discriminate|].
    destruct (existsb _ _); [|discriminate]. destruct (lagrange _ _) as [w|e|] eqn:Ew; try discriminate.
    apply lagrange_good in Ew. destruct Ew as [_ ->]. cbn [sl_commitments] in *.
    rewrite nth_error_map. rewrite Hc in *. cbn [option_map]. injection Hs as Hp Hl.
    rewrite (drop_share_map l cs Hi (nth_error_In _ _ Hc)), Hl. cbn [sl_commitments]. f_equal. f_equal. rewrite <- Hp.
    f_equal. exact Hv.
  Qed.
  Lemma sign_map_fail m k k' h gk l idx ss o l1 : sk_index k' = sk_index k ->
    sign m k h gk (MkSecList l) idx ss = (o, MkSecList l1) -> (forall p, o <> Ok p) ->
    sign m k' h gk (MkSecList (map f l)) idx ss = (o, MkSecList (map f l1)).
  Proof.
    intros Hk Hs Ho. pose proof (sign_fail _ _ _ _ _ _ _ _ _ Hs Ho) as E. injection E as ->.
    rewrite sign_eq in *. cbn [sl_commitments] in *. rewrite map_length.
    destruct (usize_succ m idx) as [i1|e|]; [|injection Hs as <-; reflexivity|injection Hs as <-; reflexivity].
    destruct (N.ltb _ _); [injection Hs as <-; reflexivity|].
    unfold sign_outcome in *. rewrite Hk. destruct ss as [|s0 ss0]; [injection Hs as <-; reflexivity|].
    destruct (existsb _ _); [|injection Hs as <-; reflexivity].
    destruct (lagrange _ _) as [w|e|]; [|injection Hs as <-; reflexivity|injection Hs as <-; reflexivity].
    cbn [sl_commitments] in *. rewrite nth_error_map. destruct (nth_error l (N.to_nat idx)) as [cs|].
    - injection Hs as X _. destruct (Ho _ (eq_sym X)).
    - injection Hs as <-; reflexivity.
  Qed.
  Lemma signings_map m kk l us l' : (forall k, sk_index (kk k) = sk_index k) -> signings m l us l' -> inj_on l ->
    (forall x, In x us -> let k := us_key x in let c := us_pair x in
       partial_value (us_hash x) (us_gk x) (us_signers x) (sk_index k) (co_secret (cs_hiding (f c))) (co_secret (cs_binding (f c))) (sk_key (kk k)) =
       partial_value (us_hash x) (us_gk x) (us_signers x) (sk_index k) (co_secret (cs_hiding c)) (co_secret (cs_binding c)) (sk_key k)) ->
    signings m (map f l) (map (under kk f) us) (map f l').
  Proof.
    intros Hk. induction 1 as [l|l k h gk idx ss p l1 cs us l2 Hs Hc A IH|l k h gk idx ss o l1 us l2 Hs Ho A IH]; intros Hi Hv.
    - constructor.
    - cbn [map]. unfold under at 1. cbn [us_key us_hash us_gk us_signers us_pair us_sig].
      pose proof (Hv _ (or_introl eq_refl)) as Hv0. cbv zeta in Hv0. cbn [us_key us_hash us_gk us_signers us_pair us_sig] in Hv0.
      eapply sgs_ok.
      + eapply sign_map_ok; [apply Hk|exact Hi|exact Hs|exact Hc|exact Hv0].
      + rewrite nth_error_map, Hc. reflexivity.
      + apply IH; [|intros x Hx; apply Hv; right; exact Hx].
        destruct (C39_sign_consumes_its_pair _ _ _ _ _ _ _ _ _ _ _ Hs) as (cs' & a & b & _ & _ & -> & -> & _).
        intros y z Hy Hz. apply Hi; apply in_app_iff; [apply in_app_iff in Hy; destruct Hy|apply in_app_iff in Hz; destruct Hz]; cbn; auto.
    - eapply sgs_failed; [eapply sign_map_fail; [apply Hk|exact Hs|exact Ho]|exact Ho|].
      pose proof (sign_fail _ _ _ _ _ _ _ _ _ Hs Ho) as E. injection E as ->. apply IH; assumption.
  Qed.
End Hist.

(** C77: storing the list after every call keeps single use *)
Theorem C77_storing_the_current_list_is_safe :
  forall (S : Suite) (L : SuiteLaws S) (m : build) (l l' : list CommitmentShare) (us : list Use),
  fits l -> kept m l us l' ->
  signings m l us l' /\
  (NoDup l -> NoDup (map us_pair us) /\ (forall x, In x us -> ~ In (us_pair x) l') /\ length us <= length l).
Proof.
  intros S L m l l' us Hf H. pose proof (kept_signings m l us l' H Hf) as A. split; [exact A|]. intros Hn.
  destruct (C40_no_pair_used_twice S L m l l' us A Hn) as (B1 & B2 & B3). split; [exact B1|]. split; [|exact B3].
  intros x Hx. apply B2, Hx.
Qed.
Print Assumptions C77_storing_the_current_list_is_safe.

(** what was written always can be read back *)
Theorem C77_restart_is_possible :
  forall (S : Suite) (L : SuiteLaws S) (l : list CommitmentShare), fits l ->
  exists b, to_bytes ser_secret_list (MkSecList l) = Ok b /\ from_bytes de_secret_list b = Ok (MkSecList l).
Proof.
  intros S L l Hf. destruct (proj1 (proj2 (proj2 (C54_signing_values_round_trip S L))) (MkSecList l) Hf) as (b & E1 & E2 & _).
  exists b. split; [exact E1|]. specialize (E2 []). rewrite app_nil_r in E2. exact E2.
Qed.
Print Assumptions C77_restart_is_possible.

(** two signatures with the program stopped and started again in between *)
Definition C77_list : list CommitmentShare := [spair 1 0; spair 1 1].
Definition C77_psig (h : list byte) (ss : list Signer) (j : nat) : PartialSig := MkPSig (u 1) (partial_value h sgroup ss (u 1)
  (co_secret (cs_hiding (spair 1 j))) (co_secret (cs_binding (spair 1 j))) (mk 1077)).
Lemma C77_step1 : sign Release (skey 1) shash sgroup (MkSecList C77_list) 0 [ssigner 1 0; ssigner 3 0] =
  (Ok (C77_psig shash [ssigner 1 0; ssigner 3 0] 0), MkSecList [spair 1 1]).
Proof. vmr. Qed.
Lemma C77_step2 : sign Release (skey 1) [] sgroup (MkSecList [spair 1 1]) 0 [ssigner 1 1; ssigner 2 0] =
  (Ok (C77_psig [] [ssigner 1 1; ssigner 2 0] 1), MkSecList []).
Proof. vmr. Qed.
Definition C77_uses : list Use :=
  [MkUse (skey 1) shash sgroup [ssigner 1 0; ssigner 3 0] (spair 1 0) (C77_psig shash [ssigner 1 0; ssigner 3 0] 0);
   MkUse (skey 1) [] sgroup [ssigner 1 1; ssigner 2 0] (spair 1 1) (C77_psig [] [ssigner 1 1; ssigner 2 0] 1)].
Lemma nodup_two (f : CommitmentShare -> F) (a b : CommitmentShare) : Feqb (f a) (f b) = false -> NoDup (map f [a; b]).
Proof.
  intros H. apply Feqb_neq in H. cbn [map]. constructor; [|constructor; [intros []|constructor]].
  intros [X|[]]. apply H. symmetry. exact X.
Qed.
Example C77_ex : kept Release C77_list C77_uses [] /\ fits C77_list /\ NoDup (map (fun c => co_secret (cs_binding c)) C77_list).
Proof.
  split; [|split; [unfold fits, N.lt; vmr|apply nodup_two; vmr]].
  eapply kp_ok; [exact C77_step1|reflexivity|].
  destruct (C77_restart_is_possible Toy ToyLaws [spair 1 1]) as (b & E1 & E2); [unfold fits, N.lt; vmr|].
  eapply kp_restart; [exact E1|exact E2|]. eapply kp_ok; [exact C77_step2|reflexivity|]. apply kp_nil.
Qed.

(** refuted: the serialized list enforces single use. A list written before a signature and read back later signs
    again with the same pair in every session with acceptable signers; three signatures give the key away *)
Theorem C77_stored_lists_are_single_use_refuted :
  forall (S : Suite) (L : SuiteLaws S) (m : build) (k : SigningKey) (l l1 : list CommitmentShare) (idx : N)
    (h1 : list byte) (g1 : G) (ss1 : list Signer) (p1 : PartialSig) (b : list byte) (l0 : SecretList),
  fits l -> to_bytes ser_secret_list (MkSecList l) = Ok b ->
  sign m k h1 g1 (MkSecList l) idx ss1 = (Ok p1, MkSecList l1) ->
  from_bytes de_secret_list b = Ok l0 ->
  exists d e, ps_z p1 = partial_value h1 g1 ss1 (sk_index k) d e (sk_key k) /\
    (forall h2 g2 ss2, In (sk_index k) (map sg_index ss2) -> good_indices (map sg_index ss2) ->
       fst (sign m k h2 g2 l0 idx ss2) = Ok (MkPSig (sk_index k) (partial_value h2 g2 ss2 (sk_index k) d e (sk_key k)))) /\
    (forall h2 g2 ss2 h3 g3 ss3 p2 p3,
       fst (sign m k h2 g2 l0 idx ss2) = Ok p2 -> fst (sign m k h3 g3 l0 idx ss3) = Ok p3 ->
       let i := sk_index k in
       let b1 := binding h1 ss1 i in let b2 := binding h2 ss2 i in let b3 := binding h3 ss3 i in
       let w1 := (weight i (map sg_index ss1) * session_chal h1 g1 ss1)%F in
       let w2 := (weight i (map sg_index ss2) * session_chal h2 g2 ss2)%F in
       let w3 := (weight i (map sg_index ss3) * session_chal h3 g3 ss3)%F in
       let det := ((b2 - b1) * (w3 - w1) - (b3 - b1) * (w2 - w1))%F in
       det <> F0 ->
       sk_key k = (((b2 - b1) * (ps_z p3 - ps_z p1) - (b3 - b1) * (ps_z p2 - ps_z p1)) * Finv det)%F).
Proof.
  intros S L m k l l1 idx h1 g1 ss1 p1 b l0 Hf Hb Hs Hd. pose proof (secret_list_back l b l0 Hf Hb Hd) as ->.
  destruct (sign_ok_inv _ _ _ _ _ _ _ _ _ Hs) as (cs & Hc & _ & _ & Hp & _).
  exists (co_secret (cs_hiding cs)), (co_secret (cs_binding cs)). split; [rewrite Hp; reflexivity|]. split.
  - intros h2 g2 ss2 Hin Hg. eapply sign_again; eassumption.
  - intros h2 g2 ss2 h3 g3 ss3 p2 p3 H2 H3.
    apply (C41_reuse_reveals_key S L m k cs h1 h2 h3 g1 g2 g3 (MkSecList l) (MkSecList l) (MkSecList l) idx idx idx ss1 ss2 ss3 p1 p2 p3);
      try assumption. rewrite Hs. reflexivity.
Qed.
Print Assumptions C77_stored_lists_are_single_use_refuted.

(** the list of the example above, read back twice *)
Example C77_ex_rollback :
  let ss := [ssigner 1 0; ssigner 3 0] in
  let b := ser_secret_list (MkSecList C77_list) in
  let z h := match (let* l := from_bytes de_secret_list b in fst (sign Debug (skey 1) h sgroup l 0 ss)) with
             | Ok p => ps_z p | _ => mk 0 end in
  let b h := binding h ss (u 1) in
  let w h := (weight (u 1) [u 1; u 3] * session_chal h sgroup ss)%F in
  let m2 := [x02] in let m3 := [x03] in
  let z1 := ps_z (C77_psig shash ss 0) in
  let det := ((b m2 - b shash) * (w m3 - w shash) - (b m3 - b shash) * (w m2 - w shash))%F in
  Feqb det (mk 0) = false /\
  (((b m2 - b shash) * (z m3 - z1) - (b m3 - b shash) * (z m2 - z1)) * Finv det)%F = mk 1077.
Proof. vms. Qed.

(** C78: signatures made with single-use nonces fit every key *)
Theorem C78_signatures_fit_every_key :
  forall (S : Suite) (L : SuiteLaws S) (m : build) (l l' : list CommitmentShare) (us : list Use)
    (kk : SigningKey -> SigningKey),
  signings m l us l' ->
  NoDup (map (fun c => co_secret (cs_binding c)) l) ->
  (forall k, sk_index (kk k) = sk_index k) ->
  exists pp : CommitmentShare -> CommitmentShare,
    signings m (map pp l) (map (under kk pp) us) (map pp l') /\
    (forall c, cs_binding (pp c) = cs_binding c) /\ (forall c, In c l' -> pp c = c) /\
    (forall c, In c l -> consistent c -> consistent (pp c)).
Proof.
  intros S L m l l' us kk H Hn Hk.
  assert (Hnl : NoDup l) by (eapply NoDup_map_inv, Hn).
  destruct (C40_pairs_used_and_left S L m l l' us H) as [HP _]. destruct (C40_no_pair_used_twice S L m l l' us H Hnl) as (Hu & Hl & _).
  set (shift := fun x : Use => (weight (sk_index (us_key x)) (map sg_index (us_signers x)) *
    session_chal (us_hash x) (us_gk x) (us_signers x) * (sk_key (us_key x) - sk_key (kk (us_key x))))%F).
  set (pp := fun c => match find (fun x => cs_eqb (us_pair x) c) us with
    | Some x => let d := (co_secret (cs_hiding c) + shift x)%F in MkCS (MkCom d (gen * d)%G) (cs_binding c)
    | None => c end).
  assert (HF : forall x, In x us -> find (fun y => cs_eqb (us_pair y) (us_pair x)) us = Some x).
  { clear - Hu L. intros x. induction us as [|y us IH]; [intros []|]. cbn [map] in Hu. apply NoDup_cons_iff in Hu. destruct Hu as [Hy Hu].
    intros [->|Hx]; cbn [find].
    - assert (E : cs_eqb (us_pair x) (us_pair x) = true) by (apply cs_eqb_spec; reflexivity). rewrite E. reflexivity.
    - destruct (cs_eqb (us_pair y) (us_pair x)) eqn:E; [|apply IH; assumption].
      apply cs_eqb_spec in E. destruct Hy. rewrite E. apply in_map, Hx. }
  assert (Hb : forall c, cs_binding (pp c) = cs_binding c).
  { intros c. unfold pp. destruct (find _ us); reflexivity. }
  exists pp. split; [|split; [exact Hb|split]].
  - apply signings_map; [exact Hk|exact H| |].
    + intros a b Ha Hb' E. apply (f_equal cs_binding) in E. rewrite !Hb in E. clear - Hn Ha Hb' E.
      induction l as [|c l IH]; [contradiction|]. cbn [map] in Hn. apply NoDup_cons_iff in Hn. destruct Hn as [Hc Hn].
      destruct Ha as [->|Ha], Hb' as [->|Hb']; auto.
      * destruct Hc. rewrite E. apply (in_map (fun c => co_secret (cs_binding c))), Hb'.
      * destruct Hc. rewrite <- E. apply (in_map (fun c => co_secret (cs_binding c))), Ha.
    + intros x Hx. cbv zeta. rewrite Hb. unfold pp. rewrite (HF x Hx). cbn [cs_hiding co_secret]. unfold shift. apply partial_shift.
  - intros c Hc. unfold pp. destruct (find _ us) as [x|] eqn:E; [|reflexivity]. apply find_some in E. destruct E as [Hx E].
    apply cs_eqb_spec in E. subst c. destruct (Hl x Hx) as [_ A]. contradiction.
  - intros c Hc [C1 C2]. unfold pp. destruct (find _ us) as [x|]; [|split; assumption]. split; [reflexivity|exact C2].
Qed.
Print Assumptions C78_signatures_fit_every_key.

(** the history of C77_ex; the same two signatures made with the key 5 *)
Lemma C78_history : signings Release C77_list C77_uses [].
Proof. eapply sgs_ok; [exact C77_step1|reflexivity|]. eapply sgs_ok; [exact C77_step2|reflexivity|]. apply sgs_nil. Qed.
Definition C78_key (k : SigningKey) : SigningKey := MkSK (sk_index k) (mk 5).
Definition C78_pair (h : list byte) (ss : list Signer) (c : CommitmentShare) : CommitmentShare :=
  let d := (co_secret (cs_hiding c) + weight (u 1) (map sg_index ss) * session_chal h sgroup ss * (mk 1077 - mk 5))%F in
  MkCS (MkCom d (toy_gen * d)%G) (cs_binding c).
Example C78_ex :
  let ss1 := [ssigner 1 0; ssigner 3 0] in let ss2 := [ssigner 1 1; ssigner 2 0] in
  let c1 := C78_pair shash ss1 (spair 1 0) in let c2 := C78_pair [] ss2 (spair 1 1) in
  sign Release (C78_key (skey 1)) shash sgroup (MkSecList [c1; c2]) 0 ss1 = (Ok (C77_psig shash ss1 0), MkSecList [c2]) /\
  sign Release (C78_key (skey 1)) [] sgroup (MkSecList [c2]) 0 ss2 = (Ok (C77_psig [] ss2 1), MkSecList []) /\
  cs_eqb c1 (spair 1 0) = false.
Proof. vms. Qed.
