(** C75-C76: what is left in memory. *)
From Coq Require Import String Strings.Byte Arith NArith ZArith Bool List Lia Permutation Field.
From Verif Require Import Base Suite Spec SpecDkg SpecSign Types Algebra BaseLemmas ModelDkg ModelSign ModelErase SpecErase
  LemmasShare LemmasRound1 LemmasRound2 LemmasSign Toy Demo DemoDkg DemoSign PropsFinish PropsSign PropsAttack.
Import ListNotations.

Section Erase.
  Context {S : Suite} {L : SuiteLaws S}.

  Lemma wipe_bytes_len (a b : list byte) : length a = length b -> wipe_bytes a = wipe_bytes b.
  Proof.
    revert b. induction a as [|x a IH]; intros [|y b] H; try discriminate; [reflexivity|].
    cbn [wipe_bytes map]. f_equal. apply IH. injection H as H. exact H.
  Qed.
  Lemma drop_values_same {V W} (f : V -> V) (g : V -> W) (a b : option (bmap V)) :
    (forall v v', g v = g v' -> f v = f v') -> same_shape g a b ->
    option_map (drop_values f) a = option_map (drop_values f) b.
  Proof.
    intros Hf. unfold same_shape. destruct a as [a|], b as [b|]; cbn; try congruence. intros H. injection H as H. f_equal.
    revert b H. induction a as [|[k v] a IH]; intros [|[k' v'] b] H; try discriminate; [reflexivity|].
    cbn in *. injection H as H1 H2 H3. subst k'. f_equal; [f_equal; apply Hf, H2|apply IH, H3].
  Qed.
  Lemma signing_key_erase_fst idx shares : forall k, fst (signing_key_erase idx shares k) = signing_key_loop idx shares k.
  Proof.
    induction shares as [|[i s] l IH]; intros k; cbn [signing_key_erase signing_key_loop]; [reflexivity|].
    destruct (lagrange i idx) as [c|e|]; [|reflexivity|reflexivity].
    rewrite <- IH. destruct (signing_key_erase idx l _) as [o l']. reflexivity.
  Qed.
  (** the shares left have the same keys *)
  Lemma signing_key_erase_keys idx shares : forall k, bkeys (snd (signing_key_erase idx shares k)) = bkeys shares.
  Proof.
    induction shares as [|[i s] l IH]; intros k; cbn [signing_key_erase]; [reflexivity|].
    destruct (lagrange i idx) as [c|e|]; [|reflexivity|reflexivity].
    specialize (IH (k + sh_value s * c)%F). destruct (signing_key_erase idx l _) as [o l']. cbn in *. f_equal. exact IH.
  Qed.
  Lemma signing_key_erase_ok idx shares : forall k v, fst (signing_key_erase idx shares k) = Ok v ->
    forall j s, In (j, s) (snd (signing_key_erase idx shares k)) -> s = MkShare u32_zero u32_zero F0.
  Proof.
    induction shares as [|[i s] l IH]; intros k v; cbn [signing_key_erase]; [intros _ j s []|].
    destruct (lagrange i idx) as [c|e|]; [|discriminate|discriminate].
    specialize (IH (k + sh_value s * c)%F v). destruct (signing_key_erase idx l _) as [o l']. cbn [fst snd] in *.
    intros -> j s' [H|H]; [|apply (IH eq_refl j s' H)]. injection H as _ <-. reflexivity.
  Qed.
  Lemma finish_erase_fst s : fst (fst (finish_erase s)) = finish s.
  Proof.
    unfold finish_erase, finish, calculate_signing_key. destruct (ds_shares (st2 s)) as [shares|]; [|reflexivity].
    rewrite <- (signing_key_erase_fst (bkeys shares) shares F0). destruct (signing_key_erase _ _ _) as [o l]. cbn [fst snd].
    destruct o; reflexivity.
  Qed.
  Lemma same_keys_shape {V} (a b : bmap V) : bkeys a = bkeys b ->
    map (fun kv : u32 * V => (fst kv, tt)) a = map (fun kv => (fst kv, tt)) b.
  Proof.
    revert b. induction a as [|[k v] a IH]; intros [|[k' v'] b] H; try discriminate; [reflexivity|].
    cbn in *. injection H as -> H. f_equal. apply IH, H.
  Qed.
  Lemma same_shape_keys {V} (a b : bmap V) : same_shape (fun _ => tt) (Some a) (Some b) -> bkeys a = bkeys b.
  Proof.
    intros H. unfold same_shape in H. cbn in H. injection H as H.
    apply (f_equal (map fst)) in H. rewrite !map_map in H. exact H.
  Qed.
End Erase.

(** C75 *)
Theorem C75_dropped_values_keep_no_secret :
  forall (S : Suite) (L : SuiteLaws S),
  (forall p p', wipe_nonce_pair p = wipe_nonce_pair p') /\
  (forall c c', wipe_commitment_share c = wipe_commitment_share c') /\
  (forall l l', length l = length l' -> wipe_coefficients l = wipe_coefficients l') /\
  (forall s s', wipe_secret_share s = wipe_secret_share s') /\
  (forall e e', length (es_ct e) = length (es_ct e') -> wipe_enc_share e = wipe_enc_share e') /\
  (forall x x', wipe_dh_private x = wipe_dh_private x') /\
  (forall k k', wipe_signing_key k = wipe_signing_key k') /\
  (forall st st', same_public st st' -> drop_actual_state st = drop_actual_state st').
Proof.
  intros S L. repeat (split; [try reflexivity|]).
  - unfold wipe_coefficients. induction l as [|x l IH]; intros [|y l'] H; try discriminate; [reflexivity|].
    cbn [map]. f_equal. apply IH. injection H as H. exact H.
  - intros e e' H. unfold wipe_enc_share. rewrite (wipe_bytes_len _ _ H). reflexivity.
  - intros st st' [E1 E2 E3 E4 E5 E6 E7]. unfold drop_actual_state. rewrite E1, E2, E3, E4, E5.
    rewrite (drop_values_same wipe_enc_share (fun e => length (es_ct e)) (ds_enc st) (ds_enc st')); [| |exact E6].
    2:{ intros e e' H. unfold wipe_enc_share. rewrite (wipe_bytes_len _ _ H). reflexivity. }
    rewrite (drop_values_same wipe_secret_share (fun _ => tt) (ds_shares st) (ds_shares st')); [|reflexivity|exact E7].
    reflexivity.
Qed.
Print Assumptions C75_dropped_values_keep_no_secret.

(** finish gives the result of the plain model; on success every share was wiped before the state is dropped; after the
    drop, whatever the outcome, the memory does not depend on the secrets *)
Theorem C75_finish_erases_the_shares :
  forall (S : Suite) (L : SuiteLaws S) (st : DkgState) (o : result (G * SigningKey)) (before after : DkgState),
  finish_erase (R2 st) = (o, before, after) ->
  o = finish (R2 st) /\
  (forall out shares j s, o = Ok out -> ds_shares before = Some shares -> In (j, s) shares ->
     s = MkShare u32_zero u32_zero F0) /\
  (forall st' o' before' after', same_public st st' -> finish_erase (R2 st') = (o', before', after') -> after' = after).
Proof.
  intros S L st o before after E. split; [|split].
  - rewrite <- finish_erase_fst, E. reflexivity.
  - intros out shares j s Ho Hs Hin. unfold finish_erase in E. cbn [st2] in E. destruct (ds_shares st) as [sh|].
    + pose proof (signing_key_erase_ok (bkeys sh) sh F0) as K.
      destruct (signing_key_erase (bkeys sh) sh F0) as [r left]. injection E as E1 E2 E3. cbn [fst snd] in K.
      rewrite Ho in E1. destruct r as [v|e|]; [|discriminate|discriminate].
      rewrite <- E2 in Hs. cbn [ds_shares] in Hs. injection Hs as <-. eapply (K v eq_refl), Hin.
    + injection E as E1 _ _. congruence.
  - intros st' o' before' after' HP E'.
    assert (A : forall z, snd (finish_erase (R2 z)) = drop_actual_state z).
    { intros z. unfold finish_erase. cbn [st2]. destruct (ds_shares z) as [sh|] eqn:Esh; [|reflexivity].
      pose proof (signing_key_erase_keys (bkeys sh) sh F0) as K. destruct (signing_key_erase (bkeys sh) sh F0) as [r left].
      cbn [snd] in *. apply (proj2 (proj2 (proj2 (proj2 (proj2 (proj2 (proj2 (C75_dropped_values_keep_no_secret S L)))))))).
      constructor; try reflexivity. cbn [ds_shares]. rewrite Esh. unfold same_shape. cbn [option_map]. f_equal.
      apply same_keys_shape, K. }
    pose proof (A st) as A1. pose proof (A st') as A2. rewrite E in A1. rewrite E' in A2. cbn [snd] in A1, A2.
    rewrite A1, A2. symmetry. apply (C75_dropped_values_keep_no_secret S L), HP.
Qed.
Print Assumptions C75_finish_erases_the_shares.

(** participant 1 of the three-party run: the shares received and the Diffie-Hellman secret are there before the call *)
Definition C75_shares (st : DkgState) : option (list F) := option_map (map (fun kv => sh_value (snd kv))) (ds_shares st).
Definition C75_round_two : result RoundTwo :=
  let* (s2, _, _) := to_round_two Debug (demo_r1 demo_ps 1) (demo_shares 1) 7%N in Ok s2.
Example C75_ex :
  (let* s2 := C75_round_two in
   let '(o, before, after) := finish_erase s2 in
   let* (_, k) := o in
   Ok (C75_shares (st2 s2), C75_shares before, C75_shares after, ds_dh_sk before, ds_dh_sk after)) =
  Ok (Some (map (fun i => (poly_value (dealer_co 3 2 i (10 * i)) (mk 1))) [1; 2; 3]%N), Some [mk 0; mk 0; mk 0],
      Some [mk 0; mk 0; mk 0], dealer_x 3 2 1 10, mk 0) /\
  map (fun i => Feqb (poly_value (dealer_co 3 2 i (10 * i)) (mk 1)) (mk 0)) [1; 2; 3]%N = [false; false; false] /\
  Feqb (dealer_x 3 2 1 10) (mk 0) = false.
Proof. vms. Qed.
(** another state with the same public part, other secrets *)
Definition other_secrets (st : DkgState) : DkgState :=
  MkState (ds_params st) (ds_index st) (mk 5) (ds_dh_pk st) (ds_comms st) (ds_dhs st) (ds_enc st)
    (option_map (map (fun kv => (fst kv, MkShare (u 9) (u 9) (mk 6)))) (ds_shares st)).
Lemma other_secrets_same st : same_public st (other_secrets st).
Proof.
  constructor; try reflexivity. unfold same_shape, other_secrets. cbn [ds_shares]. destruct (ds_shares st); [|reflexivity].
  cbn [option_map]. f_equal. rewrite map_map. reflexivity.
Qed.
Example C75_ex_other :
  (let* s2 := C75_round_two in Ok (C75_shares (other_secrets (st2 s2)), Feqb (ds_dh_sk (st2 s2)) (mk 5))) =
  Ok (Some [mk 6; mk 6; mk 6], false).
Proof. vmr. Qed.

Section Buffer.
  Context {S : Suite} {L : SuiteLaws S}.
  Add Field F_fld : F_field.

  Definition buf_wf (b : Buf) : Prop := bf_len b <= length (bf_cells b).
  Lemma contents_len b : buf_wf b -> length (contents b) = bf_len b.
  Proof. intros H. unfold contents. rewrite firstn_length. unfold buf_wf in H. lia. Qed.
  Lemma buf_remove_cells b i : buf_wf b -> i < bf_len b -> length (bf_cells (buf_remove b i)) = length (bf_cells b).
  Proof.
    intros H Hi. unfold buf_remove, buf_wf in *. cbn [bf_cells]. rewrite !app_length, !firstn_length, !skipn_length. lia.
  Qed.
  Lemma buf_remove_contents b i : buf_wf b -> i < bf_len b -> contents (buf_remove b i) = remove_at (contents b) i.
  Proof.
    intros H Hi. unfold buf_wf in H. unfold contents, buf_remove, remove_at. cbn [bf_cells bf_len].
    rewrite app_assoc, firstn_app.
    assert (E : length (firstn i (bf_cells b) ++ firstn (bf_len b - i - 1) (skipn (i + 1) (bf_cells b))) = bf_len b - 1).
    { rewrite app_length, !firstn_length, skipn_length. lia. }
    rewrite E, Nat.sub_diag, firstn_O, app_nil_r, firstn_all2 by lia.
    rewrite firstn_firstn, Nat.min_l by lia. rewrite skipn_firstn_comm.
    replace (bf_len b - (i + 1)) with (bf_len b - i - 1) by lia. reflexivity.
  Qed.
  Lemma in_firstn {A} n (l : list A) x : In x (firstn n l) -> In x l.
  Proof. intros H. rewrite <- (firstn_skipn n l). apply in_or_app; left; exact H. Qed.
  Lemma in_skipn {A} n (l : list A) x : In x (skipn n l) -> In x l.
  Proof. intros H. rewrite <- (firstn_skipn n l). apply in_or_app; right; exact H. Qed.
  Lemma buf_remove_in b i c : In c (bf_cells (buf_remove b i)) -> In c (bf_cells b).
  Proof.
    unfold buf_remove. cbn [bf_cells]. intros H. apply in_app_or in H. destruct H as [H|H]; [eapply in_firstn, H|].
    apply in_app_or in H. destruct H as [H|H]; [eapply in_skipn, in_firstn, H|eapply in_skipn, H].
  Qed.
  Lemma in_split_last (c : CommitmentShare) l : In c l -> exists l1 l2, l = l1 ++ c :: l2 /\ ~ In c l2.
  Proof.
    intros H. destruct (proj2 (C57_drop_share S L l c) H) as (l1 & l2 & E & Hn & _). eauto.
  Qed.
  Lemma buf_drop_share_found b c : buf_wf b -> In c (contents b) ->
    exists i, i < bf_len b /\ buf_drop_share b c = buf_remove b i /\
      drop_share (MkSecList (contents b)) c = MkSecList (remove_at (contents b) i).
  Proof.
    intros Hw H. destruct (in_split_last c _ H) as (l1 & l2 & E & Hn). exists (length l1).
    split. { pose proof (contents_len b Hw) as X. rewrite E, app_length in X. cbn [length] in X. lia. }
    unfold buf_drop_share, drop_share. cbn [sl_commitments].
    assert (X : find_last c (contents b) 0 None = Some (length l1)).
    { rewrite E. rewrite find_last_split by exact Hn. reflexivity. }
    rewrite X. split; reflexivity.
  Qed.

  Lemma buf_sign_spec m k h gk b idx ss o b1 : buf_wf b -> buf_sign m k h gk b idx ss = (o, b1) ->
    sign m k h gk (MkSecList (contents b)) idx ss = (o, MkSecList (contents b1)) /\ buf_wf b1 /\
    length (bf_cells b1) = length (bf_cells b) /\ (forall c, In c (bf_cells b1) -> In c (bf_cells b)) /\
    ((forall p, o <> Ok p) -> b1 = b) /\
    (forall p, o = Ok p -> bf_len b = Datatypes.S (bf_len b1) /\
       exists cs i, nth_error (contents b) (N.to_nat idx) = Some cs /\ In cs (contents b) /\ i < bf_len b /\ b1 = buf_remove b i).
  Proof.
    intros Hw. unfold buf_sign. destruct (sign m k h gk (MkSecList (contents b)) idx ss) as [o' l'] eqn:E. cbn [fst].
    assert (F : (forall p, o' <> Ok p) -> l' = MkSecList (contents b)) by (intros Ho; eapply sign_fail; eassumption).
    destruct o' as [p|e|].
    - pose proof E as E'. apply sign_ok_inv in E'. destruct E' as [cs [H1 [_ [_ [H2 H3]]]]]. cbn in H1.
      rewrite nthN_nth, H1. intros X. injection X as <- <-.
      destruct (buf_drop_share_found b cs Hw (nth_error_In _ _ H1)) as (i & Hi & Eb & Ed).
      rewrite Eb. rewrite H3, Ed, <- buf_remove_contents by assumption. split; [reflexivity|].
      split. { unfold buf_wf. rewrite buf_remove_cells by assumption. unfold buf_wf in Hw. cbn [buf_remove bf_len]. lia. }
      split; [apply buf_remove_cells; assumption|]. split; [intros c; apply buf_remove_in|].
      split; [intros Ho; destruct (Ho p eq_refl)|]. intros q _. split; [cbn [buf_remove bf_len]; lia|].
      exists cs, i. split; [first [exact H1|reflexivity]|]. split; [eapply nth_error_In, H1|]. split; [exact Hi|reflexivity].
    - intros X. injection X as <- <-. rewrite F by discriminate.
      repeat split; auto; discriminate.
    - intros X. injection X as <- <-. rewrite F by discriminate.
      repeat split; auto; discriminate.
  Qed.

  Lemma buf_signings_inv m b us b' : buf_signings m b us b' -> buf_wf b ->
    signings m (contents b) us (contents b') /\ buf_wf b' /\ length (bf_cells b') = length (bf_cells b) /\
    bf_len b = length us + bf_len b' /\ (forall c, In c (bf_cells b') -> In c (bf_cells b)).
  Proof.
    induction 1 as [b|b k h gk idx ss p b1 cs us b2 Hs Hc H IH|b k h gk idx ss o b1 us b2 Hs Ho H IH]; intros Hw.
    - split; [constructor|]. repeat split; auto.
    - destruct (buf_sign_spec _ _ _ _ _ _ _ _ _ Hw Hs) as (A1 & A2 & A3 & A4 & _ & A5).
      destruct (IH A2) as (B1 & B2 & B3 & B4 & B5). destruct (A5 p eq_refl) as (C1 & _).
      split; [econstructor; eassumption|]. split; [exact B2|]. split; [congruence|]. split; [cbn [length]; lia|].
      intros c Hin. apply A4, B5, Hin.
    - destruct (buf_sign_spec _ _ _ _ _ _ _ _ _ Hw Hs) as (A1 & A2 & A3 & A4 & A5 & _).
      pose proof (A5 Ho) as Eb. subst b1.
      destruct (IH A2) as (B1 & B2 & B3 & B4 & B5). split; [econstructor; eassumption|]. auto.
  Qed.

  Lemma buf_signings_last m b us b' : buf_signings m b us b' -> buf_wf b -> bf_len b' = 0 -> us <> [] ->
    exists us1 x rest, us = us1 ++ [x] /\ bf_cells b' = us_pair x :: rest.
  Proof.
    induction 1 as [b|b k h gk idx ss p b1 cs us b2 Hs Hc H IH|b k h gk idx ss o b1 us b2 Hs Ho H IH]; intros Hw Hl Hu.
    - contradiction.
    - destruct (buf_sign_spec _ _ _ _ _ _ _ _ _ Hw Hs) as (A1 & A2 & A3 & A4 & _ & A5).
      destruct (A5 p eq_refl) as (C1 & cs' & i & C2 & C3 & C4 & C5).
      destruct us as [|x0 us0].
      + clear IH. destruct (buf_signings_inv _ _ _ _ H A2) as (_ & _ & _ & B4 & _). cbn [length] in B4.
        assert (E1 : bf_len b = 1) by lia. assert (i = 0) by lia. subst i.
        assert (cs' = cs) by congruence. subst cs'.
        assert (E2 : bf_cells b1 = bf_cells b).
        { subst b1. unfold buf_remove. rewrite E1. reflexivity. }
        (* the remaining calls fail *)
        assert (E3 : b2 = b1).
        { clear -H A2 L. remember [] as us eqn:Eu. revert A2. induction H as [b|b k h gk idx ss p b1 cs us b2 Hs Hc H IH|b k h gk idx ss o b1 us b2 Hs Ho H IH]; intros Hw.
          - reflexivity.
          - discriminate.
          - destruct (buf_sign_spec _ _ _ _ _ _ _ _ _ Hw Hs) as (_ & _ & _ & _ & A5 & _). rewrite (A5 Ho) in *. apply IH; assumption. }
        subst b2. destruct (bf_cells b) as [|c0 cells] eqn:Ec.
        { exfalso. unfold buf_wf in Hw. rewrite Ec in Hw. cbn in Hw. lia. }
        exists [], (MkUse k h gk ss cs p), cells. split; [reflexivity|]. rewrite E2. cbn [us_pair]. f_equal.
        assert (X : contents b = [c0]) by (unfold contents; rewrite E1, Ec; reflexivity).
        rewrite X in C3. destruct C3 as [C3|[]]. symmetry; congruence.
      + destruct (IH A2 Hl) as (us1 & x & rest & E1 & E2); [discriminate|].
        exists (MkUse k h gk ss cs p :: us1), x, rest. split; [cbn [app]; f_equal; exact E1|exact E2].
    - destruct (buf_sign_spec _ _ _ _ _ _ _ _ _ Hw Hs) as (_ & _ & _ & _ & A5 & _). rewrite (A5 Ho) in *. apply IH; assumption.
  Qed.

  Lemma signings_good m l us l' : signings m l us l' -> forall x, In x us -> good_indices (map sg_index (us_signers x)).
  Proof.
    induction 1 as [l|l k h gk idx ss p l1 cs us l2 Hs Hc A IH|l k h gk idx ss o l1 us l2 Hs Ho A IH]; intros x Hin.
    - destruct Hin.
    - destruct Hin as [<-|Hin]; [|apply IH, Hin]. cbn [us_signers]. apply sign_ok_inv in Hs.
      destruct Hs as (cs' & _ & _ & Hg & _). exact Hg.
    - apply IH, Hin.
  Qed.
  Lemma key_from_nonces h gk ss i d e x x' : good_indices (map sg_index ss) ->
    session_chal h gk ss <> F0 ->
    partial_value h gk ss i d e x = partial_value h gk ss i d e x' -> x = x'.
  Proof.
    intros Hg Hc E. unfold partial_value in E.
    assert (Hw : weight i (map sg_index ss) <> F0) by apply weight_neq_0, Hg.
    revert Hc Hw E. generalize (weight i (map sg_index ss)) (session_chal h gk ss) (binding h ss i). intros w c b Hc Hw E.
    assert (E2 : (w * c * x)%F = (w * c * x')%F).
    { assert (X : (d + e * b + w * x * c - (d + e * b) = d + e * b + w * x' * c - (d + e * b))%F) by (rewrite E; reflexivity).
      replace (w * c * x)%F with (d + e * b + w * x * c - (d + e * b))%F by ring. rewrite X. ring. }
    assert (E3 : x = ((w * c * x) * Finv (w * c))%F) by (field; split; assumption).
    rewrite E3, E2. field. split; assumption.
  Qed.
End Buffer.

(** C76: the buffer holds what the plain model says, but used pairs stay in its unused cells *)
Theorem C76_buffer_refines_the_list :
  forall (S : Suite) (L : SuiteLaws S) (m : build) (l : SecretList) (us : list Use) (b : Buf),
  buf_signings m (buf_of l) us b -> signings m (sl_commitments l) us (contents b).
Proof.
  intros S L m l us b H. destruct (buf_signings_inv m _ us b H) as (A & _); [apply le_n|].
  unfold buf_of, contents at 1 in A. cbn [bf_len bf_cells] in A. rewrite firstn_all in A. exact A.
Qed.
Print Assumptions C76_buffer_refines_the_list.

(** refuted: a used pair is not wiped from memory. After k successful calls the memory freed by dropping the
    list holds k pairs of the original list *)
Theorem C76_used_pairs_are_wiped_refuted :
  forall (S : Suite) (L : SuiteLaws S) (m : build) (l : SecretList) (us : list Use) (b : Buf),
  buf_signings m (buf_of l) us b ->
  exists live stale, buf_free b = live ++ stale /\ length stale = length us /\
    (forall c, In c stale -> In c (sl_commitments l)) /\
    (forall c, In c live -> c = MkCS (MkCom F0 Gzero) (MkCom F0 Gzero)).
Proof.
  intros S L m l us b H. destruct (buf_signings_inv m _ us b H) as (A & W & E1 & E2 & E3); [apply le_n|].
  exists (map wipe_commitment_share (contents b)), (skipn (bf_len b) (bf_cells b)). split; [reflexivity|].
  split. { rewrite skipn_length, E1. cbn [buf_of bf_cells bf_len] in *. unfold buf_wf in W. lia. }
  split. { intros c Hc. apply (E3 c). eapply in_skipn, Hc. }
  intros c Hc. apply in_map_iff in Hc. destruct Hc as (x & <- & _). reflexivity.
Qed.
Print Assumptions C76_used_pairs_are_wiped_refuted.

(** once the list is used up, the pair of the last signature is among them; together with that signature it
    gives away the signing key *)
Theorem C76_last_pair_reveals_the_key :
  forall (S : Suite) (L : SuiteLaws S) (m : build) (l : SecretList) (us : list Use) (b : Buf),
  buf_signings m (buf_of l) us b -> contents b = [] -> us <> [] ->
  exists us1 x, us = us1 ++ [x] /\ In (us_pair x) (buf_free b) /\
    (session_chal (us_hash x) (us_gk x) (us_signers x) <> F0 -> forall y,
       ps_z (us_sig x) = partial_value (us_hash x) (us_gk x) (us_signers x) (sk_index (us_key x))
                           (co_secret (cs_hiding (us_pair x))) (co_secret (cs_binding (us_pair x))) y ->
       y = sk_key (us_key x)).
Proof.
  intros S L m l us b H Hb Hu. assert (W0 : buf_wf (buf_of l)) by apply le_n.
  destruct (buf_signings_inv m _ us b H W0) as (A & W & E1 & E2 & E3).
  assert (Hl : bf_len b = 0) by (rewrite <- (contents_len b W), Hb; reflexivity).
  destruct (buf_signings_last m _ us b H W0 Hl Hu) as (us1 & x & rest & Eu & Ec).
  exists us1, x. split; [exact Eu|]. split.
  { unfold buf_free. rewrite Hb, Hl, Ec. left. reflexivity. }
  intros Hc y Hy.
  assert (G : good_indices (map sg_index (us_signers x)) /\
    us_sig x = MkPSig (sk_index (us_key x)) (partial_value (us_hash x) (us_gk x) (us_signers x) (sk_index (us_key x))
      (co_secret (cs_hiding (us_pair x))) (co_secret (cs_binding (us_pair x))) (sk_key (us_key x)))).
  { assert (Hin : In x us) by (rewrite Eu; apply in_or_app; right; left; reflexivity).
    split; [|apply (C40_pairs_used_and_left S L m _ _ us A), Hin].
    apply (signings_good _ _ _ _ A x Hin). }
  destruct G as [Hg Es]. rewrite Es in Hy. cbn [ps_z] in Hy. symmetry. eapply key_from_nonces; [exact Hg|exact Hc|exact Hy].
Qed.
Print Assumptions C76_last_pair_reveals_the_key.

(** a list of two pairs, used up from the front: both cells hold the second pair *)
Definition C76_list : list CommitmentShare := [spair 1 0; spair 1 1].
Definition C76_run (m : build) : result PartialSig * result PartialSig * Buf :=
  let ss0 := [ssigner 1 0; ssigner 3 0] in let ss1 := [ssigner 1 1; ssigner 2 0] in
  let (o1, b1) := buf_sign m (skey 1) shash sgroup (buf_of (MkSecList C76_list)) 0 ss0 in
  let (o2, b2) := buf_sign m (skey 1) [] sgroup b1 0 ss1 in (o1, o2, b2).
Definition C76_first : PartialSig := MkPSig (u 1) (partial_value shash sgroup [ssigner 1 0; ssigner 3 0] (u 1)
  (co_secret (cs_hiding (spair 1 0))) (co_secret (cs_binding (spair 1 0))) (mk 1077)).
Definition C76_second : PartialSig := MkPSig (u 1) (partial_value [] sgroup [ssigner 1 1; ssigner 2 0] (u 1)
  (co_secret (cs_hiding (spair 1 1))) (co_secret (cs_binding (spair 1 1))) (mk 1077)).
Example C76_ex :
  C76_run Release = (Ok C76_first, Ok C76_second, MkBuf [spair 1 1; spair 1 1] 0) /\
  buf_free (MkBuf [spair 1 1; spair 1 1] 0) = [spair 1 1; spair 1 1] /\
  Feqb (session_chal [] sgroup [ssigner 1 1; ssigner 2 0]) (mk 0) = false.
Proof. vms. Qed.
(** such a history *)
Lemma C76_step1 : buf_sign Release (skey 1) shash sgroup (buf_of (MkSecList C76_list)) 0 [ssigner 1 0; ssigner 3 0] =
  (Ok C76_first, MkBuf [spair 1 1; spair 1 1] 1).
Proof. vmr. Qed.
Lemma C76_step2 : buf_sign Release (skey 1) [] sgroup (MkBuf [spair 1 1; spair 1 1] 1) 0 [ssigner 1 1; ssigner 2 0] =
  (Ok C76_second, MkBuf [spair 1 1; spair 1 1] 0).
Proof. vmr. Qed.
Example C76_ex_history :
  buf_signings Release (buf_of (MkSecList C76_list))
    [MkUse (skey 1) shash sgroup [ssigner 1 0; ssigner 3 0] (spair 1 0) C76_first;
     MkUse (skey 1) [] sgroup [ssigner 1 1; ssigner 2 0] (spair 1 1) C76_second] (MkBuf [spair 1 1; spair 1 1] 0).
Proof.
  eapply bs_ok; [exact C76_step1|reflexivity|]. eapply bs_ok; [exact C76_step2|reflexivity|]. apply bs_nil.
Qed.
