(** C125, the other direction: what the operations do show. Whoever sees which operations run learns exactly the public
    shape: the numbers, which shares open and match, and which pair of nonces was used. *)
From Coq Require Import String Strings.Byte Arith NArith ZArith Bool List Lia Field.
From Verif Require Import Base Suite Spec SpecDkg SpecSign Types ModelDkg ModelSign ModelTrace Algebra BaseLemmas LemmasShare LemmasRound2 LemmasFinish LemmasSign
  Toy Demo DemoDkg DemoSign PropsTrace.
Import ListNotations.

Section Back.
  Context {S : Suite} {L : SuiteLaws S}.
  Ltac ss := repeat (rewrite snd_bind || rewrite fst_bind || cbn [fst snd pure does test app]).
  Ltac sh H := repeat (rewrite snd_bind in H || rewrite fst_bind in H || (progress cbn [fst snd pure does test app] in H));
               repeat (rewrite <- app_assoc in H); cbn [app] in H.

  Lemma cons_inv {A} (a b : A) x y : a :: x = b :: y -> a = b /\ x = y.
  Proof. intros H. split; congruence. Qed.
  Lemma event_inv a b : Test a = Test b -> a = b.
  Proof. congruence. Qed.
  Ltac ce H := match type of H with _ :: _ = _ :: _ => apply cons_inv in H; destruct H as [_ H] end.

  Lemma back_find c c' : forall l l' i i' f f' r r',
    snd (t_find_last c l i f) ++ r = snd (t_find_last c' l' i' f') ++ r' ->
    map (fun s => cs_eqb s c) l = map (fun s => cs_eqb s c') l' /\ r = r'.
  Proof.
    induction l as [|s l IH]; intros [|s' l'] i i' f f' r r' H; cbn [t_find_last] in H; sh H.
    - repeat ce H. split; [reflexivity|exact H].
    - discriminate H.
    - discriminate H.
    - repeat ce H. rewrite (snd_cs s c s' c') in H. apply app_inv_head in H. apply cons_inv in H. destruct H as [Hb H]. apply event_inv in Hb.
      rewrite !fst_cs in *. apply IH in H. destruct H as [H1 H2]. split; [|exact H2]. cbn [map]. rewrite Hb, H1. reflexivity.
  Qed.
  Lemma back_drop l c l' c' r r' : snd (t_drop_share l c) ++ r = snd (t_drop_share l' c') ++ r' ->
    map (fun s => cs_eqb s c) (sl_commitments l) = map (fun s => cs_eqb s c') (sl_commitments l').
  Proof.
    intros H. unfold t_drop_share in H. rewrite !snd_bind, <- !app_assoc in H. apply back_find in H. exact (proj1 H).
  Qed.
  Lemma pattern_nth c c' : forall l l' : list CommitmentShare, map (fun s => cs_eqb s c) l = map (fun s => cs_eqb s c') l' ->
    length l = length l' /\ forall j, nth_error l j = Some c <-> nth_error l' j = Some c'.
  Proof.
    intros l l' H. split; [apply (f_equal (@length bool)) in H; rewrite !map_length in H; exact H|].
    intros j. apply (f_equal (fun m => nth_error m j)) in H. rewrite !nth_error_map in H.
    destruct (nth_error l j) as [a|], (nth_error l' j) as [a'|]; cbn [option_map] in H; try discriminate H; [|split; discriminate].
    injection H as H. split; intros E; injection E as ->.
    - rewrite (proj2 (cs_eqb_spec c c) eq_refl) in H. symmetry in H. apply cs_eqb_spec in H. congruence.
    - rewrite (proj2 (cs_eqb_spec c' c') eq_refl) in H. apply cs_eqb_spec in H. congruence.
  Qed.

  (** *** evaluating a polynomial: the number of coefficients *)
  Lemma back_eval x x' len len' : forall cs cs' k k' s s' r r', len = k + length cs -> len' = k' + length cs' ->
    snd (t_eval_loop x len k cs s) ++ r = snd (t_eval_loop x' len' k' cs' s') ++ r' -> length cs = length cs' /\ r = r'.
  Proof.
    induction cs as [|c cs IH]; intros [|c' cs'] k k' s s' r r' E E' H; cbn [t_eval_loop] in H; sh H.
    - repeat ce H. split; [reflexivity|exact H].
    - discriminate H.
    - discriminate H.
    - ce H. ce H. apply cons_inv in H. destruct H as [Hb H]. apply event_inv in Hb. cbn [length] in E, E'.
      assert (H' : snd (t_eval_loop x len (k + 1) cs (fst (if negb (k =? len - 1) then does FMul ((s + c) * x)%F else pure (s + c)%F))) ++ r =
        snd (t_eval_loop x' len' (k' + 1) cs' (fst (if negb (k' =? len' - 1) then does FMul ((s' + c') * x')%F else pure (s' + c')%F))) ++ r').
      { rewrite <- Hb in *. destruct (negb (k =? len - 1)); cbn [fst snd pure does app] in *; [ce H; exact H|exact H]. }
      apply IH in H'; [|lia|lia]. destruct H' as [H1 H2]. split; [cbn [length]; congruence|exact H2].
  Qed.
  Lemma back_poly i j cs i' j' cs' r r' :
    snd (t_evaluate_polynomial i j cs) ++ r = snd (t_evaluate_polynomial i' j' cs') ++ r' -> length cs = length cs' /\ r = r'.
  Proof.
    unfold t_evaluate_polynomial. intros H. sh H. apply back_eval in H; [|rewrite rev_length; reflexivity|rewrite rev_length; reflexivity].
    rewrite !rev_length in H. exact H.
  Qed.
  (** *** dealing: the numbers of participants and of coefficients *)
  Lemma back_all i sk cs i' sk' cs' : forall ps ps' acc acc' q q' r r',
    snd (t_encrypt_all i sk cs ps acc q) ++ r = snd (t_encrypt_all i' sk' cs' ps' acc' q') ++ r' ->
    length ps = length ps' /\ (ps <> [] -> length cs = length cs') /\ r = r'.
  Proof.
    induction ps as [|p ps IH]; intros [|p' ps'] acc acc' q q' r r' H; cbn [t_encrypt_all] in H; sh H.
    - repeat ce H. split; [reflexivity|]. split; [intros X; contradiction|exact H].
    - discriminate H.
    - discriminate H.
    - repeat ce H. apply back_poly in H. destruct H as [Hc H]. repeat ce H. rewrite !fst_poly, !fst_encrypt, <- !app_assoc in H.
      match type of H with snd (t_encrypt_share ?s ?k ?z) ++ _ = snd (t_encrypt_share ?s' ?k' ?z') ++ _ =>
        destruct (encrypt_ok s k z) as (e & r1 & E); destruct (encrypt_ok s' k' z') as (e' & r1' & E');
        rewrite (snd_encrypt s k z s' k' z') in H by (apply enc_point_len); rewrite E, E' in H end.
      apply app_inv_head in H. sh H. repeat ce H. apply IH in H. destruct H as (H1 & H2 & H3).
      split; [cbn [length]; congruence|]. split; [intros _; exact Hc|exact H3].
  Qed.

  (** *** the second round *)
  (** whether the loop over the commitments meets one the share does not match *)
  Definition objected (st : DkgState) (e : EncShare) : bool := match ds_comms st with Some cs => existsb (fun b => b) (refused st e cs) | None => false end.
  Lemma back_check i d d' : is_ok d = is_ok d' -> forall cs cs' r r', bkeys cs = bkeys cs' ->
    snd (t_check_share i d cs) ++ r = snd (t_check_share i d' cs') ++ r' ->
    fst (t_check_share i d cs) = fst (t_check_share i d' cs') /\ r = r'.
  Proof.
    intros Hd. induction cs as [|[j c] cs IH]; intros [|[j' c'] cs'] r r' Hk H; try discriminate Hk.
    - cbn [t_check_share] in H. sh H. repeat ce H. split; [reflexivity|exact H].
    - assert (Ej : j' = j) by (injection Hk as E _; congruence). subst j'.
      assert (Hk' : bkeys cs = bkeys cs') by (injection Hk as E; exact E).
      cbn [t_check_share] in *. sh H. ss. repeat ce H.
      destruct (u32_eqb j i); [|apply IH; assumption].
      destruct d as [s|e|], d' as [s'|e'|]; try discriminate Hd; try (sh H; repeat ce H; ss; split; [reflexivity|exact H]).
      sh H. ss. repeat ce H. rewrite !fst_verify in *. unfold t_share_verify in H. sh H. do 3 ce H. apply cons_inv in H. destruct H as [Hb H]. apply event_inv in Hb.
      pose proof (fst_verify s c) as V. pose proof (fst_verify s' c') as V'. unfold t_share_verify in V, V'.
      repeat (rewrite fst_bind in V || (progress cbn [fst snd pure does test] in V)).
      repeat (rewrite fst_bind in V' || (progress cbn [fst snd pure does test] in V')).
      rewrite <- V, <- V' in *. rewrite <- Hb in *.
      destruct (Geqb _ _); [apply IH; assumption|]. cbn [pure fst snd app] in *. split; [reflexivity|exact H].
  Qed.
  Lemma objected_check st e cs : ds_comms st = Some cs -> forall pk, bget (es_sender e) (ds_dhs st) = Some pk ->
    is_ok (decrypt_share e (enc_point (pk * ds_dh_sk st)%G)) = true ->
    fst (t_check_share (es_sender e) (decrypt_share e (enc_point (pk * ds_dh_sk st)%G)) cs) = objected st e.
  Proof.
    intros Ec pk Ep Ho. rewrite fst_check. unfold objected. rewrite Ec. unfold refused, plain. rewrite Ep.
    unfold decrypt_share in *. destruct (aead_dec _ _ _) as [b|]; [|discriminate Ho]. destruct (dec_scalar b) as [[v q]|]; [|discriminate Ho].
    clear Ho Ec. induction cs as [|[j c] cs IH]; [reflexivity|]. cbn [find map existsb fst snd bad_share].
    destruct (u32_eqb j (es_sender e) && negb (is_ok (share_verify _ c))); [reflexivity|]. exact IH.
  Qed.
  Lemma objected_closed st e cs : ds_comms st = Some cs -> forall pk, bget (es_sender e) (ds_dhs st) = Some pk ->
    is_ok (decrypt_share e (enc_point (pk * ds_dh_sk st)%G)) = false -> objected st e = false.
  Proof.
    intros Ec pk Ep Ho. unfold objected. rewrite Ec. unfold refused, plain. rewrite Ep.
    unfold decrypt_share in *. destruct (aead_dec _ _ _) as [b|]; [|reflexivity]. destruct (dec_scalar b) as [[v q]|]; [discriminate Ho|reflexivity].
  Qed.
  Lemma back_decrypt st st' e e' pk pk' r r' : bget (es_sender e) (ds_dhs st) = Some pk -> bget (es_sender e') (ds_dhs st') = Some pk' ->
    snd (t_decrypt_share e (enc_point (pk * ds_dh_sk st)%G)) ++ r = snd (t_decrypt_share e' (enc_point (pk' * ds_dh_sk st')%G)) ++ r' ->
    length (es_ct e) = length (es_ct e') /\ opening st e = opening st' e' /\
    is_ok (decrypt_share e (enc_point (pk * ds_dh_sk st)%G)) = is_ok (decrypt_share e' (enc_point (pk' * ds_dh_sk st')%G)) /\ r = r'.
  Proof.
    intros Ep Ep' H. unfold opening, plain. rewrite Ep, Ep'. unfold t_decrypt_share in H. unfold decrypt_share. sh H.
    ce H. apply cons_inv in H. destruct H as [Hl H]. assert (Hl' : length (es_ct e) = length (es_ct e')) by congruence. clear Hl. rename Hl' into Hl.
    destruct (aead_dec (hkdf (enc_point (pk * ds_dh_sk st)%G)) _ _) as [b|]; destruct (aead_dec (hkdf (enc_point (pk' * ds_dh_sk st')%G)) _ _) as [b'|];
      sh H; try discriminate H; [|repeat ce H; split; [exact Hl|split; [reflexivity|split; [reflexivity|exact H]]]].
    ce H. apply cons_inv in H. destruct H as [Hb0 H]. assert (Hb : length b = length b') by congruence. cbn [option_map].
    destruct (dec_scalar b) as [[v q]|]; destruct (dec_scalar b') as [[v' q']|]; sh H; try discriminate H; repeat ce H; rewrite Hb;
      (split; [exact Hl|split; [reflexivity|split; [reflexivity|exact H]]]).
  Qed.
  (** what the second round shows of one share *)
  Definition shown (st st' : DkgState) (e e' : EncShare) : Prop :=
    length (es_ct e) = length (es_ct e') /\ opening st e = opening st' e' /\ objected st e = objected st' e'.
  Lemma back_loop2 m st st' cs0 cs0' : ds_comms st = Some cs0 -> ds_comms st' = Some cs0' -> bkeys cs0 = bkeys cs0' -> forall es es' sh sh' cp cp' r r' q q',
    length es = length es' ->
    Forall (fun e => es_receiver e = ds_index st /\ bget (es_sender e) (ds_dhs st) <> None) es ->
    Forall (fun e => es_receiver e = ds_index st' /\ bget (es_sender e) (ds_dhs st') <> None) es' ->
    map es_sender es = map es_sender es' ->
    snd (t_round_two_loop m st es sh cp r) ++ q = snd (t_round_two_loop m st' es' sh' cp' r') ++ q' ->
    Forall2 (shown st st') es es'.
  Proof.
    intros C C' Ck. induction es as [|e es IH]; intros [|e' es'] sh sh' cp cp' r r' q q' Hl F F' M H; try discriminate Hl; [constructor|].
    inversion F as [|? ? [Hr Hs] Fs]. inversion F' as [|? ? [Hr' Hs'] Fs']. subst. injection M as M1 M2. injection Hl as Hl.
    cbn [t_round_two_loop] in H. sh H.
    rewrite Hr, Hr', !(proj2 (u32_eqb_spec _ _) eq_refl) in H. cbn [negb] in H. rewrite !andb_false_r in H. cbn [app] in H.
    destruct (bget (es_sender e) (ds_dhs st)) as [pk|] eqn:Ep; [|contradiction]. destruct (bget (es_sender e') (ds_dhs st')) as [pk'|] eqn:Ep'; [|contradiction].
    sh H. repeat ce H. apply (back_decrypt _ _ _ _ _ _ _ _ Ep Ep') in H. destruct H as (K1 & K2 & K3 & H).
    rewrite C, C' in H. sh H. rewrite !fst_decrypt in H. repeat ce H.
    set (d := decrypt_share e (enc_point (pk * ds_dh_sk st)%G)) in *. set (d' := decrypt_share e' (enc_point (pk' * ds_dh_sk st')%G)) in *.
    rewrite <- M1 in H. apply (back_check (es_sender e) d d' K3 cs0 cs0' _ _ Ck) in H. destruct H as [K4 H].
    constructor.
    - split; [exact K1|]. split; [exact K2|]. destruct (is_ok d) eqn:Ed.
      + rewrite <- (objected_check st e cs0 C pk Ep Ed), <- (objected_check st' e' cs0' C' pk' Ep' (eq_sym K3)), <- M1. exact K4.
      + rewrite (objected_closed st e cs0 C pk Ep Ed), (objected_closed st' e' cs0' C' pk' Ep' (eq_sym K3)). reflexivity.
    - rewrite <- K4 in H. destruct (fst (t_check_share (es_sender e) d cs0)).
      + pose proof (snd_complaint pk (ds_dh_sk st) (pk * ds_dh_sk st)%G e r pk' (ds_dh_sk st') (pk' * ds_dh_sk st')%G e' r' K1) as Q.
        sh H. rewrite Q, !fst_complaint in H. apply app_inv_head in H.
        destruct (complaint_new pk _ _ e r) as [c1 r1]. destruct (complaint_new pk' _ _ e' r') as [c1' r1']. sh H.
        destruct d as [s|x|], d' as [s'|x'|]; try discriminate K3; sh H; repeat ce H; eapply IH; eassumption.
      + sh H. destruct d as [s|x|], d' as [s'|x'|]; try discriminate K3; sh H; repeat ce H; eapply IH; eassumption.
  Qed.

  (** *** signing *)
  Lemma sign_trace_ok m k h gk l i sgs z rest : sign m k h gk l i sgs = (Ok z, rest) ->
    exists c, nth_error (sl_commitments l) (N.to_nat i) = Some c /\
      trace (t_sign m k h gk l i sgs) =
        [Test false; Test true; Test true; Op Copy; Op FMul; Op FAdd; Op FMul; Op FMul; Op FAdd] ++ trace (t_drop_share l c).
  Proof.
    rewrite <- fst_sign. unfold trace, t_sign. destruct (usize_succ m i) as [i1|e|]; cbn [pure fst]; try discriminate.
    ss. destruct (N.ltb _ _); cbn [pure fst]; [discriminate|]. cbv zeta.
    match goal with |- context [match ?a with _ => _ end] => destruct a as [[[rho R] w]|e|] end; ss; try discriminate.
    rewrite nthN_nth. destruct (nth_error (sl_commitments l) (N.to_nat i)) as [c|]; ss; [|discriminate].
    intros _. exists c. split; [reflexivity|]. rewrite ?app_nil_r. reflexivity.
  Qed.
End Back.

(** removing a pair shows the length of the list and the places where the pair stands: with [C125_drop_trace], exactly that *)
Theorem C125_drop_trace_shows :
  forall (S : Suite) (L : SuiteLaws S) (l l' : SecretList) (c c' : CommitmentShare),
  trace (t_drop_share l c) = trace (t_drop_share l' c') ->
  length (sl_commitments l) = length (sl_commitments l') /\
  forall j, nth_error (sl_commitments l) j = Some c <-> nth_error (sl_commitments l') j = Some c'.
Proof.
  intros S L l l' c c' H. apply pattern_nth. apply (back_drop _ _ _ _ [] []). rewrite !app_nil_r. exact H.
Qed.

(** dealing shows the numbers of participants and of coefficients *)
Theorem C125_dealing_trace_shows :
  forall (S : Suite) (L : SuiteLaws S) (i i' : u32) (x x' : F) (co co' : list F) (ps ps' : list Participant) (acc acc' : bmap EncShare) (r r' : Rng),
  ps <> [] -> trace (t_encrypt_all i x co ps acc r) = trace (t_encrypt_all i' x' co' ps' acc' r') ->
  length ps = length ps' /\ length co = length co'.
Proof.
  intros S L i i' x x' co co' ps ps' acc acc' r r' Hn H.
  destruct (back_all i x co i' x' co' ps ps' acc acc' r r' [] []) as (H1 & H2 & _); [rewrite !app_nil_r; exact H|].
  split; [exact H1|apply H2, Hn].
Qed.

(** the second round shows of every share whether it opens, to how many bytes, whether these are a scalar and whether it
    is refused *)
Theorem C125_round_two_trace_shows :
  forall (S : Suite) (L : SuiteLaws S) (m : build) (s s' : RoundOne) (comms comms' : bmap Vss) (es es' : list EncShare) (r r' : Rng),
  ds_comms (st1 s) = Some comms -> ds_comms (st1 s') = Some comms' -> bkeys comms = bkeys comms' ->
  Forall (fun e => es_receiver e = ds_index (st1 s) /\ bget (es_sender e) (ds_dhs (st1 s)) <> None) es ->
  Forall (fun e => es_receiver e = ds_index (st1 s') /\ bget (es_sender e) (ds_dhs (st1 s')) <> None) es' ->
  map es_sender es = map es_sender es' ->
  (u32v (p_t (ds_params (st1 s))) <= N.of_nat (length es))%N ->
  trace (t_to_round_two m s es r) = trace (t_to_round_two m s' es' r') ->
  Forall2 (fun e e' => length (es_ct e) = length (es_ct e') /\ opening (st1 s) e = opening (st1 s') e' /\
    (In true (refused (st1 s) e comms) <-> In true (refused (st1 s') e' comms'))) es es'.
Proof.
  intros S L m s s' comms comms' es es' r r' C C' Ck F F' M Ht H.
  assert (Hl : length es = length es') by (apply (f_equal (@length u32)) in M; rewrite !map_length in M; exact M).
  unfold trace, t_to_round_two in H. rewrite !snd_bind in H. cbn [test fst snd ds_params app] in H.
  rewrite (proj2 (N.ltb_ge _ _) Ht) in H. apply cons_inv in H. destruct H as [Hb H]. apply event_inv in Hb.
  rewrite <- Hb in H. rewrite !snd_bind in H.
  eapply back_loop2 in H; [|exact C|exact C'|exact Ck|exact Hl|exact F|exact F'|exact M].
  clear Hb. assert (W : forall st e cs, ds_comms st = Some cs -> (objected st e = true <-> In true (refused st e cs))).
  { intros st e cs E. unfold objected. rewrite E, existsb_exists. split; [intros (b & Hb & ->); exact Hb|intros Hb; exists true; split; [exact Hb|reflexivity]]. }
  clear - H W C C'. induction H as [|e e' es es' (H1 & H2 & H3) H IH]; constructor; [|exact IH].
  split; [exact H1|]. split; [exact H2|]. rewrite <- (W (st1 s) e comms C), <- (W (st1 s') e' comms' C').
  cbn [ds_comms] in H3. unfold objected in *. cbn [ds_comms] in *. rewrite C, C' in *. unfold refused, plain in *. cbn [ds_dhs ds_dh_sk] in *.
  rewrite H3. reflexivity.
Qed.

(** a successful signature shows the length of the list and the places of the used pair: the position, if no pair is
    repeated *)
Theorem C125_sign_trace_shows :
  forall (S : Suite) (L : SuiteLaws S) (m : build) (k k' : SigningKey) (h h' : list byte) (gk gk' : G) (l l' rest rest' : SecretList) (i i' : N)
    (sgs sgs' : list Signer) (z z' : PartialSig),
  sign m k h gk l i sgs = (Ok z, rest) -> sign m k' h' gk' l' i' sgs' = (Ok z', rest') ->
  trace (t_sign m k h gk l i sgs) = trace (t_sign m k' h' gk' l' i' sgs') ->
  length (sl_commitments l) = length (sl_commitments l') /\
  (forall j, nth_error (sl_commitments l) j = nth_error (sl_commitments l) (N.to_nat i) <->
             nth_error (sl_commitments l') j = nth_error (sl_commitments l') (N.to_nat i')) /\
  (NoDup (sl_commitments l) -> i = i').
Proof.
  intros S L m k k' h h' gk gk' l l' rest rest' i i' sgs sgs' z z' E E' H.
  destruct (sign_trace_ok m k h gk l i sgs z rest E) as (c & Hc & T).
  destruct (sign_trace_ok m k' h' gk' l' i' sgs' z' rest' E') as (c' & Hc' & T').
  rewrite T, T' in H. apply app_inv_head in H.
  rewrite <- (app_nil_r (trace (t_drop_share l c))), <- (app_nil_r (trace (t_drop_share l' c'))) in H.
  apply back_drop in H. apply pattern_nth in H. destruct H as [Hl Hp].
  split; [exact Hl|]. rewrite Hc, Hc'. split; [exact Hp|]. intros Hn.
  assert (X : nth_error (sl_commitments l) (N.to_nat i') = Some c) by (apply Hp; exact Hc').
  assert (Y : N.to_nat i' < length (sl_commitments l)) by (apply nth_error_Some; congruence).
  assert (Q : N.to_nat i' = N.to_nat i) by (apply (proj1 (NoDup_nth_error _) Hn); [exact Y|congruence]). lia.
Qed.

(** ** examples *)
(** a dealer with two coefficients, one other participant *)
Example C125_ex_dealing_shown :
  trace (t_encrypt_all (u 1) (mk 7%Z) [mk 1%Z; mk 0%Z] (firstn 1 demo_ps) [] 5%N) =
    [Test true; Test true; Op FAdd; Test true; Op FMul; Test true; Op FAdd; Test false; Test false; Op GMul; Op Write; Op (Kdf 6);
     Op (Draw 12); Op Write; Op (Seal 5); Test true; Test true; Op Wipe; Test false] /\
  (* one coefficient more is visible *)
  firstn 12 (trace (t_encrypt_all (u 1) (mk 7%Z) [mk 1%Z; mk 0%Z; mk 0%Z] (firstn 1 demo_ps) [] 5%N)) =
    [Test true; Test true; Op FAdd; Test true; Op FMul; Test true; Op FAdd; Test true; Op FMul; Test true; Op FAdd; Test false].
Proof. vms. Qed.
(** shares for participant 2: [sealing b] is dealer 1's share sealing the bytes [b] *)
Definition sealing (b : list byte) : EncShare :=
  let st := st1 (demo_r1 demo_ps 2) in
  match demo_shares 2, bget (u 1) (ds_dhs st) with
  | e :: _, Some pk =>
      MkEnc (es_sender e) (es_receiver e) (es_nonce e)
        match aead_enc (hkdf (enc_point (pk * ds_dh_sk st)%G)) (nonce_bytes (es_nonce e)) b with Some c => c | None => [] end
  | _, _ => MkEnc (u 9) (u 9) (fst (gen_nonce 0%N)) []
  end.
Definition seen (e : EncShare) : list event := trace (t_to_round_two Debug (demo_r1 demo_ps 2) (e :: skipn 1 (demo_shares 2)) 5%N).
(** the shares of dealers 2 and 3, accepted *)
Definition seen_rest : list event :=
  [Test true; Test false; Test true; Op GMul; Op Write; Op (Kdf 6); Op (Unseal 13); Test true; Op (Read 5); Test true; Test true;
   Test true; Test false; Test true; Test true; Test true; Op GMul; Op GAffine; Op GEqual; Test true; Test true; Test false; Test false; Test true] ++
  [Test true; Test false; Test true; Op GMul; Op Write; Op (Kdf 6); Op (Unseal 13); Test true; Op (Read 5); Test true; Test true;
   Test true; Test false; Test true; Test false; Test true; Test true; Test true; Op GMul; Op GAffine; Op GEqual; Test true; Test false; Test true] ++
  [Test false; Test true].
(** dealer 1's share: accepted; not opening; opening to no scalar; opening to a wrong scalar *)
Example C125_ex_round_two_shown :
  (match demo_shares 2 with e :: _ => seen e | [] => [] end) =
    [Test false; Test true; Test false; Test true; Op GMul; Op Write; Op (Kdf 6); Op (Unseal 13); Test true; Op (Read 5); Test true; Test true;
     Test true; Test true; Test true; Op GMul; Op GAffine; Op GEqual; Test true; Test true; Test false; Test true; Test false; Test false; Test true] ++ seen_rest /\
  seen (garbled (sealing (enc_scalar (mk 5%Z)))) =
    [Test false; Test true; Test false; Test true; Op GMul; Op Write; Op (Kdf 6); Op (Unseal 14); Test false; Test true;
     Test true; Test true; Test false; Op Sample; Op GMul; Op GMul; Op GMul; Op Write; Op (Hash 80); Op FMul; Op FAdd; Test false] ++ seen_rest /\
  seen (sealing []) =
    [Test false; Test true; Test false; Test true; Op GMul; Op Write; Op (Kdf 6); Op (Unseal 8); Test true; Op (Read 0); Test false; Test true;
     Test true; Test true; Test false; Op Sample; Op GMul; Op GMul; Op GMul; Op Write; Op (Hash 74); Op FMul; Op FAdd; Test false] ++ seen_rest /\
  seen (sealing (enc_scalar (mk 5%Z))) =
    [Test false; Test true; Test false; Test true; Op GMul; Op Write; Op (Kdf 6); Op (Unseal 13); Test true; Op (Read 5); Test true; Test true;
     Test true; Test true; Test true; Op GMul; Op GAffine; Op GEqual; Test false; Op Sample; Op GMul; Op GMul; Op GMul; Op Write; Op (Hash 79);
     Op FMul; Op FAdd; Test true] ++ seen_rest.
Proof. vms. Qed.
(** the ends that are no acceptance: too few shares, an unknown sender, a share for somebody else *)
Example C125_ex_round_two_ends :
  trace (t_to_round_two Debug (demo_r1 demo_ps 2) [] 5%N) = [Test true] /\
  trace (t_to_round_two Debug (demo_r1 demo_ps 2) (map (fun e => MkEnc (u 77) (es_receiver e) (es_nonce e) (es_ct e)) (demo_shares 2)) 5%N) =
    [Test false; Test true; Test false; Test false] /\
  trace (t_to_round_two Debug (demo_r1 demo_ps 2) (demo_shares 1) 5%N) = [Test false; Test true; Test true].
Proof. vms. Qed.
(** the hypotheses of [C125_round_two_trace_shows] hold for the two groups of [PropsTrace] *)
Example C125_ex_round_two_shows :
  forallb (fun e => u32_eqb (es_receiver e) (u 2) && match bget (es_sender e) (ds_dhs (st1 (demo_r1 demo_ps 2))) with Some _ => true | None => false end)
    (demo_shares 2) = true /\
  forallb (fun e => u32_eqb (es_receiver e) (u 2) && match bget (es_sender e) (ds_dhs (st1 (tr_r1 2))) with Some _ => true | None => false end)
    (tr_shares 2) = true /\
  map es_sender (demo_shares 2) = map es_sender (tr_shares 2) /\ length (demo_shares 2) = 3 /\ u32v (p_t (ds_params (st1 (demo_r1 demo_ps 2)))) = 2%N /\
  option_map bkeys (ds_comms (st1 (demo_r1 demo_ps 2))) = Some [u 1; u 2; u 3] /\
  option_map bkeys (ds_comms (st1 (tr_r1 2))) = Some [u 1; u 2; u 3] /\
  trace (t_to_round_two Debug (demo_r1 demo_ps 2) (demo_shares 2) 5%N) = trace (t_to_round_two Debug (tr_r1 2) (tr_shares 2) 6%N).
Proof. vms. Qed.
Example C125_ex_sign_shows :
  is_ok (fst (sign Debug (skey 1) shash sgroup (snonces 1) 1 [ssigner 1 1; ssigner 2 0])) = true /\
  is_ok (fst (sign Debug (MkSK (u 1) (mk 0%Z)) [] (mk 3%Z) (tr_list 4 5 6) 1 [ssigner 1 0; ssigner 2 2])) = true /\
  trace (t_sign Debug (MkSK (u 1) (mk 0%Z)) [] (mk 3%Z) (tr_list 4 5 6) 1 [ssigner 1 0; ssigner 2 2]) =
    trace (t_sign Debug (skey 1) shash sgroup (snonces 1) 1 [ssigner 1 1; ssigner 2 0]) /\
  (* an absent pair *)
  trace (t_drop_share (MkSecList []) (spair 1 0)) = [Test false; Test false; Op Wipe] /\
  trace (t_sign Debug (MkSK (u 9) (mk 0%Z)) [] (mk 3%Z) (tr_list 4 5 6) 1 [ssigner 1 0; ssigner 2 2]) = [Test false; Test false] /\
  trace (t_sign Debug (skey 1) [] (mk 3%Z) (tr_list 4 5 6) 3 [ssigner 1 0; ssigner 2 2]) = [Test true].
Proof. vms. Qed.
Print Assumptions C125_drop_trace_shows.
Print Assumptions C125_dealing_trace_shows.
Print Assumptions C125_round_two_trace_shows.
Print Assumptions C125_sign_trace_shows.
