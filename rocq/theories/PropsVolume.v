(** Property C137: how long the messages of each round are, and how much a whole key generation sends. *)
From Coq Require Import String Strings.Byte Arith NArith ZArith Bool List Lia Permutation.
From Verif Require Import Base Suite Spec SpecDkg SpecSign SpecCodec Types ModelDkg ModelSign ModelCodec ModelCompare Algebra BaseLemmas LemmasShare LemmasCodec LemmasSign
  Toy Demo DemoDkg DemoSign PropsShare PropsRound1 PropsCompare.
Import ListNotations.

(** ** specification *)
Section Vocabulary.
  Context {S : Suite}.
  (** scalars take s bytes, points p bytes, and the cipher adds tag bytes *)
  Definition widths (s p tag : nat) : Prop :=
    (forall x, length (enc_scalar x) = s) /\ (forall P, length (enc_point P) = p) /\
    (forall k n m c, aead_enc k n m = Some c -> length c = length m + tag).
  (** v is sent in n bytes *)
  Definition sent_in {A} (n : nat) (ser : A -> list byte) (v : A) : Prop := forall b, to_bytes ser v = Ok b -> length b = n.
End Vocabulary.

(** the closed forms *)
Definition dealer_bytes (t s p : nat) : nat := 18 + (t + 1) * p + 4 * s.
Definition signer_bytes (s p : nat) : nat := 6 + p + 2 * s.
Definition share_bytes (nonce s tag : nat) : nat := 24 + nonce + s + tag.
Definition complaint_bytes (nonce s p tag : nat) : nat := 24 + nonce + tag + 4 * p + 2 * s.

Section Lem.
  Context {S : Suite} {L : SuiteLaws S} (s p tag : nat) (W : widths s p tag).

  Lemma sent_intro {A} n (ser : A -> list byte) v : length (ser v) = n -> sent_in n ser v.
  Proof. intros H b E. injection E as <-. exact H. Qed.
  Lemma ssize : scalar_size = s.
  Proof. apply W. Qed.
  Lemma psize : point_size = p.
  Proof. apply W. Qed.
  Lemma sizes_const {A} k (l : list A) : sizes (fun _ => k) l = length l * k.
  Proof. induction l as [|a l IH]; cbn [sizes length]; [reflexivity|]. rewrite IH. lia. Qed.
  Lemma enc_vol e : length (es_ct e) = s + tag -> length (ser_encshare e) = share_bytes nonce_len s tag.
  Proof.
    intros H. rewrite encshare_len. unfold encshare_size, vec_size, share_bytes. rewrite !sizes_const, H.
    rewrite (proj1 (Nat.eqb_eq _ _) (nonce_ok (es_nonce e))). lia.
  Qed.
  Lemma encrypt_vol sh k r e r' : encrypt_share sh k r = Ok (e, r') -> length (ser_encshare e) = share_bytes nonce_len s tag.
  Proof.
    unfold encrypt_share. destruct (gen_nonce r) as [n r1]. destruct (aead_enc _ _ _) as [c|] eqn:E; [|discriminate]. intros X. injection X as <- _.
    apply enc_vol. cbn [es_ct]. destruct W as (W1 & _ & W3). rewrite (W3 _ _ _ _ E), W1. reflexivity.
  Qed.
  Definition vol (e : EncShare) : Prop := length (ser_encshare e) = share_bytes nonce_len s tag.
  Lemma encrypt_all_vol my x co ps : forall acc r es r', encrypt_all my x co ps acc r = Ok (es, r') ->
    real_map vol acc -> real_map vol es.
  Proof.
    induction ps as [|q ps IH]; intros acc r es r'; cbn [encrypt_all].
    - intros E H. injection E as <- _. exact H.
    - destruct co as [cs|]; [|discriminate]. destruct (encrypt_share _ _ _) as [[e r1]|er|] eqn:E1; cbn [bind]; try discriminate.
      intros E H. apply (IH _ _ _ _ E). apply fold_binsert_real; [exact H|]. apply (encrypt_vol _ _ _ _ _ E1).
  Qed.
  Lemma state_vol m params x my co ps fd fs r st lists r' es :
    new_state_internal m params x my co ps fd fs r = Ok (st, lists, r') -> their_encrypted_secret_shares st = Ok es -> real_map vol es.
  Proof.
    unfold new_state_internal. cbv zeta. destruct (negb (N.eqb _ _)); [discriminate|]. destruct (check_all _ _ _ _ _ _) as [a|er|]; cbn [bind]; try discriminate.
    destruct (N.ltb _ _); [discriminate|]. destruct (negb fd && fs).
    - destruct (u32_sub _ _ _) as [n'|er|]; cbn [bind]; try discriminate. destruct (params_new _ _ _) as [p'|er|]; cbn [bind]; try discriminate.
      intros E. injection E as <- _ _. unfold their_encrypted_secret_shares. cbn [st1 ds_enc]. discriminate.
    - destruct (encrypt_all _ _ _ _ _ _) as [[es1 r1]|er|] eqn:Ee; cbn [bind]; try discriminate.
      destruct (u32_sub _ _ _) as [n'|er|]; cbn [bind]; try discriminate. destruct (params_new _ _ _) as [p'|er|]; cbn [bind]; try discriminate.
      intros E. injection E as <- _ _. unfold their_encrypted_secret_shares. cbn [st1 ds_enc]. intros X. injection X as <-.
      apply (encrypt_all_vol _ _ _ _ _ _ _ _ Ee (real_map_nil _)).
  Qed.
  Lemma dealer_vol params i sec r d co x r' : new_internal params false i sec r = Ok (d, co, x, r') ->
    length (ser_participant d) = dealer_bytes (u32_nat (p_t params)) s p.
  Proof.
    intros E. assert (Hi : i <> u32_zero). { intros ->. discriminate E. }
    destruct (N.eq_dec (u32v (p_t params)) 0) as [Z|Z].
    - exfalso. unfold new_internal in E. rewrite (proj2 (u32_eqb_neq i u32_zero) Hi) in E.
      destruct (rand_scalar r) as [a r1]. destruct (nizk_prove _ _ _ _) as [dp r2].
      destruct (match sec with Some sk => (sk, r2) | None => rand_scalar r2 end) as [a0 r3]. destruct (rand_scalars _ _) as [rest r4].
      unfold u32_nat in E. rewrite Z in E. cbn in E. discriminate E.
    - destruct (new_internal_dealer params i sec r Hi ltac:(lia)) as (d' & co' & x' & q & E' & F & _). rewrite E in E'. injection E' as <- _ _ _.
      rewrite participant_len. unfold participant_size. destruct F. rewrite fd_comm. destruct fd_skp as (pr & a0 & -> & _).
      unfold option_size, vss_size, vec_size, nizk_size. cbn [vss_points]. rewrite sizes_const, committed_length, fd_len, ssize, psize.
      unfold dealer_bytes, u32_nat. lia.
  Qed.
End Lem.

(** ** first round *)
Theorem C137_first_round :
  forall (S : Suite) (L : SuiteLaws S) (s p tag : nat), widths s p tag ->
  (forall params i r d co x r', new_dealer params i r = Ok (d, co, x, r') ->
     sent_in (dealer_bytes (u32_nat (p_t params)) s p) ser_participant d) /\
  (forall m params k ps r d es l r', reshare m params k ps r = Ok (d, es, l, r') ->
     sent_in (dealer_bytes (u32_nat (p_t params)) s p) ser_participant d) /\
  (forall params i r d x r', new_signer params i r = Ok (d, x, r') -> sent_in (signer_bytes s p) ser_participant d).
Proof.
  intros S L s p tag W. split; [|split].
  - intros params i r d co x r' E. unfold new_dealer in E.
    destruct (new_internal _ _ _ _ _) as [[[[d1 [c|]] x1] r1]|e|] eqn:E1; cbn [bind] in E; try discriminate. injection E as <- _ _ _.
    apply sent_intro, (dealer_vol s p tag W _ _ _ _ _ _ _ _ E1).
  - intros m params k ps r d es l r' E. unfold reshare in E.
    destruct (new_internal _ _ _ _ _) as [[[[d1 [c|]] x1] r1]|e|] eqn:E1; cbn [bind] in E; try discriminate.
    destruct (new_state_internal _ _ _ _ _ _ _ _ _) as [[[st l1] r2]|e|]; cbn [bind] in E; try discriminate.
    destruct (their_encrypted_secret_shares st) as [es1|e|]; cbn [bind] in E; try discriminate. injection E as <- _ _ _.
    apply sent_intro, (dealer_vol s p tag W _ _ _ _ _ _ _ _ E1).
  - intros params i r d x r' E. assert (Hi : i <> u32_zero). { intros ->. discriminate E. }
    destruct (C12_new_signer_well_formed S L params i r Hi) as (d' & x' & q & E' & _ & A & B & _). rewrite E in E'. injection E' as <- _ _.
    apply sent_intro. rewrite participant_len. unfold participant_size. rewrite A, B. unfold option_size, nizk_size.
    rewrite (ssize s p tag W), (psize s p tag W). unfold signer_bytes. lia.
Qed.
Print Assumptions C137_first_round.

(** ** shares: one for each listed participant, all of one length *)
Theorem C137_shares :
  forall (S : Suite) (L : SuiteLaws S) (s p tag : nat), widths s p tag ->
  (forall m params x my co ps r st l r' es, bootstrap m params x my co ps r = Ok (st, l, r') -> their_encrypted_secret_shares st = Ok es ->
     NoDup (map pt_index ps) ->
     length es = length ps /\ forall j e, In (j, e) es -> sent_in (share_bytes nonce_len s tag) ser_encshare e) /\
  (forall m params k ps r d es l r', reshare m params k ps r = Ok (d, es, l, r') -> NoDup (map pt_index ps) ->
     length es = length ps /\ forall j e, In (j, e) es -> sent_in (share_bytes nonce_len s tag) ser_encshare e).
Proof.
  intros S L s p tag W.
  assert (K : forall (es : bmap EncShare) ps, real_map (vol s tag) es -> (forall j, In j (bkeys es) <-> exists q : Participant, In q ps /\ pt_index q = j) ->
    NoDup (map pt_index ps) -> length es = length ps).
  { intros es ps [H1 _] H2 H3. apply increasing_NoDup in H1.
    assert (X : Permutation (bkeys es) (map pt_index ps)).
    { apply NoDup_Permutation; [exact H1|exact H3|]. intros j. rewrite H2, in_map_iff. split; intros (q & A & B); exists q; auto. }
    apply Permutation_length in X. unfold bkeys in X. rewrite !map_length in X. exact X. }
  split.
  - intros m params x my co ps r st l r' es E Ee Hnd.
    destruct (C15_bootstrap_shares S L m params x my co ps r st l r' E) as (es' & E2 & Hk & _). rewrite Ee in E2. injection E2 as <-.
    pose proof (state_vol s p tag W _ _ _ _ _ _ _ _ _ _ _ _ _ E Ee) as HR. split; [apply (K _ _ HR Hk Hnd)|].
    intros j e Hin. apply sent_intro. destruct HR as [_ HR]. apply (HR _ _ Hin).
  - intros m params k ps r d es l r' E Hnd.
    assert (Ht : (1 <= u32v (p_t params))%N).
    { destruct (N.eq_dec (u32v (p_t params)) 0) as [Z|Z]; [|lia]. exfalso. unfold reshare, new_internal in E. destruct (u32_eqb _ _); [discriminate|].
      destruct (rand_scalar r) as [a r1]. destruct (nizk_prove _ _ _ _) as [dp r2]. destruct (rand_scalars _ _) as [rest r4].
      unfold u32_nat in E. rewrite Z in E. cbn in E. discriminate E. }
    destruct (C15_reshare_shares S L m params k ps r d es l r' Ht E) as (co & _ & _ & _ & Hk & _).
    unfold reshare in E. destruct (new_internal _ _ _ _ _) as [[[[d1 [c|]] x1] r1]|er|]; cbn [bind] in E; try discriminate.
    destruct (new_state_internal _ _ _ _ _ _ _ _ _) as [[[st l1] r2]|er|] eqn:E2; cbn [bind] in E; try discriminate.
    destruct (their_encrypted_secret_shares st) as [es1|er|] eqn:E3; cbn [bind] in E; try discriminate. injection E as _ -> _ _.
    pose proof (state_vol s p tag W _ _ _ _ _ _ _ _ _ _ _ _ _ E2 E3) as HR. split; [apply (K _ _ HR Hk Hnd)|].
    intros j e Hin. apply sent_intro. destruct HR as [_ HR]. apply (HR _ _ Hin).
Qed.
Print Assumptions C137_shares.

(** ** complaints: the share complained about and a fixed amount *)
Theorem C137_complaints :
  forall (S : Suite) (L : SuiteLaws S) (s p tag : nat), widths s p tag ->
  forall m r1 es r cs, 
  (exists r2 r', to_round_two m r1 es r = Ok (r2, cs, r')) \/ to_round_two m r1 es r = Err (ComplaintErr cs) ->
  length cs <= length es /\
  forall c, In c cs -> exists e, In e es /\ (forall n, sent_in n ser_encshare e -> sent_in (n + 4 * p + s) ser_complaint c) /\
    (sent_in (share_bytes nonce_len s tag) ser_encshare e -> sent_in (complaint_bytes nonce_len s p tag) ser_complaint c).
Proof.
  intros S L s p tag W m r1 es r cs H.
  assert (K : forall st es sh cs0 r sh' cs' r', round_two_loop m st es sh cs0 r = Ok (sh', cs', r') ->
    length cs' <= length cs0 + length es /\ forall c, In c cs' -> In c cs0 \/ In (c_share c) es).
  { clear. intros st. induction es as [|e es IH]; intros sh cs0 r sh' cs' r'; cbn [round_two_loop].
    - intros E. injection E as _ <- _. cbn. split; [lia|auto].
    - destruct (is_debug m && _); [discriminate|]. destruct (bget _ _) as [pk|]; [|discriminate]. destruct (ds_comms st) as [comms|]; [|discriminate].
      destruct (find _ comms).
      + destruct (complaint_new _ _ _ _ _) as [c r1] eqn:Ec. intros E. destruct (IH _ _ _ _ _ _ E) as [A B]. rewrite app_length in A. cbn [length] in *.
        split; [lia|]. intros c' Hc'. apply B in Hc'. destruct Hc' as [Hc'|Hc']; [|right; right; exact Hc'].
        apply in_app_or in Hc'. destruct Hc' as [Hc'|[<-|[]]]; [left; exact Hc'|].
        unfold complaint_new in Ec. destruct (rand_scalar r). cbv zeta in Ec. injection Ec as <- _. right. left. reflexivity.
      + intros E. destruct (IH _ _ _ _ _ _ E) as [A B]. cbn [length]. split; [lia|]. intros c Hc. apply B in Hc. destruct Hc; [left|right; right]; assumption. }
  assert (KE : forall st es sh cs0 r e, round_two_loop m st es sh cs0 r = Err e -> e = invalid_indices_error).
  { clear. intros st. induction es as [|e es IH]; intros sh cs0 r er; cbn [round_two_loop]; [discriminate|].
    destruct (is_debug m && _); [discriminate|]. destruct (bget _ _) as [pk|]; [|intros E; injection E as <-; reflexivity].
    destruct (ds_comms st) as [comms|]; [|discriminate]. destruct (find _ comms); [destruct (complaint_new _ _ _ _ _)|]; apply IH. }
  assert (X : exists sh r', round_two_loop m (MkState (ds_params (st1 r1)) (ds_index (st1 r1)) (ds_dh_sk (st1 r1)) (ds_dh_pk (st1 r1))
                (ds_comms (st1 r1)) (ds_dhs (st1 r1)) None (ds_shares (st1 r1))) es [] [] r = Ok (sh, cs, r')).
  { unfold to_round_two in H. cbv zeta in H. destruct (N.ltb _ _); [destruct H as [(? & ? & H)|H]; discriminate|].
    destruct (round_two_loop _ _ _ _ _ _) as [[[sh cs1] q]|e|] eqn:E1; cbn [bind] in H; [|destruct H as [(? & ? & H)|H]; try discriminate|destruct H as [(? & ? & H)|H]; discriminate].
    - exists sh, q. destruct (u32_sub _ _ _) as [n'|e|] eqn:Es; cbn [bind] in H; [|destruct H as [(? & ? & H)|H]; [discriminate|]|destruct H as [(? & ? & H)|H]; discriminate].
      + destruct (u32_ltb _ _); destruct H as [(? & ? & H)|H]; try discriminate; [injection H as ->; reflexivity|injection H as _ -> _; reflexivity].
      + exfalso. injection H as ->. clear -Es. unfold u32_sub in Es. destruct (u32_ltb _ _); [destruct m|]; discriminate.
    - exfalso. injection H as ->. apply KE in E1. discriminate. }
  destruct X as (sh & r' & X). destruct (K _ _ _ _ _ _ _ _ X) as [A B]. split; [exact A|]. intros c Hc. destruct (B c Hc) as [[]|Hin].
  exists (c_share c). split; [exact Hin|].
  assert (Y : length (ser_complaint c) = length (ser_encshare (c_share c)) + 4 * p + s).
  { rewrite complaint_len, encshare_len. unfold complaint_size, complaint_proof_size. rewrite (ssize s p tag W), (psize s p tag W). lia. }
  split.
  - intros n Hn. apply sent_intro. rewrite Y. rewrite (Hn _ eq_refl). reflexivity.
  - intros Hn. apply sent_intro. rewrite Y, (Hn _ eq_refl). unfold share_bytes, complaint_bytes. lia.
Qed.
Print Assumptions C137_complaints.

(** ** keys and signing: nothing but a list of nonces grows with anything *)
Theorem C137_keys_and_signing :
  forall (S : Suite) (L : SuiteLaws S) (s p tag : nat), widths s p tag ->
  (forall r2 gk k, finish r2 = Ok (gk, k) -> sent_in p ser_point gk /\ sent_in (4 + s) ser_signing_key k /\ sent_in (4 + p) ser_verifying_key (to_public k)) /\
  (forall r k n pub sec r', generate_commitment_share_lists r k n = (pub, sec, r') ->
     sent_in (12 + 2 * n * p) ser_public_list pub /\ sent_in (8 + 2 * n * (s + p)) ser_secret_list sec) /\
  (forall m k h gk l i ss z l', sign m k h gk l i ss = (Ok z, l') -> sent_in (4 + s) ser_partial_sig z) /\
  (forall a sig, aggregate a = Ok sig -> sent_in (p + s) ser_threshold_sig sig).
Proof.
  intros S L s p tag W. pose proof (ssize s p tag W) as Es. pose proof (psize s p tag W) as Ep. split; [|split; [|split]].
  - intros r2 gk k _. split; [|split]; apply sent_intro.
    + unfold ser_point. rewrite point_len. exact Ep.
    + unfold ser_signing_key. rewrite app_length, u32_len, scalar_len, Es. reflexivity.
    + unfold ser_verifying_key. rewrite app_length, u32_len, point_len, Ep. reflexivity.
  - intros r k n pub sec r' E. unfold generate_commitment_share_lists in E. destruct (gen_shares_spec k n r) as (ds & Hl & Hd).
    destruct (gen_shares k n r) as [l q]. cbn [fst] in Hd. injection E as <- <- _. subst l. split; apply sent_intro.
    + unfold ser_public_list. cbn [pl_index pl_commitments]. rewrite app_length, u32_len, (vec_len _ (fun _ => point_size + point_size)) by apply pair_len.
      unfold vec_size. rewrite sizes_const, !map_length, Hl, Ep. lia.
    + unfold ser_secret_list. cbn [sl_commitments]. rewrite (vec_len _ commitment_share_size) by apply cs_len.
      unfold vec_size. change commitment_share_size with (fun _ : CommitmentShare => scalar_size + point_size + (scalar_size + point_size)).
      rewrite sizes_const, map_length, Hl, Es, Ep. lia.
  - intros m k h gk l i ss z l' _. apply sent_intro. unfold ser_partial_sig. rewrite app_length, u32_len, scalar_len, Es. reflexivity.
  - intros a sig _. apply sent_intro. unfold ser_threshold_sig. rewrite app_length, point_len, scalar_len, Es, Ep. reflexivity.
Qed.
Print Assumptions C137_keys_and_signing.

(** ** a whole key generation *)
Section Whole.
  Context {S : Suite}.
  (** what one participant hands out: its first message and one encrypted share for everybody *)
  Record Upload := MkUpload { up_first : Participant; up_shares : bmap EncShare }.
  Definition uploaded (m : build) (params : Params) (ps : list Participant) (a : Upload) : Prop :=
    exists i r co x q r1 st l q1, new_dealer params i r = Ok (up_first a, co, x, q) /\
      bootstrap m params x i co ps r1 = Ok (st, l, q1) /\ their_encrypted_secret_shares st = Ok (up_shares a).
  Definition volume (a : Upload) : nat :=
    length (ser_participant (up_first a)) + list_sum (map (fun je => length (ser_encshare (snd je))) (up_shares a)).
End Whole.

Theorem C137_whole_key_generation :
  forall (S : Suite) (L : SuiteLaws S) (s p tag : nat), widths s p tag ->
  forall m params (all : list Upload),
  (forall a, In a all -> uploaded m params (map up_first all) a) -> NoDup (map pt_index (map up_first all)) ->
  let n := length all in
  list_sum (map volume all) = n * dealer_bytes (u32_nat (p_t params)) s p + n * n * share_bytes nonce_len s tag.
Proof.
  intros S L s p tag W m params all H Hnd n.
  assert (X : forall a, In a all -> volume a = dealer_bytes (u32_nat (p_t params)) s p + n * share_bytes nonce_len s tag).
  { intros a Ha. destruct (H a Ha) as (i & r & co & x & q & r1 & st & l & q1 & E1 & E2 & E3).
    unfold volume. rewrite (proj1 (C137_first_round S L s p tag W) _ _ _ _ _ _ _ E1 _ eq_refl). f_equal.
    destruct (proj1 (C137_shares S L s p tag W) _ _ _ _ _ _ _ _ _ _ _ E2 E3 Hnd) as [A B]. rewrite map_length in A. fold n in A. rewrite <- A. clear -B.
    induction (up_shares a) as [|[j e] es IH]; [reflexivity|]. cbn [map list_sum fold_right length snd Nat.mul].
    fold (list_sum (map (fun je : u32 * EncShare => length (ser_encshare (snd je))) es)).
    rewrite (B j e (or_introl eq_refl) _ eq_refl), IH; [lia|]. intros j' e' Hin. apply (B j' e'). right. exact Hin. }
  clear H Hnd. assert (Y : forall l : list Upload, (forall a, In a l -> In a all) ->
    list_sum (map volume l) = length l * (dealer_bytes (u32_nat (p_t params)) s p + n * share_bytes nonce_len s tag)).
  { induction l as [|a l IH]; intros Hl; [reflexivity|]. cbn [map length Nat.mul]. change (list_sum (volume a :: map volume l)) with (volume a + list_sum (map volume l)).
    rewrite (X a) by (apply Hl; left; reflexivity). rewrite IH; [reflexivity|]. intros b Hb. apply Hl. right. exact Hb. }
  rewrite (Y all (fun a h => h)). fold n. lia.
Qed.
Print Assumptions C137_whole_key_generation.


(** * Examples *)
Lemma toy_widths : @widths Toy 5 6 8.
Proof.
  split; [|split].
  - intros x. exact (le_bytes_length 5 _).
  - intros P. exact (f_equal Datatypes.S (le_bytes_length 5 (Z.to_N (fv P)))).
  - intros k n m c E. change (Some (toy_tag k n m ++ map (fun b => byte_of_N (Byte.to_N b + toy_stream k n)) m) = Some c) in E.
    assert (Hc : c = toy_tag k n m ++ map (fun b => byte_of_N (Byte.to_N b + toy_stream k n)) m) by congruence. clear E.
    assert (Ht : length (toy_tag k n m) = 8) by apply le_bytes_length. rewrite Hc, app_length, map_length, Ht. lia.
Qed.

Lemma got_is {A} (d : A) (o : result A) : is_ok o = true -> o = Ok (got d o).
Proof. destruct o; [reflexivity|discriminate|discriminate]. Qed.
Section Ex.
  Context {S : Suite}.
  (** an upload put together from the outcomes of the calls *)
  Lemma uploaded_intro m params ps i r r1 (run : Participant * list F * F * Rng) (st0 : RoundOne * PartList * Rng) es :
    new_dealer params i r = Ok run -> bootstrap m params (snd (fst run)) i (snd (fst (fst run))) ps r1 = Ok st0 ->
    their_encrypted_secret_shares (fst (fst st0)) = Ok es -> uploaded m params ps (MkUpload (fst (fst (fst run))) es).
  Proof.
    destruct run as [[[d co] x] q], st0 as [[st l] q1]. cbn [fst snd]. intros E1 E2 E3. exists i, r, co, x, q, r1, st, l, q1. auto.
  Qed.
End Ex.
Definition demo_boot (i : N) : RoundOne * PartList * Rng :=
  got (R1 no_state, MkPList [] None, 0%N)
    (bootstrap Debug demo_params (snd (fst (dealer_run 3 2 i (10 * i)))) (u i) (snd (fst (fst (dealer_run 3 2 i (10 * i))))) demo_ps (1000 + i)%N).
Definition demo_upload (i : N) : Upload :=
  @MkUpload Toy (fst (fst (fst (dealer_run 3 2 i (10 * i))))) (got [] (their_encrypted_secret_shares (fst (fst (demo_boot i))))).
Definition demo_uploads : list Upload := [demo_upload 1; demo_upload 2; demo_upload 3].

Lemma demo_up i : is_ok (new_dealer (MkParams (u 3) (u 2)) (u i) (10 * i)%N) = true ->
  is_ok (bootstrap Debug demo_params (snd (fst (dealer_run 3 2 i (10 * i)))) (u i) (snd (fst (fst (dealer_run 3 2 i (10 * i))))) demo_ps (1000 + i)%N) = true ->
  is_ok (their_encrypted_secret_shares (fst (fst (demo_boot i)))) = true -> uploaded Debug demo_params demo_ps (demo_upload i).
Proof.
  intros H1 H2 H3. apply (uploaded_intro Debug demo_params demo_ps (u i) (10 * i)%N (1000 + i)%N (dealer_run 3 2 i (10 * i)) (demo_boot i)).
  - unfold dealer_run. exact (got_is _ _ H1).
  - unfold demo_boot at 1. exact (got_is _ _ H2).
  - exact (got_is _ _ H3).
Qed.

(** three participants with threshold two: 56 bytes and three shares of 49 bytes each *)
Example C137_ex :
  @widths Toy 5 6 8 /\ (forall a, In a demo_uploads -> uploaded Debug demo_params (map up_first demo_uploads) a) /\
  NoDup (map pt_index (map up_first demo_uploads)) /\
  map volume demo_uploads = [56 + 3 * 49; 56 + 3 * 49; 56 + 3 * 49] /\ list_sum (map volume demo_uploads) = 609.
Proof.
  split; [exact toy_widths|]. split; [|split; [nodup|split; vmr]].
  assert (E : map up_first demo_uploads = demo_ps).
  { unfold demo_uploads, demo_ps, demo_upload, dealer. cbn [map up_first]. repeat (apply f_equal2; [destruct (dealer_run _ _ _ _) as [[[? ?] ?] ?]; reflexivity|]). reflexivity. }
  rewrite E. intros a [<-|[<-|[<-|[]]]]; apply demo_up; vmr.
Qed.

(** the formulas with the numbers of secp256k1 and AES-GCM (32 and 33 bytes, nonces of 12 and tags of 16 bytes) *)
Example C137_ex_secp256k1 :
  dealer_bytes 3 32 33 = 278 /\ signer_bytes 32 33 = 103 /\ share_bytes 12 32 16 = 84 /\ complaint_bytes 12 32 33 16 = 248 /\
  5 * dealer_bytes 3 32 33 + 5 * 5 * share_bytes 12 32 16 = 3490.
Proof. repeat split. Qed.
