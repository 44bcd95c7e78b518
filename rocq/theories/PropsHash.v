(** C52, C53: the byte strings given to the hash functions. *)
From Coq Require Import String Strings.Byte Arith NArith ZArith Bool List Lia.
From Verif Require Import Base Suite Spec SpecDkg SpecSign Types ModelDkg ModelSign Algebra BaseLemmas LemmasSign Toy Demo DemoSign.
Import ListNotations.
Close Scope string_scope.

Section Lemmas.
  Context {S : Suite} {L : SuiteLaws S}.
  Lemma point_split P Q r r' : enc_point P ++ r = enc_point Q ++ r' -> P = Q /\ r = r'.
  Proof.
    intros H. assert (E : dec_point (enc_point P ++ r) = dec_point (enc_point Q ++ r')) by (rewrite H; reflexivity).
    rewrite !enc_point_dec in E. injection E. auto.
  Qed.
  Lemma scalar_split x y r r' : enc_scalar x ++ r = enc_scalar y ++ r' -> x = y /\ r = r'.
  Proof.
    intros H. assert (E : dec_scalar (enc_scalar x ++ r) = dec_scalar (enc_scalar y ++ r')) by (rewrite H; reflexivity).
    rewrite !enc_scalar_dec in E. injection E. auto.
  Qed.
  Lemma u32_split i j r r' : u32_le i ++ r = u32_le j ++ r' -> i = j /\ r = r'.
  Proof. intros H. apply app_inj_len in H; [|rewrite !u32_le_len; reflexivity]. destruct H as [H ->]. apply u32_le_inj in H. auto. Qed.
  Lemma le_bytes_inj k n m : (n < 256 ^ N.of_nat k)%N -> (m < 256 ^ N.of_nat k)%N -> le_bytes k n = le_bytes k m -> n = m.
  Proof. intros H1 H2 E. rewrite <- (le_value_le_bytes k n H1), <- (le_value_le_bytes k m H2), E. reflexivity. Qed.
  Lemma bytes_split (a b r r' : list byte) : (N.of_nat (length a) < 18446744073709551616)%N -> (N.of_nat (length b) < 18446744073709551616)%N ->
    enc_bytes a ++ r = enc_bytes b ++ r' -> a = b /\ r = r'.
  Proof.
    intros Ha Hb H. unfold enc_bytes in H. rewrite <- !app_assoc in H. apply app_inj_len in H; [|rewrite !le_bytes_len; reflexivity].
    destruct H as [H H2]. apply le_bytes_inj in H; [|exact Ha|exact Hb]. apply Nat2N.inj in H. apply app_inj_len in H2; assumption.
  Qed.
  Lemma point_nonempty P : enc_point P = [] -> False.
  Proof.
    intros E. assert (X : forall Q, enc_point Q = []).
    { intros Q. assert (Y := enc_point_len P Q). rewrite E in Y. destruct (enc_point Q); [reflexivity|discriminate]. }
    assert (forall P Q : G, P = Q) as Z.
    { intros A B. assert (Y := enc_point_dec A []). rewrite (X A), <- (X B), enc_point_dec in Y. injection Y. auto. }
    assert (W := gen_inj F0 F1 (Z _ _)). symmetry in W. exact (F1_neq_0 W).
  Qed.
  Lemma roll_inj ss : forall ss', roll ss = roll ss' -> ss = ss'.
  Proof.
    induction ss as [|[i [d e]] ss IH]; intros [|[i' [d' e']] ss']; unfold roll; cbn [map concat sg_index sg_com fst snd]; intros H; [reflexivity| | |].
    - apply (f_equal (@length byte)) in H. rewrite !app_length, u32_le_len in H. cbn in H. lia.
    - apply (f_equal (@length byte)) in H. rewrite !app_length, u32_le_len in H. cbn in H. lia.
    - rewrite <- !app_assoc in H. apply u32_split in H. destruct H as [-> H]. apply point_split in H. destruct H as [-> H].
      apply point_split in H. destruct H as [-> H]. f_equal. apply IH, H.
  Qed.
End Lemmas.

(** C52 *)
Theorem C52_challenge_transcript :
  forall (S : Suite) (L : SuiteLaws S) (R R' pk pk' : G) (h h' : list byte),
    compute_challenge R pk h = h2 (challenge_input R pk h) /\
    (challenge_input R pk h = challenge_input R' pk' h' -> R = R' /\ pk = pk' /\ h = h').
Proof.
  intros S L R R' pk pk' h h'. split; [reflexivity|]. unfold challenge_input. intros H.
  apply point_split in H. destruct H as [-> H]. apply point_split in H. destruct H as [-> H]. auto.
Qed.
Print Assumptions C52_challenge_transcript.

Theorem C52_commitment_list_transcript :
  forall (S : Suite) (L : SuiteLaws S) (ss ss' : list Signer) (b : list byte),
    encode_group_commitment_list (commitment_list ss) = Ok b -> encode_group_commitment_list (commitment_list ss') = Ok b ->
    ss = ss'.
Proof.
  intros S L ss ss' b H H'.
  assert (A : roll ss = b) by (destruct ss; [discriminate|]; rewrite encode_list_ok in H by discriminate; congruence).
  assert (B : roll ss' = b) by (destruct ss'; [discriminate|]; rewrite encode_list_ok in H' by discriminate; congruence).
  apply roll_inj. congruence.
Qed.
Print Assumptions C52_commitment_list_transcript.

(** every binding factor is the hash of the two digests and the index *)
Theorem C52_binding_transcript :
  forall (S : Suite) (L : SuiteLaws S) (msg : list byte) (ss : list Signer) (bf : bmap F),
    compute_binding_factors msg ss = Ok bf ->
    exists enc, encode_group_commitment_list (commitment_list ss) = Ok enc /\
      (forall i, In i (map sg_index ss) -> bget i bf = Some (h1 (h4 msg ++ h5 enc ++ u32_le i))) /\
      (forall i msg' enc' i', h4 msg ++ h5 enc ++ u32_le i = h4 msg' ++ h5 enc' ++ u32_le i' ->
         h4 msg = h4 msg' /\ h5 enc = h5 enc' /\ i = i').
Proof.
  intros S L msg ss bf H. assert (Hne : ss <> []) by (intros ->; discriminate).
  exists (roll ss). split; [apply encode_list_ok, Hne|]. split.
  - intros i Hi. unfold compute_binding_factors in H. rewrite encode_list_ok in H by exact Hne. cbn [bind] in H. injection H as <-.
    rewrite binding_loop_get. replace (existsb (fun s => u32_eqb i (sg_index s)) ss) with true; [rewrite <- app_assoc; reflexivity|]. symmetry. apply existsb_exists.
    apply in_map_iff in Hi. destruct Hi as (s & <- & Hs). exists s. split; [exact Hs|apply u32_eqb_refl].
  - intros i msg' enc' i' E. apply app_inj_len in E; [|unfold h4; rewrite !inner_digest_len; reflexivity]. destruct E as [E1 E].
    apply app_inj_len in E; [|unfold h5; rewrite !inner_digest_len; reflexivity]. destruct E as [E2 E]. apply u32_le_inj in E. auto.
Qed.
Print Assumptions C52_binding_transcript.

Theorem C52_proof_of_knowledge_transcript :
  forall (S : Suite) (L : SuiteLaws S) (i i' : u32) (pk pk' M M' : G),
    nizk_message i pk M = nizk_message i' pk' M' -> i = i' /\ pk = pk' /\ M = M'.
Proof.
  intros S L i i' pk pk' M M' H. unfold nizk_message in H. apply u32_split in H. destruct H as [-> H].
  apply point_split in H. destruct H as [-> H]. rewrite <- (app_nil_r (enc_point M)), <- (app_nil_r (enc_point M')) in H.
  apply point_split in H. destruct H as [-> _]. auto.
Qed.
Print Assumptions C52_proof_of_knowledge_transcript.

Theorem C52_complaint_transcript :
  forall (S : Suite) (L : SuiteLaws S) (pm pm' pa pa' k k' a1 a1' a2 a2' : G) (e e' : EncShare),
    (forall x, In x [nonce_bytes (es_nonce e); nonce_bytes (es_nonce e'); es_ct e; es_ct e'] ->
       (N.of_nat (length x) < 18446744073709551616)%N) ->
    complaint_message pm pa k a1 a2 e = complaint_message pm' pa' k' a1' a2' e' ->
    pm = pm' /\ pa = pa' /\ k = k' /\ a1 = a1' /\ a2 = a2' /\
    es_sender e = es_sender e' /\ es_receiver e = es_receiver e' /\
    nonce_bytes (es_nonce e) = nonce_bytes (es_nonce e') /\ es_ct e = es_ct e'.
Proof.
  intros S L pm pm' pa pa' k k' a1 a1' a2 a2' e e' Hl H. unfold complaint_message, ser_encshare in H.
  apply point_split in H. destruct H as [-> H]. apply point_split in H. destruct H as [-> H]. apply point_split in H. destruct H as [-> H].
  apply point_split in H. destruct H as [-> H]. apply point_split in H. destruct H as [-> H].
  apply u32_split in H. destruct H as [E1 H]. apply u32_split in H. destruct H as [E2 H].
  apply bytes_split in H; [|apply Hl; cbn; tauto|apply Hl; cbn; tauto]. destruct H as [E3 H].
  rewrite <- (app_nil_r (enc_bytes (es_ct e))), <- (app_nil_r (enc_bytes (es_ct e'))) in H.
  apply bytes_split in H; [|apply Hl; cbn; tauto|apply Hl; cbn; tauto]. destruct H as [E4 _]. auto 12.
Qed.
Print Assumptions C52_complaint_transcript.

(** the nonce is derived from an input that determines the random bytes and the key *)
Theorem C52_nonce_transcript :
  forall (S : Suite) (L : SuiteLaws S) (k k' : SigningKey) (r : Rng) (b b' : list byte),
    fst (nonce_generate k r) = h3 (fst (rand_bytes hash_len r) ++ u32_le (sk_index k) ++ enc_scalar (sk_key k)) /\
    (length b = hash_len -> length b' = hash_len ->
     b ++ u32_le (sk_index k) ++ enc_scalar (sk_key k) = b' ++ u32_le (sk_index k') ++ enc_scalar (sk_key k') -> b = b' /\ k = k').
Proof.
  intros S L [i x] [i' x'] r b b'. split.
  - unfold nonce_generate, ser_signing_key. destruct (rand_bytes hash_len r). reflexivity.
  - cbn [sk_index sk_key]. intros H1 H2 H. apply app_inj_len in H; [|congruence]. destruct H as [-> H]. apply u32_split in H. destruct H as [-> H].
    rewrite <- (app_nil_r (enc_scalar x)), <- (app_nil_r (enc_scalar x')) in H. apply scalar_split in H. destruct H as [-> _]. auto.
Qed.
Print Assumptions C52_nonce_transcript.

(** two lists that a length-less or unordered encoding would confuse *)
Example C52_ex :
  (forallb (fun p => Nat.eqb (length (fst p)) (length (snd p))) [(roll [ssigner 1 0; ssigner 3 0], roll [ssigner 3 0; ssigner 1 0])] = true) /\
  is_ok (encode_group_commitment_list (commitment_list [ssigner 1 0; ssigner 3 0])) = true /\
  is_ok (compute_binding_factors shash [ssigner 1 0; ssigner 3 0]) = true /\
  u32_eqb (sg_index (ssigner 1 0)) (sg_index (ssigner 3 0)) = false.
Proof. vms. Qed.

(** C53 *)
Definition scalar_oracles : list string := ["nizkpok"; "rho"; "challenge"; "nonce"]%string.

(** the four scalar oracles use the inner hash with the tag context ++ name, and the names are told
    apart under every context string, even across ciphersuites *)
Theorem C53_scalar_oracles_are_separated :
  (forall (S : Suite) (m : list byte),
     h0 m = inner_h2f (context_string ++ bytes_of_string "nizkpok") m /\
     h1 m = inner_h2f (context_string ++ bytes_of_string "rho") m /\
     h2 m = inner_h2f (context_string ++ bytes_of_string "challenge") m /\
     h3 m = inner_h2f (context_string ++ bytes_of_string "nonce") m) /\
  (forall (c c' : list byte) (t t' : string), In t scalar_oracles -> In t' scalar_oracles ->
     c ++ bytes_of_string t = c' ++ bytes_of_string t' -> c = c' /\ t = t') /\
  (forall (c : list byte) (t : string), In t scalar_oracles -> c ++ bytes_of_string t <> complaint_tag).
Proof.
  split; [intros S m; repeat split|]. split.
  - intros c c' t t' H H' E. apply (f_equal (@rev byte)) in E. rewrite !rev_app_distr in E.
    cbn in H, H'. destruct H as [<-|[<-|[<-|[<-|[]]]]], H' as [<-|[<-|[<-|[<-|[]]]]]; cbn in E; try discriminate;
      injection E as E; split; try reflexivity; rewrite <- (rev_involutive c), E; apply rev_involutive.
  - intros c t H E. apply (f_equal (@rev byte)) in E. rewrite !rev_app_distr in E.
    cbn in H. destruct H as [<-|[<-|[<-|[<-|[]]]]]; cbn in E; discriminate.
Qed.
Print Assumptions C53_scalar_oracles_are_separated.

Definition message_input (c m : list byte) : list byte := (c ++ bytes_of_string "message") ++ m.
Definition commitment_input (c m : list byte) : list byte := (c ++ bytes_of_string "commitment") ++ m.

(** the two byte oracles: within one suite their inputs are disjoint and determine the message *)
Theorem C53_byte_oracles_are_separated :
  (forall (S : Suite) (m : list byte), h4 m = inner_digest (message_input context_string m) /\
     h5 m = inner_digest (commitment_input context_string m)) /\
  (forall c m m', message_input c m <> commitment_input c m') /\
  (forall c m m', message_input c m = message_input c m' -> m = m') /\
  (forall c m m', commitment_input c m = commitment_input c m' -> m = m').
Proof.
  split; [intros S m; split; reflexivity|]. unfold message_input, commitment_input. split; [|split]; intros c m m' H.
  - rewrite <- !app_assoc in H. apply app_inv_head in H. cbn in H. discriminate.
  - apply app_inv_head in H. exact H.
  - apply app_inv_head in H. exact H.
Qed.
Print Assumptions C53_byte_oracles_are_separated.

(** across two suites whose context strings extend one another, the message hash inputs can coincide
    exactly if the extension starts with "message" *)
Theorem C53_message_inputs_across_suites :
  forall c e : list byte, e <> [] ->
    ((exists m m', message_input c m = message_input (c ++ e) m') <-> exists x, e = bytes_of_string "message" ++ x).
Proof.
  intros c e He. unfold message_input. split.
  - intros (m & m' & H). rewrite <- !app_assoc in H. apply app_inv_head in H. cbn in H.
    do 7 (destruct e as [|? e]; cbn in H; [try contradiction; try discriminate|injection H as <- H]).
    exists e. reflexivity.
  - intros (x & ->). exists (x ++ bytes_of_string "message"), []. rewrite <- !app_assoc. cbn. rewrite ?app_nil_r. reflexivity.
Qed.
Print Assumptions C53_message_inputs_across_suites.

Example C53_ex :
  context_string <> ([] : list byte) /\
  message_input context_string (bytes_of_string "-v2message!") = message_input (context_string ++ bytes_of_string "message-v2") (bytes_of_string "!").
Proof. split; [discriminate|]. vmr. Qed.
