(** Sharper forms of C09 and C75: the two strings hashed by a proof that passes for two statements are named, and what a dropped
    value leaves in its memory is zero. *)
From Coq Require Import String Strings.Byte Arith NArith ZArith Bool List Lia.
From Verif Require Import Base Suite Types Spec SpecDkg Algebra BaseLemmas ModelDkg ModelSign LemmasShare SpecSign SpecErase ModelErase Toy Demo
  PropsShare PropsHash.
Import ListNotations.

(** the string hashed by a proof determines index, key and commitment *)
Theorem C09_hashed_string_is_unique :
  forall (S : Suite) (L : SuiteLaws S) (i i' : u32) (pk pk' M M' : G),
  le_bytes 4 (u32v i) ++ enc_point pk ++ enc_point M = le_bytes 4 (u32v i') ++ enc_point pk' ++ enc_point M' ->
  i = i' /\ pk = pk' /\ M = M'.
Proof. intros S L i i' pk pk' M M' H. exact (C52_proof_of_knowledge_transcript S L i i' pk pk' M M' H). Qed.
(** a proof that passes for two statements is a collision of the hash on two different strings, made of the proof alone *)
Theorem C09_two_statements_collide :
  forall (S : Suite) (L : SuiteLaws S) (p : Nizk) (i i' : u32) (pk pk' : G),
  nizk_verify p i pk = Ok tt -> nizk_verify p i' pk' = Ok tt -> i <> i' \/ pk <> pk' ->
  let hashed j P := (le_bytes 4 (u32v j) ++ enc_point P ++ enc_point (gen * nz_r p + - (P * nz_s p))%G) in
  hashed i pk <> hashed i' pk' /\
  inner_h2f (context_string ++ bytes_of_string "nizkpok") (hashed i pk) = nz_s p /\
  inner_h2f (context_string ++ bytes_of_string "nizkpok") (hashed i' pk') = nz_s p.
Proof.
  intros S L p i i' pk pk' H H' D hashed. split; [|split].
  - intros E. destruct (C09_hashed_string_is_unique S L _ _ _ _ _ _ E) as (A & B & _). destruct D; contradiction.
  - destruct (C09_nizk_verify_iff S L p i pk) as [_ X]. unfold hashed. destruct (F_dec (nz_s p)
      (inner_h2f (context_string ++ bytes_of_string "nizkpok")
        (le_bytes 4 (u32v i) ++ enc_point pk ++ enc_point (gen * nz_r p + - (pk * nz_s p))%G))) as [E|E]; [symmetry; exact E|].
    rewrite (X E) in H. discriminate.
  - destruct (C09_nizk_verify_iff S L p i' pk') as [_ X]. unfold hashed. destruct (F_dec (nz_s p)
      (inner_h2f (context_string ++ bytes_of_string "nizkpok")
        (le_bytes 4 (u32v i') ++ enc_point pk' ++ enc_point (gen * nz_r p + - (pk' * nz_s p))%G))) as [E|E]; [symmetry; exact E|].
    rewrite (X E) in H'. discriminate.
Qed.

(** in the toy suite, whose hash is not collision resistant, such a proof exists (for the identity as key) *)
Example C09_ex_collision :
  let p := @MkNizk Toy (mk 2704918473) (mk 1) in
  (nizk_verify p (u 3) (mk 0), nizk_verify p (u 138654449) (mk 0)) = (Ok tt, Ok tt).
Proof. cbv zeta. vmr. Qed.

(** what is left of dropped values is zero *)
Definition all_zero (l : list byte) : Prop := forall b, In b l -> b = x00.
Theorem C75_dropped_values_are_zero :
  forall (S : Suite),
  (forall p, wipe_nonce_pair p = (F0, F0)) /\
  (forall c, wipe_commitment_share c = MkCS (MkCom F0 Gzero) (MkCom F0 Gzero)) /\
  (forall l x, In x (wipe_coefficients l) -> x = F0) /\ (forall l, length (wipe_coefficients l) = length l) /\
  (forall s, wipe_secret_share s = MkShare u32_zero u32_zero F0) /\
  (forall e, es_sender (wipe_enc_share e) = u32_zero /\ es_receiver (wipe_enc_share e) = u32_zero /\
     all_zero (nonce_bytes (es_nonce (wipe_enc_share e))) /\
     all_zero (es_ct (wipe_enc_share e)) /\ length (es_ct (wipe_enc_share e)) = length (es_ct e)) /\
  (forall x, wipe_dh_private x = F0) /\
  (forall k, wipe_signing_key k = MkSK u32_zero F0) /\
  (forall st, ds_dh_sk (drop_actual_state st) = F0 /\
     (forall es j e, ds_enc (drop_actual_state st) = Some es -> In (j, e) es ->
        es_sender e = u32_zero /\ es_receiver e = u32_zero /\ all_zero (nonce_bytes (es_nonce e)) /\ all_zero (es_ct e)) /\
     (forall shares j s, ds_shares (drop_actual_state st) = Some shares -> In (j, s) shares -> s = MkShare u32_zero u32_zero F0)).
Proof.
  intros S.
  assert (HE : forall e, all_zero (nonce_bytes (es_nonce (wipe_enc_share e))) /\ all_zero (es_ct (wipe_enc_share e))).
  { intros e. split; intros b Hb.
    - cbn [wipe_enc_share es_nonce zero_nonce nonce_bytes] in Hb. apply repeat_spec in Hb. exact Hb.
    - cbn [wipe_enc_share es_ct] in Hb. unfold wipe_bytes in Hb. apply in_map_iff in Hb. destruct Hb as (x & E & _). symmetry. exact E. }
  split; [reflexivity|]. split; [reflexivity|]. split; [|split; [|split; [reflexivity|split; [|split; [reflexivity|split; [reflexivity|]]]]]].
  - intros l x Hx. apply in_map_iff in Hx. destruct Hx as (y & E & _). symmetry. exact E.
  - intros l. apply map_length.
  - intros e. split; [reflexivity|]. split; [reflexivity|]. split; [apply HE|]. split; [apply HE|]. apply map_length.
  - intros st. split; [reflexivity|]. split.
    + intros es j e H Hin. cbn [drop_actual_state ds_enc] in H. destruct (ds_enc st) as [es0|]; [|discriminate].
      injection H as <-. apply in_map_iff in Hin. destruct Hin as ([j0 e0] & E & _). cbn [fst snd] in E. injection E as _ <-.
      split; [reflexivity|]. split; [reflexivity|]. apply HE.
    + intros shares j s H Hin. cbn [drop_actual_state ds_shares] in H. destruct (ds_shares st) as [es0|]; [|discriminate].
      injection H as <-. apply in_map_iff in Hin. destruct Hin as ([j0 e0] & E & _). cbn [fst snd] in E. injection E as _ <-. reflexivity.
Qed.
Example C75_ex_zero :
  let e := @MkEnc Toy (u 3) (u 5) (fst (gen_nonce 77%N)) [x01; x02] in
  (es_ct (wipe_enc_share e), fv (wipe_dh_private (mk 9)), sk_index (wipe_signing_key (@MkSK Toy (u 4) (mk 8)))) = ([x00; x00], 0%Z, u32_zero).
Proof. cbv zeta. vmr. Qed.
Print Assumptions C09_hashed_string_is_unique.
Print Assumptions C09_two_statements_collide.
Print Assumptions C75_dropped_values_are_zero.
