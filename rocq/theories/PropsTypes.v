(** Property C104: encodings carry no type. *)
From Coq Require Import String Strings.Byte Arith NArith ZArith Bool List Lia Sorted Field_theory.
From Verif Require Import Base Suite Spec SpecDkg SpecSign SpecCodec Types ModelDkg ModelSign ModelCodec Algebra BaseLemmas LemmasShare LemmasCodec
  Toy Demo DemoDkg DemoSign PropsShare PropsSign PropsCodec PropsParams.
Import ListNotations.

(** what was written as an A is read as a B, whatever follows *)
Definition read_as {S : Suite} {A B} (R : A -> Prop) (ser : A -> list byte) (d : decoder B) (f : A -> B) : Prop :=
  forall v junk, R v -> exists b, to_bytes ser v = Ok b /\ from_bytes d (b ++ junk) = Ok (f v).

(** the first [k] of the points of a list of pairs *)
Fixpoint unpair {A} (l : list (A * A)) : list A := match l with [] => [] | (a, b) :: l' => a :: b :: unpair l' end.

Section Types.
  Context {S : Suite} {L : SuiteLaws S}.

  Lemma read_as_intro {A B} (R : A -> Prop) (ser : A -> list byte) (d : decoder B) f :
    (forall v junk, R v -> exists r, d (ser v ++ junk) = Some (f v, r)) -> read_as R ser d f.
  Proof.
    intros H v junk Hv. exists (ser v). split; [reflexivity|]. destruct (H v junk Hv) as [r E]. unfold from_bytes. rewrite E. reflexivity.
  Qed.
  Lemma unpair_len {A} (l : list (A * A)) : length (unpair l) = 2 * length l.
  Proof. induction l as [|[a b] l IH]; [reflexivity|]. cbn [unpair length]. rewrite IH. lia. Qed.
  Lemma unpair_ser (l : list (G * G)) : concat (map (ser_pair enc_point enc_point) l) = concat (map enc_point (unpair l)).
  Proof. induction l as [|[a b] l IH]; [reflexivity|]. cbn [unpair map concat]. rewrite IH. unfold ser_pair. cbn [fst snd]. apply eq_sym, app_assoc. Qed.
  Lemma de_many_first k (l : list G) r : k <= length l ->
    exists r', de_many dec_point k (concat (map enc_point l) ++ r) = Some (firstn k l, r').
  Proof.
    intros H. replace (concat (map enc_point l)) with (concat (map enc_point (firstn k l ++ skipn k l))) by (rewrite firstn_skipn; reflexivity).
    rewrite map_app, concat_app, <- app_assoc.
    exists (concat (map enc_point (skipn k l)) ++ r).
    pose proof (de_many_ok any enc_point dec_point exact_point (firstn k l) (concat (map enc_point (skipn k l)) ++ r)) as X.
    rewrite firstn_length_le in X by exact H. apply X. intros; exact I.
  Qed.
  Lemma point_len_pos : 0 < length (enc_point Gzero).
  Proof.
    destruct (enc_point Gzero) as [|b l] eqn:E; [|cbn; lia]. exfalso.
    pose proof (enc_point_len gen Gzero) as H. rewrite E in H. apply length_zero_iff_nil in H.
    pose proof (enc_point_dec gen []) as H1. pose proof (enc_point_dec Gzero []) as H2. rewrite H in H1. rewrite E in H2. rewrite H1 in H2.
    injection H2 as H2. assert (X : F1 = F0).
    { apply gen_inj. rewrite Gmul_1, Gmul_0_r. exact H2. }
    pose proof (F_1_neq_0 F_field) as Y. apply Y. exact X.
  Qed.
  Lemma points_len (l : list G) : length (concat (map enc_point l)) = length l * length (enc_point Gzero).
  Proof. induction l as [|P l IH]; [reflexivity|]. cbn [map concat length]. rewrite app_length, IH, (enc_point_len P Gzero). lia. Qed.
End Types.

(** * C104 *)
(** the same bytes: signing keys and partial signatures, Diffie-Hellman public keys and group keys
    (both written and read by [ser_point], [de_point]) *)
Theorem C104_keys_and_partial_signatures_are_the_same_bytes : forall (S : Suite) (i : u32) (x : F) (bs : list byte),
  to_bytes ser_signing_key (MkSK i x) = to_bytes ser_partial_sig (MkPSig i x) /\
  (from_bytes de_signing_key bs = Ok (MkSK i x) <-> from_bytes de_partial_sig bs = Ok (MkPSig i x)).
Proof.
  intros S i x bs. split; [reflexivity|]. unfold from_bytes, de_signing_key, de_partial_sig.
  destruct (de_u32 bs) as [[j r]|]; cbn [dthen]; [|split; discriminate].
  destruct (dec_scalar r) as [[y r']|]; cbn [dthen]; [|split; discriminate].
  split; intros E; injection E as -> ->; reflexivity.
Qed.
Print Assumptions C104_keys_and_partial_signatures_are_the_same_bytes.

(** bytes of one type read as another *)
Theorem C104_encodings_carry_no_type : forall (S : Suite) (L : SuiteLaws S),
  (** as the verifying key of the same index *)
  read_as real_participant ser_participant de_verifying_key (fun p => MkVK (pt_index p) (pt_dh_pk p)) /\
  read_as any ser_signer de_verifying_key (fun s => MkVK (sg_index s) (fst (sg_com s))) /\
  (** as a group key (or Diffie-Hellman public key) *)
  read_as any ser_threshold_sig de_point ts_R /\
  read_as real_complaint ser_complaint de_point c_shared /\
  read_as any ser_complaint_proof de_point cp_a1 /\
  (** as a Diffie-Hellman private key *)
  read_as any ser_nizk de_scalar nz_s /\
  read_as any ser_commitment de_scalar co_secret /\
  read_as any ser_commitment_share de_scalar (fun c => co_secret (cs_hiding c)) /\
  (** as threshold parameters *)
  read_as any ser_share de_params (fun s => MkParams (sh_sender s) (sh_receiver s)) /\
  read_as real_enc ser_encshare de_params (fun e => MkParams (es_sender e) (es_receiver e)) /\
  (** others *)
  read_as any ser_commitment_share de_commitment cs_hiding /\
  read_as (fun l => fits (pl_commitments l)) ser_public_list de_vss
    (fun l => MkVss (pl_index l) (firstn (length (pl_commitments l)) (unpair (pl_commitments l)))).
Proof.
  intros S L. repeat split; apply read_as_intro; intros v junk Hv.
  - unfold ser_participant, de_verifying_key. rewrite <- !app_assoc, exact_u32 by exact I. cbn [dthen]. rewrite exact_point by exact I. eexists. reflexivity.
  - unfold ser_signer, de_verifying_key, ser_pair. rewrite <- !app_assoc, exact_u32 by exact I. cbn [dthen]. rewrite exact_point by exact I. eexists. reflexivity.
  - unfold ser_threshold_sig, de_point. rewrite <- !app_assoc, exact_point by exact I. eexists. reflexivity.
  - unfold ser_complaint, de_point. rewrite <- !app_assoc, exact_point by exact I. eexists. reflexivity.
  - unfold ser_complaint_proof, de_point. rewrite <- !app_assoc, exact_point by exact I. eexists. reflexivity.
  - unfold ser_nizk, de_scalar. rewrite <- !app_assoc, exact_scalar by exact I. eexists. reflexivity.
  - unfold ser_commitment, de_scalar. rewrite <- !app_assoc, exact_scalar by exact I. eexists. reflexivity.
  - unfold ser_commitment_share, ser_commitment, de_scalar. rewrite <- !app_assoc, exact_scalar by exact I. eexists. reflexivity.
  - unfold ser_share, de_params. rewrite <- !app_assoc, exact_u32 by exact I. cbn [dthen]. rewrite exact_u32 by exact I. eexists. reflexivity.
  - unfold ser_encshare, de_params. rewrite <- !app_assoc, exact_u32 by exact I. cbn [dthen]. rewrite exact_u32 by exact I. eexists. reflexivity.
  - unfold ser_commitment_share. rewrite <- !app_assoc, exact_commitment by exact I. eexists. reflexivity.
  - unfold ser_public_list, de_vss, ser_vec, de_vec. rewrite <- !app_assoc, exact_u32 by exact I. cbn [dthen].
    rewrite de_u64_ok by exact Hv. cbn [dthen]. rewrite Nat2N.id, unpair_ser.
    destruct (de_many_first (length (pl_commitments v)) (unpair (pl_commitments v)) junk) as [r' E]; [rewrite unpair_len; lia|].
    rewrite E. eexists. reflexivity.
Qed.
Print Assumptions C104_encodings_carry_no_type.

(** a published message read as a verifying key is the public part of a signing key made of another
    secret of its sender: the Diffie-Hellman private key, a nonce *)
Theorem C104_wrong_keys_are_usable : forall (S : Suite) (L : SuiteLaws S),
  (forall p i r d coeffs dh_sk r', new_dealer p i r = Ok (d, coeffs, dh_sk, r') ->
     exists b, to_bytes ser_participant d = Ok b /\
       forall junk, from_bytes de_verifying_key (b ++ junk) = Ok (to_public (MkSK i dh_sk))) /\
  (forall r k n pub sec r' j c, generate_commitment_share_lists r k n = (pub, sec, r') ->
     nth_error (sl_commitments sec) j = Some c ->
     exists pair b, nth_error (pl_commitments pub) j = Some pair /\
       to_bytes ser_signer (MkSigner (pl_index pub) pair) = Ok b /\
       forall junk, from_bytes de_verifying_key (b ++ junk) = Ok (to_public (MkSK (sk_index k) (co_secret (cs_hiding c))))).
Proof.
  intros S L. pose proof (C104_encodings_carry_no_type S L) as (H1 & H2 & _). split.
  - intros p i r d co x r' E.
    destruct (u32_eqb i u32_zero) eqn:Ei.
    { apply u32_eqb_spec in Ei. subst i. rewrite (proj1 (C12_index_zero_rejected S p r)) in E. discriminate. }
    assert (Hi : i <> u32_zero) by (intros ->; rewrite (proj2 (u32_eqb_spec _ _) eq_refl) in Ei; discriminate).
    destruct (N.le_gt_cases 1 (u32v (p_t p))) as [Ht|Ht].
    + destruct (C12_new_dealer_well_formed S L p i r Hi Ht) as (d' & co' & x' & r'' & E' & W1 & W2 & W3 & W4 & _).
      rewrite E in E'. injection E' as <- <- <- <-.
      assert (Hr : real_participant d).
      { intros c Ec. rewrite W3 in Ec. injection Ec as <-. unfold real_vss, fits, committed. cbn [vss_points]. rewrite map_length, W2, N2Nat.id.
        pose proof (u32_bound (p_t p)). lia. }
      exists (ser_participant d). split; [reflexivity|]. intros junk. destruct (H1 d junk Hr) as (b' & Hb' & H). injection Hb' as <-.
      rewrite H, W1, W4. reflexivity.
    + destruct (C92_dealing_outside_the_range S L Debug p i r F0 [] Hi) as [X _]. rewrite (proj1 (X ltac:(lia))) in E. discriminate.
  - intros r k n pub sec r' j c E Hc. destruct (C37_lists_are_consistent S L r k n) as (pub' & sec' & r'' & E' & W1 & _ & _ & W4).
    rewrite E in E'. injection E' as <- <- <-. destruct (W4 _ _ Hc) as [[Wh _] Wp].
    exists (published c). eexists. split; [exact Wp|]. split; [reflexivity|]. intros junk.
    destruct (H2 (MkSigner (pl_index pub) (published c)) junk I) as (b' & Hb' & H). injection Hb' as <-. rewrite H.
    cbn [sg_index sg_com]. unfold published, to_public. cbn [fst sk_index sk_key]. rewrite W1. reflexivity.
Qed.
Print Assumptions C104_wrong_keys_are_usable.

(** where the reader notices: commitments to a polynomial are not accepted as a list of nonce commitments *)
Theorem C104_commitments_are_no_nonce_list : forall (S : Suite) (L : SuiteLaws S), canonical enc_point dec_point ->
  forall c b, real_vss c -> vss_points c <> [] -> to_bytes ser_vss c = Ok b -> from_bytes de_public_list b = Err DeserializationError.
Proof.
  intros S L Hp c b Hc Hn Hb. injection Hb as <-. unfold from_bytes, de_public_list, ser_vss, ser_vec, de_vec. rewrite exact_u32 by exact I. cbn [dthen].
  rewrite de_u64_ok by exact Hc. cbn [dthen]. rewrite Nat2N.id.
  destruct (de_many (de_pair dec_point dec_point) (length (vss_points c)) (concat (map enc_point (vss_points c)))) as [[l r]|] eqn:E; [|reflexivity].
  exfalso. apply (can_many (ser_pair enc_point enc_point)) in E; [|apply can_pair; exact Hp]. destruct E as [E Hl].
  apply (f_equal (@length byte)) in Hl. rewrite app_length, unpair_ser, !points_len, unpair_len, E in Hl.
  pose proof point_len_pos. destruct (vss_points c); [congruence|]. cbn [length] in Hl. nia.
Qed.
Print Assumptions C104_commitments_are_no_nonce_list.

(** * Example: a dealer's message read as its verifying key, a nonce announcement likewise, a key as partial signature *)
Example C104_ex : exists d co x r, @new_dealer Toy (MkParams (u 3) (u 2)) (u 2) 5%N = Ok (d, co, x, r) /\
  from_bytes de_verifying_key (ser_participant d) = Ok (to_public (MkSK (u 2) x)).
Proof.
  destruct (@new_dealer Toy (MkParams (u 3) (u 2)) (u 2) 5%N) as [[[[d co] x] r]| |] eqn:E.
  - exists d, co, x, r. split; [reflexivity|]. destruct (proj1 (C104_wrong_keys_are_usable Toy ToyLaws) _ _ _ _ _ _ _ E) as (b & Hb & H).
    injection Hb as <-. rewrite <- (app_nil_r (ser_participant d)). apply H.
  - exfalso. destruct (C12_new_dealer_well_formed Toy ToyLaws (MkParams (u 3) (u 2)) (u 2) 5%N) as (d & co & x & r & E' & _).
    + apply u32_eqb_neq. vmr.
    + vm_compute. discriminate.
    + rewrite E in E'. discriminate.
  - exfalso. destruct (C12_new_dealer_well_formed Toy ToyLaws (MkParams (u 3) (u 2)) (u 2) 5%N) as (d & co & x & r & E' & _).
    + apply u32_eqb_neq. vmr.
    + vm_compute. discriminate.
    + rewrite E in E'. discriminate.
Qed.
Example C104_ex_key : from_bytes de_partial_sig (@ser_signing_key Toy (MkSK (u 3) (mk 77))) = Ok (MkPSig (u 3) (mk 77)).
Proof. apply (proj2 (C104_keys_and_partial_signatures_are_the_same_bytes Toy (u 3) (mk 77) _)). vms. Qed.
Example C104_ex_vss : @canonical G enc_point dec_point /\ real_vss (@MkVss Toy (u 1) [mk 5; mk 6]) /\
  from_bytes de_public_list (ser_vss (@MkVss Toy (u 1) [mk 5; mk 6])) = Err DeserializationError.
Proof.
  assert (H : real_vss (@MkVss Toy (u 1) [mk 5; mk 6])) by (unfold real_vss, fits; cbn; lia).
  split; [exact toy_canonical_point|]. split; [exact H|].
  apply (C104_commitments_are_no_nonce_list Toy ToyLaws toy_canonical_point (@MkVss Toy (u 1) [mk 5; mk 6])); [exact H|discriminate|reflexivity].
Qed.
