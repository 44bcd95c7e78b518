(** C66 equality and ordering, C67 reported sizes. *)
From Coq Require Import String Strings.Byte Arith NArith ZArith Bool List Lia Eqdep_dec Permutation.
From Verif Require Import Base Suite Spec SpecDkg SpecSign SpecCodec Types ModelDkg ModelSign ModelCodec ModelCompare
  Algebra BaseLemmas LemmasShare LemmasCodec Toy Demo DemoDkg DemoSign.
Import ListNotations.

(** [decides eq]: eq decides equality *)
Definition decides {A} (eq : A -> A -> bool) : Prop := forall a b, eq a b = true <-> a = b.

Lemma dec_u32 : decides u32_eqb.
Proof. intros a b. apply u32_eqb_spec. Qed.
Lemma dec_byte : decides Byte.eqb.
Proof. intros a b. split; [apply Byte.byte_dec_bl|apply Byte.byte_dec_lb]. Qed.
Lemma dec_list {A} (eq : A -> A -> bool) : decides eq -> decides (list_eqb eq).
Proof.
  intros H. intros a; induction a as [|x a IH]; intros [|y b]; cbn; try (split; [discriminate|discriminate]); try (split; reflexivity).
  rewrite andb_true_iff, (H x y), IH. split; [intros [-> ->]; reflexivity|intros X; injection X as -> ->; auto].
Qed.
Lemma dec_option {A} (eq : A -> A -> bool) : decides eq -> decides (option_eqb eq).
Proof.
  intros H [x|] [y|]; cbn; try (split; [discriminate|discriminate]); try (split; reflexivity).
  rewrite (H x y). split; [intros ->; reflexivity|intros X; injection X as ->; reflexivity].
Qed.
Lemma dec_pair {A B} (f : A -> A -> bool) (g : B -> B -> bool) : decides f -> decides g -> decides (pair_eqb f g).
Proof.
  intros H1 H2 [a b] [c d]. unfold pair_eqb. cbn [fst snd]. rewrite andb_true_iff, (H1 a c), (H2 b d).
  split; [intros [-> ->]; reflexivity|intros X; injection X as -> ->; auto].
Qed.
Lemma dec_map {V} (eq : V -> V -> bool) : decides eq -> decides (map_eqb eq).
Proof. intros H. apply dec_list, dec_pair; [apply dec_u32|exact H]. Qed.
Lemma dec_params : decides params_eqb.
Proof.
  intros [a b] [c d]. unfold params_eqb. cbn [p_n p_t]. rewrite andb_true_iff, (dec_u32 a c), (dec_u32 b d).
  split; [intros [-> ->]; reflexivity|intros X; injection X as -> ->; auto].
Qed.

Ltac fields := repeat rewrite andb_true_iff; repeat match goal with H : decides ?f |- context [?f ?a ?b = true] => rewrite (H a b) end;
  split; [intros; repeat match goal with H : _ /\ _ |- _ => destruct H end; subst; reflexivity
         |intros X; injection X; intros; subst; repeat split; reflexivity].

Section Lemmas.
  Context {S : Suite} {L : SuiteLaws S}.
  Lemma dec_F : decides Feqb. Proof. intros a b. apply Feqb_spec. Qed.
  Lemma dec_G : decides Geqb. Proof. intros a b. apply Geqb_spec. Qed.
  Lemma nonce_ext (a b : Nonce) : nonce_bytes a = nonce_bytes b -> a = b.
  Proof.
    destruct a as [l H], b as [l' H']. cbn. intros ->. f_equal. apply UIP_dec, bool_dec.
  Qed.
  Lemma dec_encshare : decides encshare_eqb.
  Proof.
    intros [a b n c] [a' b' n' c']. unfold encshare_eqb. cbn [Types.es_sender Types.es_receiver Types.es_nonce Types.es_ct].
    rewrite !andb_true_iff, (dec_u32 a a'), (dec_u32 b b'), (dec_list _ dec_byte (nonce_bytes n) _), (dec_list _ dec_byte c c').
    split.
    - intros [[[-> ->] Hn] ->]. apply nonce_ext in Hn. subst. reflexivity.
    - intros X. injection X as -> -> -> ->. auto.
  Qed.
  Lemma dec_share : decides share_eqb.
  Proof. pose proof dec_u32. pose proof dec_F. intros [] []. unfold share_eqb. cbn [Types.sh_sender Types.sh_receiver Types.sh_value]. fields. Qed.
  Lemma dec_vss : decides vss_eqb.
  Proof. pose proof dec_u32. pose proof (dec_list _ dec_G). intros [] []. unfold vss_eqb. cbn [Types.vss_index Types.vss_points]. fields. Qed.
  Lemma dec_nizk : decides nizk_eqb.
  Proof. pose proof dec_F. intros [] []. unfold nizk_eqb. cbn [Types.nz_s Types.nz_r]. fields. Qed.
  Lemma dec_complaint_proof : decides complaint_proof_eqb.
  Proof. pose proof dec_F. pose proof dec_G. intros [] []. unfold complaint_proof_eqb. cbn [Types.cp_a1 Types.cp_a2 Types.cp_z]. fields. Qed.
  Lemma dec_complaint : decides complaint_eqb.
  Proof.
    pose proof dec_G. pose proof dec_encshare. pose proof dec_complaint_proof. intros [] []. unfold complaint_eqb.
    cbn [Types.c_shared Types.c_pk Types.c_share Types.c_proof]. fields.
  Qed.
  Lemma dec_vk : decides verifying_key_eqb.
  Proof. pose proof dec_u32. pose proof dec_G. intros [] []. unfold verifying_key_eqb. cbn [Types.vk_index Types.vk_share]. fields. Qed.
  Lemma dec_sk : decides signing_key_eqb.
  Proof. pose proof dec_u32. pose proof dec_F. intros [] []. unfold signing_key_eqb. cbn [Types.sk_index Types.sk_key]. fields. Qed.
  Lemma dec_state : decides state_eqb.
  Proof.
    pose proof dec_params. pose proof dec_u32. pose proof dec_F. pose proof dec_G. pose proof (dec_option _ (dec_map _ dec_vss)).
    pose proof (dec_map _ dec_G). pose proof (dec_option _ (dec_map _ dec_encshare)). pose proof (dec_option _ (dec_map _ dec_share)).
    intros [] []. unfold state_eqb. cbn [Types.ds_params Types.ds_index Types.ds_dh_sk Types.ds_dh_pk Types.ds_comms Types.ds_dhs Types.ds_enc Types.ds_shares]. fields.
  Qed.
  Lemma dec_com : decides com_eqb.
  Proof. pose proof dec_F. pose proof dec_G. intros [] []. unfold com_eqb. cbn [Types.co_secret Types.co_commit]. fields. Qed.
  Lemma dec_cs : decides cs_eqb.
  Proof. pose proof dec_com. intros [] []. unfold cs_eqb. cbn [Types.cs_hiding Types.cs_binding]. fields. Qed.
  Lemma dec_secret_list : decides secret_list_eqb.
  Proof. pose proof (dec_list _ dec_cs). intros [] []. unfold secret_list_eqb. cbn [Types.sl_commitments]. fields. Qed.
  Lemma dec_public_list : decides public_list_eqb.
  Proof.
    pose proof dec_u32. pose proof (dec_list _ (dec_pair _ _ dec_G dec_G)). intros [] []. unfold public_list_eqb.
    cbn [Types.pl_index Types.pl_commitments]. fields.
  Qed.
  Lemma dec_partial_sig : decides partial_sig_eqb.
  Proof. pose proof dec_u32. pose proof dec_F. intros [] []. unfold partial_sig_eqb. cbn [Types.ps_index Types.ps_z]. fields. Qed.
  Lemma dec_threshold_sig : decides threshold_sig_eqb.
  Proof. pose proof dec_F. pose proof dec_G. intros [] []. unfold threshold_sig_eqb. cbn [Types.ts_R Types.ts_z]. fields. Qed.

  Lemma u32_cmp_spec a b : match u32_cmp a b with
    | Lt => (u32v a < u32v b)%N | Eq => a = b | Gt => (u32v b < u32v a)%N end.
  Proof.
    unfold u32_cmp. destruct (N.compare_spec (u32v a) (u32v b)) as [H|H|H]; try exact H. apply u32_ext, H.
  Qed.
End Lemmas.

(** equality of messages, keys, lists, signatures and saved states compares everything *)
Theorem C66_equality_is_identity :
  forall (S : Suite) (L : SuiteLaws S),
  decides params_eqb /\ decides encshare_eqb /\ decides share_eqb /\ decides vss_eqb /\ decides nizk_eqb /\
  decides complaint_proof_eqb /\ decides complaint_eqb /\ decides verifying_key_eqb /\ decides signing_key_eqb /\
  decides state_eqb /\ decides com_eqb /\ decides cs_eqb /\ decides secret_list_eqb /\ decides public_list_eqb /\
  decides partial_sig_eqb /\ decides threshold_sig_eqb.
Proof.
  intros S L. repeat split; try apply dec_params; try apply dec_encshare; try apply dec_share; try apply dec_vss; try apply dec_nizk;
  try apply dec_complaint_proof; try apply dec_complaint; try apply dec_vk; try apply dec_sk; try apply dec_state; try apply dec_com;
  try apply dec_cs; try apply dec_secret_list; try apply dec_public_list; try apply dec_partial_sig; try apply dec_threshold_sig.
Qed.
Print Assumptions C66_equality_is_identity.

(** signers are ordered and compared by index alone; the order is total and agrees with == *)
Theorem C66_signers_compare_by_index :
  forall (S : Suite) (a b c : Signer),
  (signer_eqb a b = true <-> sg_index a = sg_index b) /\
  (signer_cmp a b = Eq <-> signer_eqb a b = true) /\
  (signer_cmp a b = Lt <-> (u32v (sg_index a) < u32v (sg_index b))%N) /\
  (signer_cmp a b = CompOpp (signer_cmp b a)) /\
  (signer_cmp a b = Lt -> signer_cmp b c = Lt -> signer_cmp a c = Lt) /\
  signer_partial_cmp a b = Some (signer_cmp a b).
Proof.
  intros S a b c.
  assert (K : forall x y : Signer, match signer_cmp x y with
    | Lt => (u32v (sg_index x) < u32v (sg_index y))%N | Eq => sg_index x = sg_index y | Gt => (u32v (sg_index y) < u32v (sg_index x))%N end).
  { intros x y. unfold signer_cmp. pose proof (u32_cmp_spec (sg_index x) (sg_index y)). destruct (u32_cmp _ _); assumption. }
  assert (E : signer_eqb a b = true <-> sg_index a = sg_index b) by apply u32_eqb_spec.
  split; [exact E|]. split; [|split; [|split; [|split; [|reflexivity]]]].
  - rewrite E. specialize (K a b). destruct (signer_cmp a b); split; intros X; try discriminate; try reflexivity; try assumption;
      exfalso; rewrite X in K; lia.
  - specialize (K a b). destruct (signer_cmp a b); split; intros X; try discriminate; try reflexivity; try assumption; exfalso.
    + rewrite K in X. lia.
    + lia.
  - pose proof (K a b) as K1. pose proof (K b a) as K2. destruct (signer_cmp a b), (signer_cmp b a); cbn; try reflexivity; exfalso;
      first [lia|rewrite K1 in K2; lia|rewrite K2 in K1; lia].
  - intros X Y. pose proof (K a b) as K1. pose proof (K b c) as K2. pose proof (K a c) as K3. rewrite X in K1. rewrite Y in K2.
    destruct (signer_cmp a c); [rewrite K3 in K1; lia|reflexivity|lia].
Qed.
Print Assumptions C66_signers_compare_by_index.

(** participants: == looks at the index alone, and partial_cmp of equal participants is None: the contract of
    PartialOrd (a == b exactly when partial_cmp is Some Equal) fails for every participant, even with itself *)
Theorem C66_participant_order_is_unlawful :
  forall (S : Suite) (a b : Participant),
  (participant_eqb a b = true <-> pt_index a = pt_index b) /\
  (participant_partial_cmp a b = None <-> participant_eqb a b = true) /\
  participant_eqb a a = true /\ participant_partial_cmp a a <> Some Eq /\
  (participant_partial_cmp a b = Some Lt <-> (u32v (pt_index a) < u32v (pt_index b))%N) /\
  (participant_partial_cmp a b = Some Gt <-> (u32v (pt_index b) < u32v (pt_index a))%N).
Proof.
  intros S a b. pose proof (u32_cmp_spec (pt_index a) (pt_index b)) as K. pose proof (u32_cmp_spec (pt_index a) (pt_index a)) as K0.
  assert (E : participant_eqb a b = true <-> pt_index a = pt_index b) by apply u32_eqb_spec.
  split; [exact E|]. rewrite E. unfold participant_partial_cmp. split; [|split; [|split; [|split]]].
  - destruct (u32_cmp (pt_index a) (pt_index b)); split; intros X; try discriminate; try reflexivity; try assumption;
      exfalso; rewrite X in K; lia.
  - apply u32_eqb_refl.
  - destruct (u32_cmp (pt_index a) (pt_index a)); [discriminate|lia|lia].
  - destruct (u32_cmp (pt_index a) (pt_index b)); split; intros X; try discriminate; try reflexivity; try assumption; exfalso.
    + rewrite K in X. lia.
    + lia.
  - destruct (u32_cmp (pt_index a) (pt_index b)); split; intros X; try discriminate; try reflexivity; try assumption; exfalso.
    + rewrite K in X. lia.
    + lia.
Qed.
Print Assumptions C66_participant_order_is_unlawful.

(** an honest dealer and an impostor with the same index but another key and commitment compare equal; two
    complaints differing in one ciphertext byte do not *)
Example C66_ex :
  participant_eqb (dealer 3 2 1 10) (dealer 3 2 1 77) = true /\
  Geqb (pt_dh_pk (dealer 3 2 1 10)) (pt_dh_pk (dealer 3 2 1 77)) = false /\
  participant_partial_cmp (dealer 3 2 1 10) (dealer 3 2 2 20) = Some Lt /\
  (match demo_shares 3 with e :: _ => encshare_eqb e e && negb (encshare_eqb e (garbled e)) | [] => false end) = true /\
  signer_eqb (MkSigner (u 4) (toy_gen, toy_gen)) (MkSigner (u 4) (mk 1, mk 2)) = true /\
  signer_cmp (MkSigner (u 4) (toy_gen, toy_gen)) (MkSigner (u 5) (mk 1, mk 2)) = Lt.
Proof. vms. Qed.

(** ** C67 *)
Section Sizes.
  Context {S : Suite} {L : SuiteLaws S}.
  Lemma scalar_len x : length (enc_scalar x) = scalar_size.
  Proof. apply enc_scalar_len. Qed.
  Lemma point_len P : length (enc_point P) = point_size.
  Proof. apply enc_point_len. Qed.
  Lemma le_len k : forall n, length (le_bytes k n) = k.
  Proof. induction k; intros n; cbn [le_bytes length]; auto. Qed.
  Lemma u32_len i : length (u32_le i) = 4.
  Proof. apply le_len. Qed.
  Lemma concat_len {A} (f : A -> list byte) (g : A -> nat) l : (forall a, In a l -> length (f a) = g a) ->
    length (concat (map f l)) = sizes g l.
  Proof.
    induction l as [|a l IH]; intros H; cbn [map concat sizes length]; [reflexivity|]. rewrite app_length, (H a), IH; auto.
    - intros b Hb. apply H. right. exact Hb.
    - left. reflexivity.
  Qed.
  Lemma vec_len {A} (f : A -> list byte) (g : A -> nat) l : (forall a, length (f a) = g a) -> length (ser_vec f l) = vec_size g l.
  Proof. intros H. unfold ser_vec, vec_size. rewrite app_length, le_len, (concat_len f g); auto. Qed.
  Lemma option_len {A} (f : A -> list byte) (g : A -> nat) o : (forall a, length (f a) = g a) -> length (ser_option f o) = option_size g o.
  Proof. intros H. destruct o; cbn; [rewrite H|]; reflexivity. Qed.
  Lemma map_len {V} (f : V -> list byte) (g : V -> nat) (m : bmap V) : (forall a, length (f a) = g a) -> length (ser_map f m) = map_size g m.
  Proof.
    intros H. unfold ser_map, ser_vec, map_size. rewrite app_length, le_len, (concat_len _ (fun kv : u32 * V => 4 + g (snd kv))); [reflexivity|].
    intros [k v] _. unfold ser_pair. cbn [fst snd]. rewrite app_length, u32_len, H. reflexivity.
  Qed.
  Lemma bytes_len l : length (enc_bytes l) = vec_size (fun _ : byte => 1) l.
  Proof.
    unfold enc_bytes, vec_size. rewrite app_length, le_len. f_equal. induction l; cbn [length sizes]; auto.
  Qed.
  Lemma params_len p : length (ser_params p) = params_size p.
  Proof. unfold ser_params. rewrite app_length, !u32_len. reflexivity. Qed.
  Lemma encshare_len e : length (ser_encshare e) = encshare_size e.
  Proof. unfold ser_encshare, encshare_size. rewrite !app_length, !u32_len, !bytes_len. lia. Qed.
  Lemma vss_len c : length (ser_vss c) = vss_size c.
  Proof. unfold ser_vss, vss_size. rewrite app_length, u32_len, (vec_len _ (fun _ => point_size)); [reflexivity|apply point_len]. Qed.
  Lemma nizk_len p : length (ser_nizk p) = nizk_size p.
  Proof. unfold ser_nizk, nizk_size. rewrite app_length, !scalar_len. reflexivity. Qed.
  Lemma proof_len p : length (ser_complaint_proof p) = complaint_proof_size p.
  Proof. unfold ser_complaint_proof, complaint_proof_size. rewrite !app_length, !point_len, scalar_len. lia. Qed.
  Lemma complaint_len c : length (ser_complaint c) = complaint_size c.
  Proof. unfold ser_complaint, complaint_size. rewrite !app_length, !point_len, encshare_len, proof_len. lia. Qed.
  Lemma participant_len p : length (ser_participant p) = participant_size p.
  Proof.
    unfold ser_participant, participant_size. rewrite !app_length, u32_len, point_len, (option_len _ _ _ vss_len), (option_len _ _ _ nizk_len), nizk_len. lia.
  Qed.
  Lemma share_len s : length (ser_share s) = share_size s.
  Proof. unfold ser_share, share_size. rewrite !app_length, !u32_len, scalar_len. lia. Qed.
  Lemma state_len s : length (ser_state s) = state_size s.
  Proof.
    unfold ser_state, state_size. rewrite !app_length, params_len, u32_len, scalar_len, point_len.
    rewrite (option_len _ (map_size vss_size)) by (intros; apply map_len, vss_len).
    rewrite (map_len _ (fun _ => point_size)) by apply point_len.
    rewrite (option_len _ (map_size encshare_size)) by (intros; apply map_len, encshare_len).
    rewrite (option_len _ (map_size share_size)) by (intros; apply map_len, share_len). lia.
  Qed.
  Lemma com_len c : length (ser_commitment c) = commitment_size c.
  Proof. unfold ser_commitment, commitment_size. rewrite app_length, scalar_len, point_len. reflexivity. Qed.
  Lemma cs_len c : length (ser_commitment_share c) = commitment_share_size c.
  Proof. unfold ser_commitment_share, commitment_share_size. rewrite app_length, !com_len. reflexivity. Qed.
  Lemma pair_len p : length (ser_pair enc_point enc_point p) = point_size + point_size.
  Proof. unfold ser_pair. rewrite app_length, !point_len. reflexivity. Qed.
End Sizes.

(** [sized ser size]: to_bytes returns exactly as many bytes as compressed_size announces *)
Definition sized {S : Suite} {A} (ser : A -> list byte) (size : A -> nat) : Prop :=
  forall v b, to_bytes ser v = Ok b -> length b = size v.

Theorem C67_announced_sizes_are_exact :
  forall (S : Suite) (L : SuiteLaws S),
  sized ser_params params_size /\ sized ser_scalar (fun _ => scalar_size) /\ sized ser_point (fun _ => point_size) /\
  sized ser_verifying_key verifying_key_size /\ sized ser_signing_key signing_key_size /\
  sized ser_coefficients coefficients_size /\ sized ser_share share_size /\ sized ser_encshare encshare_size /\
  sized ser_vss vss_size /\ sized ser_nizk nizk_size /\ sized ser_complaint_proof complaint_proof_size /\
  sized ser_complaint complaint_size /\ sized ser_participant participant_size /\ sized ser_part_list part_list_size /\
  sized ser_round_one (fun s => state_size (st1 s)) /\ sized ser_round_two (fun s => state_size (st2 s)) /\
  sized ser_commitment commitment_size /\ sized ser_commitment_share commitment_share_size /\
  sized ser_secret_list secret_list_size /\ sized ser_public_list public_list_size /\ sized ser_signer signer_size /\
  sized ser_partial_sig partial_sig_size /\ sized ser_threshold_sig threshold_sig_size.
Proof.
  intros S L.
  assert (K : forall A (ser : A -> list byte) size, (forall v, length (ser v) = size v) -> sized ser size).
  { intros A ser size H v b E. injection E as <-. apply H. }
  repeat match goal with |- _ /\ _ => split end; apply K; intros v.
  - apply params_len.
  - apply scalar_len.
  - apply point_len.
  - unfold ser_verifying_key. rewrite app_length, u32_len, point_len. reflexivity.
  - unfold ser_signing_key. rewrite app_length, u32_len, scalar_len. reflexivity.
  - apply vec_len, scalar_len.
  - apply share_len.
  - apply encshare_len.
  - apply vss_len.
  - apply nizk_len.
  - apply proof_len.
  - apply complaint_len.
  - apply participant_len.
  - unfold ser_part_list, part_list_size. rewrite app_length, (vec_len _ _ _ participant_len).
    rewrite (option_len _ (vec_size (fun _ : u32 => 4))); [reflexivity|]. intros l. apply vec_len, u32_len.
  - apply state_len.
  - apply state_len.
  - apply com_len.
  - apply cs_len.
  - apply vec_len, cs_len.
  - unfold ser_public_list, public_list_size. rewrite app_length, u32_len, (vec_len _ (fun _ => point_size + point_size)); [reflexivity|apply pair_len].
  - unfold ser_signer, signer_size. rewrite app_length, u32_len, pair_len. reflexivity.
  - unfold ser_partial_sig, partial_sig_size. rewrite app_length, u32_len, scalar_len. reflexivity.
  - unfold ser_threshold_sig, threshold_sig_size. rewrite app_length, point_len, scalar_len. reflexivity.
Qed.
Print Assumptions C67_announced_sizes_are_exact.

(** the three-party demo state occupies as many bytes as announced, more than 300 of them *)
Example C67_ex :
  Nat.eqb (length (ser_round_one (demo_r1 demo_ps 1))) (state_size (st1 (demo_r1 demo_ps 1))) = true /\
  Nat.ltb 300 (length (ser_round_one (demo_r1 demo_ps 1))) = true.
Proof. vms. Qed.
