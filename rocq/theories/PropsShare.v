(** C01-C12: parameters, Lagrange coefficients, shares, encryption, proofs of knowledge, complaints,
    fresh participants. *)
From Coq Require Import String Strings.Byte Arith NArith ZArith Bool List Lia Field.
From Verif Require Import Base Suite Spec Types Algebra BaseLemmas ModelDkg LemmasShare Toy Demo.
Import ListNotations.

(** C01 *)
Theorem C01_params_new_exact : forall (S : Suite) (m : build) (n t : u32),
  ((1 <= u32v t <= u32v n)%N -> params_new m n t = Ok (MkParams n t)) /\
  (~ (1 <= u32v t <= u32v n)%N ->
     params_new m n t = match m with Release => Err InvalidThresholdParams | Debug => Panic end).
Proof.
  intros S m n t. split; intros H.
  - apply params_new_ok; apply H.
  - rewrite params_new_bad by exact H. destruct m; reflexivity.
Qed.
Print Assumptions C01_params_new_exact.

Example C01_ex : params_new Debug (u 5) (u 3) = Ok (MkParams (u 5) (u 3)) /\
  params_new Release (u 2) (u 3) = Err InvalidThresholdParams /\ params_new Debug (u 0) (u 0) = Panic.
Proof. vms. Qed.

(** C02 *)
Theorem C02_lagrange_outcome : forall (S : Suite) (L : SuiteLaws S) (i : u32) (l : list u32),
  (~ NoDup l -> lagrange i l = Err (Custom "Duplicate indices provided")) /\
  (NoDup l -> In u32_zero l -> lagrange i l = Err IndexIsZero) /\
  (NoDup l -> ~ In u32_zero l ->
     exists c, lagrange i l = Ok c /\
       forall c', (c' * fprod (map (fun j => of_u32 j - of_u32 i)%F (others i l)) =
                   fprod (map of_u32 (others i l)))%F <-> c' = c).
Proof.
  intros S L i l. split; [|split].
  - apply lagrange_dup.
  - apply lagrange_zero_index.
  - intros H1 H2. exists (weight i l). split; [apply lagrange_ok; split; assumption|].
    intros c'. apply weight_char.
Qed.
Print Assumptions C02_lagrange_outcome.

(** the documented errors for an absent own index never happen *)
Theorem C02_absent_index_accepted : forall (S : Suite) (L : SuiteLaws S) (i : u32) (l : list u32),
  good_indices l -> ~ In i l -> exists c, lagrange i l = Ok c.
Proof. intros S L i l H _. exists (weight i l). apply lagrange_ok, H. Qed.
Print Assumptions C02_absent_index_accepted.

Example C02_ex : good_indices [u 4; u 1; u 9] /\ ~ In (u 0) [u 4; u 1; u 9] /\
  lagrange (u 0) [u 4; u 1; u 9] = Ok (mk 1) /\
  lagrange (u 7) [u 4; u 4] = Err (Custom "Duplicate indices provided") /\
  lagrange (u 7) [u 4; u 0] = Err IndexIsZero.
Proof.
  split; [good|]. split.
  - apply (proj2 (good_indicesb_sound [u 4; u 1; u 9] ltac:(vm_compute; reflexivity))).
  - vms.
Qed.

(** C03 *)
Theorem C03_lagrange_reconstructs : forall (S : Suite) (L : SuiteLaws S) (l : list u32) (a : list F),
  good_indices l -> length a <= length l ->
  exists w : u32 -> F,
    (forall i, lagrange i l = Ok (w i)) /\
    fsum (map (fun i => w i * poly_value a (of_u32 i))%F l) = poly_value a F0.
Proof.
  intros S L l a Hl Ha. exists (fun i => weight i l). split.
  - intros i. apply lagrange_ok, Hl.
  - apply lagrange_reconstruct; assumption.
Qed.
Print Assumptions C03_lagrange_reconstructs.

Example C03_ex : good_indices [u 5; u 2; u 4294967295] /\ length [mk 3; mk 1; mk 4] <= 3 /\
  poly_value [mk 3; mk 1; mk 4] (of_u32 (u 2)) = mk 21.
Proof. split; [good|]. split; [cbn; lia|vmr]. Qed.

(** C04 *)
Theorem C04_share_is_polynomial_value :
  forall (S : Suite) (L : SuiteLaws S) (sender receiver : u32) (a : list F),
  evaluate_polynomial sender receiver a = MkShare sender receiver (poly_value a (of_u32 receiver)).
Proof. intros. apply evaluate_polynomial_eq. Qed.
Print Assumptions C04_share_is_polynomial_value.

Example C04_ex : evaluate_polynomial (u 1) (u 10) [mk 1; mk 2; mk 3] = MkShare (u 1) (u 10) (mk 321) /\
  evaluate_polynomial (u 1) (u 10) [] = MkShare (u 1) (u 10) (mk 0).
Proof. vms. Qed.

(** C05 *)
Theorem C05_few_shares_hide_secret :
  forall (S : Suite) (L : SuiteLaws S) (sender : u32) (a : list F) (idx : list u32) (s : F),
  good_indices idx -> length idx < length a ->
  exists b, length b = length a /\ hd_error b = Some s /\
    (forall i, In i idx -> evaluate_polynomial sender i b = evaluate_polynomial sender i a).
Proof.
  intros S L sender a idx s [H1 H2] Hl.
  destruct (secrecy_exists (length a) a idx s eq_refl H1 H2 Hl) as [b [Hb [Hs Hi]]].
  exists b. split; [exact Hb|]. split.
  - rewrite poly_value_0 in Hs. destruct b; cbn in *; [lia|congruence].
  - intros i Hin. rewrite !evaluate_polynomial_eq, (Hi i Hin). reflexivity.
Qed.
Print Assumptions C05_few_shares_hide_secret.

Theorem C05_explaining_polynomial_unique :
  forall (S : Suite) (L : SuiteLaws S) (sender : u32) (t : nat) (b b' : list F) (idx : list u32),
  good_indices idx -> length b = t -> length b' = t -> Datatypes.S (length idx) = t ->
  hd_error b = hd_error b' ->
  (forall i, In i idx -> sh_value (evaluate_polynomial sender i b) = sh_value (evaluate_polynomial sender i b')) ->
  b = b'.
Proof.
  intros S L sender t b b' idx [H1 H2] Hb Hb' Hl Hh Hi.
  apply (secrecy_unique t b b' idx); auto; [lia| |].
  - rewrite !poly_value_0. destruct b, b'; cbn in *; try reflexivity; congruence.
  - intros i Hin. specialize (Hi i Hin). rewrite !evaluate_polynomial_eq in Hi. exact Hi.
Qed.
Print Assumptions C05_explaining_polynomial_unique.

Example C05_ex : good_indices [u 3; u 8] /\ length [u 3; u 8] < length [mk 5; mk 6; mk 7] /\
  (exists b, length b = 3 /\ hd_error b = Some (mk 1000) /\
     forall i, In i [u 3; u 8] -> evaluate_polynomial (u 1) i b = evaluate_polynomial (u 1) i [mk 5; mk 6; mk 7]).
Proof.
  assert (H : good_indices [u 3; u 8]) by good. split; [exact H|]. split; [cbn; lia|].
  apply (C05_few_shares_hide_secret Toy ToyLaws (u 1) [mk 5; mk 6; mk 7] _ (mk 1000) H). cbn; lia.
Qed.

(** C06 *)
Theorem C06_share_verify_iff : forall (S : Suite) (L : SuiteLaws S) (s : SecretShare) (c : Vss),
  exists a, vss_points c = committed a /\
    (forall b, vss_points c = committed b -> b = a) /\
    (sh_value s = poly_value a (of_u32 (sh_receiver s)) -> share_verify s c = Ok tt) /\
    (sh_value s <> poly_value a (of_u32 (sh_receiver s)) -> share_verify s c = Err ShareVerificationError).
Proof.
  intros S L s [i P]. destruct (dlog_list P) as [a ->]. exists a. cbn [vss_points].
  split; [reflexivity|]. split; [intros b Hb; symmetry; apply committed_inj, Hb|].
  pose proof (share_verify_committed s i a) as H. split; intros E.
  - apply H, E.
  - rewrite share_verify_cases in *. destruct (Geqb _ _); [|reflexivity]. exfalso. apply E, H. reflexivity.
Qed.
Print Assumptions C06_share_verify_iff.

Theorem C06_honest_share_verifies : forall (S : Suite) (L : SuiteLaws S) (dealer receiver : u32) (a : list F),
  share_verify (evaluate_polynomial dealer receiver a) (MkVss dealer (committed a)) = Ok tt.
Proof.
  intros. rewrite evaluate_polynomial_eq. apply share_verify_committed. reflexivity.
Qed.
Print Assumptions C06_honest_share_verifies.

Example C06_ex : share_verify (MkShare (u 1) (u 2) (mk 17)) (MkVss (u 1) (committed [mk 3; mk 7])) = Ok tt /\
  share_verify (MkShare (u 1) (u 3) (mk 17)) (MkVss (u 1) (committed [mk 3; mk 7])) = Err ShareVerificationError.
Proof. vms. Qed.

(** C07 *)
Theorem C07_encrypt_decrypt : forall (S : Suite) (L : SuiteLaws S) (s : SecretShare) (x y : F) (r : Rng),
  exists e r', encrypt_share s (enc_point ((gen * y) * x)%G) r = Ok (e, r') /\
    es_sender e = sh_sender s /\ es_receiver e = sh_receiver s /\
    decrypt_share e (enc_point ((gen * x) * y)%G) = Ok s.
Proof.
  intros S L s x y r. rewrite (dh_shared x y). apply encrypt_share_ok.
Qed.
Print Assumptions C07_encrypt_decrypt.

Example C07_ex :
  (let* (e, _) := encrypt_share (MkShare (u 1) (u 2) (mk 99)) (enc_point ((toy_gen * mk 12) * mk 34)%G) 5%N in
   decrypt_share e (enc_point ((toy_gen * mk 34) * mk 12)%G)) = Ok (MkShare (u 1) (u 2) (mk 99)) /\
  (let* (e, _) := encrypt_share (MkShare (u 1) (u 2) (mk 99)) (enc_point ((toy_gen * mk 12) * mk 34)%G) 5%N in
   decrypt_share e (enc_point ((toy_gen * mk 34) * mk 13)%G)) = Err DecryptionError.
Proof. vms. Qed.

(** C08 *)
Theorem C08_nizk_complete : forall (S : Suite) (L : SuiteLaws S) (i : u32) (sk : F) (r : Rng),
  nizk_verify (fst (nizk_prove i sk (gen * sk)%G r)) i (gen * sk)%G = Ok tt.
Proof. intros. apply nizk_complete. Qed.
Print Assumptions C08_nizk_complete.

Example C08_ex : nizk_verify (fst (nizk_prove (u 3) (mk 8) (toy_gen * mk 8)%G 1%N)) (u 3) (toy_gen * mk 8)%G = Ok tt /\
  nizk_verify (fst (nizk_prove (u 3) (mk 8) (toy_gen * mk 8)%G 1%N)) (u 4) (toy_gen * mk 8)%G = Err InvalidProofOfKnowledge.
Proof. vms. Qed.

(** C09 *)
Theorem C09_nizk_verify_iff : forall (S : Suite) (L : SuiteLaws S) (p : Nizk) (i : u32) (pk : G),
  let challenge := inner_h2f (context_string ++ bytes_of_string "nizkpok")
        (le_bytes 4 (u32v i) ++ enc_point pk ++ enc_point (gen * nz_r p + - (pk * nz_s p))%G) in
  (nz_s p = challenge -> nizk_verify p i pk = Ok tt) /\
  (nz_s p <> challenge -> nizk_verify p i pk = Err InvalidProofOfKnowledge).
Proof.
  intros S L p i pk challenge. rewrite nizk_verify_cases.
  change (h0 _) with challenge. destruct (Feqb (nz_s p) challenge) eqn:E.
  - apply Feqb_spec in E. split; [reflexivity|contradiction].
  - apply Feqb_neq in E. split; [contradiction|reflexivity].
Qed.
Print Assumptions C09_nizk_verify_iff.

(** a proof accepted for two different pairs of index and key shows two inputs with one hash value *)
Theorem C09_nizk_input_binding :
  forall (S : Suite) (L : SuiteLaws S) (p : Nizk) (i i' : u32) (pk pk' : G),
  nizk_verify p i pk = Ok tt -> nizk_verify p i' pk' = Ok tt -> i <> i' \/ pk <> pk' ->
  exists m m', (le_bytes 4 (u32v i) ++ enc_point pk ++ enc_point m <> le_bytes 4 (u32v i') ++ enc_point pk' ++ enc_point m') /\
    inner_h2f (context_string ++ bytes_of_string "nizkpok") (le_bytes 4 (u32v i) ++ enc_point pk ++ enc_point m) =
    inner_h2f (context_string ++ bytes_of_string "nizkpok") (le_bytes 4 (u32v i') ++ enc_point pk' ++ enc_point m').
Proof.
  intros S L p i i' pk pk' V V' Hne. rewrite nizk_verify_cases in V, V'.
  exists (gen * nz_r p + - (pk * nz_s p))%G, (gen * nz_r p + - (pk' * nz_s p))%G. split.
  - intros E. apply nizk_message_inj in E. destruct E as (E1 & E2 & _). destruct Hne; contradiction.
  - destruct (Feqb (nz_s p) (h0 (nizk_message i pk _))) eqn:E1; [|discriminate V].
    destruct (Feqb (nz_s p) (h0 (nizk_message i' pk' _))) eqn:E2; [|discriminate V'].
    apply Feqb_spec in E1, E2. transitivity (nz_s p); [symmetry; exact E1|exact E2].
Qed.
Print Assumptions C09_nizk_input_binding.

(** two accepted proofs for one key with one first message: if their hash values differ (they do unless the hash collides,
    for instance when the indices differ), the key can be computed from the proofs *)
Theorem C09_nizk_special_sound :
  forall (S : Suite) (L : SuiteLaws S) (p1 p2 : Nizk) (i1 i2 : u32) (pk m : G),
  nizk_verify p1 i1 pk = Ok tt -> nizk_verify p2 i2 pk = Ok tt ->
  (gen * nz_r p1 + - (pk * nz_s p1) = m)%G -> (gen * nz_r p2 + - (pk * nz_s p2) = m)%G ->
  let challenge i := inner_h2f (context_string ++ bytes_of_string "nizkpok") (le_bytes 4 (u32v i) ++ enc_point pk ++ enc_point m) in
  challenge i1 <> challenge i2 ->
  pk = (gen * ((nz_r p1 - nz_r p2) * Finv (nz_s p1 - nz_s p2))%F)%G.
Proof.
  intros S L p1 p2 i1 i2 pk m V1 V2 M1 M2. cbv zeta. intros Hne. apply nizk_special_sound; [congruence|].
  intros E. apply Hne. rewrite nizk_verify_cases, M1 in V1. rewrite nizk_verify_cases, M2 in V2.
  destruct (Feqb (nz_s p1) (h0 (nizk_message i1 pk m))) eqn:E1; [|discriminate V1].
  destruct (Feqb (nz_s p2) (h0 (nizk_message i2 pk m))) eqn:E2; [|discriminate V2].
  apply Feqb_spec in E1, E2. transitivity (nz_s p1); [symmetry; exact E1|]. rewrite E. exact E2.
Qed.
Print Assumptions C09_nizk_special_sound.

(** key 8 proved for the indices 3 and 4 with one generator state: both proofs are accepted, their first messages agree, the
    challenges differ, and the quotient is the key *)
Definition C09_p (i : N) : Nizk := fst (nizk_prove (u i) (mk 8) (toy_gen * mk 8)%G 1%N).
Example C09_ex :
  nizk_verify (C09_p 3) (u 3) (toy_gen * mk 8)%G = Ok tt /\ nizk_verify (C09_p 4) (u 4) (toy_gen * mk 8)%G = Ok tt /\
  (toy_gen * nz_r (C09_p 3) + - ((toy_gen * mk 8) * nz_s (C09_p 3)) = toy_gen * nz_r (C09_p 4) + - ((toy_gen * mk 8) * nz_s (C09_p 4)))%G /\
  Feqb (nz_s (C09_p 3)) (nz_s (C09_p 4)) = false /\
  ((nz_r (C09_p 3) - nz_r (C09_p 4)) * Finv (nz_s (C09_p 3) - nz_s (C09_p 4)))%F = mk 8.
Proof. vms. Qed.

(** C10 *)
Theorem C10_complaint_complete :
  forall (S : Suite) (L : SuiteLaws S) (accused_pk : G) (x : F) (e : EncShare) (r : Rng),
  let c := fst (complaint_new accused_pk x (accused_pk * x)%G e r) in
  complaint_verify c accused_pk = Ok tt /\ c_share c = e /\ c_pk c = (gen * x)%G /\
  c_shared c = (accused_pk * x)%G.
Proof.
  intros S L pk x e r c. split; [apply complaint_complete|].
  unfold c, complaint_new. destruct (rand_scalar r). cbn. auto.
Qed.
Print Assumptions C10_complaint_complete.

Definition demo_enc : EncShare := MkEnc (u 1) (u 2) (fst (gen_nonce 3%N)) [x01; x02].

Example C10_ex :
  let c := fst (complaint_new (toy_gen * mk 5)%G (mk 11) ((toy_gen * mk 5) * mk 11)%G demo_enc 77%N) in
  complaint_verify c (toy_gen * mk 5)%G = Ok tt /\
  complaint_verify c (toy_gen * mk 6)%G = Err ComplaintVerificationError.
Proof. vms. Qed.

(** C11 *)
Theorem C11_complaint_verify_iff : forall (S : Suite) (L : SuiteLaws S) (c : Complaint) (pk : G),
  let p := c_proof c in
  let h := sha256_h2f (bytes_of_string "Complaint Context")
     (enc_point (c_pk c) ++ enc_point pk ++ enc_point (c_shared c) ++ enc_point (cp_a1 p) ++
      enc_point (cp_a2 p) ++ ser_encshare (c_share c)) in
  let accepted := (cp_a1 p + c_pk c * h = gen * cp_z p)%G /\ (cp_a2 p + c_shared c * h = pk * cp_z p)%G in
  (accepted -> complaint_verify c pk = Ok tt) /\
  (~ accepted -> complaint_verify c pk = Err ComplaintVerificationError).
Proof.
  intros S L c pk p h accepted. pose proof (complaint_verify_iff c pk) as H. split; intros A.
  - apply H, A.
  - destruct (complaint_verify_err c pk) as [E|E]; [|exact E]. exfalso. apply A, H, E.
Qed.
Print Assumptions C11_complaint_verify_iff.

(** the challenge of a complaint against pk *)
Definition complaint_challenge {S : Suite} (c : Complaint) (pk : G) : F :=
  sha256_h2f (bytes_of_string "Complaint Context")
    (enc_point (c_pk c) ++ enc_point pk ++ enc_point (c_shared c) ++ enc_point (cp_a1 (c_proof c)) ++
     enc_point (cp_a2 (c_proof c)) ++ ser_encshare (c_share c)).

(** two accepted complaints with one key, one shared key and one first message but different challenges (for instance about
    different ciphertexts) show that the shared key is genuine *)
Theorem C11_complaint_sound :
  forall (S : Suite) (L : SuiteLaws S) (c1 c2 : Complaint) (pk : G),
  complaint_verify c1 pk = Ok tt -> complaint_verify c2 pk = Ok tt ->
  c_pk c1 = c_pk c2 -> c_shared c1 = c_shared c2 ->
  cp_a1 (c_proof c1) = cp_a1 (c_proof c2) -> cp_a2 (c_proof c1) = cp_a2 (c_proof c2) ->
  complaint_challenge c1 pk <> complaint_challenge c2 pk ->
  exists x, c_pk c1 = (gen * x)%G /\ c_shared c1 = (pk * x)%G.
Proof.
  intros S L c1 c2 pk V1 V2 E1 E2 E3 E4 Hne. apply complaint_verify_iff in V1, V2.
  change (sha256_h2f _ _) with (complaint_challenge c1 pk) in V1. change (sha256_h2f _ _) with (complaint_challenge c2 pk) in V2.
  destruct V1 as [A1 A2], V2 as [B1 B2]. rewrite <- E1, <- E3 in B1. rewrite <- E2, <- E4 in B2.
  exact (dleq_sound _ _ _ _ _ _ _ _ _ A1 A2 B1 B2 Hne).
Qed.
Print Assumptions C11_complaint_sound.

Section WrongKey.
  Context {S : Suite} {L : SuiteLaws S}.
  Add Field F_fld : F_field.
  Lemma one_challenge (x y k a b h z : F) : (a + x * h = z)%F -> (b + k * h = y * z)%F -> k <> (y * x)%F ->
    h = ((y * a - b) * Finv (k - y * x))%F.
  Proof.
    intros E1 E2 Hne. assert (Hd : (k - y * x)%F <> F0) by (intros E; apply Hne; apply Fsub_eq_0; exact E).
    assert (E : (h * (k - y * x) = y * a - b)%F).
    { transitivity ((b + k * h) - b - y * x * h)%F; [ring|]. rewrite E2, <- E1. ring. }
    rewrite <- E. field. exact Hd.
  Qed.
End WrongKey.

(** an accepted complaint that reveals a wrong key has hit the one challenge fixed by its first message *)
Theorem C11_wrong_key_one_challenge :
  forall (S : Suite) (L : SuiteLaws S) (c : Complaint) (x y k a b : F),
  complaint_verify c (gen * y)%G = Ok tt ->
  c_pk c = (gen * x)%G -> c_shared c = (gen * k)%G -> cp_a1 (c_proof c) = (gen * a)%G -> cp_a2 (c_proof c) = (gen * b)%G ->
  c_shared c <> ((gen * y) * x)%G ->
  complaint_challenge c (gen * y)%G = ((y * a - b) * Finv (k - y * x))%F.
Proof.
  intros S L c x y k a b V E1 E2 E3 E4 Hne. apply complaint_verify_iff in V.
  change (sha256_h2f _ _) with (complaint_challenge c (gen * y)%G) in V. set (h := complaint_challenge c (gen * y)%G) in *. clearbody h.
  destruct V as [V1 V2]. rewrite E1, E3, Gmul_mul, <- Gmul_add_r in V1. rewrite E2, E4, !Gmul_mul, <- Gmul_add_r in V2.
  apply gen_inj in V1, V2. apply (one_challenge x y k a b h (cp_z (c_proof c)) V1 V2). intros E. apply Hne. rewrite E2, E, Gmul_mul. reflexivity.
Qed.
Print Assumptions C11_wrong_key_one_challenge.

Theorem C11_complaint_input_binding :
  forall (S : Suite) (L : SuiteLaws S) (p1 p2 p3 p4 p5 q1 q2 q3 q4 q5 : G) (e e' : EncShare),
  (N.of_nat nonce_len < 2 ^ 64)%N ->
  (N.of_nat (length (es_ct e)) < 2 ^ 64)%N -> (N.of_nat (length (es_ct e')) < 2 ^ 64)%N ->
  complaint_message p1 p2 p3 p4 p5 e = complaint_message q1 q2 q3 q4 q5 e' ->
  p1 = q1 /\ p2 = q2 /\ p3 = q3 /\ p4 = q4 /\ p5 = q5 /\ e = e'.
Proof.
  intros S L p1 p2 p3 p4 p5 q1 q2 q3 q4 q5 e e' Hn H1 H2 H.
  apply complaint_message_inj in H. destruct H as (?&?&?&?&?&H). repeat split; try assumption.
  apply ser_encshare_inj in H; auto. destruct H as (?&?&?&?). apply encshare_ext; assumption.
Qed.
Print Assumptions C11_complaint_input_binding.

(** two complaints about different ciphertexts from one generator state: accepted, one first message, different challenges *)
Definition C11_c (b : byte) : Complaint :=
  fst (complaint_new (toy_gen * mk 5)%G (mk 11) ((toy_gen * mk 5) * mk 11)%G (MkEnc (u 1) (u 2) (fst (gen_nonce 3%N)) [b; x02]) 77%N).
Example C11_ex :
  complaint_verify (C11_c x01) (toy_gen * mk 5)%G = Ok tt /\ complaint_verify (C11_c x03) (toy_gen * mk 5)%G = Ok tt /\
  cp_a1 (c_proof (C11_c x01)) = cp_a1 (c_proof (C11_c x03)) /\ cp_a2 (c_proof (C11_c x01)) = cp_a2 (c_proof (C11_c x03)) /\
  Feqb (complaint_challenge (C11_c x01) (toy_gen * mk 5)%G) (complaint_challenge (C11_c x03) (toy_gen * mk 5)%G) = false.
Proof. vms. Qed.
(** a complaint revealing a wrong key whose ciphertext was chosen, knowing the toy hash, so that the one challenge is hit *)
Definition C11_lucky : Complaint :=
  @MkComplaint Toy (toy_gen * mk 4)%G (toy_gen * mk 11)%G
    (MkEnc (u 1) (u 2) (@MkNonce Toy (repeat x00 12) eq_refl) [x7b; x60; x7d; xd0])
    (@MkCProof Toy (toy_gen * mk 3)%G (toy_gen * mk 2)%G (mk 3705461994)).
Example C11_ex_lucky :
  complaint_verify C11_lucky (toy_gen * mk 5)%G = Ok tt /\
  Geqb (c_shared C11_lucky) ((toy_gen * mk 5) * mk 11)%G = false /\
  complaint_challenge C11_lucky (toy_gen * mk 5)%G = ((mk 5 * mk 3 - mk 2) * Finv (mk 4 - mk 5 * mk 11))%F /\
  complaint_verify (@MkComplaint Toy (toy_gen * mk 4)%G (toy_gen * mk 11)%G
    (MkEnc (u 1) (u 2) (@MkNonce Toy (repeat x00 12) eq_refl) [x7b; x60; x7d; xd1])
    (c_proof C11_lucky)) (toy_gen * mk 5)%G = Err ComplaintVerificationError.
Proof. vms. Qed.

(** C12 *)
Theorem C12_new_dealer_well_formed :
  forall (S : Suite) (L : SuiteLaws S) (p : Params) (i : u32) (r : Rng),
  i <> u32_zero -> (1 <= u32v (p_t p))%N ->
  exists d coeffs dh_sk r', new_dealer p i r = Ok (d, coeffs, dh_sk, r') /\
    pt_index d = i /\
    length coeffs = N.to_nat (u32v (p_t p)) /\
    pt_comm d = Some (MkVss i (committed coeffs)) /\
    pt_dh_pk d = (gen * dh_sk)%G /\
    nizk_verify (pt_dh_proof d) i (pt_dh_pk d) = Ok tt /\
    (exists proof a0, pt_sk_proof d = Some proof /\ hd_error coeffs = Some a0 /\
       nizk_verify proof i (gen * a0)%G = Ok tt).
Proof.
  intros S L p i r Hi Ht.
  destruct (new_internal_dealer p i None r Hi Ht) as (d & co & x & r' & E & [] & _).
  exists d, co, x, r'. split; [unfold new_dealer; rewrite E; reflexivity|]. auto 10.
Qed.
Print Assumptions C12_new_dealer_well_formed.

Theorem C12_new_signer_well_formed :
  forall (S : Suite) (L : SuiteLaws S) (p : Params) (i : u32) (r : Rng),
  i <> u32_zero ->
  exists d dh_sk r', new_signer p i r = Ok (d, dh_sk, r') /\
    pt_index d = i /\ pt_comm d = None /\ pt_sk_proof d = None /\
    pt_dh_pk d = (gen * dh_sk)%G /\ nizk_verify (pt_dh_proof d) i (pt_dh_pk d) = Ok tt.
Proof.
  intros S L p i r Hi.
  destruct (new_internal_signer p i None r Hi) as (d & x & r' & E & H1 & H2 & H3 & H4 & H5).
  exists d, x, r'. split; [unfold new_signer; rewrite E; reflexivity|]. auto 10.
Qed.
Print Assumptions C12_new_signer_well_formed.

Theorem C12_index_zero_rejected : forall (S : Suite) (p : Params) (r : Rng),
  new_dealer p u32_zero r = Err IndexIsZero /\ new_signer p u32_zero r = Err IndexIsZero.
Proof. intros. split; reflexivity. Qed.
Print Assumptions C12_index_zero_rejected.

Example C12_ex : u 6 <> u32_zero /\ (1 <= u32v (p_t (MkParams (u 7) (u 3))))%N /\
  (let* (d, co, x, _) := new_dealer (MkParams (u 7) (u 3)) (u 6) 42%N in
   Ok (length co, Geqb (pt_dh_pk d) (toy_gen * x)%G)) = Ok (3, true).
Proof. split; [apply u32_eqb_neq; vmr|]. split; [vm_compute; discriminate|]. vms. Qed.
