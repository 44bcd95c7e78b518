(** C88: proofs and signatures can be made without the secret by choosing one hash value. *)
From Coq Require Import String Strings.Byte Arith NArith ZArith Bool List Permutation Lia Field.
From Verif Require Import Base Suite Spec SpecDkg SpecSign SpecSim Types ModelDkg ModelSign Algebra BaseLemmas LemmasShare LemmasSign
  Toy Demo PropsShare PropsSign PropsHash.
Import ListNotations.

Section Sim.
  Context {S : Suite} {L : SuiteLaws S}.
  Add Field F_fld : F_field.

  Lemma nizk_ok i pk s r : h0 (nizk_message i pk (gen * r + - (pk * s))%G) = s -> nizk_verify (MkNizk s r) i pk = Ok tt.
  Proof. intros E. rewrite nizk_verify_cases. cbn [nz_s nz_r]. rewrite E. rewrite (proj2 (Feqb_spec s s) eq_refl). reflexivity. Qed.
  Lemma nizk_real i sk s r rng rng' : rand_scalar rng = ((r - sk * s)%F, rng') ->
    h0 (nizk_message i (gen * sk)%G (gen * r + - ((gen * sk) * s))%G) = s -> nizk_prove i sk (gen * sk)%G rng = (MkNizk s r, rng').
  Proof.
    intros E H. unfold nizk_prove. rewrite E.
    assert (X : (gen * (r - sk * s)%F)%G = (gen * r + - ((gen * sk) * s))%G).
    { rewrite Gmul_mul, <- Gmul_opp, gen_mul_add. f_equal. ring. }
    rewrite X, H. do 2 f_equal. ring.
  Qed.
  Lemma nizk_real_inv i sk s r rng rng' k : rand_scalar rng = (k, rng') -> fst (nizk_prove i sk (gen * sk)%G rng) = MkNizk s r -> k = (r - sk * s)%F.
  Proof.
    intros E. unfold nizk_prove. rewrite E. cbn [fst]. intros X. pose proof (f_equal nz_s X) as X1. pose proof (f_equal nz_r X) as X2.
    cbn [nz_s nz_r] in X1, X2. rewrite <- X2, X1. ring.
  Qed.
  Lemma complaint_ok pm pa sh e c z :
    sha256_h2f complaint_tag (complaint_message pm pa sh (gen * z + - (pm * c))%G (pa * z + - (sh * c))%G e) = c ->
    complaint_verify (MkComplaint sh pm e (MkCProof (gen * z + - (pm * c))%G (pa * z + - (sh * c))%G z)) pa = Ok tt.
  Proof.
    intros E. apply C11_complaint_verify_iff; [exact L|]. cbn [c_proof c_pk c_shared c_share cp_a1 cp_a2 cp_z].
    unfold complaint_message, complaint_tag in E. rewrite E. split; rewrite <- Gadd_assoc, (Gadd_comm (- _)%G), Gadd_opp_r, Gadd_comm, Gadd_0_l; reflexivity.
  Qed.
  Lemma complaint_real pa x e c z rng rng' : rand_scalar rng = ((z - c * x)%F, rng') ->
    sha256_h2f complaint_tag (complaint_message (gen * x)%G pa (pa * x)%G (gen * z + - ((gen * x) * c))%G (pa * z + - ((pa * x) * c))%G e) = c ->
    complaint_new pa x (pa * x)%G e rng =
      (MkComplaint (pa * x)%G (gen * x)%G e (MkCProof (gen * z + - ((gen * x) * c))%G (pa * z + - ((pa * x) * c))%G z), rng').
  Proof.
    intros E H. unfold complaint_new. rewrite E.
    assert (X : forall P, (P * (z - c * x)%F)%G = (P * z + - ((P * x) * c))%G).
    { intros P. rewrite Gmul_mul, <- Gmul_opp, <- Gmul_add_r. f_equal. ring. }
    rewrite !X, H. do 3 f_equal. ring.
  Qed.
  Lemma sig_ok gk h c z : h2 (challenge_input (gen * z + - (gk * c))%G gk h) = c -> sig_verify (MkTSig (gen * z + - (gk * c))%G z) gk h = Ok tt.
  Proof.
    intros E. unfold sig_verify, compute_challenge. cbn [ts_R ts_z]. rewrite E, Gopp_mul.
    rewrite (proj2 (Geqb_spec _ _) eq_refl). reflexivity.
  Qed.
  Lemma sig_ok_inv R z gk h : sig_verify (MkTSig R z) gk h = Ok tt -> R = (gen * z + - (gk * h2 (challenge_input R gk h)))%G.
  Proof.
    unfold sig_verify, compute_challenge. cbn [ts_R ts_z]. destruct (Geqb _ _) eqn:E; [|discriminate]. intros _.
    apply Geqb_spec in E. rewrite Gopp_mul in E. exact E.
  Qed.
  Lemma nizk_ok_inv i pk s r : nizk_verify (MkNizk s r) i pk = Ok tt -> s = h0 (nizk_message i pk (gen * r + - (pk * s))%G).
  Proof. rewrite nizk_verify_cases. cbn [nz_s nz_r]. destruct (Feqb _ _) eqn:E; [|discriminate]. intros _. apply Feqb_spec, E. Qed.
End Sim.

(** C88: any two scalars are an accepted key proof for any key if the hash of one input is chosen accordingly; a prover knowing
    the key makes this very proof for exactly one choice of its random scalar *)
Theorem C88_key_proofs_are_simulated :
  forall (S : Suite) (L : SuiteLaws S) (i : u32) (pk : G) (s r : F),
  let x := (tag "nizkpok", nizk_message i pk (gen * r + - (pk * s))%G) in
  let S' := with_hash S (programmed [(x, s)] inner_h2f) sha256_h2f in
  SuiteLaws S' /\ @same_but S [x] (@inner_h2f S') (@inner_h2f S) /\
  @nizk_verify S' (@MkNizk S' s r) i pk = Ok tt /\
  (forall sk rng, pk = (gen * sk)%G ->
     (fst (@nizk_prove S' i sk pk rng) = @MkNizk S' s r <-> fst (@rand_scalar S rng) = (r - sk * s)%F)).
Proof.
  intros S L i pk s r x S'. pose proof (with_hash_laws S L (programmed [(x, s)] inner_h2f) sha256_h2f) as L'. fold S' in L'.
  assert (E : programmed [(x, s)] (@inner_h2f S) (fst x) (snd x) = s).
  { apply programmed_at; [constructor; [intros []|constructor]|left; reflexivity]. }
  split; [exact L'|]. split; [exact (programmed_same [(x, s)] inner_h2f)|]. split; [exact (@nizk_ok S' L' i pk s r E)|].
  intros sk rng Hpk. destruct (@rand_scalar S rng) as [k rng'] eqn:Er. cbn [fst]. subst pk. split.
  - intros H. exact (@nizk_real_inv S' L' i sk s r rng rng' k Er H).
  - intros ->. pose proof (@nizk_real S' L' i sk s r rng rng' Er E) as X. exact (f_equal fst X).
Qed.
Print Assumptions C88_key_proofs_are_simulated.

(** complaints alike, even with a wrong shared key *)
Theorem C88_complaints_are_simulated :
  forall (S : Suite) (L : SuiteLaws S) (pm pa sh : G) (i j : u32) (n : list byte) (H : Nat.eqb (length n) nonce_len = true) (ct : list byte) (c z : F),
  let a1 := (gen * z + - (pm * c))%G in let a2 := (pa * z + - (sh * c))%G in
  let x := (bytes_of_string "Complaint Context", complaint_message pm pa sh a1 a2 (MkEnc i j (MkNonce n H) ct)) in
  let S' := with_hash S inner_h2f (programmed [(x, c)] sha256_h2f) in
  let e := @MkEnc S' i j (@MkNonce S' n H) ct in let cm := @MkComplaint S' sh pm e (@MkCProof S' a1 a2 z) in
  SuiteLaws S' /\ @same_but S [x] (@sha256_h2f S') (@sha256_h2f S) /\
  @complaint_verify S' cm pa = Ok tt /\
  (forall sk rng, pm = (gen * sk)%G -> sh = (pa * sk)%G -> fst (@rand_scalar S rng) = (z - c * sk)%F ->
     fst (@complaint_new S' pa sk sh e rng) = cm).
Proof.
  intros S L pm pa sh i j n H ct c z a1 a2 x S' e cm. pose proof (with_hash_laws S L inner_h2f (programmed [(x, c)] sha256_h2f)) as L'. fold S' in L'.
  assert (E : programmed [(x, c)] (@sha256_h2f S) (fst x) (snd x) = c).
  { apply programmed_at; [constructor; [intros []|constructor]|left; reflexivity]. }
  split; [exact L'|]. split; [exact (programmed_same [(x, c)] sha256_h2f)|]. split; [exact (@complaint_ok S' L' pm pa sh e c z E)|].
  intros sk rng Hpm Hsh Hr. destruct (@rand_scalar S rng) as [k rng'] eqn:Er. cbn [fst] in Hr. subst k pm sh.
  pose proof (@complaint_real S' L' pa sk e c z rng rng' Er E) as X. exact (f_equal fst X).
Qed.
Print Assumptions C88_complaints_are_simulated.

(** signatures alike *)
Theorem C88_signatures_are_simulated :
  forall (S : Suite) (L : SuiteLaws S) (gk : G) (h : list byte) (c z : F),
  let R := (gen * z + - (gk * c))%G in
  let x := (tag "challenge", challenge_input R gk h) in
  let S' := with_hash S (programmed [(x, c)] inner_h2f) sha256_h2f in
  SuiteLaws S' /\ @same_but S [x] (@inner_h2f S') (@inner_h2f S) /\ @sig_verify S' (@MkTSig S' R z) gk h = Ok tt.
Proof.
  intros S L gk h c z R x S'. pose proof (with_hash_laws S L (programmed [(x, c)] inner_h2f) sha256_h2f) as L'. fold S' in L'.
  assert (E : programmed [(x, c)] (@inner_h2f S) (fst x) (snd x) = c).
  { apply programmed_at; [constructor; [intros []|constructor]|left; reflexivity]. }
  split; [exact L'|]. split; [exact (programmed_same [(x, c)] inner_h2f)|]. exact (@sig_ok S' L' gk h c z E).
Qed.
Print Assumptions C88_signatures_are_simulated.

(** conversely, who answers with one commitment for two hash functions with different challenges gives away the key *)
Theorem C88_two_signatures_reveal_the_key :
  forall (S : Suite) (L : SuiteLaws S) (f f' g g' : list byte -> list byte -> F) (gk R : G) (h : list byte) (z z' : F),
  let c := f (tag "challenge") (challenge_input R gk h) in let c' := f' (tag "challenge") (challenge_input R gk h) in
  @sig_verify (with_hash S f g) (@MkTSig (with_hash S f g) R z) gk h = Ok tt ->
  @sig_verify (with_hash S f' g') (@MkTSig (with_hash S f' g') R z') gk h = Ok tt ->
  c <> c' -> gk = (gen * ((z - z') * Finv (c - c'))%F)%G.
Proof.
  intros S L f f' g g' gk R h z z' c c' V V' Hc.
  apply (@sig_ok_inv _ (with_hash_laws S L f g)) in V. apply (@sig_ok_inv _ (with_hash_laws S L f' g')) in V'.
  change (R = (@gen S * z + - (gk * c))%G) in V. change (R = (@gen S * z' + - (gk * c'))%G) in V'.
  apply (@nizk_special_sound S L gk c z c' z'); [exact (eq_trans (eq_sym V) V')|exact Hc].
Qed.
Print Assumptions C88_two_signatures_reveal_the_key.

Theorem C88_two_key_proofs_reveal_the_key :
  forall (S : Suite) (L : SuiteLaws S) (f f' g g' : list byte -> list byte -> F) (i : u32) (pk : G) (s r s' r' : F),
  @nizk_verify (with_hash S f g) (@MkNizk (with_hash S f g) s r) i pk = Ok tt ->
  @nizk_verify (with_hash S f' g') (@MkNizk (with_hash S f' g') s' r') i pk = Ok tt ->
  (** one commitment *)
  (gen * r + - (pk * s) = gen * r' + - (pk * s'))%G ->
  let m := nizk_message i pk (gen * r + - (pk * s))%G in
  f (tag "nizkpok") m <> f' (tag "nizkpok") m -> pk = (gen * ((r - r') * Finv (s - s'))%F)%G.
Proof.
  intros S L f f' g g' i pk s r s' r' V V' HM m Hne. apply (@nizk_special_sound S L pk s r s' r' HM). intros Es. apply Hne.
  apply (@nizk_ok_inv _ (with_hash_laws S L f g)) in V. apply (@nizk_ok_inv _ (with_hash_laws S L f' g')) in V'.
  pose proof (f_equal (fun M => f' (@tag S "nizkpok") (@nizk_message S i pk M)) HM) as X.
  exact (eq_trans (eq_sym V) (eq_trans Es (eq_trans V' (eq_sym X)))).
Qed.
Print Assumptions C88_two_key_proofs_reveal_the_key.

(** the proof (7, 1000) for the key 5 of participant 3 (a wrong proof in the suite itself), and its one random scalar 965 *)
Example C88_ex :
  is_ok (@nizk_verify Toy (MkNizk (mk 7) (mk 1000)) (u 3) (toy_gen * mk 5)%G) = false /\
  is_ok (@sig_verify Toy (MkTSig (toy_gen * mk 9 + - ((toy_gen * mk 5) * mk 4))%G (mk 9)) (toy_gen * mk 5)%G [x01]) = false /\
  (mk 1000 - mk 5 * mk 7)%F = mk 965.
Proof. vms. Qed.
(** two hash functions, one commitment: the key 5 *)
Definition c88_hash (c : @F Toy) : list byte -> list byte -> @F Toy := fun _ _ => c.
Example C88_ex_fork :
  let R := (toy_gen * mk 30)%G in let gk := (toy_gen * mk 5)%G in
  @sig_verify (with_hash Toy (c88_hash (mk 2)) (c88_hash (mk 2))) (@MkTSig (with_hash Toy (c88_hash (mk 2)) (c88_hash (mk 2))) R (mk 40)) gk [x01] = Ok tt /\
  @sig_verify (with_hash Toy (c88_hash (mk 3)) (c88_hash (mk 3))) (@MkTSig (with_hash Toy (c88_hash (mk 3)) (c88_hash (mk 3))) R (mk 45)) gk [x01] = Ok tt /\
  ((mk 40 - mk 45) * Finv (mk 2 - mk 3))%F = mk 5.
Proof. cbv zeta. vms. Qed.
Example C88_ex_fork_proof :
  let pk := (toy_gen * mk 5)%G in
  @nizk_verify (with_hash Toy (c88_hash (mk 2)) (c88_hash (mk 2))) (@MkNizk (with_hash Toy (c88_hash (mk 2)) (c88_hash (mk 2))) (mk 2) (mk 40)) (u 3) pk = Ok tt /\
  @nizk_verify (with_hash Toy (c88_hash (mk 3)) (c88_hash (mk 3))) (@MkNizk (with_hash Toy (c88_hash (mk 3)) (c88_hash (mk 3))) (mk 3) (mk 45)) (u 3) pk = Ok tt /\
  (toy_gen * mk 40 + - (pk * mk 2) = toy_gen * mk 45 + - (pk * mk 3))%G.
Proof. cbv zeta. vms. Qed.
