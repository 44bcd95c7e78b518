(** Property C149: accepted key proofs and complaint proofs, counted. *)
From Coq Require Import String Strings.Byte Arith NArith ZArith Bool List Lia Field.
From Verif Require Import Base Suite Spec SpecDkg Types ModelDkg Algebra BaseLemmas LemmasShare
  Toy Demo DemoDkg PropsShare PropsLikely PropsChance.
Import ListNotations.

Section Count.
  Context {S : Suite} {L : SuiteLaws S}.
  Add Field F_fld : F_field.
  Lemma key_point sk r s : (gen * r + (gen * sk) * (- s)%F)%G = (gen * (r - sk * s)%F)%G.
  Proof. rewrite Gmul_mul, <- Gmul_add_r. f_equal. ring. Qed.
  Lemma undo (k sk s : F) : (k + sk * s - sk * s)%F = k.
  Proof. ring. Qed.
  Lemma redo (r sk s : F) : (r - sk * s + sk * s)%F = r.
  Proof. ring. Qed.
  Lemma swap_mul (a b c : F) : (a + b * c)%F = (a + c * b)%F.
  Proof. ring. Qed.
  Lemma back (y k x h : F) : (y * k + y * (x * h) = y * (k + h * x))%F.
  Proof. ring. Qed.
  Lemma left_part (b y x h k : F) : (b + y * (x * h) = y * (k + x * h))%F -> b = (y * k)%F.
  Proof. intros E. assert (X : (b = b + y * (x * h) - y * (x * h))%F) by ring. rewrite X, E. ring. Qed.
  Lemma one_solution (x y w a b c : F) : (w - y * x)%F <> F0 -> ((b + w * c = y * (a + x * c))%F <-> c = ((y * a - b) * Finv (w - y * x))%F).
  Proof.
    intros H. split.
    - intros E. assert (X : ((w - y * x) * c = y * a - b)%F).
      { assert (Y : ((w - y * x) * c = (b + w * c) - b - y * x * c)%F) by ring. rewrite Y, E. ring. }
      rewrite <- X. field. exact H.
    - intros ->. field. exact H.
  Qed.
End Count.

(** Every key has exactly q accepted proofs of knowledge, q the number of scalars: the proofs its holder makes, one for each value of the
    random scalar. *)
Theorem C149_key_proofs :
  forall (S : Suite) (L : SuiteLaws S) (q : nat) (i : u32) (sk : F),
  exactly q (fun _ : F => True) ->
  let pk := (gen * sk)%G in
  let made := fun k => let s := h0 (u32_le i ++ enc_point pk ++ enc_point (gen * k)%G) in MkNizk s (k + sk * s)%F in
  exactly q (fun p => nizk_verify p i pk = Ok tt) /\
  (forall p, nizk_verify p i pk = Ok tt <-> exists k, p = made k) /\
  (forall k k', made k = made k' -> k = k') /\
  (forall rng, fst (nizk_prove i sk pk rng) = made (fst (rand_scalar rng))).
Proof.
  intros S L q i sk Hq pk made.
  assert (HA : forall p, nizk_verify p i pk = Ok tt <-> exists k, True /\ p = made k).
  { intros [s r]. unfold nizk_verify, pk. cbn [nz_s nz_r]. rewrite key_point. unfold nizk_message.
    destruct (Feqb s (h0 (u32_le i ++ enc_point (gen * sk)%G ++ enc_point (gen * (r - sk * s)%F)%G))) eqn:E.
    - apply Feqb_spec in E. split; [|reflexivity]. intros _. exists (r - sk * s)%F. split; [exact I|]. unfold made, pk. cbv zeta. rewrite <- E, redo. reflexivity.
    - split; [discriminate|]. intros (k & _ & X). exfalso. pose proof (f_equal nz_s X) as X1. pose proof (f_equal nz_r X) as X2. unfold made, pk in X1, X2. cbv zeta in X1, X2. cbn [nz_s nz_r] in X1, X2.
      assert (Y : s = h0 (u32_le i ++ enc_point (gen * sk)%G ++ enc_point (gen * (r - sk * s)%F)%G)).
      { rewrite X2, <- X1, undo. exact X1. }
      apply Feqb_spec in Y. congruence. }
  assert (HI : forall k k', made k = made k' -> k = k').
  { intros k k' E. pose proof (f_equal nz_s E) as E1. pose proof (f_equal nz_r E) as E2. unfold made in E1, E2. cbv zeta in E1, E2. cbn [nz_s nz_r] in E1, E2.
    rewrite E1 in E2. apply (f_equal (fun z => z - sk * h0 (u32_le i ++ enc_point pk ++ enc_point (gen * k')%G))%F) in E2. rewrite !undo in E2. exact E2. }
  split; [|split; [|split; [exact HI|]]].
  - apply (exactly_image q (fun _ : F => True) _ made); [intros k k' _ _; apply HI|exact HA|exact Hq].
  - intros p. rewrite HA. split; [intros (k & _ & E)|intros (k & E)]; exists k; auto.
  - intros rng. unfold nizk_prove. destruct (rand_scalar rng) as [k rng']. reflexivity.
Qed.
Print Assumptions C149_key_proofs.

(** The same for complaints with the genuine shared key. *)
Theorem C149_complaint_proofs :
  forall (S : Suite) (L : SuiteLaws S) (q : nat) (accused : G) (x : F) (e : EncShare),
  exactly q (fun _ : F => True) ->
  let pk := (gen * x)%G in
  let shared := (accused * x)%G in
  let hash := fun a1 a2 => sha256_h2f (bytes_of_string "Complaint Context")
    (enc_point pk ++ enc_point accused ++ enc_point shared ++ enc_point a1 ++ enc_point a2 ++ ser_encshare e) in
  let made := fun k => MkCProof (gen * k)%G (accused * k)%G (k + hash (gen * k)%G (accused * k)%G * x)%F in
  exactly q (fun p => complaint_verify (MkComplaint shared pk e p) accused = Ok tt) /\
  (forall p, complaint_verify (MkComplaint shared pk e p) accused = Ok tt <-> exists k, p = made k) /\
  (forall k k', made k = made k' -> k = k') /\
  (forall rng, fst (complaint_new accused x shared e rng) = MkComplaint shared pk e (made (fst (rand_scalar rng)))).
Proof.
  intros S L q accused x e Hq pk shared hash made.
  assert (HV : forall p, complaint_verify (MkComplaint shared pk e p) accused = Ok tt <->
    (cp_a1 p + pk * hash (cp_a1 p) (cp_a2 p) = gen * cp_z p)%G /\ (cp_a2 p + shared * hash (cp_a1 p) (cp_a2 p) = accused * cp_z p)%G).
  { intros p. apply complaint_verify_iff. }
  destruct (gen_span accused) as [y Ey].
  assert (HA : forall p, complaint_verify (MkComplaint shared pk e p) accused = Ok tt <-> exists k, True /\ p = made k).
  { intros [a1 a2 z]. rewrite HV. cbn [cp_a1 cp_a2 cp_z]. destruct (gen_span a1) as [a Ea]. destruct (gen_span a2) as [b Eb]. unfold shared, pk, made. split.
    - intros [H1 H2]. set (h := hash a1 a2) in *. rewrite Ea, Gmul_mul, <- Gmul_add_r in H1. apply gen_inj in H1.
      rewrite Eb, Ey, !Gmul_mul, <- Gmul_add_r in H2. apply gen_inj in H2. subst z. apply left_part in H2.
      assert (E2 : (accused * a)%G = a2) by (rewrite Ey, Eb, H2; apply Gmul_mul).
      exists a. split; [exact I|]. rewrite <- Ea, E2. f_equal. apply swap_mul.
    - intros (k & _ & E). injection E as -> -> ->. set (h := hash _ _). rewrite Ey, !Gmul_mul, <- !Gmul_add_r, !gen_mul_iff. split; [apply swap_mul|apply back]. }
  assert (HI : forall k k', made k = made k' -> k = k').
  { intros k k' E. unfold made in E. injection E as E _. exact (gen_inj _ _ E). }
  split; [|split; [|split; [exact HI|]]].
  - apply (exactly_image q (fun _ : F => True) _ made); [intros k k' _ _; apply HI|exact HA|exact Hq].
  - intros p. rewrite HA. split; [intros (k & _ & E)|intros (k & E)]; exists k; auto.
  - intros rng. unfold complaint_new. destruct (rand_scalar rng) as [k rng']. reflexivity.
Qed.
Print Assumptions C149_complaint_proofs.

(** With another shared key each first message has an answer for exactly one of the q challenges, so the complaint is accepted only if the
    hash has this value. *)
Theorem C149_false_complaints :
  forall (S : Suite) (L : SuiteLaws S) (accused shared : G) (x : F) (e : EncShare) (a1 a2 : G),
  let pk := (gen * x)%G in
  shared <> (accused * x)%G ->
  let hash := sha256_h2f (bytes_of_string "Complaint Context")
    (enc_point pk ++ enc_point accused ++ enc_point shared ++ enc_point a1 ++ enc_point a2 ++ ser_encshare e) in
  exists c : F,
    (forall c', (exists z, (a1 + pk * c' = gen * z)%G /\ (a2 + shared * c' = accused * z)%G) <-> c' = c) /\
    (hash <> c -> forall z, complaint_verify (MkComplaint shared pk e (MkCProof a1 a2 z)) accused = Err ComplaintVerificationError) /\
    (hash = c -> exactly 1 (fun z => complaint_verify (MkComplaint shared pk e (MkCProof a1 a2 z)) accused = Ok tt)).
Proof.
  intros S L accused shared x e a1 a2 pk Hne hash.
  destruct (gen_span accused) as [y Ey]. destruct (gen_span shared) as [w Ew]. destruct (gen_span a1) as [a Ea]. destruct (gen_span a2) as [b Eb].
  assert (Hw : (w - y * x)%F <> F0).
  { intros E. apply Fsub_0 in E. apply Hne. rewrite Ew, Ey, E. symmetry. apply Gmul_mul. }
  assert (HZ : forall c z, ((a1 + pk * c = gen * z)%G /\ (a2 + shared * c = accused * z)%G) <-> z = (a + x * c)%F /\ c = ((y * a - b) * Finv (w - y * x))%F).
  { intros c z. unfold pk. rewrite Ea, Eb, Ew, Ey, !Gmul_mul, <- !Gmul_add_r, !gen_mul_iff. split.
    - intros [<- H]. split; [reflexivity|]. apply one_solution; assumption.
    - intros [-> H]. split; [reflexivity|]. apply one_solution; assumption. }
  exists ((y * a - b) * Finv (w - y * x))%F. split; [|split].
  - intros c'. split; [intros (z & H); apply HZ in H; apply H|]. intros ->. exists (a + x * ((y * a - b) * Finv (w - y * x)))%F. apply HZ. auto.
  - intros Hh z. destruct (C11_complaint_verify_iff S L (MkComplaint shared pk e (MkCProof a1 a2 z)) accused) as [_ H]. apply H. intros K. apply Hh.
    apply (HZ hash z) in K. apply K.
  - intros Hh. exists [(a + x * hash)%F]. split; [constructor; [intros []|constructor]|]. split; [reflexivity|]. intros z. cbn [In].
    rewrite (complaint_verify_iff (MkComplaint shared pk e (MkCProof a1 a2 z)) accused). fold hash. etransitivity; [|symmetry; apply (HZ hash z)].
    split; [intros [E|[]]; auto|intros [E _]; auto].
Qed.
Print Assumptions C149_false_complaints.

(** * Examples *)
(** proofs for the key of 5 and index 3: q of them; one made with the scalar 965 and one that is refused *)
Definition C149_proof (k : Z) : Nizk := let s := h0 (u32_le (u 3) ++ enc_point (toy_gen * mk 5%Z)%G ++ enc_point (toy_gen * mk k)%G) in MkNizk s (mk k + mk 5%Z * s)%F.
Example C149_ex : exists q, exactly q (fun _ : @F Toy => True) /\ exactly q (fun p => @nizk_verify Toy p (u 3) (toy_gen * mk 5%Z)%G = Ok tt) /\
  is_ok (@nizk_verify Toy (C149_proof 965%Z) (u 3) (toy_gen * mk 5%Z)%G) = true /\ is_ok (@nizk_verify Toy (MkNizk (mk 7%Z) (mk 1000%Z)) (u 3) (toy_gen * mk 5%Z)%G) = false.
Proof.
  destruct toy_count as (q & _ & H). exists q. split; [exact H|]. split; [exact (proj1 (C149_key_proofs Toy ToyLaws q (u 3) (mk 5%Z) H))|]. split; vmr.
Qed.
Example C149_ex_complaint : exists q, exactly q (fun _ : @F Toy => True) /\
  exactly q (fun p => @complaint_verify Toy (MkComplaint ((toy_gen * mk 3%Z) * mk 5%Z)%G (toy_gen * mk 5%Z)%G demo_enc p) (toy_gen * mk 3%Z)%G = Ok tt).
Proof.
  destruct toy_count as (q & _ & H). exists q. split; [exact H|]. exact (proj1 (C149_complaint_proofs Toy ToyLaws q (toy_gen * mk 3%Z)%G (mk 5%Z) demo_enc H)).
Qed.
(** the shared key of 16 instead of 3 * 5 = 15 *)
Example C149_ex_false : (toy_gen * mk 16%Z)%G <> ((toy_gen * mk 3%Z) * mk 5%Z)%G.
Proof. intros E. apply (@Geqb_spec Toy ToyLaws) in E. revert E. assert (X : Geqb (toy_gen * mk 16%Z)%G ((toy_gen * mk 3%Z) * mk 5%Z)%G = false) by vmr. rewrite X. discriminate. Qed.
