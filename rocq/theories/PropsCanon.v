(** Property C123: which messages have a second encoding. *)
From Coq Require Import String Strings.Byte Arith NArith ZArith Bool List Lia.
From Verif Require Import Base Suite Spec SpecDkg SpecSign SpecCodec Types ModelDkg ModelSign ModelCodec Algebra BaseLemmas LemmasShare LemmasCodec LemmasSign
  Toy Demo DemoDkg DemoSign PropsCodec.
Import ListNotations.

(** ** vocabulary *)
(** every input from which v is read begins with what is written for v *)
Definition one_encoding {A} (ser : A -> list byte) (d : decoder A) (v : A) : Prop :=
  forall bs rest, d bs = Some (v, rest) -> bs = ser v ++ rest.
(** bytes other than those written for v are read as v, whatever follows them *)
Definition other_encoding {A} (ser : A -> list byte) (d : decoder A) (v : A) : Prop :=
  exists b, b <> ser v /\ forall rest, d (b ++ rest) = Some (v, rest).

Section Points.
  Context {S : Suite}.
  (** the points in the values of each type *)
  Definition vss_pts (c : Vss) : list G := vss_points c.
  Definition complaint_proof_pts (p : ComplaintProof) : list G := [cp_a1 p; cp_a2 p].
  Definition complaint_pts (c : Complaint) : list G := [c_shared c; c_pk c] ++ complaint_proof_pts (c_proof c).
  Definition participant_pts (p : Participant) : list G :=
    pt_dh_pk p :: match pt_comm p with Some c => vss_points c | None => [] end.
  Definition part_list_pts (l : PartList) : list G := flat_map participant_pts (pl_valid l).
  Definition commitment_share_pts (c : CommitmentShare) : list G := [co_commit (cs_hiding c); co_commit (cs_binding c)].
  Definition secret_list_pts (l : SecretList) : list G := flat_map commitment_share_pts (sl_commitments l).
  Definition public_list_pts (l : PublicList) : list G := flat_map (fun c => [fst c; snd c]) (pl_commitments l).
  Definition signer_pts (s : Signer) : list G := [fst (sg_com s); snd (sg_com s)].
End Points.

Section One.
  Context {S : Suite} (Hs : canonical enc_scalar dec_scalar).
  Let op := one_encoding enc_point dec_point.
  Ltac can := repeat match goal with
    | |- context [dthen ?e _] => let E := fresh "E" in let v := fresh "v" in let q := fresh "q" in
        destruct e as [[v q]|] eqn:E; cbn [dthen]; [|discriminate]
    end; intros X; inversion X; subst; clear X.
  Ltac fin := rewrite <- ?app_assoc; reflexivity.

  Lemma one_of_canonical {A} (ser : A -> list byte) d v : canonical ser d -> one_encoding ser d v.
  Proof. intros H bs r. apply H. Qed.
  Lemma one_many {A} (ser : A -> list byte) d : forall k bs l r, Forall (one_encoding ser d) l -> de_many d k bs = Some (l, r) ->
    length l = k /\ bs = concat (map ser l) ++ r.
  Proof.
    induction k as [|k IH]; intros bs l r Hl; cbn [de_many].
    - intros E. injection E as <- <-. split; reflexivity.
    - destruct (d bs) as [[a r1]|] eqn:E1; cbn [dthen]; [|discriminate]. destruct (de_many d k r1) as [[l2 r2]|] eqn:E2; cbn [dthen]; [|discriminate].
      intros E. injection E as <- <-. inversion Hl as [|? ? H1 H2]; subst. apply H1 in E1. apply IH in E2; [|exact H2]. destruct E2 as [E2 ->].
      subst bs. split; [cbn; congruence|]. cbn [map concat]. rewrite <- app_assoc. reflexivity.
  Qed.
  Lemma one_vec {A} (ser : A -> list byte) d l : Forall (one_encoding ser d) l -> one_encoding (ser_vec ser) (de_vec d) l.
  Proof.
    intros H bs r. unfold de_vec, de_u64. destruct (de_uint 8 bs) as [[n r1]|] eqn:E1; cbn [dthen]; [|discriminate]. intros E2.
    apply (one_many ser) in E2; [|exact H]. destruct E2 as [E2 ->]. apply de_uint_inv in E1. destruct E1 as [-> _].
    unfold ser_vec. rewrite E2, N2Nat.id, <- app_assoc. reflexivity.
  Qed.
  Lemma one_option {A} (ser : A -> list byte) d o : (forall a, o = Some a -> one_encoding ser d a) -> one_encoding (ser_option ser) (de_option d) o.
  Proof.
    intros H bs r. unfold de_option. destruct bs as [|b bs]; cbn [de_u8 dthen]; [discriminate|].
    destruct b; try discriminate.
    - intros E. injection E as <- <-. reflexivity.
    - destruct (d bs) as [[a r1]|] eqn:E1; cbn [dthen]; [|discriminate]. intros E. injection E as <- <-. apply (H a eq_refl) in E1. subst bs. reflexivity.
  Qed.
  Lemma one_pair {A B} (f : A -> list byte) d (g : B -> list byte) e a b : one_encoding f d a -> one_encoding g e b ->
    one_encoding (ser_pair f g) (de_pair d e) (a, b).
  Proof.
    intros H1 H2 bs r. unfold de_pair. destruct (d bs) as [[a' r1]|] eqn:E1; cbn [dthen]; [|discriminate].
    destruct (e r1) as [[b' r2]|] eqn:E2; cbn [dthen]; [|discriminate]. intros E. injection E as -> -> ->. apply H1 in E1. apply H2 in E2. subst.
    unfold ser_pair. cbn [fst snd]. rewrite <- app_assoc. reflexivity.
  Qed.
  Lemma one_verifying_key k : op (vk_share k) -> one_encoding ser_verifying_key de_verifying_key k.
  Proof. intros H bs r. unfold de_verifying_key. can. apply can_u32 in E. apply H in E0. subst. unfold ser_verifying_key. cbn [vk_index vk_share]. fin. Qed.
  Lemma one_vss c : Forall op (vss_pts c) -> one_encoding ser_vss de_vss c.
  Proof. intros H bs r. unfold de_vss. can. apply can_u32 in E. apply (one_vec _ _ _ H) in E0. subst. unfold ser_vss. cbn [vss_index vss_points]. fin. Qed.
  Lemma one_complaint_proof p : Forall op (complaint_proof_pts p) -> one_encoding ser_complaint_proof de_complaint_proof p.
  Proof.
    intros H bs r. unfold de_complaint_proof. can. unfold complaint_proof_pts in H. cbn [cp_a1 cp_a2] in H. inversion H as [|? ? H1 H2]; subst.
    inversion H2 as [|? ? H3 _]; subst. apply H1 in E. apply H3 in E0. apply Hs in E1. subst. unfold ser_complaint_proof. cbn [cp_a1 cp_a2 cp_z]. fin.
  Qed.
  Lemma one_complaint c : Forall op (complaint_pts c) -> one_encoding ser_complaint de_complaint c.
  Proof.
    intros H bs r. unfold de_complaint. can. unfold complaint_pts in H. cbn [c_shared c_pk c_proof app] in H.
    inversion H as [|? ? H1 H2]; subst. inversion H2 as [|? ? H3 H4]; subst.
    apply H1 in E. apply H3 in E0. apply can_encshare in E1. apply (one_complaint_proof _ H4) in E2. subst.
    unfold ser_complaint. cbn [c_shared c_pk c_share c_proof]. fin.
  Qed.
  Lemma one_participant p : Forall op (participant_pts p) -> one_encoding ser_participant de_participant p.
  Proof.
    intros H bs r. unfold de_participant. can. unfold participant_pts in H. cbn [pt_dh_pk pt_comm] in H. inversion H as [|? ? H1 H2]; subst.
    apply can_u32 in E. apply H1 in E0. apply (one_option ser_vss) in E1; [|intros c ->; apply one_vss, H2].
    apply (can_option _ _ (can_nizk Hs)) in E2. apply (can_nizk Hs) in E3. subst. unfold ser_participant.
    cbn [pt_index pt_dh_pk pt_comm pt_sk_proof pt_dh_proof]. fin.
  Qed.
  Lemma Forall_flat_map {A B} (P : B -> Prop) (f : A -> list B) l : Forall P (flat_map f l) -> Forall (fun a => Forall P (f a)) l.
  Proof. induction l as [|a l IH]; cbn [flat_map]; intros H; constructor; apply Forall_app in H; [apply H|apply IH, H]. Qed.
  Lemma one_part_list l : Forall op (part_list_pts l) -> one_encoding ser_part_list de_part_list l.
  Proof.
    intros H bs r. unfold de_part_list. can. unfold part_list_pts in H. cbn [pl_valid] in H. apply Forall_flat_map in H.
    apply (one_vec ser_participant) in E; [|apply (Forall_impl _ one_participant), H]. apply (can_option _ _ (can_vec _ _ can_u32)) in E0. subst.
    unfold ser_part_list. cbn [pl_valid pl_mis]. fin.
  Qed.
  Lemma one_commitment c : op (co_commit c) -> one_encoding ser_commitment de_commitment c.
  Proof. intros H bs r. unfold de_commitment. can. apply Hs in E. apply H in E0. subst. unfold ser_commitment. cbn [co_secret co_commit]. fin. Qed.
  Lemma one_commitment_share c : Forall op (commitment_share_pts c) -> one_encoding ser_commitment_share de_commitment_share c.
  Proof.
    intros H bs r. unfold de_commitment_share. can. unfold commitment_share_pts in H. cbn [cs_hiding cs_binding] in H.
    inversion H as [|? ? H1 H2]; subst. inversion H2 as [|? ? H3 _]; subst. apply (one_commitment _ H1) in E. apply (one_commitment _ H3) in E0. subst.
    unfold ser_commitment_share. cbn [cs_hiding cs_binding]. fin.
  Qed.
  Lemma one_secret_list l : Forall op (secret_list_pts l) -> one_encoding ser_secret_list de_secret_list l.
  Proof.
    intros H bs r. unfold de_secret_list. can. apply Forall_flat_map in H. cbn [sl_commitments] in H.
    apply (one_vec ser_commitment_share) in E; [|apply (Forall_impl _ one_commitment_share), H]. subst. reflexivity.
  Qed.
  Lemma one_points c : Forall op [fst c; snd c] -> one_encoding (ser_pair enc_point enc_point) (de_pair dec_point dec_point) c.
  Proof. destruct c as [a b]. intros H. inversion H as [|? ? H1 H2]; subst. inversion H2 as [|? ? H3 _]; subst. apply one_pair; assumption. Qed.
  Lemma one_public_list l : Forall op (public_list_pts l) -> one_encoding ser_public_list de_public_list l.
  Proof.
    intros H bs r. unfold de_public_list. can. apply Forall_flat_map in H. cbn [pl_commitments] in H. apply can_u32 in E.
    apply (one_vec (ser_pair enc_point enc_point)) in E0; [|apply (Forall_impl _ one_points), H]. subst. unfold ser_public_list. cbn [pl_index pl_commitments]. fin.
  Qed.
  Lemma one_signer s : Forall op (signer_pts s) -> one_encoding ser_signer de_signer s.
  Proof. intros H bs r. unfold de_signer. can. apply can_u32 in E. apply (one_points _ H) in E0. subst. unfold ser_signer. cbn [sg_index sg_com]. fin. Qed.
  Lemma one_threshold_sig s : op (ts_R s) -> one_encoding ser_threshold_sig de_threshold_sig s.
  Proof. intros H bs r. unfold de_threshold_sig. can. apply H in E. apply Hs in E0. subst. unfold ser_threshold_sig. cbn [ts_R ts_z]. fin. Qed.
End One.

(** * C123: a message whose points have one encoding each has one encoding *)
Theorem C123_one_encoding_if_each_point_has : forall S : Suite,
  (** the curve library's scalar decoder accepts canonical encodings only; nothing is assumed about the point decoder *)
  canonical enc_scalar dec_scalar ->
  let all := Forall (one_encoding enc_point dec_point) in
  (forall k, all [vk_share k] -> one_encoding ser_verifying_key de_verifying_key k) /\
  (forall c, all (vss_pts c) -> one_encoding ser_vss de_vss c) /\
  (forall p, all (complaint_proof_pts p) -> one_encoding ser_complaint_proof de_complaint_proof p) /\
  (forall c, all (complaint_pts c) -> one_encoding ser_complaint de_complaint c) /\
  (forall p, all (participant_pts p) -> one_encoding ser_participant de_participant p) /\
  (forall l, all (part_list_pts l) -> one_encoding ser_part_list de_part_list l) /\
  (forall c, all [co_commit c] -> one_encoding ser_commitment de_commitment c) /\
  (forall c, all (commitment_share_pts c) -> one_encoding ser_commitment_share de_commitment_share c) /\
  (forall l, all (secret_list_pts l) -> one_encoding ser_secret_list de_secret_list l) /\
  (forall l, all (public_list_pts l) -> one_encoding ser_public_list de_public_list l) /\
  (forall s, all (signer_pts s) -> one_encoding ser_signer de_signer s) /\
  (forall s, all [ts_R s] -> one_encoding ser_threshold_sig de_threshold_sig s) /\
  (** the types without points *)
  (forall k, one_encoding ser_signing_key de_signing_key k) /\ (forall l, one_encoding ser_coefficients de_coefficients l) /\
  (forall s, one_encoding ser_share de_share s) /\ (forall e, one_encoding ser_encshare de_encshare e) /\
  (forall p, one_encoding ser_nizk de_nizk p) /\ (forall p, one_encoding ser_partial_sig de_partial_sig p).
Proof.
  intros S Hs all. assert (K : forall P, all [P] -> one_encoding enc_point dec_point P) by (intros P H; inversion H; assumption).
  repeat match goal with |- _ /\ _ => split end; intros v; try intros H.
  - apply one_verifying_key, K, H.
  - apply one_vss, H.
  - apply one_complaint_proof; assumption.
  - apply one_complaint; assumption.
  - apply one_participant; assumption.
  - apply one_part_list; assumption.
  - apply one_commitment; [assumption|apply K, H].
  - apply one_commitment_share; assumption.
  - apply one_secret_list; assumption.
  - apply one_public_list, H.
  - apply one_signer, H.
  - apply one_threshold_sig; [assumption|apply K, H].
  - apply one_of_canonical, can_signing_key, Hs.
  - apply one_of_canonical, can_vec, Hs.
  - apply one_of_canonical, can_share, Hs.
  - apply one_of_canonical, can_encshare.
  - apply one_of_canonical, can_nizk, Hs.
  - apply one_of_canonical, can_partial_sig, Hs.
Qed.
Print Assumptions C123_one_encoding_if_each_point_has.

Section Other.
  Context {S : Suite} {L : SuiteLaws S}.
  Let np := other_encoding enc_point dec_point.
  Lemma app_inv_mid (a b c d : list byte) : b <> c -> a ++ b ++ d <> a ++ c ++ d.
  Proof. intros H E. apply H. apply app_inv_head in E. apply app_inv_tail in E. exact E. Qed.
  Lemma other_vec {A} (R : A -> Prop) (ser : A -> list byte) d l : exact R ser d -> real_vec R l ->
    Exists (other_encoding ser d) l -> other_encoding (ser_vec ser) (de_vec d) l.
  Proof.
    intros He [Hf Hr] Hx.
    assert (K : forall l, (forall a, In a l -> R a) -> Exists (other_encoding ser d) l ->
      exists b, b <> concat (map ser l) /\ forall rest, de_many d (length l) (b ++ rest) = Some (l, rest)).
    { clear l Hf Hr Hx. induction l as [|a l IH]; intros Hr Hx; [inversion Hx|]. inversion Hx as [? ? [b [Hb Hd]]|? ? Hx']; subst.
      - exists (b ++ concat (map ser l)). split.
        + cbn [map concat]. intros E. apply app_inv_tail in E. exact (Hb E).
        + intros rest. cbn [length de_many]. rewrite <- app_assoc, Hd. cbn [dthen]. rewrite (de_many_ok R ser d He); [reflexivity|].
          intros y Hy. apply Hr. right. exact Hy.
      - destruct IH as [b [Hb Hd]]; [intros y Hy; apply Hr; right; exact Hy|exact Hx'|]. exists (ser a ++ b). split.
        + cbn [map concat]. intros E. apply app_inv_head in E. exact (Hb E).
        + intros rest. cbn [length de_many]. rewrite <- app_assoc, He by (apply Hr; left; reflexivity). cbn [dthen]. rewrite Hd. reflexivity. }
    destruct (K l Hr Hx) as [b [Hb Hd]]. exists (le_bytes 8 (N.of_nat (length l)) ++ b). split.
    - unfold ser_vec. intros E. apply app_inv_head in E. exact (Hb E).
    - intros rest. unfold de_vec. rewrite <- app_assoc, de_u64_ok by exact Hf. cbn [dthen]. rewrite Nat2N.id. apply Hd.
  Qed.
  Lemma other_some {A} (ser : A -> list byte) d a : other_encoding ser d a -> other_encoding (ser_option ser) (de_option d) (Some a).
  Proof.
    intros [b [Hb Hd]]. exists (x01 :: b). split; [cbn [ser_option]; congruence|]. intros rest. unfold de_option. cbn [app de_u8 dthen]. rewrite Hd. reflexivity.
  Qed.
  Lemma other_verifying_key k : np (vk_share k) -> other_encoding ser_verifying_key de_verifying_key k.
  Proof.
    intros [b [Hb Hd]]. destruct k as [i P]. exists (u32_le i ++ b). split; [unfold ser_verifying_key; cbn [vk_index vk_share]; intros E; apply app_inv_head in E; exact (Hb E)|].
    intros rest. unfold de_verifying_key. rewrite <- app_assoc, exact_u32 by exact I. cbn [dthen]. rewrite Hd. reflexivity.
  Qed.
  Lemma other_vss c : real_vss c -> Exists np (vss_pts c) -> other_encoding ser_vss de_vss c.
  Proof.
    intros Hr H. apply (other_vec any) in H; [|apply exact_point|split; [exact Hr|intros; exact I]]. destruct H as [b [Hb Hd]]. destruct c as [i l].
    exists (u32_le i ++ b). split; [unfold ser_vss; cbn [vss_index vss_points]; intros E; apply app_inv_head in E; exact (Hb E)|].
    intros rest. unfold de_vss. rewrite <- app_assoc, exact_u32 by exact I. cbn [dthen]. rewrite Hd. reflexivity.
  Qed.
  Lemma other_complaint_proof p : Exists np (complaint_proof_pts p) -> other_encoding ser_complaint_proof de_complaint_proof p.
  Proof.
    destruct p as [a b z]. intros H. apply Exists_cons in H. destruct H as [[x [Hx Hd]]|H]; [|apply Exists_cons in H; destruct H as [[x [Hx Hd]]|H]; [|inversion H]].
    - exists (x ++ enc_point b ++ enc_scalar z). split; [unfold ser_complaint_proof; cbn [cp_a1 cp_a2 cp_z] in *; intros E; apply app_inv_tail in E; exact (Hx E)|].
      intros rest. unfold de_complaint_proof. rewrite <- !app_assoc, Hd. cbn [dthen cp_a1]. rewrite exact_point by exact I. cbn [dthen]. rewrite exact_scalar by exact I. reflexivity.
    - exists (enc_point a ++ x ++ enc_scalar z). split; [unfold ser_complaint_proof; cbn [cp_a1 cp_a2 cp_z] in *; apply app_inv_mid, Hx|].
      intros rest. unfold de_complaint_proof. rewrite <- !app_assoc, exact_point by exact I. cbn [dthen]. rewrite Hd. cbn [dthen cp_a2]. rewrite exact_scalar by exact I. reflexivity.
  Qed.
  Lemma other_complaint c : real_complaint c -> Exists np (complaint_pts c) -> other_encoding ser_complaint de_complaint c.
  Proof.
    destruct c as [k pk e p]. intros Hr H. unfold complaint_pts in H. cbn [c_shared c_pk c_proof app] in H. unfold real_complaint in Hr. cbn [c_share] in Hr.
    apply Exists_cons in H. destruct H as [[x [Hx Hd]]|H]; [|apply Exists_cons in H; destruct H as [[x [Hx Hd]]|H]].
    - exists (x ++ enc_point pk ++ ser_encshare e ++ ser_complaint_proof p). split; [unfold ser_complaint; cbn [c_shared c_pk c_share c_proof]; intros E; apply app_inv_tail in E; exact (Hx E)|].
      intros rest. unfold de_complaint. rewrite <- !app_assoc, Hd. cbn [dthen]. rewrite exact_point by exact I. cbn [dthen]. rewrite exact_encshare by exact Hr. cbn [dthen].
      rewrite exact_complaint_proof by exact I. reflexivity.
    - exists (enc_point k ++ x ++ ser_encshare e ++ ser_complaint_proof p). split; [unfold ser_complaint; cbn [c_shared c_pk c_share c_proof]; apply app_inv_mid, Hx|].
      intros rest. unfold de_complaint. rewrite <- !app_assoc, exact_point by exact I. cbn [dthen]. rewrite Hd. cbn [dthen]. rewrite exact_encshare by exact Hr. cbn [dthen].
      rewrite exact_complaint_proof by exact I. reflexivity.
    - apply other_complaint_proof in H. destruct H as [x [Hx Hd]].
      exists (enc_point k ++ enc_point pk ++ ser_encshare e ++ x). split; [unfold ser_complaint; cbn [c_shared c_pk c_share c_proof]; intros E; do 3 apply app_inv_head in E; exact (Hx E)|].
      intros rest. unfold de_complaint. rewrite <- !app_assoc, exact_point by exact I. cbn [dthen]. rewrite exact_point by exact I. cbn [dthen]. rewrite exact_encshare by exact Hr. cbn [dthen].
      rewrite Hd. reflexivity.
  Qed.
  Lemma other_participant p : real_participant p -> Exists np (participant_pts p) -> other_encoding ser_participant de_participant p.
  Proof.
    destruct p as [i pk c q h]. intros Hr H. unfold participant_pts in H. cbn [pt_dh_pk pt_comm] in H. unfold real_participant in Hr. cbn [pt_comm] in Hr.
    apply Exists_cons in H. destruct H as [[x [Hx Hd]]|H].
    - exists (u32_le i ++ x ++ ser_option ser_vss c ++ ser_option ser_nizk q ++ ser_nizk h).
      split; [unfold ser_participant; cbn [pt_index pt_dh_pk pt_comm pt_sk_proof pt_dh_proof]; apply app_inv_mid, Hx|].
      intros rest. unfold de_participant. rewrite <- !app_assoc, exact_u32 by exact I. cbn [dthen]. rewrite Hd. cbn [dthen].
      rewrite (exact_option _ _ _ exact_vss) by exact Hr. cbn [dthen].
      rewrite (exact_option _ _ _ exact_nizk) by (intros ? _; exact I). cbn [dthen]. rewrite exact_nizk by exact I. reflexivity.
    - destruct c as [c|]; [|inversion H]. apply other_vss in H; [|apply Hr; reflexivity]. apply other_some in H. destruct H as [x [Hx Hd]].
      exists (u32_le i ++ enc_point pk ++ x ++ ser_option ser_nizk q ++ ser_nizk h).
      split; [unfold ser_participant; cbn [pt_index pt_dh_pk pt_comm pt_sk_proof pt_dh_proof]; intros E; do 2 apply app_inv_head in E; apply app_inv_tail in E; exact (Hx E)|].
      intros rest. unfold de_participant. rewrite <- !app_assoc, exact_u32 by exact I. cbn [dthen]. rewrite exact_point by exact I. cbn [dthen]. rewrite Hd. cbn [dthen].
      rewrite (exact_option _ _ _ exact_nizk) by (intros ? _; exact I). cbn [dthen]. rewrite exact_nizk by exact I. reflexivity.
  Qed.
  Lemma Exists_flat_map {A B} (P : B -> Prop) (f : A -> list B) l : Exists P (flat_map f l) -> Exists (fun a => Exists P (f a)) l.
  Proof. induction l as [|a l IH]; cbn [flat_map]; intros H; [inversion H|]. apply Exists_app in H. destruct H as [H|H]; [left; exact H|right; apply IH, H]. Qed.
  Lemma Exists_impl_in {A} (P Q : A -> Prop) l : (forall a, In a l -> P a -> Q a) -> Exists P l -> Exists Q l.
  Proof. intros H Hx. apply Exists_exists in Hx. destruct Hx as [a [H1 H2]]. apply Exists_exists. exists a. auto. Qed.
  Lemma other_part_list l : real_part_list l -> Exists np (part_list_pts l) -> other_encoding ser_part_list de_part_list l.
  Proof.
    destruct l as [v o]. intros [H1 H2] H. cbn [pl_valid pl_mis] in *. unfold part_list_pts in H. cbn [pl_valid] in H. apply Exists_flat_map in H.
    apply (Exists_impl_in _ (other_encoding ser_participant de_participant)) in H; [|intros p Hp; apply other_participant; apply (proj2 H1), Hp].
    apply (other_vec real_participant) in H; [|apply exact_participant|exact H1]. destruct H as [x [Hx Hd]].
    exists (x ++ ser_option (ser_vec u32_le) o). split; [unfold ser_part_list; cbn [pl_valid pl_mis]; intros E; apply app_inv_tail in E; exact (Hx E)|].
    intros rest. unfold de_part_list. rewrite <- app_assoc, Hd. cbn [dthen].
    rewrite (exact_option _ _ _ (exact_vec any _ _ exact_u32)); [reflexivity|]. intros l E. split; [apply H2, E|intros; exact I].
  Qed.
  Lemma other_commitment c : np (co_commit c) -> other_encoding ser_commitment de_commitment c.
  Proof.
    destruct c as [s P]. intros [x [Hx Hd]]. exists (enc_scalar s ++ x). split; [unfold ser_commitment; cbn [co_secret co_commit]; intros E; apply app_inv_head in E; exact (Hx E)|].
    intros rest. unfold de_commitment. rewrite <- app_assoc, exact_scalar by exact I. cbn [dthen]. rewrite Hd. reflexivity.
  Qed.
  Lemma other_commitment_share c : Exists np (commitment_share_pts c) -> other_encoding ser_commitment_share de_commitment_share c.
  Proof.
    destruct c as [h b]. intros H. unfold commitment_share_pts in H. cbn [cs_hiding cs_binding] in H.
    apply Exists_cons in H. destruct H as [H|H]; [|apply Exists_cons in H; destruct H as [H|H]; [|inversion H]];
      apply other_commitment in H; destruct H as [x [Hx Hd]].
    - exists (x ++ ser_commitment b). split; [unfold ser_commitment_share; cbn [cs_hiding cs_binding]; intros E; apply app_inv_tail in E; exact (Hx E)|].
      intros rest. unfold de_commitment_share. rewrite <- app_assoc, Hd. cbn [dthen]. rewrite exact_commitment by exact I. reflexivity.
    - exists (ser_commitment h ++ x). split; [unfold ser_commitment_share; cbn [cs_hiding cs_binding]; intros E; apply app_inv_head in E; exact (Hx E)|].
      intros rest. unfold de_commitment_share. rewrite <- app_assoc, exact_commitment by exact I. cbn [dthen]. rewrite Hd. reflexivity.
  Qed.
  Lemma other_secret_list l : fits (sl_commitments l) -> Exists np (secret_list_pts l) -> other_encoding ser_secret_list de_secret_list l.
  Proof.
    destruct l as [l]. cbn [sl_commitments]. intros Hf H. apply Exists_flat_map in H. cbn [sl_commitments] in H.
    apply (Exists_impl_in _ (other_encoding ser_commitment_share de_commitment_share)) in H; [|intros p _; apply other_commitment_share].
    apply (other_vec any) in H; [|apply exact_commitment_share|split; [exact Hf|intros; exact I]]. destruct H as [x [Hx Hd]].
    exists x. split; [exact Hx|]. intros rest. unfold de_secret_list. rewrite Hd. reflexivity.
  Qed.
  Lemma other_points c : Exists np [fst c; snd c] -> other_encoding (ser_pair enc_point enc_point) (de_pair dec_point dec_point) c.
  Proof.
    destruct c as [a b]. cbn [fst snd]. intros H. apply Exists_cons in H. destruct H as [[x [Hx Hd]]|H]; [|apply Exists_cons in H; destruct H as [[x [Hx Hd]]|H]; [|inversion H]].
    - exists (x ++ enc_point b). split; [unfold ser_pair; cbn [fst snd]; intros E; apply app_inv_tail in E; exact (Hx E)|].
      intros rest. unfold de_pair. rewrite <- app_assoc, Hd. cbn [dthen]. rewrite exact_point by exact I. reflexivity.
    - exists (enc_point a ++ x). split; [unfold ser_pair; cbn [fst snd]; intros E; apply app_inv_head in E; exact (Hx E)|].
      intros rest. unfold de_pair. rewrite <- app_assoc, exact_point by exact I. cbn [dthen]. rewrite Hd. reflexivity.
  Qed.
  Lemma other_public_list l : fits (pl_commitments l) -> Exists np (public_list_pts l) -> other_encoding ser_public_list de_public_list l.
  Proof.
    destruct l as [i l]. cbn [pl_commitments]. intros Hf H. apply Exists_flat_map in H. cbn [pl_commitments] in H.
    apply (Exists_impl_in _ (other_encoding (ser_pair enc_point enc_point) (de_pair dec_point dec_point))) in H; [|intros p _; apply other_points].
    apply (other_vec any) in H; [|apply exact_points|split; [exact Hf|intros; exact I]]. destruct H as [x [Hx Hd]].
    exists (u32_le i ++ x). split; [unfold ser_public_list; cbn [pl_index pl_commitments]; intros E; apply app_inv_head in E; exact (Hx E)|].
    intros rest. unfold de_public_list. rewrite <- app_assoc, exact_u32 by exact I. cbn [dthen]. rewrite Hd. reflexivity.
  Qed.
  Lemma other_signer s : Exists np (signer_pts s) -> other_encoding ser_signer de_signer s.
  Proof.
    destruct s as [i c]. intros H. apply other_points in H. destruct H as [x [Hx Hd]].
    exists (u32_le i ++ x). split; [unfold ser_signer; cbn [sg_index sg_com]; intros E; apply app_inv_head in E; exact (Hx E)|].
    intros rest. unfold de_signer. rewrite <- app_assoc, exact_u32 by exact I. cbn [dthen]. rewrite Hd. reflexivity.
  Qed.
  Lemma other_threshold_sig s : np (ts_R s) -> other_encoding ser_threshold_sig de_threshold_sig s.
  Proof.
    destruct s as [R z]. intros [x [Hx Hd]]. exists (x ++ enc_scalar z). split; [unfold ser_threshold_sig; cbn [ts_R ts_z]; intros E; apply app_inv_tail in E; exact (Hx E)|].
    intros rest. unfold de_threshold_sig. rewrite <- app_assoc, Hd. cbn [dthen]. rewrite exact_scalar by exact I. reflexivity.
  Qed.
End Other.

(** ... and a message with a point that has a second encoding has a second encoding *)
Theorem C123_another_encoding_if_some_point_has : forall (S : Suite) (L : SuiteLaws S),
  let some := Exists (other_encoding enc_point dec_point) in
  (forall k, some [vk_share k] -> other_encoding ser_verifying_key de_verifying_key k) /\
  (forall c, real_vss c -> some (vss_pts c) -> other_encoding ser_vss de_vss c) /\
  (forall p, some (complaint_proof_pts p) -> other_encoding ser_complaint_proof de_complaint_proof p) /\
  (forall c, real_complaint c -> some (complaint_pts c) -> other_encoding ser_complaint de_complaint c) /\
  (forall p, real_participant p -> some (participant_pts p) -> other_encoding ser_participant de_participant p) /\
  (forall l, real_part_list l -> some (part_list_pts l) -> other_encoding ser_part_list de_part_list l) /\
  (forall c, some [co_commit c] -> other_encoding ser_commitment de_commitment c) /\
  (forall c, some (commitment_share_pts c) -> other_encoding ser_commitment_share de_commitment_share c) /\
  (forall l, fits (sl_commitments l) -> some (secret_list_pts l) -> other_encoding ser_secret_list de_secret_list l) /\
  (forall l, fits (pl_commitments l) -> some (public_list_pts l) -> other_encoding ser_public_list de_public_list l) /\
  (forall s, some (signer_pts s) -> other_encoding ser_signer de_signer s) /\
  (forall s, some [ts_R s] -> other_encoding ser_threshold_sig de_threshold_sig s).
Proof.
  intros S L some. assert (K : forall P, some [P] -> other_encoding enc_point dec_point P)
    by (intros P H; inversion H as [? ? X|? ? X]; subst; [exact X|inversion X]).
  repeat match goal with |- _ /\ _ => split end; intros v.
  - intros H. apply other_verifying_key, K, H.
  - apply other_vss.
  - apply other_complaint_proof.
  - apply other_complaint.
  - apply other_participant.
  - apply other_part_list.
  - intros H. apply other_commitment, K, H.
  - apply other_commitment_share.
  - apply other_secret_list.
  - apply other_public_list.
  - apply other_signer.
  - intros H. apply other_threshold_sig, K, H.
Qed.
Print Assumptions C123_another_encoding_if_some_point_has.

(** for a curve library that reads the identity, and no other point, from several strings: signatures are
    malleable as bytes exactly if their R is the identity, and whoever has the key can make a valid one of these *)
Theorem C123_signatures_malleable_exactly_at_the_identity : forall (S : Suite) (L : SuiteLaws S),
  canonical enc_scalar dec_scalar ->
  (forall P, P <> Gzero -> one_encoding enc_point dec_point P) -> other_encoding enc_point dec_point Gzero ->
  (forall s, one_encoding ser_threshold_sig de_threshold_sig s <-> ts_R s <> Gzero) /\
  (forall (x : F) (h : list byte), exists s b b', sig_verify s (gen * x)%G h = Ok tt /\ b <> b' /\
     from_bytes de_threshold_sig b = Ok s /\ from_bytes de_threshold_sig b' = Ok s).
Proof.
  intros S L Hs H1 H0. split.
  - intros s. split; [|intros H; apply one_threshold_sig; [exact Hs|apply H1, H]]. intros H E.
    assert (X : other_encoding ser_threshold_sig de_threshold_sig s) by (apply other_threshold_sig; rewrite E; exact H0).
    destruct X as [b [Hb Hd]]. specialize (Hd []). apply H in Hd. apply app_inv_tail in Hd. exact (Hb Hd).
  - intros x h. set (s := MkTSig Gzero (x * chal Gzero (gen * x)%G h)%F).
    assert (X : other_encoding ser_threshold_sig de_threshold_sig s) by (apply other_threshold_sig; exact H0).
    destruct X as [b [Hb Hd]]. exists s, b, (ser_threshold_sig s). split; [|split; [exact Hb|split]].
    + apply sig_verify_iff. unfold schnorr, s. cbn [ts_R ts_z]. rewrite Gadd_0_l, Gmul_mul. reflexivity.
    + unfold from_bytes. rewrite <- (app_nil_r b), Hd. reflexivity.
    + unfold from_bytes. rewrite <- (app_nil_r (ser_threshold_sig s)), exact_threshold_sig by exact I. reflexivity.
Qed.
Print Assumptions C123_signatures_malleable_exactly_at_the_identity.

(** ** Examples: a suite whose point decoder ignores the coordinate of the point at infinity, as the one of
    the short Weierstrass curves of ark-ec 0.4 does (flag byte x03 here) *)
Definition loose_dec (l : list byte) : option (Fp * list byte) :=
  match l with
  | x03 :: l' => match toy_dec_scalar l' with Some (_, r) => Some (mk 0, r) | None => None end
  | _ => toy_dec_point l
  end.
Definition with_dec_point (S : Suite) (d : list byte -> option (G * list byte)) : Suite := {|
  F := @F S; F0 := @F0 S; F1 := @F1 S; Fadd := @Fadd S; Fsub := @Fsub S; Fmul := @Fmul S; Fopp := @Fopp S; Finv := @Finv S;
  Feqb := @Feqb S; of_u32 := @of_u32 S; G := @G S; Gzero := @Gzero S; Gadd := @Gadd S; Gopp := @Gopp S; Gmul := @Gmul S;
  gen := @gen S; Geqb := @Geqb S; enc_scalar := @enc_scalar S; dec_scalar := @dec_scalar S; enc_point := @enc_point S;
  dec_point := d; context_string := @context_string S; inner_h2f := @inner_h2f S; sha256_h2f := @sha256_h2f S;
  inner_digest := @inner_digest S; hash_len := @hash_len S; hkdf := @hkdf S; nonce_len := @nonce_len S;
  aead_enc := @aead_enc S; aead_dec := @aead_dec S; Rng := @Rng S; rand_scalar := @rand_scalar S; rand_bytes := @rand_bytes S |}.
Lemma with_dec_point_laws (S : Suite) (L : SuiteLaws S) d : (forall P r, d (enc_point P ++ r) = Some (P, r)) -> SuiteLaws (with_dec_point S d).
Proof. intros H. destruct L. constructor; assumption. Qed.
Lemma loose_other b l : b <> x03 -> loose_dec (b :: l) = toy_dec_point (b :: l).
Proof. intros H. destruct b; try reflexivity. destruct (H eq_refl). Qed.
Definition Loose : Suite := with_dec_point Toy loose_dec.
Lemma LooseLaws : SuiteLaws Loose.
Proof. apply with_dec_point_laws; [exact ToyLaws|]. intros P r. apply (@enc_point_dec Toy ToyLaws). Qed.

Example C123_ex :
  canonical (@enc_scalar Loose) dec_scalar /\
  (forall P : @G Loose, P <> Gzero -> one_encoding enc_point dec_point P) /\
  other_encoding (@enc_point Loose) dec_point Gzero.
Proof.
  split; [exact toy_canonical_scalar|]. split.
  - intros P HP bs r. change (loose_dec bs = Some (P, r) -> bs = toy_enc_point P ++ r).
    destruct bs as [|b bs]; [discriminate|]. destruct (Byte.byte_eq_dec b x03) as [->|Hb]; [|rewrite loose_other by exact Hb; apply toy_canonical_point].
    cbn [loose_dec]. destruct (toy_dec_scalar bs) as [[x q]|]; [|discriminate]. intros E. destruct HP. change (P = mk 0). congruence.
  - exists (x03 :: toy_enc_scalar (mk 5)). split.
    + change (x03 :: toy_enc_scalar (mk 5) <> x02 :: toy_enc_scalar (mk 0)). discriminate.
    + intros rest. change (loose_dec (x03 :: toy_enc_scalar (mk 5) ++ rest) = Some (mk 0, rest)). unfold loose_dec. rewrite toy_scalar_dec. reflexivity.
Qed.
(** a participant entry whose commitment has the identity as a point *)
Definition loose_part : @Participant Loose :=
  @MkPart Loose (u 1) (mk 9) (Some (@MkVss Loose (u 1) [mk 4; mk 0])) None (@MkNizk Loose (mk 1) (mk 2)).
Example C123_ex_messages : real_participant loose_part /\
  other_encoding (@ser_participant Loose) de_participant loose_part /\
  one_encoding (@ser_threshold_sig Loose) de_threshold_sig (@MkTSig Loose (mk 9) (mk 0)).
Proof.
  assert (R : real_participant loose_part) by (intros c E; injection E as <-; reflexivity).
  split; [exact R|]. destruct C123_ex as [E1 [E2 E3]]. split.
  - apply (C123_another_encoding_if_some_point_has Loose LooseLaws); [exact R|]. right. right. left. exact E3.
  - apply (C123_signatures_malleable_exactly_at_the_identity Loose LooseLaws E1 E2 E3).
    change (mk 9 <> mk 0). intros E. apply (f_equal fv) in E. rewrite !fv_mk in E. discriminate E.
Qed.
