(** C115: altered complaints, and the repository's test of complaints. *)
From Coq Require Import String Strings.Byte Arith NArith ZArith Bool List Lia Permutation Sorted Field.
From Verif Require Import Base Suite Spec SpecDkg SpecRobust Types Algebra BaseLemmas ModelDkg LemmasShare LemmasRound2 LemmasBlame Toy Demo DemoDkg PropsShare PropsBlame.
Import ListNotations.

(** c with one field replaced *)
Definition with_shared {S : Suite} (c : Complaint) (k : G) : Complaint := MkComplaint k (c_pk c) (c_share c) (c_proof c).
Definition with_maker_key {S : Suite} (c : Complaint) (p : G) : Complaint := MkComplaint (c_shared c) p (c_share c) (c_proof c).
Definition with_share {S : Suite} (c : Complaint) (e : EncShare) : Complaint := MkComplaint (c_shared c) (c_pk c) e (c_proof c).
Definition with_proof {S : Suite} (c : Complaint) (a1 a2 : G) (z : F) : Complaint := MkComplaint (c_shared c) (c_pk c) (c_share c) (MkCProof a1 a2 z).

Section Alter.
  Context {S : Suite} {L : SuiteLaws S}.
  Add Field F_fld : F_field.
  Lemma verify_challenge c pk : complaint_verify c pk = Ok tt <->
    (cp_a1 (c_proof c) + c_pk c * complaint_challenge c pk = gen * cp_z (c_proof c))%G /\
    (cp_a2 (c_proof c) + c_shared c * complaint_challenge c pk = pk * cp_z (c_proof c))%G.
  Proof. apply complaint_verify_iff. Qed.
  Lemma gadd_cancel_l a b c : (a + b = a + c)%G -> b = c.
  Proof.
    destruct (gen_span a) as [x ->], (gen_span b) as [y ->], (gen_span c) as [z ->]. rewrite <- !Gmul_add_r. intros E. apply gen_inj in E.
    f_equal. exact (Fadd_cancel_l _ _ _ E).
  Qed.
  Lemma gadd_cancel_r a b c : (b + a = c + a)%G -> b = c.
  Proof.
    destruct (gen_span a) as [x ->], (gen_span b) as [y ->], (gen_span c) as [z ->]. rewrite <- !Gmul_add_r. intros E. apply gen_inj in E.
    f_equal. apply (Fadd_cancel_l x). transitivity (y + x)%F; [ring|]. rewrite E. ring.
  Qed.
  Lemma gmul_scalar P h h' : P <> Gzero -> (P * h = P * h')%G -> h = h'.
  Proof.
    destruct (gen_span P) as [p ->]. rewrite !Gmul_mul. intros Hp E. apply gen_inj in E. apply Fsub_eq_0.
    assert (X : (p * (h - h') = F0)%F) by (transitivity (p * h - p * h')%F; [ring|rewrite E; ring]).
    apply Fmul_eq_0 in X. destruct X as [X|X]; [|exact X]. destruct Hp. rewrite X. apply gen_mul_0.
  Qed.
  Lemma gmul_point P P' h : h <> F0 -> (P * h = P' * h)%G -> P = P'.
  Proof.
    destruct (gen_span P) as [p ->], (gen_span P') as [p' ->]. rewrite !Gmul_mul. intros Hh E. apply gen_inj in E. f_equal. apply Fsub_eq_0.
    assert (X : (h * (p - p') = F0)%F) by (transitivity (p * h - p' * h)%F; [ring|rewrite E; ring]).
    apply Fmul_eq_0 in X. destruct X as [X|X]; [contradiction|exact X].
  Qed.
  Lemma gmul_zero P : (P * F0)%G = Gzero.
  Proof. destruct (gen_span P) as [p ->]. rewrite Gmul_mul. replace (p * F0)%F with F0 by ring. apply gen_mul_0. Qed.
  Lemma without_iff {V} (P Q : u32 -> Prop) (m m' : bmap V) : (forall k, P k <-> Q k) -> without P m m' -> without Q m m'.
  Proof. intros H W. induction W; [constructor|apply wo_drop|apply wo_keep]; auto; rewrite <- H; assumption. Qed.
End Alter.

(** a verifying complaint with one field altered: still accepted exactly if hash values coincide; never if the proof is touched *)
Theorem C115_one_field_altered :
  forall (S : Suite) (L : SuiteLaws S) (c : Complaint) (pk : G),
  complaint_verify c pk = Ok tt -> c_pk c <> Gzero -> c_shared c <> Gzero ->
  let h := complaint_challenge c pk in
  (forall k, complaint_verify (with_shared c k) pk = Ok tt <-> complaint_challenge (with_shared c k) pk = h /\ (k = c_shared c \/ h = F0)) /\
  (forall p, complaint_verify (with_maker_key c p) pk = Ok tt <-> complaint_challenge (with_maker_key c p) pk = h /\ (p = c_pk c \/ h = F0)) /\
  (forall e, complaint_verify (with_share c e) pk = Ok tt <-> complaint_challenge (with_share c e) pk = h) /\
  (forall a, complaint_verify (with_proof c a (cp_a2 (c_proof c)) (cp_z (c_proof c))) pk = Ok tt <-> a = cp_a1 (c_proof c)) /\
  (forall a, complaint_verify (with_proof c (cp_a1 (c_proof c)) a (cp_z (c_proof c))) pk = Ok tt <-> a = cp_a2 (c_proof c)) /\
  (forall z, complaint_verify (with_proof c (cp_a1 (c_proof c)) (cp_a2 (c_proof c)) z) pk = Ok tt <-> z = cp_z (c_proof c)) /\
  (forall pk', complaint_verify c pk' = Ok tt <-> complaint_challenge c pk' = h /\ (pk' = pk \/ cp_z (c_proof c) = F0)).
Proof.
  intros S L c pk V Hp Hk h. apply verify_challenge in V. fold h in V. destruct V as [V1 V2].
  assert (Z : forall P, (P * F0)%G = Gzero) by apply gmul_zero.
  split; [|split; [|split; [|split; [|split; [|split]]]]].
  - intros k. rewrite verify_challenge. set (h' := complaint_challenge _ pk). cbn [with_shared c_proof c_pk c_shared].
    rewrite <- V1, <- V2. split.
    + intros [A B]. apply gadd_cancel_l, gmul_scalar in A; [|exact Hp]. rewrite A in *. split; [reflexivity|].
      destruct (F_dec h F0) as [E|E]; [right; exact E|left]. apply gadd_cancel_l in B. exact (gmul_point _ _ _ E B).
    + intros [-> [->|E]]; [auto|]. rewrite E, !Z. auto.
  - intros p. rewrite verify_challenge. set (h' := complaint_challenge _ pk). cbn [with_maker_key c_proof c_pk c_shared].
    rewrite <- V1, <- V2. split.
    + intros [A B]. apply gadd_cancel_l, gmul_scalar in B; [|exact Hk]. rewrite B in *. split; [reflexivity|].
      destruct (F_dec h F0) as [E|E]; [right; exact E|left]. apply gadd_cancel_l in A. exact (gmul_point _ _ _ E A).
    + intros [-> [->|E]]; [auto|]. rewrite E, !Z. auto.
  - intros e. rewrite verify_challenge. set (h' := complaint_challenge _ pk). cbn [with_share c_proof c_pk c_shared].
    rewrite <- V1, <- V2. split.
    + intros [A _]. apply gadd_cancel_l, gmul_scalar in A; [|exact Hp]. exact A.
    + intros ->. auto.
  - intros a. split.
    + rewrite verify_challenge. set (h' := complaint_challenge _ pk). cbn [with_proof c_proof c_pk c_shared cp_a1 cp_a2 cp_z].
      rewrite <- V1, <- V2. intros [A B]. apply gadd_cancel_l, gmul_scalar in B; [|exact Hk]. rewrite B in A. exact (gadd_cancel_r _ _ _ A).
    + intros ->. destruct c as [k p e [a1 a2 z]]. apply verify_challenge. cbn in *. auto.
  - intros a. split.
    + rewrite verify_challenge. set (h' := complaint_challenge _ pk). cbn [with_proof c_proof c_pk c_shared cp_a1 cp_a2 cp_z].
      rewrite <- V1, <- V2. intros [A B]. apply gadd_cancel_l, gmul_scalar in A; [|exact Hp]. rewrite A in B. exact (gadd_cancel_r _ _ _ B).
    + intros ->. destruct c as [k p e [a1 a2 z]]. apply verify_challenge. cbn in *. auto.
  - intros z. split.
    + rewrite verify_challenge. change (complaint_challenge _ pk) with h. cbn [with_proof c_proof c_pk c_shared cp_a1 cp_a2 cp_z].
      rewrite V1. intros [A _]. apply gen_inj in A. symmetry. exact A.
    + intros ->. destruct c as [k p e [a1 a2 z]]. apply verify_challenge. cbn in *. auto.
  - intros pk'. rewrite verify_challenge. set (h' := complaint_challenge c pk'). rewrite <- V1. split.
    + intros [A B]. apply gadd_cancel_l, gmul_scalar in A; [|exact Hp]. rewrite A, V2 in B. split; [exact A|].
      destruct (F_dec (cp_z (c_proof c)) F0) as [E|E]; [right; exact E|left]. symmetry. exact (gmul_point _ _ _ E B).
    + intros [-> [->|E]]; [auto|]. rewrite V2, E, !Z. auto.
Qed.
Print Assumptions C115_one_field_altered.

(** a complaint that does not verify for the registered key of the accused convicts the receiver it names, and only that one *)
Theorem C115_altered_complaint_convicts_the_named_receiver :
  forall (S : Suite) (L : SuiteLaws S) (st : DkgState) (comms : bmap Vss) (shares : bmap SecretShare) (c : Complaint) (pk pkm : G),
  ds_comms st = Some comms -> ds_shares st = Some shares -> bget (accused c) (ds_dhs st) = Some pk ->
  complaint_verify c pk <> Ok tt -> bget (maker c) (ds_dhs st) = Some pkm ->
  exists s' comms' shares', blame (R2 st) [c] = Ok ([pkm], s') /\
    ds_comms (st2 s') = Some comms' /\ ds_shares (st2 s') = Some shares' /\
    without (fun k => k = maker c) comms comms' /\ without (fun k => k = maker c) shares shares'.
Proof.
  intros S L st comms shares c pk pkm Hc Hs Hpk Hv Hm.
  assert (U : ~ upheld st c).
  { intros (_ & _ & m & com' & pk' & A & B & [R|[R _]] & V & D); congruence. }
  assert (Hcv : forall k, convicted st [c] k <-> k = maker c).
  { intros k. unfold convicted. split.
    - intros (c' & [<-|[]] & [[X _]|[_ X]]); [contradiction|exact X].
    - intros ->. exists c. split; [left; reflexivity|right; auto]. }
  destruct (C22_blame_outcome S L st comms shares [c] Hc Hs) as (l & keys & st' & E & Hl & Hi & Hk & HP).
  assert (El : l = [maker c]).
  { destruct l as [|i l]; [exfalso; apply (Hl (maker c)), Hcv; reflexivity|].
    assert (Ei : i = maker c) by (apply Hcv, Hl; left; reflexivity). destruct l as [|i' l]; [rewrite Ei; reflexivity|]. exfalso.
    assert (Ei' : i' = maker c) by (apply Hcv, Hl; right; left; reflexivity).
    inversion Hi as [|? ? _ HF]; subst. inversion HF as [|? ? X _]; subst. lia. }
  rewrite El in Hk. assert (Ek : keys = [pkm]).
  { inversion Hk as [|i l' k ks X Y|i l' ks X Y]; subst; inversion Y; subst; congruence. }
  destruct HP as [_ _ _ _ _ _ (m1 & m1' & P1 & P2 & P3) (m2 & m2' & Q1 & Q2 & Q3)].
  assert (m1 = comms) by congruence. assert (m2 = shares) by congruence. subst m1 m2 keys.
  exists (R2 st'), m1', m2'. split; [exact E|]. cbn [st2]. split; [exact P2|]. split; [exact Q2|].
  split; (eapply without_iff; [|eassumption]); exact Hcv.
Qed.
Print Assumptions C115_altered_complaint_convicts_the_named_receiver.

(** an accepted complaint with neither key zero; every single alteration is rejected *)
Example C115_ex_altered :
  let c := C11_c x01 in let pk := (toy_gen * mk 5)%G in
  complaint_verify c pk = Ok tt /\ Geqb (c_pk c) Gzero = false /\ Geqb (c_shared c) Gzero = false /\
  Feqb (complaint_challenge c pk) F0 = false /\
  map (fun c' => complaint_verify c' pk)
    [with_shared c (c_shared c + c_shared c)%G; with_maker_key c (toy_gen * mk 12)%G; with_share c (c_share (C11_c x03));
     with_proof c (cp_a1 (c_proof c) + toy_gen)%G (cp_a2 (c_proof c)) (cp_z (c_proof c));
     with_proof c (cp_a1 (c_proof c)) (cp_a2 (c_proof c) + toy_gen)%G (cp_z (c_proof c));
     with_proof c (cp_a1 (c_proof c)) (cp_a2 (c_proof c)) (cp_z (c_proof c) + mk 1)%F] =
  repeat (Err ComplaintVerificationError) 6 /\
  complaint_verify c (toy_gen * mk 6)%G = Err ComplaintVerificationError.
Proof. vms. Qed.
(** 3 complains about 2 and somebody doubles the shared key before 1 settles: 3 is removed instead of 2 *)
Definition C115_forged : Complaint := let c := victim_c 2 3 in with_shared c (c_shared c + c_shared c)%G.
Example C115_ex_forged :
  complaint_verify C115_forged (pt_dh_pk (dealer 3 2 2 20)) = Err ComplaintVerificationError /\
  accused C115_forged = u 2 /\ maker C115_forged = u 3 /\
  blamed_view (honest_st 1) [C115_forged] = ([fv (pt_dh_pk (dealer 3 2 3 30))], [u 1; u 2], [u 1; u 2]) /\
  blamed_view (honest_st 1) [victim_c 2 3] = ([fv (pt_dh_pk (dealer 3 2 2 20))], [u 1; u 3], [u 1; u 3]).
Proof. vms. Qed.
