(** Property C141: when signatures, or the answers of one signer to any number of requests, combine to a signature that was never
    requested. *)
From Coq Require Import String Strings.Byte Arith NArith ZArith Bool List Lia Field.
From Verif Require Import Base Suite Spec SpecDkg SpecSign SpecHist Types ModelDkg ModelSign Algebra BaseLemmas LemmasShare LemmasFinish LemmasSign
  Toy Demo DemoSign PropsSign PropsHist PropsOwn.
Import ListNotations.

Section Combine.
  Context {S : Suite} {L : SuiteLaws S}.
  Add Field F_fld : F_field.

  (** a signature with the hash of its message and the factor given to it in the combination *)
  Record Piece := MkPiece { pc_factor : F; pc_sig : ThresholdSig; pc_hash : list byte }.
  (** the combination of signatures, shifted by a known nonce d *)
  Definition combined (l : list Piece) (d : F) : ThresholdSig :=
    MkTSig (gsum (map (fun p => ts_R (pc_sig p) * pc_factor p) l) + gen * d)%G
           (fsum (map (fun p => ts_z (pc_sig p) * pc_factor p) l) + d)%F.

  (** the public nonce point of an answered request *)
  Definition use_point (x : Use) : G :=
    (fst (published (us_pair x)) + snd (published (us_pair x)) * binding (us_hash x) (us_signers x) (sk_index (us_key x)))%G.
  (** the factor of the signer's key in its answer *)
  Definition use_factor (x : Use) : F :=
    (weight (sk_index (us_key x)) (map sg_index (us_signers x)) * session_chal (us_hash x) (us_gk x) (us_signers x))%F.
  (** a signature for h made of the answers of one signer, each with a factor, the other keys of the set, and a known nonce d; i is the
      index of the signer, [rest] the other members of the set with their keys *)
  Definition patched (gk : G) (h : list byte) (i : u32) (rest : list (u32 * F)) (l : list (F * Use)) (d : F) : ThresholdSig :=
    let R := (gsum (map (fun p => use_point (snd p) * fst p) l) + gen * d)%G in
    MkTSig R (fsum (map (fun p => ps_z (us_sig (snd p)) * fst p) l) + d +
              fsum (map (fun jx => snd jx * weight (fst jx) (i :: map fst rest)) rest) * chal R gk h)%F.

  Lemma pieces_sum gk x l : gk = (gen * x)%G ->
    (forall p, In p l -> verify_signature gk (pc_sig p) (pc_hash p) = Ok tt) ->
    (gen * fsum (map (fun p => ts_z (pc_sig p) * pc_factor p)%F l))%G =
    (gsum (map (fun p => ts_R (pc_sig p) * pc_factor p) l) +
     gk * fsum (map (fun p => chal (ts_R (pc_sig p)) gk (pc_hash p) * pc_factor p)%F l))%G.
  Proof.
    intros Eg. induction l as [|p l IH]; intros H.
    - cbn. rewrite Eg, Gmul_mul. rewrite Gadd_0_l. f_equal. ring.
    - cbn [map]. rewrite !fsum_cons. cbn [gsum fold_right]. 
      pose proof (H p (or_introl eq_refl)) as Hp. apply own_eq in Hp.
      specialize (IH (fun q Hq => H q (or_intror Hq))).
      rewrite <- gen_mul_add, IH, <- (Gmul_mul gen (ts_z (pc_sig p))), Hp.
      destruct (gen_span (ts_R (pc_sig p))) as [r Er]. rewrite Eg, Er.
      destruct (gen_span (gsum (map (fun p => ts_R (pc_sig p) * pc_factor p)%G l))) as [q Eq].
      unfold gsum in *. rewrite Eq. rewrite ?Gmul_mul, ?gen_mul_add, ?Gmul_mul, ?gen_mul_add. f_equal. ring.
  Qed.

  Lemma combine_iff gk P Q z d h : (gen * z)%G = (P + gk * Q)%G ->
    (verify_signature gk (MkTSig (P + gen * d)%G (z + d)%F) h = Ok tt <-> gk = Gzero \/ chal (P + gen * d)%G gk h = Q).
  Proof.
    intros H. rewrite own_eq. cbn [ts_R ts_z]. set (c := chal _ _ _). clearbody c.
    rewrite <- gen_mul_add, H, <- Gmul_eq_cases.
    rewrite <- (Gadd_assoc P (gk * Q)%G), (Gadd_comm (gk * Q)%G), Gadd_assoc. split.
    - intros E. symmetry. exact (Gadd_cancel_l _ _ _ E).
    - intros ->. reflexivity.
  Qed.

  Lemma signings_use m l us l' : signings m l us l' -> forall x, In x us ->
    ps_z (us_sig x) = partial_value (us_hash x) (us_gk x) (us_signers x) (sk_index (us_key x))
      (co_secret (cs_hiding (us_pair x))) (co_secret (cs_binding (us_pair x))) (sk_key (us_key x)).
  Proof.
    induction 1 as [|l k h gk idx ss p l1 cs us l2 H Hn _ IH|l k h gk idx ss o l1 us l2 H Hf _ IH]; intros x Hx.
    - destruct Hx.
    - destruct Hx as [<-|Hx]; [|exact (IH x Hx)]. cbn.
      apply sign_ok_inv in H. destruct H as (cs' & Hn' & _ & _ & Ep & _). cbn [sl_commitments] in Hn'.
      rewrite Hn in Hn'. injection Hn' as <-. rewrite Ep. reflexivity.
    - exact (IH x Hx).
  Qed.

  Lemma answers_sum k (l : list (F * Use)) :
    (forall p, In p l -> us_key (snd p) = k /\ ps_z (us_sig (snd p)) =
       partial_value (us_hash (snd p)) (us_gk (snd p)) (us_signers (snd p)) (sk_index (us_key (snd p)))
      (co_secret (cs_hiding (us_pair (snd p)))) (co_secret (cs_binding (us_pair (snd p)))) (sk_key (us_key (snd p)))) ->
    (gen * fsum (map (fun p => ps_z (us_sig (snd p)) * fst p)%F l))%G =
    (gsum (map (fun p => use_point (snd p) * fst p) l) +
     gen * (sk_key k * fsum (map (fun p => use_factor (snd p) * fst p) l))%F)%G.
  Proof.
    induction l as [|p l IH]; intros H.
    - cbn. rewrite Gadd_0_l. f_equal. ring.
    - cbn [map]. rewrite !fsum_cons. cbn [gsum fold_right].
      destruct (H p (or_introl eq_refl)) as [Hk Hz].
      specialize (IH (fun q Hq => H q (or_intror Hq))).
      rewrite <- gen_mul_add, IH, Hz.
      destruct (gen_span (gsum (map (fun p => use_point (snd p) * fst p)%G l))) as [q Eq].
      unfold gsum in *. rewrite Eq. unfold use_point, published, use_factor, partial_value. rewrite Hk. cbn [fst snd]. rewrite ?Gmul_mul, ?gen_mul_add, ?Gmul_mul, ?gen_mul_add. f_equal. ring.
  Qed.

  Lemma patch_iff x i rest P Q z d (c : F) : (gen * z)%G = (P + gen * (x * Q)%F)%G ->
    ((gen * (z + d + fsum (map (fun jx => snd jx * weight (fst jx) (i :: map fst rest)) rest) * c)%F)%G =
     (P + gen * d + (gen * interp0 ((i, x) :: rest)) * c)%G <->
     x = F0 \/ (weight i (i :: map fst rest) * c)%F = Q).
  Proof.
    intros H. unfold interp0. cbn [map fst snd]. rewrite fsum_cons. set (o := fsum _). set (w := weight _ _). clearbody o w.
    destruct (gen_span P) as [p Ep]. rewrite Ep in *. rewrite gen_mul_add in H. apply gen_inj in H. subst z.
    rewrite !Gmul_mul, !gen_mul_add. rewrite gen_mul_iff. split.
    - intros E. destruct (F_dec x F0) as [Hx|Hx]; [left; exact Hx|right]. apply (Fmul_cancel_l x _ _ Hx).
      symmetry. replace (x * Q)%F with ((p + x * Q + d + o * c) - (p + d + o * c))%F by ring. rewrite E. ring.
    - intros [->|<-]; ring.
  Qed.
End Combine.

(** Accepted signatures under one key, each multiplied by a factor, add up to an accepted signature for another message exactly when
    the challenge of the sum is the sum of the challenges with these factors (or the key is the identity). *)
Theorem C141_signatures_combine_iff_challenges_do :
  forall (S : Suite) (L : SuiteLaws S) (gk : G) (l : list Piece) (d : F) (h : list byte),
    (forall p, In p l -> verify_signature gk (pc_sig p) (pc_hash p) = Ok tt) ->
    (verify_signature gk (combined l d) h = Ok tt <->
       gk = Gzero \/ chal (ts_R (combined l d)) gk h = fsum (map (fun p => chal (ts_R (pc_sig p)) gk (pc_hash p) * pc_factor p)%F l)).
Proof.
  intros S L gk l d h H. destruct (gen_span gk) as [x Ex]. unfold combined. cbn [ts_R].
  apply combine_iff. exact (pieces_sum gk x l Ex H).
Qed.
Print Assumptions C141_signatures_combine_iff_challenges_do.

(** One signer answers any requests (any messages, any lists of signers, any group keys) on its list of nonce pairs. Whoever knows the
    other keys of a set containing the signer can add up the answers with any factors: the result is a signature for [h] under the key
    of the set exactly when weight times challenge of the new signature equals the sum of weights times challenges of the answered
    requests with these factors (or the key of the signer is zero). *)
Theorem C141_answers_combine_iff_challenges_do :
  forall (S : Suite) (L : SuiteLaws S) (m : build) (nonces nonces' : list CommitmentShare) (l : list (F * Use)) (k : SigningKey)
    (rest : list (u32 * F)) (d : F) (h : list byte),
    signings m nonces (map snd l) nonces' -> (forall p, In p l -> us_key (snd p) = k) ->
    let i := sk_index k in
    let gk := (gen * interp0 ((i, sk_key k) :: rest))%G in
    let sig := patched gk h i rest l d in
    verify_signature gk sig h = Ok tt <->
      sk_key k = F0 \/
      (weight i (i :: map fst rest) * chal (ts_R sig) gk h)%F =
      fsum (map (fun p => weight i (map sg_index (us_signers (snd p))) *
                          session_chal (us_hash (snd p)) (us_gk (snd p)) (us_signers (snd p)) * fst p)%F l).
Proof.
  intros S L m nonces nonces' l k rest d h H Hk i gk sig.
  assert (E : fsum (map (fun p => weight i (map sg_index (us_signers (snd p))) *
                          session_chal (us_hash (snd p)) (us_gk (snd p)) (us_signers (snd p)) * fst p)%F l) =
              fsum (map (fun p => use_factor (snd p) * fst p)%F l)).
  { f_equal. apply map_ext_in. intros p Hp. unfold use_factor. rewrite (Hk p Hp). reflexivity. }
  rewrite E. rewrite own_eq. unfold sig, patched. cbn [ts_R ts_z]. unfold gk. apply patch_iff.
  apply answers_sum. intros p Hp. split; [exact (Hk p Hp)|]. apply (signings_use _ _ _ _ H). apply in_map. exact Hp.
Qed.
Print Assumptions C141_answers_combine_iff_challenges_do.

(** * Examples *)

(** two signatures under one key combined to one for a third message, and not for a fourth one *)
Definition C141_sig (r : Z) (h : list byte) : ThresholdSig :=
  let R := (toy_gen * mk r)%G in @MkTSig Toy R (mk r + mk 1000 * chal R sgroup h)%F.
Definition C141_pieces : list Piece := [@MkPiece Toy (mk 2) (C141_sig 5 shash) shash; @MkPiece Toy (mk 3) (C141_sig 6 []) []].
Example C141_ex_signatures :
  verify_signature sgroup (C141_sig 5 shash) shash = Ok tt /\ verify_signature sgroup (C141_sig 6 []) [] = Ok tt /\
  verify_signature sgroup (combined C141_pieces (mk 1)) [x00; x12; xf8; xad; xee] = Ok tt /\
  verify_signature sgroup (combined C141_pieces (mk 1)) shash = Err InvalidSignature.
Proof. vms. Qed.

(** participant 1 answers two requests (the history of C77_ex); who knows the key of participant 2 combines the answers to a signature
    of the group for a third message: the toy hash makes the equation easy to solve *)
Definition C141_answers : list (F * Use) := combine [mk 3; mk 5] C77_uses.
Definition C141_rest : list (u32 * F) := [(u 2, mk 1154)].
Example C141_ex_answers :
  (gen * interp0 ((u 1, mk 1077) :: C141_rest))%G = sgroup /\
  verify_signature sgroup (patched sgroup [x00; xa7; x75; xfd; x53] (u 1) C141_rest C141_answers (mk 0)) [x00; xa7; x75; xfd; x53] = Ok tt /\
  verify_signature sgroup (patched sgroup shash (u 1) C141_rest C141_answers (mk 0)) shash = Err InvalidSignature.
Proof. vms. Qed.
Lemma C141_answers_history : signings Release C77_list (map snd C141_answers) [].
Proof. exact C78_history. Qed.
Example C141_ex_answers_meet_the_hypotheses :
  signings Release C77_list (map snd C141_answers) [] /\ forall p, In p C141_answers -> us_key (snd p) = skey 1.
Proof. split; [exact C141_answers_history|]. intros p [<-|[<-|[]]]; vmr. Qed.
