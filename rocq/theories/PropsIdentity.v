(** C96: the identity element is accepted as a key. *)
From Coq Require Import String Strings.Byte Arith NArith ZArith Bool List Permutation Sorted Lia Field.
From Verif Require Import Base Suite Spec SpecDkg SpecSign SpecRobust SpecEnd Types ModelDkg ModelSign Algebra BaseLemmas LemmasShare
  LemmasFinish LemmasSign LemmasAgg Toy Demo DemoDkg DemoSign PropsShare PropsRound1 PropsFinish PropsReshare PropsSign PropsAgg PropsEnd PropsAttack.
Import ListNotations.

(** under the identity as group key, (R, z) is a signature of a message exactly if R is z times the generator: the
    message plays no role, and everybody can make such pairs *)
Theorem C96_identity_key_accepts_every_message :
  forall (S : Suite) (L : SuiteLaws S) (R : G) (z : F) (h : list byte),
    (verify_signature Gzero (MkTSig R z) h = Ok tt <-> R = (gen * z)%G) /\
    verify_signature Gzero (MkTSig (gen * z)%G z) h = Ok tt /\
    sig_verify (MkTSig (gen * z)%G z) Gzero h = Ok tt.
Proof.
  intros S L R z h.
  assert (K : forall R, verify_signature Gzero (MkTSig R z) h = Ok tt <-> R = (gen * z)%G).
  { intros R0. destruct (C36_verification_is_schnorr S L Gzero (MkTSig R0 z) h) as (-> & -> & _).
    unfold schnorr. cbn [ts_R ts_z]. rewrite Gmul_0_l, Gadd_0_r. split; intros H; symmetry; exact H. }
  split; [apply K|]. assert (E : verify_signature Gzero (MkTSig (gen * z)%G z) h = Ok tt) by (apply K; reflexivity).
  split; [exact E|]. rewrite <- (proj1 (C36_verification_is_schnorr S L Gzero (MkTSig (gen * z)%G z) h)). exact E.
Qed.
Print Assumptions C96_identity_key_accepts_every_message.

Section Lem.
  Context {S : Suite} {L : SuiteLaws S}.
  Add Field F_fld : F_field.
  Lemma Gmul_same (P : G) (a b : F) : (P * a = P * b)%G -> P = Gzero \/ a = b.
  Proof.
    intros H. destruct (gen_span P) as [p ->]. rewrite !Gmul_mul in H. apply gen_inj in H.
    assert (X : (p * (a - b))%F = F0) by (replace (p * (a - b))%F with (p * a - p * b)%F by ring; rewrite H; ring).
    destruct (Fmul_eq_0 _ _ X) as [->|Y]; [left; apply Gmul_0_r|right].
    replace a with ((a - b) + b)%F by ring. rewrite Y. ring.
  Qed.
  Lemma committed_zeros k : committed (repeat F0 k) = repeat Gzero k.
  Proof. induction k as [|k IH]; cbn; [reflexivity|]. rewrite Gmul_0_r. f_equal. exact IH. Qed.
  Lemma poly_zeros k (x : F) : poly_value (repeat F0 k) x = F0.
  Proof.
    unfold poly_value. generalize 0%nat. induction k as [|k IH]; intros e; cbn [repeat terms_from]; [reflexivity|]. rewrite IH. ring.
  Qed.
End Lem.

(** no other key has this weakness: a pair accepted for two messages with different challenges tells that the key is
    the identity *)
Theorem C96_only_the_identity_accepts_a_pair_twice :
  forall (S : Suite) (L : SuiteLaws S) (gk : G) (sig : ThresholdSig) (h h' : list byte),
    verify_signature gk sig h = Ok tt -> chal (ts_R sig) gk h <> chal (ts_R sig) gk h' ->
    (verify_signature gk sig h' = Ok tt <-> gk = Gzero).
Proof.
  intros S L gk sig h h' H Hc.
  destruct (C36_verification_is_schnorr S L gk sig h) as (E & K & _). rewrite E in H. apply K in H.
  destruct (C36_verification_is_schnorr S L gk sig h') as (E' & K' & _). rewrite E', K'. clear E E' K K'.
  unfold schnorr in *. rewrite H. split.
  - intros X. apply Gadd_cancel_l, Gmul_same in X. destruct X as [X|X]; [exact X|contradiction].
  - intros ->. rewrite !Gmul_0_l. reflexivity.
Qed.
Print Assumptions C96_only_the_identity_accepts_a_pair_twice.

(** round one accepts a dealer all of whose points are the identity: its Diffie-Hellman key, its public key and its commitments *)
Theorem C96_identity_dealer_passes_round_one :
  forall (S : Suite) (L : SuiteLaws S) (params : Params) (i : u32) (r : Rng),
    (1 <= u32v (p_t params))%N ->
    let proof := fst (nizk_prove i F0 Gzero r) in
    exists d, pt_dh_proof d = proof /\ pt_sk_proof d = Some proof /\ pt_index d = i /\ pt_dh_pk d = Gzero /\ part_public_key d = Some Gzero /\
      pt_comm d = Some (MkVss i (repeat Gzero (N.to_nat (u32v (p_t params))))) /\
      ok_bootstrap (p_t params) d /\ ok_new d /\ ok_reshare d /\
      (* its shares are zero, and verify *)
      forall j c, pt_comm d = Some c -> share_verify (MkShare i j F0) c = Ok tt.
Proof.
  intros S L params i r Ht. cbv zeta.
  assert (HP : nizk_verify (fst (nizk_prove i F0 Gzero r)) i Gzero = Ok tt).
  { pose proof (C08_nizk_complete S L i F0 r) as X. rewrite Gmul_0_r in X. exact X. }
  set (pf := fst (nizk_prove i F0 Gzero r)) in *. set (t := N.to_nat (u32v (p_t params))).
  assert (Et : exists k, t = Datatypes.S k) by (exists (t - 1); unfold t; lia). destruct Et as [k Et].
  exists (MkPart i Gzero (Some (MkVss i (repeat Gzero t))) (Some pf) pf).
  assert (A1 : dh_proof_ok (MkPart i Gzero (Some (MkVss i (repeat Gzero t))) (Some pf) pf)) by apply HP.
  assert (A2 : key_proof_ok (MkPart i Gzero (Some (MkVss i (repeat Gzero t))) (Some pf) pf)).
  { exists (MkVss i (repeat Gzero t)), Gzero, (repeat Gzero k), pf. rewrite Et. repeat split. apply HP. }
  split; [reflexivity|]. split; [reflexivity|]. split; [reflexivity|]. split; [reflexivity|]. split; [unfold part_public_key, vss_public_key; cbn [pt_comm vss_points]; rewrite Et; reflexivity|].
  split; [reflexivity|]. split; [split; [exact A1|split; [exact A2|]]|].
  { exists (MkVss i (repeat Gzero t)). split; [reflexivity|]. cbn [vss_points]. rewrite repeat_length. unfold t. lia. }
  split; [split; assumption|]. split; [exact A1|].
  intros j c [= <-]. rewrite <- (committed_zeros t). apply share_verify_committed. cbn [sh_value sh_receiver].
  symmetry. apply poly_zeros.
Qed.
Print Assumptions C96_identity_dealer_passes_round_one.

(** shares addressed to a participant whose Diffie-Hellman key is the identity can be opened by everybody *)
Theorem C96_shares_for_an_identity_key_are_public :
  forall (S : Suite) (L : SuiteLaws S) (m : build) (params : Params) (x : F) (my : u32) (co : list F)
         (ps : list Participant) (r : Rng) st lists r' (p : Participant),
  bootstrap m params x my co ps r = Ok (st, lists, r') -> NoDup (map pt_index ps) -> In p ps -> pt_dh_pk p = Gzero ->
  exists es e, their_encrypted_secret_shares st = Ok es /\ bget (pt_index p) es = Some e /\
    decrypt_share e (enc_point Gzero) = Ok (MkShare my (pt_index p) (poly_value co (of_u32 (pt_index p)))).
Proof.
  intros S L m params x my co ps r st lists r' p H Hnd Hp HZ.
  destruct (C15_bootstrap_shares S L m params x my co ps r st lists r' H) as (es & E1 & _ & E3).
  destruct (E3 p F0 Hnd Hp) as (e & B1 & _ & _ & B4); [rewrite Gmul_0_r; exact HZ|].
  rewrite Gmul_0_r in B4. exists es, e. auto.
Qed.
Print Assumptions C96_shares_for_an_identity_key_are_public.

(** the new participants of a resharing end with the identity as group key, without any error, if the keys put in
    interpolate to zero, e.g. if all are zero; by C70 one dealer alone can bring this about. Then everybody can sign
    everything. *)
Theorem C96_resharing_may_end_with_the_identity :
  forall (S : Suite) (L : SuiteLaws S) (m : build) (params1 params2 : Params) (hs : list Heir) (ws : list Donor),
  honest_heirs params2 hs -> honest_donors m params2 hs ws ->
  N.of_nat (length ws) = u32v (p_n params1) -> (1 <= u32v (p_t params1) <= u32v (p_n params1))%N ->
  interp0 (key_points (map w_key ws)) = F0 ->
  forall z ps senders es r r2, In z hs -> Permutation ps (map w_d ws) -> Permutation senders ws -> received senders z es ->
    exists s1 r1 s2 r3 gk sk, dkg_new m params1 (z_x z) (z_index z) ps r = Ok (s1, MkPList ps None, r1) /\
      to_round_two m s1 es r2 = Ok (s2, [], r3) /\ finish s2 = Ok (gk, sk) /\ gk = Gzero /\
      forall (v : F) (h : list byte), verify_signature gk (MkTSig (gen * v)%G v) h = Ok tt.
Proof.
  intros S L m params1 params2 hs ws H HD Hn Ht HZ z ps senders es r r2 Hz HPs HPw HR.
  destruct (C70_resharing_accepts_any_keys S L m params1 params2 hs ws H HD Hn Ht) as (key & K & _).
  destruct (K z ps senders es r r2 Hz HPs HPw HR) as (s1 & r1 & s2 & r3 & E1 & E2 & E3).
  eexists s1, r1, s2, r3, _, _. split; [exact E1|]. split; [exact E2|]. split; [exact E3|].
  rewrite HZ, Gmul_0_r. split; [reflexivity|]. intros v h. exact (proj1 (proj2 (C96_identity_key_accepts_every_message S L Gzero v h))).
Qed.
Print Assumptions C96_resharing_may_end_with_the_identity.

(** two dealers reshare the key zero; the run of a new participant ends with the identity, and 5 signs two messages *)
Definition null_donors : list Donor := [re_donor re_params (MkSK (u 3) (mk 0)) 71%N; re_donor re_params (MkSK (u 1) (mk 0)) 72%N].
Example C96_ex_donors : honest_donors Debug re_params re_heirs null_donors.
Proof.
  constructor; [good|].
  assert (K : forall k seed, sk_index k <> u32_zero -> exists ps r lists r', Permutation ps (map z_p re_heirs) /\
    reshare Debug re_params (w_key (re_donor re_params k seed)) ps r =
      Ok (w_d (re_donor re_params k seed), w_es (re_donor re_params k seed), lists, r')).
  { intros k seed Hk.
    destruct (C32_reshare_succeeds Toy ToyLaws Debug re_params re_heirs k (map z_p re_heirs) seed C32_ex_heirs
      (Permutation_refl _) Hk) as (d & es & r' & E & _).
    exists (map z_p re_heirs), seed, (MkPList (map z_p re_heirs) None), r'. split; [apply Permutation_refl|].
    unfold re_donor. rewrite E. exact E. }
  intros w [<-|[<-|[]]]; apply K; apply u32_eqb_neq; vmr.
Qed.
Example C96_ex :
  re_run (MkParams (u 2) (u 2)) null_donors (re_heir 5) =
    Ok (None, 0, mk 0, re_key (MkParams (u 2) (u 2)) null_donors 5) /\
  interp0 (key_points (map w_key null_donors)) = mk 0 /\
  verify_signature (@Gzero Toy) (MkTSig (toy_gen * mk 5)%G (mk 5)) shash = Ok tt /\
  verify_signature (@Gzero Toy) (MkTSig (toy_gen * mk 5)%G (mk 5)) (x00 :: shash) = Ok tt /\
  Feqb (chal (toy_gen * mk 5)%G (@Gzero Toy) shash) (chal (toy_gen * mk 5)%G (@Gzero Toy) (x00 :: shash)) = false.
Proof. vms. Qed.

(** the identity dealer in a key generation with two honest ones: nobody is named, and its Diffie-Hellman key opens its shares *)
Definition null_dealer (i : N) : Participant :=
  let proof := fst (nizk_prove (u i) (mk 0) (@Gzero Toy) 9%N) in
  MkPart (u i) (mk 0) (Some (MkVss (u i) [mk 0; mk 0])) (Some proof) proof.
Definition null_ps : list Participant := [dealer 3 2 1 10; null_dealer 2; dealer 3 2 3 30].
Example C96_ex_round_one :
  (match bootstrap Debug demo_params (dealer_x 3 2 1 10) (u 1) (dealer_co 3 2 1 10) null_ps 5%N with
   | Ok (st, lists, _) =>
       match their_encrypted_secret_shares st with
       | Ok es => match bget (u 2) es with
                  | Some e => match decrypt_share e (enc_point (@Gzero Toy)) with
                              | Ok s => Feqb (sh_value s) (poly_value (dealer_co 3 2 1 10) (mk 2)) | _ => false end
                  | None => false end && Nat.eqb (length (pl_valid lists)) 3
       | _ => false end
   | _ => false end) = true /\
  Feqb (poly_value (dealer_co 3 2 1 10) (mk 2)) (mk 0) = false.
Proof. vms. Qed.
