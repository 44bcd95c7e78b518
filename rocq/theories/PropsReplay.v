(** C81, C82: proofs of knowledge carry no context. *)
From Coq Require Import String Strings.Byte Arith NArith ZArith Bool List Lia Permutation Field.
From Verif Require Import Base Suite Spec SpecDkg Types Algebra BaseLemmas ModelDkg LemmasShare LemmasRound1 LemmasRound2
  LemmasFinish Toy Demo DemoDkg PropsShare PropsRound1 PropsRound2 PropsLeak.
Import ListNotations.

Section Replay.
  Context {S : Suite} {L : SuiteLaws S}.
  Add Field F_fld : F_field.

  Lemma splits_keeps ok ps v mis : splits ok ps v mis -> forall d, In d v <-> In d ps /\ ok d.
  Proof.
    induction 1 as [|p ps v m O H IH|p ps v m O H IH]; intros d; cbn [In].
    - tauto.
    - rewrite IH. split; [|tauto]. intros [->|[A B]]; auto.
    - rewrite IH. split; [tauto|]. intros [[->|A] B]; [contradiction|auto].
  Qed.
  Lemma new_dealer_fresh p i r d co x r' : new_dealer p i r = Ok (d, co, x, r') -> (1 <= u32v (p_t p))%N -> fresh_dealer p i d co x.
  Proof.
    intros E Ht. assert (Hi : i <> u32_zero) by (intros ->; discriminate E).
    destruct (C12_new_dealer_well_formed S L p i r Hi Ht) as (d' & co' & x' & q & E' & A & B & C & D & F & G).
    rewrite E in E'. injection E' as <- <- <- <-. split; auto.
  Qed.
  (** what the three entry points keep *)
  Lemma bootstrap_valid m params x my co ps r st pl q : (1 <= u32v (p_t params))%N ->
    bootstrap m params x my co ps r = Ok (st, pl, q) -> forall d, In d (pl_valid pl) <-> In d ps /\ ok_bootstrap (p_t params) d.
  Proof.
    intros Ht E. destruct (N.eq_dec (N.of_nat (length ps)) (u32v (p_n params))) as [Hn|Hn].
    2:{ destruct (C13_count_mismatch S m params x my co ps r Hn) as [A _]. congruence. }
    destruct (C13_bootstrap_outcome S L m params x my co ps r Hn Ht) as (v & mis & HS & H1 & H2).
    { intros p Hp Hc. destruct (C14_round_one_panics_exactly S L m params x my co ps r Ht) as [[_ A] _]. rewrite A in E; [discriminate|eauto]. }
    destruct (N.lt_ge_cases (N.of_nat (length v)) (u32v (p_t params))) as [Hl|Hl].
    - rewrite (H1 Hl) in E. discriminate.
    - destruct (H2 Hl) as (st0 & q0 & E0 & _). rewrite E0 in E. injection E as <- <- <-. exact (splits_keeps _ _ _ _ HS).
  Qed.
  Lemma dkg_new_valid m params x my ps r st pl q : (1 <= u32v (p_t params))%N ->
    dkg_new m params x my ps r = Ok (st, pl, q) -> forall d, In d (pl_valid pl) <-> In d ps /\ ok_new d.
  Proof.
    intros Ht E. destruct (N.eq_dec (N.of_nat (length ps)) (u32v (p_n params))) as [Hn|Hn].
    2:{ destruct (C13_count_mismatch S m params x my [] ps r Hn) as [_ A]. congruence. }
    destruct (C13_new_outcome S L m params x my ps r Hn Ht) as (v & mis & HS & H1 & H2).
    { intros p Hp Hc. destruct (C14_round_one_panics_exactly S L m params x my [] ps r Ht) as [_ [_ A]]. rewrite A in E; [discriminate|eauto]. }
    destruct (N.lt_ge_cases (N.of_nat (length v)) (u32v (p_t params))) as [Hl|Hl].
    - rewrite (H1 Hl) in E. discriminate.
    - destruct (H2 Hl) as (st0 & q0 & E0 & _). rewrite E0 in E. injection E as <- <- <-. exact (splits_keeps _ _ _ _ HS).
  Qed.
  Lemma reshare_valid m params sk ps r d0 es pl q : (1 <= u32v (p_t params))%N ->
    reshare m params sk ps r = Ok (d0, es, pl, q) -> forall d, In d (pl_valid pl) <-> In d ps /\ ok_reshare d.
  Proof.
    intros Ht E. assert (Hi : sk_index sk <> u32_zero).
    { intros Hi. unfold reshare, new_internal in E. rewrite Hi in E. discriminate E. }
    destruct (C13_reshare_outcome S L m params sk ps r Hi Ht) as [H1 H2].
    destruct (N.eq_dec (N.of_nat (length ps)) (u32v (p_n params))) as [Hn|Hn]; [|rewrite (H1 Hn) in E; discriminate].
    destruct (H2 Hn) as (v & mis & HS & H3 & H4).
    destruct (N.lt_ge_cases (N.of_nat (length v)) (u32v (p_t params))) as [Hl|Hl].
    - rewrite (H3 Hl) in E. discriminate.
    - destruct (H4 Hl) as (d1 & es1 & q1 & E1 & _). rewrite E1 in E. injection E as <- <- <- <-. exact (splits_keeps _ _ _ _ HS).
  Qed.

  (** points A*w_k + gen*g_k *)
  Lemma blind_value (A : G) ws : forall g x, length g = length ws ->
    gpoly_value (map (fun wg => (A * fst wg + gen * snd wg)%G) (combine ws g)) x = (A * poly_value ws x + gen * poly_value g x)%G.
  Proof.
    intros g x Hl. destruct (gen_span A) as [a ->].
    assert (E : map (fun wg => (gen * a * fst wg + gen * snd wg)%G) (combine ws g) = committed (map (fun wg => a * fst wg + snd wg)%F (combine ws g))).
    { unfold committed. rewrite map_map. apply map_ext. intros [w y]. cbn [fst snd]. rewrite Gmul_mul, gen_mul_add. reflexivity. }
    rewrite E, gpoly_committed, Gmul_mul, gen_mul_add. f_equal. clear E. unfold poly_value. generalize 0.
    revert g Hl. induction ws as [|w ws IH]; intros [|y g] Hl k; try discriminate Hl; cbn [combine map terms_from fst snd].
    - ring.
    - rewrite IH by (cbn in Hl; lia). ring.
  Qed.
End Replay.

(** C81: round one messages of one run are accepted in every other run; only the threshold has to be the same *)
Theorem C81_round_one_messages_fit_every_session :
  forall (S : Suite) (L : SuiteLaws S) (params0 : Params) (i : u32) (r0 : Rng) d co0 x0 r0',
  (1 <= u32v (p_t params0))%N -> new_dealer params0 i r0 = Ok (d, co0, x0, r0') ->
  (forall m params x my co ps r st pl q, (1 <= u32v (p_t params))%N -> In d ps ->
     bootstrap m params x my co ps r = Ok (st, pl, q) -> (In d (pl_valid pl) <-> p_t params = p_t params0)) /\
  (forall m params x my ps r st pl q, (1 <= u32v (p_t params))%N -> In d ps ->
     dkg_new m params x my ps r = Ok (st, pl, q) -> In d (pl_valid pl)) /\
  (forall m params sk ps r d' es pl q, (1 <= u32v (p_t params))%N -> In d ps ->
     reshare m params sk ps r = Ok (d', es, pl, q) -> In d (pl_valid pl)).
Proof.
  intros S L params0 i r0 d co0 x0 r0' Ht0 E0. pose proof (new_dealer_fresh _ _ _ _ _ _ _ E0 Ht0) as HF.
  pose proof (fresh_ok params0 i d co0 x0 Ht0 HF) as HO. split; [|split].
  - intros m params x my co ps r st pl q Ht Hd E. rewrite (bootstrap_valid _ _ _ _ _ _ _ _ _ _ Ht E). split.
    + intros [_ (_ & _ & c & C1 & C2)]. destruct HO as (_ & _ & c' & C3 & C4). rewrite C1 in C3. injection C3 as <-.
      apply u32_ext. congruence.
    + intros Et. split; [exact Hd|]. rewrite Et. exact HO.
  - intros m params x my ps r st pl q Ht Hd E. apply (dkg_new_valid _ _ _ _ _ _ _ _ _ Ht E). split; [exact Hd|]. split; apply HO.
  - intros m params sk ps r d' es pl q Ht Hd E. apply (reshare_valid _ _ _ _ _ _ _ _ _ Ht E). split; [exact Hd|]. apply HO.
Qed.
Print Assumptions C81_round_one_messages_fit_every_session.

(** the proof of the Diffie-Hellman key also serves as proof of the dealt secret: from the message of a signer, whose
    role is to deal nothing, a dealer message for the same index is made without any secret *)
Theorem C81_key_proofs_change_roles :
  forall (S : Suite) (L : SuiteLaws S) (params0 : Params) (i : u32) (r0 : Rng) d x0 r0' (rest : list G),
  new_signer params0 i r0 = Ok (d, x0, r0') ->
  let d' := MkPart i (pt_dh_pk d) (Some (MkVss i (pt_dh_pk d :: rest))) (Some (pt_dh_proof d)) (pt_dh_proof d) in
  (forall m params x my co ps r st pl q, (1 <= u32v (p_t params))%N -> In d' ps ->
     bootstrap m params x my co ps r = Ok (st, pl, q) ->
     (In d' (pl_valid pl) <-> N.of_nat (Datatypes.S (length rest)) = u32v (p_t params))) /\
  (forall m params x my ps r st pl q, (1 <= u32v (p_t params))%N -> In d' ps ->
     dkg_new m params x my ps r = Ok (st, pl, q) -> In d' (pl_valid pl)).
Proof.
  intros S L params0 i r0 d x0 r0' rest E0 d'.
  assert (Hi : i <> u32_zero) by (intros ->; discriminate E0).
  destruct (C12_new_signer_well_formed S L params0 i r0 Hi) as (d1 & x1 & q1 & E1 & A & _ & _ & _ & B).
  rewrite E0 in E1. injection E1 as <- <- <-.
  assert (K1 : dh_proof_ok d') by exact B.
  assert (K2 : key_proof_ok d') by (exists (MkVss i (pt_dh_pk d :: rest)), (pt_dh_pk d), rest, (pt_dh_proof d); auto).
  split.
  - intros m params x my co ps r st pl q Ht Hd E. rewrite (bootstrap_valid _ _ _ _ _ _ _ _ _ _ Ht E). split.
    + intros [_ (_ & _ & c & C1 & C2)]. injection C1 as <-. exact C2.
    + intros Et. split; [exact Hd|]. split; [exact K1|]. split; [exact K2|]. eexists. split; [reflexivity|]. exact Et.
  - intros m params x my ps r st pl q Ht Hd E. apply (dkg_new_valid _ _ _ _ _ _ _ _ _ Ht E). split; [exact Hd|]. split; assumption.
Qed.
Print Assumptions C81_key_proofs_change_roles.

(** and the proof of the dealt secret serves as proof of the Diffie-Hellman key *)
Theorem C81_secret_proofs_change_roles :
  forall (S : Suite) (L : SuiteLaws S) (params0 : Params) (i : u32) (r0 : Rng) d co0 x0 r0' P pr,
  (1 <= u32v (p_t params0))%N -> new_dealer params0 i r0 = Ok (d, co0, x0, r0') ->
  part_public_key d = Some P -> pt_sk_proof d = Some pr ->
  let d' := MkPart i P (pt_comm d) (Some pr) pr in
  forall m params x my co ps r st pl q, (1 <= u32v (p_t params))%N -> In d' ps ->
     bootstrap m params x my co ps r = Ok (st, pl, q) -> (In d' (pl_valid pl) <-> p_t params = p_t params0).
Proof.
  intros S L params0 i r0 d co0 x0 r0' P pr Ht0 E0 EP Epr d' m params x my co ps r st pl q Ht Hd E.
  destruct (new_dealer_fresh _ _ _ _ _ _ _ E0 Ht0) as [F1 F2 F3 F4 F5 (pr' & a0 & F6 & F7 & F8)].
  assert (pr' = pr) by congruence. subst pr'.
  unfold part_public_key in EP. rewrite F4 in EP. destruct co0 as [|a co0]; [discriminate F7|]. cbn in F7, EP. injection F7 as ->. injection EP as <-.
  rewrite (bootstrap_valid _ _ _ _ _ _ _ _ _ _ Ht E).
  assert (K1 : dh_proof_ok d') by exact F8.
  assert (K2 : key_proof_ok d') by (exists (MkVss i (committed (a0 :: co0))), (gen * a0)%G, (committed co0), pr; auto).
  assert (Hl : N.of_nat (length (committed (a0 :: co0))) = u32v (p_t params0)) by (rewrite committed_length, F3; lia).
  split.
  - intros [_ (_ & _ & c & C1 & C2)]. cbn [d' pt_comm] in C1. rewrite F4 in C1. injection C1 as <-. apply u32_ext. rewrite <- C2. exact Hl.
  - intros Et. split; [exact Hd|]. split; [exact K1|]. split; [exact K2|]. eexists. split; [exact F4|]. rewrite Et. exact Hl.
Qed.
Print Assumptions C81_secret_proofs_change_roles.

(** C82: in front of fewer than t receivers a dealer need not know the secret it committed to. The scalars ws depend on
    the receivers only; the commitment is made of A and known multiples of the generator, the shares of known values *)
Theorem C82_blind_dealer_passes :
  forall (S : Suite) (L : SuiteLaws S) (t : u32) (js : list u32),
  good_indices js -> (N.of_nat (length js) < u32v t)%N ->
  exists ws : list F, length ws = N.to_nat (u32v t) /\ hd_error ws = Some F1 /\
  forall (A : G) (i : u32) (pr prx : Nizk) (x : F) (g : list F),
    nizk_verify pr i A = Ok tt -> nizk_verify prx i (gen * x)%G = Ok tt ->
    length g = N.to_nat (u32v t) -> hd_error g = Some F0 ->
    let com := MkVss i (map (fun wg => (A * fst wg + gen * snd wg)%G) (combine ws g)) in
    let d := MkPart i (gen * x)%G (Some com) (Some pr) prx in
    vss_public_key com = Some A /\ ok_bootstrap t d /\
    forall (m : build) (st : DkgState) (comms : bmap Vss) (es : list EncShare) (r r1 r2 : Rng) e cs,
      In (ds_index st) js ->
      ds_comms st = Some comms -> NoDup (bkeys comms) -> bget i comms = Some com -> bget i (ds_dhs st) = Some (gen * x)%G ->
      encrypt_share (MkShare i (ds_index st) (poly_value g (of_u32 (ds_index st)))) (enc_point ((gen * ds_dh_sk st) * x)%G) r1 = Ok (e, r2) ->
      (forall e', In e' es -> es_sender e' = i -> e' = e) ->
      (to_round_two m (R1 st) es r = Err (ComplaintErr cs) \/ exists s2 r', to_round_two m (R1 st) es r = Ok (s2, cs, r')) ->
      ~ In i (map accused cs).
Proof.
  intros S L t js Hg Hl.
  destruct (C05_few_shares_hide_secret S L u32_zero (repeat F0 (N.to_nat (u32v t))) js F1 Hg) as (ws & W1 & W2 & W3).
  { rewrite repeat_length. lia. }
  rewrite repeat_length in W1. exists ws. split; [exact W1|]. split; [exact W2|].
  assert (W : forall j, In j js -> poly_value ws (of_u32 j) = F0).
  { intros j Hj. specialize (W3 j Hj). apply (f_equal sh_value) in W3. rewrite !(C04_share_is_polynomial_value S L) in W3. cbn [sh_value] in W3.
    rewrite W3, poly_value_pv. rewrite <- (app_nil_l (repeat F0 _)), pv_app_zeros. reflexivity. }
  intros A i pr prx x g V1 V2 Hlg Hg0 com d.
  assert (EA : vss_points com = A :: tl (vss_points com)).
  { unfold com. destruct ws as [|w ws]; [discriminate W2|]. destruct g as [|y g]; [discriminate Hg0|]. cbn in W2, Hg0 |- *.
    injection W2 as ->. injection Hg0 as ->. f_equal. rewrite Gmul_1, gen_mul_0, Gadd_0_r. reflexivity. }
  split; [|split].
  - unfold vss_public_key. rewrite EA. reflexivity.
  - split; [exact V2|]. split.
    + exists com, A, (tl (vss_points com)), pr. auto.
    + exists com. split; [reflexivity|]. unfold com. cbn [vss_points]. rewrite map_length, combine_length, W1, Hlg. lia.
  - intros m st comms es r r1 r2 e cs Hj Hc Hnd Hcom Hdh He Hes Hrun Hin.
    pose proof (round_two_complaints m st comms es r cs Hc Hnd Hrun) as HL.
    apply in_map_iff in Hin. destruct Hin as (c & Hac & Hin). destruct (complaint_list_in st es cs HL c Hin) as (e' & I1 & (c0 & com' & B1 & B2 & B3) & C1 & _).
    assert (Es : es_sender e' = i) by (unfold accused in Hac; congruence).
    assert (Ee : e' = e) by auto. rewrite Ee in *. clear Ee.
    destruct (C07_encrypt_decrypt S L (MkShare i (ds_index st) (poly_value g (of_u32 (ds_index st)))) x (ds_dh_sk st) r1) as (e1 & q1 & E1 & S1 & S2 & D1).
    rewrite He in E1. injection E1 as <- <-. cbn [sh_sender sh_receiver] in S1, S2.
    apply B3. exists (poly_value g (of_u32 (ds_index st))). split.
    + exists (gen * x)%G. rewrite S1, S2. split; [exact Hdh|exact D1].
    + assert (c0 = comms) by congruence. subst c0. rewrite S1, Hcom in B2. injection B2 as <-. unfold on_commitment. unfold com. cbn [vss_points].
      rewrite blind_value by lia. rewrite S2, W by exact Hj. rewrite Gmul_0_r, Gadd_0_l. reflexivity.
Qed.
Print Assumptions C82_blind_dealer_passes.

(** a dealer of a run with threshold two is accepted in another run with threshold two and three participants, not
    with threshold three; a signer's message becomes a dealer's *)
Definition C81_signer := signer 5 3 3 77.
Definition C81_forged := MkPart (u 3) (pt_dh_pk C81_signer) (Some (MkVss (u 3) [pt_dh_pk C81_signer; toy_gen]))
  (Some (pt_dh_proof C81_signer)) (pt_dh_proof C81_signer).
Example C81_ex :
  (let* (_, l, _) := bootstrap Debug (MkParams (u 3) (u 2)) (dealer_x 3 2 1 10) (u 1) (dealer_co 3 2 1 10)
     [dealer 3 2 1 10; dealer 7 2 2 99; C81_forged] 5%N in Ok (map pt_index (pl_valid l), pl_mis l)) = Ok ([u 1; u 2; u 3], None) /\
  (let* (_, l, _) := bootstrap Debug (MkParams (u 3) (u 1)) (dealer_x 3 1 1 10) (u 1) (dealer_co 3 1 1 10)
     [dealer 3 1 1 10; dealer 7 2 2 99; C81_forged] 5%N in Ok (map pt_index (pl_valid l), pl_mis l)) = Ok ([u 1], Some [u 2; u 3]).
Proof. vms. Qed.

(** two of two: participant 2 commits to the key in the signer message of an earlier session, whose secret it does not
    use; participant 1 has no complaint and finishes with a group key that contains it *)
Definition C82_old := signer 9 4 2 55.
Definition C82_x : F := mk 1234.
Definition C82_prx : Nizk := fst (nizk_prove (u 2) C82_x (toy_gen * C82_x)%G 66%N).
(** 1 - z/1 vanishes at 1 *)
Definition C82_ws : list F := [mk 1; (mk 0 - mk 1)%F].
Definition C82_g : list F := [mk 0; mk 77].
Definition C82_com : Vss := MkVss (u 2) (map (fun wg => (pt_dh_pk C82_old * fst wg + toy_gen * snd wg)%G) (combine C82_ws C82_g)).
Definition C82_d : Participant := MkPart (u 2) (toy_gen * C82_x)%G (Some C82_com) (Some (pt_dh_proof C82_old)) C82_prx.
Definition C82_share : result (EncShare * Rng) :=
  encrypt_share (MkShare (u 2) (u 1) (mk 77)) (enc_point (pt_dh_pk (dealer 2 2 1 10) * C82_x)%G) 3%N.
Definition C82_run : result (list u32 * option (list u32) * list u32 * G * SigningKey) :=
  let* (s1, l, r) := bootstrap Debug (MkParams (u 2) (u 2)) (dealer_x 2 2 1 10) (u 1) (dealer_co 2 2 1 10) [dealer 2 2 1 10; C82_d] 5%N in
  let* es := their_encrypted_secret_shares s1 in
  let* (e, _) := C82_share in
  match bget (u 1) es with
  | Some own =>
      let* (s2, cs, _) := to_round_two Debug s1 [own; e] r in
      let* (gk, sk) := finish s2 in
      Ok (map pt_index (pl_valid l), pl_mis l, map accused cs, gk, sk)
  | None => Panic
  end.
Definition C82_pk1 : G := (toy_gen * hd (mk 0) (dealer_co 2 2 1 10))%G.
Example C82_ex :
  (let* (v, mis, cs, gk, sk) := C82_run in
   Ok (v, mis, cs, Geqb gk (ginterp0 [(u 1, C82_pk1); (u 2, pt_dh_pk C82_old)]))) = Ok ([u 1; u 2], None, [], true).
Proof. vms. Qed.
