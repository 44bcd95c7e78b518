(** C102: a key generation that ends with a prescribed group key and any number of signing sessions under it, all made
    without a secret for that key. *)
From Coq Require Import String Strings.Byte Arith NArith ZArith Bool List Permutation Sorted Lia Field.
From Verif Require Import Base Suite Spec SpecDkg SpecSign SpecRobust SpecEnd SpecSim SpecLife Types ModelDkg ModelSign Algebra BaseLemmas
  LemmasShare LemmasRound1 LemmasRound2 LemmasFinish LemmasSign LemmasAgg Toy Demo DemoDkg DemoSign PropsShare PropsRound1 PropsReplay
  PropsSign PropsAgg PropsHash PropsEnd PropsSim PropsSimSession PropsAttack PropsSimDealer PropsSpread.
Import ListNotations.

(** what is chosen freely for one session: signers, message, public keys of the signers, second nonce points, responses,
    binding factors and challenge *)
Record Sess {S : Suite} := MkSess { ss_ids : list u32; ss_msg : list byte; ss_pk : u32 -> G; ss_E : u32 -> G; ss_z : u32 -> F; ss_r : u32 -> F; ss_c : F }.

Section SimLife.
  Context {S : Suite} {L : SuiteLaws S}.
  Add Field F_fld : F_field.

  Definition sess_hash (Y : G) (q : Sess) : list ((list byte * list byte) * F) :=
    fake_hash (ss_ids q) Y (h4 (ss_msg q)) (ss_pk q) (ss_E q) (ss_z q) (ss_r q) (ss_c q).
  Definition sess_com (q : Sess) : u32 -> G * G := fake_com (ss_ids q) (ss_pk q) (ss_E q) (ss_z q) (ss_r q) (ss_c q).
  Definition sess_sig (q : Sess) : G * F := (fake_R (ss_ids q) (ss_pk q) (ss_z q) (ss_c q), fsum (map (ss_z q) (ss_ids q))).
  Definition proof_input (i : u32) (A : G) (s r : F) : list byte * list byte := (tag "nizkpok", nizk_message i A (gen * r + - (A * s))%G).

  Lemma steer (i : u32) (others : list (u32 * G)) (Y : G) : NoDup (i :: map fst others) -> ~ In u32_zero (i :: map fst others) ->
    exists A, ginterp0 ((i, A) :: others) = Y.
  Proof.
    intros Hn H0. set (w := weight i (i :: map fst others)). set (B := gsum (map (fun x => snd x * weight (fst x) (i :: map fst others))%G others)).
    assert (Hw : w <> F0) by (apply weight_neq_0; assumption).
    destruct (gen_span Y) as [y Ey]. destruct (gen_span B) as [b Eb]. exists (gen * ((y - b) * Finv w)%F)%G.
    rewrite ginterp0_cons. fold w B. rewrite Eb, Ey, Gmul_mul, gen_mul_add. f_equal. field. exact Hw.
  Qed.
  (** the group key of a completed key generation with these first points *)
  Lemma steered st comms gk sk i A others : finish (R2 st) = Ok (gk, sk) -> ds_comms st = Some comms ->
    Permutation (map (fun jc => (fst jc, hd_error (vss_points (snd jc)))) comms) (map (fun x => (fst x, Some (snd x))) ((i, A) :: others)) ->
    gk = ginterp0 ((i, A) :: others).
  Proof.
    intros E Hc HP. assert (Hne : comms <> []).
    { intros ->. cbn in HP. apply Permutation_nil in HP. discriminate. }
    destruct (finish_key st comms gk sk Hc E Hne) as (_ & _ & ->). rewrite dealt_firsts. unfold firsts.
    rewrite (ginterp0_perm _ _ (Permutation_map some_or HP)). rewrite map_map. f_equal. rewrite <- map_id. apply map_ext. intros [j P]. reflexivity.
  Qed.
  (** the public keys of t or more members interpolate to it *)
  Lemma book_key comms t ids : (forall j c, In (j, c) comms -> length (vss_points c) <= t) -> NoDup ids -> t <= length ids ->
    ginterp0 (map (fun i => (i, book_of comms i)) ids) = dealt_point comms F0.
  Proof.
    intros Ht Hn Hl. destruct (dealt_polyfun comms t Ht) as (f & Hf & Ef). rewrite Ef.
    assert (Hf' : polyfun (length ids) f) by (apply (polyfun_mono t); assumption).
    rewrite (lagrange_zero ids f Hn Hf').
    transitivity (ginterp0 (map (fun iv => (fst iv, (gen * snd iv)%G)) (map (fun i => (i, f (of_u32 i))) ids))).
    - rewrite map_map. f_equal. apply map_ext. intros i. unfold book_of. rewrite Ef. reflexivity.
    - rewrite ginterp0_gen. f_equal. unfold interp0. rewrite !map_map. cbn [fst snd]. rewrite map_id. reflexivity.
  Qed.
End SimLife.

(** C102: for any group key Y nobody knows the secret of, t - 1 receivers js and the first points [others] of the other dealers
    there are a public key A for dealer i and points, shares and a proof for it with which everything below is accepted, and
    every key generation that completes with these first points has the group key Y; [sessions] are any signing sessions. *)
Theorem C102_prescribed_key_is_simulated :
  forall (S : Suite) (L : SuiteLaws S) (t : u32) (js : list u32) (i : u32) (others : list (u32 * G)) (Y : G),
  good_indices js -> (N.of_nat (length js) + 1 = u32v t)%N -> good_indices (i :: map fst others) ->
  exists (A : G) (ws : list F), length ws = N.to_nat (u32v t) /\ hd_error ws = Some F1 /\
  forall (v : u32 -> F) (x s r : F) (sessions : list Sess),
  exists g : list F, length g = N.to_nat (u32v t) /\ hd_error g = Some F0 /\
    let pts := map (fun wg => (A * fst wg + gen * snd wg)%G) (combine ws g) in
    let xs := (proof_input i A s r, s) :: flat_map (sess_hash Y) sessions in
    (** no hash input is used twice *)
    NoDup (map fst xs) ->
    let S' := with_hash S (programmed xs inner_h2f) sha256_h2f in
    SuiteLaws S' /\ @same_but S (map fst xs) (@inner_h2f S') (@inner_h2f S) /\
    (** the key generation: accepted in round one, the shares by their receivers, and it ends with Y *)
    (forall prx, @nizk_verify S' prx i (gen * x)%G = Ok tt ->
       @ok_bootstrap S' t (@MkPart S' i (gen * x)%G (Some (@MkVss S' i pts)) (Some (@MkNizk S' s r)) prx)) /\
    (forall j, In j js -> @share_verify S' (@MkShare S' i j (v j)) (@MkVss S' i pts) = Ok tt) /\
    hd_error pts = Some A /\
    (forall st comms gk sk, @finish S' (@R2 S' st) = Ok (gk, sk) -> @ds_comms S' st = Some comms ->
       Permutation (map (fun jc => (fst jc, hd_error (@vss_points S' (snd jc)))) comms) (map (fun y => (fst y, Some (snd y))) ((i, A) :: others)) ->
       gk = Y /\
       forall n ids, (forall j c, In (j, c) comms -> length (@vss_points S' c) <= n) -> NoDup ids -> n <= length ids ->
         ginterp0 (map (fun k => (k, @book_of S' comms k)) ids) = Y) /\
    (** what a dealer that knows a secret for A publishes and deals *)
    (forall a rng, length a = N.to_nat (u32v t) -> (gen * hd F0 a)%G = A -> (forall j, In j js -> poly_value a (of_u32 j) = v j) ->
       committed a = pts /\ (forall j, In j js -> evaluate_polynomial i j a = MkShare i j (v j)) /\
       (fst (@rand_scalar S rng) = (r - hd F0 a * s)%F -> fst (@nizk_prove S' i (hd F0 a) A rng) = @MkNizk S' s r)) /\
    (** every session: the signature is valid, the aggregator accepts, and signers that know their keys send these responses *)
    forall q, In q sessions -> good_indices (ss_ids q) -> ss_ids q <> [] ->
      let h := h4 (ss_msg q) in
      (ginterp0 (map (fun k => (k, ss_pk q k)) (ss_ids q)) = Y ->
         @sig_verify S' (@MkTSig S' (fst (sess_sig q)) (snd (sess_sig q))) Y h = Ok tt /\
         forall p tr a f, @agg_run S' (@agg_new S' p Y (ss_msg q)) tr a -> @finalize S' a = Ok f ->
           @ag_signers S' (@ai_state S' a) = @fake_signers S' (ss_ids q) (sess_com q) ->
           (forall k, In k (ss_ids q) -> @last_key S' tr k (ss_pk q k) /\ @last_partial S' tr k (ss_z q k)) ->
           exists sig, @outcome S' a = Ok sig) /\
      (forall m k (l : @SecretList S') idx cs, In (@sk_index S' k) (ss_ids q) -> (idx + 1 < 2 ^ 64)%N ->
         nth_error (@sl_commitments S' l) (N.to_nat idx) = Some cs ->
         let n := @sk_index S' k in
         @co_secret S' (@cs_hiding S' cs) =
           (ss_z q n - @co_secret S' (@cs_binding S' cs) * ss_r q n - @sk_key S' k * (ss_c q * weight n (ss_ids q)))%F ->
         fst (@sign S' m k h Y l idx (@fake_signers S' (ss_ids q) (sess_com q))) = Ok (@MkPSig S' n (ss_z q n))).
Proof.
  intros S L t js i others Y Hg Ht Hd. assert (Hl : length js < N.to_nat (u32v t)) by lia.
  destruct (steer i others Y (proj1 Hd) (proj2 Hd)) as [A HA].
  destruct (through js _ F1 (fun _ => F0) Hg Hl) as (ws & W1 & W2 & W3). exists A, ws. split; [exact W1|]. split; [exact W2|].
  intros v x s r sessions. destruct (through js _ F0 v Hg Hl) as (g & G1 & G2 & G3). exists g. split; [exact G1|]. split; [exact G2|].
  intros pts xs Hn S'. pose proof (with_hash_laws S L (programmed xs inner_h2f) sha256_h2f) as L'. fold S' in L'.
  assert (Hp : programmed xs (@inner_h2f S) (fst (proof_input i A s r)) (snd (proof_input i A s r)) = s).
  { apply programmed_at; [exact Hn|]. left. destruct (proof_input i A s r). reflexivity. }
  assert (Hs : forall q d m c, In q sessions -> In ((d, m), c) (sess_hash Y q) -> programmed xs (@inner_h2f S) d m = c).
  { intros q d m c Hq Hc. apply programmed_at; [exact Hn|]. right. apply in_flat_map. exists q. auto. }
  pose proof (programmed_same xs (@inner_h2f S)) as Hsame. clearbody xs.
  split; [exact L'|]. split; [exact Hsame|].
  split; [|split; [|split; [|split; [|split]]]].
  - intros prx V. apply (@blind_accepted S' L' A ws g i t x (@MkNizk S' s r) prx W1 G1 W2 G2); [|exact V].
    apply (@nizk_ok S' L'). exact Hp.
  - intros j Hj. exact (@blind_share S' L' A ws g i j (v j) (eq_trans W1 (eq_sym G1)) (W3 j Hj) (G3 j Hj)).
  - unfold pts. fold (blind A ws g). rewrite (blind_hd A ws g W2 G2). reflexivity.
  - intros st comms gk sk E Hc HP. pose proof (@steered S' L' st comms gk sk i A others E Hc HP) as K.
    split; [rewrite K; exact HA|]. intros n ids H1 H2 H3. rewrite <- HA. etransitivity; [|exact K].
    etransitivity; [exact (@book_key S' L' comms n ids H1 H2 H3)|]. symmetry.
    refine (proj2 (proj2 (@finish_key S' L' st comms gk sk Hc E _))). intros ->. cbn in HP. apply Permutation_nil in HP. discriminate.
  - intros a rng Ha HA' Hv. split; [|split].
    + unfold pts. rewrite <- HA'. apply (blind_real ws g a js); auto; try congruence; try lia. intros j Hj. rewrite G3, Hv by exact Hj. reflexivity.
    + intros j Hj. rewrite evaluate_polynomial_eq, Hv by exact Hj. reflexivity.
    + intros Hr. destruct (@rand_scalar S rng) as [k rng'] eqn:Er. cbn [fst] in Hr. subst k. rewrite <- HA'.
      rewrite <- HA' in Hp. exact (f_equal fst (@nizk_real S' L' i (hd F0 a) s r rng rng' Er Hp)).
  - intros q Hq Hgq Hne h.
    assert (Hc : programmed xs (@inner_h2f S) (tag "challenge") (challenge_input (fake_R (ss_ids q) (ss_pk q) (ss_z q) (ss_c q)) Y h) = ss_c q).
    { apply (Hs q); [exact Hq|]. left. reflexivity. }
    assert (Hr : forall k, In k (ss_ids q) -> programmed xs (@inner_h2f S) (tag "rho") (h4 h ++ h5 (fake_roll (ss_ids q) (sess_com q)) ++ u32_le k) = ss_r q k).
    { intros k Hk. apply (Hs q); [exact Hq|]. right. apply in_map_iff. exists k. split; [reflexivity|exact Hk]. }
    split.
    + intros HY. split; [exact (@fake_sig S' L' (ss_ids q) Y h (ss_pk q) (ss_z q) (ss_c q) Hc HY)|].
      intros p tr a f H HF Hss Hkp. apply (@all_right S' L' p Y (ss_msg q) tr a f (map (fun k => (k, ss_pk q k)) (ss_ids q)) H HF).
      * rewrite Hss. unfold fake_signers. destruct (ss_ids q); [contradiction|discriminate].
      * rewrite Hss, (@fake_index S'). apply Hgq.
      * rewrite Hss, (@fake_index S'), map_map. cbn [fst]. apply map_id.
      * intros k P X. apply in_map_iff in X. destruct X as (j & X & Hj). injection X as <- <-. apply Hkp, Hj.
      * exact HY.
      * rewrite Hss. intros u0 w v0 Hs0 K1 K2. unfold fake_signers in Hs0. apply in_map_iff in Hs0. destruct Hs0 as (k & <- & Hk).
        pose proof (@holds_run S' _ _ _ _ _ H) as HH. destruct (Hkp k Hk) as [A1 B1].
        apply (@hs_keys S' _ _ _ _ _ HH) in K1, A1. apply (@hs_parts S' _ _ _ _ _ HH) in K2, B1.
        change (@sg_index S' (@MkSigner S' k (sess_com q k))) with k in K1, K2.
        rewrite A1 in K1. rewrite B1 in K2. injection K1 as <-. injection K2 as <-.
        exact (@fake_partial S' L' (ss_ids q) Y h (ss_pk q) (ss_E q) (ss_z q) (ss_r q) (ss_c q) Hr Hc k Hk).
    + intros m k l idx cs Hi Hidx Hcs n Hd'.
      exact (@fake_sign S' L' (ss_ids q) Y h (ss_pk q) (ss_E q) (ss_z q) (ss_r q) (ss_c q) Hr Hc m k l idx _ cs Hgq Hidx Hi Hcs eq_refl Hd').
Qed.
Print Assumptions C102_prescribed_key_is_simulated.

(** distinct list items by computation *)
Lemma nodup_by (l : list (list byte * list byte)) : length (nodup input_dec l) = length l -> NoDup l.
Proof.
  assert (X : forall l : list (list byte * list byte), length (nodup input_dec l) <= length l).
  { induction l0 as [|y l0 IH]; [apply le_n|]. cbn. destruct (in_dec input_dec y l0); cbn; lia. }
  induction l as [|y l IH]; [constructor|]. cbn. destruct (in_dec input_dec y l) as [H|H]; cbn.
  - specialize (X l). lia.
  - intros E. constructor; [exact H|apply IH; lia].
Qed.

(** threshold two, receiver 1; dealers 1 and 2 with the polynomials 3 + 5x and 4 + 6x, and the group key 12345, a group
    element that was not computed from a scalar *)
Definition c102_Y : @G Toy := mk 12345.
Definition c102_others : list (u32 * @G Toy) := [(u 1, (toy_gen * mk 3)%G); (u 2, (toy_gen * mk 4)%G)].
Definition c102_A : @G Toy := mk 12366.
Definition c102_ws : list (@F Toy) := [mk 1; mk (-1)].
Definition c102_g : list (@F Toy) := [mk 0; mk 99].
Definition c102_comms (S : Suite) (pts1 pts2 pts3 : list (@G S)) : bmap (@Vss S) :=
  [(u 1, MkVss (u 1) pts1); (u 2, MkVss (u 2) pts2); (u 3, MkVss (u 3) pts3)].
Definition c102_p1 : list (@G Toy) := [(toy_gen * mk 3)%G; (toy_gen * mk 5)%G].
Definition c102_p2 : list (@G Toy) := [(toy_gen * mk 4)%G; (toy_gen * mk 6)%G].
Definition c102_p3 : list (@G Toy) := @blind Toy c102_A c102_ws c102_g.
Definition c102_book : u32 -> @G Toy := @book_of Toy (c102_comms Toy c102_p1 c102_p2 c102_p3).
(** two sessions of the signers 1 and 2, for the messages "hi" and "ho" *)
Definition c102_s1 : @Sess Toy := @MkSess Toy [u 1; u 2] [x68; x69] c102_book c89_E c89_z c89_r (mk 55).
Definition c102_s2 : @Sess Toy := @MkSess Toy [u 1; u 2] [x68; x6f] c102_book c89_E c89_r c89_z (mk 56).
Definition c102_xs : list ((list byte * list byte) * @F Toy) :=
  (@proof_input Toy (u 3) c102_A (mk 31) (mk 32), mk 31) :: flat_map (@sess_hash Toy c102_Y) [c102_s1; c102_s2].
Definition c102_suite : Suite := with_hash Toy (@programmed Toy c102_xs inner_h2f) sha256_h2f.
(** the state of receiver 1 after round two *)
Definition c102_state (S : Suite) (pts1 pts2 pts3 : list (@G S)) (v1 v2 v3 x : @F S) : @DkgState S :=
  MkState (MkParams (u 3) (u 2)) (u 1) x (gen * x)%G (Some (c102_comms S pts1 pts2 pts3)) [] None
    (Some [(u 1, MkShare (u 1) (u 1) v1); (u 2, MkShare (u 2) (u 1) v2); (u 3, MkShare (u 3) (u 1) v3)]).
Example C102_ex : good_indices [u 1] /\ (N.of_nat (length [u 1]) + 1 = u32v (u 2))%N /\ good_indices [u 3; u 1; u 2] /\
  @ginterp0 Toy ((u 3, c102_A) :: c102_others) = c102_Y /\
  map (fun j => (@poly_value Toy c102_ws (of_u32 j), @poly_value Toy c102_g (of_u32 j))) [u 1] = [(mk 0, mk 99)].
Proof. split; [good|]. split; [reflexivity|]. split; [good|]. split; vmr. Qed.
Example C102_ex_inputs : NoDup (map fst c102_xs).
Proof. apply nodup_by. vmr. Qed.
(** in that suite the proof and the share are accepted, the key generation ends with 12345 and both signatures verify under it;
    with the original hash function proof and signatures do not *)
Definition c102_checks (S : Suite) (A : @G S) (pts1 pts2 pts3 : list (@G S)) (v1 v2 v3 x s r : @F S) (Y : @G S) (sigs : list (list byte * (@G S * @F S))) : list bool :=
  is_ok (nizk_verify (MkNizk s r) (u 3) A) ::
  is_ok (share_verify (MkShare (u 3) (u 1) v3) (MkVss (u 3) pts3)) ::
  match finish (R2 (c102_state S pts1 pts2 pts3 v1 v2 v3 x)) with Ok (gk, _) => Geqb gk Y | _ => false end ::
  map (fun ms => is_ok (sig_verify (MkTSig (fst (snd ms)) (snd (snd ms))) Y (h4 (fst ms)))) sigs.
Definition c102_sigs : list (list byte * (@G Toy * @F Toy)) := map (fun q => (@ss_msg Toy q, @sess_sig Toy q)) [c102_s1; c102_s2].
Example C102_ex_life :
  c102_checks c102_suite c102_A c102_p1 c102_p2 c102_p3 (mk 8) (mk 10) (mk 99) (mk 77) (mk 31) (mk 32) c102_Y c102_sigs = [true; true; true; true; true] /\
  c102_checks Toy c102_A c102_p1 c102_p2 c102_p3 (mk 8) (mk 10) (mk 99) (mk 77) (mk 31) (mk 32) c102_Y c102_sigs = [false; true; true; false; false].
Proof. split; vmr. Qed.
