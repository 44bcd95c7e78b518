(** Property C105: a state of the random generator used twice gives secrets away. *)
From Coq Require Import String Strings.Byte Arith NArith ZArith Bool List Lia Field.
From Verif Require Import Base Suite Spec SpecDkg SpecSign SpecRandom Types Algebra BaseLemmas ModelDkg ModelSign LemmasShare LemmasRound1 LemmasRound2 LemmasSign
  Toy Demo DemoDkg DemoSign PropsShare PropsRandom PropsSign.
Import ListNotations.

Section SpecRepeat.
  Context {S : Suite}.
  (** what anyone computes from two proofs of knowledge, and from two complaints with their challenges *)
  Definition secret_of_proofs (p q : Nizk) : F := ((nz_r p - nz_r q) * Finv (nz_s p - nz_s q))%F.
  Definition challenge_of (c : Complaint) (pk : G) : F :=
    sha256_h2f (bytes_of_string "Complaint Context")
      (enc_point (c_pk c) ++ enc_point pk ++ enc_point (c_shared c) ++ enc_point (cp_a1 (c_proof c)) ++
       enc_point (cp_a2 (c_proof c)) ++ ser_encshare (c_share c)).
  Definition secret_of_complaints (c : Complaint) (pk : G) (c' : Complaint) (pk' : G) : F :=
    ((cp_z (c_proof c) - cp_z (c_proof c')) * Finv (challenge_of c pk - challenge_of c' pk'))%F.
  (** the complaints a call of to_round_two hands out, returned or inside the error *)
  Definition hands_out (o : result (RoundTwo * list Complaint * Rng)) (cs : list Complaint) : Prop :=
    o = Err (ComplaintErr cs) \/ exists s2 r', o = Ok (s2, cs, r').
  (** a proof whose challenge hashes index i *)
  Definition hashes_index (i : u32) (p : Nizk) (m : list byte) : Prop :=
    nz_s p = h0 m /\ firstn 4 m = u32_le i.
End SpecRepeat.

Section Repeat.
  Context {S : Suite} {L : SuiteLaws S}.
  Add Field F_fld : F_field.

  Lemma sub_neq a b : a <> b -> (a - b)%F <> F0.
  Proof. intros H E. apply H. replace a with ((a - b) + b)%F by ring. rewrite E. ring. Qed.
  Lemma solve_linear k x a b : a <> b -> x = (((k + a * x) - (k + b * x)) * Finv (a - b))%F.
  Proof. intros Hn. apply sub_neq in Hn. field. exact Hn. Qed.
  Lemma two_proofs k x i j p q : proof_with k i x p -> proof_with k j x q -> nz_s p <> nz_s q -> x = secret_of_proofs p q.
  Proof.
    intros [_ Hp] [_ Hq] Hn. unfold secret_of_proofs. rewrite Hp, Hq. apply sub_neq in Hn. field. exact Hn.
  Qed.
  Lemma proof_hashes k i x p : proof_with k i x p -> exists m, hashes_index i p m.
  Proof.
    intros [H _]. eexists. split; [exact H|]. rewrite firstn_app, (firstn_all2 (u32_le i)) by (unfold u32_le; rewrite le_bytes_len; lia).
    unfold u32_le at 2. rewrite le_bytes_len. cbn [Nat.sub firstn]. apply app_nil_r.
  Qed.

  Lemma drawn_scalars_same r l l' r1 : drawn r (map DrawScalar l) r1 -> forall r2, drawn r (map DrawScalar l') r2 ->
    forall n a b, nth_error l n = Some a -> nth_error l' n = Some b -> a = b.
  Proof.
    revert r l' r1. induction l as [|x l IH]; intros r l' r1 H r2 H' n a b; [destruct n; discriminate|].
    destruct l' as [|y l']; [destruct n; discriminate|]. cbn [map] in H, H'. inversion H; subst. inversion H'; subst.
    assert (x = y /\ r3 = r4) as [-> ->] by (split; congruence).
    destruct n as [|n]; cbn [nth_error]; [congruence|]. eapply IH; eassumption.
  Qed.
  Lemma drawn_bytes_same k r l l' r1 : drawn r (map DrawBytes l) r1 -> forall r2, drawn r (map DrawBytes l') r2 ->
    (forall b, In b l -> length b = k) -> (forall b, In b l' -> length b = k) -> length l = length l' -> l = l'.
  Proof.
    revert r l' r1. induction l as [|x l IH]; intros r l' r1 H r2 H' K K' HL; destruct l' as [|y l']; try discriminate; [reflexivity|].
    cbn [map] in H, H'. inversion H; subst. inversion H'; subst.
    pose proof (rand_bytes_len n r) as X. pose proof (rand_bytes_len n0 r) as Y.
    assert (n = n0).
    { match goal with A : rand_bytes n r = _, B : rand_bytes n0 r = _ |- _ => rewrite A in X; rewrite B in Y end. cbn [fst] in X, Y.
      rewrite <- X, <- Y, (K x), (K' y) by (left; reflexivity). reflexivity. }
    subst n0. assert (x = y /\ r3 = r4) as [-> ->] by (split; congruence).
    f_equal. eapply IH; try eassumption; [intros b Hb; apply K; right; exact Hb|intros b Hb; apply K'; right; exact Hb|cbn in HL; lia].
  Qed.
  (** the entry after which an index does not occur any more is determined *)
  Lemma last_entry (l : list (Participant * list byte)) j : forall l1 p b l2 l1' p' b' l2',
    l = l1 ++ (p, b) :: l2 -> pt_index p = j -> (forall q c, In (q, c) l2 -> pt_index q <> j) ->
    l = l1' ++ (p', b') :: l2' -> pt_index p' = j -> (forall q c, In (q, c) l2' -> pt_index q <> j) -> b = b'.
  Proof.
    induction l as [|x l IH]; intros l1 p b l2 l1' p' b' l2' E Hp H E' Hp' H'; [destruct l1; discriminate|].
    destruct l1 as [|y l1], l1' as [|y' l1']; cbn [app] in E, E'.
    - congruence.
    - exfalso. injection E as Ex El. injection E' as Ex' El'. apply (H p' b'); [rewrite <- El, El'; apply in_or_app; right; left; reflexivity|exact Hp'].
    - exfalso. injection E' as Ex' El'. injection E as Ex El. apply (H' p b); [rewrite <- El', El; apply in_or_app; right; left; reflexivity|exact Hp].
    - injection E as _ E. injection E' as _ E'. eapply (IH l1 p b l2 l1' p' b' l2'); eassumption.
  Qed.

  (** complaints with their one-time scalars and full challenges *)
  Definition made_with (st : DkgState) (k : F) (c : Complaint) : Prop :=
    exists pk, bget (es_sender (c_share c)) (ds_dhs st) = Some pk /\ cp_z (c_proof c) = (k + challenge_of c pk * ds_dh_sk st)%F.
  Lemma loop_made m st es : forall sh cs r sh' cs' r', round_two_loop m st es sh cs r = Ok (sh', cs', r') ->
    exists ks new, cs' = cs ++ new /\ drawn r (map DrawScalar ks) r' /\ Forall2 (made_with st) ks new.
  Proof.
    induction es as [|e es IH]; intros sh cs r sh' cs' r'; cbn [round_two_loop].
    - intros [= <- <- <-]. exists [], []. split; [symmetry; apply app_nil_r|]. split; constructor.
    - destruct (is_debug m && _); [discriminate|]. destruct (bget (es_sender e) (ds_dhs st)) as [pk|] eqn:Ep; [|discriminate].
      destruct (ds_comms st) as [comms|]; [|discriminate].
      destruct (find _ comms) as [kc|].
      + unfold complaint_new. destruct (rand_scalar r) as [k r1] eqn:Ek. intros H.
        destruct (IH _ _ _ _ _ _ H) as (ks & new & E1 & D & F2).
        eexists (k :: ks), (_ :: new). split; [rewrite E1, <- app_assoc; reflexivity|].
        split; [cbn [map]; econstructor; [exact Ek|exact D]|]. constructor; [|exact F2].
        exists pk. split; [exact Ep|]. reflexivity.
      + intros H. apply (IH _ _ _ _ _ _ H).
  Qed.
  Lemma round_two_made m st es r cs : hands_out (to_round_two m (R1 st) es r) cs ->
    exists ks r', drawn r (map DrawScalar ks) r' /\ Forall2 (made_with st) ks cs.
  Proof.
    unfold hands_out, to_round_two. cbn [st1 ds_params ds_index ds_dh_sk ds_dh_pk ds_comms ds_dhs ds_enc ds_shares].
    destruct (N.ltb _ _); [intros [H|(s2 & r' & H)]; discriminate|].
    destruct (round_two_loop _ _ _ _ _ _) as [[[sh cs0] r0]|e|] eqn:E; cbn [bind].
    - destruct (loop_made _ _ _ _ _ _ _ _ _ E) as (ks & new & -> & D & F2). cbn [app] in F2 |- *.
      assert (F3 : Forall2 (made_with st) ks new) by exact F2.
      destruct (u32_sub m _ _) as [rem| |] eqn:Eu; cbn [bind].
      + destruct (u32_ltb _ _); intros [H|(s2 & r' & H)]; try discriminate; [injection H as <-|injection H as _ <- _]; eauto.
      + intros [H|(s2 & r' & H)]; [|discriminate]. injection H as ->. unfold u32_sub in Eu. destruct (u32_ltb _ _), m; discriminate.
      + intros [H|(s2 & r' & H)]; discriminate.
    - intros [H|(s2 & r' & H)]; [|discriminate]. injection H as ->. exfalso. clear -E.
      assert (X : forall es sh cs r c, round_two_loop m (MkState (ds_params st) (ds_index st) (ds_dh_sk st) (ds_dh_pk st) (ds_comms st) (ds_dhs st) None (ds_shares st)) es sh cs r <> Err (ComplaintErr c)).
      { clear. induction es as [|e es IH]; intros sh cs r c; cbn [round_two_loop]; [discriminate|].
        destruct (is_debug m && _); [discriminate|]. cbn [ds_dhs ds_comms ds_dh_sk].
        destruct (bget _ _); [|discriminate]. destruct (ds_comms st); [|discriminate].
        destruct (find _ _); [destruct (complaint_new _ _ _ _ _)|]; apply IH. }
      apply (X _ _ _ _ _ E).
    - intros [H|(s2 & r' & H)]; discriminate.
  Qed.
  Lemma forall2_nth {A B} (R : A -> B -> Prop) l l' : Forall2 R l l' -> forall n b, nth_error l' n = Some b -> exists a, nth_error l n = Some a /\ R a b.
  Proof. induction 1; intros [|n] b Hb; try discriminate; cbn [nth_error] in *; [injection Hb as <-; eauto|apply IHForall2, Hb]. Qed.

  (** nonce lists *)
  Lemma gen_shares_prefix k n : forall n' r l r1 l' r1' j c c', gen_shares k n r = (l, r1) -> gen_shares k n' r = (l', r1') ->
    nth_error l j = Some c -> nth_error l' j = Some c' -> c = c'.
  Proof.
    induction n as [|n IH]; intros n' r l r1 l' r1' j c c' E E' H H'; cbn [gen_shares] in E; [injection E as <- <-; destruct j; discriminate|].
    destruct n' as [|n']; cbn [gen_shares] in E'; [injection E' as <- <-; destruct j; discriminate|].
    destruct (nonce_pair k r) as [[d e] ra]. destruct (gen_shares k n ra) as [la rb] eqn:Ea. destruct (gen_shares k n' ra) as [la' rb'] eqn:Ea'.
    injection E as <- <-. injection E' as <- <-. destruct j as [|j]; cbn [nth_error] in H, H'; [congruence|]. eapply IH; eassumption.
  Qed.
  Lemma gen_shares_stuck k b r : rand_bytes hash_len r = (b, r) -> forall n l r1, gen_shares k n r = (l, r1) ->
    forall c, In c l -> co_secret (cs_hiding c) = h3 (b ++ ser_signing_key k) /\ co_secret (cs_binding c) = h3 (b ++ ser_signing_key k).
  Proof.
    intros Hr. induction n as [|n IH]; intros l r1; cbn [gen_shares]; [intros X; injection X as <- <-; intros c []|].
    unfold nonce_pair, nonce_generate. rewrite Hr. cbv iota beta. rewrite Hr. cbv iota beta. destruct (gen_shares k n r) as [l' r'] eqn:E. intros X. injection X as <- <-.
    intros c [<-|Hc]; [split; reflexivity|]. eapply IH; [reflexivity|exact Hc].
  Qed.
  Lemma sign_value m k h g l i ss p cs : fst (sign m k h g l i ss) = Ok p -> nth_error (sl_commitments l) (N.to_nat i) = Some cs ->
    ps_z p = partial_value h g ss (sk_index k) (co_secret (cs_hiding cs)) (co_secret (cs_binding cs)) (sk_key k).
  Proof.
    intros H Hc. destruct (sign m k h g l i ss) as [o l'] eqn:E. cbn in H. subst o.
    apply sign_ok_inv in E. destruct E as [cs' [E1 [_ [_ [-> _]]]]]. assert (cs' = cs) by congruence. subst. reflexivity.
  Qed.
  Lemma stuck_algebra d x a1 a2 l1 l2 c1 c2 : ((F1 + a1) * (l2 * c2) - (F1 + a2) * (l1 * c1))%F <> F0 ->
    x = (((F1 + a1) * (d + d * a2 + l2 * x * c2) - (F1 + a2) * (d + d * a1 + l1 * x * c1)) * Finv ((F1 + a1) * (l2 * c2) - (F1 + a2) * (l1 * c1)))%F.
  Proof. intros H. field. exact H. Qed.
End Repeat.

(** * C105 *)
(** two participants created from one generator state (a cloned machine, a restored snapshot) have the same secrets, and their
    published proofs reveal them, unless two different hash inputs collide *)
Theorem C105_participants_from_one_state :
  forall (S : Suite) (L : SuiteLaws S) (p p' : Params) (i j : u32) (r : Rng) d co x r1 d' co' x' r1',
  new_dealer p i r = Ok (d, co, x, r1) -> new_dealer p' j r = Ok (d', co', x', r1') ->
  x' = x /\ hd_error co' = hd_error co /\
  (nz_s (pt_dh_proof d) <> nz_s (pt_dh_proof d') -> x = secret_of_proofs (pt_dh_proof d) (pt_dh_proof d')) /\
  (exists m m', hashes_index i (pt_dh_proof d) m /\ hashes_index j (pt_dh_proof d') m') /\
  (p_t p' = p_t p -> co' = co /\ exists pr pr', pt_sk_proof d = Some pr /\ pt_sk_proof d' = Some pr' /\
     (exists m m', hashes_index i pr m /\ hashes_index j pr' m') /\
     (nz_s pr <> nz_s pr' -> hd_error co = Some (secret_of_proofs pr pr'))).
Proof.
  intros S L p p' i j r d co x r1 d' co' x' r1'. unfold new_dealer.
  destruct (new_internal p false i None r) as [[[[d0 c0] x0] r0]| |] eqn:E; cbn [bind]; try discriminate.
  destruct (new_internal p' false j None r) as [[[[d0' c0'] x0'] r0']| |] eqn:E'; cbn [bind]; try discriminate.
  destruct (new_internal_drawn _ _ _ _ _ _ _ _ E) as (k1 & k2 & pr & a0 & rest & -> & Len & Ht & _ & _ & P1 & SP & P2 & D).
  destruct (new_internal_drawn _ _ _ _ _ _ _ _ E') as (k1' & k2' & pr' & a0' & rest' & -> & Len' & Ht' & _ & _ & P1' & SP' & P2' & D').
  intros [= <- <- <- <-] [= <- <- <- <-].
  pose proof (drawn_scalars_same _ _ _ _ D _ D') as X.
  assert (x0 = x0') by (apply (X 0); reflexivity). assert (k1 = k1') by (apply (X 1); reflexivity). assert (a0 = a0') by (apply (X 2); reflexivity). subst x0' k1' a0'.
  split; [reflexivity|]. split; [reflexivity|]. split; [intros Hn; eapply two_proofs; eassumption|].
  split; [destruct (proof_hashes _ _ _ _ P1) as [m Hm], (proof_hashes _ _ _ _ P1') as [m' Hm']; eauto|].
  intros Hp. rewrite Hp, <- Len in Len'.
  assert (Hrest : rest' ++ [k2'] = rest ++ [k2]).
  { apply nth_ext with (d := F0) (d' := F0); [rewrite !app_length; cbn; lia|]. intros n Hn.
    assert (Hn' : n < length (rest ++ [k2])) by (rewrite app_length in *; cbn in *; lia).
    destruct (nth_error (rest ++ [k2]) n) as [v|] eqn:Ev; [|apply nth_error_None in Ev; lia].
    destruct (nth_error (rest' ++ [k2']) n) as [v'|] eqn:Ev'; [|apply nth_error_None in Ev'; lia].
    rewrite (nth_error_nth _ _ _ Ev), (nth_error_nth _ _ _ Ev'). symmetry. apply (X (Datatypes.S (Datatypes.S (Datatypes.S n)))); [exact Ev|exact Ev']. }
  apply app_inj_tail in Hrest. destruct Hrest as [-> ->]. split; [reflexivity|]. exists pr, pr'. split; [exact SP|]. split; [exact SP'|].
  split; [destruct (proof_hashes _ _ _ _ P2) as [m Hm], (proof_hashes _ _ _ _ P2') as [m' Hm']; eauto|].
  intros Hn. cbn [hd_error]. f_equal. eapply two_proofs; eassumption.
Qed.
Print Assumptions C105_participants_from_one_state.

(** complaints made by two calls of to_round_two from one generator state reveal the Diffie-Hellman key of the maker *)
Theorem C105_complaints_from_one_state :
  forall (S : Suite) (L : SuiteLaws S) (m m' : build) (s s' : RoundOne) (es es' : list EncShare) (r : Rng) cs cs' n c c',
  ds_dh_sk (st1 s') = ds_dh_sk (st1 s) ->
  hands_out (to_round_two m s es r) cs -> hands_out (to_round_two m' s' es' r) cs' ->
  nth_error cs n = Some c -> nth_error cs' n = Some c' ->
  exists pk pk', bget (es_sender (c_share c)) (ds_dhs (st1 s)) = Some pk /\ bget (es_sender (c_share c')) (ds_dhs (st1 s')) = Some pk' /\
    (challenge_of c pk <> challenge_of c' pk' -> ds_dh_sk (st1 s) = secret_of_complaints c pk c' pk').
Proof.
  intros S L m m' [st] [st'] es es' r cs cs' n c c' Hx H H' Hc Hc'. cbn [st1] in *.
  apply round_two_made in H, H'. destruct H as (ks & r1 & D & Hf), H' as (ks' & r1' & D' & Hf').
  destruct (forall2_nth _ _ _ Hf _ _ Hc) as (k & Hk & pk & Hpk & Hz). destruct (forall2_nth _ _ _ Hf' _ _ Hc') as (k' & Hk' & pk' & Hpk' & Hz').
  assert (k = k') by exact (drawn_scalars_same r ks ks' r1 D r1' D' n k k' Hk Hk'). subst k'.
  exists pk, pk'. split; [exact Hpk|]. split; [exact Hpk'|]. intros Hn. unfold secret_of_complaints. rewrite Hz, Hz', Hx.
  revert Hn. generalize (challenge_of c pk) (challenge_of c' pk') (ds_dh_sk st). intros a b x Hn.
  exact (solve_linear k x a b Hn).
Qed.
Print Assumptions C105_complaints_from_one_state.

(** shares encrypted from one generator state for the same list carry the same nonces, whatever they contain *)
Theorem C105_encryption_nonces_repeat :
  forall (S : Suite) (L : SuiteLaws S) (m m' : build) (params params' : Params) (x x' : F) (my my' : u32) (co co' : list F)
         (ps : list Participant) (r : Rng) st lists r1 st' lists' r1' es es' j e e',
  bootstrap m params x my co ps r = Ok (st, lists, r1) -> bootstrap m' params' x' my' co' ps r = Ok (st', lists', r1') ->
  their_encrypted_secret_shares st = Ok es -> their_encrypted_secret_shares st' = Ok es' ->
  bget j es = Some e -> bget j es' = Some e' -> nonce_bytes (es_nonce e) = nonce_bytes (es_nonce e').
Proof.
  intros S L m m' params params' x x' my my' co co' ps r st lists r1 st' lists' r1' es es' j e e' H H' E E' He He'.
  apply (C65_bootstrap_randomness S L) in H, H'. destruct H as (bs & es0 & X & D & N1 & N2 & N3), H' as (bs' & es0' & X' & D' & N1' & N2' & N3').
  rewrite E in X. injection X as <-. rewrite E' in X'. injection X' as <-.
  assert (bs = bs') by exact (drawn_bytes_same nonce_len r bs bs' r1 D r1' D' N2 N2' (eq_trans N1 (eq_sym N1'))). subst bs'.
  destruct (N3 _ _ He) as (l1 & p & b & l2 & A1 & A2 & A3 & ->), (N3' _ _ He') as (l1' & p' & b' & l2' & B1 & B2 & B3 & ->).
  exact (last_entry _ j l1 p b l2 l1' p' b' l2' A1 A2 A3 B1 B2 B3).
Qed.
Print Assumptions C105_encryption_nonces_repeat.

(** nonce lists made from one generator state agree as far as both go, whatever their lengths; three signatures with one
    position of three such lists reveal the key *)
Theorem C105_nonce_lists_from_one_state :
  forall (S : Suite) (L : SuiteLaws S) (k : SigningKey) (r : Rng),
  (forall n n' pub sec r1 pub' sec' r1' j c c', generate_commitment_share_lists r k n = (pub, sec, r1) ->
     generate_commitment_share_lists r k n' = (pub', sec', r1') ->
     nth_error (sl_commitments sec) j = Some c -> nth_error (sl_commitments sec') j = Some c' -> c = c') /\
  (forall m n1 n2 n3 (h1 h2 h3 : list byte) (g1 g2 g3 : G) (pos : N) (ss1 ss2 ss3 : list Signer) p1 p2 p3,
     let list_of n := snd (fst (generate_commitment_share_lists r k n)) in
     fst (sign m k h1 g1 (list_of n1) pos ss1) = Ok p1 -> fst (sign m k h2 g2 (list_of n2) pos ss2) = Ok p2 ->
     fst (sign m k h3 g3 (list_of n3) pos ss3) = Ok p3 ->
     let i := sk_index k in
     let b1 := binding h1 ss1 i in let b2 := binding h2 ss2 i in let b3 := binding h3 ss3 i in
     let w1 := (weight i (map sg_index ss1) * session_chal h1 g1 ss1)%F in
     let w2 := (weight i (map sg_index ss2) * session_chal h2 g2 ss2)%F in
     let w3 := (weight i (map sg_index ss3) * session_chal h3 g3 ss3)%F in
     let det := ((b2 - b1) * (w3 - w1) - (b3 - b1) * (w2 - w1))%F in
     det <> F0 ->
     sk_key k = (((b2 - b1) * (ps_z p3 - ps_z p1) - (b3 - b1) * (ps_z p2 - ps_z p1)) * Finv det)%F).
Proof.
  intros S L k r.
  assert (A : forall n n' pub sec r1 pub' sec' r1' j c c', generate_commitment_share_lists r k n = (pub, sec, r1) ->
     generate_commitment_share_lists r k n' = (pub', sec', r1') ->
     nth_error (sl_commitments sec) j = Some c -> nth_error (sl_commitments sec') j = Some c' -> c = c').
  { intros n n' pub sec r1 pub' sec' r1' j c c'. unfold generate_commitment_share_lists.
    destruct (gen_shares k n r) as [l ra] eqn:E, (gen_shares k n' r) as [l' ra'] eqn:E'. intros [= <- <- <-] [= <- <- <-]. cbn [sl_commitments].
    intros H H'. exact (gen_shares_prefix k n n' r l ra l' ra' j c c' E E' H H'). }
  split; [exact A|]. intros m n1 n2 n3 hh1 hh2 hh3 g1 g2 g3 pos ss1 ss2 ss3 p1 p2 p3. cbv zeta.
  destruct (generate_commitment_share_lists r k n1) as [[pub1 sec1] ra1] eqn:E1, (generate_commitment_share_lists r k n2) as [[pub2 sec2] ra2] eqn:E2,
    (generate_commitment_share_lists r k n3) as [[pub3 sec3] ra3] eqn:E3. cbn [fst snd]. intros H1 H2 H3 Hd. try rewrite E1 in H1. try rewrite E2 in H2. try rewrite E3 in H3. cbn [fst snd] in H1, H2, H3.
  assert (B : forall h g l ss p, fst (sign m k h g l pos ss) = Ok p -> exists c, nth_error (sl_commitments l) (N.to_nat pos) = Some c).
  { intros h g l ss p H. destruct (sign m k h g l pos ss) as [o l'] eqn:E. cbn in H. subst o. apply sign_ok_inv in E. destruct E as [c [E _]]. exists c. exact E. }
  destruct (B _ _ _ _ _ H1) as [c1 C1], (B _ _ _ _ _ H2) as [c2 C2], (B _ _ _ _ _ H3) as [c3 C3].
  pose proof (A _ _ _ _ _ _ _ _ _ _ _ E1 E2 C1 C2) as <-. pose proof (A _ _ _ _ _ _ _ _ _ _ _ E1 E3 C1 C3) as <-.
  exact (C41_reuse_reveals_key S L m k c1 hh1 hh2 hh3 g1 g2 g3 sec1 sec2 sec3 pos pos pos ss1 ss2 ss3 p1 p2 p3 H1 C1 H2 C2 H3 C3 Hd).
Qed.
Print Assumptions C105_nonce_lists_from_one_state.

(** with a stuck generator all nonces of a list are one scalar, and two signatures reveal the key *)
Theorem C105_stuck_generator :
  forall (S : Suite) (L : SuiteLaws S) (m : build) (k : SigningKey) (r : Rng) (b : list byte) (n : nat) pub sec r1,
  rand_bytes hash_len r = (b, r) -> generate_commitment_share_lists r k n = (pub, sec, r1) ->
  forall (h1 h2 : list byte) (g1 g2 : G) (l1 l2 : SecretList) (i1 i2 : N) (ss1 ss2 : list Signer) c1 c2 p1 p2,
  nth_error (sl_commitments l1) (N.to_nat i1) = Some c1 -> In c1 (sl_commitments sec) -> fst (sign m k h1 g1 l1 i1 ss1) = Ok p1 ->
  nth_error (sl_commitments l2) (N.to_nat i2) = Some c2 -> In c2 (sl_commitments sec) -> fst (sign m k h2 g2 l2 i2 ss2) = Ok p2 ->
  let i := sk_index k in
  let b1 := (F1 + binding h1 ss1 i)%F in let b2 := (F1 + binding h2 ss2 i)%F in
  let w1 := (weight i (map sg_index ss1) * session_chal h1 g1 ss1)%F in
  let w2 := (weight i (map sg_index ss2) * session_chal h2 g2 ss2)%F in
  let det := (b1 * w2 - b2 * w1)%F in
  det <> F0 -> sk_key k = ((b1 * ps_z p2 - b2 * ps_z p1) * Finv det)%F.
Proof.
  intros S L m k r b n pub sec r1 Hr. unfold generate_commitment_share_lists. destruct (gen_shares k n r) as [l ra] eqn:E. intros [= <- <- <-].
  cbn [sl_commitments]. intros h1' h2' g1 g2 l1 l2 i1 i2 ss1 ss2 c1 c2 p1 p2 N1 I1 H1 N2 I2 H2. cbv zeta. intros Hd.
  rewrite (sign_value _ _ _ _ _ _ _ _ _ H1 N1), (sign_value _ _ _ _ _ _ _ _ _ H2 N2).
  destruct (gen_shares_stuck _ _ _ Hr _ _ _ E _ I1) as [-> ->]. destruct (gen_shares_stuck _ _ _ Hr _ _ _ E _ I2) as [-> ->].
  unfold partial_value. apply stuck_algebra. exact Hd.
Qed.
Print Assumptions C105_stuck_generator.

(** * Examples *)
(** dealers 1 and 2 created from seed 5: the challenges differ, and both secrets come out of their messages *)
Example C105_ex :
  (let* (d, co, x, _) := new_dealer (MkParams (u 3) (u 2)) (u 1) 5%N in
   let* (d', co', x', _) := new_dealer (MkParams (u 3) (u 2)) (u 2) 5%N in
   match pt_sk_proof d, pt_sk_proof d' with
   | Some pr, Some pr' =>
       Ok (negb (Feqb (nz_s (pt_dh_proof d)) (nz_s (pt_dh_proof d'))) && Feqb x (secret_of_proofs (pt_dh_proof d) (pt_dh_proof d')) &&
           negb (Feqb (nz_s pr) (nz_s pr')) && Feqb (hd x co) (secret_of_proofs pr pr') && negb (Feqb x (hd x co)))
   | _, _ => Panic
   end) = Ok true.
Proof. vms. Qed.
(** a round two entered twice from one saved session and generator state, the first share garbled at first and the second one
    the next time: the two complaints reveal the Diffie-Hellman key *)
Example C105_ex_complaints :
  let s := demo_r1 demo_ps 3 in
  let e := demo_shares 3 in
  let run es := got [] (let* (_, cs, _) := to_round_two Release s es 77%N in Ok cs) in
  match run (garbled (nth 0 e (garbled (nth 1 e (nth 2 e (MkEnc (u 0) (u 0) (fst (@gen_nonce Toy 0%N)) []))))) :: skipn 1 e),
        run (firstn 1 e ++ map garbled (firstn 1 (skipn 1 e)) ++ skipn 2 e) with
  | [c], [c'] =>
      match bget (es_sender (c_share c)) (ds_dhs (st1 s)), bget (es_sender (c_share c')) (ds_dhs (st1 s)) with
      | Some pk, Some pk' => negb (Feqb (challenge_of c pk) (challenge_of c' pk')) && Feqb (secret_of_complaints c pk c' pk') (ds_dh_sk (st1 s))
      | _, _ => false
      end
  | _, _ => false
  end = true.
Proof. vms. Qed.
(** two bootstraps of dealer 1 with different polynomials from one generator state *)
Example C105_ex_nonces :
  (let* (s, _, _) := bootstrap Debug demo_params (dealer_x 3 2 1 10) (u 1) (dealer_co 3 2 1 10) demo_ps 1001%N in
   let* (s', _, _) := bootstrap Debug demo_params (dealer_x 3 2 1 10) (u 1) [mk 8; mk 9] demo_ps 1001%N in
   let* es := their_encrypted_secret_shares s in let* es' := their_encrypted_secret_shares s' in
   match bget (u 2) es, bget (u 2) es' with
   | Some e, Some e' => Ok ((if list_eq_dec Byte.byte_eq_dec (nonce_bytes (es_nonce e)) (nonce_bytes (es_nonce e')) then true else false) &&
                            (if list_eq_dec Byte.byte_eq_dec (es_ct e) (es_ct e') then false else true))
   | _, _ => Panic
   end) = Ok true.
Proof. vms. Qed.
(** lists of 1, 2 and 3 pairs from seed 50 *)
Example C105_ex_lists :
  let ss := [ssigner 1 0; ssigner 3 0] in
  let l n := snd (fst (generate_commitment_share_lists (S := Toy) 50%N (skey 1) n)) in
  let z h n := match fst (sign Debug (skey 1) h sgroup (l n) 0 ss) with Ok p => ps_z p | _ => mk 0 end in
  let b h := binding h ss (u 1) in
  let w h := (weight (u 1) [u 1; u 3] * session_chal h sgroup ss)%F in
  let m1 := [x01] in let m2 := [x02] in let m3 := [x03] in
  let det := ((b m2 - b m1) * (w m3 - w m1) - (b m3 - b m1) * (w m2 - w m1))%F in
  Feqb det (mk 0) = false /\
  (((b m2 - b m1) * (z m3 3 - z m1 1) - (b m3 - b m1) * (z m2 2 - z m1 1)) * Finv det)%F = mk 1077.
Proof. vms. Qed.

(** the toy suite with a generator that always returns the same values *)
Definition stuck_suite (S : Suite) : Suite := {|
  F := @F S; F0 := @F0 S; F1 := @F1 S; Fadd := @Fadd S; Fsub := @Fsub S; Fmul := @Fmul S; Fopp := @Fopp S; Finv := @Finv S;
  Feqb := @Feqb S; of_u32 := @of_u32 S; G := @G S; Gzero := @Gzero S; Gadd := @Gadd S; Gopp := @Gopp S; Gmul := @Gmul S;
  gen := @gen S; Geqb := @Geqb S; enc_scalar := @enc_scalar S; dec_scalar := @dec_scalar S; enc_point := @enc_point S;
  dec_point := @dec_point S; context_string := @context_string S; inner_h2f := @inner_h2f S; sha256_h2f := @sha256_h2f S;
  inner_digest := @inner_digest S; hash_len := @hash_len S; hkdf := @hkdf S; nonce_len := @nonce_len S;
  aead_enc := @aead_enc S; aead_dec := @aead_dec S; Rng := unit; rand_scalar := fun _ => (@F1 S, tt); rand_bytes := fun n _ => (repeat x00 n, tt) |}.
Lemma stuck_laws (S : Suite) (L : SuiteLaws S) : SuiteLaws (stuck_suite S).
Proof. destruct L. constructor; try assumption. intros n r. cbn. apply repeat_length. Qed.
Example C105_ex_stuck :
  let T := stuck_suite Toy in
  let k := @MkSK T (u 1) (mk 1077) in
  let g := @generate_commitment_share_lists T tt k 2 in
  let pub := fst (fst g) in let sec := snd (fst g) in
  let ss j := [@MkSigner T (u 1) (nth j (@pl_commitments T pub) (mk 0, mk 0)); @MkSigner T (u 3) (mk 5, mk 6)] in
  let z h j := match fst (@sign T Debug k h (mk 7000) sec (N.of_nat j) (ss j)) with Ok p => @ps_z T p | _ => mk 0 end in
  let b h j := fadd (mk 1) (@binding T h (ss j) (u 1)) in
  let w h j := fmul (@weight T (u 1) [u 1; u 3]) (@session_chal T h (mk 7000) (ss j)) in
  let det := fsub (fmul (b [x01] 0) (w [x02] 1)) (fmul (b [x02] 1) (w [x01] 0)) in
  feqb det (mk 0) = false /\
  feqb (fmul (fsub (fmul (b [x01] 0) (z [x02] 1)) (fmul (b [x02] 1) (z [x01] 0))) (finv det)) (mk 1077) = true.
Proof. vms. Qed.
