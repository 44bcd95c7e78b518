(** C65: every secret, every proof and every encryption has its own randomness. *)
From Coq Require Import String Strings.Byte Arith NArith ZArith Bool List Lia.
From Verif Require Import Base Suite Spec SpecDkg SpecRandom Types Algebra BaseLemmas ModelDkg LemmasShare LemmasRound1 LemmasRound2 Toy Demo DemoDkg.
Import ListNotations.

Section Lemmas.
  Context {S : Suite} {L : SuiteLaws S}.

  Lemma drawn_app r l1 r1 : drawn r l1 r1 -> forall l2 r2, drawn r1 l2 r2 -> drawn r (l1 ++ l2) r2.
  Proof. induction 1; intros l2 r3 H3; cbn [app]; [exact H3|econstructor; eauto|econstructor; eauto]. Qed.

  Lemma rand_scalars_drawn k : forall r l r', rand_scalars k r = (l, r') -> drawn r (map DrawScalar l) r' /\ length l = k.
  Proof.
    induction k as [|k IH]; intros r l r'; cbn [rand_scalars].
    - intros [= <- <-]. split; [constructor|reflexivity].
    - destruct (rand_scalar r) as [a r1] eqn:E1. destruct (rand_scalars k r1) as [l' r2] eqn:E2. intros [= <- <-].
      destruct (IH _ _ _ E2) as [A B]. split; [econstructor; eauto|cbn; lia].
  Qed.

  Lemma nizk_prove_drawn i x r p r' : nizk_prove i x (gen * x)%G r = (p, r') ->
    exists k, rand_scalar r = (k, r') /\ proof_with k i x p.
  Proof.
    unfold nizk_prove. destruct (rand_scalar r) as [k r1]. intros [= <- <-]. exists k. split; [reflexivity|]. split; reflexivity.
  Qed.

  Lemma new_internal_drawn p i secret r d co x r' : new_internal p false i secret r = Ok (d, co, x, r') ->
    exists k1 k2 pr a0 rest, co = Some (a0 :: rest) /\ length rest = N.to_nat (u32v (p_t p)) - 1 /\ (1 <= u32v (p_t p))%N /\
      pt_dh_pk d = (gen * x)%G /\ pt_comm d = Some (MkVss i (committed (a0 :: rest))) /\
      proof_with k1 i x (pt_dh_proof d) /\ pt_sk_proof d = Some pr /\ proof_with k2 i a0 pr /\
      match secret with
      | Some s => a0 = s /\ drawn r (map DrawScalar (x :: k1 :: rest ++ [k2])) r'
      | None => drawn r (map DrawScalar (x :: k1 :: a0 :: rest ++ [k2])) r'
      end.
  Proof.
    unfold new_internal, u32_nat. destruct (u32_eqb i u32_zero); [discriminate|].
    destruct (rand_scalar r) as [x0 r1] eqn:E0. destruct (nizk_prove i x0 (gen * x0)%G r1) as [pf r2] eqn:E1.
    destruct (nizk_prove_drawn _ _ _ _ _ E1) as (k1 & K1 & P1).
    destruct (match secret with Some sk => (sk, r2) | None => rand_scalar r2 end) as [a0 r3] eqn:E2.
    destruct (rand_scalars (N.to_nat (u32v (p_t p)) - 1) r3) as [rest r4] eqn:E3.
    destruct (rand_scalars_drawn _ _ _ _ E3) as [D3 L3].
    destruct (N.to_nat (u32v (p_t p))) as [|t] eqn:Et; [discriminate|].
    cbn [firstn map]. unfold vss_public_key. cbn [vss_points].
    destruct (nizk_prove i a0 (gen * a0)%G r4) as [pr r5] eqn:E4.
    destruct (nizk_prove_drawn _ _ _ _ _ E4) as (k2 & K2 & P2). intros X. injection X as <- <- <- <-.
    exists k1, k2, pr, a0, rest. split; [reflexivity|]. split; [exact L3|]. split; [lia|]. split; [reflexivity|].
    split.
    { cbn [pt_comm]. unfold committed. cbn [map]. do 4 f_equal. apply firstn_all2. cbn in L3. lia. }
    split; [exact P1|]. split; [reflexivity|]. split; [exact P2|].
    assert (T : drawn r3 (map DrawScalar (rest ++ [k2])) r5).
    { rewrite map_app. apply (drawn_app _ _ _ D3). econstructor; [exact K2|constructor]. }
    destruct secret as [s|]; cbn [map].
    - injection E2 as <- <-. split; [reflexivity|]. econstructor; [exact E0|]. econstructor; [exact K1|exact T].
    - econstructor; [exact E0|]. econstructor; [exact K1|]. econstructor; [exact E2|exact T].
  Qed.

  Lemma encrypt_share_drawn s k r e r' : encrypt_share s k r = Ok (e, r') ->
    exists b, rand_bytes nonce_len r = (b, r') /\ length b = nonce_len /\ nonce_bytes (es_nonce e) = b.
  Proof.
    unfold encrypt_share, gen_nonce. pose proof (rand_bytes_len nonce_len r) as HL.
    destruct (rand_bytes nonce_len r) as [b r1] eqn:E. cbn [fst] in HL.
    destruct (aead_enc _ _ _); [|discriminate]. intros [= <- <-]. exists b. split; [reflexivity|]. split; [exact HL|].
    cbn [es_nonce nonce_bytes]. unfold pad. rewrite firstn_app, HL, Nat.sub_diag. cbn [firstn].
    rewrite app_nil_r. apply firstn_all2. lia.
  Qed.

  Lemma encrypt_all_drawn my x co ps : forall acc r es r', encrypt_all my x co ps acc r = Ok (es, r') ->
    exists bs, drawn r (map DrawBytes bs) r' /\ length bs = length ps /\ (forall b, In b bs -> length b = nonce_len) /\
      forall j e, bget j es = Some e ->
        (exists l1 p b l2, combine ps bs = l1 ++ (p, b) :: l2 /\ pt_index p = j /\
           (forall q c, In (q, c) l2 -> pt_index q <> j) /\ nonce_bytes (es_nonce e) = b) \/
        ((forall q c, In (q, c) (combine ps bs) -> pt_index q <> j) /\ bget j acc = Some e).
  Proof.
    induction ps as [|p ps IH]; intros acc r es r'; cbn [encrypt_all].
    - intros [= <- <-]. exists []. split; [constructor|]. split; [reflexivity|]. split; [intros b []|].
      intros j e H. right. split; [intros q c []|exact H].
    - destruct co as [cs|]; [|discriminate].
      destruct (encrypt_share _ _ r) as [[e0 r1]| |] eqn:E; cbn [bind]; try discriminate. intros E2.
      destruct (encrypt_share_drawn _ _ _ _ _ E) as (b & B1 & B2 & B3).
      destruct (IH _ _ _ _ E2) as (bs & D & H1 & H2 & H3). exists (b :: bs).
      split; [cbn [map]; econstructor; [exact B1|exact D]|]. split; [cbn; lia|].
      split; [intros c [<-|Hc]; [exact B2|apply H2, Hc]|].
      intros j e H. destruct (H3 j e H) as [(l1 & q & c & l2 & Q1 & Q2 & Q3 & Q4)|[Q1 Q2]].
      + left. exists ((p, b) :: l1), q, c, l2. cbn [combine app]. rewrite Q1. auto.
      + rewrite bget_binsert in Q2. destruct (u32_eqb j (pt_index p)) eqn:Ej.
        * injection Q2 as <-. apply u32_eqb_spec in Ej. left. exists [], p, b, (combine ps bs). auto.
        * right. split; [|exact Q2]. intros q c [Hq|Hq]; [injection Hq as <- <-; intros X; rewrite <- X, u32_eqb_refl in Ej; discriminate|apply (Q1 q c), Hq].
  Qed.

  Lemma new_state_drawn m params x my co ps fd fs r st lists r' :
    new_state_internal m params x my co ps fd fs r = Ok (st, lists, r') -> negb fd && fs = false ->
    exists bs es, ds_enc (st1 st) = Some es /\ drawn r (map DrawBytes bs) r' /\ nonces_from ps bs es.
  Proof.
    unfold new_state_internal. destruct (negb (N.eqb _ _)); [discriminate|].
    destruct (check_all _ _ _ _ _ _) as [a| |]; cbn [bind]; try discriminate.
    destruct (N.ltb _ _); [discriminate|]. intros H Hf. rewrite Hf in H. revert H.
    destruct (encrypt_all my x co ps [] r) as [[es r1]| |] eqn:E; cbn [bind]; try discriminate.
    destruct (u32_sub _ _ _) as [n'| |]; cbn [bind]; try discriminate.
    destruct (params_new _ _ _) as [q| |]; cbn [bind]; try discriminate. intros [= <- <- <-].
    destruct (encrypt_all_drawn _ _ _ _ _ _ _ _ E) as (bs & D & H1 & H2 & H3).
    exists bs, es. split; [reflexivity|]. split; [exact D|]. split; [exact H1|]. split; [exact H2|].
    intros j e H. destruct (H3 j e H) as [X|[_ X]]; [exact X|discriminate].
  Qed.

  Lemma round_two_loop_drawn m st es : forall sh cs r sh' cs' r', round_two_loop m st es sh cs r = Ok (sh', cs', r') ->
    exists ks new, cs' = cs ++ new /\ drawn r (map DrawScalar ks) r' /\
      Forall2 (complaint_with (ds_dhs st) (ds_dh_sk st)) ks new.
  Proof.
    induction es as [|e es IH]; intros sh cs r sh' cs' r'; cbn [round_two_loop].
    - intros [= <- <- <-]. exists [], []. split; [symmetry; apply app_nil_r|]. split; constructor.
    - destruct (is_debug m && _); [discriminate|]. destruct (bget (es_sender e) (ds_dhs st)) as [pk|] eqn:Ep; [|discriminate].
      destruct (ds_comms st) as [comms|]; [|discriminate].
      destruct (find _ comms) as [kc|].
      + unfold complaint_new. destruct (rand_scalar r) as [k r1] eqn:Ek. intros H.
        destruct (IH _ _ _ _ _ _ H) as (ks & new & E1 & D & F2).
        eexists (k :: ks), (_ :: new). split; [rewrite E1, <- app_assoc; reflexivity|].
        split; [cbn [map]; econstructor; [exact Ek|exact D]|]. constructor; [|exact F2].
        split; [reflexivity|]. split; [exists pk; split; [exact Ep|reflexivity]|]. eexists. reflexivity.
      + intros H. apply (IH _ _ _ _ _ _ H).
  Qed.
End Lemmas.

Theorem C65_new_dealer_randomness :
  forall (S : Suite) (L : SuiteLaws S) (p : Params) (i : u32) (r : Rng) d co x r',
  new_dealer p i r = Ok (d, co, x, r') ->
  exists k1 k2 pr a0 rest, co = a0 :: rest /\
    drawn r (map DrawScalar (x :: k1 :: co ++ [k2])) r' /\
    proof_with k1 i x (pt_dh_proof d) /\ pt_sk_proof d = Some pr /\ proof_with k2 i a0 pr.
Proof.
  intros S L p i r d co x r'. unfold new_dealer.
  destruct (new_internal p false i None r) as [[[[d0 c0] x0] r0]| |] eqn:E; cbn [bind]; try discriminate.
  destruct (new_internal_drawn _ _ _ _ _ _ _ _ E) as (k1 & k2 & pr & a0 & rest & -> & _ & _ & _ & _ & P1 & SP & P2 & D).
  intros [= <- <- <- <-]. exists k1, k2, pr, a0, rest. auto 10.
Qed.
Print Assumptions C65_new_dealer_randomness.

Theorem C65_new_signer_randomness :
  forall (S : Suite) (L : SuiteLaws S) (p : Params) (i : u32) (r : Rng) d x r',
  new_signer p i r = Ok (d, x, r') ->
  exists k, drawn r [DrawScalar x; DrawScalar k] r' /\ proof_with k i x (pt_dh_proof d).
Proof.
  intros S L p i r d x r'. unfold new_signer, new_internal. destruct (u32_eqb i u32_zero); [discriminate|].
  destruct (rand_scalar r) as [x0 r1] eqn:E0. destruct (nizk_prove i x0 (gen * x0)%G r1) as [pf r2] eqn:E1.
  cbn [bind]. intros [= <- <- <-]. destruct (nizk_prove_drawn _ _ _ _ _ E1) as (k1 & K1 & P1).
  exists k1. split; [|exact P1]. econstructor; [exact E0|]. econstructor; [exact K1|constructor].
Qed.
Print Assumptions C65_new_signer_randomness.

Theorem C65_bootstrap_randomness :
  forall (S : Suite) (L : SuiteLaws S) (m : build) (params : Params) (x : F) (my : u32) (co : list F)
         (ps : list Participant) (r : Rng) st lists r',
  bootstrap m params x my co ps r = Ok (st, lists, r') ->
  exists bs es, their_encrypted_secret_shares st = Ok es /\ drawn r (map DrawBytes bs) r' /\ nonces_from ps bs es.
Proof.
  intros S L m params x my co ps r st lists r' H.
  destruct (new_state_drawn _ _ _ _ _ _ _ _ _ _ _ _ H eq_refl) as (bs & es & E & D & N).
  exists bs, es. unfold their_encrypted_secret_shares. rewrite E. auto.
Qed.
Print Assumptions C65_bootstrap_randomness.

Theorem C65_new_draws_nothing :
  forall (S : Suite) (L : SuiteLaws S) (m : build) (params : Params) (x : F) (my : u32)
         (ps : list Participant) (r : Rng) st lists r',
  dkg_new m params x my ps r = Ok (st, lists, r') -> drawn r [] r'.
Proof.
  intros S L m params x my ps r st lists r' H. unfold dkg_new, new_state_internal in H.
  destruct (negb _); [discriminate|]. destruct (check_all _ _ _ _ _ _); try discriminate. cbn [bind] in H.
  destruct (N.ltb _ _); [discriminate|]. cbn [negb andb] in H.
  destruct (u32_sub _ _ _); try discriminate. cbn [bind] in H.
  destruct (params_new _ _ _); try discriminate. cbn [bind] in H. injection H as _ _ <-. constructor.
Qed.
Print Assumptions C65_new_draws_nothing.

Theorem C65_reshare_randomness :
  forall (S : Suite) (L : SuiteLaws S) (m : build) (params : Params) (sk : SigningKey)
         (ps : list Participant) (r : Rng) d es lists r',
  reshare m params sk ps r = Ok (d, es, lists, r') ->
  exists x k1 rest k2 pr bs,
    drawn r (map DrawScalar (x :: k1 :: rest ++ [k2]) ++ map DrawBytes bs) r' /\
    pt_dh_pk d = (gen * x)%G /\ pt_comm d = Some (MkVss (sk_index sk) (committed (sk_key sk :: rest))) /\
    proof_with k1 (sk_index sk) x (pt_dh_proof d) /\
    pt_sk_proof d = Some pr /\ proof_with k2 (sk_index sk) (sk_key sk) pr /\ nonces_from ps bs es.
Proof.
  intros S L m params sk ps r d es lists r'. unfold reshare.
  destruct (new_internal params false (sk_index sk) (Some (sk_key sk)) r) as [[[[d0 c0] x0] r0]| |] eqn:E; cbn [bind]; try discriminate.
  destruct (new_internal_drawn _ _ _ _ _ _ _ _ E) as (k1 & k2 & pr & a0 & rest & -> & _ & _ & PK & C & P1 & SP & P2 & -> & D).
  destruct (new_state_internal _ _ _ _ _ _ _ _ _) as [[[st l] r2]| |] eqn:E2; cbn [bind]; try discriminate.
  destruct (new_state_drawn _ _ _ _ _ _ _ _ _ _ _ _ E2 eq_refl) as (bs & es' & E3 & D2 & N).
  unfold their_encrypted_secret_shares. rewrite E3. cbn [bind]. intros [= <- <- <- <-].
  exists x0, k1, rest, k2, pr, bs. split; [apply (drawn_app _ _ _ D), D2|]. auto 10.
Qed.
Print Assumptions C65_reshare_randomness.

Theorem C65_round_two_randomness :
  forall (S : Suite) (L : SuiteLaws S) (m : build) (st : DkgState) (es : list EncShare) (r : Rng),
  (forall s2 cs r', to_round_two m (R1 st) es r = Ok (s2, cs, r') ->
     exists ks, drawn r (map DrawScalar ks) r' /\ Forall2 (complaint_with (ds_dhs st) (ds_dh_sk st)) ks cs) /\
  (forall cs, to_round_two m (R1 st) es r = Err (ComplaintErr cs) ->
     exists ks r', drawn r (map DrawScalar ks) r' /\ Forall2 (complaint_with (ds_dhs st) (ds_dh_sk st)) ks cs).
Proof.
  intros S L m st es r. unfold to_round_two. cbn [st1 ds_params ds_index ds_dh_sk ds_dh_pk ds_comms ds_dhs ds_enc ds_shares].
  destruct (N.ltb _ _); [split; intros; discriminate|].
  destruct (round_two_loop _ _ _ _ _ _) as [[[sh cs0] r0]|e|] eqn:E; cbn [bind].
  - destruct (round_two_loop_drawn _ _ _ _ _ _ _ _ _ E) as (ks & new & -> & D & F2). cbn [app ds_dhs ds_dh_sk] in F2 |- *.
    destruct (u32_sub m _ _) as [rem| |] eqn:Eu; cbn [bind].
    + destruct (u32_ltb _ _); split; intros.
      * discriminate.
      * injection H as <-. eauto.
      * injection H as _ <- <-. eauto.
      * discriminate.
    + split; intros; [discriminate|]. injection H as ->. unfold u32_sub in Eu. destruct (u32_ltb _ _), m; discriminate.
    + split; intros; discriminate.
  - split; intros; [discriminate|]. injection H as ->. exfalso. clear -E.
    assert (X : forall es sh cs r c, round_two_loop m (MkState (ds_params st) (ds_index st) (ds_dh_sk st) (ds_dh_pk st) (ds_comms st) (ds_dhs st) None (ds_shares st)) es sh cs r <> Err (ComplaintErr c)).
    { clear. induction es as [|e es IH]; intros sh cs r c; cbn [round_two_loop]; [discriminate|].
      destruct (is_debug m && _); [discriminate|]. cbn [ds_dhs ds_comms ds_dh_sk].
      destruct (bget _ _); [|discriminate]. destruct (ds_comms st); [|discriminate].
      destruct (find _ _); [destruct (complaint_new _ _ _ _ _)|]; apply IH. }
    apply (X _ _ _ _ _ E).
  - split; intros; discriminate.
Qed.
Print Assumptions C65_round_two_randomness.

(** a dealer with threshold two takes five scalars; its three shares take three different nonces; a victim of
    two bad shares makes its two complaints with different one-time points *)
Example C65_ex :
  (let* (d, co, x, r') := new_dealer (MkParams (u 3) (u 2)) (u 1) 10%N in
   let (y, r1) := rand_scalar 10%N in let (k1, r2) := rand_scalar r1 in let (a0, r3) := rand_scalar r2 in
   let (a1, r4) := rand_scalar r3 in let (k2, r5) := rand_scalar r4 in
   Ok (N.eqb r' r5 && Feqb x y && Feqb (nth 0 co x) a0 && Feqb (nth 1 co x) a1 && negb (Feqb k1 k2))) = Ok true /\
  (let* es := their_encrypted_secret_shares (demo_r1 demo_ps 1) in
   Ok (length (nodup (list_eq_dec Byte.byte_eq_dec) (map (fun ke => nonce_bytes (es_nonce (snd ke))) es)))) = Ok 3 /\
  (let* (_, cs, _) := to_round_two Release (R1 (MkState (MkParams (u 3) (u 1)) (u 3) (ds_dh_sk (st1 (demo_r1 demo_ps 3)))
      (ds_dh_pk (st1 (demo_r1 demo_ps 3))) (ds_comms (st1 (demo_r1 demo_ps 3))) (ds_dhs (st1 (demo_r1 demo_ps 3))) None None))
      (map garbled (firstn 2 (demo_shares 3))) 77%N in
   Ok (length (nodup Z.eq_dec (map (fun c => fv (cp_a1 (c_proof c))) cs)))) = Ok 2.
Proof. vms. Qed.
