(** C129: how much work a call is. *)
From Coq Require Import String Strings.Byte Arith NArith ZArith Bool List Lia Permutation.
From Verif Require Import Base Suite Spec SpecDkg Types Algebra BaseLemmas ModelDkg ModelSign ModelCost
  LemmasShare LemmasRound1 LemmasRound2 LemmasFinish LemmasSign Toy Demo DemoDkg DemoSign PropsFinish PropsAgg.
Import ListNotations.

Section Val.
  Context {S : Suite}.
  Lemma fst_cbind {A B} (x : counted A) (f : A -> counted B) : fst (cbind x f) = fst (f (fst x)).
  Proof. destruct x as [a w]. cbn [cbind fst]. destruct (f a). reflexivity. Qed.
  Lemma fst_rbind {A B} (x : counted (result A)) (f : A -> counted (result B)) : fst (rbind x f) = bind (fst x) (fun a => fst (f a)).
  Proof. unfold rbind. rewrite fst_cbind. destruct (fst x); reflexivity. Qed.
  Lemma fst_if {A} (b : bool) (x y : A * work) : fst (if b then x else y) = if b then fst x else fst y.
  Proof. destruct b; reflexivity. Qed.
  Lemma bind_ext {A B} (x : result A) (f g : A -> result B) : (forall a, f a = g a) -> bind x f = bind x g.
  Proof. intros H. destruct x; cbn; auto. Qed.
End Val.
Ltac vals := repeat first [rewrite fst_rbind | rewrite fst_cbind | progress cbn [fst free mulG hashing]
  | match goal with |- context [@fst ?A ?B ?e] => match e with (if ?b then ?x else ?y) =>
      replace (@fst A B e) with (if b then @fst A B x else @fst A B y) by (destruct b; reflexivity) end end].

Section Values.
  Context {S : Suite}.
  Lemma hiding_loop_val x len : forall l k s, fst (c_hiding_loop x len k l s) = hiding_loop x len k l s.
  Proof. induction l as [|c l IH]; intros k s; cbn [c_hiding_loop hiding_loop]; [reflexivity|]. vals. rewrite IH. destruct (negb _); reflexivity. Qed.
  Lemma share_verify_val s c : fst (c_share_verify s c) = share_verify s c.
  Proof. unfold c_share_verify, c_evaluate_hiding. vals. rewrite hiding_loop_val. reflexivity. Qed.
  Lemma nizk_prove_val i sk pk r : fst (c_nizk_prove i sk pk r) = nizk_prove i sk pk r.
  Proof. unfold c_nizk_prove, nizk_prove. destruct (rand_scalar r) as [k r']. vals. reflexivity. Qed.
  Lemma nizk_verify_val p i pk : fst (c_nizk_verify p i pk) = nizk_verify p i pk.
  Proof. unfold c_nizk_verify. vals. reflexivity. Qed.
  Lemma complaint_new_val pk x sh e r : fst (c_complaint_new pk x sh e r) = complaint_new pk x sh e r.
  Proof. unfold c_complaint_new, complaint_new. destruct (rand_scalar r) as [k r']. vals. reflexivity. Qed.
  Lemma complaint_verify_val c pk : fst (c_complaint_verify c pk) = complaint_verify c pk.
  Proof. unfold c_complaint_verify, complaint_verify. vals. reflexivity. Qed.
  Lemma commit_val l : fst (c_commit l) = map (fun a => (gen * a)%G) l.
  Proof. induction l as [|a l IH]; cbn [c_commit map]; [reflexivity|]. vals. rewrite IH. reflexivity. Qed.
  Lemma new_internal_val p b i s r : fst (c_new_internal p b i s r) = new_internal p b i s r.
  Proof.
    unfold c_new_internal, new_internal. destruct (u32_eqb i u32_zero); [reflexivity|]. destruct (rand_scalar r) as [x r1]. vals.
    rewrite nizk_prove_val. destruct (nizk_prove i x _ r1) as [pr r2]. vals. destruct b; [reflexivity|].
    destruct (match s with Some sk => (sk, r2) | None => rand_scalar r2 end) as [a0 r3]. destruct (rand_scalars _ r3) as [rest r4]. vals.
    rewrite commit_val. destruct (vss_public_key _); [|reflexivity]. vals. rewrite nizk_prove_val. destruct (nizk_prove i a0 _ r4). reflexivity.
  Qed.
  Lemma new_dealer_val p i r : fst (c_new_dealer p i r) = new_dealer p i r.
  Proof. unfold c_new_dealer, new_dealer. vals. rewrite new_internal_val. apply bind_ext. intros [[[d co] x] r']. destruct co; reflexivity. Qed.
  Lemma new_signer_val p i r : fst (c_new_signer p i r) = new_signer p i r.
  Proof. unfold c_new_signer, new_signer. vals. rewrite new_internal_val. apply bind_ext. intros [[[d co] x] r']. reflexivity. Qed.
  Lemma check_one_val m params fd fs p a : fst (c_check_one m params fd fs p a) = check_one m params fd fs p a.
  Proof.
    unfold c_check_one, check_one. vals. rewrite nizk_verify_val. destruct (is_ok _); [|reflexivity]. destruct fs; [|reflexivity].
    destruct (part_public_key p); [|reflexivity]. destruct (pt_sk_proof p); [|reflexivity]. vals. rewrite nizk_verify_val. reflexivity.
  Qed.
  Lemma check_all_val m params fd fs : forall ps a, fst (c_check_all m params fd fs ps a) = check_all m params fd fs ps a.
  Proof. induction ps as [|p ps IH]; intros a; cbn [c_check_all check_all]; [reflexivity|]. vals. rewrite check_one_val. apply bind_ext. exact IH. Qed.
  Lemma encrypt_all_val i x co : forall ps acc r, fst (c_encrypt_all i x co ps acc r) = encrypt_all i x co ps acc r.
  Proof.
    induction ps as [|p ps IH]; intros acc r; cbn [c_encrypt_all encrypt_all]; [reflexivity|]. destruct co as [cs|]; [|reflexivity]. vals.
    apply bind_ext. intros [e r']. apply IH.
  Qed.
  Lemma new_state_internal_val m params x i co ps fd fs r : fst (c_new_state_internal m params x i co ps fd fs r) = new_state_internal m params x i co ps fd fs r.
  Proof.
    unfold c_new_state_internal, new_state_internal. vals. destruct (negb _); [reflexivity|]. rewrite check_all_val. apply bind_ext. intros a. vals.
    destruct (N.ltb _ _); [reflexivity|]. destruct (_ && _); [reflexivity|]. rewrite encrypt_all_val. apply bind_ext. intros [es r']. reflexivity.
  Qed.
  Lemma reshare_val m params sk ss r : fst (c_reshare m params sk ss r) = reshare m params sk ss r.
  Proof.
    unfold c_reshare, reshare. vals. rewrite new_internal_val. apply bind_ext. intros [[[d co] x] r1]. destruct co as [cs|]; [|reflexivity]. vals.
    rewrite new_state_internal_val. apply bind_ext. intros [[st l] r2]. reflexivity.
  Qed.
  Lemma check_share_val i d : forall comms, fst (c_check_share i d comms) =
    match find (fun kc => u32_eqb (fst kc) i && bad_share d (snd kc)) comms with Some _ => true | None => false end.
  Proof.
    induction comms as [|[k c] comms IH]; cbn [c_check_share find fst snd]; [reflexivity|]. destruct (u32_eqb k i); cbn [andb]; [|exact IH]. vals.
    unfold bad_share. destruct d as [s|e|]; vals; [|reflexivity|reflexivity]. rewrite share_verify_val. destruct (negb _); [reflexivity|exact IH].
  Qed.
  Lemma round_two_loop_val m st : forall es sh cs r, fst (c_round_two_loop m st es sh cs r) = round_two_loop m st es sh cs r.
  Proof.
    induction es as [|e es IH]; intros sh cs r; cbn [c_round_two_loop round_two_loop]; [reflexivity|]. destruct (_ && _); [reflexivity|].
    destruct (bget _ _) as [pk|]; [|reflexivity]. vals. destruct (ds_comms st) as [comms|]; [|reflexivity]. vals. rewrite check_share_val.
    destruct (find _ comms); vals.
    - rewrite complaint_new_val. destruct (complaint_new _ _ _ _ _) as [c r1]. vals. apply IH.
    - apply IH.
  Qed.
  Lemma to_round_two_val m s es r : fst (c_to_round_two m s es r) = to_round_two m s es r.
  Proof. unfold c_to_round_two, to_round_two. vals. cbn [ds_params]. destruct (N.ltb _ _); [reflexivity|]. rewrite round_two_loop_val. apply bind_ext. intros [[sh cs] r']. reflexivity. Qed.
  Lemma group_key_loop_val idx : forall comms k, fst (c_group_key_loop idx comms k) = group_key_loop idx comms k.
  Proof.
    induction comms as [|[i c] comms IH]; intros k; cbn [c_group_key_loop group_key_loop]; [reflexivity|]. vals. apply bind_ext. intros co.
    destruct (vss_public_key c); [|reflexivity]. vals. apply IH.
  Qed.
  Lemma finish_val s : fst (c_finish s) = finish s.
  Proof.
    unfold c_finish, finish, calculate_group_key. vals. apply bind_ext. intros sk. vals. destruct (ds_comms (st2 s)); [|reflexivity].
    rewrite group_key_loop_val. reflexivity.
  Qed.
  Lemma blame_one_val st c : fst (c_blame_one st c) = blame_one st c.
  Proof.
    unfold c_blame_one, blame_one. destruct (_ || _); [reflexivity|]. destruct (ds_comms st) as [comms|]; [|reflexivity].
    destruct (bget _ comms) as [com|]; [|reflexivity]. vals. rewrite complaint_verify_val. destruct (negb _); [reflexivity|].
    destruct (decrypt_share _ _); [|reflexivity|reflexivity]. vals. rewrite share_verify_val. reflexivity.
  Qed.
  Lemma blame_loop_val st : forall cs l, fst (c_blame_loop st cs l) = blame_loop st cs l.
  Proof. induction cs as [|c cs IH]; intros l; cbn [c_blame_loop blame_loop]; [reflexivity|]. vals. rewrite blame_one_val. apply bind_ext. intros v. apply IH. Qed.
  Lemma blame_val s cs : fst (c_blame s cs) = blame s cs.
  Proof. unfold c_blame, blame. vals. rewrite blame_loop_val. reflexivity. Qed.
  Lemma ivk_verify_loop_val x idx : forall cs k, fst (c_ivk_verify_loop x idx cs k) = ivk_verify_loop x idx cs k.
  Proof.
    induction cs as [|c cs IH]; intros k; cbn [c_ivk_verify_loop ivk_verify_loop]; [reflexivity|]. vals. rewrite hiding_loop_val.
    destruct (lagrange _ _); [|reflexivity|reflexivity]. vals. apply IH.
  Qed.
  Lemma ivk_verify_val k cs : fst (c_ivk_verify k cs) = ivk_verify k cs.
  Proof. unfold c_ivk_verify, ivk_verify. vals. rewrite ivk_verify_loop_val. reflexivity. Qed.
  Lemma ivk_generate_loop_val x idx : forall cs k, fst (c_ivk_generate_loop x idx cs k) = ivk_generate_loop x idx cs k.
  Proof.
    induction cs as [|c cs IH]; intros k; cbn [c_ivk_generate_loop ivk_generate_loop]; [reflexivity|]. vals. rewrite hiding_loop_val.
    apply bind_ext. intros co. vals. apply IH.
  Qed.
  Lemma ivk_generate_val k cs : fst (c_ivk_generate k cs) = ivk_generate k cs.
  Proof. unfold c_ivk_generate, ivk_generate. vals. rewrite ivk_generate_loop_val. reflexivity. Qed.
  Lemma nonce_generate_val k r : fst (c_nonce_generate k r) = nonce_generate k r.
  Proof. unfold c_nonce_generate, nonce_generate. destruct (rand_bytes _ r). reflexivity. Qed.
  Lemma gen_shares_val k : forall n r, fst (c_gen_shares k n r) = gen_shares k n r.
  Proof.
    induction n as [|n IH]; intros r; cbn [c_gen_shares gen_shares]; [reflexivity|]. unfold nonce_pair. vals. rewrite nonce_generate_val.
    destruct (nonce_generate k r) as [d r1]. vals. rewrite nonce_generate_val. destruct (nonce_generate k r1) as [e r2]. vals. rewrite IH.
    destruct (gen_shares k n r2). reflexivity.
  Qed.
  Lemma generate_lists_val r k n : fst (c_generate_lists r k n) = generate_commitment_share_lists r k n.
  Proof. unfold c_generate_lists, generate_commitment_share_lists. vals. rewrite gen_shares_val. destruct (gen_shares k n r). reflexivity. Qed.
  Lemma binding_loop_val pre : forall l acc, fst (c_binding_loop pre l acc) = binding_loop pre l acc.
  Proof. induction l as [|[[i h] b] l IH]; intros acc; cbn [c_binding_loop binding_loop]; [reflexivity|]. vals. apply IH. Qed.
  Lemma binding_factors_val mh ss : fst (c_compute_binding_factors mh ss) = compute_binding_factors mh ss.
  Proof. unfold c_compute_binding_factors, compute_binding_factors. vals. apply bind_ext. intros enc. vals. rewrite binding_loop_val. reflexivity. Qed.
  Lemma commitment_for_val i mh ss : fst (c_commitment_for_participant i mh ss) = commitment_for_participant i mh ss.
  Proof. unfold c_commitment_for_participant, commitment_for_participant. destruct (pair_of i ss _) as [h b]. vals. apply bind_ext. intros enc. vals. reflexivity. Qed.
  Lemma group_commitment_val bf : forall ss acc, fst (c_group_commitment_loop ss bf acc) = group_commitment_loop ss bf acc.
  Proof. induction ss as [|s ss IH]; intros acc; cbn [c_group_commitment_loop group_commitment_loop]; [reflexivity|]. vals. apply bind_ext. intros rho. vals. apply IH. Qed.
  Lemma sign_val m k mh gk l idx ss : fst (c_sign m k mh gk l idx ss) = sign m k mh gk l idx ss.
  Proof.
    unfold c_sign, sign, compute_group_commitment. destruct (usize_succ m idx); [|reflexivity|reflexivity]. destruct (N.ltb _ _); [reflexivity|]. vals.
    rewrite binding_factors_val. destruct (compute_binding_factors mh ss); cbn [bind]; [|reflexivity|reflexivity]. vals.
    destruct (binding_factor_for_participant _ _); cbn [bind]; [|reflexivity|reflexivity]. vals. rewrite group_commitment_val.
    destruct (group_commitment_loop _ _ _); cbn [bind]; [|reflexivity|reflexivity]. vals.
    destruct (lagrange _ _); cbn [bind]; [|reflexivity|reflexivity]. vals. destruct (nthN _ _); [|reflexivity]. vals. reflexivity.
  Qed.
  Lemma sig_verify_val s gk mh : fst (c_sig_verify s gk mh) = sig_verify s gk mh.
  Proof. unfold c_sig_verify, c_challenge. vals. reflexivity. Qed.
  Lemma finalize_val a : fst (c_finalize a) = finalize a.
  Proof. unfold c_finalize. destruct (finalize a); reflexivity. Qed.
  Lemma find_bad_val st mh c idx : forall ss l, fst (c_find_bad st mh c idx ss l) = find_bad st mh c idx ss l.
  Proof.
    induction ss as [|s ss IH]; intros l; cbn [c_find_bad find_bad]; [reflexivity|]. vals. apply bind_ext. intros lam.
    destruct (bget _ (ag_partials st)); [|reflexivity]. destruct (bget _ (ag_keys st)); [|reflexivity]. vals. rewrite commitment_for_val.
    apply bind_ext. intros R. vals. apply IH.
  Qed.
  Lemma aggregate_val a : fst (c_aggregate a) = aggregate a.
  Proof.
    unfold c_aggregate, aggregate, compute_group_commitment. vals. rewrite binding_factors_val. apply bind_ext. intros bf. vals.
    rewrite group_commitment_val. apply bind_ext. intros R. unfold c_challenge. vals. apply bind_ext. intros z. vals. rewrite sig_verify_val.
    destruct (is_ok _); [reflexivity|]. rewrite find_bad_val. reflexivity.
  Qed.
End Values.

(** what one reads off: multiplications of points, hashed bytes *)
Definition muls {A} (c : counted A) : nat := wk_mul (snd c).
Definition hashed {A} (c : counted A) : nat := wk_hash (snd c).
(** at most *)
Definition wle (a b : work) : Prop := wk_mul a <= wk_mul b /\ wk_hash a <= wk_hash b.
(** a list of works *)
Definition wsum (l : list work) : work := fold_right wplus (Work 0 0) l.

Section Work.
  Context {S : Suite} {L : SuiteLaws S}.
  Definition plen : nat := length (enc_point gen).
  Lemma snd_cbind {A B} (x : counted A) (f : A -> counted B) : snd (cbind x f) = wplus (snd x) (snd (f (fst x))).
  Proof. destruct x as [a w]. cbn [cbind fst snd]. destruct (f a). reflexivity. Qed.
  Lemma snd_rbind {A B} (x : counted (result A)) (f : A -> counted (result B)) :
    snd (rbind x f) = wplus (snd x) match fst x with Ok a => snd (f a) | _ => Work 0 0 end.
  Proof. unfold rbind. rewrite snd_cbind. destruct (fst x); reflexivity. Qed.
  Lemma wplus_0_r w : wplus w (Work 0 0) = w.
  Proof. destruct w. unfold wplus. cbn. f_equal; lia. Qed.
  Lemma plen_eq P : length (enc_point P) = plen.
  Proof. apply enc_point_len. Qed.
End Work.
Ltac wks := repeat first [rewrite snd_rbind | rewrite snd_cbind | rewrite fst_rbind | rewrite fst_cbind | progress cbn [fst snd free mulG hashing]].
Ltac cost := unfold wle, wplus in *; cbn [wk_mul wk_hash length] in *; try (split; nia); try (f_equal; nia); try nia.

Section Works.
  Context {S : Suite} {L : SuiteLaws S}.
  Lemma nizk_message_len i pk m : length (nizk_message i pk m) = 4 + 2 * plen.
  Proof. unfold nizk_message. rewrite !app_length, u32_le_len, !plen_eq. lia. Qed.
  Lemma complaint_message_len a b c d e f : length (complaint_message a b c d e f) = 5 * plen + length (ser_encshare f).
  Proof. unfold complaint_message. rewrite !app_length, !plen_eq. lia. Qed.
  Lemma hiding_work x len : forall l k s, len = k + length l -> snd (c_hiding_loop x len k l s) = Work (length l - 1) 0.
  Proof.
    induction l as [|c l IH]; intros k s H; cbn [c_hiding_loop]; [reflexivity|]. wks. cbn [length] in H.
    rewrite (IH (k + 1)) by lia. destruct (Nat.eqb_spec k (len - 1)); cbn [negb]; wks; destruct l; cbn [length] in *; cost.
  Qed.
  Lemma hiding_work' x l : snd (c_hiding_loop x (length l) 0 (rev l) Gzero) = Work (length l - 1) 0.
  Proof. rewrite hiding_work by (rewrite rev_length; reflexivity). rewrite rev_length. reflexivity. Qed.
  Lemma share_verify_work s c : snd (c_share_verify s c) = Work (Nat.max 1 (length (vss_points c))) 0.
  Proof. unfold c_share_verify, c_evaluate_hiding. wks. rewrite hiding_work'. cost. Qed.
  Lemma nizk_prove_work i sk pk r : snd (c_nizk_prove i sk pk r) = Work 1 (4 + 2 * plen).
  Proof. unfold c_nizk_prove. destruct (rand_scalar r) as [k r']. wks. rewrite nizk_message_len. cost. Qed.
  Lemma nizk_verify_work p i pk : snd (c_nizk_verify p i pk) = Work 2 (4 + 2 * plen).
  Proof. unfold c_nizk_verify. wks. rewrite nizk_message_len. cost. Qed.
  Lemma complaint_new_work pk x sh e r : snd (c_complaint_new pk x sh e r) = Work 3 (5 * plen + length (ser_encshare e)).
  Proof. unfold c_complaint_new. destruct (rand_scalar r) as [k r']. wks. rewrite complaint_message_len. cost. Qed.
  Lemma complaint_verify_work c pk : exists k, (k = 2 \/ k = 4) /\ (complaint_verify c pk = Ok tt -> k = 4) /\
    snd (c_complaint_verify c pk) = Work k (5 * plen + length (ser_encshare (c_share c))).
  Proof.
    unfold c_complaint_verify, complaint_verify. wks. rewrite complaint_message_len. destruct (negb _); wks.
    - exists 2. split; [auto|]. split; [discriminate|cost].
    - destruct (negb _); wks; exists 4; (split; [auto|]); (split; [auto|cost]).
  Qed.
  Lemma commit_work l : snd (c_commit l) = Work (length l) 0.
  Proof. induction l as [|a l IH]; cbn [c_commit]; [reflexivity|]. wks. rewrite IH. cost. Qed.
  Lemma rand_scalars_length k : forall r, length (fst (rand_scalars k r)) = k.
  Proof. induction k as [|k IH]; intros r; cbn [rand_scalars]; [reflexivity|]. destruct (rand_scalar r) as [a r1]. specialize (IH r1). destruct (rand_scalars k r1). cbn in *. lia. Qed.
  Lemma new_internal_work p i s r : i <> u32_zero -> 1 <= u32_nat (p_t p) ->
    snd (c_new_internal p false i s r) = Work (u32_nat (p_t p) + 3) (2 * (4 + 2 * plen)).
  Proof.
    intros Hi Ht. unfold c_new_internal. apply u32_eqb_neq in Hi. rewrite Hi. destruct (rand_scalar r) as [x r1]. wks. rewrite nizk_prove_work.
    destruct (fst (c_nizk_prove i x _ r1)) as [pr r2]. destruct (match s with Some sk => (sk, r2) | None => rand_scalar r2 end) as [a0 r3].
    pose proof (rand_scalars_length (u32_nat (p_t p) - 1) r3) as Hl. destruct (rand_scalars _ r3) as [rest r4]. cbn [fst] in Hl. wks.
    rewrite commit_work, commit_val, firstn_length. replace (Nat.min _ _) with (u32_nat (p_t p)) by (cbn [length]; lia).
    destruct (u32_nat (p_t p)) as [|t]; [lia|]. cbn [firstn map vss_public_key vss_points hd_error]. wks. rewrite nizk_prove_work.
    destruct (fst (c_nizk_prove _ _ _ _)). wks. cost.
  Qed.
  Lemma new_internal_signer_work p i s r : i <> u32_zero -> snd (c_new_internal p true i s r) = Work 2 (4 + 2 * plen).
  Proof.
    intros Hi. unfold c_new_internal. apply u32_eqb_neq in Hi. rewrite Hi. destruct (rand_scalar r) as [x r1]. wks. rewrite nizk_prove_work.
    destruct (fst (c_nizk_prove i x _ r1)) as [pr r2]. wks. cost.
  Qed.
  (** checking the list *)
  Definition per (fs : bool) : work := if fs then Work 4 (2 * (4 + 2 * plen)) else Work 2 (4 + 2 * plen).
  Lemma check_one_work m params fd fs p a : wle (snd (c_check_one m params fd fs p a)) (per fs) /\
    forall a', check_one m params fd fs p a = Ok a' -> acc_mis a' = acc_mis a -> snd (c_check_one m params fd fs p a) = per fs.
  Proof.
    assert (N0 : forall (l : list u32) x, l ++ [x] = l -> False) by (intros l x H; apply (f_equal (@length u32)) in H; rewrite app_length in H; cbn in H; lia).
    unfold c_check_one, check_one, per. wks. rewrite nizk_verify_val, nizk_verify_work.
    destruct (is_ok (nizk_verify _ _ _)); [|wks; split; [destruct fs; cost|]; intros a' [= <-] H; cbn [acc_flag acc_mis] in H; destruct (N0 _ _ H)].
    destruct fs; [|wks; split; [cost|intros; cost]].
    destruct (part_public_key p); [|wks; split; [cost|]; intros a' [= <-] H; cbn [acc_flag acc_mis] in H; destruct (N0 _ _ H)].
    destruct (pt_sk_proof p); [|wks; split; [cost|discriminate]]. wks. rewrite nizk_verify_work. split; [cost|intros; cost].
  Qed.
  Lemma check_one_mis m params fd fs p a a' : check_one m params fd fs p a = Ok a' -> exists l, acc_mis a' = acc_mis a ++ l.
  Proof.
    unfold check_one. intros H. repeat match type of H with context [if ?b then _ else _] => destruct b | context [match ?o with Some _ => _ | None => _ end] => destruct o end;
      try discriminate H; injection H as <-; cbn [acc_mis acc_flag]; ((exists []; rewrite app_nil_r; reflexivity) || (eexists; reflexivity)).
  Qed.
  Lemma check_all_mis m params fd fs : forall ps a a', check_all m params fd fs ps a = Ok a' -> exists l, acc_mis a' = acc_mis a ++ l.
  Proof.
    induction ps as [|p ps IH]; intros a a' H; cbn [check_all] in H; [injection H as <-; exists []; rewrite app_nil_r; reflexivity|].
    destruct (check_one _ _ _ _ _ _) as [a1| |] eqn:E; cbn [bind] in H; try discriminate H. destruct (IH _ _ H) as (l & El).
    destruct (check_one_mis _ _ _ _ _ _ _ E) as (l' & El'). exists (l' ++ l). rewrite El, El', app_assoc. reflexivity.
  Qed.
  Lemma check_all_work m params fd fs : forall ps a,
    wle (snd (c_check_all m params fd fs ps a)) (Work (length ps * wk_mul (per fs)) (length ps * wk_hash (per fs))) /\
    forall a', check_all m params fd fs ps a = Ok a' -> acc_mis a' = acc_mis a ->
      snd (c_check_all m params fd fs ps a) = Work (length ps * wk_mul (per fs)) (length ps * wk_hash (per fs)).
  Proof.
    induction ps as [|p ps IH]; intros a; cbn [c_check_all check_all]; [split; [wks; cost|intros; wks; cost]|]. wks. rewrite check_one_val.
    destruct (check_one_work m params fd fs p a) as [A B]. destruct (check_one _ _ _ _ _ _) as [a1| |] eqn:E; cbn [bind].
    - destruct (IH a1) as [C D]. split; [cost|]. intros a' H H0. destruct (check_one_mis _ _ _ _ _ _ _ E) as (l1 & E1). destruct (check_all_mis _ _ _ _ _ _ _ H) as (l2 & E2).
      assert (l1 = [] /\ l2 = []) as [-> ->].
      { rewrite H0, E1, <- app_assoc in E2. apply (f_equal (@length u32)) in E2. rewrite !app_length in E2. destruct l1, l2; cbn in E2; auto; lia. }
      rewrite app_nil_r in E1, E2. rewrite (B a1 eq_refl E1), (D a' H E2). cost.
    - split; [cost|discriminate].
    - split; [cost|discriminate].
  Qed.
  Lemma encrypt_all_work i x co : forall ps acc r, wle (snd (c_encrypt_all i x co ps acc r)) (Work (length ps) 0) /\
    (forall y, encrypt_all i x co ps acc r = Ok y -> snd (c_encrypt_all i x co ps acc r) = Work (length ps) 0).
  Proof.
    induction ps as [|p ps IH]; intros acc r; cbn [c_encrypt_all encrypt_all]; [split; [wks; cost|reflexivity]|]. destruct co as [cs|]; [|wks; split; [cost|discriminate]]. wks.
    destruct (encrypt_share _ _ r) as [[e r']| |]; cbn [bind]; [|split; [cost|discriminate]|split; [cost|discriminate]].
    destruct (IH (binsert (pt_index p) e acc) r') as [A B]. split; [cost|]. intros y Hy. rewrite (B y Hy). cost.
  Qed.
  (** the first round: [enc] says whether shares are encrypted *)
  Definition one (fd fs : bool) (n : nat) : work :=
    Work (1 + n * (wk_mul (per fs) + if negb fd && fs then 0 else 1)) (n * wk_hash (per fs)).
  Lemma state_work m params x i co ps fd fs r :
    wle (snd (c_new_state_internal m params x i co ps fd fs r)) (one fd fs (length ps)) /\
    forall st l r', new_state_internal m params x i co ps fd fs r = Ok (st, l, r') -> pl_mis l = None ->
      snd (c_new_state_internal m params x i co ps fd fs r) = one fd fs (length ps).
  Proof.
    unfold c_new_state_internal, new_state_internal, one. wks.
    destruct (negb (N.eqb _ _)); [wks; split; [cost|discriminate]|]. wks. rewrite check_all_val.
    destruct (check_all_work m params fd fs ps (MkAcc [] [] [] [])) as [A B].
    destruct (check_all _ _ _ _ _ _) as [a| |] eqn:E; cbn [bind]; [|split; [cost|discriminate]|split; [cost|discriminate]].
    destruct (N.ltb _ _); [wks; split; [cost|discriminate]|].
    destruct (negb fd && fs).
    - wks. split; [cost|]. intros st l r' H H0. destruct (u32_sub _ _ _) as [n'| |]; cbn [bind] in H; try discriminate H.
      destruct (params_new _ _ _) as [p'| |]; cbn [bind] in H; try discriminate H. injection H as <- <- <-. cbn [pl_mis] in H0.
      rewrite (B a eq_refl); [cost|]. destruct (acc_mis a); [reflexivity|discriminate H0].
    - wks. rewrite encrypt_all_val. destruct (encrypt_all_work i x co ps [] r) as [C D]. destruct (encrypt_all _ _ _ _ _ _) as [[es r1]| |] eqn:E'; cbn [bind];
        [|split; [cost|discriminate]|split; [cost|discriminate]]. wks. split; [cost|]. intros st l r' H H0. destruct (u32_sub _ _ _) as [n'| |]; cbn [bind] in H; try discriminate H.
      destruct (params_new _ _ _) as [p'| |]; cbn [bind] in H; try discriminate H. injection H as <- <- <-. cbn [pl_mis] in H0.
      rewrite (B a eq_refl), (D _ eq_refl); [cost|]. destruct (acc_mis a); [reflexivity|discriminate H0].
  Qed.

  (** the second round *)
  Definition verification (comms : bmap Vss) (i : u32) : nat :=
    match bget i comms with Some c => Nat.max 1 (length (vss_points c)) | None => 0 end.
  Lemma check_share_work i d : forall comms, NoDup (bkeys comms) ->
    snd (c_check_share i d comms) = Work (match d with Ok _ => verification comms i | _ => 0 end) 0.
  Proof.
    unfold verification. induction comms as [|[k c] comms IH]; intros H; cbn [c_check_share bget]; [destruct d; reflexivity|].
    cbn [bkeys map fst] in H. inversion H as [|? ? H1 H2]; subst. rewrite (u32_eqb_sym i k). destruct (u32_eqb k i) eqn:E; [|apply IH, H2].
    assert (Hn : bget i comms = None) by (apply bget_none; apply u32_eqb_spec in E; subst k; exact H1).
    wks. destruct d as [s|e|]; wks; [|reflexivity|reflexivity]. rewrite share_verify_work, share_verify_val. specialize (IH H2). rewrite Hn in IH.
    destruct (negb _); wks; [cost|]. rewrite IH. cost.
  Qed.
  (** one share: the common key, its verification, and a complaint if there is one *)
  Definition taking (comms : bmap Vss) (e : EncShare) : work := Work (1 + verification comms (es_sender e)) 0.
  Definition complaining (e : EncShare) : work := Work 3 (5 * plen + length (ser_encshare e)).
  Lemma wle_plus a b c d : wle a b -> wle c d -> wle (wplus a c) (wplus b d).
  Proof. cost. Qed.
  Lemma wplus_assoc a b c : wplus a (wplus b c) = wplus (wplus a b) c.
  Proof. cost. Qed.
  Lemma wle_refl a : wle a a.
  Proof. cost. Qed.
  Lemma wle_trans a b c : wle a b -> wle b c -> wle a c.
  Proof. cost. Qed.
  Lemma round_two_complaints m st : forall es sh cs r sh' cs' r', round_two_loop m st es sh cs r = Ok (sh', cs', r') -> length cs <= length cs'.
  Proof.
    induction es as [|e es IH]; intros sh cs r sh' cs' r' H; cbn [round_two_loop] in H; [injection H as <- <- <-; lia|].
    destruct (_ && _); [discriminate H|]. destruct (bget _ _) as [pk|]; [|discriminate H]. destruct (ds_comms st) as [comms|]; [|discriminate H].
    destruct (find _ comms); [destruct (complaint_new _ _ _ _ _) as [c r1]|]; apply IH in H; rewrite ?app_length in H; cbn [length] in H; lia.
  Qed.
  Lemma round_two_work m st comms : ds_comms st = Some comms -> NoDup (bkeys comms) -> forall es sh cs r,
    wle (snd (c_round_two_loop m st es sh cs r)) (wsum (map (fun e => wplus (taking comms e) (complaining e)) es)) /\
    forall sh' cs' r', round_two_loop m st es sh cs r = Ok (sh', cs', r') -> length cs' = length cs ->
      (forall e, In e es -> In (es_sender e) (bkeys comms)) ->
      snd (c_round_two_loop m st es sh cs r) = wsum (map (taking comms) es).
  Proof.
    intros Hc Hnd. induction es as [|e es IH]; intros sh cs r; cbn [c_round_two_loop round_two_loop map]; [split; [wks; cost|reflexivity]|].
    change (wsum (?a :: ?l)) with (wplus a (wsum l)).
    assert (Z : forall w, wle (Work 0 0) w) by (intros w; cost).
    destruct (_ && _); [wks; split; [apply Z|discriminate]|].
    destruct (bget _ (ds_dhs st)) as [pk|]; [|wks; split; [apply Z|discriminate]]. rewrite Hc. wks. rewrite check_share_work, check_share_val by exact Hnd.
    set (d := decrypt_share e _). destruct (find _ comms) as [kc|] eqn:Ef; wks.
    - rewrite complaint_new_work, complaint_new_val. destruct (complaint_new _ _ _ _ _) as [c r1]. wks.
      destruct (IH (match d with Ok s => binsert (sh_sender s) s sh | _ => sh end) (cs ++ [c]) r1) as [A B]. split.
      + unfold taking, complaining in *. destruct d; cost.
      + intros sh' cs' r' H H0. apply round_two_complaints in H. rewrite app_length in H. cbn [length] in H. lia.
    - destruct (IH (match d with Ok s => binsert (sh_sender s) s sh | _ => sh end) cs r) as [A B]. split.
      + unfold taking, complaining in *. destruct d; cost.
      + intros sh' cs' r' H H0 H1. rewrite (B _ _ _ H H0) by (intros; apply H1; right; assumption). unfold taking.
        assert (Hd : exists s, d = Ok s).
        { destruct d as [s|x|]; [exists s; reflexivity| |]; exfalso; destruct (bget_key_some _ _ (H1 e (or_introl eq_refl))) as (c & Ec); apply bget_in in Ec;
            pose proof (find_none _ _ Ef _ Ec) as X; cbn [fst snd bad_share] in X; rewrite u32_eqb_refl in X; discriminate X. }
        destruct Hd as (s & ->). cost.
  Qed.
  Lemma group_key_work idx : forall comms k, wle (snd (c_group_key_loop idx comms k)) (Work (length comms) 0) /\
    forall g, group_key_loop idx comms k = Ok g -> snd (c_group_key_loop idx comms k) = Work (length comms) 0.
  Proof.
    induction comms as [|[i c] comms IH]; intros k; cbn [c_group_key_loop group_key_loop]; [split; [wks; cost|reflexivity]|]. wks.
    destruct (lagrange i idx) as [co| |]; cbn [bind]; [|split; [cost|discriminate]|split; [cost|discriminate]].
    destruct (vss_public_key c); [|split; [wks; cost|discriminate]]. wks. destruct (IH (k + g * co)%G) as [A B]. split; [cost|]. intros x H. rewrite (B x H). cost.
  Qed.
  Lemma finish_work s comms : ds_comms (st2 s) = Some comms -> wle (snd (c_finish s)) (Work (length comms) 0) /\
    forall o, finish s = Ok o -> snd (c_finish s) = Work (length comms) 0.
  Proof.
    intros Hc. unfold c_finish, finish, calculate_group_key. wks. rewrite Hc. destruct (calculate_signing_key (st2 s)) as [sk| |]; cbn [bind];
      [|split; [cost|discriminate]|split; [cost|discriminate]]. wks. rewrite group_key_loop_val. destruct (group_key_work (bkeys comms) comms Gzero) as [A B].
    destruct (group_key_loop _ _ _) as [g| |] eqn:E; cbn [bind]; wks; [|split; [cost|discriminate]|split; [cost|discriminate]]. split; [cost|]. intros o _. rewrite (B g eq_refl). cost.
  Qed.
  (** judging one complaint *)
  Definition judging (comms : bmap Vss) (c : Complaint) : work :=
    Work (4 + verification comms (es_sender (c_share c))) (5 * plen + length (ser_encshare (c_share c))).
  Lemma blame_one_work st comms c : ds_comms st = Some comms -> wle (snd (c_blame_one st c)) (judging comms c).
  Proof.
    intros Hc. unfold c_blame_one, judging, verification. destruct (_ || _); [wks; cost|]. rewrite Hc. destruct (bget _ comms) as [com|]; [|wks; cost]. wks.
    set (pk := match bget _ (ds_dhs st) with Some pk => pk | None => Gzero end).
    destruct (complaint_verify_work c pk) as (k & Hk & _ & ->). destruct (negb _); [wks; cost|]. destruct (decrypt_share _ _); wks; try cost. rewrite share_verify_work. cost.
  Qed.
  Lemma blame_loop_work st comms : ds_comms st = Some comms -> forall cs l, wle (snd (c_blame_loop st cs l)) (wsum (map (judging comms) cs)).
  Proof.
    intros Hc. induction cs as [|c cs IH]; intros l; cbn [c_blame_loop map]; [wks; cost|]. change (wsum (?a :: ?l)) with (wplus a (wsum l)). wks.
    apply wle_plus; [apply blame_one_work, Hc|]. destruct (fst (c_blame_one st c)); [apply IH|cost|cost].
  Qed.
  (** public keys from commitments *)
  Definition evaluating (c : Vss) : work := Work (Nat.max 1 (length (vss_points c))) 0.
  Lemma ivk_verify_loop_work x idx : forall cs k, wle (snd (c_ivk_verify_loop x idx cs k)) (wsum (map evaluating cs)) /\
    forall g, ivk_verify_loop x idx cs k = Ok g -> snd (c_ivk_verify_loop x idx cs k) = wsum (map evaluating cs).
  Proof.
    induction cs as [|c cs IH]; intros k; cbn [c_ivk_verify_loop ivk_verify_loop map]; [split; [wks; cost|reflexivity]|].
    change (wsum (?a :: ?l)) with (wplus a (wsum l)). wks. rewrite hiding_work', hiding_loop_val. unfold evaluating at 1 3.
    destruct (lagrange _ _) as [co| |]; wks; [|split; [cost|discriminate]|split; [cost|discriminate]].
    match goal with |- context [c_ivk_verify_loop x idx cs ?k'] => destruct (IH k') as [A B] end. split; [cost|]. intros g H. rewrite (B g H). cost.
  Qed.
  Lemma ivk_generate_loop_work x idx : forall cs k, wle (snd (c_ivk_generate_loop x idx cs k)) (wsum (map evaluating cs)) /\
    forall g, ivk_generate_loop x idx cs k = Ok g -> snd (c_ivk_generate_loop x idx cs k) = wsum (map evaluating cs).
  Proof.
    induction cs as [|c cs IH]; intros k; cbn [c_ivk_generate_loop ivk_generate_loop map]; [split; [wks; cost|reflexivity]|].
    change (wsum (?a :: ?l)) with (wplus a (wsum l)). wks. rewrite hiding_work', hiding_loop_val. unfold evaluating at 1 3.
    destruct (lagrange _ _) as [co| |]; cbn [bind]; wks; [|split; [cost|discriminate]|split; [cost|discriminate]].
    match goal with |- context [c_ivk_generate_loop x idx cs ?k'] => destruct (IH k') as [A B] end. split; [cost|]. intros g H. rewrite (B g H). cost.
  Qed.
  (** nonces and signatures *)
  Lemma nonce_work k r : snd (c_nonce_generate k r) = Work 0 (hash_len + length (ser_signing_key k)).
  Proof.
    unfold c_nonce_generate. pose proof (rand_bytes_len hash_len r) as H. destruct (rand_bytes hash_len r) as [b r']. cbn [fst] in H. wks. rewrite app_length, H. cost.
  Qed.
  Lemma gen_shares_work k : forall n r, snd (c_gen_shares k n r) = Work (2 * n) (2 * n * (hash_len + length (ser_signing_key k))).
  Proof.
    induction n as [|n IH]; intros r; cbn [c_gen_shares]; [reflexivity|]. wks. rewrite nonce_work. destruct (fst (c_nonce_generate k r)) as [d r1]. wks.
    rewrite nonce_work. destruct (fst (c_nonce_generate k r1)) as [e r2]. wks. rewrite IH. destruct (fst (c_gen_shares k n r2)). wks. cost.
  Qed.
  Lemma encode_entries_len l : length (encode_entries l) = length l * (4 + 2 * plen).
  Proof. induction l as [|[[i h] b] l IH]; cbn [encode_entries length]; [reflexivity|]. rewrite !app_length, u32_le_len, !plen_eq, IH. lia. Qed.
  Lemma binding_loop_work pre : forall l acc, snd (c_binding_loop pre l acc) = Work 0 (length l * (length pre + 4)).
  Proof. induction l as [|[[i h] b] l IH]; intros acc; cbn [c_binding_loop]; [reflexivity|]. wks. rewrite IH, app_length, u32_le_len. cost. Qed.
  (** the hashes behind the binding factors: message hash, list of k commitments, one per factor *)
  Definition binding_bytes (mh : list byte) (k factors : nat) : nat := length mh + k * (4 + 2 * plen) + factors * (2 * hash_len + 4).
  Lemma digest_len m : length (inner_digest m) = hash_len.
  Proof. apply inner_digest_len. Qed.
  Lemma binding_none mh : snd (c_compute_binding_factors mh []) = Work 0 (length mh) /\ compute_binding_factors mh [] = Panic.
  Proof. split; [|reflexivity]. unfold c_compute_binding_factors. wks. change (encode_group_commitment_list (commitment_list [])) with (@Panic Error (list byte)). cost. Qed.
  Lemma binding_work mh ss : ss <> [] -> snd (c_compute_binding_factors mh ss) = Work 0 (binding_bytes mh (length ss) (length ss)).
  Proof.
    intros H. unfold c_compute_binding_factors. wks. assert (Hl : length (commitment_list ss) = length ss) by (unfold commitment_list; apply map_length).
    unfold encode_group_commitment_list. destruct (commitment_list ss) as [|a l] eqn:E; [destruct ss; [destruct (H eq_refl)|discriminate E]|]. wks.
    rewrite encode_entries_len, binding_loop_work, app_length. unfold h4, h5. rewrite !digest_len, Hl. unfold binding_bytes. cost.
  Qed.
  Lemma commitment_for_work i mh ss : ss <> [] -> snd (c_commitment_for_participant i mh ss) = Work 1 (binding_bytes mh (length ss) 1).
  Proof.
    intros H. unfold c_commitment_for_participant. destruct (pair_of _ _ _) as [h b]. wks.
    assert (Hl : length (commitment_list ss) = length ss) by (unfold commitment_list; apply map_length).
    unfold encode_group_commitment_list. destruct (commitment_list ss) as [|a l] eqn:E; [destruct ss; [destruct (H eq_refl)|discriminate E]|]. wks.
    rewrite encode_entries_len, !app_length, u32_le_len. unfold h4, h5. rewrite !digest_len, Hl. unfold binding_bytes. cost.
  Qed.
  Lemma group_commitment_work bf : forall ss acc, wle (snd (c_group_commitment_loop ss bf acc)) (Work (length ss) 0) /\
    forall R, group_commitment_loop ss bf acc = Ok R -> snd (c_group_commitment_loop ss bf acc) = Work (length ss) 0.
  Proof.
    induction ss as [|s ss IH]; intros acc; cbn [c_group_commitment_loop group_commitment_loop]; [split; [wks; cost|reflexivity]|]. wks.
    destruct (binding_factor_for_participant _ _) as [rho| |]; cbn [bind]; wks; [|split; [cost|discriminate]|split; [cost|discriminate]].
    match goal with |- context [c_group_commitment_loop ss bf ?k'] => destruct (IH k') as [A B] end. split; [cost|]. intros g H. rewrite (B g H). cost.
  Qed.
  Lemma challenge_len R pk mh : length (challenge_input R pk mh) = 2 * plen + length mh.
  Proof. unfold challenge_input. rewrite !app_length, !plen_eq. lia. Qed.
  Definition signing (mh : list byte) (k : nat) : work := Work k (binding_bytes mh k k + (2 * plen + length mh)).
  Lemma sign_work m k mh gk l idx ss : wle (snd (c_sign m k mh gk l idx ss)) (signing mh (length ss)) /\
    forall p l', sign m k mh gk l idx ss = (Ok p, l') -> snd (c_sign m k mh gk l idx ss) = signing mh (length ss).
  Proof.
    unfold c_sign, sign, signing. destruct (usize_succ m idx); [|wks; split; [cost|discriminate]|wks; split; [cost|discriminate]].
    destruct (N.ltb _ _); [wks; split; [cost|discriminate]|]. wks. rewrite binding_factors_val.
    destruct ss as [|s0 ss0]; [destruct (binding_none mh) as [-> ->]; wks; split; [unfold binding_bytes; cost|discriminate]|].
    rewrite binding_work by discriminate. set (ss := s0 :: ss0). fold ss.
    destruct (compute_binding_factors mh ss) as [bf| |]; [|wks; split; [cost|discriminate]|wks; split; [cost|discriminate]]. wks.
    destruct (binding_factor_for_participant _ _) as [rho| |]; [|wks; split; [cost|discriminate]|wks; split; [cost|discriminate]]. wks. unfold compute_group_commitment.
    rewrite group_commitment_val. destruct (group_commitment_work bf ss Gzero) as [A B]. destruct (group_commitment_loop ss bf Gzero) as [R| |]; [|wks; split; [cost|discriminate]|wks; split; [cost|discriminate]]. wks.
    rewrite (B R eq_refl). destruct (lagrange _ _); [|wks; split; [cost|discriminate]|wks; split; [cost|discriminate]]. wks.
    destruct (nthN _ _); [|wks; split; [cost|discriminate]]. unfold c_challenge. wks. rewrite challenge_len. split; [cost|intros; cost].
  Qed.
  Lemma sig_verify_work s gk mh : snd (c_sig_verify s gk mh) = Work 2 (2 * plen + length mh).
  Proof. unfold c_sig_verify, c_challenge. wks. rewrite challenge_len. cost. Qed.
  Lemma find_bad_work st mh c idx : ag_signers st <> [] -> forall ss l,
    wle (snd (c_find_bad st mh c idx ss l)) (Work (3 * length ss) (length ss * binding_bytes mh (length (ag_signers st)) 1)) /\
    forall l', find_bad st mh c idx ss l = Ok l' ->
      snd (c_find_bad st mh c idx ss l) = Work (3 * length ss) (length ss * binding_bytes mh (length (ag_signers st)) 1).
  Proof.
    intros H0. induction ss as [|s ss IH]; intros l; cbn [c_find_bad find_bad]; [split; [wks; cost|reflexivity]|]. wks.
    destruct (lagrange _ _) as [la| |]; cbn [bind]; [|split; [cost|discriminate]|split; [cost|discriminate]].
    destruct (bget _ (ag_partials st)) as [p|]; [|wks; split; [cost|discriminate]]. destruct (bget _ (ag_keys st)) as [pk|]; [|wks; split; [cost|discriminate]]. wks.
    rewrite commitment_for_work, commitment_for_val by exact H0. destruct (commitment_for_participant _ _ _) as [R| |]; cbn [bind]; wks; [|split; [cost|discriminate]|split; [cost|discriminate]].
    match goal with |- context [c_find_bad st mh c idx ss ?k'] => destruct (IH k') as [A B] end. split; [cost|]. intros g H. rewrite (B g H). cost.
  Qed.
  (** combining k partial signatures, then looking for the bad ones *)
  Definition combining (mh : list byte) (k : nat) : work := Work (k + 2) (binding_bytes mh k k + 2 * (2 * plen + length mh)).
  Definition searching (mh : list byte) (k : nat) : work := Work (3 * k) (k * binding_bytes mh k 1).
  Lemma enc_some ss : ss <> [] -> exists b, encode_group_commitment_list (commitment_list ss) = Ok b.
  Proof. destruct ss; intros H; [destruct (H eq_refl)|]. eexists. reflexivity. Qed.
  Lemma aggregate_work a : let k := length (ag_signers (af_state a)) in
    wle (snd (c_aggregate a)) (wplus (combining (af_hash a) k) (searching (af_hash a) k)) /\
    (forall s, aggregate a = Ok s -> snd (c_aggregate a) = combining (af_hash a) k) /\
    (forall l, aggregate a = Err (MisbehavingParticipants l) -> snd (c_aggregate a) = wplus (combining (af_hash a) k) (searching (af_hash a) k)).
  Proof.
    intros k. unfold c_aggregate, aggregate. wks. rewrite binding_factors_val.
    assert (Hc : ag_signers (af_state a) = [] \/ ag_signers (af_state a) <> []) by (destruct (ag_signers (af_state a)); [left; reflexivity|right; discriminate]).
    destruct Hc as [E0|Hne].
    { rewrite E0. destruct (binding_none (af_hash a)) as [-> ->]. cbn [bind]. split; [|split; discriminate]. unfold combining, searching, binding_bytes. cost. }
    rewrite binding_work by exact Hne. fold k. destruct (enc_some _ Hne) as (enc & Ee).
    unfold combining, searching.
    destruct (compute_binding_factors _ _) as [bf|e|] eqn:Eb; cbn [bind].
    2,3: unfold compute_binding_factors in Eb; rewrite Ee in Eb; discriminate Eb.
    wks. rewrite group_commitment_val. unfold compute_group_commitment. destruct (group_commitment_work bf (ag_signers (af_state a)) Gzero) as [A B].
    destruct (group_commitment_loop _ _ _) as [R|e|] eqn:Eg; cbn [bind]; [|split; [fold k in A; cost|]; split; [discriminate|]|split; [fold k in A; cost|]; split; discriminate].
    2:{ intros l H. exfalso. clear -Eg H. revert Eg. generalize (@Gzero S). generalize (ag_signers (af_state a)). intros ss. induction ss as [|s ss IH]; intros g X; cbn [group_commitment_loop] in X; [discriminate X|].
        unfold binding_factor_for_participant in X. destruct (bget _ _); cbn [bind] in X; [apply (IH _ X)|]. injection X as <-. discriminate H. }
    rewrite (B R eq_refl). fold k. unfold c_challenge. wks. rewrite challenge_len.
    destruct (sum_partials _ _ _) as [z|e|] eqn:Es; cbn [bind]; [|split; [cost|]; split; [discriminate|]|split; [cost|]; split; discriminate].
    2:{ intros l H. exfalso. clear -Es. revert Es. generalize (@F0 S). generalize (ag_signers (af_state a)). intros ss. induction ss as [|s ss IH]; intros g X; cbn [sum_partials] in X; [discriminate X|].
        destruct (bget _ _); [apply (IH _ X)|discriminate X]. }
    wks. rewrite sig_verify_work, sig_verify_val. destruct (is_ok _); wks.
    { split; [cost|]. split; [intros; cost|discriminate]. }
    rewrite find_bad_val. match goal with |- context [c_find_bad ?x1 ?x2 ?x3 ?x4 ?x5 ?x6] => destruct (find_bad_work x1 x2 x3 x4 Hne x5 x6) as [C D] end. fold k in C, D.
    destruct (find_bad _ _ _ _ _ _) as [l|e|] eqn:Ef; cbn [bind]; wks.
    - rewrite (D l eq_refl). split; [cost|]. split; [discriminate|intros; cost].
    - split; [cost|]. split; [discriminate|]. intros l H. exfalso. clear -Ef H Ee. injection H as ->.
      revert Ef. generalize (@nil u32). generalize (map sg_index (ag_signers (af_state a))). intros idx. generalize (ag_signers (af_state a)) at 1.
      intros ss. induction ss as [|s ss IH]; intros acc X; cbn [find_bad] in X; [discriminate X|].
      destruct (lagrange _ idx) as [la|e|] eqn:El; cbn [bind] in X; [| |discriminate X].
      + destruct (bget _ (ag_partials _)); [|discriminate X]. destruct (bget _ (ag_keys _)); [|discriminate X].
        unfold commitment_for_participant in X. destruct (pair_of _ _ _). rewrite Ee in X. cbn [bind] in X. apply (IH _ X).
      + injection X as ->. unfold lagrange in El. cbn zeta in El. destruct (negb _) in El; [discriminate El|]. destruct (existsb _ _) in El; [discriminate El|].
        destruct (lagrange_loop _ _ _ _) in El. destruct (Finverse _) in El; discriminate El.
    - split; [cost|]. split; discriminate.
  Qed.
End Works.

Section States.
  Context {S : Suite} {L : SuiteLaws S}.
  Definition commitments_ok (t : option u32) (comms : bmap Vss) (dhs : bmap G) : Prop :=
    NoDup (bkeys comms) /\ (forall k, In k (bkeys dhs) <-> In k (bkeys comms)) /\
    match t with Some t => forall k c, In (k, c) comms -> length (vss_points c) = u32_nat t | None => True end.
  Lemma binsert_in {V} (k : u32) (v : V) (m : bmap V) x y : In (x, y) (binsert k v m) -> (x = k /\ y = v) \/ In (x, y) m.
  Proof.
    induction m as [|[k' v'] m IH]; cbn [binsert]; [intros [[= <- <-]|[]]; auto|].
    destruct (u32_ltb k k'); [intros [[= <- <-]|H]; auto|]. destruct (u32_eqb k k'); [intros [[= <- <-]|H]; auto; right; right; exact H|].
    intros [[= <- <-]|H]; [right; left; reflexivity|]. destruct (IH H) as [H'|H']; auto. right; right; exact H'.
  Qed.
  Definition deg (fd : bool) (params : Params) : option u32 := if fd then Some (p_t params) else None.
  Lemma check_one_comms m params fd p a a' : check_one m params fd true p a = Ok a' ->
    ksorted (acc_comms a) /\ commitments_ok (deg fd params) (acc_comms a) (acc_dhs a) ->
    ksorted (acc_comms a') /\ commitments_ok (deg fd params) (acc_comms a') (acc_dhs a').
  Proof.
    unfold check_one. intros H H0.
    destruct (is_ok (nizk_verify (pt_dh_proof p) _ _)); [|injection H as <-; exact H0].
    destruct (part_public_key p); [|injection H as <-; exact H0]. destruct (pt_sk_proof p); [|discriminate H].
    destruct (is_ok (nizk_verify n _ _)); [|injection H as <-; exact H0]. destruct (pt_comm p) as [c|]; [|discriminate H].
    destruct (fd && negb (is_ok (check_degree c params))) eqn:E; [injection H as <-; exact H0|]. injection H as <-. cbn [acc_comms acc_dhs].
    destruct H0 as (A & B & C & D). assert (A' : ksorted (binsert (pt_index p) c (acc_comms a))) by (apply ksorted_binsert, A).
    split; [exact A'|]. split; [apply increasing_NoDup, A'|]. split; [intros k; rewrite !binsert_keys, C; tauto|].
    unfold deg in *. destruct fd; [|exact I]. intros k c' Hk. destruct (binsert_in _ _ _ _ _ Hk) as [[-> ->]|Hk']; [|apply (D k c' Hk')].
    unfold check_degree in E. destruct (N.eqb_spec (N.of_nat (length (vss_points c))) (u32v (p_t params))) as [E'|E']; [|discriminate E].
    unfold u32_nat. rewrite <- E', Nat2N.id. reflexivity.
  Qed.
  Lemma check_all_comms m params fd : forall ps a a', check_all m params fd true ps a = Ok a' ->
    ksorted (acc_comms a) /\ commitments_ok (deg fd params) (acc_comms a) (acc_dhs a) ->
    ksorted (acc_comms a') /\ commitments_ok (deg fd params) (acc_comms a') (acc_dhs a').
  Proof.
    induction ps as [|p ps IH]; intros a a' H H0; cbn [check_all] in H; [injection H as <-; exact H0|].
    destruct (check_one _ _ _ _ _ _) as [a1| |] eqn:E; cbn [bind] in H; try discriminate H. apply (IH a1 a' H). exact (check_one_comms _ _ _ _ _ _ E H0).
  Qed.
  Lemma state_comms m params x i co ps fd r s l r' : new_state_internal m params x i co ps fd true r = Ok (s, l, r') ->
    exists comms, ds_comms (st1 s) = Some comms /\ commitments_ok (deg fd params) comms (ds_dhs (st1 s)).
  Proof.
    unfold new_state_internal. intros H. destruct (negb (N.eqb _ _)); [discriminate H|].
    destruct (check_all _ _ _ _ _ _) as [a| |] eqn:E; cbn [bind] in H; try discriminate H.
    assert (X : commitments_ok (deg fd params) (acc_comms a) (acc_dhs a)).
    { apply (check_all_comms _ _ _ _ _ _ E). split; [apply ksorted_nil|]. split; [constructor|]. split; [intros k; cbn; tauto|]. unfold deg. destruct fd; [intros k c []|exact I]. }
    destruct (N.ltb _ _); [discriminate H|]. destruct (negb fd && true).
    - destruct (u32_sub _ _ _) as [n'| |]; cbn [bind] in H; try discriminate H. destruct (params_new _ _ _) as [p'| |]; cbn [bind] in H; try discriminate H.
      injection H as <- <- <-. exists (acc_comms a). split; [reflexivity|exact X].
    - destruct (encrypt_all _ _ _ _ _ _) as [[es r1]| |]; cbn [bind] in H; try discriminate H.
      destruct (u32_sub _ _ _) as [n'| |]; cbn [bind] in H; try discriminate H. destruct (params_new _ _ _) as [p'| |]; cbn [bind] in H; try discriminate H.
      injection H as <- <- <-. exists (acc_comms a). split; [reflexivity|exact X].
  Qed.
  Lemma round_two_senders m st : forall es sh cs r o, round_two_loop m st es sh cs r = Ok o -> forall e, In e es -> In (es_sender e) (bkeys (ds_dhs st)).
  Proof.
    induction es as [|e es IH]; intros sh cs r o H e' He; [destruct He|]. cbn [round_two_loop] in H. destruct (_ && _); [discriminate H|].
    destruct (bget _ (ds_dhs st)) as [pk|] eqn:E; [|discriminate H]. destruct (ds_comms st) as [comms|]; [|discriminate H].
    destruct (match find _ _ with Some _ => _ | None => _ end) as [cs' r1]. destruct He as [<-|He]; [apply bget_some_key in E; exact E|apply (IH _ _ _ _ H e' He)].
  Qed.
  Lemma wsum_mul l : wk_mul (wsum l) = list_sum (map wk_mul l).
  Proof. induction l as [|a l IH]; [reflexivity|]. cbn [map]. change (wsum (a :: l)) with (wplus a (wsum l)). cbn [list_sum fold_right wplus wk_mul wk_hash]. rewrite IH. reflexivity. Qed.
  Lemma wsum_hash l : wk_hash (wsum l) = list_sum (map wk_hash l).
  Proof. induction l as [|a l IH]; [reflexivity|]. cbn [map]. change (wsum (a :: l)) with (wplus a (wsum l)). cbn [list_sum fold_right wplus wk_mul wk_hash]. rewrite IH. reflexivity. Qed.
  (** what the second round does with a state whose commitments are in order *)
  Lemma to_round_two_work m s comms es r t : ds_comms (st1 s) = Some comms -> commitments_ok t comms (ds_dhs (st1 s)) ->
    wle (snd (c_to_round_two m s es r)) (wsum (map (fun e => wplus (taking comms e) (complaining e)) es)) /\
    forall s' r', to_round_two m s es r = Ok (s', [], r') -> snd (c_to_round_two m s es r) = wsum (map (taking comms) es).
  Proof.
    intros Hc (Hnd & Hk & _). unfold c_to_round_two, to_round_two. cbn [ds_params ds_comms ds_dhs ds_index ds_dh_sk ds_dh_pk ds_enc ds_shares].
    destruct (N.ltb _ _); [wks; split; [cost|discriminate]|]. wks. rewrite round_two_loop_val.
    set (st := MkState _ _ _ _ _ _ _ _). destruct (round_two_work m st comms Hc Hnd es [] [] r) as [A B].
    destruct (round_two_loop m st es [] [] r) as [[[sh cs] r1]| |] eqn:E; cbn [bind]; wks; [|split; [cost|discriminate]|split; [cost|discriminate]].
    split; [cost|]. intros s' r' H. destruct (u32_sub _ _ _); cbn [bind] in H; try discriminate H. destruct (u32_ltb _ _); [discriminate H|]. injection H as _ -> _.
    rewrite (B sh [] r1 eq_refl eq_refl); [apply wplus_0_r|]. intros e He. apply Hk. exact (round_two_senders _ _ _ _ _ _ _ E e He).
  Qed.
End States.

Theorem C129_counted_calls_are_the_calls :
  forall (S : Suite),
  (forall p i r, fst (c_new_dealer p i r) = new_dealer p i r) /\
  (forall p i r, fst (c_new_signer p i r) = new_signer p i r) /\
  (forall m params x i co ps r, fst (c_bootstrap m params x i co ps r) = bootstrap m params x i co ps r) /\
  (forall m params x i ps r, fst (c_dkg_new m params x i ps r) = dkg_new m params x i ps r) /\
  (forall m params sk ps r, fst (c_reshare m params sk ps r) = reshare m params sk ps r) /\
  (forall m s es r, fst (c_to_round_two m s es r) = to_round_two m s es r) /\
  (forall s, fst (c_finish s) = finish s) /\
  (forall s cs, fst (c_blame s cs) = blame s cs) /\
  (forall k cs, fst (c_ivk_verify k cs) = ivk_verify k cs) /\
  (forall i cs, fst (c_ivk_generate i cs) = ivk_generate i cs) /\
  (forall r k n, fst (c_generate_lists r k n) = generate_commitment_share_lists r k n) /\
  (forall m k mh gk l idx ss, fst (c_sign m k mh gk l idx ss) = sign m k mh gk l idx ss) /\
  (forall a, fst (c_finalize a) = finalize a) /\
  (forall a, fst (c_aggregate a) = aggregate a) /\
  (forall s gk mh, fst (c_sig_verify s gk mh) = sig_verify s gk mh /\ fst (c_sig_verify s gk mh) = verify_signature gk s mh) /\
  (forall c pk, fst (c_complaint_verify c pk) = complaint_verify c pk) /\
  (forall i sk pk r, fst (c_nizk_prove i sk pk r) = nizk_prove i sk pk r) /\
  (forall p i pk, fst (c_nizk_verify p i pk) = nizk_verify p i pk).
Proof.
  intros S. split; [apply new_dealer_val|]. split; [apply new_signer_val|]. split; [intros; apply new_state_internal_val|]. split; [intros; apply new_state_internal_val|].
  split; [apply reshare_val|]. split; [apply to_round_two_val|]. split; [apply finish_val|]. split; [apply blame_val|]. split; [apply ivk_verify_val|].
  split; [apply ivk_generate_val|]. split; [apply generate_lists_val|]. split; [apply sign_val|]. split; [apply finalize_val|]. split; [apply aggregate_val|].
  split; [intros; split; apply sig_verify_val|]. split; [apply complaint_verify_val|]. split; [apply nizk_prove_val|]. apply nizk_verify_val.
Qed.
Print Assumptions C129_counted_calls_are_the_calls.

Theorem C129_work_of_preparing :
  forall (S : Suite) (L : SuiteLaws S) (params : Params),
  (forall i r, i <> u32_zero -> (1 <= u32v (p_t params))%N ->
     muls (c_new_dealer params i r) = u32_nat (p_t params) + 3 /\ hashed (c_new_dealer params i r) = 2 * (4 + 2 * plen)) /\
  (forall i r, i <> u32_zero -> muls (c_new_signer params i r) = 2 /\ hashed (c_new_signer params i r) = 4 + 2 * plen).
Proof.
  intros S L params. unfold muls, hashed. split.
  - intros i r Hi Ht. assert (Ht' : 1 <= u32_nat (p_t params)) by (unfold u32_nat; lia). unfold c_new_dealer. rewrite snd_rbind, new_internal_work by assumption.
    destruct (fst _) as [[[[d co] x] r']| |]; [destruct co|..]; wks; cost.
  - intros i r Hi. unfold c_new_signer. rewrite snd_rbind, new_internal_signer_work by assumption. destruct (fst _) as [[[[d co] x] r']| |]; wks; cost.
Qed.
Print Assumptions C129_work_of_preparing.

Theorem C129_work_of_first_round :
  forall (S : Suite) (L : SuiteLaws S) (m : build) (params : Params) (ps : list Participant) (r : Rng),
  let n := length ps in
  (forall x i co, let c := c_bootstrap m params x i co ps r in
     (muls c <= 1 + 5 * n /\ hashed c <= 2 * n * (4 + 2 * plen)) /\
     forall st l r', fst c = Ok (st, l, r') -> pl_mis l = None -> muls c = 1 + 5 * n /\ hashed c = 2 * n * (4 + 2 * plen)) /\
  (forall x i, let c := c_dkg_new m params x i ps r in
     (muls c <= 1 + 4 * n /\ hashed c <= 2 * n * (4 + 2 * plen)) /\
     forall st l r', fst c = Ok (st, l, r') -> pl_mis l = None -> muls c = 1 + 4 * n /\ hashed c = 2 * n * (4 + 2 * plen)) /\
  (forall sk, sk_index sk <> u32_zero -> (1 <= u32v (p_t params))%N -> let c := c_reshare m params sk ps r in
     (muls c <= u32_nat (p_t params) + 4 + 3 * n /\ hashed c <= (2 + n) * (4 + 2 * plen)) /\
     forall d es l r', fst c = Ok (d, es, l, r') -> pl_mis l = None -> muls c = u32_nat (p_t params) + 4 + 3 * n /\ hashed c = (2 + n) * (4 + 2 * plen)).
Proof.
  intros S L m params ps r n. unfold muls, hashed, c_bootstrap, c_dkg_new. split; [|split].
  - intros x i co. destruct (state_work m params x i (Some co) ps true true r) as [A B]. fold n in A, B. unfold one, per in *. cbn [negb andb] in *.
    split; [cost|]. intros st l r' H H0. rewrite new_state_internal_val in H. rewrite (B st l r' H H0). cost.
  - intros x i. destruct (state_work m params x i None ps false true r) as [A B]. fold n in A, B. unfold one, per in *. cbn [negb andb] in *.
    split; [cost|]. intros st l r' H H0. rewrite new_state_internal_val in H. rewrite (B st l r' H H0). cost.
  - intros sk Hi Ht. assert (Ht' : 1 <= u32_nat (p_t params)) by (unfold u32_nat; lia). unfold c_reshare. rewrite snd_rbind, fst_rbind, new_internal_work by assumption.
    destruct (fst (c_new_internal _ _ _ _ _)) as [[[[d co] x] r1]| |]; cbn [bind]; [|split; [cost|discriminate]|split; [cost|discriminate]].
    destruct co as [cs|]; [|split; [cbn [free snd]; cost|discriminate]]. destruct (state_work m params x (sk_index sk) (Some cs) ps true false r1) as [A B]. fold n in A, B.
    unfold one, per in *. cbn [negb andb] in *. rewrite snd_rbind, fst_rbind, new_state_internal_val.
    destruct (new_state_internal _ _ _ _ _ _ _ _ _) as [[[st l] r2]| |]; cbn [bind]; wks; [|split; [cost|discriminate]|split; [cost|discriminate]].
    split; [cost|]. intros d' es l' r' H H0. destruct (their_encrypted_secret_shares st); cbn [bind] in H; try discriminate H. injection H as _ _ <- _.
    rewrite (B st l r2 eq_refl H0). cost.
Qed.
Print Assumptions C129_work_of_first_round.

Lemma list_sum_const {A} (f : A -> nat) c l : (forall x, In x l -> f x = c) -> list_sum (map f l) = length l * c.
Proof. induction l as [|a l IH]; intros H; cbn [map list_sum fold_right length]; [reflexivity|]. fold (list_sum (map f l)). rewrite IH, (H a (or_introl eq_refl)) by (intros; apply H; right; assumption). lia. Qed.
Lemma list_sum_le {A} (f g : A -> nat) l : (forall x, In x l -> f x <= g x) -> list_sum (map f l) <= list_sum (map g l).
Proof. induction l as [|a l IH]; intros H; cbn [map list_sum fold_right]; [lia|]. fold (list_sum (map f l)) (list_sum (map g l)). pose proof (H a (or_introl eq_refl)). pose proof (IH (fun x Hx => H x (or_intror Hx))). lia. Qed.

(** the length of the commitment of participant i in a state, 0 if there is none *)
Definition degree_of {S : Suite} (st : DkgState) (i : u32) : nat :=
  match ds_comms st with
  | Some comms => match bget i comms with Some c => length (vss_points c) | None => 0 end
  | None => 0
  end.

Theorem C129_work_of_second_round :
  forall (S : Suite) (L : SuiteLaws S) (m : build) (params : Params) (s : RoundOne) (lists : PartList) (es : list EncShare) (r : Rng),
  let c := c_to_round_two m s es r in
  (forall x i co ps r0 r1, bootstrap m params x i co ps r0 = Ok (s, lists, r1) -> (1 <= u32v (p_t params))%N ->
     (muls c <= length es * (u32_nat (p_t params) + 4) /\ hashed c <= list_sum (map (fun e => 5 * plen + length (ser_encshare e)) es)) /\
     forall s' r', fst c = Ok (s', [], r') -> muls c = length es * (u32_nat (p_t params) + 1) /\ hashed c = 0) /\
  (forall x i ps r0 r1, dkg_new m params x i ps r0 = Ok (s, lists, r1) ->
     (muls c <= list_sum (map (fun e => Nat.max 1 (degree_of (st1 s) (es_sender e)) + 4) es) /\
      hashed c <= list_sum (map (fun e => 5 * plen + length (ser_encshare e)) es)) /\
     forall s' r', fst c = Ok (s', [], r') -> muls c = list_sum (map (fun e => Nat.max 1 (degree_of (st1 s) (es_sender e)) + 1) es) /\ hashed c = 0).
Proof.
  intros S L m params s lists es r c.
  assert (Hh : forall comms, list_sum (map wk_hash (map (fun e => wplus (taking comms e) (complaining e)) es)) = list_sum (map (fun e => 5 * plen + length (ser_encshare e)) es)).
  { intros comms. rewrite map_map. f_equal. }
  assert (Hz : forall comms, list_sum (map wk_hash (map (taking comms) es)) = 0).
  { intros comms. rewrite map_map. rewrite (list_sum_const _ 0); [lia|reflexivity]. }
  assert (Hs : forall s' r', fst c = Ok (s', [], r') -> forall e, In e es -> In (es_sender e) (bkeys (ds_dhs (st1 s)))).
  { intros s' r' H. subst c. rewrite to_round_two_val in H. unfold to_round_two in H. cbn [ds_params] in H. destruct (N.ltb _ _); [discriminate H|].
    destruct (round_two_loop _ _ _ _ _ _) as [o| |] eqn:E; cbn [bind] in H; try discriminate H. exact (round_two_senders _ _ _ _ _ _ _ E). }
  split.
  - intros x i co ps r0 r1 H Ht. destruct (state_comms _ _ _ _ _ _ _ _ _ _ _ H) as (comms & Hc & HO). pose proof HO as (Hnd & Hk & Hlen). cbn [deg] in Hlen.
    assert (Ht' : 1 <= u32_nat (p_t params)) by (unfold u32_nat; lia).
    destruct (to_round_two_work m s comms es r _ Hc HO) as [[A A'] B]. rewrite wsum_mul in A. rewrite wsum_hash, Hh in A'. fold c in A, A', B. unfold muls, hashed.
    assert (V : forall j, verification comms j = u32_nat (p_t params) \/ (verification comms j = 0 /\ ~ In j (bkeys comms))).
    { intros j. unfold verification. destruct (bget j comms) as [v|] eqn:E; [|right; split; [reflexivity|apply bget_none, E]]. apply bget_in in E. rewrite (Hlen _ _ E). left. lia. }
    split.
    + split; [|exact A']. etransitivity; [exact A|]. rewrite map_map, <- (list_sum_const (fun _ : EncShare => u32_nat (p_t params) + 4) _ es) by reflexivity.
      apply list_sum_le. intros e _. unfold taking, complaining. cbn [wplus wk_mul]. destruct (V (es_sender e)) as [->|[-> _]]; lia.
    + intros s' r' Hr. pose proof (Hs s' r' Hr) as Hin. unfold c in Hr. rewrite to_round_two_val in Hr. rewrite (B s' r' Hr), wsum_mul, wsum_hash, Hz. split; [|reflexivity].
      rewrite map_map. apply list_sum_const. intros e He. unfold taking. cbn [wk_mul]. destruct (V (es_sender e)) as [->|[_ X]]; [lia|]. destruct X. apply Hk, Hin, He.
  - intros x i ps r0 r1 H. destruct (state_comms _ _ _ _ _ _ _ _ _ _ _ H) as (comms & Hc & HO). pose proof HO as (Hnd & Hk & _).
    destruct (to_round_two_work m s comms es r _ Hc HO) as [[A A'] B]. rewrite wsum_mul in A. rewrite wsum_hash, Hh in A'. fold c in A, A', B. unfold muls, hashed.
    assert (V : forall j, (verification comms j = Nat.max 1 (degree_of (st1 s) j)) \/ (verification comms j = 0 /\ ~ In j (bkeys comms))).
    { intros j. unfold verification, degree_of. rewrite Hc. destruct (bget j comms) as [v|] eqn:E; [left; reflexivity|right; split; [reflexivity|apply bget_none, E]]. }
    split.
    + split; [|exact A']. etransitivity; [exact A|]. rewrite map_map. apply list_sum_le. intros e _. unfold taking, complaining. cbn [wplus wk_mul]. destruct (V (es_sender e)) as [->|[-> _]]; lia.
    + intros s' r' Hr. pose proof (Hs s' r' Hr) as Hin. unfold c in Hr. rewrite to_round_two_val in Hr. rewrite (B s' r' Hr), wsum_mul, wsum_hash, Hz. split; [|reflexivity].
      rewrite map_map. f_equal. apply map_ext_in. intros e He. unfold taking. cbn [wk_mul]. destruct (V (es_sender e)) as [->|[_ X]]; [lia|]. destruct X. apply Hk, Hin, He.
Qed.
Print Assumptions C129_work_of_second_round.

Theorem C129_work_of_finishing :
  forall (S : Suite) (L : SuiteLaws S) (s : RoundTwo) (comms : bmap Vss), ds_comms (st2 s) = Some comms ->
  (muls (c_finish s) <= length comms /\ hashed (c_finish s) = 0 /\ forall o, fst (c_finish s) = Ok o -> muls (c_finish s) = length comms) /\
  (forall cs, muls (c_blame s cs) <= list_sum (map (fun c => Nat.max 1 (degree_of (st2 s) (es_sender (c_share c))) + 4) cs) /\
     hashed (c_blame s cs) <= list_sum (map (fun c => 5 * plen + length (ser_encshare (c_share c))) cs)).
Proof.
  intros S L s comms Hc. unfold muls, hashed. split.
  - destruct (finish_work s comms Hc) as [[A A'] B]. cbn [wk_mul wk_hash] in *. split; [exact A|]. split; [lia|]. intros o H. rewrite finish_val in H. rewrite (B o H). reflexivity.
  - intros cs. destruct (blame_loop_work (st2 s) comms Hc cs []) as [A B]. rewrite wsum_mul, map_map in A. rewrite wsum_hash, map_map in B.
    unfold c_blame. rewrite snd_rbind. destruct (fst _); wks; rewrite wplus_0_r; (split; [etransitivity; [exact A|]|etransitivity; [exact B|]]; apply list_sum_le; intros c _; unfold judging; cbn [wk_mul wk_hash]; try lia;
      unfold verification, degree_of; rewrite Hc; destruct (bget _ comms); lia).
Qed.
Print Assumptions C129_work_of_finishing.

Theorem C129_work_of_public_keys :
  forall (S : Suite) (L : SuiteLaws S) (cs : list Vss),
  let total := list_sum (map (fun c => Nat.max 1 (length (vss_points c))) cs) in
  (forall k, muls (c_ivk_verify k cs) <= total /\ hashed (c_ivk_verify k cs) = 0 /\ (fst (c_ivk_verify k cs) = Ok tt -> muls (c_ivk_verify k cs) = total)) /\
  (forall i, muls (c_ivk_generate i cs) <= total /\ hashed (c_ivk_generate i cs) = 0 /\ (forall k, fst (c_ivk_generate i cs) = Ok k -> muls (c_ivk_generate i cs) = total)).
Proof.
  intros S L cs total. assert (Hm : wk_mul (wsum (map evaluating cs)) = total) by (rewrite wsum_mul, map_map; reflexivity).
  assert (Hh : wk_hash (wsum (map evaluating cs)) = 0) by (rewrite wsum_hash, map_map, (list_sum_const _ 0); [lia|reflexivity]).
  unfold muls, hashed. split.
  - intros k. unfold c_ivk_verify. wks. rewrite ivk_verify_loop_val. destruct (ivk_verify_loop_work (of_u32 (vk_index k)) (map vss_index cs) cs Gzero) as [[A A'] B].
    destruct (ivk_verify_loop _ _ _ _) as [g| |]; wks; rewrite wplus_0_r; (split; [lia|]); (split; [lia|]); [|discriminate|discriminate]. intros _. rewrite (B g eq_refl). exact Hm.
  - intros k. unfold c_ivk_generate. wks. rewrite ivk_generate_loop_val. destruct (ivk_generate_loop_work (of_u32 k) (map vss_index cs) cs Gzero) as [[A A'] B].
    destruct (ivk_generate_loop _ _ _ _) as [g| |]; wks; rewrite wplus_0_r; (split; [lia|]); (split; [lia|]); [|discriminate|discriminate]. intros v _. rewrite (B g eq_refl). exact Hm.
Qed.
Print Assumptions C129_work_of_public_keys.

Theorem C129_work_of_signing :
  forall (S : Suite) (L : SuiteLaws S),
  (forall r k n, muls (c_generate_lists r k n) = 2 * n /\ hashed (c_generate_lists r k n) = 2 * n * (hash_len + length (ser_signing_key k))) /\
  (forall m k mh gk l idx ss, let c := c_sign m k mh gk l idx ss in let n := length ss in
     let bytes := n * (2 * plen + 2 * hash_len + 8) + 2 * plen + 2 * length mh in
     (muls c <= n /\ hashed c <= bytes) /\ forall p l', fst c = (Ok p, l') -> muls c = n /\ hashed c = bytes) /\
  (forall a, let c := c_aggregate a in let n := length (ag_signers (af_state a)) in let h := length (af_hash a) in
     let bytes := n * (2 * plen + 2 * hash_len + 8) + 4 * plen + 3 * h in
     let more := n * (n * (2 * plen + 4) + 2 * hash_len + 4 + h) in
     (muls c <= 4 * n + 2 /\ hashed c <= bytes + more) /\
     (forall s, fst c = Ok s -> muls c = n + 2 /\ hashed c = bytes) /\
     (forall bad, fst c = Err (MisbehavingParticipants bad) -> muls c = 4 * n + 2 /\ hashed c = bytes + more)) /\
  (forall s gk mh, muls (c_sig_verify s gk mh) = 2 /\ hashed (c_sig_verify s gk mh) = 2 * plen + length mh).
Proof.
  intros S L. unfold muls, hashed. split; [|split; [|split]].
  - intros r k n. unfold c_generate_lists. wks. rewrite gen_shares_work. destruct (fst (c_gen_shares k n r)). wks. cost.
  - intros m k mh gk l idx ss. destruct (sign_work m k mh gk l idx ss) as [[A A'] B]. unfold signing, binding_bytes in *. cbn [wk_mul wk_hash] in *.
    split; [split; [exact A|lia]|]. intros p l' H. rewrite sign_val in H. rewrite (B p l' H). cbn [wk_mul wk_hash]. lia.
  - intros a. destruct (aggregate_work a) as ([A A'] & B & C). unfold combining, searching, binding_bytes in *. cbn [wplus wk_mul wk_hash] in *. rewrite aggregate_val.
    split; [split; [lia|nia]|]. split.
    + intros s H. rewrite (B s H). cbn [wk_mul wk_hash]. split; nia.
    + intros bad H. rewrite (C bad H). cbn [wplus wk_mul wk_hash]. cbv zeta. split; ring.
  - intros s gk mh. rewrite sig_verify_work. split; reflexivity.
Qed.
Print Assumptions C129_work_of_signing.

(** A resharing dealer chooses how long its commitment is (C34), and its receivers pay for that: no bound in terms of the
    size and the threshold of the group holds for the second round. *)
Theorem C129_resharing_work_is_bounded_refuted :
  forall (S : Suite) (L : SuiteLaws S) (m : build) (bound : u32 -> u32 -> nat) (r : Rng),
  exists params x i dealers s lists r1 e,
    dkg_new m params x i dealers r = Ok (s, lists, r1) /\ lists = MkPList dealers None /\ length dealers = 1 /\
    bound (p_n params) (p_t params) < muls (c_to_round_two m s [e] r1).
Proof.
  intros S L m bound r. set (a := u32_of_N 1). set (params := MkParams a a). set (k := bound a a).
  set (pk := (gen * F1)%G). set (c := MkVss a (pk :: repeat Gzero k)). set (pr := fst (nizk_prove a F1 pk r)).
  set (d := MkPart a pk (Some c) (Some pr) pr).
  assert (Hv : nizk_verify pr a pk = Ok tt) by apply nizk_complete.
  set (st := MkState params a F1 pk (Some [(a, c)]) [(a, pk)] None None).
  destruct (encrypt_share_ok (MkShare a a F1) (enc_point (pk * F1)%G) r) as (e & r2 & _ & Hs & Hi & Hd). cbn [sh_sender sh_receiver] in Hs, Hi.
  exists params, F1, a, [d], (R1 st), (MkPList [d] None), r, e.
  split; [|split; [reflexivity|split; [reflexivity|]]].
  - unfold dkg_new, new_state_internal. cbn [length p_n p_t params]. change (negb (N.eqb (N.of_nat 1) (u32v a))) with false. cbn iota.
    cbn [check_all]. unfold check_one. cbn [pt_dh_proof pt_index pt_dh_pk pt_sk_proof pt_comm d part_public_key vss_public_key c vss_points hd_error]. rewrite Hv.
    cbn [is_ok andb bind acc_comms acc_dhs acc_valid acc_mis app binsert length negb opt_list].
    change (N.ltb (N.of_nat 1) (u32v a)) with false. cbn iota. assert (Hu : @u32_sub Error m a (u32_of_N (N.of_nat 0)) = Ok a).
    { unfold u32_sub. change (u32_ltb a (u32_of_N (N.of_nat 0))) with false. cbn iota. reflexivity. }
    rewrite Hu. cbn [bind]. destruct m; reflexivity.
  - unfold muls, c_to_round_two. cbn [st1 st ds_params ds_comms ds_dhs ds_index ds_dh_sk ds_dh_pk ds_enc ds_shares p_t params length].
    change (N.ltb (N.of_nat 1) (u32v a)) with false. cbn iota. wks. cbn [c_round_two_loop ds_dhs ds_comms ds_index ds_dh_sk]. rewrite Hi, Hs.
    change (u32_eqb a a) with true. cbn [negb]. rewrite andb_false_r. change (bget a [(a, pk)]) with (Some pk). wks. rewrite check_share_work by (repeat constructor; intros []).
    rewrite Hd. unfold verification. change (bget a [(a, c)]) with (Some c). cbn [vss_points c length]. rewrite repeat_length. cbn [p_n p_t params]. fold k. cbn [wplus wk_mul]. lia.
Qed.
Print Assumptions C129_resharing_work_is_bounded_refuted.

(** On the toy suite (6 bytes per point, digests of 8 bytes): two of three dealers, a bootstrap where nobody is flagged, a
    second round without and with a complaint, three partial signatures that fit and three of which one does not. *)
Definition both {A} (c : counted A) : nat * nat := (muls c, hashed c).
Definition cost_final (a : AggInitial) : AggFinal := match finalize a with Ok f => f | _ => MkFinal (ai_state a) [] end.
Definition cost_good : AggFinal := cost_final (sdone [1; 2; 3]%Z [1; 2; 3]%Z).
Definition cost_spoiled : AggFinal := cost_final (include_partial_signature (sdone [1; 2; 3]%Z [1; 2; 3]%Z) (@MkPSig Toy (u 2) (mk 7))).
Example C129_ex_key_generation :
  both (c_new_dealer (S := Toy) demo_params (u 1) 5%N) = (5, 32) /\
  both (c_bootstrap Debug demo_params (dealer_x 3 2 1 10) (u 1) (dealer_co 3 2 1 10) demo_ps 1001%N) = (16, 96) /\
  both (c_to_round_two Debug (demo_r1 demo_ps 1) (demo_shares 1) 5%N) = (9, 0) /\
  both (c_to_round_two Debug (demo_r1 demo_ps 1) (map garbled (firstn 1 (demo_shares 1)) ++ skipn 1 (demo_shares 1)) 5%N) = (10, 80).
Proof. vms. Qed.
Example C129_ex_outcomes :
  (match bootstrap Debug demo_params (dealer_x 3 2 1 10) (u 1) (dealer_co 3 2 1 10) demo_ps 1001%N with Ok (_, l, _) => pl_mis l | _ => Some [] end) = None /\
  (match to_round_two Debug (demo_r1 demo_ps 1) (demo_shares 1) 5%N with Ok (_, l, _) => length l | _ => 9 end) = 0 /\
  is_ok (aggregate cost_good) = true /\
  (match aggregate cost_spoiled with Err (MisbehavingParticipants l) => l | _ => [] end) = [u 2].
Proof. vms. Qed.
Example C129_ex_signing : both (c_aggregate cost_good) = (5, 156) /\ both (c_aggregate cost_spoiled) = (14, 384).
Proof. vms. Qed.
