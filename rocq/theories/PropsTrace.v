(** C125: which operations are performed on secrets does not depend on the secrets. *)
From Coq Require Import String Strings.Byte Arith NArith ZArith Bool List Lia Field.
From Verif Require Import Base Suite Spec SpecDkg SpecSign Types ModelDkg ModelSign ModelTrace Algebra BaseLemmas LemmasShare LemmasRound2 LemmasFinish LemmasSign
  Toy Demo DemoDkg DemoSign.
Import ListNotations.

(** ** what an observer of the operations sees *)
Definition trace {A} (x : traced A) : list event := snd x.

Section Trace.
  Context {S : Suite} {L : SuiteLaws S}.

  Lemma fst_bind {A B} (x : traced A) (f : A -> traced B) : fst (tbind x f) = fst (f (fst x)).
  Proof. unfold tbind. destruct x as [a e]. cbn. destruct (f a) as [b e']. reflexivity. Qed.
  Lemma snd_bind {A B} (x : traced A) (f : A -> traced B) : snd (tbind x f) = snd x ++ snd (f (fst x)).
  Proof. unfold tbind. destruct x as [a e]. cbn. destruct (f a) as [b e']. reflexivity. Qed.

  Ltac fs := repeat (rewrite fst_bind || cbn [fst snd pure does test]).
  Ltac ss := repeat (rewrite snd_bind || rewrite fst_bind || cbn [fst snd pure does test app]).

  Ltac cf := repeat match goal with |- ?a :: _ = ?a :: _ => apply (f_equal (cons a)) | |- ?a ++ _ = ?a ++ _ => apply (f_equal (app a)) end.

  (** *** the values *)
  Lemma fst_eval x len cs : forall k s, fst (t_eval_loop x len k cs s) = eval_loop x len k cs s.
  Proof.
    induction cs as [|c cs IH]; intros k s; cbn [t_eval_loop eval_loop]; fs; [reflexivity|].
    rewrite IH. destruct (negb _); reflexivity.
  Qed.
  Lemma fst_poly a b cs : fst (t_evaluate_polynomial a b cs) = evaluate_polynomial a b cs.
  Proof. unfold t_evaluate_polynomial, evaluate_polynomial. fs. rewrite fst_eval. reflexivity. Qed.
  Lemma fst_prove i sk pk r : fst (t_nizk_prove i sk pk r) = nizk_prove i sk pk r.
  Proof. unfold t_nizk_prove, nizk_prove. destruct (rand_scalar r) as [k r']. fs. reflexivity. Qed.
  Lemma fst_rands k : forall r, fst (t_rand_scalars k r) = rand_scalars k r.
  Proof.
    induction k as [|k IH]; intros r; cbn [t_rand_scalars rand_scalars]; fs; [reflexivity|].
    destruct (rand_scalar r) as [a r1]. fs. rewrite IH. destruct (rand_scalars k r1) as [l r2]. reflexivity.
  Qed.
  Lemma fst_commit l : fst (t_commit l) = map (fun a => (gen * a)%G) l.
  Proof. induction l as [|a l IH]; cbn [t_commit map]; fs; [reflexivity|]. rewrite IH. reflexivity. Qed.
  Lemma fst_new p sg i sec r : fst (t_new_internal p sg i sec r) = new_internal p sg i sec r.
  Proof.
    unfold t_new_internal, new_internal. fs. destruct (u32_eqb i u32_zero); [reflexivity|].
    destruct (rand_scalar r) as [k r1]. fs. rewrite fst_prove. destruct (nizk_prove _ _ _ _) as [pf r2]. fs.
    destruct sg; [reflexivity|]. rewrite fst_bind.
    match goal with |- fst (let (_, _) := fst ?m in _) = _ =>
      assert (E : fst m = match sec with Some sk => (sk, r2) | None => rand_scalar r2 end) by (destruct sec; reflexivity) end.
    rewrite E. destruct (match sec with Some sk => (sk, r2) | None => rand_scalar r2 end) as [a0 r3].
    rewrite fst_bind, fst_rands. destruct (rand_scalars _ r3) as [rest r4]. fs. rewrite fst_commit.
    destruct (vss_public_key _) as [pk|]; fs; [|reflexivity].
    rewrite fst_prove. destruct (nizk_prove _ _ _ _) as [pf' r5]. reflexivity.
  Qed.
  Lemma fst_encrypt s kb r : fst (t_encrypt_share s kb r) = encrypt_share s kb r.
  Proof.
    unfold t_encrypt_share, encrypt_share. fs. destruct (gen_nonce r) as [n r']. fs. destruct (aead_enc _ _ _); fs; reflexivity.
  Qed.
  Lemma fst_all i sk cs ps : forall acc r, fst (t_encrypt_all i sk cs ps acc r) = encrypt_all i sk (Some cs) ps acc r.
  Proof.
    induction ps as [|p ps IH]; intros acc r; cbn [t_encrypt_all encrypt_all]; fs; [reflexivity|].
    rewrite fst_poly, fst_encrypt. destruct (encrypt_share _ _ r) as [[e r']|e|]; cbn [bind]; fs; auto.
  Qed.
  Lemma fst_decrypt e kb : fst (t_decrypt_share e kb) = decrypt_share e kb.
  Proof.
    unfold t_decrypt_share, decrypt_share. fs. destruct (aead_dec _ _ _) as [b|]; fs; [|reflexivity].
    destruct (dec_scalar b) as [[v q]|]; fs; reflexivity.
  Qed.
  Lemma fst_complaint pk sk sh e r : fst (t_complaint_new pk sk sh e r) = complaint_new pk sk sh e r.
  Proof. unfold t_complaint_new, complaint_new. destruct (rand_scalar r) as [k r']. fs. reflexivity. Qed.
  Lemma fst_verify s c : fst (t_share_verify s c) = is_ok (share_verify s c).
  Proof. unfold t_share_verify, share_verify. fs. destruct (Geqb _ _); reflexivity. Qed.
  Lemma fst_check i d cs : fst (t_check_share i d cs) =
    match find (fun kc => u32_eqb (fst kc) i && bad_share d (snd kc)) cs with Some _ => true | None => false end.
  Proof.
    induction cs as [|[j c] cs IH]; cbn [t_check_share find fst snd]; fs; [reflexivity|].
    destruct (u32_eqb j i); cbn [andb]; [|exact IH]. destruct d as [s|e|]; cbn [bad_share]; fs; try reflexivity.
    rewrite fst_verify. destruct (is_ok _); cbn [negb]; fs; [exact IH|reflexivity].
  Qed.
  Lemma fst_loop2 m st es : forall sh cp r, fst (t_round_two_loop m st es sh cp r) = round_two_loop m st es sh cp r.
  Proof.
    induction es as [|e es IH]; intros sh cp r; cbn [t_round_two_loop round_two_loop]; fs; [reflexivity|].
    destruct (is_debug m && _); [reflexivity|]. destruct (bget _ _) as [pk|]; fs; [|reflexivity].
    rewrite fst_decrypt. destruct (ds_comms st) as [cs|]; fs; [|reflexivity]. rewrite fst_check.
    destruct (find _ _) as [x|].
    - rewrite fst_bind, fst_complaint. destruct (complaint_new _ _ _ _ _) as [c r1]. fs.
      destruct (decrypt_share _ _) as [s|q|]; fs; apply IH.
    - fs. destruct (decrypt_share _ _) as [s|q|]; fs; apply IH.
  Qed.
  Lemma fst_two m s es r : fst (t_to_round_two m s es r) = to_round_two m s es r.
  Proof.
    unfold t_to_round_two, to_round_two. fs. destruct (N.ltb _ _); [reflexivity|]. fs. rewrite fst_loop2.
    destruct (round_two_loop _ _ _ _ _ _) as [[[sh cp] r']|e|]; fs; reflexivity.
  Qed.
  Lemma fst_key_loop idx sh : forall k, fst (t_signing_key_loop idx sh k) = signing_key_loop idx sh k.
  Proof.
    induction sh as [|[i s] sh IH]; intros k; cbn [t_signing_key_loop signing_key_loop]; fs; [reflexivity|].
    destruct (lagrange i idx); fs; auto.
  Qed.
  Lemma fst_key st : fst (t_calculate_signing_key st) = calculate_signing_key st.
  Proof.
    unfold t_calculate_signing_key, calculate_signing_key. destruct (ds_shares st) as [sh|]; fs; [|reflexivity].
    rewrite fst_key_loop. destruct (signing_key_loop _ _ _); reflexivity.
  Qed.
  Lemma fst_nonce k r : fst (t_nonce_generate k r) = nonce_generate k r.
  Proof. unfold t_nonce_generate, nonce_generate. destruct (rand_bytes _ r) as [b r']. fs. reflexivity. Qed.
  Lemma fst_share k r : fst (t_share_new k r) = let '(d, e, r') := nonce_pair k r in (commitment_share d e, r').
  Proof.
    unfold t_share_new, nonce_pair. rewrite fst_bind, fst_nonce. destruct (nonce_generate k r) as [d r1].
    rewrite fst_bind, fst_nonce. destruct (nonce_generate k r1) as [e r2]. fs. reflexivity.
  Qed.
  Lemma fst_gen k n : forall r, fst (t_gen_shares k n r) = gen_shares k n r.
  Proof.
    induction n as [|n IH]; intros r; cbn [t_gen_shares gen_shares]; fs; [reflexivity|].
    rewrite fst_share. destruct (nonce_pair k r) as [[d e] r1]. fs. rewrite IH. destruct (gen_shares k n r1). reflexivity.
  Qed.
  Lemma fst_lists r k n : fst (t_generate_lists r k n) = generate_commitment_share_lists r k n.
  Proof. unfold t_generate_lists, generate_commitment_share_lists. rewrite fst_bind, fst_gen. destruct (gen_shares k n r). reflexivity. Qed.
  Lemma fst_cs a b : fst (t_cs_eq a b) = cs_eqb a b.
  Proof. unfold t_cs_eq, t_com_eq. fs. reflexivity. Qed.
  Lemma fst_find c l : forall i f, fst (t_find_last c l i f) = find_last c l i f.
  Proof.
    induction l as [|s l IH]; intros i f; cbn [t_find_last find_last]; fs; [reflexivity|]. rewrite fst_cs. apply IH.
  Qed.
  Lemma fst_drop l c : fst (t_drop_share l c) = drop_share l c.
  Proof. unfold t_drop_share, drop_share. fs. rewrite fst_find. destruct (find_last _ _ _ _); fs; reflexivity. Qed.
  Lemma fst_sign m k h gk l idx sgs : fst (t_sign m k h gk l idx sgs) = sign m k h gk l idx sgs.
  Proof.
    unfold t_sign, sign. destruct (usize_succ m idx); try reflexivity. fs. destruct (N.ltb _ _); [reflexivity|].
    destruct (compute_binding_factors _ _) as [bf|e|]; cbn [bind]; fs; try reflexivity.
    destruct (binding_factor_for_participant _ _) as [rho|e|]; cbn [bind]; fs; try reflexivity.
    destruct (compute_group_commitment _ _) as [R|e|]; cbn [bind]; fs; try reflexivity.
    destruct (lagrange _ _) as [w|e|]; cbn [bind]; fs; try reflexivity.
    destruct (nthN _ _) as [cs|]; fs; [|reflexivity]. rewrite fst_drop. reflexivity.
  Qed.

  (** *** the traces *)
  Lemma snd_eval x x' len : forall cs cs' k s s', length cs = length cs' ->
    snd (t_eval_loop x len k cs s) = snd (t_eval_loop x' len k cs' s').
  Proof.
    induction cs as [|c cs IH]; intros [|c' cs'] k s s' H; try discriminate; cbn [t_eval_loop]; ss; [reflexivity|].
    injection H as H. destruct (negb _); ss; cf; apply IH, H.
  Qed.
  Lemma snd_poly a b cs a' b' cs' : length cs = length cs' -> snd (t_evaluate_polynomial a b cs) = snd (t_evaluate_polynomial a' b' cs').
  Proof.
    intros H. unfold t_evaluate_polynomial. ss. f_equal. rewrite H. apply snd_eval. rewrite !rev_length. exact H.
  Qed.
  Lemma len_nizk i pk m i' pk' m' : length (nizk_message i pk m) = length (nizk_message i' pk' m').
  Proof.
    unfold nizk_message. rewrite !app_length. rewrite (enc_point_len pk pk'), (enc_point_len m m'). reflexivity.
  Qed.
  Lemma snd_prove i sk pk r i' sk' pk' r' : snd (t_nizk_prove i sk pk r) = snd (t_nizk_prove i' sk' pk' r').
  Proof.
    unfold t_nizk_prove. destruct (rand_scalar r) as [k r1]. destruct (rand_scalar r') as [k' r1']. ss.
    rewrite (len_nizk i pk _ i' pk' (gen * k')%G). reflexivity.
  Qed.
  Lemma snd_rands k : forall r r', snd (t_rand_scalars k r) = snd (t_rand_scalars k r').
  Proof.
    induction k as [|k IH]; intros r r'; cbn [t_rand_scalars]; ss; [reflexivity|].
    destruct (rand_scalar r) as [a r1]. destruct (rand_scalar r') as [a' r1']. ss.
    destruct (fst (t_rand_scalars k r1)) as [l q]. destruct (fst (t_rand_scalars k r1')) as [l' q']. ss. rewrite (IH r1 r1'). reflexivity.
  Qed.
  Lemma snd_commit l l' : length l = length l' -> snd (t_commit l) = snd (t_commit l').
  Proof.
    revert l'. induction l as [|a l IH]; intros [|a' l'] H; try discriminate; cbn [t_commit]; ss; [reflexivity|].
    injection H as H. rewrite (IH _ H). reflexivity.
  Qed.
  Lemma rands_len k : forall r, length (fst (rand_scalars k r)) = k.
  Proof.
    induction k as [|k IH]; intros r; cbn [rand_scalars]; [reflexivity|]. destruct (rand_scalar r) as [a r1].
    specialize (IH r1). destruct (rand_scalars k r1) as [l r2]. cbn in *. lia.
  Qed.

  (** dealers and signers: only the threshold, the role, the index being zero and the presence of a given secret matter *)
  Lemma snd_new p p' sg i i' sec sec' r r' : p_t p = p_t p' -> (i = u32_zero <-> i' = u32_zero) -> (sec = None <-> sec' = None) ->
    snd (t_new_internal p sg i sec r) = snd (t_new_internal p' sg i' sec' r').
  Proof.
    intros Ht Hi Hs. unfold t_new_internal. rewrite <- Ht. ss.
    assert (Eb : u32_eqb i u32_zero = u32_eqb i' u32_zero).
    { destruct (u32_eqb i u32_zero) eqn:E; symmetry.
      - apply u32_eqb_spec, Hi, u32_eqb_spec, E.
      - apply u32_eqb_neq. intros X. apply Hi in X. apply u32_eqb_neq in E. exact (E X). }
    rewrite Eb. destruct (u32_eqb i' u32_zero); [reflexivity|].
    destruct (rand_scalar r) as [k r1]. destruct (rand_scalar r') as [k' r1']. ss.
    rewrite (snd_prove i k (gen * k)%G r1 i' k' (gen * k')%G r1').
    destruct (fst (t_nizk_prove i k (gen * k)%G r1)) as [pf r2].
    destruct (fst (t_nizk_prove i' k' (gen * k')%G r1')) as [pf' r2']. ss. cf.
    destruct sg; [reflexivity|]. rewrite !snd_bind.
    f_equal.
    { destruct sec, sec'; try reflexivity.
      - destruct Hs as [_ Hs]. discriminate (Hs eq_refl).
      - destruct Hs as [Hs _]. discriminate (Hs eq_refl). }
    match goal with |- snd (let (_, _) := fst ?m in _) = snd (let (_, _) := fst ?m' in _) =>
      destruct (fst m) as [a r3]; destruct (fst m') as [a' r3'] end.
    rewrite !snd_bind. f_equal; [apply snd_rands|]. rewrite !fst_rands.
    pose proof (rands_len (u32_nat (p_t p) - 1) r3) as H1. pose proof (rands_len (u32_nat (p_t p) - 1) r3') as H2.
    destruct (rand_scalars _ r3) as [l r4]. destruct (rand_scalars _ r3') as [l' r4']. cbn [fst] in *. rewrite !snd_bind.
    assert (Hl : length (firstn (u32_nat (p_t p)) (a :: l)) = length (firstn (u32_nat (p_t p)) (a' :: l')))
      by (rewrite !firstn_length; cbn [length]; rewrite H1, H2; reflexivity).
    f_equal; [apply snd_commit, Hl|]. rewrite !fst_commit. unfold vss_public_key.
    destruct (u32_nat (p_t p)) as [|n]; cbn [firstn map vss_points]; [reflexivity|]. ss.
    cf. f_equal; [apply snd_prove|].
    destruct (fst (t_nizk_prove i a (gen * a)%G r4)). destruct (fst (t_nizk_prove i' a' (gen * a')%G r4')). reflexivity.
  Qed.

  Lemma snd_encrypt s kb r s' kb' r' : length kb = length kb' -> snd (t_encrypt_share s kb r) = snd (t_encrypt_share s' kb' r').
  Proof.
    intros H. unfold t_encrypt_share. ss. destruct (gen_nonce r) as [n q]. destruct (gen_nonce r') as [n' q']. ss.
    assert (Hn : length (nonce_bytes n) = nonce_len) by (destruct n as [b Hb]; apply Nat.eqb_eq, Hb).
    assert (Hn' : length (nonce_bytes n') = nonce_len) by (destruct n' as [b Hb]; apply Nat.eqb_eq, Hb).
    destruct (aead_enc_scalar (hkdf kb) _ (sh_value s) Hn) as [c Ec]. destruct (aead_enc_scalar (hkdf kb') _ (sh_value s') Hn') as [c' Ec'].
    rewrite Ec, Ec', H, (enc_scalar_len (sh_value s) (sh_value s')). reflexivity.
  Qed.
  Lemma encrypt_ok s kb r : exists e q, encrypt_share s kb r = Ok (e, q).
  Proof.
    unfold encrypt_share. destruct (gen_nonce r) as [n q].
    assert (Hn : length (nonce_bytes n) = nonce_len) by (destruct n as [b Hb]; apply Nat.eqb_eq, Hb).
    destruct (aead_enc_scalar (hkdf kb) _ (sh_value s) Hn) as [c Ec]. rewrite Ec. eauto.
  Qed.
  Lemma snd_all i sk cs i' sk' cs' : length cs = length cs' -> forall ps ps' acc acc' r r', length ps = length ps' ->
    snd (t_encrypt_all i sk cs ps acc r) = snd (t_encrypt_all i' sk' cs' ps' acc' r').
  Proof.
    intros H. induction ps as [|p ps IH]; intros [|p' ps'] acc acc' r r' Hp; try discriminate; cbn [t_encrypt_all]; ss; [reflexivity|].
    injection Hp as Hp. rewrite (snd_poly _ (pt_index p) cs i' (pt_index p') cs' H). cf.
    rewrite !fst_poly, !fst_encrypt.
    match goal with |- snd (t_encrypt_share ?s ?k ?q) ++ _ = snd (t_encrypt_share ?s' ?k' ?q') ++ _ =>
      destruct (encrypt_ok s k q) as (e & r1 & E); destruct (encrypt_ok s' k' q') as (e' & r1' & E');
      rewrite (snd_encrypt s k q s' k' q') by (apply enc_point_len); rewrite E, E' end.
    ss. cf. apply IH, Hp.
  Qed.

  Lemma snd_key_loop idx : forall sh sh' k k', map fst sh = map fst sh' ->
    snd (t_signing_key_loop idx sh k) = snd (t_signing_key_loop idx sh' k').
  Proof.
    induction sh as [|[i s] sh IH]; intros [|[i' s'] sh'] k k' H; try discriminate; cbn [t_signing_key_loop]; ss; [reflexivity|].
    injection H as <- H. destruct (lagrange i idx); ss; try reflexivity. cf. apply IH, H.
  Qed.
  Lemma snd_key st st' : option_map bkeys (ds_shares st) = option_map bkeys (ds_shares st') ->
    snd (t_calculate_signing_key st) = snd (t_calculate_signing_key st').
  Proof.
    unfold t_calculate_signing_key. destruct (ds_shares st) as [sh|], (ds_shares st') as [sh'|]; intros H; try discriminate; ss; [|reflexivity].
    injection H as H. rewrite H. f_equal.
    rewrite (snd_key_loop (bkeys sh') sh sh' F0 F0 H). f_equal.
    destruct (fst (t_signing_key_loop (bkeys sh') sh F0)), (fst (t_signing_key_loop (bkeys sh') sh' F0)); reflexivity.
  Qed.

  Lemma len_key k k' : length (ser_signing_key k) = length (ser_signing_key k').
  Proof. unfold ser_signing_key. rewrite !app_length, (enc_scalar_len (sk_key k) (sk_key k')). reflexivity. Qed.
  Lemma snd_nonce k r k' r' : snd (t_nonce_generate k r) = snd (t_nonce_generate k' r').
  Proof.
    unfold t_nonce_generate. pose proof (rand_bytes_len hash_len r) as H. pose proof (rand_bytes_len hash_len r') as H'.
    destruct (rand_bytes hash_len r) as [b q]. destruct (rand_bytes hash_len r') as [b' q']. ss. cbn [fst] in *.
    rewrite !app_length, H, H', (len_key k k'). reflexivity.
  Qed.
  Lemma snd_share k r k' r' : snd (t_share_new k r) = snd (t_share_new k' r').
  Proof.
    unfold t_share_new. rewrite !snd_bind, (snd_nonce k r k' r'). f_equal.
    destruct (fst (t_nonce_generate k r)) as [d r1]. destruct (fst (t_nonce_generate k' r')) as [d' r1'].
    rewrite !snd_bind, (snd_nonce k r1 k' r1'). f_equal.
    destruct (fst (t_nonce_generate k r1)) as [e r2]. destruct (fst (t_nonce_generate k' r1')) as [e' r2']. ss. reflexivity.
  Qed.
  Lemma snd_gen k k' n : forall r r', snd (t_gen_shares k n r) = snd (t_gen_shares k' n r').
  Proof.
    induction n as [|n IH]; intros r r'; cbn [t_gen_shares]; ss; [reflexivity|]. f_equal. rewrite (snd_share k r k' r'). f_equal.
    destruct (fst (t_share_new k r)) as [c r1]. destruct (fst (t_share_new k' r')) as [c' r1']. rewrite !snd_bind, (IH r1 r1').
    f_equal. destruct (fst (t_gen_shares k n r1)) as [l r2]. destruct (fst (t_gen_shares k' n r1')) as [l' r2']. reflexivity.
  Qed.
  Lemma snd_lists r k r' k' n : snd (t_generate_lists r k n) = snd (t_generate_lists r' k' n).
  Proof.
    unfold t_generate_lists. rewrite !snd_bind, (snd_gen k k' n r r'). f_equal.
    destruct (fst (t_gen_shares k n r)). destruct (fst (t_gen_shares k' n r')). reflexivity.
  Qed.

  (** comparing two pairs takes the same operations whether or not they agree, and wherever they differ *)
  Lemma snd_cs a b a' b' : snd (t_cs_eq a b) = snd (t_cs_eq a' b').
  Proof. unfold t_cs_eq, t_com_eq. ss. reflexivity. Qed.
  Lemma snd_find c c' : forall l l' i f f', map (fun s => cs_eqb s c) l = map (fun s => cs_eqb s c') l' ->
    snd (t_find_last c l i f) = snd (t_find_last c' l' i f').
  Proof.
    induction l as [|s l IH]; intros [|s' l'] i f f' H; try discriminate; cbn [t_find_last]; ss; [reflexivity|].
    injection H as H1 H2. rewrite !fst_cs, (snd_cs s c s' c'), H1. cf. apply IH, H2.
  Qed.
  Lemma val_find c c' : forall l l' i f, map (fun s => cs_eqb s c) l = map (fun s => cs_eqb s c') l' ->
    find_last c l i f = find_last c' l' i f.
  Proof.
    induction l as [|s l IH]; intros [|s' l'] i f H; try discriminate; cbn [find_last]; [reflexivity|].
    injection H as H1 H2. rewrite H1. apply IH, H2.
  Qed.
  Lemma snd_drop l c l' c' : map (fun s => cs_eqb s c) (sl_commitments l) = map (fun s => cs_eqb s c') (sl_commitments l') ->
    snd (t_drop_share l c) = snd (t_drop_share l' c').
  Proof.
    intros H. unfold t_drop_share. ss. rewrite (snd_find c c' _ (sl_commitments l') 0 None None H). f_equal.
    rewrite !fst_find, (val_find c c' _ (sl_commitments l') 0 None H).
    replace (length (sl_commitments l)) with (length (sl_commitments l')).
    2:{ apply (f_equal (@length bool)) in H. rewrite !map_length in H. auto. }
    destruct (find_last c' _ _ _); ss; reflexivity.
  Qed.

  Lemma publics_ok h sgs i : is_ok (let* bf := compute_binding_factors h sgs in
      let* rho := binding_factor_for_participant i bf in
      let* R := compute_group_commitment sgs bf in
      let* lambda := lagrange i (map sg_index sgs) in
      Ok (rho, R, lambda)) = existsb (u32_eqb i) (map sg_index sgs) && is_ok (lagrange i (map sg_index sgs)).
  Proof.
    destruct sgs as [|s0 l]; [reflexivity|]. set (sgs := s0 :: l).
    rewrite compute_binding_factors_ok by (unfold sgs; discriminate). cbn [bind].
    destruct (existsb (u32_eqb i) (map sg_index sgs)) eqn:E.
    - assert (Hi : In i (map sg_index sgs)) by (apply existsb_exists in E; destruct E as (x & Hx & Ex); apply u32_eqb_spec in Ex; subst; exact Hx).
      rewrite factors_get by exact Hi. cbn [bind]. rewrite compute_group_commitment_ok. cbn [bind andb].
      destruct (lagrange i _); reflexivity.
    - rewrite factors_miss; [reflexivity|]. intros Hi.
      assert (X : existsb (u32_eqb i) (map sg_index sgs) = true) by (apply existsb_exists; exists i; split; [exact Hi|apply u32_eqb_spec; reflexivity]).
      congruence.
  Qed.

  Lemma nth_pattern {A} (eqb : A -> A -> bool) (Heq : forall x y, eqb x y = true <-> x = y) (l l' : list A) i c c' :
    length l = length l' -> nth_error l i = Some c -> nth_error l' i = Some c' ->
    (forall j, nth_error l j = nth_error l i <-> nth_error l' j = nth_error l' i) ->
    map (fun s => eqb s c) l = map (fun s => eqb s c') l'.
  Proof.
    intros Hl Hc Hc' H. rewrite Hc, Hc' in H. clear Hc Hc' i. revert l' Hl H.
    induction l as [|x l IH]; intros [|x' l'] Hl H; try discriminate; [reflexivity|].
    injection Hl as Hl. cbn [map]. f_equal.
    - specialize (H 0). cbn in H. destruct (eqb x c) eqn:E, (eqb x' c') eqn:E'; try reflexivity.
      + apply Heq in E. subst x. destruct H as [H _]. specialize (H eq_refl). injection H as ->.
        assert (X : eqb c' c' = true) by (apply Heq; reflexivity). congruence.
      + apply Heq in E'. subst x'. destruct H as [_ H]. specialize (H eq_refl). injection H as ->.
        assert (X : eqb c c = true) by (apply Heq; reflexivity). congruence.
    - apply IH; [exact Hl|]. intros j. exact (H (Datatypes.S j)).
  Qed.

  Lemma snd_sign m k k' h h' gk gk' l l' idx sgs sgs' :
    sk_index k = sk_index k' -> map sg_index sgs = map sg_index sgs' -> length (sl_commitments l) = length (sl_commitments l') ->
    (forall j, nth_error (sl_commitments l) j = nth_error (sl_commitments l) (N.to_nat idx) <->
               nth_error (sl_commitments l') j = nth_error (sl_commitments l') (N.to_nat idx)) ->
    snd (t_sign m k h gk l idx sgs) = snd (t_sign m k' h' gk' l' idx sgs').
  Proof.
    intros Hk Hs Hl Hp. unfold t_sign. destruct (usize_succ m idx) as [i1|e|]; try reflexivity. ss. rewrite Hl. f_equal.
    destruct (N.ltb _ _); [reflexivity|].
    pose proof (publics_ok h sgs (sk_index k)) as P. pose proof (publics_ok h' sgs' (sk_index k')) as P'.
    rewrite <- Hs, <- Hk in P'. rewrite <- P in P'. clear P. cbv zeta. rewrite <- Hk, <- Hs.
    match goal with |- snd (match ?a with _ => _ end) = snd (match ?b with _ => _ end) =>
      assert (Q : is_ok a = is_ok b) by (symmetry; exact P'); destruct a as [[[rho R] w]|e|]; destruct b as [[[rho' R'] w']|e'|];
      try discriminate Q; try reflexivity end.
    ss. f_equal. rewrite !nthN_nth.
    destruct (nth_error (sl_commitments l) (N.to_nat idx)) as [c|] eqn:E; destruct (nth_error (sl_commitments l') (N.to_nat idx)) as [c'|] eqn:E';
      try reflexivity.
    - ss. cf. f_equal. apply snd_drop. apply (nth_pattern cs_eqb cs_eqb_spec _ _ (N.to_nat idx)); auto.
      intros j. rewrite E, E'. apply Hp.
    - apply nth_error_None in E'. assert (N.to_nat idx < length (sl_commitments l)) by (apply nth_error_Some; congruence). lia.
    - apply nth_error_None in E. assert (N.to_nat idx < length (sl_commitments l')) by (apply nth_error_Some; congruence). lia.
  Qed.

  Lemma bget_shape {A B} i : forall (m : bmap A) (m' : bmap B), map fst m = map fst m' ->
    match bget i m, bget i m' with Some _, Some _ => True | None, None => True | _, _ => False end.
  Proof.
    unfold bget. induction m as [|[k v] m IH]; intros [|[k' v'] m'] H; try discriminate; cbn; [exact I|].
    injection H as <- H. destruct (u32_eqb i k); [exact I|]. apply IH, H.
  Qed.
  Lemma len_complaint a b c d e x a' b' c' d' e' x' : length (es_ct x) = length (es_ct x') ->
    length (complaint_message a b c d e x) = length (complaint_message a' b' c' d' e' x').
  Proof.
    intros H. unfold complaint_message, ser_encshare, enc_bytes.
    assert (Hn : length (nonce_bytes (es_nonce x)) = nonce_len) by (destruct (es_nonce x) as [q Hq]; apply Nat.eqb_eq, Hq).
    assert (Hn' : length (nonce_bytes (es_nonce x')) = nonce_len) by (destruct (es_nonce x') as [q Hq]; apply Nat.eqb_eq, Hq).
    rewrite !app_length, Hn, Hn', H, (enc_point_len a a'), (enc_point_len b b'), (enc_point_len c c'), (enc_point_len d d'), (enc_point_len e e').
    reflexivity.
  Qed.
  Lemma snd_complaint a b c x r a' b' c' x' r' : length (es_ct x) = length (es_ct x') ->
    snd (t_complaint_new a b c x r) = snd (t_complaint_new a' b' c' x' r').
  Proof.
    intros H. unfold t_complaint_new. destruct (rand_scalar r) as [k r1]. destruct (rand_scalar r') as [k' r1']. ss.
    erewrite (len_complaint _ _ _ _ _ x _ _ _ _ _ x' H). reflexivity.
  Qed.
  Lemma snd_verify s c s' c' : is_ok (share_verify s c) = is_ok (share_verify s' c') -> snd (t_share_verify s c) = snd (t_share_verify s' c').
  Proof.
    intros H. rewrite <- !fst_verify in H. unfold t_share_verify in *. revert H. ss. intros H. rewrite H. reflexivity.
  Qed.
  Lemma snd_check i d d' : is_ok d = is_ok d' -> forall cs cs', bkeys cs = bkeys cs' ->
    map (fun kc => u32_eqb (fst kc) i && bad_share d (snd kc)) cs = map (fun kc => u32_eqb (fst kc) i && bad_share d' (snd kc)) cs' ->
    snd (t_check_share i d cs) = snd (t_check_share i d' cs').
  Proof.
    intros Hd. induction cs as [|[j c] cs IH]; intros [|[j' c'] cs'] Hk Hb; try discriminate; cbn [t_check_share]; ss; [reflexivity|].
    injection Hk as <- Hk. injection Hb as Hb1 Hb2. cbn [fst] in Hb1. cf. destruct (u32_eqb j i); [|apply IH; assumption].
    destruct d as [s|e|], d' as [s'|e'|]; try discriminate Hd; try reflexivity. ss. cf.
    cbn [bad_share snd andb] in Hb1. assert (Q : is_ok (share_verify s c) = is_ok (share_verify s' c'))
      by (destruct (is_ok (share_verify s c)), (is_ok (share_verify s' c')); try reflexivity; discriminate Hb1).
    rewrite (snd_verify s c s' c' Q), !fst_verify, Q. cf. destruct (is_ok (share_verify s' c')); [|reflexivity]. apply IH; assumption.
  Qed.
  Lemma find_shape i d d' : forall (cs cs' : bmap Vss), bkeys cs = bkeys cs' ->
    map (fun kc => u32_eqb (fst kc) i && bad_share d (snd kc)) cs = map (fun kc => u32_eqb (fst kc) i && bad_share d' (snd kc)) cs' ->
    match find (fun kc => u32_eqb (fst kc) i && bad_share d (snd kc)) cs with Some _ => true | None => false end =
    match find (fun kc => u32_eqb (fst kc) i && bad_share d' (snd kc)) cs' with Some _ => true | None => false end.
  Proof.
    induction cs as [|[j c] cs IH]; intros [|[j' c'] cs'] Hk Hb; try discriminate; [reflexivity|].
    injection Hk as <- Hk. injection Hb as Hb1 Hb2. cbn [find fst snd] in *. rewrite Hb1.
    destruct (u32_eqb j i && bad_share d' c'); [reflexivity|]. apply IH; assumption.
  Qed.

  (** the bytes a received share decrypts to *)
  Definition plain (st : DkgState) (e : EncShare) : option (list byte) :=
    match bget (es_sender e) (ds_dhs st) with
    | Some pk => aead_dec (hkdf (enc_point (pk * ds_dh_sk st)%G)) (nonce_bytes (es_nonce e)) (es_ct e)
    | None => None
    end.
  (** how many bytes it decrypts to and whether they are a scalar *)
  Definition opening (st : DkgState) (e : EncShare) : option (nat * bool) :=
    option_map (fun b => (length b, match dec_scalar b with Some _ => true | None => false end)) (plain st e).
  (** which of the sender's commitments the scalar does not match *)
  Definition refused (st : DkgState) (e : EncShare) (comms : bmap Vss) : list bool :=
    match plain st e with
    | Some b => match dec_scalar b with
                | Some (v, _) => map (fun kc => u32_eqb (fst kc) (es_sender e) &&
                                                  negb (is_ok (share_verify (MkShare (es_sender e) (es_receiver e) v) (snd kc)))) comms
                | None => []
                end
    | None => []
    end.
  (** two received shares, of two participants, that differ in secret values only *)
  Definition alike (st st' : DkgState) (e e' : EncShare) : Prop :=
    es_sender e = es_sender e' /\ es_receiver e = es_receiver e' /\ length (es_ct e) = length (es_ct e') /\
    opening st e = opening st' e' /\
    option_map (refused st e) (ds_comms st) = option_map (refused st' e') (ds_comms st').
  (** two participants after the first round, in the same place of the same group *)
  Definition same_place (st st' : DkgState) : Prop :=
    ds_params st = ds_params st' /\ ds_index st = ds_index st' /\ bkeys (ds_dhs st) = bkeys (ds_dhs st') /\
    option_map bkeys (ds_comms st) = option_map bkeys (ds_comms st').

  Lemma snd_loop2 m st st' : same_place st st' -> forall es es', Forall2 (alike st st') es es' -> forall sh sh' cp cp' r r',
    length cp = length cp' ->
    snd (t_round_two_loop m st es sh cp r) = snd (t_round_two_loop m st' es' sh' cp' r') /\
    match round_two_loop m st es sh cp r, round_two_loop m st' es' sh' cp' r' with
    | Ok (_, c, _), Ok (_, c', _) => length c = length c'
    | Err _, Err _ | Panic, Panic => True
    | _, _ => False
    end.
  Proof.
    intros (Hp & Hi & Hd & Hc) es es' H. induction H as [|e e' es es' (As & Ar & At & Ao & Af) H IH]; intros sh sh' cp cp' r r' Hl.
    - split; [reflexivity|exact Hl].
    - cbn [t_round_two_loop round_two_loop]. ss. rewrite <- Hi, <- Ar. cf.
      destruct (is_debug m && _); [split; [reflexivity|exact I]|].
      unfold opening, refused, plain in Ao, Af. rewrite <- As in *. pose proof (bget_shape (es_sender e) _ _ Hd) as B.
      destruct (bget (es_sender e) (ds_dhs st)) as [pk|]; destruct (bget (es_sender e) (ds_dhs st')) as [pk'|]; try contradiction;
        [|split; [reflexivity|exact I]].
      ss. rewrite !fst_decrypt.
      set (d := decrypt_share e (enc_point (pk * ds_dh_sk st)%G)). set (d' := decrypt_share e' (enc_point (pk' * ds_dh_sk st')%G)).
      assert (D : snd (t_decrypt_share e (enc_point (pk * ds_dh_sk st)%G)) = snd (t_decrypt_share e' (enc_point (pk' * ds_dh_sk st')%G)) /\
        is_ok d = is_ok d' /\ match d, d' with Panic, _ | _, Panic => False | _, _ => True end /\
        forall cs cs', ds_comms st = Some cs -> ds_comms st' = Some cs' ->
          map (fun kc => u32_eqb (fst kc) (es_sender e) && bad_share d (snd kc)) cs = map (fun kc => u32_eqb (fst kc) (es_sender e) && bad_share d' (snd kc)) cs').
      { unfold d, d', t_decrypt_share, decrypt_share. ss. rewrite At, (enc_point_len (pk * ds_dh_sk st)%G (pk' * ds_dh_sk st')%G).
        assert (Hnone : forall cs cs', ds_comms st = Some cs -> ds_comms st' = Some cs' ->
          map (fun kc : u32 * Vss => u32_eqb (fst kc) (es_sender e) && true) cs = map (fun kc => u32_eqb (fst kc) (es_sender e) && true) cs').
        { intros cs cs' E E'. rewrite E, E' in Hc. injection Hc as Hc.
          clear - Hc. revert cs' Hc. induction cs as [|x cs IH]; intros [|x' cs'] Hc; try discriminate; [reflexivity|].
          injection Hc as Hx Hc. cbn [map]. rewrite Hx. f_equal. apply IH, Hc. }
        destruct (aead_dec (hkdf (enc_point (pk * ds_dh_sk st)%G)) _ _) as [b|]; destruct (aead_dec (hkdf (enc_point (pk' * ds_dh_sk st')%G)) _ _) as [b'|];
          cbn [option_map] in Ao; try discriminate Ao; cbn [bad_share is_ok]; [|ss; split; [reflexivity|]; split; [reflexivity|]; split; [exact I|]; exact Hnone].
        ss. injection Ao as Ab Ac. rewrite Ab.
        destruct (dec_scalar b) as [[v q]|]; destruct (dec_scalar b') as [[v' q']|]; try discriminate Ac; ss; cbn [is_ok];
          (split; [reflexivity|]; split; [reflexivity|]; split; [exact I|]).
        - intros cs cs' E E'. rewrite E, E' in Af. injection Af as Af. rewrite <- As, <- Ar. rewrite <- Ar in Af. exact Af.
        - exact Hnone. }
      destruct D as (D1 & D2 & D3 & D4). rewrite D1.
      destruct (ds_comms st) as [cs|]; destruct (ds_comms st') as [cs'|]; try discriminate Hc; [|split; [reflexivity|exact I]].
      injection Hc as Hc. specialize (D4 cs cs' eq_refl eq_refl). ss. cf.
      rewrite (snd_check (es_sender e) d d' D2 cs cs' Hc D4), !fst_check.
      pose proof (find_shape (es_sender e) d d' cs cs' Hc D4) as F.
      destruct (find _ cs) as [x|]; destruct (find _ cs') as [x'|]; try discriminate F.
      + pose proof (snd_complaint pk (ds_dh_sk st) (pk * ds_dh_sk st)%G e r pk' (ds_dh_sk st') (pk' * ds_dh_sk st')%G e' r' At) as Q.
        ss. rewrite Q, !fst_complaint.
        destruct (complaint_new pk _ _ e r) as [c1 r1]. destruct (complaint_new pk' _ _ e' r') as [c1' r1']. ss.
        assert (Hl' : length (cp ++ [c1]) = length (cp' ++ [c1'])) by (rewrite !app_length, Hl; reflexivity).
        destruct d as [s|q|], d' as [s'|q'|]; try contradiction; try discriminate D2; ss;
          match goal with |- _ = _ /\ match round_two_loop _ _ _ ?a _ ?b with _ => _ end => idtac end;
          match goal with |- context [round_two_loop m st es ?a _ ?b] => match goal with |- context [round_two_loop m st' es' ?a' _ ?b'] =>
            destruct (IH a a' _ _ b b' Hl') as [I1 I2]; rewrite I1; split; [reflexivity|exact I2] end end.
      + destruct d as [s|q|], d' as [s'|q'|]; try contradiction; try discriminate D2; ss;
          match goal with |- context [round_two_loop m st es ?a _ ?b] => match goal with |- context [round_two_loop m st' es' ?a' _ ?b'] =>
            destruct (IH a a' _ _ b b' Hl) as [I1 I2]; rewrite I1; split; [reflexivity|exact I2] end end.
  Qed.
  Lemma snd_two m s s' es es' r r' : same_place (st1 s) (st1 s') -> Forall2 (alike (st1 s) (st1 s')) es es' ->
    snd (t_to_round_two m s es r) = snd (t_to_round_two m s' es' r').
  Proof.
    intros Hp H. unfold t_to_round_two. ss. cbn [ds_params]. destruct Hp as (P1 & P2 & P3 & P4).
    assert (Hes : length es = length es') by (clear - H; induction H; cbn; congruence). rewrite Hes, <- P1. cf. destruct (N.ltb _ _); [reflexivity|]. ss. rewrite !fst_loop2.
    match goal with |- context [round_two_loop m ?a es _ _ _] => match goal with |- context [round_two_loop m ?b es' _ _ _] =>
      assert (Q1 : same_place a b) by (repeat split; assumption);
      destruct (snd_loop2 m a b Q1 es es' H [] [] [] [] r r' eq_refl) as [I1 I2]; rewrite I1; cf;
      destruct (round_two_loop m a es [] [] r) as [[[sh cp] q]|e|]; destruct (round_two_loop m b es' [] [] r') as [[[sh' cp'] q']|e'|];
        try contradiction; try reflexivity end end.
    ss. rewrite I2. destruct (u32_sub _ _ _) as [n|e|]; cbn [bind]; try reflexivity. destruct (u32_ltb _ _); reflexivity.
  Qed.
  (** an accepted share: the encoding of a value on the polynomial its sender committed to *)
  Definition accepted (st : DkgState) (e : EncShare) (v : F) : Prop :=
    plain st e = Some (enc_scalar v) /\
    forall comms c, ds_comms st = Some comms -> In (es_sender e, c) comms -> on_commitment c (es_receiver e) v.
  Lemma dec_enc v : dec_scalar (enc_scalar v) = Some (v, []).
  Proof. rewrite <- (app_nil_r (enc_scalar v)). apply enc_scalar_dec. Qed.
  Lemma accepted_alike st st' e e' v v' : same_place st st' -> es_sender e = es_sender e' -> es_receiver e = es_receiver e' ->
    length (es_ct e) = length (es_ct e') -> accepted st e v -> accepted st' e' v' -> alike st st' e e'.
  Proof.
    intros (P1 & P2 & P3 & P4) H1 H2 H3 (A1 & A2) (B1 & B2).
    assert (Z : forall (s : DkgState) f w cs, plain s f = Some (enc_scalar w) -> (forall c, In (es_sender f, c) cs -> on_commitment c (es_receiver f) w) ->
      refused s f cs = map (fun _ => false) (bkeys cs)).
    { intros s f w cs E Hc. unfold refused. rewrite E, dec_enc. unfold bkeys. rewrite map_map. apply map_ext_in. intros [k c] Hin. cbn [fst snd].
      destruct (u32_eqb k (es_sender f)) eqn:Ek; [|reflexivity]. apply u32_eqb_spec in Ek. subst k.
      rewrite (proj2 (share_verify_iff (MkShare (es_sender f) (es_receiver f) w) c) (Hc c Hin)). reflexivity. }
    split; [exact H1|]. split; [exact H2|]. split; [exact H3|]. split.
    - unfold opening. rewrite A1, B1. cbn [option_map]. rewrite !dec_enc, (enc_scalar_len v v'). reflexivity.
    - destruct (ds_comms st) as [cs|]; destruct (ds_comms st') as [cs'|]; try discriminate P4; [|reflexivity]. cbn [option_map] in *. f_equal.
      injection P4 as P4. rewrite (Z st e v cs A1 (fun c => A2 cs c eq_refl)), (Z st' e' v' cs' B1 (fun c => B2 cs' c eq_refl)), P4. reflexivity.
  Qed.
End Trace.

(** C125 *)
(** the instrumented functions compute what the model's functions compute *)
Theorem C125_instrumented_values :
  forall (S : Suite) (L : SuiteLaws S),
  (forall p sg i sec r, fst (t_new_internal p sg i sec r) = new_internal p sg i sec r) /\
  (forall i x co ps acc r, fst (t_encrypt_all i x co ps acc r) = encrypt_all i x (Some co) ps acc r) /\
  (forall m s es r, fst (t_to_round_two m s es r) = to_round_two m s es r) /\
  (forall st, fst (t_calculate_signing_key st) = calculate_signing_key st) /\
  (forall r k n, fst (t_generate_lists r k n) = generate_commitment_share_lists r k n) /\
  (forall a b, fst (t_cs_eq a b) = cs_eqb a b) /\
  (forall l c, fst (t_drop_share l c) = drop_share l c) /\
  (forall m k h gk l i sgs, fst (t_sign m k h gk l i sgs) = sign m k h gk l i sgs).
Proof.
  intros S L. split; [intros; apply fst_new|]. split; [intros; apply fst_all|]. split; [intros; apply fst_two|].
  split; [intros; apply fst_key|]. split; [intros; apply fst_lists|]. split; [intros; apply fst_cs|].
  split; [intros; apply fst_drop|]. intros; apply fst_sign.
Qed.

(** creating a participant: the threshold, the role and whether a secret is given *)
Theorem C125_new_participant_trace :
  forall (S : Suite) (L : SuiteLaws S) (params params' : Params) (is_signer : bool) (i i' : u32) (secret secret' : option F) (r r' : Rng),
  p_t params = p_t params' -> (i = u32_zero <-> i' = u32_zero) -> (secret = None <-> secret' = None) ->
  trace (t_new_internal params is_signer i secret r) = trace (t_new_internal params' is_signer i' secret' r').
Proof. intros. apply snd_new; assumption. Qed.

(** dealing the shares: the number of coefficients and of participants *)
Theorem C125_dealing_trace :
  forall (S : Suite) (L : SuiteLaws S) (i i' : u32) (x x' : F) (co co' : list F) (ps ps' : list Participant) (acc acc' : bmap EncShare) (r r' : Rng),
  length co = length co' -> length ps = length ps' ->
  trace (t_encrypt_all i x co ps acc r) = trace (t_encrypt_all i' x' co' ps' acc' r').
Proof. intros. apply snd_all; assumption. Qed.

(** the second round: senders and receivers, lengths, which shares open and which match *)
Theorem C125_round_two_trace :
  forall (S : Suite) (L : SuiteLaws S) (m : build) (s s' : RoundOne) (es es' : list EncShare) (r r' : Rng),
  same_place (st1 s) (st1 s') -> Forall2 (alike (st1 s) (st1 s')) es es' ->
  trace (t_to_round_two m s es r) = trace (t_to_round_two m s' es' r').
Proof. intros. apply snd_two; assumption. Qed.

(** among accepted shares: senders, receivers and lengths *)
Theorem C125_accepted_shares_trace :
  forall (S : Suite) (L : SuiteLaws S) (m : build) (s s' : RoundOne) (es es' : list EncShare) (r r' : Rng),
  same_place (st1 s) (st1 s') ->
  Forall2 (fun e e' => es_sender e = es_sender e' /\ es_receiver e = es_receiver e' /\ length (es_ct e) = length (es_ct e') /\
    (exists v, accepted (st1 s) e v) /\ (exists v', accepted (st1 s') e' v')) es es' ->
  trace (t_to_round_two m s es r) = trace (t_to_round_two m s' es' r').
Proof.
  intros S L m s s' es es' r r' Hp H. apply snd_two; [exact Hp|].
  induction H as [|e e' es es' (H1 & H2 & H3 & (v & A) & v' & A') H IH]; constructor; [|exact IH].
  eapply accepted_alike; eassumption.
Qed.

(** the signing key: the indices of the dealers *)
Theorem C125_finish_trace :
  forall (S : Suite) (L : SuiteLaws S) (st st' : DkgState),
  option_map bkeys (ds_shares st) = option_map bkeys (ds_shares st') ->
  trace (t_calculate_signing_key st) = trace (t_calculate_signing_key st').
Proof. intros. apply snd_key; assumption. Qed.

(** the nonces: their number *)
Theorem C125_nonces_trace :
  forall (S : Suite) (L : SuiteLaws S) (r r' : Rng) (k k' : SigningKey) (n : nat),
  trace (t_generate_lists r k n) = trace (t_generate_lists r' k' n).
Proof. intros. apply snd_lists. Qed.

(** comparing two pairs: nothing, not even whether and where they differ *)
Theorem C125_comparison_trace :
  forall (S : Suite) (L : SuiteLaws S) (a b a' b' : CommitmentShare), trace (t_cs_eq a b) = trace (t_cs_eq a' b').
Proof. intros. apply snd_cs. Qed.

(** removing a pair: the length of the list and the places where the pair stands *)
Theorem C125_drop_trace :
  forall (S : Suite) (L : SuiteLaws S) (l l' : SecretList) (c c' : CommitmentShare),
  length (sl_commitments l) = length (sl_commitments l') ->
  (forall j, nth_error (sl_commitments l) j = Some c <-> nth_error (sl_commitments l') j = Some c') ->
  trace (t_drop_share l c) = trace (t_drop_share l' c').
Proof.
  intros S L l l' c c' Hl H. apply snd_drop. revert Hl H. generalize (sl_commitments l) as a. generalize (sl_commitments l') as a'.
  intros a' a. revert a'. induction a as [|x a IH]; intros [|x' a'] Hl H; try discriminate; [reflexivity|].
  injection Hl as Hl. cbn [map]. f_equal; [|apply IH; [exact Hl|]; intros j; exact (H (Datatypes.S j))].
  specialize (H 0). cbn in H. destruct (cs_eqb x c) eqn:E, (cs_eqb x' c') eqn:E'; try reflexivity.
  - apply cs_eqb_spec in E. subst x. destruct H as [H _]. specialize (H eq_refl). injection H as ->.
    rewrite (proj2 (cs_eqb_spec c' c') eq_refl) in E'. discriminate.
  - apply cs_eqb_spec in E'. subst x'. destruct H as [_ H]. specialize (H eq_refl). injection H as ->.
    rewrite (proj2 (cs_eqb_spec c c) eq_refl) in E. discriminate.
Qed.

(** signing: the signer's index, the indices of the signers, the length of the list, the position and the repetitions of
    the pair at that position; not the key, the nonces, the message, the group key or the commitments *)
Theorem C125_sign_trace :
  forall (S : Suite) (L : SuiteLaws S) (m : build) (k k' : SigningKey) (h h' : list byte) (gk gk' : G) (l l' : SecretList) (i : N)
    (sgs sgs' : list Signer),
  sk_index k = sk_index k' -> map sg_index sgs = map sg_index sgs' ->
  length (sl_commitments l) = length (sl_commitments l') ->
  (forall j, nth_error (sl_commitments l) j = nth_error (sl_commitments l) (N.to_nat i) <->
             nth_error (sl_commitments l') j = nth_error (sl_commitments l') (N.to_nat i)) ->
  trace (t_sign m k h gk l i sgs) = trace (t_sign m k' h' gk' l' i sgs').
Proof. intros. apply snd_sign; assumption. Qed.

(** in particular for lists without repetitions *)
Theorem C125_sign_trace_distinct :
  forall (S : Suite) (L : SuiteLaws S) (m : build) (k k' : SigningKey) (h h' : list byte) (gk gk' : G) (l l' : SecretList) (i : N)
    (sgs sgs' : list Signer),
  sk_index k = sk_index k' -> map sg_index sgs = map sg_index sgs' ->
  length (sl_commitments l) = length (sl_commitments l') -> NoDup (sl_commitments l) -> NoDup (sl_commitments l') ->
  trace (t_sign m k h gk l i sgs) = trace (t_sign m k' h' gk' l' i sgs').
Proof.
  intros S L m k k' h h' gk gk' l l' i sgs sgs' H1 H2 H3 N1 N2. apply snd_sign; auto.
  assert (W : forall a a' : list CommitmentShare, length a = length a' -> NoDup a -> forall j,
    nth_error a j = nth_error a (N.to_nat i) -> nth_error a' j = nth_error a' (N.to_nat i)).
  { intros a a' Hl Hn j E. destruct (Nat.lt_ge_cases j (length a)) as [Hj|Hj].
    - rewrite (proj1 (NoDup_nth_error a) Hn j (N.to_nat i) Hj E). reflexivity.
    - rewrite (proj2 (nth_error_None a j) Hj) in E. symmetry in E. apply nth_error_None in E.
      rewrite (proj2 (nth_error_None a' j)), (proj2 (nth_error_None a' (N.to_nat i))) by lia. reflexivity. }
  intros j. split; apply W; auto.
Qed.

(** ** examples: two groups of three with different secrets, participant 2 *)
Definition tr_ps : list Participant := [dealer 3 2 1 11; dealer 3 2 2 21; dealer 3 2 3 31].
Definition tr_r1 (i : N) : RoundOne :=
  let '(s, _, _) := got (R1 no_state, MkPList [] None, 0%N)
    (bootstrap Debug demo_params (dealer_x 3 2 i (10 * i + 1)) (u i) (dealer_co 3 2 i (10 * i + 1)) tr_ps (2000 + i)%N) in s.
Definition tr_shares (j : N) : list EncShare := shares_to j (map tr_r1 [1; 2; 3]%N).
Definition acceptedb (st : DkgState) (e : EncShare) : bool :=
  match plain st e with
  | Some b => match dec_scalar b with
              | Some (v, _) => (if list_eq_dec byte_eq_dec b (enc_scalar v) then true else false) &&
                  match ds_comms st with
                  | Some cs => forallb (fun kc => negb (u32_eqb (fst kc) (es_sender e)) ||
                                           is_ok (share_verify (MkShare (es_sender e) (es_receiver e) v) (snd kc))) cs
                  | None => true
                  end
              | None => false
              end
  | None => false
  end.
Lemma acceptedb_sound st e : acceptedb st e = true -> exists v, accepted st e v.
Proof.
  unfold acceptedb, accepted. destruct (plain st e) as [b|]; [|discriminate]. destruct (dec_scalar b) as [[v q]|]; [|discriminate].
  destruct (list_eq_dec byte_eq_dec b (enc_scalar v)) as [->|]; [|discriminate]. intros H. exists v. split; [reflexivity|].
  intros comms c E Hin. rewrite E in H. cbn [andb] in H. rewrite forallb_forall in H. specialize (H _ Hin). cbn [fst snd] in H.
  rewrite (proj2 (u32_eqb_spec _ _) eq_refl) in H. exact (proj1 (share_verify_iff _ _) H).
Qed.
Definition alikeb (st st' : DkgState) (ee : EncShare * EncShare) : bool :=
  let (e, e') := ee in
  u32_eqb (es_sender e) (es_sender e') && u32_eqb (es_receiver e) (es_receiver e') && Nat.eqb (length (es_ct e)) (length (es_ct e')) &&
  acceptedb st e && acceptedb st' e'.
Lemma alikeb_sound st st' : forall es es', length es = length es' -> forallb (alikeb st st') (combine es es') = true ->
  Forall2 (fun e e' => es_sender e = es_sender e' /\ es_receiver e = es_receiver e' /\ length (es_ct e) = length (es_ct e') /\
    (exists v, accepted st e v) /\ (exists v', accepted st' e' v')) es es'.
Proof.
  induction es as [|e es IH]; intros [|e' es'] Hl H; try discriminate; constructor.
  - cbn [combine forallb] in H. apply andb_prop in H. destruct H as [H _]. unfold alikeb in H.
    apply andb_prop in H. destruct H as [H H5]. apply andb_prop in H. destruct H as [H H4].
    apply andb_prop in H. destruct H as [H H3]. apply andb_prop in H. destruct H as [H1 H2].
    apply u32_eqb_spec in H1. apply u32_eqb_spec in H2. apply Nat.eqb_eq in H3.
    split; [exact H1|]. split; [exact H2|]. split; [exact H3|]. split; apply acceptedb_sound; assumption.
  - apply IH; [injection Hl; auto|]. cbn [combine forallb] in H. apply andb_prop in H. apply H.
Qed.

Example C125_ex_round_two_hypotheses :
  same_place (st1 (demo_r1 demo_ps 2)) (st1 (tr_r1 2)) /\
  Forall2 (fun e e' => es_sender e = es_sender e' /\ es_receiver e = es_receiver e' /\ length (es_ct e) = length (es_ct e') /\
    (exists v, accepted (st1 (demo_r1 demo_ps 2)) e v) /\ (exists v', accepted (st1 (tr_r1 2)) e' v')) (demo_shares 2) (tr_shares 2).
Proof.
  split.
  - split; [vmr|]. split; [vmr|]. split; vmr.
  - apply alikeb_sound; vmr.
Qed.
Example C125_ex_round_two :
  trace (t_to_round_two Debug (demo_r1 demo_ps 2) (demo_shares 2) 5%N) = trace (t_to_round_two Debug (tr_r1 2) (tr_shares 2) 6%N) /\
  length (trace (t_to_round_two Debug (demo_r1 demo_ps 2) (demo_shares 2) 5%N)) = 75 /\
  (* the secrets do differ *)
  Feqb (ds_dh_sk (st1 (demo_r1 demo_ps 2))) (ds_dh_sk (st1 (tr_r1 2))) = false.
Proof. vms. Qed.
(** which shares are refused is visible: a share that does not open leads to a complaint *)
Example C125_ex_refused_share :
  existsb (fun e => match e with Op Sample => true | _ => false end)
    (trace (t_to_round_two Debug (demo_r1 demo_ps 2) (demo_shares 2) 5%N)) = false /\
  existsb (fun e => match e with Op Sample => true | _ => false end)
    (trace (t_to_round_two Debug (demo_r1 demo_ps 2) (map garbled (firstn 1 (demo_shares 2)) ++ skipn 1 (demo_shares 2)) 5%N)) = true.
Proof. vms. Qed.
Example C125_ex_new_participant :
  trace (t_new_internal demo_params false (u 1) None 5%N) =
    [Test false; Op Sample; Op GMul; Op Sample; Op GMul; Op Write; Op (Hash 16); Op FMul; Op FAdd; Test false;
     Test false; Op Sample; Test true; Op Sample; Test false; Test true; Op GMul; Test true; Op GMul; Test false; Test true;
     Op Sample; Op GMul; Op Write; Op (Hash 16); Op FMul; Op FAdd] /\
  trace (t_new_internal demo_params false (u 1) None 5%N) = trace (t_new_internal demo_params false (u 3) None 77%N).
Proof. vms. Qed.
Example C125_ex_dealing :
  trace (t_encrypt_all (u 1) (mk 7%Z) [mk 1%Z; mk 0%Z] demo_ps [] 5%N) = trace (t_encrypt_all (u 1) (mk 0%Z) [mk 8%Z; mk 9%Z] tr_ps [] 6%N) /\
  length (trace (t_encrypt_all (u 1) (mk 7%Z) [mk 1%Z; mk 0%Z] demo_ps [] 5%N)) = 55.
Proof. vms. Qed.
Definition tr_state (a b : Z) : DkgState :=
  MkState demo_params (u 2) (mk a) (mk b) None [] None (Some [(u 1, MkShare (u 1) (u 2) (mk a)); (u 3, MkShare (u 3) (u 2) (mk b))]).
Example C125_ex_finish :
  option_map bkeys (ds_shares (tr_state 5 6)) = option_map bkeys (ds_shares (tr_state 0 0)) /\
  trace (t_calculate_signing_key (tr_state 5 6)) =
    [Test true; Test true; Test true; Op FMul; Op FAdd; Op Wipe; Test true; Test true; Op FMul; Op FAdd; Op Wipe; Test false] /\
  trace (t_calculate_signing_key (tr_state 0 0)) = trace (t_calculate_signing_key (tr_state 5 6)).
Proof. vms. Qed.
Example C125_ex_nonces :
  trace (t_generate_lists 5%N (skey 1) 1) =
    [Test true; Op (Draw 8); Op Write; Op (Hash 17); Op (Draw 8); Op Write; Op (Hash 17); Op GMul; Op GMul; Op Wipe; Test false] /\
  trace (t_generate_lists 6%N (skey 2) 1) = trace (t_generate_lists 5%N (skey 1) 1).
Proof. vms. Qed.
(** a key, a message, nonces and commitments; then others *)
Definition tr_compare : list event := [Op FEq; Op GAffine; Op GAffine; Op GEqual; Op FEq; Op GAffine; Op GAffine; Op GEqual].
Definition tr_list (a b c : Z) : SecretList :=
  MkSecList [commitment_share (mk a) (mk b); commitment_share (mk a) (mk c); commitment_share (mk c) (mk b)].
Example C125_ex_sign :
  trace (t_sign Debug (skey 1) shash sgroup (snonces 1) 1 [ssigner 1 1; ssigner 2 0]) =
    [Test false; Test true; Test true; Op Copy; Op FMul; Op FAdd; Op FMul; Op FMul; Op FAdd] ++
    (Test true :: tr_compare ++ [Test false]) ++ (Test true :: tr_compare ++ [Test true]) ++ (Test true :: tr_compare ++ [Test false]) ++
    [Test false; Test true; Op (Shift 1); Op Wipe; Op Wipe] /\
  trace (t_sign Debug (MkSK (u 1) (mk 0%Z)) [] (mk 3%Z) (tr_list 4 5 6) 1 [ssigner 1 0; ssigner 2 2]) =
    trace (t_sign Debug (skey 1) shash sgroup (snonces 1) 1 [ssigner 1 1; ssigner 2 0]).
Proof. vms. Qed.
(** pairs that agree, that differ in the first secret and that differ in the last point; a pair that is not in the list *)
Example C125_ex_comparison :
  trace (t_cs_eq (spair 1 0) (spair 1 0)) = tr_compare /\ trace (t_cs_eq (spair 1 0) (spair 1 1)) = tr_compare /\
  trace (t_drop_share (tr_list 4 5 6) (spair 1 0)) = trace (t_drop_share (snonces 1) (spair 2 0)) /\
  length (trace (t_drop_share (snonces 1) (spair 2 0))) = 33.
Proof. vms. Qed.
Lemma cs_nodup : forall l : list CommitmentShare,
  (fix nd (l : list CommitmentShare) := match l with [] => true | x :: r => negb (existsb (cs_eqb x) r) && nd r end) l = true -> NoDup l.
Proof.
  induction l as [|x r IH]; intros H; constructor.
  - intros Hin. apply andb_prop in H. destruct H as [H _].
    assert (E : existsb (cs_eqb x) r = true) by (apply existsb_exists; exists x; split; [exact Hin|apply cs_eqb_spec; reflexivity]).
    rewrite E in H. discriminate.
  - apply IH. apply andb_prop in H. apply H.
Qed.
Example C125_ex_sign_hypotheses :
  sk_index (skey 1) = sk_index (MkSK (u 1) (mk 0%Z)) /\ map sg_index [ssigner 1 1; ssigner 2 0] = map sg_index [ssigner 1 0; ssigner 2 2] /\
  length (sl_commitments (snonces 1)) = length (sl_commitments (tr_list 4 5 6)) /\
  NoDup (sl_commitments (snonces 1)) /\ NoDup (sl_commitments (tr_list 4 5 6)).
Proof. split; [vmr|]. split; [vmr|]. split; [vmr|]. split; apply cs_nodup; vmr. Qed.

(** the position of the used pair is visible in the operations, as the comment at src/sign/precomputation.rs 214-217 accepts *)
Theorem C125_position_hidden_refuted :
  ~ (forall m k h gk l i i' sgs, NoDup (sl_commitments l) -> (i < N.of_nat (length (sl_commitments l)))%N ->
       (i' < N.of_nat (length (sl_commitments l)))%N ->
       trace (t_sign m k h gk l i sgs) = trace (t_sign m k h gk l i' sgs)).
Proof.
  intros H. specialize (H Debug (skey 1) shash sgroup (tr_list 4 5 6) 0%N 1%N [ssigner 1 1; ssigner 2 0]).
  assert (N1 : NoDup (sl_commitments (tr_list 4 5 6))) by (apply cs_nodup; vmr).
  specialize (H N1 (eq_refl _) (eq_refl _)).
  assert (E : existsb (fun e => match e with Op (Shift 2) => true | _ => false end)
    (trace (t_sign Debug (skey 1) shash sgroup (tr_list 4 5 6) 0%N [ssigner 1 1; ssigner 2 0])) = true) by vmr.
  assert (E' : existsb (fun e => match e with Op (Shift 2) => true | _ => false end)
    (trace (t_sign Debug (skey 1) shash sgroup (tr_list 4 5 6) 1%N [ssigner 1 1; ssigner 2 0])) = false) by vmr.
  rewrite H in E. congruence.
Qed.
(** and a repeated pair is visible too: without the hypothesis on repetitions the traces differ *)
Theorem C125_repetition_hidden_refuted :
  ~ (forall m k h gk l l' i sgs, length (sl_commitments l) = length (sl_commitments l') ->
       trace (t_sign m k h gk l i sgs) = trace (t_sign m k h gk l' i sgs)).
Proof.
  intros H. specialize (H Debug (skey 1) shash sgroup (tr_list 4 5 6) (tr_list 4 5 5) 0%N [ssigner 1 1; ssigner 2 0] (eq_refl _)).
  assert (E : existsb (fun e => match e with Op (Shift 2) => true | _ => false end)
    (trace (t_sign Debug (skey 1) shash sgroup (tr_list 4 5 6) 0%N [ssigner 1 1; ssigner 2 0])) = true) by vmr.
  assert (E' : existsb (fun e => match e with Op (Shift 2) => true | _ => false end)
    (trace (t_sign Debug (skey 1) shash sgroup (tr_list 4 5 5) 0%N [ssigner 1 1; ssigner 2 0])) = false) by vmr.
  rewrite H in E. congruence.
Qed.
Print Assumptions C125_instrumented_values.
Print Assumptions C125_new_participant_trace.
Print Assumptions C125_dealing_trace.
Print Assumptions C125_round_two_trace.
Print Assumptions C125_accepted_shares_trace.
Print Assumptions C125_finish_trace.
Print Assumptions C125_nonces_trace.
Print Assumptions C125_comparison_trace.
Print Assumptions C125_drop_trace.
Print Assumptions C125_sign_trace.
Print Assumptions C125_sign_trace_distinct.
Print Assumptions C125_position_hidden_refuted.
Print Assumptions C125_repetition_hidden_refuted.
