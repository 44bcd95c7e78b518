(** Lemmas on parameters, Lagrange coefficients, shares, proofs of knowledge, complaints and
    fresh participants. *)
From Coq Require Import String Strings.Byte Arith NArith Bool List Lia Permutation Field.
From Verif Require Import Base Suite Spec SpecDkg Types Algebra BaseLemmas ModelDkg.
Import ListNotations.

Section Lemmas.
  Context {S : Suite} {L : SuiteLaws S}.
  Add Field F_fld : F_field.

  (** ** parameters *)
  Lemma params_new_ok m n t :
    (1 <= u32v t)%N -> (u32v t <= u32v n)%N -> params_new m n t = Ok (MkParams n t).
  Proof.
    intros H1 H2. unfold params_new, u32_eqb, u32_ltb.
    assert (E1 : N.eqb (u32v n) (u32v u32_zero) = false) by (apply N.eqb_neq; cbn; lia).
    assert (E2 : N.eqb (u32v t) (u32v u32_zero) = false) by (apply N.eqb_neq; cbn; lia).
    assert (E3 : N.ltb (u32v n) (u32v t) = false) by (apply N.ltb_ge; lia).
    rewrite E1, E2, E3. cbn. rewrite andb_false_r. reflexivity.
  Qed.
  Lemma params_new_bad m n t :
    ~ ((1 <= u32v t)%N /\ (u32v t <= u32v n)%N) ->
    params_new m n t = match m with Debug => Panic | Release => Err InvalidThresholdParams end.
  Proof.
    intros H. unfold params_new, u32_eqb, u32_ltb.
    assert (E : N.eqb (u32v n) (u32v u32_zero) || N.eqb (u32v t) (u32v u32_zero) || N.ltb (u32v n) (u32v t) = true).
    { rewrite !orb_true_iff, !N.eqb_eq, N.ltb_lt. cbn. lia. }
    rewrite E. destruct m; reflexivity.
  Qed.

  (** ** Lagrange coefficients *)
  Lemma lagrange_loop_eq i l : forall num den, lagrange_loop i l num den =
    ((num * fprod (map of_u32 (others i l)))%F,
     (den * fprod (map (fun j => of_u32 j - of_u32 i)%F (others i l)))%F).
  Proof.
    unfold others. induction l as [|j l IH]; intros num den; cbn.
    - f_equal; ring.
    - destruct (u32_eqb j i); cbn; rewrite IH; [reflexivity|]. f_equal; ring.
  Qed.

  Lemma sd_id_perm l : NoDup l -> Permutation (sd (fun x : u32 => x) l) l.
  Proof. intros H. apply sd_NoDup_perm. rewrite map_id. exact H. Qed.

  Lemma existsb_zero l : existsb (u32_eqb u32_zero) l = true <-> In u32_zero l.
  Proof.
    rewrite existsb_exists. split.
    - intros [x [H E]]. apply u32_eqb_spec in E. subst. exact H.
    - intros H. exists u32_zero. split; [exact H|apply u32_eqb_refl].
  Qed.

  Lemma lagrange_dup i l : ~ NoDup l -> lagrange i l = Err dup_error.
  Proof.
    intros H. unfold lagrange. fold (sd (fun x : u32 => x) l).
    destruct (Nat.eqb (length (sd (fun x => x) l)) (length l)) eqn:E; [|reflexivity].
    apply Nat.eqb_eq in E. apply sd_length_NoDup in E. rewrite map_id in E. contradiction.
  Qed.
  Lemma lagrange_zero_index i l : NoDup l -> In u32_zero l -> lagrange i l = Err IndexIsZero.
  Proof.
    intros H H0. unfold lagrange. fold (sd (fun x : u32 => x) l).
    rewrite (Permutation_length (sd_id_perm l H)), Nat.eqb_refl. cbn [negb].
    replace (existsb (u32_eqb u32_zero) (sd (fun x => x) l)) with true; [reflexivity|].
    symmetry. apply existsb_zero. apply sd_id_in, H0.
  Qed.
  Lemma lagrange_ok i l : good_indices l -> lagrange i l = Ok (weight i l).
  Proof.
    intros [H H0]. unfold lagrange. fold (sd (fun x : u32 => x) l).
    rewrite (Permutation_length (sd_id_perm l H)), Nat.eqb_refl. cbn [negb].
    assert (E : existsb (u32_eqb u32_zero) (sd (fun x => x) l) = false).
    { destruct (existsb _ _) eqn:E; [|reflexivity]. apply existsb_zero in E. apply (proj1 (sd_id_in _ _)) in E. contradiction. }
    rewrite E, lagrange_loop_eq. unfold Finverse.
    set (d := (F1 * fprod (map (fun j => of_u32 j - of_u32 i)%F (others i (sd (fun x => x) l))))%F).
    assert (Hd : d <> F0).
    { unfold d. apply Fmul_neq_0; [apply F1_neq_0|apply weight_den_neq_0]. }
    rewrite (proj2 (Feqb_neq d F0) Hd). f_equal.
    rewrite <- (weight_perm i _ _ (sd_id_perm l H)). unfold weight, d.
    field. apply weight_den_neq_0.
  Qed.
  Lemma weight_char i l c :
    (c * fprod (map (fun j => of_u32 j - of_u32 i)%F (others i l)) = fprod (map of_u32 (others i l)))%F
    <-> c = weight i l.
  Proof.
    unfold weight. pose proof (weight_den_neq_0 l i) as Hd.
    set (d := fprod (map (fun j => of_u32 j - of_u32 i)%F (others i l))) in *.
    set (n := fprod (map of_u32 (others i l))). split; intros H.
    - rewrite <- H. field. exact Hd.
    - rewrite H. field. exact Hd.
  Qed.
  Lemma lagrange_reconstruct l a : good_indices l -> length a <= length l ->
    fsum (map (fun i => weight i l * poly_value a (of_u32 i))%F l) = poly_value a F0.
  Proof.
    intros [Hnd H0] Ha. rewrite (lagrange_zero l (poly_value a) Hnd (polyfun_poly_value _ _ Ha)).
    f_equal. apply map_ext. intros; ring.
  Qed.

  (** ** polynomial evaluation loops *)
  Lemma pv_snoc a c x : pv (a ++ [c]) x = (pv a x + fpow x (length a) * c)%F.
  Proof. induction a as [|b a IH]; cbn; [ring|]. rewrite IH. ring. Qed.

  Lemma eval_loop_spec x len l : forall k sum, l <> [] -> k + length l = len ->
    eval_loop x len k l sum = (sum * fpow x (length l - 1) + pv (rev l) x)%F.
  Proof.
    induction l as [|c l IH]; intros k sum Hne Hk; [congruence|]. cbn [eval_loop].
    destruct l as [|c' l].
    - cbn in Hk. replace (Nat.eqb k (len - 1)) with true by (symmetry; apply Nat.eqb_eq; lia).
      cbn. ring.
    - replace (Nat.eqb k (len - 1)) with false by (symmetry; apply Nat.eqb_neq; cbn in Hk; lia).
      cbn [negb]. rewrite IH; [|congruence|cbn in *; lia].
      change (rev (c :: c' :: l)) with (rev (c' :: l) ++ [c]). rewrite pv_snoc, rev_length.
      cbn [length]. replace (Datatypes.S (Datatypes.S (length l)) - 1) with (Datatypes.S (length l)) by lia.
      replace (Datatypes.S (length l) - 1) with (length l) by lia. cbn [fpow]. ring.
  Qed.
  Lemma eval_loop_value x a : eval_loop x (length a) 0 (rev a) F0 = poly_value a x.
  Proof.
    destruct a as [|c a]; [reflexivity|]. rewrite eval_loop_spec.
    - rewrite rev_involutive, poly_value_pv. ring.
    - intros E. apply (f_equal (@length F)) in E. rewrite rev_length in E. discriminate.
    - rewrite rev_length. reflexivity.
  Qed.
  Lemma evaluate_polynomial_eq s r a :
    evaluate_polynomial s r a = MkShare s r (poly_value a (of_u32 r)).
  Proof. unfold evaluate_polynomial. rewrite eval_loop_value. reflexivity. Qed.

  Lemma hiding_loop_committed x len l : forall k s,
    hiding_loop x len k (committed l) (gen * s)%G = (gen * eval_loop x len k l s)%G.
  Proof.
    induction l as [|c l IH]; intros k s; cbn; [reflexivity|].
    rewrite gen_mul_add. destruct (negb (Nat.eqb k (len - 1))); [rewrite Gmul_mul|]; apply IH.
  Qed.
  Lemma hiding_loop_value x P : hiding_loop x (length P) 0 (rev P) Gzero = gpoly_value P x.
  Proof.
    destruct (dlog_list P) as [a ->]. rewrite gpoly_committed, committed_length.
    unfold committed. rewrite <- map_rev. rewrite Gzero_gen.
    change (map (fun c => (gen * c)%G) (rev a)) with (committed (rev a)).
    rewrite hiding_loop_committed, eval_loop_value. reflexivity.
  Qed.
  Lemma evaluate_hiding_eq c x : evaluate_hiding c x = gpoly_value (vss_points c) x.
  Proof. apply hiding_loop_value. Qed.

  (** ** secrecy and uniqueness *)
  Lemma pv_zero_coeffs a : forall xs, NoDup xs -> length a <= length xs ->
    (forall x, In x xs -> pv a x = F0) -> a = repeat F0 (length a).
  Proof.
    induction a as [|c a IH]; intros xs Hnd Hl Hr; [reflexivity|].
    assert (Hall : forall y, pv (c :: a) y = F0).
    { intros y. apply (polyfun_roots (length xs) (pv (c :: a)) xs); auto.
      exists (c :: a). split; [exact Hl|reflexivity]. }
    assert (Hc : c = F0). { pose proof (Hall F0) as H. cbn in H. rewrite <- H. ring. }
    cbn [length repeat]. f_equal; [exact Hc|].
    set (p := fun x => if F_dec x F0 then false else true).
    apply (IH (filter p xs)).
    - apply NoDup_filter, Hnd.
    - assert (length xs <= Datatypes.S (length (filter p xs))).
      { clear -Hnd. induction xs as [|x xs IH]; cbn; [lia|]. inversion Hnd as [|? ? Hn Hnd']; subst.
        unfold p at 1. destruct (F_dec x F0) as [->|]; cbn; [|specialize (IH Hnd'); lia].
        assert (filter p xs = xs) as ->; [|lia].
        clear -Hn. induction xs as [|y xs IH]; cbn; [reflexivity|]. unfold p at 1.
        destruct (F_dec y F0) as [->|]; [exfalso; apply Hn; left; reflexivity|].
        f_equal. apply IH. intros H; apply Hn; right; exact H. }
      cbn in Hl. lia.
    - intros x Hx. apply filter_In in Hx. destruct Hx as [Hx Hp]. unfold p in Hp.
      destruct (F_dec x F0) as [|Hne]; [discriminate|].
      pose proof (Hall x) as H. cbn in H. rewrite Hc in H.
      assert (E : (x * pv a x)%F = F0) by (rewrite <- H; ring).
      apply Fmul_eq_0 in E. tauto.
  Qed.
  Lemma coeffs_unique a b xs : length a = length b -> NoDup xs -> length a <= length xs ->
    (forall x, In x xs -> poly_value a x = poly_value b x) -> a = b.
  Proof.
    intros Hlen Hnd Hl H.
    assert (E : padd a (map (Fmul (- F1)%F) b) = repeat F0 (length a)).
    { assert (Hlp : length (padd a (map (Fmul (- F1)%F) b)) = length a).
      { rewrite padd_length, map_length. lia. }
      rewrite <- Hlp. apply (pv_zero_coeffs _ xs); auto; [lia|].
      intros x Hx. rewrite pv_padd, pv_scale. specialize (H x Hx). rewrite !poly_value_pv in H.
      rewrite H. ring. }
    clear -E Hlen L. revert b Hlen E. induction a as [|x a IH]; intros [|y b] Hlen E; try discriminate; [reflexivity|].
    cbn in E. injection E as E1 E2. f_equal; [|apply IH; [cbn in Hlen; lia|exact E2]].
    apply Fsub_0. rewrite <- E1. ring.
  Qed.

  Lemma secrecy_exists t a idx s : length a = t -> NoDup idx -> ~ In u32_zero idx -> length idx < t ->
    exists b, length b = t /\ poly_value b F0 = s /\
      forall i, In i idx -> poly_value b (of_u32 i) = poly_value a (of_u32 i).
  Proof.
    intros Ha Hnd H0 Hlt.
    set (l := u32_zero :: idx).
    assert (Hndl : NoDup l) by (constructor; assumption).
    set (v := fun i => if u32_eqb i u32_zero then s else poly_value a (of_u32 i)).
    destruct (polyfun_exact t (interp l v)) as [b [Hb Hv]].
    { apply (polyfun_mono (length l)); [cbn; lia|]. apply interp_polyfun, Hndl. }
    exists b. split; [exact Hb|]. split.
    - rewrite poly_value_pv, <- Hv, <- of_u32_zero, interp_value; [|exact Hndl|left; reflexivity].
      unfold v. rewrite u32_eqb_refl. reflexivity.
    - intros i Hi. rewrite poly_value_pv, <- Hv, interp_value; [|exact Hndl|right; exact Hi].
      unfold v. destruct (u32_eqb i u32_zero) eqn:E; [|reflexivity].
      apply u32_eqb_spec in E. subst. contradiction.
  Qed.
  Lemma secrecy_unique t b b' idx : length b = t -> length b' = t -> NoDup idx -> ~ In u32_zero idx ->
    length idx = t - 1 -> poly_value b F0 = poly_value b' F0 ->
    (forall i, In i idx -> poly_value b (of_u32 i) = poly_value b' (of_u32 i)) -> b = b'.
  Proof.
    intros Hb Hb' Hnd H0 Hl Hs Hi.
    apply (coeffs_unique b b' (map of_u32 (u32_zero :: idx))).
    - congruence.
    - apply NoDup_of_u32. constructor; assumption.
    - rewrite map_length. cbn. lia.
    - intros x Hx. apply in_map_iff in Hx. destruct Hx as [i [<- [<-|Hin]]].
      + rewrite of_u32_zero. exact Hs.
      + apply Hi, Hin.
  Qed.

  (** ** share verification *)
  Lemma share_verify_cases s c : share_verify s c =
    if Geqb (gen * sh_value s)%G (gpoly_value (vss_points c) (of_u32 (sh_receiver s)))
    then Ok tt else Err ShareVerificationError.
  Proof. unfold share_verify. rewrite evaluate_hiding_eq. reflexivity. Qed.
  Lemma share_verify_committed s i a : share_verify s (MkVss i (committed a)) = Ok tt <->
    sh_value s = poly_value a (of_u32 (sh_receiver s)).
  Proof.
    rewrite share_verify_cases. cbn [vss_points]. rewrite gpoly_committed.
    destruct (Geqb _ _) eqn:E.
    - apply Geqb_spec in E. apply gen_inj in E. tauto.
    - apply Geqb_neq in E. split; [discriminate|]. intros H. rewrite H in E. congruence.
  Qed.
  Lemma is_ok_unit (r : result unit) : is_ok r = true <-> r = Ok tt.
  Proof. destruct r as [[]| |]; cbn; intuition congruence. Qed.

  (** ** encryption *)
  Lemma nonce_len_ok (n : Nonce) : length (nonce_bytes n) = nonce_len.
  Proof. apply Nat.eqb_eq, nonce_ok. Qed.
  Lemma encrypt_share_ok s key r : exists e r',
    encrypt_share s key r = Ok (e, r') /\ es_sender e = sh_sender s /\ es_receiver e = sh_receiver s /\
    decrypt_share e key = Ok s.
  Proof.
    unfold encrypt_share. destruct (gen_nonce r) as [n r'] eqn:En.
    destruct (aead_enc_scalar (hkdf key) (nonce_bytes n) (sh_value s) (nonce_len_ok n)) as [c Hc].
    rewrite Hc. do 2 eexists. split; [reflexivity|]. cbn. repeat split.
    unfold decrypt_share. cbn. rewrite (aead_dec_enc _ _ _ _ Hc).
    rewrite <- (app_nil_r (enc_scalar (sh_value s))), enc_scalar_dec. destruct s; reflexivity.
  Qed.
  Lemma dh_shared x y : ((gen * x) * y = (gen * y) * x)%G.
  Proof. apply Gmul_comm. Qed.

  (** ** encodings *)
  Lemma enc_point_inj P Q : enc_point P = enc_point Q -> P = Q.
  Proof.
    intros H. pose proof (enc_point_dec P []) as HP. pose proof (enc_point_dec Q []) as HQ.
    rewrite H in HP. congruence.
  Qed.
  Lemma enc_scalar_inj x y : enc_scalar x = enc_scalar y -> x = y.
  Proof.
    intros H. pose proof (enc_scalar_dec x []) as HP. pose proof (enc_scalar_dec y []) as HQ.
    rewrite H in HP. congruence.
  Qed.
  Lemma enc_point_app_inj P Q a b : enc_point P ++ a = enc_point Q ++ b -> P = Q /\ a = b.
  Proof.
    intros H. apply app_inj_len in H; [|apply enc_point_len]. destruct H as [H1 H2].
    split; [apply enc_point_inj, H1|exact H2].
  Qed.
  Lemma u32_le_app_inj i j a b : u32_le i ++ a = u32_le j ++ b -> i = j /\ a = b.
  Proof.
    intros H. apply app_inj_len in H; [|rewrite !u32_le_len; reflexivity]. destruct H as [H1 H2].
    split; [apply u32_le_inj, H1|exact H2].
  Qed.
  Lemma nizk_message_inj i pk m i' pk' m' :
    nizk_message i pk m = nizk_message i' pk' m' -> i = i' /\ pk = pk' /\ m = m'.
  Proof.
    unfold nizk_message. intros H. apply u32_le_app_inj in H. destruct H as [H1 H].
    apply enc_point_app_inj in H. destruct H as [H2 H]. apply enc_point_inj in H. auto.
  Qed.
  Lemma enc_bytes_inj a b r s : (N.of_nat (length a) < 2 ^ 64)%N -> (N.of_nat (length b) < 2 ^ 64)%N ->
    enc_bytes a ++ r = enc_bytes b ++ s -> a = b /\ r = s.
  Proof.
    unfold enc_bytes. intros Ha Hb H. rewrite <- !app_assoc in H.
    apply app_inj_len in H; [|rewrite !le_bytes_len; reflexivity]. destruct H as [H1 H2].
    apply (f_equal le_value) in H1.
    rewrite !le_value_le_bytes in H1 by (change (256 ^ N.of_nat 8)%N with (2 ^ 64)%N; assumption).
    apply Nat2N.inj in H1. apply app_inj_len in H2; auto.
  Qed.
  Lemma ser_encshare_inj e e' :
    (N.of_nat nonce_len < 2 ^ 64)%N ->
    (N.of_nat (length (es_ct e)) < 2 ^ 64)%N -> (N.of_nat (length (es_ct e')) < 2 ^ 64)%N ->
    ser_encshare e = ser_encshare e' ->
    es_sender e = es_sender e' /\ es_receiver e = es_receiver e' /\
    nonce_bytes (es_nonce e) = nonce_bytes (es_nonce e') /\ es_ct e = es_ct e'.
  Proof.
    intros Hn H1 H2 H. unfold ser_encshare in H.
    apply u32_le_app_inj in H. destruct H as [E1 H].
    apply u32_le_app_inj in H. destruct H as [E2 H].
    apply enc_bytes_inj in H; [|rewrite nonce_len_ok; exact Hn|rewrite nonce_len_ok; exact Hn].
    destruct H as [E3 H].
    rewrite <- (app_nil_r (enc_bytes (es_ct e))), <- (app_nil_r (enc_bytes (es_ct e'))) in H.
    apply enc_bytes_inj in H; auto. tauto.
  Qed.
  Lemma nonce_ext (n n' : Nonce) : nonce_bytes n = nonce_bytes n' -> n = n'.
  Proof.
    destruct n as [n Hn], n' as [n' Hn']. cbn. intros ->. f_equal.
    apply Eqdep_dec.UIP_dec, bool_dec.
  Qed.
  Lemma encshare_ext e e' : es_sender e = es_sender e' -> es_receiver e = es_receiver e' ->
    nonce_bytes (es_nonce e) = nonce_bytes (es_nonce e') -> es_ct e = es_ct e' -> e = e'.
  Proof.
    destruct e, e'. cbn. intros -> -> H ->. apply nonce_ext in H. congruence.
  Qed.

  (** ** proofs of knowledge *)
  Lemma nizk_complete i sk r : nizk_verify (fst (nizk_prove i sk (gen * sk)%G r)) i (gen * sk)%G = Ok tt.
  Proof.
    unfold nizk_prove. destruct (rand_scalar r) as [k r']. cbn [fst]. unfold nizk_verify. cbn [nz_s nz_r].
    set (s := h0 _). replace (gen * (k + sk * s)%F + gen * sk * (- s)%F)%G with (gen * k)%G.
    - fold s. rewrite Feqb_refl. reflexivity.
    - gnorm. f_equal. ring.
  Qed.
  Lemma nizk_verify_cases p i pk : nizk_verify p i pk =
    if Feqb (nz_s p) (h0 (nizk_message i pk (gen * nz_r p + - (pk * nz_s p))%G))
    then Ok tt else Err InvalidProofOfKnowledge.
  Proof. unfold nizk_verify. rewrite Gmul_opp. reflexivity. Qed.
  Lemma nizk_special_sound pk s1 r1 s2 r2 :
    (gen * r1 + - (pk * s1) = gen * r2 + - (pk * s2))%G -> s1 <> s2 ->
    pk = (gen * ((r1 - r2) * Finv (s1 - s2))%F)%G.
  Proof.
    intros H Hne. destruct (gen_span pk) as [x ->]. f_equal.
    revert H. gnorm. intros H. apply gen_inj in H.
    assert (Hd : (s1 - s2)%F <> F0) by (intros E; apply Fsub_0 in E; contradiction).
    assert (E : ((s1 - s2) * x = r1 - r2)%F).
    { apply Fsub_0. transitivity ((r2 + - (x * s2)) - (r1 + - (x * s1)))%F; [ring|]. rewrite H. ring. }
    rewrite <- E. field. exact Hd.
  Qed.

  (** ** complaints *)
  Lemma complaint_verify_iff c pk : complaint_verify c pk = Ok tt <->
    let p := c_proof c in
    let h := sha256_h2f complaint_tag
               (complaint_message (c_pk c) pk (c_shared c) (cp_a1 p) (cp_a2 p) (c_share c)) in
    (cp_a1 p + c_pk c * h = gen * cp_z p)%G /\ (cp_a2 p + c_shared c * h = pk * cp_z p)%G.
  Proof.
    unfold complaint_verify. cbv zeta. set (h := sha256_h2f _ _).
    destruct (Geqb (cp_a1 (c_proof c) + c_pk c * h)%G _) eqn:E1; cbn [negb].
    - apply Geqb_spec in E1. destruct (Geqb (cp_a2 (c_proof c) + c_shared c * h)%G _) eqn:E2; cbn [negb].
      + apply Geqb_spec in E2. tauto.
      + apply Geqb_neq in E2. split; [discriminate|tauto].
    - apply Geqb_neq in E1. split; [discriminate|tauto].
  Qed.
  Lemma complaint_verify_err c pk : complaint_verify c pk = Ok tt \/ complaint_verify c pk = Err ComplaintVerificationError.
  Proof. unfold complaint_verify. destruct (negb _); [auto|]. destruct (negb _); auto. Qed.
  Lemma complaint_complete x pk e r : 
    complaint_verify (fst (complaint_new pk x (pk * x)%G e r)) pk = Ok tt.
  Proof.
    apply complaint_verify_iff. unfold complaint_new. destruct (rand_scalar r) as [k r'].
    cbn [fst c_proof c_pk c_shared c_share cp_a1 cp_a2 cp_z]. cbv zeta. set (h := sha256_h2f _ _).
    destruct (gen_span pk) as [y Hy]. clearbody h. subst pk. split; gnorm; f_equal; ring.
  Qed.
  Lemma dleq_sound pk_m pk_l k a1 a2 h1 z1 h2 z2 :
    (a1 + pk_m * h1 = gen * z1)%G -> (a2 + k * h1 = pk_l * z1)%G ->
    (a1 + pk_m * h2 = gen * z2)%G -> (a2 + k * h2 = pk_l * z2)%G ->
    h1 <> h2 -> exists x, pk_m = (gen * x)%G /\ k = (pk_l * x)%G.
  Proof.
    destruct (gen_span pk_m) as [x ->], (gen_span pk_l) as [y ->], (gen_span k) as [w ->],
      (gen_span a1) as [b1 ->], (gen_span a2) as [b2 ->].
    gnorm. intros E1 E2 E3 E4 Hne. apply gen_inj in E1, E2, E3, E4.
    exists x. split; [reflexivity|]. rewrite Gmul_mul. f_equal.
    assert (Hd : (h1 - h2)%F <> F0) by (intros E; apply Fsub_0 in E; contradiction).
    apply (Fmul_cancel_l (h1 - h2)%F); [exact Hd|].
    assert (A : ((h1 - h2) * x = z1 - z2)%F).
    { transitivity ((b1 + x * h1) - (b1 + x * h2))%F; [ring|]. rewrite E1, E3. reflexivity. }
    assert (B : ((h1 - h2) * w = y * (z1 - z2))%F).
    { transitivity ((b2 + w * h1) - (b2 + w * h2))%F; [ring|]. rewrite E2, E4. ring. }
    rewrite B, <- A. ring.
  Qed.
  Lemma complaint_message_inj p1 p2 p3 p4 p5 e q1 q2 q3 q4 q5 e' :
    complaint_message p1 p2 p3 p4 p5 e = complaint_message q1 q2 q3 q4 q5 e' ->
    p1 = q1 /\ p2 = q2 /\ p3 = q3 /\ p4 = q4 /\ p5 = q5 /\ ser_encshare e = ser_encshare e'.
  Proof.
    unfold complaint_message. intros H.
    apply enc_point_app_inj in H. destruct H as [? H].
    apply enc_point_app_inj in H. destruct H as [? H].
    apply enc_point_app_inj in H. destruct H as [? H].
    apply enc_point_app_inj in H. destruct H as [? H].
    apply enc_point_app_inj in H. destruct H as [? H]. auto 10.
  Qed.

  (** ** fresh participants *)
  Lemma rand_scalars_length k : forall r, length (fst (rand_scalars k r)) = k.
  Proof.
    induction k; intros r; cbn; [reflexivity|]. destruct (rand_scalar r) as [a r1].
    specialize (IHk r1). destruct (rand_scalars k r1). cbn in *. congruence.
  Qed.

  Lemma new_internal_dealer p i s r : i <> u32_zero -> (1 <= u32v (p_t p))%N ->
    exists d co x r', new_internal p false i s r = Ok (d, Some co, x, r') /\
      fresh_dealer p i d co x /\ (forall a, s = Some a -> hd_error co = Some a).
  Proof.
    intros Hi Ht. unfold new_internal.
    rewrite (proj2 (u32_eqb_neq i u32_zero) Hi).
    destruct (rand_scalar r) as [x r1] eqn:E1.
    destruct (nizk_prove i x (gen * x)%G r1) as [dp r2] eqn:E2.
    assert (Hdp : nizk_verify dp i (gen * x)%G = Ok tt).
    { pose proof (nizk_complete i x r1) as H. rewrite E2 in H. exact H. }
    destruct (match s with Some sk => (sk, r2) | None => rand_scalar r2 end) as [a0 r3] eqn:E3.
    destruct (rand_scalars (u32_nat (p_t p) - 1) r3) as [rest r4] eqn:E4.
    assert (Hrest : length rest = u32_nat (p_t p) - 1).
    { pose proof (rand_scalars_length (u32_nat (p_t p) - 1) r3) as H. rewrite E4 in H. exact H. }
    assert (Hlen : length (a0 :: rest) = u32_nat (p_t p)).
    { cbn. rewrite Hrest. unfold u32_nat. lia. }
    assert (Hf : firstn (u32_nat (p_t p)) (a0 :: rest) = a0 :: rest) by (rewrite <- Hlen; apply firstn_all).
    cbv zeta. rewrite Hf.
    change (vss_public_key (MkVss i (map (fun a => (gen * a)%G) (a0 :: rest)))) with (Some (gen * a0)%G).
    cbv iota.
    destruct (nizk_prove i a0 (gen * a0)%G r4) as [sp r5] eqn:E5.
    assert (Hsp : nizk_verify sp i (gen * a0)%G = Ok tt).
    { pose proof (nizk_complete i a0 r4) as H. rewrite E5 in H. exact H. }
    do 4 eexists. split; [reflexivity|]. split.
    - constructor; cbn; auto. exists sp, a0. auto.
    - intros a ->. injection E3 as -> _. reflexivity.
  Qed.
  Lemma new_internal_signer p i s r : i <> u32_zero ->
    exists d x r', new_internal p true i s r = Ok (d, None, x, r') /\
      pt_index d = i /\ pt_dh_pk d = (gen * x)%G /\ pt_comm d = None /\ pt_sk_proof d = None /\
      nizk_verify (pt_dh_proof d) i (pt_dh_pk d) = Ok tt.
  Proof.
    intros Hi. unfold new_internal. rewrite (proj2 (u32_eqb_neq i u32_zero) Hi).
    destruct (rand_scalar r) as [x r1] eqn:E1.
    pose proof (nizk_complete i x r1) as H.
    destruct (nizk_prove i x (gen * x)%G r1) as [dp r2] eqn:E2.
    do 3 eexists. split; [reflexivity|]. cbn. auto 10.
  Qed.
End Lemmas.
