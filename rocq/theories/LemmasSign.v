(** Lemmas about nonces, signing and aggregation. *)
From Coq Require Import String Strings.Byte Arith NArith ZArith Bool List Permutation Sorted Lia Field.
From Verif Require Import Base Suite Spec SpecDkg SpecSign Types ModelDkg ModelSign Algebra BaseLemmas LemmasShare LemmasFinish.
Import ListNotations.

Section LemmasSign.
  Context {S : Suite} {L : SuiteLaws S}.
  Add Field F_fld : F_field.

  (** ** verification *)
  Lemma sig_verify_cases s gk h : sig_verify s gk h =
    if Geqb (gen * ts_z s)%G (ts_R s + gk * chal (ts_R s) gk h)%G then Ok tt else Err InvalidSignature.
  Proof.
    unfold sig_verify, compute_challenge, challenge_input. fold (chal (ts_R s) gk h).
    set (c := chal _ _ _).
    assert (X : ts_R s = (gen * ts_z s + - gk * c)%G <-> (gen * ts_z s)%G = (ts_R s + gk * c)%G).
    { destruct (gen_span gk) as [x ->]. destruct (gen_span (ts_R s)) as [y ->].
      rewrite gen_mul_opp, !Gmul_mul, !gen_mul_add, !gen_mul_iff.
      split; intros E; [rewrite E|rewrite E]; ring. }
    destruct (Geqb (ts_R s) _) eqn:E1.
    - apply Geqb_spec, X, Geqb_spec in E1. rewrite E1. reflexivity.
    - apply Geqb_neq in E1. rewrite X in E1. apply Geqb_neq in E1. rewrite E1. reflexivity.
  Qed.
  Lemma sig_verify_iff s gk h : sig_verify s gk h = Ok tt <-> schnorr gk h (ts_R s) (ts_z s).
  Proof.
    rewrite sig_verify_cases. unfold schnorr. destruct (Geqb _ _) eqn:E.
    - apply Geqb_spec in E. tauto.
    - apply Geqb_neq in E. split; [discriminate|tauto].
  Qed.

  (** ** transcripts *)
  Lemma encode_roll ss : encode_entries (commitment_list ss) = roll ss.
  Proof. induction ss as [|s ss IH]; [reflexivity|].
    change (encode_entries (commitment_list (s :: ss))) with
      (u32_le (sg_index s) ++ enc_point (fst (sg_com s)) ++ enc_point (snd (sg_com s)) ++ encode_entries (commitment_list ss)).
    rewrite IH. unfold roll. cbn [map concat]. rewrite <- !app_assoc. reflexivity.
  Qed.
  Lemma encode_list_ok ss : ss <> [] -> encode_group_commitment_list (commitment_list ss) = Ok (roll ss).
  Proof. intros H. rewrite <- encode_roll. destruct ss; [contradiction|reflexivity]. Qed.

  Lemma binding_loop_get pre ss : forall acc i, bget i (binding_loop pre (commitment_list ss) acc) =
    if existsb (fun s => u32_eqb i (sg_index s)) ss then Some (h1 (pre ++ u32_le i)) else bget i acc.
  Proof.
    induction ss as [|s ss IH]; intros acc i; [reflexivity|]. cbn [commitment_list map binding_loop existsb]. unfold commitment_list in IH. rewrite IH.
    destruct (existsb _ ss); [rewrite orb_true_r; reflexivity|]. rewrite orb_false_r, bget_binsert.
    destruct (u32_eqb i (sg_index s)) eqn:E; [|reflexivity]. apply u32_eqb_spec in E. subst. reflexivity.
  Qed.
  Lemma index_existsb i ss : existsb (fun s => u32_eqb i (sg_index s)) ss = true <-> In i (map sg_index ss).
  Proof.
    rewrite existsb_exists, in_map_iff. split.
    - intros [s [H1 H2]]. exists s. apply u32_eqb_spec in H2. auto.
    - intros [s [H1 H2]]. exists s. split; [exact H2|]. apply u32_eqb_spec. auto.
  Qed.

  Definition factors (h : list byte) (ss : list Signer) : bmap F :=
    binding_loop (h4 h ++ h5 (roll ss)) (commitment_list ss) [].
  Lemma compute_binding_factors_ok h ss : ss <> [] -> compute_binding_factors h ss = Ok (factors h ss).
  Proof. intros H. unfold compute_binding_factors. rewrite encode_list_ok by exact H. reflexivity. Qed.
  Lemma compute_binding_factors_nil h : compute_binding_factors h [] = Panic.
  Proof. reflexivity. Qed.
  Lemma factors_get h ss i : In i (map sg_index ss) -> binding_factor_for_participant i (factors h ss) = Ok (binding h ss i).
  Proof.
    intros H. unfold binding_factor_for_participant, factors. rewrite binding_loop_get.
    apply index_existsb in H. rewrite H. unfold binding. rewrite app_assoc. reflexivity.
  Qed.
  Lemma factors_miss h ss i : ~ In i (map sg_index ss) -> binding_factor_for_participant i (factors h ss) = Err InvalidBindingFactor.
  Proof.
    intros H. unfold binding_factor_for_participant, factors. rewrite binding_loop_get.
    destruct (existsb _ ss) eqn:E; [|reflexivity]. apply index_existsb in E. contradiction.
  Qed.
  Lemma group_commitment_loop_ok h ss : forall l acc, (forall s, In s l -> In s ss) ->
    group_commitment_loop l (factors h ss) acc = Ok (acc + gsum (map (nonce_point h ss) l))%G.
  Proof.
    induction l as [|s l IH]; intros acc H; cbn [group_commitment_loop map gsum].
    - rewrite Gadd_0_r. reflexivity.
    - rewrite factors_get by (apply in_map, H; left; reflexivity). cbn [bind]. rewrite IH by (intros; apply H; right; assumption).
      fold (nonce_point h ss s). rewrite Gadd_assoc. reflexivity.
  Qed.
  Lemma compute_group_commitment_ok h ss : compute_group_commitment ss (factors h ss) = Ok (group_nonce h ss).
  Proof. unfold compute_group_commitment. rewrite (group_commitment_loop_ok h ss) by auto. rewrite Gadd_0_l. reflexivity. Qed.

  Lemma pair_of_notin i ss : forall cur, ~ In i (map sg_index ss) -> pair_of i ss cur = cur.
  Proof.
    induction ss as [|s ss IH]; intros cur H; cbn; [reflexivity|]. cbn in H. rewrite IH by tauto.
    destruct (u32_eqb i (sg_index s)) eqn:E; [|reflexivity]. apply u32_eqb_spec in E. subst. tauto.
  Qed.
  Lemma pair_of_in s ss : forall cur, NoDup (map sg_index ss) -> In s ss -> pair_of (sg_index s) ss cur = sg_com s.
  Proof.
    induction ss as [|s' ss IH]; intros cur Hn Hin; [contradiction|]. cbn in *. apply NoDup_cons_iff in Hn. destruct Hn as [Hn1 Hn2].
    destruct Hin as [->|Hin].
    - rewrite u32_eqb_refl. apply pair_of_notin, Hn1.
    - apply IH; assumption.
  Qed.
  Lemma commitment_for_ok h ss s : NoDup (map sg_index ss) -> In s ss ->
    commitment_for_participant (sg_index s) h ss = Ok (nonce_point h ss s).
  Proof.
    intros Hn Hin. unfold commitment_for_participant. rewrite pair_of_in by assumption.
    rewrite encode_list_ok by (destruct ss; [contradiction|discriminate]). unfold nonce_point, binding. destruct (sg_com s). reflexivity.
  Qed.

  (** ** nonce lists *)
  Lemma com_eqb_spec a b : com_eqb a b = true <-> a = b.
  Proof.
    destruct a, b. unfold com_eqb. cbn. rewrite andb_true_iff, Feqb_spec, Geqb_spec. split; [intros [-> ->]; reflexivity|].
    intros E. injection E. auto.
  Qed.
  Lemma cs_eqb_spec a b : cs_eqb a b = true <-> a = b.
  Proof.
    destruct a, b. unfold cs_eqb. cbn. rewrite andb_true_iff, !com_eqb_spec. split; [intros [-> ->]; reflexivity|].
    intros E. injection E. auto.
  Qed.
  Lemma cs_dec (a b : CommitmentShare) : {a = b} + {a <> b}.
  Proof.
    destruct (cs_eqb a b) eqn:E; [left; apply cs_eqb_spec, E|right]. intros H. apply cs_eqb_spec in H. congruence.
  Qed.
  Lemma find_last_notin c l : forall i f, ~ In c l -> find_last c l i f = f.
  Proof.
    induction l as [|s l IH]; intros i f H; cbn; [reflexivity|]. cbn in H.
    destruct (cs_eqb s c) eqn:E; [apply cs_eqb_spec in E; tauto|]. apply IH. tauto.
  Qed.
  Lemma find_last_split c l1 l2 : ~ In c l2 -> forall i f, find_last c (l1 ++ c :: l2) i f = Some (i + length l1).
  Proof.
    intros H. induction l1 as [|s l1 IH]; intros i f; cbn.
    - assert (E : cs_eqb c c = true) by (apply cs_eqb_spec; reflexivity). rewrite E, find_last_notin by exact H. f_equal. lia.
    - rewrite IH. f_equal. lia.
  Qed.
  Lemma last_split {A} (dec : forall a b : A, {a = b} + {a <> b}) (x : A) l : In x l -> exists l1 l2, l = l1 ++ x :: l2 /\ ~ In x l2.
  Proof.
    induction l as [|y l IH]; intros H; [contradiction|].
    destruct (in_dec dec x l) as [Hi|Hi].
    - destruct (IH Hi) as [l1 [l2 [-> H2]]]. exists (y :: l1), l2. auto.
    - destruct H as [->|H]; [|contradiction]. exists [], l. auto.
  Qed.
  Lemma remove_at_split {A} (l1 : list A) x l2 : remove_at (l1 ++ x :: l2) (length l1) = l1 ++ l2.
  Proof.
    unfold remove_at. rewrite firstn_app, Nat.sub_diag, firstn_all. cbn. rewrite app_nil_r. f_equal.
    rewrite skipn_app. rewrite skipn_all2 by lia. replace (length l1 + 1 - length l1) with 1 by lia. reflexivity.
  Qed.
  Lemma drop_share_in l c : In c (sl_commitments l) -> exists l1 l2,
    sl_commitments l = l1 ++ c :: l2 /\ ~ In c l2 /\ drop_share l c = MkSecList (l1 ++ l2).
  Proof.
    intros H. destruct (last_split cs_dec c _ H) as [l1 [l2 [E Hn]]]. exists l1, l2. split; [exact E|]. split; [exact Hn|].
    unfold drop_share. rewrite E, find_last_split by exact Hn. cbn [Nat.add]. rewrite remove_at_split. reflexivity.
  Qed.
  Lemma drop_share_notin l c : ~ In c (sl_commitments l) -> drop_share l c = l.
  Proof. intros H. unfold drop_share. rewrite find_last_notin by exact H. reflexivity. Qed.

  Lemma gen_shares_spec k n : forall r, exists ds, length ds = n /\
    fst (gen_shares k n r) = map (fun de => commitment_share (fst de) (snd de)) ds.
  Proof.
    induction n as [|n IH]; intros r; cbn [gen_shares].
    - exists []. auto.
    - destruct (nonce_pair k r) as [[d e] r1]. destruct (IH r1) as [ds [H1 H2]]. destruct (gen_shares k n r1) as [l r2] eqn:E.
      exists ((d, e) :: ds). cbn in *. split; [lia|]. rewrite H2. reflexivity.
  Qed.

  (** ** sign *)
  Lemma usize_succ_ok m i : (i + 1 < 18446744073709551616)%N -> usize_succ m i = Ok (i + 1)%N.
  Proof. intros H. unfold usize_succ. apply N.ltb_lt in H. rewrite H. reflexivity. Qed.

  Lemma nthN_nth {A} (l : list A) i : nthN l i = nth_error l (N.to_nat i).
  Proof.
    unfold nthN. destruct (N.ltb_spec i (N.of_nat (length l))) as [H|H]; [reflexivity|]. symmetry. apply nth_error_None. lia.
  Qed.


  Definition sign_outcome (k : SigningKey) (h : list byte) (gk : G) (l : SecretList) (idx : N) (ss : list Signer)
    : result PartialSig * SecretList :=
    match ss with
    | [] => (Panic, l)
    | _ =>
      if existsb (fun s => u32_eqb (sk_index k) (sg_index s)) ss then
        match lagrange (sk_index k) (map sg_index ss) with
        | Ok w => match nth_error (sl_commitments l) (N.to_nat idx) with
                  | Some cs => (Ok (MkPSig (sk_index k)
                                 (co_secret (cs_hiding cs) + co_secret (cs_binding cs) * binding h ss (sk_index k)
                                   + w * sk_key k * session_chal h gk ss)%F), drop_share l cs)
                  | None => (Panic, l)
                  end
        | Err e => (Err e, l)
        | Panic => (Panic, l)
        end
      else (Err InvalidBindingFactor, l)
    end.
  Lemma sign_eq m k h gk l idx ss : sign m k h gk l idx ss =
    match usize_succ (S := S) m idx with
    | Ok i1 => if N.ltb (N.of_nat (length (sl_commitments l))) i1 then (Err MissingCommitmentShares, l)
               else sign_outcome k h gk l idx ss
    | Err e => (Err e, l)
    | Panic => (Panic, l)
    end.
  Proof.
    unfold sign. destruct (usize_succ m idx) as [i1|e|]; try reflexivity. destruct (N.ltb _ _); [reflexivity|].
    unfold sign_outcome. destruct ss as [|s0 ss0]; [reflexivity|]. set (ss := s0 :: ss0).
    rewrite compute_binding_factors_ok by (unfold ss; discriminate).
    destruct (existsb _ ss) eqn:E.
    - apply index_existsb in E. rewrite factors_get by exact E. rewrite compute_group_commitment_ok.
      destruct (lagrange _ _); try reflexivity. rewrite nthN_nth. reflexivity.
    - rewrite factors_miss; [reflexivity|]. intros H. apply index_existsb in H. congruence.
  Qed.
  Lemma lagrange_cases i l : lagrange (S := S) i l = Ok (weight i l) \/ exists e, lagrange (S := S) i l = Err e.
  Proof.
    destruct (ListDec.NoDup_dec (fun a b => ltac:(destruct (u32_eqb a b) eqn:E; [left; apply u32_eqb_spec, E|right; apply u32_eqb_neq, E])) l) as [H|H].
    - destruct (existsb (u32_eqb u32_zero) l) eqn:E.
      + right. exists IndexIsZero. apply lagrange_zero_index; [exact H|]. apply existsb_zero, E.
      + left. apply lagrange_ok. split; [exact H|]. intros X. apply existsb_zero in X. congruence.
    - right. eexists. apply lagrange_dup, H.
  Qed.
  Lemma lagrange_good i l w : lagrange (S := S) i l = Ok w -> good_indices l /\ w = weight i l.
  Proof.
    intros H.
    destruct (ListDec.NoDup_dec (fun a b => ltac:(destruct (u32_eqb a b) eqn:E; [left; apply u32_eqb_spec, E|right; apply u32_eqb_neq, E])) l) as [Hn|Hn].
    - destruct (existsb (u32_eqb u32_zero) l) eqn:E.
      + rewrite lagrange_zero_index in H; [discriminate|exact Hn|]. apply existsb_zero, E.
      + assert (Hg : good_indices l) by (split; [exact Hn|]; intros X; apply existsb_zero in X; congruence).
        split; [exact Hg|]. rewrite (lagrange_ok i l Hg) in H. congruence.
    - rewrite lagrange_dup in H by exact Hn. discriminate.
  Qed.

  Lemma sign_ok_inv m k h gk l idx ss p l' : sign m k h gk l idx ss = (Ok p, l') ->
    exists cs, nth_error (sl_commitments l) (N.to_nat idx) = Some cs /\
      In (sk_index k) (map sg_index ss) /\ good_indices (map sg_index ss) /\
      p = MkPSig (sk_index k) (partial_value h gk ss (sk_index k) (co_secret (cs_hiding cs)) (co_secret (cs_binding cs)) (sk_key k)) /\
      l' = drop_share l cs.
  Proof.
    rewrite sign_eq. destruct (usize_succ m idx) as [i1|e|]; try discriminate. destruct (N.ltb _ _); [discriminate|].
    unfold sign_outcome. destruct ss as [|s0 ss0]; [discriminate|]. set (ss := s0 :: ss0).
    destruct (existsb _ ss) eqn:E; [|discriminate]. apply index_existsb in E.
    destruct (lagrange _ _) as [w|e|] eqn:Ew; try discriminate. apply lagrange_good in Ew. destruct Ew as [Hg ->].
    destruct (nth_error _ _) as [cs|]; [|discriminate]. intros X. injection X as X1 X2.
    exists cs. split; [reflexivity|]. repeat split; auto; apply Hg.
  Qed.
  Lemma sign_fail m k h gk l idx ss o l' : sign m k h gk l idx ss = (o, l') -> (forall p, o <> Ok p) -> l' = l.
  Proof.
    rewrite sign_eq. destruct (usize_succ m idx) as [i1|e|]; try congruence. destruct (N.ltb _ _); [congruence|].
    unfold sign_outcome. destruct ss as [|s0 ss0]; [congruence|].
    destruct (existsb _ _); [|congruence]. destruct (lagrange _ _) as [w|e|]; try congruence.
    destruct (nth_error _ _) as [cs|]; [|congruence]. intros X H. injection X as X1 X2. subst. destruct (H _ eq_refl).
  Qed.
  Lemma sign_succeeds m k h gk l idx ss cs : (idx + 1 < 18446744073709551616)%N ->
    nth_error (sl_commitments l) (N.to_nat idx) = Some cs -> In (sk_index k) (map sg_index ss) -> good_indices (map sg_index ss) ->
    sign m k h gk l idx ss =
      (Ok (MkPSig (sk_index k) (partial_value h gk ss (sk_index k) (co_secret (cs_hiding cs)) (co_secret (cs_binding cs)) (sk_key k))),
       drop_share l cs).
  Proof.
    intros Hi Hc Hin Hg. rewrite sign_eq, usize_succ_ok by exact Hi.
    assert (Hl : (idx < N.of_nat (length (sl_commitments l)))%N).
    { assert (N.to_nat idx < length (sl_commitments l)) by (apply nth_error_Some; congruence). lia. }
    replace (N.ltb _ _) with false by (symmetry; apply N.ltb_ge; lia).
    unfold sign_outcome. destruct ss as [|s0 ss0]; [contradiction|]. set (ss := s0 :: ss0) in *.
    assert (E : existsb (fun s => u32_eqb (sk_index k) (sg_index s)) ss = true) by (apply index_existsb; exact Hin).
    rewrite E, (lagrange_ok _ _ Hg), Hc. reflexivity.
  Qed.

  (** ** the check of a partial signature *)
  Lemma partial_value_ok h gk ss i d e x com s : s = MkSigner i com -> com = ((gen * d)%G, (gen * e)%G) ->
    partial_ok h gk ss s (gen * x)%G (partial_value h gk ss i d e x).
  Proof.
    intros -> ->. unfold partial_ok, nonce_point, partial_value. cbn [sg_index sg_com fst snd].
    rewrite !Gmul_mul, !gen_mul_add. f_equal. ring.
  Qed.
  Lemma partial_ok_unique h gk ss s pk z z' : partial_ok h gk ss s pk z -> partial_ok h gk ss s pk z' -> z = z'.
  Proof. unfold partial_ok. intros H H'. rewrite <- H' in H. apply gen_inj, H. Qed.

  Lemma cramer b1 b2 b3 a1 a2 a3 c1 c2 c3 d e x :
    ((b2 - b1) * (a3 * c3 - a1 * c1) - (b3 - b1) * (a2 * c2 - a1 * c1))%F <> F0 ->
    x = (((b2 - b1) * (d + e * b3 + a3 * x * c3 - (d + e * b1 + a1 * x * c1))
          - (b3 - b1) * (d + e * b2 + a2 * x * c2 - (d + e * b1 + a1 * x * c1)))
         * Finv ((b2 - b1) * (a3 * c3 - a1 * c1) - (b3 - b1) * (a2 * c2 - a1 * c1)))%F.
  Proof. intros H. field. exact H. Qed.

  (** sum of the checks *)
  Lemma sum_of_checks h gk ss : forall l (pk : u32 -> G) (z : u32 -> F),
    (forall s, In s l -> partial_ok h gk ss s (pk (sg_index s)) (z (sg_index s))) ->
    (gen * fsum (map (fun s => z (sg_index s)) l))%G =
    (gsum (map (nonce_point h ss) l) +
     gsum (map (fun s => pk (sg_index s) * weight (sg_index s) (map sg_index ss)) l) * session_chal h gk ss)%G.
  Proof.
    induction l as [|s l IH]; intros pk z H; cbn [map fsum gsum].
    - rewrite gen_mul_0, Gmul_0_l, Gadd_0_l. reflexivity.
    - rewrite <- gen_mul_add, (IH pk z) by (intros; apply H; right; assumption).
      rewrite (H s (or_introl eq_refl)). rewrite Gmul_add_l, Gmul_mul.
      destruct (gen_span (nonce_point h ss s)) as [a ->]. destruct (gen_span (pk (sg_index s))) as [b ->].
      destruct (gen_span (gsum (map (nonce_point h ss) l))) as [c ->].
      destruct (gen_span (gsum (map (fun s => pk (sg_index s) * weight (sg_index s) (map sg_index ss))%G l))) as [d ->].
      rewrite !Gmul_mul, !gen_mul_add. f_equal. ring.
  Qed.

  (** ** aggregate *)
  Lemma sum_partials_ok (parts : bmap F) l : (forall s, In s l -> bget (sg_index s) parts <> None) -> forall z,
    exists v, sum_partials parts l z = Ok (z + v)%F /\
      Forall2 (fun s x => bget (sg_index s) parts = Some x) l (map (fun s => match bget (sg_index s) parts with Some x => x | None => F0 end) l) /\
      v = fsum (map (fun s => match bget (sg_index s) parts with Some x => x | None => F0 end) l).
  Proof.
    induction l as [|s l IH]; intros H z; cbn [sum_partials map fsum].
    - exists F0. split; [f_equal; ring|]. split; [constructor|reflexivity].
    - destruct (bget (sg_index s) parts) as [x|] eqn:E; [|destruct (H s); [left; reflexivity|exact E]].
      destruct (IH (fun s' Hs' => H s' (or_intror Hs')) (z + x)%F) as [v [H1 [H2 H3]]].
      exists (x + v)%F. split; [rewrite H1; f_equal; ring|]. split; [constructor; assumption|]. rewrite H3. reflexivity.
  Qed.
  Lemma sum_partials_inv (parts : bmap F) l : forall z v, sum_partials parts l z = Ok v ->
    exists xs, Forall2 (fun s x => bget (sg_index s) parts = Some x) l xs /\ v = (z + fsum xs)%F.
  Proof.
    induction l as [|s l IH]; intros z v; cbn [sum_partials].
    - intros X. injection X as <-. exists []. split; [constructor|]. cbn. ring.
    - destruct (bget (sg_index s) parts) as [x|] eqn:E; [|discriminate]. intros X. destruct (IH _ _ X) as [xs [H1 H2]].
      exists (x :: xs). split; [constructor; assumption|]. rewrite H2. cbn. ring.
  Qed.
End LemmasSign.
