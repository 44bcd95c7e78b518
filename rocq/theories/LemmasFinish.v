(** Keys computed at the end of the key generation. *)
From Coq Require Import String Strings.Byte Arith NArith Bool List Lia Permutation.
From Verif Require Import Base Suite Spec SpecDkg Types Algebra BaseLemmas ModelDkg LemmasShare LemmasRound1 LemmasRound2.
Import ListNotations.

Section Lemmas.
  Context {S : Suite} {L : SuiteLaws S}.
  Add Field F_fld : F_field.

  Definition share_points (shares : bmap SecretShare) : list (u32 * F) :=
    map (fun js => (fst js, sh_value (snd js))) shares.

  Lemma signing_key_loop_ok idx shares : good_indices idx -> forall k,
    signing_key_loop idx shares k =
      Ok (k + fsum (map (fun js => sh_value (snd js) * weight (fst js) idx) shares))%F.
  Proof.
    intros H. induction shares as [|[j s] shares IH]; intros k; cbn [signing_key_loop map fsum].
    - f_equal. ring.
    - rewrite lagrange_ok by exact H. rewrite IH. cbn. f_equal. ring.
  Qed.
  Lemma calculate_signing_key_ok st shares : ds_shares st = Some shares -> good_indices (bkeys shares) ->
    calculate_signing_key st = Ok (MkSK (ds_index st) (interp0 (share_points shares))).
  Proof.
    intros H1 H2. unfold calculate_signing_key. rewrite H1, signing_key_loop_ok by exact H2. cbn [bind].
    do 2 f_equal. unfold interp0, share_points. rewrite !map_map. cbn. unfold bkeys.
    match goal with |- (F0 + ?X)%F = _ => replace (F0 + X)%F with X by ring end. reflexivity.
  Qed.

  Lemma group_key_loop_ok idx (comms : bmap Vss) : good_indices idx ->
    (forall j c, In (j, c) comms -> vss_points c <> []) -> forall k,
    group_key_loop idx comms k =
      Ok (k + gsum (map (fun jc => gpoly_value (vss_points (snd jc)) F0 * weight (fst jc) idx) comms))%G.
  Proof.
    intros H. induction comms as [|[j c] comms IH]; intros Hc k; cbn [group_key_loop map gsum].
    - f_equal. symmetry. apply Gadd_0_r.
    - rewrite lagrange_ok by exact H. cbn [bind]. unfold vss_public_key.
      destruct (vss_points c) as [|P rest] eqn:E; [exfalso; apply (Hc j c); [left; reflexivity|exact E]|].
      rewrite IH by (intros; eapply Hc; right; eassumption).
      f_equal. cbn [snd fst]. rewrite E. rewrite <- Gadd_assoc. f_equal. f_equal.
      destruct (dlog_list (P :: rest)) as [a Ha]. rewrite Ha, gpoly_committed, poly_value_0.
      destruct a as [|a0 a]; [discriminate|]. cbn in Ha. injection Ha as -> _. reflexivity.
  Qed.
  Lemma calculate_group_key_ok st comms : ds_comms st = Some comms -> good_indices (bkeys comms) ->
    (forall j c, In (j, c) comms -> vss_points c <> []) ->
    calculate_group_key st = Ok (dealt_point comms F0).
  Proof.
    intros H1 H2 H3. unfold calculate_group_key. rewrite H1, group_key_loop_ok by assumption.
    rewrite Gadd_0_l. f_equal. unfold dealt_point, ginterp0. rewrite !map_map. reflexivity.
  Qed.

  Lemma finish_ok st comms shares : ds_comms st = Some comms -> ds_shares st = Some shares ->
    good_indices (bkeys comms) -> good_indices (bkeys shares) ->
    (forall j c, In (j, c) comms -> vss_points c <> []) ->
    finish (R2 st) = Ok (dealt_point comms F0, MkSK (ds_index st) (interp0 (share_points shares))).
  Proof.
    intros H1 H2 H3 H4 H5. unfold finish. cbn [st2].
    rewrite (calculate_signing_key_ok st shares H2 H4). cbn [bind].
    rewrite (calculate_group_key_ok st comms H1 H3 H5). reflexivity.
  Qed.

  (** ** verifying keys *)
  Lemma hiding_loop_eq c x : hiding_loop x (length (vss_points c)) 0 (rev (vss_points c)) Gzero =
    gpoly_value (vss_points c) x.
  Proof. apply (evaluate_hiding_eq c x). Qed.

  Lemma ivk_generate_loop_ok x idx cs : good_indices idx -> forall k,
    ivk_generate_loop x idx cs k =
      Ok (k + gsum (map (fun c => gpoly_value (vss_points c) x * weight (vss_index c) idx) cs))%G.
  Proof.
    intros H. induction cs as [|c cs IH]; intros k; cbn [ivk_generate_loop map gsum].
    - f_equal. symmetry. apply Gadd_0_r.
    - rewrite lagrange_ok by exact H. cbn [bind]. rewrite IH, hiding_loop_eq, <- Gadd_assoc. reflexivity.
  Qed.
  Lemma ivk_generate_ok i cs : good_indices (map vss_index cs) ->
    ivk_generate i cs = Ok (MkVK i (dealt_point (by_index cs) (of_u32 i))).
  Proof.
    intros H. unfold ivk_generate. rewrite ivk_generate_loop_ok by exact H. cbn [bind].
    rewrite Gadd_0_l. do 2 f_equal. unfold dealt_point, ginterp0, by_index. rewrite !map_map. reflexivity.
  Qed.

  (** the two loops agree up to the wrapping of the error *)
  Lemma ivk_loops x idx cs : forall k,
    ivk_verify_loop x idx cs k =
    match ivk_generate_loop x idx cs k with
    | Ok p => Ok p
    | Err e => Err (Custom (error_to_string e))
    | Panic => Panic
    end.
  Proof.
    induction cs as [|c cs IH]; intros k; cbn [ivk_verify_loop ivk_generate_loop]; [reflexivity|].
    destruct (lagrange (vss_index c) idx); cbn [bind]; auto.
  Qed.

  (** ** interpolation over equal sets of points *)
  Lemma pairs_perm {V} (l l' : list (u32 * V)) : NoDup (map fst l) -> NoDup (map fst l') ->
    (forall p, In p l <-> In p l') -> Permutation l l'.
  Proof.
    intros H1 H2 H. apply NoDup_Permutation; auto.
    - eapply NoDup_map_inv, H1.
    - eapply NoDup_map_inv, H2.
  Qed.

  Lemma dealt_point_perm (a b : bmap Vss) x : Permutation a b -> dealt_point a x = dealt_point b x.
  Proof. intros H. apply ginterp0_perm, Permutation_map, H. Qed.

  Lemma share_points_match st comms shares : good_indices (bkeys comms) -> NoDup (bkeys shares) ->
    (forall j, In j (bkeys shares) <-> In j (bkeys comms)) ->
    (forall j s, bget j shares = Some s -> exists c, bget j comms = Some c /\ on_commitment c (ds_index st) (sh_value s)) ->
    (gen * interp0 (share_points shares))%G = dealt_point comms (of_u32 (ds_index st)).
  Proof.
    intros [Hc _] Hs Hk Hv. rewrite <- ginterp0_gen. unfold dealt_point. apply ginterp0_perm.
    unfold share_points. rewrite map_map. cbn.
    apply pairs_perm; rewrite ?map_map; cbn; [exact Hs|exact Hc|].
    assert (HS : forall j s, In (j, s) shares -> exists c, In (j, c) comms /\
       (gen * sh_value s)%G = gpoly_value (vss_points c) (of_u32 (ds_index st))).
    { intros j s Hin. apply in_bget in Hin; [|exact Hs]. destruct (Hv j s Hin) as (c & H1 & H2).
      exists c. split; [apply bget_in, H1|exact H2]. }
    intros p. rewrite !in_map_iff. split.
    - intros ([j s] & <- & Hin). destruct (HS j s Hin) as (c & H1 & H2). exists (j, c). cbn. rewrite H2. auto.
    - intros ([j c] & <- & Hin). assert (Hj : In j (bkeys shares)).
      { apply Hk. apply (in_map fst) in Hin. exact Hin. }
      apply in_map_iff in Hj. destruct Hj as ([j' s] & E & Hin'). cbn in E. subst j'.
      exists (j, s). cbn. split; [|exact Hin']. destruct (HS j s Hin') as (c' & H1 & H2).
      apply in_bget in Hin; [|exact Hc]. apply in_bget in H1; [|exact Hc]. assert (c' = c) by congruence. subst c'.
      rewrite H2. reflexivity.
  Qed.

  (** commitments with at most t points determine a polynomial with at most t coefficients *)
  Lemma dealt_polyfun (comms : bmap Vss) t : (forall j c, In (j, c) comms -> length (vss_points c) <= t) ->
    exists f, polyfun t f /\ forall x, dealt_point comms x = (gen * f x)%G.
  Proof.
    intros H.
    assert (G1 : forall idx, exists f, polyfun t f /\ forall x,
      gsum (map (fun jc => gpoly_value (vss_points (snd jc)) x * weight (fst jc) idx)%G comms) = (gen * f x)%G).
    { intros idx. induction comms as [|[j c] comms IH].
      - exists (fun _ => F0). split; [apply polyfun_zero|]. intros x. cbn. apply Gzero_gen.
      - destruct IH as (f & Hf & Ef); [intros; eapply H; right; eassumption|].
        destruct (dlog_list (vss_points c)) as [a Ha].
        exists (fun x => (weight j idx * poly_value a x + f x)%F). split.
        + apply polyfun_add; [|exact Hf]. apply polyfun_scale, polyfun_poly_value.
          pose proof (H j c (or_introl eq_refl)) as Hl. rewrite Ha in Hl. unfold committed in Hl.
          rewrite map_length in Hl. exact Hl.
        + intros x. cbn [map gsum fst snd]. rewrite Ef, Ha, gpoly_committed.
          rewrite Gmul_mul, gen_mul_add. f_equal. ring. }
    destruct (G1 (map fst comms)) as (f & Hf & Ef). exists f. split; [exact Hf|]. intros x.
    unfold dealt_point, ginterp0. rewrite !map_map. apply Ef.
  Qed.

  Lemma keys_interpolate (comms : bmap Vss) t (ks : list SigningKey) :
    (forall j c, In (j, c) comms -> length (vss_points c) <= t) ->
    NoDup (map sk_index ks) -> t <= length ks ->
    (forall k, In k ks -> (gen * sk_key k)%G = dealt_point comms (of_u32 (sk_index k))) ->
    (gen * interp0 (key_points ks))%G = dealt_point comms F0.
  Proof.
    intros Ht Hnd Hl Hk. destruct (dealt_polyfun comms t Ht) as (f & Hf & Ef). rewrite Ef. f_equal.
    assert (Hf' : polyfun (length (map sk_index ks)) f) by (apply (polyfun_mono t); [rewrite map_length; exact Hl|exact Hf]).
    rewrite (lagrange_zero (map sk_index ks) f Hnd Hf'). unfold interp0, key_points. rewrite !map_map. cbn.
    f_equal. apply map_ext_in. intros k Hin. f_equal.
    specialize (Hk k Hin). rewrite Ef in Hk. apply gen_inj in Hk. exact Hk.
  Qed.

  Lemma first_points_dealt (comms : bmap Vss) gk : first_points comms gk -> gk = dealt_point comms F0.
  Proof.
    intros (pks & H & ->). unfold dealt_point. f_equal.
    induction H as [|[j c] [j' P] comms pks [E (rest & Hp)] H IH]; cbn; [reflexivity|].
    cbn in E, Hp. subst j'. f_equal; [|exact IH]. f_equal. rewrite Hp.
    destruct (dlog_list (P :: rest)) as [a Ha]. rewrite Ha, gpoly_committed, poly_value_0.
    destruct a as [|a0 a]; [discriminate|]. cbn in Ha. injection Ha as -> _. reflexivity.
  Qed.
  Lemma first_points_ex (comms : bmap Vss) : (forall j c, In (j, c) comms -> vss_points c <> []) ->
    first_points comms (dealt_point comms F0).
  Proof.
    intros H. assert (E : exists pks, Forall2 (fun jc jp => fst jp = fst jc /\ exists rest, vss_points (snd jc) = snd jp :: rest) comms pks).
    { induction comms as [|[j c] comms IH]; [exists []; constructor|].
      destruct IH as [pks Hp]; [intros; eapply H; right; eassumption|].
      destruct (vss_points c) as [|P rest] eqn:Ec; [exfalso; apply (H j c); [left; reflexivity|exact Ec]|].
      exists ((j, P) :: pks). constructor; [|exact Hp]. cbn. split; [reflexivity|]. exists rest. exact Ec. }
    destruct E as [pks Hp]. exists pks. split; [exact Hp|]. symmetry. apply first_points_dealt. exists pks. auto.
  Qed.

  (** ** honest dealing *)
  Lemma Forall2_len {A B} (R : A -> B -> Prop) l l' : Forall2 R l l' -> length l = length l'.
  Proof. induction 1; cbn; congruence. Qed.
  Lemma perm_eq {A} (l l' : list A) : l = l' -> Permutation l l'.
  Proof. intros ->. apply Permutation_refl. Qed.
  Lemma opened_dealt st (ds : list (u32 * F * list F)) es :
    Forall2 (fun d e => let '(j, x, co) := d in
       bget j (ds_dhs st) = Some (gen * x)%G /\ es_sender e = j /\ es_receiver e = ds_index st /\
       decrypt_share e (enc_point ((gen * x) * ds_dh_sk st)%G) =
         Ok (MkShare j (ds_index st) (poly_value co (of_u32 (ds_index st))))) ds es ->
    opened st es = map (fun d => let '(j, x, co) := d in
       (j, MkShare j (ds_index st) (poly_value co (of_u32 (ds_index st))))) ds.
  Proof.
    induction 1 as [|[[j x] co] e ds es (H0 & H1 & H2 & H3) HF IH]; [reflexivity|].
    unfold opened in *. cbn [flat_map map]. rewrite IH, H1, H0, H3. reflexivity.
  Qed.

  Lemma no_complaints st es cs : complaint_list st es cs -> (forall e, In e es -> ~ bad_for st e) -> cs = [].
  Proof.
    induction 1 as [|e es c cs Hb _ _ _|e es cs Hb _ IH]; intros H; [reflexivity| |].
    - exfalso. apply (H e); [left; reflexivity|exact Hb].
    - apply IH. intros; apply H; right; assumption.
  Qed.

  Lemma poly_value_hd co a : hd_error co = Some a -> poly_value co F0 = a.
  Proof. destruct co; [discriminate|]. intros [= ->]. apply poly_value_0. Qed.

  Lemma dealing_ok m st comms (ds ds' : list (u32 * F * list F)) es r :
    good_indices (map (fun d => fst (fst d)) ds) ->
    ds_comms st = Some comms -> NoDup (bkeys comms) ->
    (forall j c, bget j comms = Some c <-> exists x co, In (j, x, co) ds /\ c = MkVss j (committed co)) ->
    (forall j x co, In (j, x, co) ds -> co <> [] /\ bget j (ds_dhs st) = Some (gen * x)%G) ->
    (u32v (p_t (ds_params st)) <= u32v (p_n (ds_params st)))%N ->
    (u32v (p_t (ds_params st)) <= N.of_nat (length ds))%N ->
    Permutation ds' ds ->
    Forall2 (fun d e => let '(j, x, co) := d in es_sender e = j /\ es_receiver e = ds_index st /\
       decrypt_share e (enc_point ((gen * x) * ds_dh_sk st)%G) =
         Ok (MkShare j (ds_index st) (poly_value co (of_u32 (ds_index st))))) ds' es ->
    exists s2 r', to_round_two m (R1 st) es r = Ok (s2, [], r') /\ ds_comms (st2 s2) = Some comms /\
      finish s2 = Ok ((gen * interp0 (map (fun d => (fst (fst d), poly_value (snd d) F0)) ds))%G,
        MkSK (ds_index st) (interp0 (map (fun d => (fst (fst d), poly_value (snd d) (of_u32 (ds_index st)))) ds))).
  Proof.
    intros Hidx Hc Hnd Hcm Hd Htn Ht Hp HF.
    assert (HF' : Forall2 (fun d e => let '(j, x, co) := d in
       bget j (ds_dhs st) = Some (gen * x)%G /\ es_sender e = j /\ es_receiver e = ds_index st /\
       decrypt_share e (enc_point ((gen * x) * ds_dh_sk st)%G) =
         Ok (MkShare j (ds_index st) (poly_value co (of_u32 (ds_index st))))) ds' es).
    { assert (Hd' : forall d, In d ds' -> In d ds) by (intros d Hin; eapply Permutation_in; eassumption).
      clear -HF Hd Hd'. induction HF as [|[[j x] co] e ds' es H HF IH]; constructor.
      - split; [|exact H]. apply (Hd j x co). apply Hd'. left; reflexivity.
      - apply IH. intros d Hin. apply Hd'. right; exact Hin. }
    assert (Hin : forall e, In e es -> exists j x co, In (j, x, co) ds /\ es_sender e = j /\ es_receiver e = ds_index st /\
       bget j (ds_dhs st) = Some (gen * x)%G /\
       decrypt_share e (enc_point ((gen * x) * ds_dh_sk st)%G) =
         Ok (MkShare j (ds_index st) (poly_value co (of_u32 (ds_index st))))).
    { assert (Hd' : forall d, In d ds' -> In d ds) by (intros d Hin; eapply Permutation_in; eassumption).
      clear -HF' Hd'. induction HF' as [|[[j x] co] e ds' es (H0 & H1 & H2 & H3) HF IH]; intros f Hf; [contradiction|].
      destruct Hf as [->|Hf].
      - exists j, x, co. repeat split; auto. apply Hd'. left; reflexivity.
      - apply IH; auto. intros d Hin. apply Hd'. right; exact Hin. }
    assert (Hacc : Forall (acceptable m st) es).
    { apply Forall_forall. intros e He. destruct (Hin e He) as (j & x & co & H1 & H2 & H3 & H4 & H5).
      split; [intros _; exact H3|]. rewrite H2. eauto. }
    assert (Hlen : (u32v (p_t (ds_params st)) <= N.of_nat (length es))%N).
    { rewrite <- (Forall2_len _ _ _ HF), (Permutation_length Hp). exact Ht. }
    destruct (to_round_two_done m st comms es r Hc Hnd Hlen Hacc) as (cs & r' & Hcl & E).
    assert (Hcs : cs = []).
    { apply (no_complaints st es cs Hcl). intros e He (comms' & c & A1 & A2 & A3).
      destruct (Hin e He) as (j & x & co & H1 & H2 & H3 & H4 & H5). apply A3.
      exists (poly_value co (of_u32 (ds_index st))). split.
      - exists (gen * x)%G. rewrite H2, H3. auto.
      - assert (comms' = comms) by congruence. subst comms'. apply Hcm in A2. destruct A2 as (x' & co' & B1 & ->).
        assert (E' : (j, x, co) = (es_sender e, x', co')).
        { assert (NI : forall d d', In d ds -> In d' ds -> fst (fst d) = fst (fst d') -> d = d').
          { destruct Hidx as [Hn _]. clear -Hn. induction ds as [|d0 ds IH]; intros d d' Hi Hi' Hq; [contradiction|].
            inversion Hn as [|? ? Hni Hn']; subst. destruct Hi as [->|Hi], Hi' as [->|Hi']; auto.
            - exfalso. apply Hni. rewrite Hq. apply (in_map (fun d => fst (fst d)) ds d' Hi').
            - exfalso. apply Hni. rewrite <- Hq. apply (in_map (fun d => fst (fst d)) ds d Hi). }
          apply NI; auto. }
        injection E' as -> -> ->. unfold on_commitment. cbn [vss_points]. rewrite gpoly_committed, H3. reflexivity. }
    subst cs. cbn [length] in E. unfold remaining in E. cbn [N.of_nat] in E. rewrite N.mod_0_l in E by discriminate.
    replace (u32v (p_n (ds_params st)) <? 0)%N with false in E by (symmetry; apply N.ltb_ge; lia).
    rewrite N.sub_0_r in E. rewrite (proj2 (N.ltb_ge _ _) Htn) in E.
    exists (R2 (round_two_state st es)), r'. split; [exact E|]. split; [exact Hc|].
    assert (Hnd' : NoDup (map (fun d : u32 * F * list F => fst (fst d)) ds')).
    { eapply Permutation_NoDup; [|apply Hidx]. apply Permutation_map, Permutation_sym, Hp. }
    (* the retained shares *)
    assert (PS : Permutation (share_points (binsert_all (opened st es) []))
                   (map (fun d => (fst (fst d), poly_value (snd d) (of_u32 (ds_index st)))) ds)).
    { rewrite (opened_dealt st ds' es HF'). unfold share_points.
      etransitivity; [apply Permutation_map, binsert_all_perm|].
      - rewrite map_map. replace (map _ ds') with (map (fun d : u32 * F * list F => fst (fst d)) ds'); [exact Hnd'|].
        apply map_ext. intros [[j x] co]. reflexivity.
      - intros j _ [].
      - rewrite app_nil_r, map_map. etransitivity; [|apply Permutation_map, Hp].
        apply perm_eq. apply map_ext. intros [[j x] co]. reflexivity. }
    (* the commitments *)
    assert (PC : Permutation comms (map (fun d : u32 * F * list F => (fst (fst d), MkVss (fst (fst d)) (committed (snd d)))) ds)).
    { apply pairs_perm; [exact Hnd|rewrite map_map; apply Hidx|].
      intros [j c]. rewrite in_map_iff. split.
      - intros Hjc. apply in_bget in Hjc; [|exact Hnd]. apply Hcm in Hjc. destruct Hjc as (x & co & H1 & ->).
        exists (j, x, co). auto.
      - intros ([[j' x] co] & [= <- <-] & Hd'). apply bget_in, Hcm. eauto. }
    rewrite (finish_ok (round_two_state st es) comms (binsert_all (opened st es) [])); auto.
    - f_equal. f_equal; [|cbn [ds_index round_two_state]; f_equal; apply interp0_perm, PS].
      rewrite (dealt_point_perm _ _ F0 PC). unfold dealt_point. rewrite <- ginterp0_gen, !map_map. cbn [fst snd vss_points].
      f_equal. apply map_ext. intros d. rewrite gpoly_committed. reflexivity.
    - split; [exact Hnd|]. intros H0. destruct Hidx as [_ Hz]. apply Hz.
      apply (Permutation_in u32_zero (Permutation_map fst PC)) in H0. rewrite map_map in H0. exact H0.
    - assert (PK : Permutation (bkeys (binsert_all (opened st es) [])) (map (fun d : u32 * F * list F => fst (fst d)) ds)).
      { apply (Permutation_map fst) in PS. unfold share_points in PS. rewrite !map_map in PS. exact PS. }
      split.
      + eapply Permutation_NoDup; [apply Permutation_sym, PK|apply Hidx].
      + intros H0. apply (Permutation_in _ PK) in H0. apply Hidx, H0.
    - intros j c Hjc. apply (Permutation_in _ PC) in Hjc. apply in_map_iff in Hjc.
      destruct Hjc as ([[j' x] co] & [= <- <-] & Hd'). cbn. destruct (Hd j' x co Hd') as [Hne _].
      destruct co; [congruence|discriminate].
  Qed.

  (** ** honest participants in round one *)
  Lemma new_dealer_inv params i r d co x r' : i <> u32_zero -> (1 <= u32v (p_t params))%N ->
    new_dealer params i r = Ok (d, co, x, r') -> fresh_dealer params i d co x.
  Proof.
    intros Hi Ht H. destruct (new_internal_dealer params i None r Hi Ht) as (d' & co' & x' & r1 & E & Hf & _).
    unfold new_dealer in H. rewrite E in H. cbn in H. injection H as <- <- <- <-. exact Hf.
  Qed.
  Lemma fresh_ok params i d co x : (1 <= u32v (p_t params))%N -> fresh_dealer params i d co x -> ok_bootstrap (p_t params) d.
  Proof.
    intros Ht [H1 H2 H3 H4 H5 (pr & a0 & H6 & H7 & H8)]. destruct co as [|b rest]; [discriminate|]. injection H7 as ->.
    repeat split.
    - unfold dh_proof_ok. rewrite H1. exact H5.
    - exists (MkVss i (committed (a0 :: rest))), (gen * a0)%G, (committed rest), pr. rewrite H1. auto.
    - exists (MkVss i (committed (a0 :: rest))). split; [exact H4|]. cbn [vss_points]. unfold committed.
      rewrite map_length, H3. apply N2Nat.id.
  Qed.
  Lemma fresh_not_crashing params i d co x : fresh_dealer params i d co x -> ~ crashing d.
  Proof. intros [_ _ _ _ _ (pr & a0 & H6 & _)] (_ & _ & H). congruence. Qed.

  (** bootstrap on a list of honest dealers *)
  Lemma bootstrap_honest m params x my co (ps : list Participant) r
      (ds : list (Participant * list F * F)) :
    (1 <= u32v (p_t params) <= u32v (p_n params))%N -> N.of_nat (length ps) = u32v (p_n params) ->
    NoDup (map pt_index ps) -> 
    ps = map (fun d => fst (fst d)) ds ->
    (forall d c y, In (d, c, y) ds -> fresh_dealer params (pt_index d) d c y) ->
    exists st es comms r', bootstrap m params x my co ps r = Ok (R1 st, MkPList ps None, r') /\
      their_encrypted_secret_shares (R1 st) = Ok es /\ shares_for_all my x co ps es /\
      records params my x ps st /\ ds_comms st = Some comms /\ NoDup (bkeys comms) /\
      (forall j c, bget j comms = Some c <-> exists d co' y, In (d, co', y) ds /\ pt_index d = j /\ c = MkVss j (committed co')) /\
      (forall d co' y, In (d, co', y) ds -> bget (pt_index d) (ds_dhs st) = Some (gen * y)%G).
  Proof.
    intros Ht Hn Hnd Hps Hds.
    assert (Hin : forall p, In p ps -> exists c y, In (p, c, y) ds).
    { intros p Hp. rewrite Hps in Hp. apply in_map_iff in Hp. destruct Hp as ([[d c] y] & <- & Hp). eauto. }
    assert (Hin' : forall d c y, In (d, c, y) ds -> In d ps).
    { intros d c y H. rewrite Hps. apply (in_map (fun d => fst (fst d))) in H. exact H. }
    assert (Hok : forall p, In p ps -> okb true true (p_t params) p = true).
    { intros p Hp. destruct (Hin p Hp) as (c & y & H). apply okb_bootstrap.
      apply Hds in H. apply fresh_ok in H; [exact H|lia]. }
    assert (Hv : filter (okb true true (p_t params)) ps = ps).
    { clear -Hok. induction ps as [|p ps IH]; cbn; [reflexivity|].
      rewrite (Hok p (or_introl eq_refl)). f_equal. apply IH. intros q Hq. apply Hok. right; exact Hq. }
    assert (Hm : filter (fun p => negb (okb true true (p_t params) p)) ps = []).
    { clear -Hok. induction ps as [|p ps IH]; cbn; [reflexivity|].
      rewrite (Hok p (or_introl eq_refl)). cbn. apply IH. intros q Hq. apply Hok. right; exact Hq. }
    assert (Hc : true && existsb crashb ps = false).
    { apply existsb_crash_false. intros p Hp. destruct (Hin p Hp) as (c & y & H). apply Hds in H.
      eapply fresh_not_crashing, H. }
    destruct (ns_success m params x my (Some co) ps true true r) as (st & r' & E & H1 & _ & H2 & H3); eauto; try lia.
    { rewrite Hv. lia. }
    rewrite Hv, Hm in E. rewrite Hv in H1, H2. cbn [negb andb] in H3.
    destruct H2 as (comms & C1 & C2 & C3). destruct H3 as (cs & es & [= <-] & E1 & _ & E2).
    exists st, es, comms, r'. split; [exact E|]. split; [unfold their_encrypted_secret_shares; cbn; rewrite E1; reflexivity|].
    split; [exact E2|]. split; [exact H1|]. split; [exact C1|]. split; [apply increasing_NoDup, C2|]. split.
    - intros j c. rewrite (C3 j c). split.
      + intros (p & Hl & Hc'). apply last_with_distinct in Hl; [|exact Hnd]. destruct Hl as [Hp Hj].
        destruct (Hin p Hp) as (co' & y & H). exists p, co', y. repeat split; auto.
        apply Hds in H. destruct H as [_ _ _ H4 _ _]. rewrite H4 in Hc'. injection Hc' as <-. rewrite Hj. reflexivity.
      + intros (d & co' & y & H & Hj & ->). exists d. split.
        * apply last_with_distinct; [exact Hnd|]. eauto.
        * apply Hds in H. destruct H as [_ _ _ H4 _ _]. rewrite H4, Hj. reflexivity.
    - intros d co' y H. apply (rec_dhs _ _ _ _ _ H1). exists d. split.
      + apply last_with_distinct; [exact Hnd|]. eauto.
      + apply Hds in H. destruct H as [_ H4 _ _ _ _]. rewrite H4. reflexivity.
  Qed.
End Lemmas.
