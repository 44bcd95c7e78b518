(** Property C143: how likely it is that keys of different epochs, or obtained with different sets of dealers, combine. Resharing refreshes
    the keys: as long as fewer new keys than the new threshold take part, and at least one, they combine with any given other keys for
    exactly one out of q choices of the random coefficients of one dealer. *)
From Coq Require Import String Strings.Byte Arith NArith ZArith Bool List Permutation Lia Field.
From Verif Require Import Base Suite Spec SpecDkg SpecSign SpecEnd Types ModelDkg ModelSign Algebra BaseLemmas LemmasShare LemmasFinish LemmasSign
  Toy Demo DemoDkg DemoSign PropsShare PropsRound1 PropsFinish PropsReshare PropsSign PropsAttack PropsSpread PropsMix PropsSimDealer PropsLikely PropsOwn PropsEnd
  PropsSubset PropsChance.
Import ListNotations.

Section MixChance.
  Context {S : Suite} {L : SuiteLaws S}.
  Add Field F_fld : F_field.

  (** the coefficients a dealer committed to *)
  Definition commits (w : Donor) (co : list F) : Prop := exists c, pt_comm (w_d w) = Some c /\ vss_points c = committed co.

  Lemma linear_tail t f : linear (Datatypes.S t) f -> linear t (fun a => f (F0 :: a)).
  Proof.
    intros ([|c w] & W1 & W2); [discriminate W1|]. exists w. split; [cbn [length] in W1; congruence|]. intros a Ha.
    rewrite W2 by (cbn [length]; congruence). cbn [dot]. ring.
  Qed.
  Lemma poly_split c a x : poly_value (c :: a) x = (c + poly_value (F0 :: a) x)%F.
  Proof. unfold poly_value. cbn [terms_from fpow]. ring. Qed.

  (** the part of the interpolation over [ids] that the values at [js] make up *)
  Definition part (ids js : list u32) (f : F -> F) : F := fsum (map (fun i => (f (of_u32 i) * weight i ids)%F) js).
  Lemma linear_part t ids js : linear t (fun a => part ids js (poly_value a)).
  Proof. apply (linear_sum t (fun i a => (poly_value a (of_u32 i) * weight i ids)%F)). intros i _. apply linear_scale, linear_poly. Qed.
  Lemma part_add ids js f g lam : part ids js (fun x => f x * lam + g x)%F = (part ids js f * lam + part ids js g)%F.
  Proof. unfold part. induction js as [|i js IH]; cbn [map fsum]; [ring|]. rewrite IH. ring. Qed.
  Lemma part_nonzero ids i js t : good_indices ids -> incl (i :: js) ids -> NoDup (i :: js) -> length (i :: js) < Datatypes.S t ->
    exists a, length a = t /\ part ids (i :: js) (poly_value (F0 :: a)) <> F0.
  Proof.
    intros Hg Hi Hn Hl.
    assert (Hg' : good_indices (i :: js)) by (split; [exact Hn|intros X; apply (proj2 Hg), Hi, X]).
    destruct (through (i :: js) (Datatypes.S t) F0 (fun k => if u32_eqb k i then F1 else F0) Hg' Hl) as ([|c a] & A1 & A2 & A3); [discriminate A1|].
    injection A2 as ->. exists a. split; [cbn [length] in A1; congruence|]. unfold part. cbn [map fsum].
    rewrite (A3 i (or_introl eq_refl)), u32_eqb_refl, fsum_map_zero.
    - intros E. apply (weight_neq_0 i ids (proj2 Hg)). rewrite <- E. ring.
    - intros k Hk. rewrite (A3 k (or_intror Hk)). replace (u32_eqb k i) with false; [ring|]. symmetry. apply u32_eqb_neq. intros ->.
      inversion Hn. contradiction.
  Qed.
  Lemma part_solve y lam c T : lam <> F0 -> ((y * lam + c = T)%F <-> y = ((T - c) * Finv lam)%F).
  Proof.
    intros Hl. split; [|intros ->; field; exact Hl]. intros <-. field. exact Hl.
  Qed.
  Lemma part_shift ids js c a lam g :
    part ids js (fun x => poly_value (c :: a) x * lam + g x)%F =
      (part ids js (poly_value (F0 :: a)) * lam + part ids js (fun x => c * lam + g x)%F)%F.
  Proof.
    unfold part. induction js as [|i js IH]; cbn [map fsum]; [ring|]. rewrite IH, (poly_split c). ring.
  Qed.
  Lemma interp_parts js ks f : interp0 (map (fun i => (i, f (of_u32 i))) js ++ ks) =
    (part (js ++ map fst ks) js f + fsum (map (fun k => snd k * weight (fst k) (js ++ map fst ks))%F ks))%F.
  Proof.
    unfold interp0, part. rewrite map_app, fsum_app, !map_app, !map_map. cbn [fst snd]. rewrite map_id. reflexivity.
  Qed.

  Lemma committed_inj a : forall b, committed a = committed b -> a = b.
  Proof.
    unfold committed. induction a as [|x a IH]; intros [|y b] E; try discriminate; [reflexivity|]. cbn [map] in E. injection E as E1 E2.
    apply gen_inj in E1. subst y. f_equal. apply IH, E2.
  Qed.
  Lemma donated_commits params hs w j x co c : donated params hs w (j, x, co) -> commits w c -> co = c.
  Proof.
    intros (_ & Hf & _) (v & V1 & V2). rewrite (fd_comm _ _ _ _ _ Hf) in V1. injection V1 as <-. cbn [vss_points] in V2. apply committed_inj, V2.
  Qed.
  Lemma assoc_plus a b c : (a + (b + c) = a + b + c)%F.
  Proof. ring. Qed.
End MixChance.

(** All dealers of the resharing reshare honestly. Whatever the coefficients of the other dealers are, whatever the shared key of dealer j is,
    and whatever keys [ks] other signers use (keys of an earlier epoch, or obtained with another set of dealers, or invented): together with
    the new keys of at least one and fewer than t2 new signers they interpolate to a given value T for exactly one out of q choices of the
    random coefficients of dealer j. A session in which exactly these keys are used ends with a signature under the group key of T exactly for
    these choices, or if its challenge is zero. *)
Theorem C143_mixed_keys_combine :
  forall (S : Suite) (L : SuiteLaws S) (q : nat) (m : build) (params1 params2 : Params) (j : u32) (x0 : F) (others : list (u32 * list F))
    (js : list u32) (ks : list (u32 * F)) (T : F),
  exactly q (fun _ : F => True) -> good_indices (j :: map fst others) -> good_indices (js ++ map fst ks) ->
  js <> [] -> (N.of_nat (length js) < u32v (p_t params2))%N ->
  exists W : list F -> Prop, exactly (q ^ (N.to_nat (u32v (p_t params2)) - 2)) W /\
    (forall a, W a -> length a = N.to_nat (u32v (p_t params2)) - 1) /\
    forall (hs : list Heir) (ws : list Donor) (cos : list (list F)) (a : list F),
    honest_heirs params2 hs -> honest_donors m params2 hs ws ->
    N.of_nat (length ws) = u32v (p_n params1) -> (1 <= u32v (p_t params1) <= u32v (p_n params1))%N ->
    Forall2 commits ws cos -> Permutation (combine (map (fun w => sk_index (w_key w)) ws) cos) ((j, x0 :: a) :: others) ->
    forall (zs : list Heir) (outs : list (G * SigningKey)),
    (forall z, In z zs -> In z hs) -> map z_index zs = js -> Forall2 (heir_run m params1 ws) zs outs ->
      (interp0 (key_points (map snd outs) ++ ks) = T <-> W a) /\
      forall (p : Params) (msg : list byte) tr st (x : u32 -> F),
      agg_run (agg_new p (gen * T)%G msg) tr st -> Permutation (map sg_index (ag_signers (ai_state st))) (js ++ map fst ks) ->
      (forall k, In k (map snd outs) -> x (sk_index k) = sk_key k) -> (forall i v, In (i, v) ks -> x i = v) ->
      (forall i, In i (js ++ map fst ks) -> took_part m (gen * T)%G msg tr st x x i) ->
      ((exists sig, outcome st = Ok sig) <-> W a \/ session_chal (h4 msg) (gen * T)%G (ag_signers (ai_state st)) = F0).
Proof.
  intros S L q m params1 params2 j x0 others js ks T Hq Hg Hj Hne Hl. set (t := N.to_nat (u32v (p_t params2))) in *.
  set (ids := js ++ map fst ks) in *.
  set (lam := weight j (j :: map fst others)). assert (Hlam : lam <> F0) by (apply weight_neq_0, Hg).
  set (g := fun x => fsum (map (fun o => poly_value (snd o) x * weight (fst o) (j :: map fst others))%F others)).
  set (C := (part ids js (fun x => x0 * lam + g x) + fsum (map (fun k => snd k * weight (fst k) ids) ks))%F).
  assert (HE : exists i0 js0, js = i0 :: js0) by (destruct js as [|i0 js0]; [destruct (Hne eq_refl)|eauto]). destruct HE as (i0 & js0 & Ejs).
  assert (Hlj : length js < t) by lia.
  assert (Ht : t = Datatypes.S (t - 1)) by (rewrite Ejs in Hlj; cbn [length] in Hlj; lia).
  exists (fun a => length a = t - 1 /\ part ids js (poly_value (F0 :: a)) = ((T - C) * Finv lam)%F).
  split.
  { replace (t - 2) with (t - 1 - 1) by lia. apply (linear_count q (t - 1) (fun a => part ids js (poly_value (F0 :: a))) _ Hq).
    - apply (linear_tail (t - 1) (fun a => part ids js (poly_value a))), linear_part.
    - assert (X : exists a, length a = t - 1 /\ part ids (i0 :: js0) (poly_value (F0 :: a)) <> F0); [|rewrite <- Ejs in X; exact X].
      apply part_nonzero.
      + exact Hj.
      + rewrite <- Ejs. intros i Hi. apply in_or_app. left. exact Hi.
      + rewrite <- Ejs. destruct Hj as [Hj _]. unfold ids in Hj. apply nodup_both in Hj. apply Hj.
      + rewrite <- Ejs, <- Ht. exact Hlj. }
  split; [intros a H; apply H|].
  intros hs ws cos a HH HD Hn Ht1 HC HP zs outs Hz Hzs HO.
  destruct (donors_list m params2 hs ws HH HD) as (ds & HF).
  assert (Ed : map (fun d => (fst (fst d), snd d)) ds = combine (map (fun w => sk_index (w_key w)) ws) cos /\ forall d, In d ds -> length (snd d) = t).
  { clear -L HF HC. revert cos HC. induction HF as [|w [[j' x] co] ws ds Hd HF IH]; intros cos HC; inversion HC as [|? c ? cos' H1 H2]; subst.
    - split; [reflexivity|intros d []].
    - destruct (IH cos' H2) as [I1 I2]. pose proof (donated_commits _ _ _ _ _ _ _ Hd H1) as ->. destruct Hd as (-> & Hf & _). split.
      + cbn [map fst snd combine]. rewrite I1. reflexivity.
      + intros d [<-|Hd]; [exact (fd_len _ _ _ _ _ Hf)|exact (I2 d Hd)]. }
  destruct Ed as [Ed Hlen].
  assert (Hla : length a = t - 1).
  { assert (X : In (j, x0 :: a) (map (fun d => (fst (fst d), snd d)) ds)).
    { rewrite Ed. apply (Permutation_in _ (Permutation_sym HP)). left. reflexivity. }
    apply in_map_iff in X as (d & E & Hd). apply Hlen in Hd. injection E as _ E. rewrite E in Hd. cbn [length] in Hd. lia. }
  assert (HV : forall i, new_key ds i = (poly_value (x0 :: a) (of_u32 i) * lam + g (of_u32 i))%F).
  { intros i. unfold new_key.
    assert (E : map (fun d : u32 * F * list F => (fst (fst d), poly_value (snd d) (of_u32 i))) ds =
      map (fun o => (fst o, poly_value (snd o) (of_u32 i))) (map (fun d => (fst (fst d), snd d)) ds)) by (rewrite map_map; reflexivity).
    rewrite E, Ed. rewrite (interp0_perm _ _ (Permutation_map (fun o => (fst o, poly_value (snd o) (of_u32 i))) HP)).
    unfold interp0, g, lam. cbn [map fst snd fsum]. rewrite !map_map. cbn [fst snd]. reflexivity. }
  assert (HK : key_points (map snd outs) = map (fun i => (i, (poly_value (x0 :: a) (of_u32 i) * lam + g (of_u32 i))%F)) js).
  { clear Ejs Hne Hlj Hj ids C. clearbody g lam. revert Hz. rewrite <- Hzs. clear Hzs Hl.
    induction HO as [|z [gk0 sk0] zs outs Hz0 HO IH]; intros Hz; [reflexivity|].
    destruct Hz0 as (dd & senders & es & r & lists & r1 & s1 & r2 & s2 & cs & r3 & A1 & A2 & A3 & A4 & A5 & A6).
    destruct (heir_ok m params1 params2 hs ws ds z dd senders es r r2 HH (hd_indices _ _ _ _ HD) HF Hn Ht1 (Hz z (or_introl eq_refl)) A1 A2 A3)
      as (s1' & r1' & s2' & r3' & E1 & E2 & E3).
    rewrite A4 in E1. injection E1 as <- _ _. rewrite A5 in E2. injection E2 as <- _ _. rewrite A6 in E3. injection E3 as -> ->.
    unfold key_points in *. cbn [map fst snd sk_index sk_key]. rewrite HV. f_equal. apply IH. intros y Hy. apply Hz. right. exact Hy. }
  assert (EQ : interp0 (key_points (map snd outs) ++ ks) = T <-> length a = t - 1 /\ part ids js (poly_value (F0 :: a)) = ((T - C) * Finv lam)%F).
  { rewrite HK, (interp_parts js ks (fun x => poly_value (x0 :: a) x * lam + g x)%F). fold ids. rewrite part_shift, <- assoc_plus. fold C.
    rewrite (part_solve _ lam C T Hlam). split; [auto|]. intros [_ E]. exact E. }
  split; [exact EQ|].
  intros p msg tr st x HA HPi Hx Hk HT. rewrite <- EQ.
  set (sids := map sg_index (ag_signers (ai_state st))) in *.
  assert (Hids : sids <> []).
  { intros E. rewrite E in HPi. apply Permutation_nil in HPi. unfold ids in HPi. rewrite Ejs in HPi. discriminate HPi. }
  assert (H0 : ~ In u32_zero sids) by (intros X; apply (proj2 Hj); exact (Permutation_in _ HPi X)).
  assert (ES : secret_at x sids = interp0 (key_points (map snd outs) ++ ks)).
  { unfold secret_at. rewrite (interp0_perm _ (map (fun i => (i, x i)) ids)) by (apply Permutation_map, HPi). f_equal.
    unfold ids. rewrite map_app. f_equal.
    - assert (Ei : js = map sk_index (map snd outs)).
      { apply (f_equal (map fst)) in HK. unfold key_points in HK. rewrite !map_map in HK. cbn [fst] in HK. rewrite map_id in HK. rewrite map_map. symmetry. exact HK. }
      rewrite Ei, map_map. unfold key_points. apply map_ext_in. intros k Hk'. rewrite (Hx k Hk'). reflexivity.
    - rewrite map_map. rewrite <- (map_id ks) at 2. apply map_ext_in. intros [i v] Hi. cbn [fst]. rewrite (Hk i v Hi). reflexivity. }
  destruct (C114_keys_used_decide S L m p T msg tr st x x HA Hids H0) as [C1 C2].
  { intros i Hi. apply HT. exact (Permutation_in _ HPi Hi). }
  fold sids in C1, C2. rewrite ES in C1, C2. split.
  - intros (sig & Hs). destruct (F_dec (interp0 (key_points (map snd outs) ++ ks)) T) as [E|E]; [left; exact E|].
    destruct (F_dec (session_chal (h4 msg) (gen * T)%G (ag_signers (ai_state st))) F0) as [E'|E']; [right; exact E'|].
    rewrite (C2 (conj E E')) in Hs. discriminate Hs.
  - intros H. destruct (C1 H) as (sig & E & _). exists sig. exact E.
Qed.
Print Assumptions C143_mixed_keys_combine.

(** * Examples *)
Lemma commits_exist (S : Suite) (L : SuiteLaws S) m params hs ws : honest_heirs params hs -> honest_donors m params hs ws ->
  exists cos, Forall2 (fun w co => commits w co /\ exists a, co = sk_key (w_key w) :: a) ws cos.
Proof.
  intros HH HD. destruct (donors_list m params hs ws HH HD) as (ds & HF). exists (map snd ds). clear -HF.
  induction HF as [|w [[j x] co] ws ds (_ & Hf & He & _) HF IH]; cbn [map snd]; constructor; [|exact IH]. split.
  - exists (MkVss j (committed co)). split; [exact (fd_comm _ _ _ _ _ Hf)|reflexivity].
  - destruct co as [|c a]; [discriminate He|]. injection He as ->. eauto.
Qed.
Lemma commits_two (S : Suite) (L : SuiteLaws S) m params hs w1 w2 : honest_heirs params hs -> honest_donors m params hs [w1; w2] ->
  exists cos a b, Forall2 commits [w1; w2] cos /\
    Permutation (combine (map (fun w => sk_index (w_key w)) [w1; w2]) cos) ((sk_index (w_key w1), sk_key (w_key w1) :: a) :: [(sk_index (w_key w2), b)]).
Proof.
  intros HH HD. destruct (commits_exist S L m params hs _ HH HD) as (cos & HF).
  inversion HF as [|? c1 ? cos1 (A1 & a & A2) H1]; subst. inversion H1 as [|? c2 ? cos2 (B1 & b & B2) H2]; subst. inversion H2; subst.
  exists [sk_key (w_key w1) :: a; sk_key (w_key w2) :: b], a, (sk_key (w_key w2) :: b). split; [repeat constructor; assumption|apply Permutation_refl].
Qed.
(** the holders 3 and 1 of the demo keys reshare to 5, 6, 7, 8 with threshold 3; signers 5 and 6 use these keys, signer 7 one obtained with
    other dealers; the session of C118 fails, so this choice of coefficients is not one of the lucky ones *)
Example C143_ex :
  exists q cos a others, exactly q (fun _ : @F Toy => True) /\ good_indices (u 3 :: map fst others) /\
    good_indices ([u 5; u 6] ++ map fst [(u 7, sk_key (sb_key 7))]) /\ (N.of_nat (length [u 5; u 6]) < u32v (p_t re_params))%N /\
    honest_heirs re_params re_heirs /\ honest_donors Debug re_params re_heirs re_donors /\
    Forall2 commits re_donors cos /\
    Permutation (combine (map (fun w => sk_index (w_key w)) re_donors) cos) ((u 3, sk_key (demo_key 3) :: a) :: others) /\
    map z_index (map re_heir [5; 6]%N) = [u 5; u 6] /\ (forall z, In z (map re_heir [5; 6]%N) -> In z re_heirs) /\
    Forall2 (heir_run Debug two_two re_donors) (map re_heir [5; 6]%N) (map (sub_out re_donors) [5; 6]%N) /\
    agg_run (agg_new re_params sb_gk [x68]) (fst sb_run) (snd sb_run) /\
    map sg_index (ag_signers (ai_state (snd sb_run))) = [u 5; u 6] ++ map fst [(u 7, sk_key (sb_key 7))] /\
    (forall i, In i [u 5; u 6; u 7] -> took_part Debug sb_gk [x68] (fst sb_run) (snd sb_run) sb_fun sb_fun i).
Proof.
  destruct toy_count as (q & _ & Hq).
  destruct (commits_two Toy ToyLaws Debug re_params re_heirs (re_donor re_params (demo_key 3) 71%N) (re_donor re_params (demo_key 1) 72%N)
    C32_ex_heirs C32_ex_donors) as (cos & a & b & H1 & H2).
  assert (K3 : w_key (re_donor re_params (demo_key 3) 71%N) = demo_key 3) by (unfold re_donor; destruct (reshare _ _ _ _ _) as [[[[d es] l] r]| |]; reflexivity).
  assert (K1 : w_key (re_donor re_params (demo_key 1) 72%N) = demo_key 1) by (unfold re_donor; destruct (reshare _ _ _ _ _) as [[[[d es] l] r]| |]; reflexivity).
  rewrite K3, K1 in H2.
  exists q, cos, a, [(u 1, b)]. split; [exact Hq|]. split; [cbn [map fst]; good|]. split; [cbn [map fst app]; good|]. split; [reflexivity|].
  split; [exact C32_ex_heirs|]. split; [exact C32_ex_donors|]. split; [exact H1|]. split; [exact H2|]. split; [reflexivity|]. split.
  { intros z [<-|[<-|[]]]; [left|right; left]; reflexivity. }
  split; [cbn [map]; repeat constructor; apply re_key_run; vmr|]. split; [exact sb_run_ok|]. split; [exact (proj1 sb_ids)|exact sb_part].
Qed.
