(** C117-C118: resharing by too few old holders, and new signers that use different sets of dealers. *)
From Coq Require Import String Strings.Byte Arith NArith ZArith Bool List Lia Permutation.
From Verif Require Import Base Suite Spec SpecDkg Types Algebra BaseLemmas ModelDkg LemmasShare LemmasRound1
  LemmasRound2 LemmasFinish ModelSign SpecSign SpecRobust SpecEnd PropsRound1 PropsFinish PropsReshare PropsAgg PropsEnd PropsAttack PropsMix Toy Demo DemoDkg DemoSign.
Import ListNotations.

(** the dealers' keys are [rest]; together with [more] and the key of i they would be enough. The group key is
    preserved for exactly one value of that key, which the dealers' keys determine *)
Theorem C117_too_few_dealers_change_the_group_key :
  forall (S : Suite) (L : SuiteLaws S) (i : u32) (more rest : list SigningKey),
  good_indices (i :: map sk_index (more ++ rest)) ->
  exists x0, forall (m : build) (t : nat) (ks : list SigningKey) (s x : F) (params1 params2 : Params) (hs : list Heir)
    (ws : list Donor) (z : Heir) (gk : G) (sk : SigningKey),
    recovers t s ks -> (forall k, In k (MkSK i x :: more ++ rest) -> In k ks) -> t <= Datatypes.S (length (more ++ rest)) ->
    honest_heirs params2 hs -> honest_donors m params2 hs ws -> Permutation (map w_key ws) rest ->
    N.of_nat (length ws) = u32v (p_n params1) -> (1 <= u32v (p_t params1) <= u32v (p_n params1))%N ->
    In z hs -> heir_run m params1 ws z (gk, sk) ->
    (gk = (gen * s)%G <-> x = x0).
Proof.
  intros S L i more rest HG. destruct (solve_key i (more ++ rest) (interp0 (key_points rest)) HG) as (x0 & Hx). exists x0.
  intros m t ks s x params1 params2 hs ws z gk sk [_ HR] Hin Hl H HD HP Hn Ht Hz Hrun.
  rewrite (heir_group_key m params1 params2 hs ws z gk sk H HD Hn Ht Hz Hrun).
  rewrite (interp0_perm (key_points (map w_key ws)) (key_points rest)) by (unfold key_points; apply Permutation_map, HP).
  rewrite <- (Hx x). rewrite (HR (MkSK i x :: more ++ rest)); [|exact Hin|apply HG|exact Hl].
  split; [intros E; apply gen_inj in E; symmetry; exact E|intros ->; reflexivity].
Qed.
Print Assumptions C117_too_few_dealers_change_the_group_key.

(** with the old threshold among the parameters, a run of a new signer needs that many dealers *)
Theorem C117_declared_threshold_is_enforced :
  forall (S : Suite) (L : SuiteLaws S) (m : build) (params1 : Params) (ws : list Donor) (z : Heir) (out : G * SigningKey),
  heir_run m params1 ws z out ->
  N.of_nat (length ws) = u32v (p_n params1) /\ (u32v (p_t params1) <= N.of_nat (length ws))%N.
Proof.
  intros S L m params1 ws z out (ds & senders & es & r & lists & r1 & s1 & r2 & s2 & cs & r3 & A1 & _ & _ & A4 & _).
  apply Permutation_length in A1. rewrite map_length in A1.
  assert (Hn : N.of_nat (length ds) = u32v (p_n params1)).
  { destruct (N.eq_dec (N.of_nat (length ds)) (u32v (p_n params1))) as [E|N]; [exact E|].
    destruct (C13_count_mismatch S m params1 (z_x z) (z_index z) [] ds r N) as [_ X]. rewrite X in A4. discriminate A4. }
  rewrite <- A1. split; [exact Hn|]. destruct (N.eq_dec (u32v (p_t params1)) 0) as [E|N0]; [lia|].
  destruct (existsb crashb ds) eqn:Ec.
  - unfold dkg_new in A4. rewrite (ns_panic m params1 (z_x z) (z_index z) None ds false true r) in A4; auto; try discriminate.
  - destruct (C13_new_outcome S L m params1 (z_x z) (z_index z) ds r Hn) as (valid & mis & HS & HT & _); [lia| |].
    { apply existsb_crash_false, Ec. }
    pose proof (LemmasRound1.splits_length _ _ _ _ HS) as Hl.
    destruct (N.ltb_spec (N.of_nat (length valid)) (u32v (p_t params1))) as [Hlt|Hge]; [|lia].
    rewrite (HT Hlt) in A4. discriminate A4.
Qed.
Print Assumptions C117_declared_threshold_is_enforced.

(** a single old holder of a sharing with threshold two reshares: every call succeeds, nobody is flagged, no complaint
    (C70), and another group key *)
Definition few_donors : list Donor := [re_donor re_params (demo_key 1) 71%N].
Definition few_params : Params := MkParams (u 1) (u 1).
Lemma re_donor_ok k seed : sk_index k <> u32_zero -> exists ps r lists r', Permutation ps (map z_p re_heirs) /\
    reshare Debug re_params (w_key (re_donor re_params k seed)) ps r =
      Ok (w_d (re_donor re_params k seed), w_es (re_donor re_params k seed), lists, r').
Proof.
  intros Hk.
  destruct (C32_reshare_succeeds Toy ToyLaws Debug re_params re_heirs k (map z_p re_heirs) seed C32_ex_heirs
    (Permutation_refl _) Hk) as (d & es & r' & E & _).
  exists (map z_p re_heirs), seed, (MkPList (map z_p re_heirs) None), r'. split; [apply Permutation_refl|].
  unfold re_donor. rewrite E. exact E.
Qed.
Example C117_ex_donors : honest_donors Debug re_params re_heirs few_donors.
Proof. constructor; [good|]. intros w [<-|[]]. apply re_donor_ok. apply u32_eqb_neq; vmr. Qed.
Lemma heirs_run (S : Suite) (L : SuiteLaws S) m params1 params2 hs ws (r : Rng) : honest_heirs params2 hs -> honest_donors m params2 hs ws ->
  N.of_nat (length ws) = u32v (p_n params1) -> (1 <= u32v (p_t params1) <= u32v (p_n params1))%N ->
  forall z, In z hs -> exists out, heir_run m params1 ws z out.
Proof.
  intros H HD Hn Ht z Hz.
  assert (HE : exists es, received ws z es).
  { assert (A : forall w, In w ws -> exists e, bget (z_index z) (w_es w) = Some e).
    { intros w Hw. destruct (hd_reshared _ _ _ _ HD w Hw) as (ps & r0 & lists & r1 & HP & E).
      assert (Hi : sk_index (w_key w) <> u32_zero).
      { intros X. destruct (hd_indices _ _ _ _ HD) as [_ N]. apply N. rewrite <- X. apply (in_map (fun w => sk_index (w_key w))), Hw. }
      destruct (C32_reshare_succeeds S L m params2 hs (w_key w) ps r0 H HP Hi) as (d & es & r2 & E2 & K).
      rewrite E in E2. injection E2 as _ <- _ _. apply K, Hz. }
    revert A. unfold received. clear. induction ws as [|w ws IH]; intros A; [exists []; constructor|].
    destruct (A w (or_introl eq_refl)) as [e He]. destruct IH as [es IH]; [intros w' Hw'; apply A; right; exact Hw'|].
    exists (e :: es). constructor; assumption. }
  destruct HE as [es HE]. destruct (C70_resharing_accepts_any_keys S L m params1 params2 hs ws H HD Hn Ht) as (key & K & _).
  destruct (K z (map w_d ws) ws es r r Hz (Permutation_refl _) (Permutation_refl _) HE) as (s1 & r1 & s2 & r3 & E1 & E2 & E3).
  eexists. exists (map w_d ws), ws, es, r, (MkPList (map w_d ws) None), r1, s1, r, s2, [], r3.
  split; [apply Permutation_refl|]. split; [apply Permutation_refl|]. split; [exact HE|]. split; [exact E1|].
  split; [exact E2|exact E3].
Qed.
Theorem C117_one_dealer_goes_unnoticed :
  exists (S : Suite) (L : SuiteLaws S) (m : build) (params1 params2 : Params) (hs : list Heir) (ws : list Donor)
    (t : nat) (old : list SigningKey) (s : F),
    recovers t s old /\ (forall w, In w ws -> In (w_key w) old) /\ length ws < t /\
    honest_heirs params2 hs /\ honest_donors m params2 hs ws /\
    (forall z, In z hs -> exists out, heir_run m params1 ws z out) /\
    (forall z out, In z hs -> heir_run m params1 ws z out -> fst out <> (gen * s)%G).
Proof.
  exists Toy, ToyLaws, Debug, few_params, re_params, re_heirs, few_donors, 2,
    (map demo_key [1; 2; 3]%N), (interp0 (dealt_values demo_parties (mk 0))).
  split; [exact C32_ex_old|]. split; [intros w [<-|[]]; left; reflexivity|]. split; [cbn; lia|].
  split; [exact C32_ex_heirs|]. split; [exact C117_ex_donors|].
  assert (Hn : N.of_nat (length few_donors) = u32v (p_n few_params)) by vmr.
  assert (Ht : (1 <= u32v (p_t few_params) <= u32v (p_n few_params))%N) by (split; vm_compute; discriminate).
  split; [exact (heirs_run Toy ToyLaws Debug few_params re_params re_heirs few_donors 7%N C32_ex_heirs C117_ex_donors Hn Ht)|].
  intros z [gk sk] Hz Hrun. cbn [fst].
  rewrite (@heir_group_key Toy ToyLaws Debug few_params re_params re_heirs few_donors z gk sk C32_ex_heirs C117_ex_donors Hn Ht Hz Hrun).
  intros X. apply (@gen_inj Toy ToyLaws) in X. apply (f_equal (fun y => @Feqb Toy y (interp0 (dealt_values demo_parties (mk 0))))) in X.
  assert (E : @Feqb Toy (interp0 (key_points (map w_key few_donors))) (interp0 (dealt_values demo_parties (mk 0))) = false) by vmr.
  rewrite E in X. assert (Y : @Feqb Toy (interp0 (dealt_values demo_parties (mk 0))) (interp0 (dealt_values demo_parties (mk 0))) = true) by vmr.
  rewrite Y in X. discriminate X.
Qed.
Print Assumptions C117_one_dealer_goes_unnoticed.
(** the hypotheses of the first theorem with no further and with one further holder, and the run *)
Example C117_ex :
  re_run few_params few_donors (re_heir 5) = Ok (None, 0, (toy_gen * sk_key (demo_key 1))%G, re_key few_params few_donors 5) /\
  re_run (MkParams (u 1) (u 2)) few_donors (re_heir 5) = Err (TooManyInvalidParticipants []).
Proof. vms. Qed.
Example C117_ex_indices : good_indices (u 2 :: map sk_index ([] ++ [demo_key 1])).
Proof. good. Qed.

(** ** different sets of dealers *)

Lemma subset_core :
  forall (S : Suite) (L : SuiteLaws S) (m : build) (params1 params1' params2 : Params) (hs : list Heir) (ws ws' : list Donor)
    (old : list SigningKey) (s : F) (z : Heir) (zs : list Heir) (out out' : G * SigningKey) (outs : list (G * SigningKey)),
  recovers (N.to_nat (u32v (p_t params1))) s old -> p_t params1' = p_t params1 ->
  (forall w, In w (ws ++ ws') -> In (w_key w) old) ->
  honest_heirs params2 hs -> honest_donors m params2 hs ws -> honest_donors m params2 hs ws' ->
  N.of_nat (length ws) = u32v (p_n params1) -> (1 <= u32v (p_t params1) <= u32v (p_n params1))%N ->
  N.of_nat (length ws') = u32v (p_n params1') -> (u32v (p_t params1) <= u32v (p_n params1'))%N ->
  (forall y, In y (z :: zs) -> In y hs) -> NoDup (map z_index (z :: zs)) -> (u32v (p_t params2) <= N.of_nat (length (z :: zs)))%N ->
  heir_run m params1' ws' z out' -> heir_run m params1 ws z out -> Forall2 (heir_run m params1 ws) zs outs ->
  (forall gk sk, In (gk, sk) (out' :: outs) -> gk = (gen * s)%G) /\
  map sk_index (map snd (out' :: outs)) = map z_index (z :: zs) /\
  (interp0 (key_points (map snd (out' :: outs))) = s <-> snd out' = snd out).
Proof.
  intros S L m params1 params1' params2 hs ws ws' old s z zs [gk0 sk0] [gk' sk'] outs HR Hpt Hin H HD HD' Hn Ht Hn' Ht' Hz Hnd Hl R' R RS.
  assert (Hin1 : forall w, In w ws -> In (w_key w) old) by (intros w Hw; apply Hin, in_or_app; auto).
  assert (Hin2 : forall w, In w ws' -> In (w_key w) old) by (intros w Hw; apply Hin, in_or_app; auto).
  destruct (C32_resharing_preserves_group_key S L m params1 params2 hs ws old s HR Hin1 H HD Hn Ht) as (key & K & KR).
  destruct (C32_resharing_preserves_group_key S L m params1' params2 hs ws' old s) as (key' & K' & _);
    try assumption; try (rewrite Hpt; assumption); try (rewrite Hpt; lia).
  assert (V : forall y gk sk, In y hs -> heir_run m params1 ws y (gk, sk) -> gk = (gen * s)%G /\ sk = MkSK (z_index y) (key (z_index y))).
  { intros y gk sk Hy (ds & senders & es & r & lists & r1 & s1 & r2 & s2 & cs & r3 & A1 & A2 & A3 & A4 & A5 & A6).
    destruct (K y ds senders es r r2 Hy A1 A2 A3) as (s1' & r1' & s2' & r3' & E1 & E2 & E3).
    rewrite A4 in E1. injection E1 as <- _ _. rewrite A5 in E2. injection E2 as <- _ _. rewrite A6 in E3. injection E3 as -> ->. auto. }
  assert (V' : gk' = (gen * s)%G /\ sk' = MkSK (z_index z) (key' (z_index z))).
  { destruct R' as (ds & senders & es & r & lists & r1 & s1 & r2 & s2 & cs & r3 & A1 & A2 & A3 & A4 & A5 & A6).
    destruct (K' z ds senders es r r2 (Hz z (or_introl eq_refl)) A1 A2 A3) as (s1' & r1' & s2' & r3' & E1 & E2 & E3).
    rewrite A4 in E1. injection E1 as <- _ _. rewrite A5 in E2. injection E2 as <- _ _. rewrite A6 in E3. injection E3 as -> ->. auto. }
  assert (VS : outs = map (fun y => ((gen * s)%G, MkSK (z_index y) (key (z_index y)))) zs).
  { assert (Hzs : forall y, In y zs -> In y hs) by (intros y Hy; apply Hz; right; exact Hy). clear -RS V Hzs.
    induction RS as [|y [gk sk] zs outs Hy RS IH]; cbn [map]; [reflexivity|].
    destruct (V y gk sk (Hzs y (or_introl eq_refl)) Hy) as [-> ->]. f_equal. apply IH. intros y' Hy'. apply Hzs. right; exact Hy'. }
  destruct (V z gk0 sk0 (Hz z (or_introl eq_refl)) R) as [_ ->]. destruct V' as [-> ->]. subst outs. cbn [snd]. split; [|split].
  - intros gk sk [E|E]; [congruence|]. apply in_map_iff in E. destruct E as (y & E & _). congruence.
  - cbn [map snd sk_index]. rewrite !map_map. reflexivity.
  - cbn [map snd]. rewrite map_map. cbn [snd].
    set (rest := map (fun y => MkSK (z_index y) (key (z_index y))) zs).
    assert (Hi : map sk_index rest = map z_index zs) by (unfold rest; rewrite map_map; reflexivity).
    assert (HG : good_indices (z_index z :: map sk_index rest)).
    { rewrite Hi. split; [exact Hnd|]. intros X. destruct (hh_indices _ _ H) as [_ N]. apply N.
      change (In u32_zero (map z_index (z :: zs))) in X. apply in_map_iff in X. destruct X as (y & E & Hy).
      apply in_map_iff. exists y. auto. }
    destruct (solve_key (z_index z) rest s HG) as (x0 & Hx).
    assert (E0 : key (z_index z) = x0).
    { apply Hx. destruct KR as [_ KR]. apply KR.
      - intros k Hk. change (In k (map (fun y => MkSK (z_index y) (key (z_index y))) (z :: zs))) in Hk.
        apply in_map_iff in Hk. destruct Hk as (y & <- & Hy). apply (in_map (fun z => MkSK (z_index z) (key (z_index z)))), Hz, Hy.
      - cbn [map sk_index]. rewrite Hi. exact Hnd.
      - cbn [length] in *. unfold rest. rewrite map_length. lia. }
    rewrite (Hx (key' (z_index z))), <- E0. split; [intros ->; reflexivity|congruence].
Qed.
(** signer z used the dealers ws', the signers zs the dealers ws; all of them enough and honest. All obtain the old group
    key; their keys combine exactly if z's key is the one it would have obtained with the dealers of the others *)
Theorem C118_different_dealers_same_group_key :
  forall (S : Suite) (L : SuiteLaws S) (m : build) (params1 params1' params2 : Params) (hs : list Heir) (ws ws' : list Donor)
    (old : list SigningKey) (s : F) (z : Heir) (zs : list Heir) (out out' : G * SigningKey) (outs : list (G * SigningKey)),
  recovers (N.to_nat (u32v (p_t params1))) s old -> p_t params1' = p_t params1 ->
  (forall w, In w (ws ++ ws') -> In (w_key w) old) ->
  honest_heirs params2 hs -> honest_donors m params2 hs ws -> honest_donors m params2 hs ws' ->
  N.of_nat (length ws) = u32v (p_n params1) -> (1 <= u32v (p_t params1) <= u32v (p_n params1))%N ->
  N.of_nat (length ws') = u32v (p_n params1') -> (u32v (p_t params1) <= u32v (p_n params1'))%N ->
  (forall y, In y (z :: zs) -> In y hs) -> NoDup (map z_index (z :: zs)) -> (u32v (p_t params2) <= N.of_nat (length (z :: zs)))%N ->
  heir_run m params1' ws' z out' -> heir_run m params1 ws z out -> Forall2 (heir_run m params1 ws) zs outs ->
  (forall gk sk, In (gk, sk) (out' :: outs) -> gk = (gen * s)%G) /\
  (interp0 (key_points (map snd (out' :: outs))) = s <-> snd out' = snd out).
Proof.
  intros. destruct (subset_core S L m params1 params1' params2 hs ws ws' old s z zs out out' outs) as (A & _ & B); auto.
Qed.
Print Assumptions C118_different_dealers_same_group_key.

(** if they sign with these keys and announce the verifying keys truthfully, aggregation fails and names nobody *)
Theorem C118_signing_fails_and_names_nobody :
  forall (S : Suite) (L : SuiteLaws S) (m : build) (params1 params1' params2 : Params) (hs : list Heir) (ws ws' : list Donor)
    (old : list SigningKey) (s : F) (z : Heir) (zs : list Heir) (out out' : G * SigningKey) (outs : list (G * SigningKey))
    (p : Params) (msg : list byte) tr a (x : u32 -> F),
  recovers (N.to_nat (u32v (p_t params1))) s old -> p_t params1' = p_t params1 ->
  (forall w, In w (ws ++ ws') -> In (w_key w) old) ->
  honest_heirs params2 hs -> honest_donors m params2 hs ws -> honest_donors m params2 hs ws' ->
  N.of_nat (length ws) = u32v (p_n params1) -> (1 <= u32v (p_t params1) <= u32v (p_n params1))%N ->
  N.of_nat (length ws') = u32v (p_n params1') -> (u32v (p_t params1) <= u32v (p_n params1'))%N ->
  (forall y, In y (z :: zs) -> In y hs) -> NoDup (map z_index (z :: zs)) -> (u32v (p_t params2) <= N.of_nat (length (z :: zs)))%N ->
  heir_run m params1' ws' z out' -> heir_run m params1 ws z out -> Forall2 (heir_run m params1 ws) zs outs ->
  snd out' <> snd out ->
  agg_run (agg_new p (gen * s)%G msg) tr a ->
  let ss := ag_signers (ai_state a) in let ids := map sg_index ss in
  Permutation ids (map sk_index (map snd (out' :: outs))) -> (forall k, In k (map snd (out' :: outs)) -> x (sk_index k) = sk_key k) ->
  (forall i, In i ids -> took_part m (gen * s)%G msg tr a x x i) -> session_chal (h4 msg) (gen * s)%G ss <> F0 ->
  outcome a = Err (MisbehavingParticipants []).
Proof.
  intros S L m params1 params1' params2 hs ws ws' old s z zs out out' outs p msg tr a x HR Hpt Hin H HD HD' Hn Ht Hn' Ht' Hz Hnd Hl R' R RS
    Hne HA ss ids HP Hx HT Hc.
  destruct (subset_core S L m params1 params1' params2 hs ws ws' old s z zs out out' outs
    HR Hpt Hin H HD HD' Hn Ht Hn' Ht' Hz Hnd Hl R' R RS) as (_ & Ez & HI).
  assert (Es : secret_at x ids <> s).
  { intros E. apply Hne, HI. rewrite <- E. unfold secret_at, key_points. apply interp0_perm.
    assert (E1 : map (fun k => (sk_index k, sk_key k)) (map snd (out' :: outs)) =
                 map (fun i => (i, x i)) (map sk_index (map snd (out' :: outs)))).
    { rewrite (map_map sk_index). apply map_ext_in. intros k Hk. rewrite (Hx k Hk). reflexivity. }
    rewrite E1. apply Permutation_map, Permutation_sym, HP. }
  assert (Hne' : ids <> []). { intros E. rewrite E in HP. apply Permutation_nil in HP. discriminate HP. }
  assert (Hz0 : ~ In u32_zero ids).
  { intros X. apply (Permutation_in _ HP) in X. rewrite Ez in X. apply in_map_iff in X. destruct X as (y & E & Hy).
    destruct (hh_indices _ _ H) as [_ N]. apply N. rewrite <- E. apply in_map, Hz, Hy. }
  destruct (C114_keys_used_decide S L m p s msg tr a x x HA Hne' Hz0 HT) as [_ K].
  rewrite (K (conj Es Hc)). do 2 f_equal. fold ss ids. clear -L. induction ids as [|i ids IH]; cbn [filter]; [reflexivity|].
  rewrite Feqb_refl. exact IH.
Qed.
Print Assumptions C118_signing_fails_and_names_nobody.

(** signers 5 and 6 with the dealers 3 and 1, signer 7 with the dealers 2 and 1 *)
Definition other_donors : list Donor := [re_donor re_params (demo_key 2) 73%N; re_donor re_params (demo_key 1) 72%N].
Example C118_ex_donors : honest_donors Debug re_params re_heirs other_donors.
Proof. constructor; [good|]. intros w [<-|[<-|[]]]; apply re_donor_ok; apply u32_eqb_neq; vmr. Qed.
Definition two_two : Params := MkParams (u 2) (u 2).
Example C118_ex :
  (let* (mis, n, gk, sk) := re_run two_two other_donors (re_heir 7) in Ok (mis, n, gk)) =
    Ok (None, 0, (toy_gen * interp0 (dealt_values demo_parties (mk 0)))%G) /\
  (let* (mis, n, gk, sk) := re_run two_two re_donors (re_heir 7) in Ok (mis, n, gk)) =
    Ok (None, 0, (toy_gen * interp0 (dealt_values demo_parties (mk 0)))%G) /\
  Feqb (sk_key (re_key two_two other_donors 7)) (sk_key (re_key two_two re_donors 7)) = false /\
  Feqb (interp0 (key_points [re_key two_two other_donors 7; re_key two_two re_donors 5; re_key two_two re_donors 6]))
    (interp0 (dealt_values demo_parties (mk 0))) = false /\
  Feqb (interp0 (key_points [re_key two_two re_donors 7; re_key two_two re_donors 5; re_key two_two re_donors 6]))
    (interp0 (dealt_values demo_parties (mk 0))) = true.
Proof. vms. Qed.
Definition all_there (ws : list Donor) (z : Heir) : bool :=
  forallb (fun w => match bget (z_index z) (w_es w) with Some _ => true | None => false end) ws.
Lemma re_shares_received ws z : all_there ws z = true -> received ws z (re_shares ws z).
Proof.
  unfold all_there, received, re_shares. induction ws as [|w ws IH]; cbn [forallb flat_map]; intros H; [constructor|].
  apply andb_prop in H. destruct H as [H1 H2]. destruct (bget (z_index z) (w_es w)) as [e|] eqn:E; [|discriminate].
  cbn [app]. constructor; auto.
Qed.
Lemma re_run_run params1 ws z mis n gk sk : all_there ws z = true -> re_run params1 ws z = Ok (mis, n, gk, sk) ->
  heir_run Debug params1 ws z (gk, sk).
Proof.
  intros HA H. unfold re_run in H. destruct (dkg_new _ _ _ _ _ _) as [[[s1 lists] r1]| |] eqn:E1; cbn [bind] in H; try discriminate.
  destruct (to_round_two _ _ _ _) as [[[s2 cs] r3]| |] eqn:E2; cbn [bind] in H; try discriminate.
  destruct (finish s2) as [[gk' sk']| |] eqn:E3; cbn [bind] in H; try discriminate. injection H as _ _ -> ->.
  exists (map w_d ws), ws, (re_shares ws z), 3%N, lists, r1, s1, r1, s2, cs, r3.
  split; [apply Permutation_refl|]. split; [apply Permutation_refl|]. split; [apply re_shares_received, HA|]. auto.
Qed.
Definition ho_secret : F := interp0 (dealt_values demo_parties (mk 0)).
Lemma pick {A B C D} (x : result (A * B * C * D)) (c : C) (d : D) : (let* (a, b, c', d') := x in Ok c') = Ok c ->
  exists a b, x = Ok (a, b, c, match x with Ok (_, _, _, d') => d' | _ => d end).
Proof. destruct x as [[[[a b] c'] d']| |]; cbn; try discriminate. intros [= ->]. eauto. Qed.
Lemma re_key_run ws i : all_there ws (re_heir i) = true ->
  (let* (mis, n, gk, sk) := re_run two_two ws (re_heir i) in Ok gk) = Ok (toy_gen * ho_secret)%G ->
  heir_run Debug two_two ws (re_heir i) ((toy_gen * ho_secret)%G, re_key two_two ws i).
Proof.
  intros HA H. destruct (pick _ _ (@MkSK Toy (u 0) (mk 0)) H) as (mis & n & E). unfold re_key. exact (re_run_run _ _ _ _ _ _ _ HA E).
Qed.

Definition sub_out (ws : list Donor) (i : N) : G * SigningKey := ((toy_gen * ho_secret)%G, re_key two_two ws i).
Lemma sub_fst ws i : fst (sub_out ws i) = (toy_gen * ho_secret)%G.
Proof. reflexivity. Qed.
(** such a run: everybody has the right group key, and the keys do not combine *)
Theorem C118_comparing_group_keys_does_not_help :
  exists (S : Suite) (L : SuiteLaws S) (m : build) (params1 params2 : Params) (hs : list Heir) (ws ws' : list Donor)
    (old : list SigningKey) (s : F) (z : Heir) (zs : list Heir) (out' : G * SigningKey) (outs : list (G * SigningKey)),
    recovers (N.to_nat (u32v (p_t params1))) s old /\ (forall w, In w (ws ++ ws') -> In (w_key w) old) /\
    honest_heirs params2 hs /\ honest_donors m params2 hs ws /\ honest_donors m params2 hs ws' /\
    (forall y, In y (z :: zs) -> In y hs) /\ NoDup (map z_index (z :: zs)) /\ (u32v (p_t params2) <= N.of_nat (length (z :: zs)))%N /\
    heir_run m params1 ws' z out' /\ Forall2 (heir_run m params1 ws) zs outs /\
    (forall gk sk, In (gk, sk) (out' :: outs) -> gk = (gen * s)%G) /\
    interp0 (key_points (map snd (out' :: outs))) <> s.
Proof.
  exists Toy, ToyLaws, Debug, two_two, re_params, re_heirs, re_donors, other_donors, (map demo_key [1; 2; 3]%N), ho_secret,
    (re_heir 7), (map re_heir [5; 6]%N), (sub_out other_donors 7), (map (sub_out re_donors) [5; 6]%N).
  split; [exact C32_ex_old|]. split.
  { intros w [<-|[<-|[<-|[<-|[]]]]]; [right; right; left|left|right; left|left]; reflexivity. }
  split; [exact C32_ex_heirs|]. split; [exact C32_ex_donors|]. split; [exact C118_ex_donors|]. split.
  { intros y [<-|[<-|[<-|[]]]]; [right; right; left|left|right; left]; reflexivity. }
  split; [nodup|]. split; [vm_compute; discriminate|]. split; [apply re_key_run; vmr|]. split.
  { cbn [map]. repeat constructor; apply re_key_run; vmr. }
  split.
  { intros gk sk [E|[E|[E|[]]]]; apply (f_equal fst) in E; rewrite sub_fst in E; cbn [fst] in E; symmetry; exact E. }
  intros X. apply (f_equal (fun y => @Feqb Toy y ho_secret)) in X.
  assert (E : @Feqb Toy (interp0 (key_points (map snd (sub_out other_donors 7 :: map (sub_out re_donors) [5; 6]%N)))) ho_secret = false) by vmr.
  rewrite E in X. assert (Y : @Feqb Toy ho_secret ho_secret = true) by vmr. rewrite Y in X. discriminate X.
Qed.
Print Assumptions C118_comparing_group_keys_does_not_help.

(** the session of signers 5, 6 and 7 with these keys, announced truthfully *)
Definition sb_gk : @G Toy := (toy_gen * ho_secret)%G.
Definition sb_key (i : Z) : @SigningKey Toy := re_key two_two (if Z.eqb i 7 then other_donors else re_donors) (Z.to_N i).
Definition sb_incs : list ACall := map (fun i => CInc (u (Z.to_N i)) (published (spair i 0)) (to_public (sb_key i))) [5; 6; 7]%Z.
Definition sb_signers : list Signer := ag_signers (ai_state (snd (calls_run (agg_new re_params sb_gk [x68]) sb_incs))).
Definition sb_sig (i : Z) : @PartialSig Toy :=
  or_else (A := @PartialSig Toy) (@MkPSig Toy (u 0) (mk 0)) (fst (sign (S := Toy) Debug (sb_key i) (h4 (S := Toy) [x68]) sb_gk (snonces i) 0 sb_signers)).
Definition sb_run : trace * AggInitial :=
  calls_run (agg_new re_params sb_gk [x68]) (sb_incs ++ map (fun i => CPart (sb_sig i)) [5; 6; 7]%Z).
Definition sb_fun (i : u32) : @F Toy := sk_key (sb_key (Z.of_N (u32v i))).
Lemma sb_run_ok : agg_run (agg_new re_params sb_gk [x68]) (fst sb_run) (snd sb_run).
Proof. exact (calls_run_ok _ _). Qed.
Lemma sb_ids : map sg_index (ag_signers (ai_state (snd sb_run))) = [u 5; u 6; u 7] /\
  map sk_index [sb_key 7; sb_key 5; sb_key 6] = [u 7; u 5; u 6] /\
  Feqb (Suite := Toy) (session_chal (h4 [x68]) sb_gk (ag_signers (ai_state (snd sb_run)))) (F0 (Suite := Toy)) = false.
Proof. vms. Qed.
Lemma sb_part i : In i [u 5; u 6; u 7] -> took_part Debug sb_gk [x68] (fst sb_run) (snd sb_run) sb_fun sb_fun i.
Proof.
  intros [<-|[<-|[<-|[]]]].
  - apply (@took_part_check Toy ToyLaws _ _ _ _ _ _ _ _ _ (snonces 5) 0%N (spair 5 0) (sb_sig 5) sb_run_ok); [vmr|vmr| |vmr|vmr].
    apply (nth_error_In _ 0). vmr.
  - apply (@took_part_check Toy ToyLaws _ _ _ _ _ _ _ _ _ (snonces 6) 0%N (spair 6 0) (sb_sig 6) sb_run_ok); [vmr|vmr| |vmr|vmr].
    apply (nth_error_In _ 1). vmr.
  - apply (@took_part_check Toy ToyLaws _ _ _ _ _ _ _ _ _ (snonces 7) 0%N (spair 7 0) (sb_sig 7) sb_run_ok); [vmr|vmr| |vmr|vmr].
    apply (nth_error_In _ 2). vmr.
Qed.
Example C118_ex_session :
  let a := snd sb_run in let ids := map sg_index (ag_signers (ai_state a)) in
  agg_run (agg_new re_params (@gen Toy * ho_secret)%G [x68]) (fst sb_run) a /\
  Permutation ids (map sk_index [sb_key 7; sb_key 5; sb_key 6]) /\
  (forall i, In i ids -> took_part Debug (@gen Toy * ho_secret)%G [x68] (fst sb_run) a sb_fun sb_fun i) /\
  session_chal (h4 [x68]) (@gen Toy * ho_secret)%G (ag_signers (ai_state a)) <> @F0 Toy.
Proof.
  cbv zeta. destruct sb_ids as (-> & -> & X). split; [exact sb_run_ok|]. split.
  { apply Permutation_sym. change (Permutation ([u 7] ++ [u 5; u 6]) ([u 5; u 6] ++ [u 7])). apply Permutation_app_comm. }
  split; [exact sb_part|]. exact (proj1 (@Feqb_neq Toy ToyLaws _ _) X).
Qed.
Example C118_ex_outcome : outcome (snd sb_run) = Err (MisbehavingParticipants []) /\
  map (sb_fun) [u 7; u 5; u 6] = map sk_key [sb_key 7; sb_key 5; sb_key 6].
Proof. vms. Qed.
