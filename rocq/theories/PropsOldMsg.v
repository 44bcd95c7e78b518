(** C152: messages of a resharing stay valid in every other resharing to the same new signers. *)
From Coq Require Import String Strings.Byte Arith NArith ZArith Bool List Permutation Sorted Lia Field.
From Verif Require Import Base Suite Spec SpecDkg SpecSign SpecRobust SpecEnd Types ModelDkg ModelSign Algebra BaseLemmas LemmasShare LemmasRound1
  LemmasRound2 LemmasFinish Toy Demo DemoDkg PropsRound1 PropsFinish PropsReshare PropsAttack PropsSubset PropsHandover.
Import ListNotations.

Section OldMsg.
  Context {S : Suite} {L : SuiteLaws S}.
  Lemma donors_mix m params hs ws0 ws1 ws : honest_donors m params hs ws0 -> honest_donors m params hs ws1 ->
    (forall w, In w ws -> In w ws0 \/ In w ws1) -> good_indices (map (fun w => sk_index (w_key w)) ws) -> honest_donors m params hs ws.
  Proof. intros H0 H1 Hin Hg. constructor; [exact Hg|]. intros w Hw. destruct (Hin w Hw) as [X|X]; [apply H0, X|apply H1, X]. Qed.
  Lemma poly_recovers t a l : good_indices l -> length a <= t -> recovers t (poly_value a F0) (map (fun i => MkSK i (poly_value a (of_u32 i))) l).
  Proof.
    intros Hg Hl. split.
    - rewrite map_map. cbn [sk_index]. rewrite map_id. exact Hg.
    - intros sub Hsub Hnd Hle.
      assert (E : key_points sub = map (fun i => (i, poly_value a (of_u32 i))) (map sk_index sub)).
      { unfold key_points. rewrite map_map. apply map_ext_in. intros k Hk. apply Hsub, in_map_iff in Hk. destruct Hk as (i & <- & _). reflexivity. }
      rewrite E. apply interp0_poly; [exact Hnd|rewrite map_length; lia].
  Qed.
End OldMsg.

(** messages of several resharings of one sharing can be mixed: the new signers that get the list and the shares of any such
    mixture, one message of each index, end as in a resharing of its own *)
Theorem C152_messages_of_one_sharing_mix :
  forall (S : Suite) (L : SuiteLaws S) (m : build) (params1 params2 : Params) (hs : list Heir) (ws0 ws1 ws : list Donor)
         (old : list SigningKey) (s : F),
  recovers (N.to_nat (u32v (p_t params1))) s old -> honest_heirs params2 hs ->
  honest_donors m params2 hs ws0 -> (forall w, In w ws0 -> In (w_key w) old) ->
  honest_donors m params2 hs ws1 -> (forall w, In w ws1 -> In (w_key w) old) ->
  (forall w, In w ws -> In w ws0 \/ In w ws1) -> NoDup (map (fun w => sk_index (w_key w)) ws) ->
  N.of_nat (length ws) = u32v (p_n params1) -> (1 <= u32v (p_t params1) <= u32v (p_n params1))%N ->
  exists key : u32 -> F,
    (forall z ds senders es r r2, In z hs -> Permutation ds (map w_d ws) -> Permutation senders ws -> received senders z es ->
       exists s1 r1 s2 r3, dkg_new m params1 (z_x z) (z_index z) ds r = Ok (s1, MkPList ds None, r1) /\
         to_round_two m s1 es r2 = Ok (s2, [], r3) /\
         finish s2 = Ok ((gen * s)%G, MkSK (z_index z) (key (z_index z)))) /\
    recovers (N.to_nat (u32v (p_t params2))) s (map (fun z => MkSK (z_index z) (key (z_index z))) hs).
Proof.
  intros S L m params1 params2 hs ws0 ws1 ws old s HR H H0 K0 H1 K1 Hin Hnd Hn Ht.
  assert (Hold : forall w, In w ws -> In (w_key w) old) by (intros w Hw; destruct (Hin w Hw) as [X|X]; auto).
  apply (C32_resharing_preserves_group_key S L m params1 params2 hs ws old s); auto.
  apply (donors_mix m params2 hs ws0 ws1 ws H0 H1 Hin). split; [exact Hnd|].
  intros X. destruct HR as [[_ Hz] _]. apply Hz. apply in_map_iff in X. destruct X as (w & <- & Hw).
  apply in_map, Hold, Hw.
Qed.
Print Assumptions C152_messages_of_one_sharing_mix.

(** the same messages once more give every new signer the same keys once more, whatever parameters, orders and randomness *)
Theorem C152_replayed_messages_give_the_same_keys :
  forall (S : Suite) (L : SuiteLaws S) (m : build) (params1 params1' params2 : Params) (hs : list Heir) (ws : list Donor) (z : Heir)
         (out out' : G * SigningKey),
  honest_heirs params2 hs -> honest_donors m params2 hs ws -> In z hs ->
  N.of_nat (length ws) = u32v (p_n params1) -> (1 <= u32v (p_t params1) <= u32v (p_n params1))%N ->
  N.of_nat (length ws) = u32v (p_n params1') -> (1 <= u32v (p_t params1') <= u32v (p_n params1'))%N ->
  heir_run m params1 ws z out -> heir_run m params1' ws z out' -> out = out'.
Proof.
  intros S L m params1 params1' params2 hs ws z out out' H HD Hz Hn Ht Hn' Ht' R R'.
  destruct (donors_list m params2 hs ws H HD) as (ds & HF).
  assert (K : forall p o, N.of_nat (length ws) = u32v (p_n p) -> (1 <= u32v (p_t p) <= u32v (p_n p))%N -> heir_run m p ws z o ->
    o = ((gen * interp0 (key_points (map w_key ws)))%G, MkSK (z_index z) (new_key ds (z_index z)))).
  { intros p o Hpn Hpt (ps & senders & es & r & lists & r1 & s1 & r2 & s2 & cs & r3 & A1 & A2 & A3 & A4 & A5 & A6).
    destruct (heir_ok m p params2 hs ws ds z ps senders es r r2 H (hd_indices _ _ _ _ HD) HF Hpn Hpt Hz A1 A2 A3)
      as (s1' & r1' & s2' & r3' & E1 & E2 & E3).
    rewrite A4 in E1. injection E1 as <- _ _. rewrite A5 in E2. injection E2 as <- _ _. rewrite A6 in E3. congruence. }
  rewrite (K params1 out), (K params1' out'); auto.
Qed.
Print Assumptions C152_replayed_messages_give_the_same_keys.

(** the message of a dealer w0 of an earlier resharing in the place of the dealer w1 of the same index: no call fails, nobody is reported and nobody
    complains; the group key is kept exactly if the old key of that dealer is its present one. The check of C85 tells the two cases apart *)
Theorem C152_a_message_of_an_earlier_epoch :
  forall (S : Suite) (L : SuiteLaws S) (m : build) (params1 params2 : Params) (hs : list Heir) (ws0 ws1 rest : list Donor) (w0 w1 : Donor)
         (now : list SigningKey) (s : F),
  recovers (N.to_nat (u32v (p_t params1))) s now -> honest_heirs params2 hs ->
  (** some resharing of any other keys, and one of the present keys, to the same new signers *)
  honest_donors m params2 hs ws0 -> In w0 ws0 ->
  honest_donors m params2 hs ws1 -> (forall w, In w ws1 -> In (w_key w) now) ->
  Permutation ws1 (w1 :: rest) -> sk_index (w_key w0) = sk_index (w_key w1) ->
  N.of_nat (length ws1) = u32v (p_n params1) -> (1 <= u32v (p_t params1) <= u32v (p_n params1))%N ->
  exists (s' : F) (key : u32 -> F),
    (forall z ds senders es r r2, In z hs -> Permutation ds (map w_d (w0 :: rest)) -> Permutation senders (w0 :: rest) -> received senders z es ->
       exists st1 r1 st2 r3, dkg_new m params1 (z_x z) (z_index z) ds r = Ok (st1, MkPList ds None, r1) /\
         to_round_two m st1 es r2 = Ok (st2, [], r3) /\
         finish st2 = Ok ((gen * s')%G, MkSK (z_index z) (key (z_index z)))) /\
    recovers (N.to_nat (u32v (p_t params2))) s' (map (fun z => MkSK (z_index z) (key (z_index z))) hs) /\
    (s' = s <-> sk_key (w_key w0) = sk_key (w_key w1)) /\
    forall book : u32 -> G, (forall k, In k now -> book (sk_index k) = (gen * sk_key k)%G) ->
      (vouched (map sk_index now) book (N.to_nat (u32v (p_t params2))) (w_d w0) <-> sk_key (w_key w0) = sk_key (w_key w1)).
Proof.
  intros S L m params1 params2 hs ws0 ws1 rest w0 w1 now s HR H H0 Hw0 H1 K1 HP Ei Hn Ht.
  assert (Hw1 : In w1 ws1) by (eapply Permutation_in; [apply Permutation_sym, HP|left; reflexivity]).
  assert (Hrest : forall w, In w rest -> In w ws1) by (intros w Hw; eapply Permutation_in; [apply Permutation_sym, HP|right; exact Hw]).
  assert (Hg : good_indices (map (fun w => sk_index (w_key w)) (w0 :: rest))).
  { cbn [map]. rewrite Ei. destruct (hd_indices _ _ _ _ H1) as [A B]. pose proof (Permutation_map (fun w => sk_index (w_key w)) HP) as P. cbn [map] in P.
    split; [eapply Permutation_NoDup; eassumption|]. intros X. apply B. eapply Permutation_in; [apply Permutation_sym, P|exact X]. }
  assert (HD : honest_donors m params2 hs (w0 :: rest)).
  { apply (donors_mix m params2 hs ws0 ws1 (w0 :: rest) H0 H1); [|exact Hg]. intros w [<-|Hw]; auto. }
  assert (Hn' : N.of_nat (length (w0 :: rest)) = u32v (p_n params1)) by (rewrite (Permutation_length HP) in Hn; exact Hn).
  destruct (C70_resharing_accepts_any_keys S L m params1 params2 hs (w0 :: rest) H HD Hn' Ht) as (key & A & B).
  set (s' := interp0 (key_points (map w_key (w0 :: rest)))) in *.
  exists s', key. split; [exact A|]. split; [exact B|].
  destruct HR as [[Hnd Hz] HR].
  assert (Hs : s' = s <-> sk_key (w_key w0) = sk_key (w_key w1)).
  { assert (HG : good_indices (sk_index (w_key w1) :: map sk_index (map w_key rest))).
    { rewrite map_map. cbn [map] in Hg. rewrite Ei in Hg. exact Hg. }
    destruct (solve_key (sk_index (w_key w1)) (map w_key rest) s HG) as (x0 & Hx).
    assert (E0 : sk_key (w_key w1) = x0).
    { apply Hx. replace (MkSK (sk_index (w_key w1)) (sk_key (w_key w1))) with (w_key w1) by (destruct (w_key w1); reflexivity).
      change (w_key w1 :: map w_key rest) with (map w_key (w1 :: rest)). apply HR.
      - intros k Hk. apply in_map_iff in Hk. destruct Hk as (w & <- & [<-|Hw]); auto.
      - cbn [map]. apply HG.
      - rewrite map_length. cbn [length] in *. lia. }
    rewrite E0, <- Hx. unfold s'. cbn [map]. rewrite <- Ei.
    replace (MkSK (sk_index (w_key w0)) (sk_key (w_key w0))) with (w_key w0) by (destruct (w_key w0); reflexivity). reflexivity. }
  split; [exact Hs|]. intros book Hb.
  destruct (hd_reshared _ _ _ _ H0 w0 Hw0) as (ps & r & lists & r' & _ & E).
  assert (Ht2 : (1 <= u32v (p_t params2))%N) by apply H.
  destruct (C85_honest_dealers_pass_the_check S L m params2 (w_key w0) ps r r' (w_d w0) (w_es w0) lists (map sk_index now) book Ht2 E) as [_ V].
  rewrite V, Ei, (Hb (w_key w1)) by auto. split.
  - intros [_ X]. symmetry. apply gen_inj, X.
  - intros ->. split; [apply in_map; auto|reflexivity].
Qed.
Print Assumptions C152_a_message_of_an_earlier_epoch.

(** signers 5 and 6 held shares of 42 under one polynomial, and hold shares of it under another now. In both epochs they reshare to 5, 6, 7, 8;
    the earlier message of 5 is put into the later resharing: all hypotheses of the three theorems hold, and the group key changes *)
Definition om_keys (b : Z) : list SigningKey := map (fun i => MkSK i (poly_value (S := Toy) [mk 42; mk b] (of_u32 (Suite := Toy) i))) [u 5; u 6].
Definition om_donors (b : Z) (seed : N) : list Donor :=
  [re_donor re_params (nth 0 (om_keys b) (demo_key 1)) seed; re_donor re_params (nth 1 (om_keys b) (demo_key 1)) (seed + 1)%N].
Lemma om_sharing b : recovers (S := Toy) 2 (poly_value (S := Toy) [mk 42; mk b] (F0 (Suite := Toy))) (om_keys b).
Proof. apply (@poly_recovers Toy ToyLaws); [good|cbn; lia]. Qed.
Lemma om_honest b seed : honest_donors Debug re_params re_heirs (om_donors b seed).
Proof.
  assert (K : forall k seed, sk_index k <> u32_zero -> exists ps r lists r', Permutation ps (map z_p re_heirs) /\
    reshare Debug re_params (w_key (re_donor re_params k seed)) ps r =
      Ok (w_d (re_donor re_params k seed), w_es (re_donor re_params k seed), lists, r')).
  { intros k sd Hk.
    destruct (C32_reshare_succeeds Toy ToyLaws Debug re_params re_heirs k (map z_p re_heirs) sd C32_ex_heirs
      (Permutation_refl _) Hk) as (d & es & r' & E & _).
    exists (map z_p re_heirs), sd, (MkPList (map z_p re_heirs) None), r'. split; [apply Permutation_refl|].
    unfold re_donor. rewrite E. exact E. }
  assert (KI : forall k seed, w_key (re_donor re_params k seed) = k).
  { intros k sd. unfold re_donor. destruct (reshare _ _ _ _ _) as [[[[]]]| |]; reflexivity. }
  constructor.
  - unfold om_donors. cbn [map]. rewrite !KI. cbn [om_keys map nth sk_index]. good.
  - intros w [<-|[<-|[]]]; apply K; cbn [om_keys map nth sk_index]; apply u32_eqb_neq; reflexivity.
Qed.
Example C152_ex :
  recovers (S := Toy) 2 (poly_value (S := Toy) [mk 42; mk 9] (F0 (Suite := Toy))) (om_keys 9) /\ honest_heirs re_params re_heirs /\
  honest_donors Debug re_params re_heirs (om_donors 7 81) /\ honest_donors Debug re_params re_heirs (om_donors 9 91) /\
  (let ws := firstn 1 (om_donors 7 81) ++ skipn 1 (om_donors 9 91) in
   let* (mis, n, gk, sk) := re_run (MkParams (u 2) (u 2)) ws (re_heir 7) in Ok (mis, n, Geqb gk (toy_gen * mk 42)%G)) = Ok (None, 0, false).
Proof.
  split; [apply om_sharing|]. split; [exact C32_ex_heirs|]. split; [apply om_honest|]. split; [apply om_honest|]. vmr.
Qed.
