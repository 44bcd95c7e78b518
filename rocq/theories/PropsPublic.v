(** C94: what the public verifying keys say about each other and about the group key. *)
From Coq Require Import String Strings.Byte Arith NArith ZArith Bool List Lia Permutation Field.
From Verif Require Import Base Suite Spec SpecDkg Types Algebra BaseLemmas ModelDkg LemmasShare LemmasRound1 LemmasRound2
  LemmasFinish LemmasBlame SpecSign LemmasSign Toy Demo DemoDkg PropsShare PropsRound1 PropsRound2 PropsFinish PropsAttack PropsSteer PropsBlame PropsSpread.
Import ListNotations.

Section Public.
  Context {S : Suite} {L : SuiteLaws S}.
  Add Field F_fld : F_field.

  Lemma of_u32_zero_F0 : of_u32 u32_zero = F0.
  Proof. apply of_u32_zero. Qed.
  Lemma by_index_perm cs cs' x : Permutation cs cs' -> dealt_point (by_index cs) x = dealt_point (by_index cs') x.
  Proof. intros H. unfold dealt_point, by_index. rewrite !map_map. apply ginterp0_perm, Permutation_map, H. Qed.
  Lemma by_index_len cs t : (forall c, In c cs -> length (vss_points c) <= t) ->
    exists f, polyfun t f /\ forall x, dealt_point (by_index cs) x = (gen * f x)%G.
  Proof. intros H. apply dealt_polyfun. intros j c Hj. apply in_map_iff in Hj. destruct Hj as (c' & [= <- <-] & Hc). apply H, Hc. Qed.
  Lemma by_index_cons c cs x : dealt_point (by_index (c :: cs)) x =
    (gpoly_value (vss_points c) x * weight (vss_index c) (vss_index c :: map vss_index cs) +
     gsum (map (fun d => gpoly_value (vss_points d) x * weight (vss_index d) (vss_index c :: map vss_index cs)) cs))%G.
  Proof. unfold dealt_point, by_index, ginterp0. cbn [map fst snd gsum]. rewrite !map_map. reflexivity. Qed.
  Lemma Fsolve' (p b w : F) : w <> F0 -> ((p - b) * Finv w * w + b = p)%F.
  Proof. intros H. field. exact H. Qed.
  Lemma good_perm cs cs' : Permutation cs cs' -> good_indices (map vss_index cs) -> good_indices (map vss_index cs').
  Proof.
    intros HP [A B]. split; [eapply Permutation_NoDup; [apply Permutation_map, HP|exact A]|].
    intros X. apply B. eapply Permutation_in; [apply Permutation_map, Permutation_sym, HP|exact X].
  Qed.
End Public.

(** the verifying key of index zero, from the retained commitments in any order, is the group key returned by finish *)
Theorem C94_group_key_is_the_key_of_index_zero :
  forall (S : Suite) (L : SuiteLaws S) (st : DkgState) (comms : bmap Vss) (gk : G) (sk : SigningKey) (cs : list Vss),
  ds_comms st = Some comms -> comms <> [] -> finish (R2 st) = Ok (gk, sk) ->
  (forall j c, In (j, c) comms -> vss_index c = j) ->
  Permutation cs (map snd comms) ->
  ivk_generate u32_zero cs = Ok (MkVK u32_zero gk).
Proof.
  intros S L st comms gk sk cs Hc Hne E Hi HP. destruct (finish_key st comms gk sk Hc E Hne) as (A & _ & ->).
  assert (Eb : by_index (map snd comms) = comms).
  { unfold by_index. rewrite map_map. clear -Hi. induction comms as [|[j c] comms IH]; [reflexivity|]. cbn [map snd].
    rewrite (Hi j c (or_introl eq_refl)), IH; [reflexivity|]. intros j' c' H. apply Hi. right. exact H. }
  assert (Ek : map vss_index (map snd comms) = bkeys comms).
  { rewrite <- Eb at 2. unfold by_index, bkeys. rewrite !map_map. reflexivity. }
  rewrite ivk_generate_ok.
  - rewrite (by_index_perm _ _ _ HP), Eb, of_u32_zero_F0. reflexivity.
  - apply (good_perm _ _ (Permutation_sym HP)). rewrite Ek. exact A.
Qed.
Print Assumptions C94_group_key_is_the_key_of_index_zero.

(** commitments with at most t points: two lists with the same verifying keys at t indices have the same at every
    index, and the same group key *)
Theorem C94_t_keys_determine_the_others :
  forall (S : Suite) (L : SuiteLaws S) (cs cs' : list Vss) (t : nat) (idx : list u32),
  good_indices (map vss_index cs) -> good_indices (map vss_index cs') ->
  (forall c, In c (cs ++ cs') -> length (vss_points c) <= t) ->
  NoDup idx -> t <= length idx ->
  (forall i, In i idx -> ivk_generate i cs = ivk_generate i cs') ->
  forall i, ivk_generate i cs = ivk_generate i cs'.
Proof.
  intros S L cs cs' t idx H H' Ht Hn Hl He i.
  destruct (by_index_len cs t) as (f & Hf & Ef); [intros c Hc; apply Ht, in_or_app; auto|].
  destruct (by_index_len cs' t) as (f' & Hf' & Ef'); [intros c Hc; apply Ht, in_or_app; auto|].
  assert (X : forall x, f x = f' x).
  { intros x. rewrite (interp_unique idx f Hn (polyfun_mono _ _ _ Hl Hf) x), (interp_unique idx f' Hn (polyfun_mono _ _ _ Hl Hf') x).
    unfold interp. f_equal. apply map_ext_in. intros j Hj. specialize (He j Hj). rewrite !ivk_generate_ok in He by assumption.
    injection He as He. rewrite Ef, Ef' in He. apply gen_inj in He. rewrite He. reflexivity. }
  rewrite !ivk_generate_ok by assumption. rewrite Ef, Ef', X. reflexivity.
Qed.
Print Assumptions C94_t_keys_determine_the_others.

(** and the group key is the interpolation of any t of them *)
Theorem C94_t_keys_give_the_group_key :
  forall (S : Suite) (L : SuiteLaws S) (cs : list Vss) (t : nat) (ks : list VerifyingKey),
  good_indices (map vss_index cs) ->
  (forall c, In c cs -> length (vss_points c) <= t) ->
  NoDup (map vk_index ks) -> t <= length ks ->
  (forall k, In k ks -> ivk_verify k cs = Ok tt) ->
  ivk_generate u32_zero cs = Ok (MkVK u32_zero (ginterp0 (map (fun k => (vk_index k, vk_share k)) ks))).
Proof.
  intros S L cs t ks H Ht Hn Hl Hk. rewrite ivk_generate_ok by exact H. do 2 f_equal. rewrite of_u32_zero_F0.
  destruct (by_index_len cs t Ht) as (f & Hf & Ef). rewrite Ef.
  assert (Ek : forall k, In k ks -> vk_share k = (gen * f (of_u32 (vk_index k)))%G).
  { intros k Hin. apply Hk, C35_verify_equals_regeneration in Hin; [|exact L]. rewrite ivk_generate_ok in Hin by exact H. injection Hin as Hin.
    rewrite <- Ef, <- Hin at 1. reflexivity. }
  rewrite (lagrange_zero (map vk_index ks) f Hn) by (eapply polyfun_mono; [|exact Hf]; rewrite map_length; exact Hl).
  unfold ginterp0. rewrite !map_map. cbn [fst snd]. rewrite <- gsum_gen. f_equal. apply map_ext_in. intros k Hin.
  rewrite (Ek k Hin). symmetry. apply Gmul_mul.
Qed.
Print Assumptions C94_t_keys_give_the_group_key.

(** fewer keys than one dealer's commitment has points say nothing about the group key: for every point P this dealer could
    have committed to another polynomial, all those keys unchanged and P the group key *)
Theorem C94_fewer_keys_fit_every_group_key :
  forall (S : Suite) (L : SuiteLaws S) (l1 l2 : list Vss) (c : Vss) (idx : list u32) (P : G),
  good_indices (map vss_index (l1 ++ c :: l2)) -> good_indices idx -> length idx < length (vss_points c) ->
  exists pts, length pts = length (vss_points c) /\
    let cs' := l1 ++ MkVss (vss_index c) pts :: l2 in
    ivk_generate u32_zero cs' = Ok (MkVK u32_zero P) /\
    forall i, In i idx -> ivk_generate i cs' = ivk_generate i (l1 ++ c :: l2).
Proof.
  intros S L l1 l2 c idx P H [Hn Hz] Hl.
  assert (H' : forall pts, good_indices (map vss_index (l1 ++ MkVss (vss_index c) pts :: l2))).
  { intros pts. rewrite map_app in *. exact H. }
  assert (HP : forall d, Permutation (l1 ++ d :: l2) (d :: l1 ++ l2)) by (intros d; apply Permutation_sym, Permutation_middle).
  destruct (dlog_list (vss_points c)) as [a Ea].
  set (w := weight (vss_index c) (vss_index c :: map vss_index (l1 ++ l2))).
  set (R := fun x => gsum (map (fun d => gpoly_value (vss_points d) x * weight (vss_index d) (vss_index c :: map vss_index (l1 ++ l2)))%G (l1 ++ l2))).
  assert (Hw : w <> F0).
  { apply weight_neq_0. destruct H as [_ H]. intros X. apply H. rewrite map_app. cbn [map]. rewrite map_app in X. apply in_or_app.
    destruct X as [X|X]; [right; left; exact X|]. apply in_app_or in X. destruct X; [left|right; right]; assumption. }
  destruct (gen_span P) as [p ->]. destruct (gen_span (R F0)) as [b Eb].
  destruct (secrecy_exists (length a) a idx ((p - b) * Finv w)%F eq_refl Hn Hz) as (a' & La & Ha & Hi).
  { rewrite Ea in Hl. unfold committed in Hl. rewrite map_length in Hl. exact Hl. }
  exists (committed a'). split; [rewrite Ea; unfold committed; rewrite !map_length; exact La|]. cbv zeta.
  assert (ED : forall pts x, dealt_point (by_index (l1 ++ MkVss (vss_index c) pts :: l2)) x = (gpoly_value pts x * w + R x)%G).
  { intros pts x. rewrite (by_index_perm _ _ x (HP _)), by_index_cons. reflexivity. }
  split.
  - rewrite ivk_generate_ok by apply H'. rewrite ED, of_u32_zero_F0, gpoly_committed, Ha, Eb, Gmul_mul, gen_mul_add. do 3 f_equal.
    apply Fsolve', Hw.
  - intros i Hin. rewrite !ivk_generate_ok by (try apply H'; exact H). do 2 f_equal.
    transitivity (gpoly_value (committed a) (of_u32 i) * w + R (of_u32 i))%G.
    + rewrite ED, !gpoly_committed, (Hi i Hin). reflexivity.
    + rewrite <- ED, <- Ea. destruct c as [j pts]. reflexivity.
Qed.
Print Assumptions C94_fewer_keys_fit_every_group_key.

(** the demo key generation: the keys of 3 and 1 give the group key; the key of 2 alone fits the group key 5 * gen, with another
    commitment of dealer 1 *)
Example C94_ex :
  good_indices (map vss_index demo_cs) /\ (forall c, In c demo_cs -> length (vss_points c) <= 2) /\
  NoDup (map vk_index [to_public (demo_key 3); to_public (demo_key 1)]) /\
  ivk_verify (to_public (demo_key 3)) demo_cs = Ok tt /\ ivk_verify (to_public (demo_key 1)) demo_cs = Ok tt /\
  ivk_generate u32_zero demo_cs = Ok (MkVK u32_zero (toy_gen * interp0 (dealt_values demo_parties (mk 0)))%G) /\
  good_indices [u 2] /\ length [u 2] < length (vss_points (hd (MkVss (u 0) []) demo_cs)).
Proof.
  split; [good|]. split.
  { intros c Hc. apply in_map_iff in Hc. destruct Hc as (p & <- & Hp). cbn [vss_points]. unfold committed. rewrite map_length.
    destruct Hp as [<-|[<-|[<-|[]]]]; apply Nat.leb_le; vmr. }
  split; [nodup|]. split; [vmr|]. split; [vmr|]. split; [vmr|]. split; [good|]. apply Nat.ltb_lt. vmr.
Qed.
Example C94_ex_finish :
  match ds_comms (honest_st 1) with Some comms => map (fun jc => (fst jc, vss_index (snd jc))) comms | None => [] end =
    [(u 1, u 1); (u 2, u 2); (u 3, u 3)] /\
  (let* (gk, _) := finish (R2 (honest_st 1)) in Ok (fv gk)) =
  (let* k := ivk_generate u32_zero (match ds_comms (honest_st 1) with Some comms => rev (map snd comms) | None => [] end) in Ok (fv (vk_share k))).
Proof. vms. Qed.
