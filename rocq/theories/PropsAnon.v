(** C97: a signature tells nothing about its signers. *)
From Coq Require Import String Strings.Byte Arith NArith ZArith Bool List Permutation Sorted Lia Field.
From Verif Require Import Base Suite Spec SpecDkg SpecSign Types ModelDkg ModelSign Algebra BaseLemmas LemmasShare
  LemmasFinish LemmasSign LemmasAgg Toy Demo DemoSign PropsSign PropsAgg.
Import ListNotations.

(** two aggregators, whatever their parameters, signers, keys, partial signatures and order of calls, that return
    signatures with the same nonce commitment for one message and group key, return the same signature *)
Theorem C97_only_the_nonce_point_varies :
  forall (S : Suite) (L : SuiteLaws S) (f f' : AggFinal) (sig sig' : ThresholdSig),
    aggregate f = Ok sig -> aggregate f' = Ok sig' ->
    ag_group_key (af_state f) = ag_group_key (af_state f') -> af_hash f = af_hash f' -> ts_R sig = ts_R sig' ->
    sig = sig'.
Proof.
  intros S L f f' [R z] [R' z'] H H' Ek Eh Er. cbn [ts_R] in Er. subst R'.
  destruct (C44_aggregate_returns_only_valid_signatures S L f _ H) as (V & _).
  destruct (C44_aggregate_returns_only_valid_signatures S L f' _ H') as (V' & _).
  rewrite <- Ek, <- Eh in V'. destruct (C36_one_valid_response S L (ag_group_key (af_state f)) R (af_hash f)) as (z0 & _ & U).
  rewrite (U z V), (U z' V'). reflexivity.
Qed.
Print Assumptions C97_only_the_nonce_point_varies.

Section Lem.
  Context {S : Suite} {L : SuiteLaws S}.
  Add Field F_fld : F_field.

  (** cosigners with the given hiding nonces and binding nonce zero *)
  Definition plain_pair (d : F) : CommitmentShare := MkCS (MkCom d (gen * d)%G) (MkCom F0 (gen * F0)%G).
  Definition plain (x : SigningKey * F) : Cosigner := MkCo (fst x) (MkSecList [plain_pair (snd x)]) 0%N (plain_pair (snd x)).
  Lemma plain_ok x : cosigner_ok (plain x) /\ consistent (q_pair (plain x)).
  Proof. split; [split; [cbn; lia|reflexivity]|split; reflexivity]. Qed.
  Lemma plain_nonce h ss (l : list (SigningKey * F)) : Permutation ss (map as_signer (map plain l)) ->
    group_nonce h ss = (gen * fsum (map snd l))%G.
  Proof.
    intros HP. unfold group_nonce. rewrite (gsum_perm _ _ (Permutation_map (nonce_point h ss) HP)).
    rewrite !map_map, <- gsum_gen. f_equal. apply map_ext. intros [k d].
    unfold nonce_point, as_signer, plain, published, plain_pair. cbn [fst snd sg_com q_pair co_secret cs_hiding cs_binding].
    rewrite Gmul_mul, gen_mul_add. f_equal. ring.
  Qed.
  (** nonces with a given sum *)
  Lemma nonces_with_sum (ks : list SigningKey) (r : F) : ks <> [] -> exists l, map fst l = ks /\ fsum (map snd l) = r.
  Proof.
    destruct ks as [|k ks]; [congruence|]. intros _. exists ((k, r) :: map (fun k => (k, F0)) ks). split.
    - cbn. rewrite map_map. cbn. rewrite map_id. reflexivity.
    - assert (E : forall l : list SigningKey, fsum (map (fun _ => F0) l) = F0).
      { intros l. induction l as [|k0 l IH]; cbn; [reflexivity|]. rewrite IH. ring. }
      cbn. rewrite map_map. cbn. rewrite E. ring.
  Qed.
End Lem.

(** every valid signature can have been made by every large enough set of key holders: there are nonces with which an
    honest session of exactly these signers returns exactly this signature *)
Theorem C97_every_set_of_signers_can_have_made_it :
  forall (S : Suite) (L : SuiteLaws S) (m : build) (p : Params) (msg : list byte) (t : nat) (s : F) (ks signers : list SigningKey)
    (sig : ThresholdSig),
    recovers t s ks -> 1 <= t -> t <= length signers -> (N.of_nat (length signers) <= u32v (p_n p))%N ->
    (forall k, In k signers -> In k ks) -> NoDup (map sk_index signers) ->
    let gk := (gen * s)%G in
    verify_signature gk sig (h4 msg) = Ok tt ->
    exists qs, map q_key qs = signers /\ (forall q, In q qs -> cosigner_ok q /\ consistent (q_pair q)) /\
      exists a1 ps, agg_run (agg_new p gk msg) (announce qs) a1 /\
        signed m (h4 msg) gk (ag_signers (ai_state a1)) qs ps /\
        forall ps', Permutation ps' ps -> exists a2 f, agg_run a1 (deliver ps') a2 /\ finalize a2 = Ok f /\ aggregate f = Ok sig.
Proof.
  intros S L m p msg t s ks signers sig HR Ht1 Ht Hn Hin Hnd gk HV.
  destruct (gen_span (ts_R sig)) as [r Er].
  destruct (nonces_with_sum signers r) as (l & E1 & E2); [intros ->; cbn in Ht; lia|].
  set (qs := map plain l).
  assert (Ek : map q_key qs = signers) by (unfold qs; rewrite map_map; exact E1).
  assert (Hq : forall q, In q qs -> cosigner_ok q /\ consistent (q_pair q)).
  { intros q X. apply in_map_iff in X. destruct X as (x & <- & _). apply plain_ok. }
  assert (Hl : length qs = length signers) by (rewrite <- Ek, map_length; reflexivity).
  assert (Ei : map (fun q => sk_index (q_key q)) qs = map sk_index signers) by (rewrite <- Ek, map_map; reflexivity).
  exists qs. split; [exact Ek|]. split; [exact Hq|].
  destruct HR as [Hks Hrec].
  assert (Hg : good_indices (map (fun q => sk_index (q_key q)) qs)).
  { rewrite Ei. split; [exact Hnd|]. intros X. apply in_map_iff in X. destruct X as (k & E & X). apply Hks. rewrite <- E. apply in_map, Hin, X. }
  destruct (honest_session m p gk msg qs ltac:(rewrite Hl; exact Hn) Hg (fun q H => proj1 (Hq q H))) as (a1 & ps & H1 & H2 & H3).
  exists a1, ps. split; [exact H1|]. split; [exact H2|]. intros ps' Hps. destruct (H3 ps' Hps) as (a2 & f & H4 & H5 & H6).
  exists a2, f. split; [exact H4|]. split; [exact H5|]. set (ss := ag_signers (af_state f)).
  set (sig' := MkTSig (group_nonce (h4 msg) ss) (fsum (map (fun x => val F0 (ag_partials (af_state f)) (sg_index x)) ss))).
  assert (HV1 : schnorr gk (h4 msg) (ts_R sig') (ts_z sig')).
  { cbn [sig' ts_R ts_z].
    apply (proj2 (all_checks (h4 msg) gk ss (val Gzero (ag_keys (af_state f))) (val F0 (ag_partials (af_state f)))
      ltac:(intros x Hx; destruct (session_checks _ _ _ _ _ H6 x Hx) as (pk & z & X1 & X2 & X3);
            unfold val; rewrite X1, X2; rewrite (se_hash _ _ _ _ _ H6) in X3; exact X3))).
    unfold ss. rewrite (session_interp _ _ _ _ _ H6). unfold gk. f_equal. f_equal. apply Hrec.
    - intros k Hk. rewrite Ek in Hk. apply Hin, Hk.
    - rewrite Ek. exact Hnd.
    - rewrite Ek. exact Ht. }
  assert (HV' : sig_verify sig' gk (h4 msg) = Ok tt) by (apply sig_verify_iff, HV1).
  assert (Es : sig' = sig).
  { assert (Er' : ts_R sig' = ts_R sig).
    { cbn [sig' ts_R]. rewrite Er, <- E2. apply plain_nonce. exact (se_perm _ _ _ _ _ H6). }
    destruct (C36_one_valid_response S L gk (ts_R sig) (h4 msg)) as (z0 & _ & U).
    destruct sig as [R z]. cbn [ts_R] in Er', U. destruct sig' as [R' z'] eqn:X. cbn [ts_R] in Er'. subst R'.
    rewrite (U z' HV'), (U z HV). reflexivity. }
  rewrite aggregate_eq.
  - cbv zeta. fold ss. rewrite (se_hash _ _ _ _ _ H6), (se_gk _ _ _ _ _ H6). fold sig'. rewrite HV', Es. reflexivity.
  - intros X. pose proof (Permutation_length (se_perm _ _ _ _ _ H6)) as HL. rewrite X, map_length in HL. cbn in HL. lia.
  - intros x Hx. destruct (session_checks _ _ _ _ _ H6 x Hx) as (pk & z & _ & X2 & _). eauto.
Qed.
Print Assumptions C97_every_set_of_signers_can_have_made_it.

(** signers 1 and 3 of the demo make a signature; signers 2 and 3 with nonces of the same sum make the same one *)
Definition anon_signers : list Signer := ag_signers (ai_state (sagg [3; 1]%Z)).
Definition anon_nonce (i : Z) : F :=
  (co_secret (cs_hiding (spair i 0)) + co_secret (cs_binding (spair i 0)) * binding shash anon_signers (u (Z.to_N i)))%F.
Definition anon_qs : list Cosigner := [plain (skey 2, (anon_nonce 1 + anon_nonce 3 - mk 44)%F); plain (skey 3, mk 44)].
Definition anon_agg : AggInitial :=
  fold_left (fun a q => snd (include_signer a (sk_index (q_key q)) (published (q_pair q)) (to_public (q_key q)))) anon_qs
    (agg_new (MkParams (u 3) (u 2)) sgroup [x68; x69]).
Definition anon_sig : result ThresholdSig :=
  sfinal (fold_left (fun a q =>
    match fst (sign Debug (q_key q) shash sgroup (q_list q) (q_pos q) (ag_signers (ai_state anon_agg))) with
    | Ok ps => include_partial_signature a ps | _ => a end) anon_qs anon_agg).
Example C97_ex :
  is_ok anon_sig = true /\ anon_sig = sfinal (sdone [3; 1] [1; 3])%Z /\
  map sg_index anon_signers = [u 1; u 3] /\ map sg_index (ag_signers (ai_state anon_agg)) = [u 2; u 3].
Proof. vms. Qed.
