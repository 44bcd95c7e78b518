(** C89: a whole signing session made without secrets by choosing the hash values of the session. *)
From Coq Require Import String Strings.Byte Arith NArith ZArith Bool List Permutation Sorted Lia Field.
From Verif Require Import Base Suite Spec SpecDkg SpecSign SpecRobust SpecEnd SpecSim Types ModelDkg ModelSign Algebra BaseLemmas LemmasShare
  LemmasSign LemmasAgg Toy Demo DemoSign PropsShare PropsSign PropsAgg PropsHash PropsEnd.
Import ListNotations.

Section Fake.
  Context {S : Suite}.
  (** hiding point that fits the response z, given the binding point E, the binding factor r and the challenge c *)
  Definition fake_com (ids : list u32) (pk E : u32 -> G) (z r : u32 -> F) (c : F) (i : u32) : G * G :=
    ((gen * z i + - (E i * r i) + - (pk i * (c * weight i ids)%F))%G, E i).
  (** the transcript of these pairs *)
  Definition fake_roll (ids : list u32) (com : u32 -> G * G) : list byte :=
    concat (map (fun i => u32_le i ++ enc_point (fst (com i)) ++ enc_point (snd (com i))) ids).
  Definition fake_signers (ids : list u32) (com : u32 -> G * G) : list Signer := map (fun i => MkSigner i (com i)) ids.
  (** the commitment of the signature *)
  Definition fake_R (ids : list u32) (pk : u32 -> G) (z : u32 -> F) (c : F) : G :=
    gsum (map (fun i => gen * z i + - (pk i * (c * weight i ids)%F))%G ids).
  (** the hash values to choose: the challenge and the binding factors *)
  Definition fake_hash (ids : list u32) (gk : G) (h : list byte) (pk E : u32 -> G) (z r : u32 -> F) (c : F) : list ((list byte * list byte) * F) :=
    ((tag "challenge", challenge_input (fake_R ids pk z c) gk h), c) ::
    map (fun i => ((tag "rho", h4 h ++ h5 (fake_roll ids (fake_com ids pk E z r c)) ++ u32_le i), r i)) ids.
End Fake.

Section Sess.
  Context {S : Suite} {L : SuiteLaws S}.
  Add Field F_fld : F_field.

  Lemma fake_roll_eq ids com : roll (fake_signers ids com) = fake_roll ids com.
  Proof. unfold roll, fake_signers, fake_roll. rewrite map_map. reflexivity. Qed.
  Lemma fake_index ids com : map sg_index (fake_signers ids com) = ids.
  Proof. unfold fake_signers. rewrite map_map. cbn [sg_index]. apply map_id. Qed.
  Lemma fake_nodup ids gk h pk E z r c : NoDup ids -> NoDup (map fst (fake_hash ids gk h pk E z r c)).
  Proof.
    intros Hn. unfold fake_hash. cbn [map fst]. constructor.
    - rewrite map_map. cbn [fst]. intros X. apply in_map_iff in X. destruct X as (i & X & _). apply (f_equal fst) in X. cbn [fst] in X.
      unfold tag in X. apply app_inv_head in X. discriminate X.
    - rewrite map_map. cbn [fst]. apply FinFun.Injective_map_NoDup; [|exact Hn]. intros i j X. apply (f_equal snd) in X. cbn [snd] in X.
      do 2 apply app_inv_head in X. apply u32_le_inj, X.
  Qed.

  Section Values.
    Context (ids : list u32) (gk : G) (h : list byte) (pk E : u32 -> G) (z r : u32 -> F) (c : F).
    Let com := fake_com ids pk E z r c.
    Let ss := fake_signers ids com.
    Context (Hr : forall i, In i ids -> h1 (h4 h ++ h5 (fake_roll ids com) ++ u32_le i) = r i).
    Context (Hc : h2 (challenge_input (fake_R ids pk z c) gk h) = c).

    Lemma fake_binding i : In i ids -> binding h ss i = r i.
    Proof. intros Hi. unfold binding, ss. rewrite fake_roll_eq. apply Hr, Hi. Qed.
    Lemma fake_nonce i : In i ids -> nonce_point h ss (MkSigner i (com i)) = (gen * z i + - (pk i * (c * weight i ids)%F))%G.
    Proof.
      intros Hi. unfold nonce_point. cbn [sg_index sg_com]. rewrite fake_binding by exact Hi. unfold com, fake_com. cbn [fst snd].
      destruct (gen_span (E i)) as [e ->]. destruct (gen_span (pk i)) as [x ->]. rewrite <- !Gmul_opp, !Gmul_mul, !gen_mul_add. f_equal. ring.
    Qed.
    Lemma fake_group : group_nonce h ss = fake_R ids pk z c.
    Proof.
      unfold group_nonce, fake_R, ss, fake_signers. rewrite map_map. f_equal. apply map_ext_in. intros i Hi. apply fake_nonce, Hi.
    Qed.
    Lemma fake_chal : session_chal h gk ss = c.
    Proof. unfold session_chal, chal. rewrite fake_group. exact Hc. Qed.
    Lemma fake_partial i : In i ids -> partial_ok h gk ss (MkSigner i (com i)) (pk i) (z i).
    Proof.
      intros Hi. unfold partial_ok. rewrite fake_nonce by exact Hi. rewrite fake_chal. cbn [sg_index]. unfold ss. rewrite fake_index.
      set (P := (pk i * _)%G). rewrite <- Gadd_assoc, (Gadd_comm (- P)%G P), Gadd_opp_r, Gadd_comm, Gadd_0_l. reflexivity.
    Qed.
    Lemma fake_sig : ginterp0 (map (fun i => (i, pk i)) ids) = gk -> sig_verify (MkTSig (fake_R ids pk z c) (fsum (map z ids))) gk h = Ok tt.
    Proof.
      intros Hg. apply sig_verify_iff. cbn [ts_R ts_z]. unfold schnorr, chal. unfold challenge_input in Hc. rewrite Hc.
      rewrite <- gsum_gen. unfold fake_R. rewrite <- Hg at 1. unfold ginterp0. rewrite <- gsum_map_mul. rewrite !map_map. cbn [fst snd]. rewrite map_id, <- gsum_map_add.
      f_equal. apply map_ext. intros i.
      destruct (gen_span (pk i)) as [x ->]. rewrite <- !Gmul_opp, !Gmul_mul, !gen_mul_add. f_equal. ring.
    Qed.
    (** the signer that knows its key and nonces sends z i *)
    Lemma fake_sign m k l idx e cs : good_indices ids -> (idx + 1 < 2 ^ 64)%N -> In (sk_index k) ids ->
      nth_error (sl_commitments l) (N.to_nat idx) = Some cs -> co_secret (cs_binding cs) = e ->
      co_secret (cs_hiding cs) = (z (sk_index k) - e * r (sk_index k) - sk_key k * (c * weight (sk_index k) ids))%F ->
      fst (sign m k h gk l idx ss) = Ok (MkPSig (sk_index k) (z (sk_index k))).
    Proof.
      intros Hg Hi Hin Hn He Hd.
      assert (Ex : exists v, fst (sign m k h gk l idx ss) = Ok (MkPSig (sk_index k) v)).
      { destruct (C38_sign_outcome S L m k h gk l idx ss Hi) as [_ X]. destruct X as (_ & _ & _ & _ & X).
        - assert (Y : N.to_nat idx < length (sl_commitments l)) by (apply nth_error_Some; congruence). lia.
        - apply X; unfold ss; rewrite fake_index; [exact Hin|apply Hg|apply Hg]. }
      destruct Ex as [v Ev]. destruct (sign m k h gk l idx ss) as [o l'] eqn:Es. cbn [fst] in Ev |- *. subst o.
      destruct (sign_ok_inv _ _ _ _ _ _ _ _ _ Es) as (cs' & C1 & _ & _ & C4 & _). rewrite Hn in C1. injection C1 as <-. rewrite C4. do 2 f_equal.
      unfold partial_value. rewrite fake_chal, fake_binding by exact Hin. rewrite Hd, He. unfold ss. rewrite fake_index. ring.
    Qed.
  End Values.

  (** an aggregator holding right partial signatures of all signers of the group key succeeds *)
  Lemma all_right p gk msg tr a f (pks : list (u32 * G)) : agg_run (agg_new p gk msg) tr a -> finalize a = Ok f ->
    let ss := ag_signers (ai_state a) in ss <> [] -> ~ In u32_zero (map sg_index ss) ->
    map fst pks = map sg_index ss -> (forall i P, In (i, P) pks -> last_key tr i P) -> ginterp0 pks = gk ->
    (forall s pk v, In s ss -> last_key tr (sg_index s) pk -> last_partial tr (sg_index s) v -> partial_ok (h4 msg) gk ss s pk v) ->
    exists sig, outcome a = Ok sig.
  Proof.
    intros H HF. cbv zeta. intros Hne H0 Hi Hk Hgk Hok. unfold outcome. rewrite HF. cbn [bind].
    destruct (C45_blame_is_exact S L p gk msg tr a f H HF Hne H0) as [X|(bad & X & _ & HB)]; [exact X|].
    exfalso. apply (C45_blame_is_not_empty S L p gk msg tr a f bad pks H HF X); auto.
    destruct bad as [|b bad]; [reflexivity|]. exfalso. destruct (proj1 (HB b) (or_introl eq_refl)) as (s & pk & v & B1 & B2 & B3 & B4 & B5).
    subst b. apply B5, Hok; assumption.
  Qed.
End Sess.

(** C89: for any signers and their public keys, choose responses z, binding points E, binding factors r and the challenge c
    freely: in the suite in which the session's hash values are r and c, the session with these responses is accepted *)
Theorem C89_sessions_are_simulated :
  forall (S : Suite) (L : SuiteLaws S) (ids : list u32) (gk : G) (msg : list byte) (pk E : u32 -> G) (z r : u32 -> F) (c : F),
  good_indices ids -> ids <> [] ->
  let h := h4 msg in
  let xs := fake_hash ids gk h pk E z r c in
  let S' := with_hash S (programmed xs inner_h2f) sha256_h2f in
  let com := fake_com ids pk E z r c in
  SuiteLaws S' /\ @same_but S (map fst xs) (@inner_h2f S') (@inner_h2f S) /\
  (** the signature *)
  (ginterp0 (map (fun i => (i, pk i)) ids) = gk ->
     @sig_verify S' (@MkTSig S' (fake_R ids pk z c) (fsum (map z ids))) gk h = Ok tt) /\
  (** an aggregator given these pairs, keys and responses accepts *)
  (forall p tr a f, @agg_run S' (@agg_new S' p gk msg) tr a -> @finalize S' a = Ok f ->
     @ag_signers S' (@ai_state S' a) = @fake_signers S' ids com ->
     (forall i, In i ids -> @last_key S' tr i (pk i) /\ @last_partial S' tr i (z i)) ->
     ginterp0 (map (fun i => (i, pk i)) ids) = gk -> exists sig, @outcome S' a = Ok sig) /\
  (** and a signer knowing its key and the nonces sends this response if its hiding nonce is this one *)
  (forall m k (l : @SecretList S') idx cs, In (@sk_index S' k) ids -> (idx + 1 < 2 ^ 64)%N ->
     nth_error (@sl_commitments S' l) (N.to_nat idx) = Some cs ->
     let i := @sk_index S' k in
     @co_secret S' (@cs_hiding S' cs) = (z i - @co_secret S' (@cs_binding S' cs) * r i - @sk_key S' k * (c * weight i ids))%F ->
     fst (@sign S' m k h gk l idx (@fake_signers S' ids com)) = Ok (@MkPSig S' i (z i))).
Proof.
  intros S L ids gk msg pk E z r c Hg Hne h xs S' com.
  pose proof (with_hash_laws S L (programmed xs inner_h2f) sha256_h2f) as L'. fold S' in L'.
  pose proof (fake_nodup ids gk h pk E z r c (proj1 Hg)) as Hn. fold xs in Hn.
  assert (Hc : programmed xs (@inner_h2f S) (tag "challenge") (challenge_input (fake_R ids pk z c) gk h) = c).
  { apply programmed_at; [exact Hn|]. left. reflexivity. }
  assert (Hr : forall i, In i ids -> programmed xs (@inner_h2f S) (tag "rho") (h4 h ++ h5 (fake_roll ids com) ++ u32_le i) = r i).
  { intros i Hi. apply programmed_at; [exact Hn|]. right. apply in_map_iff. exists i. split; [reflexivity|exact Hi]. }
  clearbody xs.
  split; [exact L'|]. split; [exact (programmed_same xs inner_h2f)|]. split; [|split].
  - exact (@fake_sig S' L' ids gk h pk z c Hc).
  - intros p tr a f H HF Hss Hkp Hgk. apply (@all_right S' L' p gk msg tr a f (map (fun i => (i, pk i)) ids) H HF).
    + rewrite Hss. unfold fake_signers. destruct ids; [contradiction|discriminate].
    + rewrite Hss, (@fake_index S'). apply Hg.
    + rewrite Hss, (@fake_index S'), map_map. cbn [fst]. apply map_id.
    + intros i P X. apply in_map_iff in X. destruct X as (j & X & Hj). injection X as <- <-. apply Hkp, Hj.
    + exact Hgk.
    + rewrite Hss. intros s q v Hs K1 K2. unfold fake_signers in Hs. apply in_map_iff in Hs. destruct Hs as (i & <- & Hi).
      pose proof (@holds_run S' _ _ _ _ _ H) as HH. destruct (Hkp i Hi) as [A B].
      apply (@hs_keys S' _ _ _ _ _ HH) in K1, A. apply (@hs_parts S' _ _ _ _ _ HH) in K2, B. 
      change (@sg_index S' (@MkSigner S' i (com i))) with i in K1, K2.
      rewrite A in K1. rewrite B in K2. injection K1 as <-. injection K2 as <-.
      exact (@fake_partial S' L' ids gk h pk E z r c Hr Hc i Hi).
  - intros m k l idx cs Hi Hidx Hcs i Hd.
    exact (@fake_sign S' L' ids gk h pk E z r c Hr Hc m k l idx _ cs Hg Hidx Hi Hcs eq_refl Hd).
Qed.
Print Assumptions C89_sessions_are_simulated.

(** signers 1 and 3 of the demo group with responses 100 and 300 that nobody computed from keys *)
Definition c89_ids : list u32 := [u 1; u 3].
Definition c89_z (i : u32) : @F Toy := mk (100 * Z.of_N (u32v i)).
Definition c89_E (i : u32) : @G Toy := (toy_gen * mk (7 + Z.of_N (u32v i)))%G.
Definition c89_r (i : u32) : @F Toy := mk (20 + Z.of_N (u32v i)).
Definition c89_com : u32 -> @G Toy * @G Toy := @fake_com Toy c89_ids c69_book c89_E c89_z c89_r (mk 55).
Definition c89_suite : Suite :=
  with_hash Toy (@programmed Toy (@fake_hash Toy c89_ids sgroup (h4 [x68; x69]) c69_book c89_E c89_z c89_r (mk 55)) inner_h2f) sha256_h2f.
Definition c89_calls (S : Suite) (com : u32 -> @G S * @G S) (book : u32 -> @G S) (z : u32 -> @F S) : list ACall :=
  map (fun i => CInc i (com i) (MkVK i (book i))) c89_ids ++ map (fun i => CPart (MkPSig i (z i))) c89_ids.
Definition c89_run (S : Suite) (com : u32 -> @G S * @G S) (book : u32 -> @G S) (z : u32 -> @F S) (gk : @G S) : AggInitial :=
  snd (calls_run (agg_new (MkParams (u 3) (u 2)) gk [x68; x69]) (c89_calls S com book z)).
Example C89_ex :
  good_indices c89_ids /\ @ginterp0 Toy (map (fun i => (i, c69_book i)) c89_ids) = sgroup.
Proof. split; [good|vmr]. Qed.
Example C89_ex_run :
  is_ok (outcome (c89_run c89_suite c89_com c69_book c89_z sgroup)) = true /\
  is_ok (finalize (c89_run c89_suite c89_com c69_book c89_z sgroup)) = true /\
  is_ok (outcome (c89_run Toy c89_com c69_book c89_z sgroup)) = false.
Proof. vms. Qed.
