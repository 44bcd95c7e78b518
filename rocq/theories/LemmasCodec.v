(** Lemmas on the codecs. *)
From Coq Require Import String Strings.Byte Arith NArith Bool List Sorted Lia Permutation.
From Verif Require Import Base Suite Spec SpecDkg SpecSign SpecCodec Types ModelDkg ModelSign ModelCodec Algebra BaseLemmas LemmasShare.
Import ListNotations.

(** ** generic codecs *)
Definition exact {A} (R : A -> Prop) (ser : A -> list byte) (d : decoder A) : Prop :=
  forall v r, R v -> d (ser v ++ r) = Some (v, r).

Lemma firstn_app_len {A} k (a b : list A) : length a = k -> firstn k (a ++ b) = a.
Proof. intros <-. rewrite firstn_app, firstn_all, Nat.sub_diag. cbn. apply app_nil_r. Qed.
Lemma skipn_app_len {A} k (a b : list A) : length a = k -> skipn k (a ++ b) = b.
Proof. intros <-. rewrite skipn_app, skipn_all, Nat.sub_diag. reflexivity. Qed.

Lemma de_uint_ok k n r : (n < 256 ^ N.of_nat k)%N -> de_uint k (le_bytes k n ++ r) = Some (n, r).
Proof.
  intros H. unfold de_uint. rewrite app_length, le_bytes_len.
  destruct (Nat.ltb_spec (k + length r) k); [lia|].
  rewrite firstn_app_len by apply le_bytes_len. rewrite skipn_app_len by apply le_bytes_len.
  rewrite le_value_le_bytes by exact H. reflexivity.
Qed.
Lemma exact_u32 : exact any u32_le de_u32.
Proof.
  intros i r _. unfold de_u32, u32_le. rewrite de_uint_ok; [cbn [dthen]; rewrite u32_of_N_v; reflexivity|].
  change (256 ^ N.of_nat 4)%N with 4294967296%N. apply u32_bound.
Qed.
Lemma de_u64_ok {A} (l : list A) r : fits l -> de_u64 (le_bytes 8 (N.of_nat (length l)) ++ r) = Some (N.of_nat (length l), r).
Proof. intros H. apply de_uint_ok. exact H. Qed.

Lemma de_many_ok {A} (R : A -> Prop) ser d : exact R ser d -> forall l r, (forall a, In a l -> R a) ->
  de_many d (length l) (concat (map ser l) ++ r) = Some (l, r).
Proof.
  intros H. induction l as [|a l IH]; intros r Hl; [reflexivity|]. cbn [length de_many map concat].
  rewrite <- app_assoc, H by (apply Hl; left; reflexivity). cbn [dthen]. rewrite IH; [reflexivity|]. intros x Hx. apply Hl. right. exact Hx.
Qed.
Lemma exact_vec {A} (R : A -> Prop) ser d : exact R ser d -> exact (real_vec R) (ser_vec ser) (de_vec d).
Proof.
  intros H l r [H1 H2]. unfold ser_vec, de_vec. rewrite <- app_assoc, de_u64_ok by exact H1. cbn [dthen].
  rewrite Nat2N.id. apply (de_many_ok R); assumption.
Qed.
Lemma exact_option {A} (R : A -> Prop) ser d : exact R ser d -> exact (real_option R) (ser_option ser) (de_option d).
Proof.
  intros H [a|] r Ho; [|reflexivity]. unfold ser_option, de_option. cbn [app de_u8 dthen].
  rewrite H by (apply Ho; reflexivity). reflexivity.
Qed.
Lemma exact_pair {A B} (Q : A -> Prop) (R : B -> Prop) f d g e : exact Q f d -> exact R g e ->
  exact (fun p => Q (fst p) /\ R (snd p)) (ser_pair f g) (de_pair d e).
Proof.
  intros H1 H2 [a b] r [Ha Hb]. unfold ser_pair, de_pair. cbn [fst snd] in *. rewrite <- app_assoc, H1 by exact Ha. cbn [dthen].
  rewrite H2 by exact Hb. reflexivity.
Qed.
Lemma exact_mono {A} (R R' : A -> Prop) ser d : (forall v, R' v -> R v) -> exact R ser d -> exact R' ser d.
Proof. intros H H1 v r Hv. apply H1, H, Hv. Qed.

(** an increasing list of u32 has at most 2^32 elements *)
Lemma increasing_length l : increasing l -> (N.of_nat (length l) <= 4294967296)%N.
Proof.
  intros H. assert (K : forall l lo, increasing l -> (forall x, In x l -> (lo <= u32v x)%N) -> (lo <= 4294967296)%N ->
    (lo + N.of_nat (length l) <= 4294967296)%N).
  { clear. induction l as [|x l IH]; intros lo H Hlo Hb; [cbn; lia|]. apply increasing_cons_inv in H. destruct H as [H1 H2].
    pose proof (u32_bound x). assert (lo <= u32v x)%N by (apply Hlo; left; reflexivity).
    assert (u32v x + 1 + N.of_nat (length l) <= 4294967296)%N.
    { apply IH; [exact H1| |lia]. intros y Hy. specialize (H2 y Hy). unfold u32_lt in H2. lia. }
    cbn [length]. lia. }
  specialize (K l 0%N H). assert (0 <= 4294967296)%N by lia. assert (forall x, In x l -> (0 <= u32v x)%N) by (intros; lia). specialize (K H1 H0). lia.
Qed.

Lemma binsert_last {V} (k : u32) (v : V) (m : bmap V) : (forall x, In x (bkeys m) -> u32_lt x k) -> binsert k v m = m ++ [(k, v)].
Proof.
  induction m as [|[k' v'] m IH]; intros H; [reflexivity|]. cbn [binsert app].
  assert (L : u32_lt k' k) by (apply H; left; reflexivity).
  destruct (u32_ltb k k') eqn:E1; [apply u32_ltb_spec in E1; unfold u32_lt in *; lia|].
  destruct (u32_eqb k k') eqn:E2; [apply u32_eqb_spec in E2; subst; unfold u32_lt in *; lia|].
  rewrite IH; [reflexivity|]. intros x Hx. apply H. right. exact Hx.
Qed.
Definition insert_all {V} (l m : bmap V) : bmap V := fold_left (fun m kv => binsert (fst kv) (snd kv) m) l m.
Lemma rebuild {V} (l : bmap V) : forall m, increasing (bkeys (m ++ l)) -> insert_all l m = m ++ l.
Proof.
  induction l as [|[k v] l IH]; intros m H; [cbn; symmetry; apply app_nil_r|]. unfold insert_all in *. cbn [fold_left fst snd].
  rewrite binsert_last.
  - rewrite IH; [rewrite <- app_assoc; reflexivity|]. rewrite <- app_assoc. exact H.
  - intros x Hx. unfold bkeys in H. rewrite map_app in H. clear IH. fold (bkeys m) in H. induction (bkeys m) as [|y ys IHy]; [destruct Hx|].
    cbn [app map] in H. apply increasing_cons_inv in H. destruct H as [H1 H2]. destruct Hx as [->|Hx]; [|auto].
    apply H2. apply in_or_app. right. left. reflexivity.
Qed.
Lemma exact_map {V} (R : V -> Prop) ser d : exact R ser d -> exact (real_map R) (ser_map ser) (de_map d).
Proof.
  intros H m r [H1 H2]. unfold ser_map, de_map.
  rewrite (exact_vec _ _ _ (exact_pair _ _ _ _ _ _ exact_u32 H)).
  - cbn [dthen]. f_equal. f_equal. apply (rebuild m []). exact H1.
  - split.
    + unfold fits. pose proof (increasing_length _ H1) as X. rewrite map_length in X. lia.
    + intros [k v] Hin. split; [exact I|apply (H2 k v Hin)].
Qed.

(** ** the codecs of the library *)
Lemma exact_params : exact any ser_params de_params.
Proof.
  intros [n t] r _. unfold ser_params, de_params. cbn [p_n p_t]. rewrite <- app_assoc, exact_u32 by exact I. cbn [dthen].
  rewrite exact_u32 by exact I. reflexivity.
Qed.

Section LemmasCodec.
  Context {S : Suite} {L : SuiteLaws S}.

  Lemma exact_scalar : exact any enc_scalar dec_scalar.
  Proof. intros x r _. apply enc_scalar_dec. Qed.
  Lemma exact_point : exact any enc_point dec_point.
  Proof. intros x r _. apply enc_point_dec. Qed.
  Lemma exact_byte : exact any (fun b => [b]) de_u8.
  Proof. intros b r _. reflexivity. Qed.
  Lemma exact_bytes : exact (@fits byte) enc_bytes (de_vec de_u8).
  Proof.
    intros l r H. pose proof (exact_vec _ _ _ exact_byte l r (conj H (fun _ _ => I))) as X. unfold ser_vec in X.
    replace (concat (map (fun b => [b]) l)) with l in X; [exact X|]. clear. induction l as [|b l IH]; [reflexivity|]. cbn. f_equal. exact IH.
  Qed.

  Lemma exact_verifying_key : exact any ser_verifying_key de_verifying_key.
  Proof.
    intros [i P] r _. unfold ser_verifying_key, de_verifying_key. cbn [vk_index vk_share]. rewrite <- app_assoc, exact_u32 by exact I.
    cbn [dthen]. rewrite exact_point by exact I. reflexivity.
  Qed.
  Lemma exact_signing_key : exact any ser_signing_key de_signing_key.
  Proof.
    intros [i x] r _. unfold ser_signing_key, de_signing_key. cbn [sk_index sk_key]. rewrite <- app_assoc, exact_u32 by exact I.
    cbn [dthen]. rewrite exact_scalar by exact I. reflexivity.
  Qed.
  Lemma exact_coefficients : exact (@fits F) ser_coefficients de_coefficients.
  Proof. intros l r H. apply (exact_vec any); [apply exact_scalar|]. split; [exact H|intros; exact I]. Qed.
  Lemma exact_share : exact any ser_share de_share.
  Proof.
    intros [i j v] r _. unfold ser_share, de_share. cbn [sh_sender sh_receiver sh_value]. rewrite <- !app_assoc, exact_u32 by exact I.
    cbn [dthen]. rewrite exact_u32 by exact I. cbn [dthen]. rewrite exact_scalar by exact I. reflexivity.
  Qed.
  Lemma nonce_of_ok n : nonce_of (nonce_bytes n) = Some n.
  Proof.
    unfold nonce_of. generalize (eq_refl (Nat.eqb (length (nonce_bytes n)) nonce_len)).
    generalize (Nat.eqb (length (nonce_bytes n)) nonce_len) at 2 3. intros [|] H.
    - f_equal. apply nonce_ext. reflexivity.
    - pose proof (nonce_ok n). congruence.
  Qed.
  Lemma nonce_of_inv l n : nonce_of l = Some n -> nonce_bytes n = l.
  Proof.
    unfold nonce_of. generalize (eq_refl (Nat.eqb (length l) nonce_len)).
    generalize (Nat.eqb (length l) nonce_len) at 2 3. intros [|] H E; [|discriminate]. injection E as <-. reflexivity.
  Qed.
  Lemma exact_encshare : exact real_enc ser_encshare de_encshare.
  Proof.
    intros [i j n c] r [H1 H2]. unfold ser_encshare, de_encshare. cbn [es_sender es_receiver es_nonce es_ct] in *.
    rewrite <- !app_assoc, exact_u32 by exact I. cbn [dthen]. rewrite exact_u32 by exact I. cbn [dthen].
    rewrite exact_bytes by exact H1. cbn [dthen]. rewrite nonce_of_ok. rewrite exact_bytes by exact H2. reflexivity.
  Qed.
  Lemma exact_vss : exact real_vss ser_vss de_vss.
  Proof.
    intros [i l] r H. unfold ser_vss, de_vss. cbn [vss_index vss_points]. rewrite <- app_assoc, exact_u32 by exact I. cbn [dthen].
    rewrite (exact_vec any _ _ exact_point); [reflexivity|]. split; [exact H|intros; exact I].
  Qed.
  Lemma exact_nizk : exact any ser_nizk de_nizk.
  Proof.
    intros [s x] r _. unfold ser_nizk, de_nizk. cbn [nz_s nz_r]. rewrite <- app_assoc, exact_scalar by exact I. cbn [dthen].
    rewrite exact_scalar by exact I. reflexivity.
  Qed.
  Lemma exact_complaint_proof : exact any ser_complaint_proof de_complaint_proof.
  Proof.
    intros [a b z] r _. unfold ser_complaint_proof, de_complaint_proof. cbn [cp_a1 cp_a2 cp_z]. rewrite <- !app_assoc, exact_point by exact I.
    cbn [dthen]. rewrite exact_point by exact I. cbn [dthen]. rewrite exact_scalar by exact I. reflexivity.
  Qed.
  Lemma exact_complaint : exact real_complaint ser_complaint de_complaint.
  Proof.
    intros [k pk e p] r H. unfold ser_complaint, de_complaint. cbn [c_shared c_pk c_share c_proof]. rewrite <- !app_assoc, exact_point by exact I.
    cbn [dthen]. rewrite exact_point by exact I. cbn [dthen]. rewrite exact_encshare by exact H. cbn [dthen].
    rewrite exact_complaint_proof by exact I. reflexivity.
  Qed.
  Lemma exact_participant : exact real_participant ser_participant de_participant.
  Proof.
    intros [i pk c p q] r H. unfold ser_participant, de_participant. cbn [pt_index pt_dh_pk pt_comm pt_sk_proof pt_dh_proof].
    rewrite <- !app_assoc, exact_u32 by exact I. cbn [dthen]. rewrite exact_point by exact I. cbn [dthen].
    rewrite (exact_option _ _ _ exact_vss) by exact H. cbn [dthen].
    rewrite (exact_option _ _ _ exact_nizk) by (intros ? _; exact I). cbn [dthen]. rewrite exact_nizk by exact I. reflexivity.
  Qed.
  Lemma exact_state : exact real_state ser_state de_state.
  Proof.
    intros [p i x pk cs dhs es sh] r [H1 H2 H3 H4]. unfold ser_state, de_state.
    cbn [ds_params ds_index ds_dh_sk ds_dh_pk ds_comms ds_dhs ds_enc ds_shares] in *.
    rewrite <- !app_assoc, exact_params by exact I. cbn [dthen]. rewrite exact_u32 by exact I. cbn [dthen].
    rewrite exact_scalar by exact I. cbn [dthen]. rewrite exact_point by exact I. cbn [dthen].
    rewrite (exact_option _ _ _ (exact_map _ _ _ exact_vss)) by exact H1. cbn [dthen].
    rewrite (exact_map _ _ _ exact_point) by exact H2. cbn [dthen].
    rewrite (exact_option _ _ _ (exact_map _ _ _ exact_encshare)) by exact H3. cbn [dthen].
    rewrite (exact_option _ _ _ (exact_map _ _ _ exact_share)) by exact H4. reflexivity.
  Qed.
  Lemma exact_round_one : exact (fun s => real_state (st1 s)) ser_round_one de_round_one.
  Proof. intros [s] r H. unfold ser_round_one, de_round_one. rewrite exact_state by exact H. reflexivity. Qed.
  Lemma exact_round_two : exact (fun s => real_state (st2 s)) ser_round_two de_round_two.
  Proof. intros [s] r H. unfold ser_round_two, de_round_two. rewrite exact_state by exact H. reflexivity. Qed.
  Lemma exact_commitment : exact any ser_commitment de_commitment.
  Proof.
    intros [x P] r _. unfold ser_commitment, de_commitment. cbn [co_secret co_commit]. rewrite <- app_assoc, exact_scalar by exact I.
    cbn [dthen]. rewrite exact_point by exact I. reflexivity.
  Qed.
  Lemma exact_commitment_share : exact any ser_commitment_share de_commitment_share.
  Proof.
    intros [x P] r _. unfold ser_commitment_share, de_commitment_share. cbn [cs_hiding cs_binding]. rewrite <- app_assoc, exact_commitment by exact I.
    cbn [dthen]. rewrite exact_commitment by exact I. reflexivity.
  Qed.
  Lemma exact_secret_list : exact (fun l => fits (sl_commitments l)) ser_secret_list de_secret_list.
  Proof.
    intros [l] r H. unfold ser_secret_list, de_secret_list. cbn [sl_commitments] in *.
    rewrite (exact_vec any _ _ exact_commitment_share); [reflexivity|]. split; [exact H|intros; exact I].
  Qed.
  Lemma exact_points : exact any (ser_pair enc_point enc_point) (de_pair dec_point dec_point).
  Proof. apply (exact_mono (fun p => any (fst p) /\ any (snd p))); [intros; split; exact I|]. apply exact_pair; apply exact_point. Qed.
  Lemma exact_public_list : exact (fun l => fits (pl_commitments l)) ser_public_list de_public_list.
  Proof.
    intros [i l] r H. unfold ser_public_list, de_public_list. cbn [pl_index pl_commitments] in *. rewrite <- app_assoc, exact_u32 by exact I. cbn [dthen].
    rewrite (exact_vec any _ _ exact_points); [reflexivity|]. split; [exact H|intros; exact I].
  Qed.
  Lemma exact_signer : exact any ser_signer de_signer.
  Proof.
    intros [i c] r _. unfold ser_signer, de_signer. cbn [sg_index sg_com]. rewrite <- app_assoc, exact_u32 by exact I. cbn [dthen].
    rewrite exact_points by exact I. reflexivity.
  Qed.
  Lemma exact_part_list : exact real_part_list ser_part_list de_part_list.
  Proof.
    intros [v o] r [H1 H2]. unfold ser_part_list, de_part_list. cbn [pl_valid pl_mis] in *. rewrite <- app_assoc.
    rewrite (exact_vec _ _ _ exact_participant) by exact H1. cbn [dthen].
    rewrite (exact_option _ _ _ (exact_vec any _ _ exact_u32)); [reflexivity|]. intros l E. split; [apply H2, E|intros; exact I].
  Qed.
  Lemma exact_partial_sig : exact any ser_partial_sig de_partial_sig.
  Proof.
    intros [i x] r _. unfold ser_partial_sig, de_partial_sig. cbn [ps_index ps_z]. rewrite <- app_assoc, exact_u32 by exact I.
    cbn [dthen]. rewrite exact_scalar by exact I. reflexivity.
  Qed.
  Lemma exact_threshold_sig : exact any ser_threshold_sig de_threshold_sig.
  Proof.
    intros [R z] r _. unfold ser_threshold_sig, de_threshold_sig. cbn [ts_R ts_z]. rewrite <- app_assoc, exact_point by exact I.
    cbn [dthen]. rewrite exact_scalar by exact I. reflexivity.
  Qed.

  Lemma exact_round_trips {A} (R : A -> Prop) ser d : exact R ser d -> round_trips R ser d.
  Proof.
    intros H v Hv. exists (ser v). split; [reflexivity|]. split.
    - intros junk. unfold from_bytes. rewrite H by exact Hv. reflexivity.
    - intros v' b' j j' Hv' E X. injection E as <-. pose proof (H v j Hv) as E1. rewrite X, H in E1 by exact Hv'.
      injection E1 as -> ->. auto.
  Qed.

  (** ** reachable states are real *)
  Lemma fold_binsert_real {V} (R : V -> Prop) k v (m : bmap V) : real_map R m -> R v -> real_map R (binsert k v m).
  Proof.
    intros [H1 H2] Hv. assert (H3 : ksorted (binsert k v m)) by (apply ksorted_binsert, H1). split; [exact H3|].
    intros k' v' Hin. assert (E : bget k' (binsert k v m) = Some v') by (apply in_bget; [apply increasing_NoDup, H3|exact Hin]).
    rewrite bget_binsert in E. destruct (u32_eqb k' k); [injection E as <-; exact Hv|]. apply bget_in in E. apply (H2 _ _ E).
  Qed.
  Lemma real_map_nil {V} (R : V -> Prop) : real_map R [].
  Proof. split; [constructor|intros ? ? []]. Qed.
  Lemma bremove_real {V} (R : V -> Prop) k (m : bmap V) : real_map R m -> real_map R (bremove k m).
  Proof.
    intros [H1 H2]. split; [apply ksorted_bremove, H1|]. intros k' v Hin. apply filter_In in Hin. apply (H2 k' v), Hin.
  Qed.

  Lemma check_all_real m params fd fs ps : (forall p, In p ps -> real_participant p) -> forall a a', check_all m params fd fs ps a = Ok a' ->
    real_map real_vss (acc_comms a) -> real_map any (acc_dhs a) -> real_map real_vss (acc_comms a') /\ real_map any (acc_dhs a').
  Proof.
    induction ps as [|p ps IH]; intros Hp a a'; cbn [check_all].
    - intros E H1 H2. injection E as <-. auto.
    - destruct (check_one m params fd fs p a) as [b|e|] eqn:E1; cbn [bind]; try discriminate. intros E H1 H2.
      assert (B : real_map real_vss (acc_comms b) /\ real_map any (acc_dhs b)).
      { clear IH E. unfold check_one in E1.
        destruct (is_ok (nizk_verify (pt_dh_proof p) _ _)); [|injection E1 as <-; auto].
        destruct fs.
        - destruct (part_public_key p); [|injection E1 as <-; auto]. destruct (pt_sk_proof p); [|discriminate].
          destruct (is_ok (nizk_verify _ _ _)); [|injection E1 as <-; auto]. destruct (pt_comm p) as [c|] eqn:Ec; [|discriminate].
          destruct (fd && _); injection E1 as <-; [auto|]. cbn [acc_comms acc_dhs]. split.
          + apply fold_binsert_real; [exact H1|]. apply (Hp p (or_introl eq_refl)). exact Ec.
          + apply fold_binsert_real; [exact H2|exact I].
        - destruct (is_debug m && negb fd); [discriminate|]. injection E1 as <-. cbn [acc_comms acc_dhs]. split; [exact H1|].
          apply fold_binsert_real; [exact H2|exact I]. }
      apply (IH (fun q Hq => Hp q (or_intror Hq)) b a' E); apply B.
  Qed.

  (** every ciphertext produced is a vector *)
  Definition cipher_fits : Prop := fits (repeat x00 nonce_len) /\ forall k n x c, aead_enc k n (enc_scalar x) = Some c -> fits c.
  Lemma encrypt_all_real my x co ps : cipher_fits -> forall acc r es r', encrypt_all my x co ps acc r = Ok (es, r') ->
    real_map real_enc acc -> real_map real_enc es.
  Proof.
    intros HC. induction ps as [|p ps IH]; intros acc r es r'; cbn [encrypt_all].
    - intros E H. injection E as <- _. exact H.
    - destruct co as [cs|]; [|discriminate]. destruct (encrypt_share _ _ r) as [[e r1]|er|] eqn:E1; cbn [bind]; try discriminate.
      intros E H. apply (IH _ _ _ _ E). apply fold_binsert_real; [exact H|].
      unfold encrypt_share, gen_nonce in E1. destruct (rand_bytes nonce_len r) as [b r2]. cbv zeta in E1. destruct (aead_enc _ _ _) as [c|] eqn:Ec; [|discriminate].
      injection E1 as <- _. split; cbn [es_nonce es_ct nonce_bytes].
      + unfold fits. pose proof (pad_length nonce_len b) as X. apply Nat.eqb_eq in X. rewrite X. destruct HC as [HC _]. unfold fits in HC. rewrite repeat_length in HC. exact HC.
      + eapply HC, Ec.
  Qed.
  Lemma new_state_real m params x my co ps fd fs r s l r' : cipher_fits -> (forall p, In p ps -> real_participant p) ->
    new_state_internal m params x my co ps fd fs r = Ok (s, l, r') -> real_state (st1 s) /\ ds_shares (st1 s) = None.
  Proof.
    intros HC Hp. unfold new_state_internal. destruct (negb _); [discriminate|].
    destruct (check_all m params fd fs ps _) as [a|e|] eqn:E1; cbn [bind]; try discriminate.
    assert (B : real_map real_vss (acc_comms a) /\ real_map any (acc_dhs a)) by (apply (check_all_real _ _ _ _ _ Hp _ _ E1); apply real_map_nil).
    destruct B as [B1 B2]. destruct (N.ltb _ _); [discriminate|]. destruct (negb fd && fs).
    - destruct (u32_sub _ _ _) as [n'|e|]; cbn [bind]; try discriminate. destruct (params_new _ _ _) as [p'|e|]; cbn [bind]; try discriminate.
      intros E. injection E as <- _ _. split; [|reflexivity]. split; cbn [st1 ds_comms ds_dhs ds_enc ds_shares].
      + intros c Ec. injection Ec as <-. exact B1.
      + exact B2.
      + intros ? ?; discriminate.
      + intros ? ?; discriminate.
    - destruct (encrypt_all my x co ps [] r) as [[es r1]|e|] eqn:E2; cbn [bind]; try discriminate.
      destruct (u32_sub _ _ _) as [n'|e|]; cbn [bind]; try discriminate. destruct (params_new _ _ _) as [p'|e|]; cbn [bind]; try discriminate.
      intros E. injection E as <- _ _. split; [|reflexivity]. split; cbn [st1 ds_comms ds_dhs ds_enc ds_shares].
      + intros c Ec. destruct fs; [|discriminate]. injection Ec as <-. exact B1.
      + exact B2.
      + intros c Ec. injection Ec as <-. apply (encrypt_all_real _ _ _ _ HC _ _ _ _ E2 (real_map_nil _)).
      + intros ? ?; discriminate.
  Qed.
  Lemma round_two_loop_real m st es : forall sh cs r sh' cs' r', round_two_loop m st es sh cs r = Ok (sh', cs', r') ->
    real_map any sh -> real_map any sh'.
  Proof.
    induction es as [|e es IH]; intros sh cs r sh' cs' r'; cbn [round_two_loop].
    - intros E H. injection E as <- _ _. exact H.
    - destruct (is_debug m && _); [discriminate|]. destruct (bget _ _) as [pk|]; [|discriminate]. destruct (ds_comms st) as [comms|]; [|discriminate].
      destruct (find _ comms).
      + destruct (complaint_new _ _ _ _ _) as [c r1]. intros E H. apply (IH _ _ _ _ _ _ E).
        destruct (decrypt_share _ _); try exact H. apply fold_binsert_real; [exact H|exact I].
      + intros E H. apply (IH _ _ _ _ _ _ E).
        destruct (decrypt_share _ _); try exact H. apply fold_binsert_real; [exact H|exact I].
  Qed.
  Lemma to_round_two_real m s es r s' cs r' : real_state (st1 s) -> to_round_two m s es r = Ok (s', cs, r') -> real_state (st2 s').
  Proof.
    intros H. unfold to_round_two. cbv zeta. destruct (N.ltb _ _); [discriminate|].
    destruct (round_two_loop _ _ _ _ _ _) as [[[sh cs1] r1]|e|] eqn:E1; cbn [bind]; try discriminate.
    destruct (u32_sub _ _ _) as [n'|e|]; cbn [bind]; try discriminate. destruct (u32_ltb _ _); [discriminate|].
    intros E. injection E as <- _ _. split; cbn [st2 ds_comms ds_dhs ds_enc ds_shares].
    - apply H.
    - apply H.
    - intros ? ?; discriminate.
    - intros x Ex. injection Ex as <-. apply (round_two_loop_real _ _ _ _ _ _ _ _ _ E1), real_map_nil.
  Qed.
  Lemma remove_all_real l : forall st st', real_state st -> remove_all st l = Ok st' -> real_state st'.
  Proof.
    induction l as [|i l IH]; intros st st' H; cbn [remove_all].
    - intros E. injection E as <-. exact H.
    - unfold remove_malicious. destruct (ds_comms st) as [cs|] eqn:E1; [|discriminate]. destruct (ds_shares st) as [sh|] eqn:E2; [|discriminate].
      cbn [bind]. apply IH. split; cbn [ds_comms ds_dhs ds_enc ds_shares].
      + intros x Ex. injection Ex as <-. apply bremove_real, H. exact E1.
      + apply H.
      + apply H.
      + intros x Ex. injection Ex as <-. apply bremove_real, H. exact E2.
  Qed.
  Lemma blame_real s cs ks s' : real_state (st2 s) -> blame s cs = Ok (ks, s') -> real_state (st2 s').
  Proof.
    intros H. unfold blame. destruct (blame_loop _ _ _) as [p|e|]; cbn [bind]; try discriminate. cbv zeta.
    destruct (remove_all _ _) as [st'|e|] eqn:E; cbn [bind]; try discriminate. intros X. injection X as _ <-. cbn [st2].
    apply (remove_all_real _ _ _ H E).
  Qed.
  Definition real_sess (s : Sess) : Prop := match s with S1 s => real_state (st1 s) | S2 s => real_state (st2 s) end.
  Lemma event_real m s e o s' : real_sess s -> event m s e = Ok (o, s') -> real_sess s'.
  Proof.
    intros H. destruct s as [s|s], e as [es r|cs|]; cbn [event]; try discriminate.
    - destruct (to_round_two m s es r) as [[[s2 cs] r2]|x|] eqn:E; cbn [bind]; try discriminate. intros X. injection X as _ <-. cbn.
      apply (to_round_two_real _ _ _ _ _ _ _ H E).
    - unfold to_bytes. cbn [bind]. destruct (exact_round_trips _ _ _ exact_round_one s H) as (b & E1 & E2 & _). injection E1 as <-.
      specialize (E2 []). rewrite app_nil_r in E2. rewrite E2. cbn [bind]. intros X. injection X as _ <-. exact H.
    - destruct (blame s cs) as [[ks s2]|x|] eqn:E; cbn [bind]; try discriminate. intros X. injection X as _ <-. cbn.
      apply (blame_real _ _ _ _ H E).
    - unfold to_bytes. cbn [bind]. destruct (exact_round_trips _ _ _ exact_round_two s H) as (b & E1 & E2 & _). injection E1 as <-.
      specialize (E2 []). rewrite app_nil_r in E2. rewrite E2. cbn [bind]. intros X. injection X as _ <-. exact H.
  Qed.
  Lemma event_restart m s : real_sess s -> event m s ERestart = Ok (ORestarted, s).
  Proof.
    intros H. destruct s as [s|s]; cbn [event]; unfold to_bytes; cbn [bind].
    - destruct (exact_round_trips _ _ _ exact_round_one s H) as (b & E1 & E2 & _). injection E1 as <-.
      specialize (E2 []). rewrite app_nil_r in E2. rewrite E2. reflexivity.
    - destruct (exact_round_trips _ _ _ exact_round_two s H) as (b & E1 & E2 & _). injection E1 as <-.
      specialize (E2 []). rewrite app_nil_r in E2. rewrite E2. reflexivity.
  Qed.
  Lemma events_restarts m l : forall s, real_sess s ->
    events m s (filter (fun e => negb (is_restart e)) l) =
    (filter (fun o => negb (restarted o)) (fst (events m s l)), snd (events m s l)).
  Proof.
    induction l as [|e l IH]; intros s H; [reflexivity|]. destruct e as [es r|cs|]; cbn [filter is_restart negb].
    - cbn [events]. destruct (event m s (ERoundTwo es r)) as [[o s']|x|] eqn:E; try reflexivity. rewrite IH by (eapply event_real; eassumption).
      destruct (events m s' l) as [os f]. cbn [fst snd filter].
      destruct s as [s|s]; cbn in E; try discriminate. destruct (to_round_two m s es r) as [[[? ?] ?]|?|]; cbn in E; try discriminate. injection E as <- _. reflexivity.
    - cbn [events]. destruct (event m s (EBlame cs)) as [[o s']|x|] eqn:E; try reflexivity. rewrite IH by (eapply event_real; eassumption).
      destruct (events m s' l) as [os f]. cbn [fst snd filter].
      destruct s as [s|s]; cbn [event] in E; try discriminate. destruct (blame s cs) as [[? ?]|?|]; cbn [bind] in E; try discriminate. injection E as <- _. reflexivity.
    - cbn [events]. rewrite event_restart by exact H. rewrite IH by exact H. destruct (events m s l) as [os f]. reflexivity.
  Qed.

  (** ** canonical decoders *)
  Lemma le_bytes_value bs : le_bytes (length bs) (le_value bs) = bs.
  Proof.
    induction bs as [|b bs IH]; [reflexivity|]. cbn [length le_bytes le_value].
    assert (Hb : (Byte.to_N b < 256)%N) by (pose proof (Byte.to_N_bounded b); lia).
    assert (E1 : ((Byte.to_N b + 256 * le_value bs) / 256 = le_value bs)%N).
    { rewrite N.mul_comm, N.div_add by lia. rewrite N.div_small by exact Hb. reflexivity. }
    rewrite E1, IH. f_equal. unfold byte_of_N. rewrite N.mul_comm, N.mod_add by lia. rewrite N.mod_small by exact Hb. rewrite Byte.of_to_N. reflexivity.
  Qed.
  Lemma le_value_bound bs : (le_value bs < 256 ^ N.of_nat (length bs))%N.
  Proof.
    induction bs as [|b bs IH]; [cbn; lia|]. cbn [length le_value]. rewrite Nat2N.inj_succ, N.pow_succ_r'.
    assert (Hb : (Byte.to_N b < 256)%N) by (pose proof (Byte.to_N_bounded b); lia). lia.
  Qed.
  Lemma de_uint_inv k bs n r : de_uint k bs = Some (n, r) -> bs = le_bytes k n ++ r /\ (n < 256 ^ N.of_nat k)%N.
  Proof.
    unfold de_uint. destruct (Nat.ltb_spec (length bs) k) as [|H]; [discriminate|]. intros E. injection E as <- <-.
    assert (E : length (firstn k bs) = k) by (rewrite firstn_length; lia). split.
    - pose proof (le_bytes_value (firstn k bs)) as X. rewrite E in X. rewrite X. symmetry. apply firstn_skipn.
    - pose proof (le_value_bound (firstn k bs)) as X. rewrite E in X. exact X.
  Qed.
  Lemma can_u32 : canonical u32_le de_u32.
  Proof.
    intros bs i r. unfold de_u32. destruct (de_uint 4 bs) as [[n r']|] eqn:E; cbn [dthen]; [|discriminate]. intros X. injection X as <- <-.
    apply de_uint_inv in E. destruct E as [-> H]. unfold u32_le. rewrite u32_of_N_small; [reflexivity|exact H].
  Qed.
  Lemma can_byte : canonical (fun b => [b]) de_u8.
  Proof. intros [|b bs] v r; cbn; [discriminate|]. intros E. injection E as -> ->. reflexivity. Qed.
  Lemma can_many {A} (ser : A -> list byte) d : canonical ser d -> forall k bs l r, de_many d k bs = Some (l, r) ->
    length l = k /\ bs = concat (map ser l) ++ r.
  Proof.
    intros H. induction k as [|k IH]; intros bs l r; cbn [de_many].
    - intros E. injection E as <- <-. split; reflexivity.
    - destruct (d bs) as [[a r1]|] eqn:E1; cbn [dthen]; [|discriminate]. destruct (de_many d k r1) as [[l2 r2]|] eqn:E2; cbn [dthen]; [|discriminate].
      intros E. injection E as <- <-. apply H in E1. apply IH in E2. destruct E2 as [E2 ->]. subst bs. split; [cbn; congruence|].
      cbn [map concat]. rewrite <- app_assoc. reflexivity.
  Qed.
  Lemma can_vec {A} (ser : A -> list byte) d : canonical ser d -> canonical (ser_vec ser) (de_vec d).
  Proof.
    intros H bs l r. unfold de_vec, de_u64. destruct (de_uint 8 bs) as [[n r1]|] eqn:E1; cbn [dthen]; [|discriminate]. intros E2.
    apply (can_many ser) in E2; [|exact H]. destruct E2 as [E2 ->]. apply de_uint_inv in E1. destruct E1 as [-> _].
    unfold ser_vec. rewrite E2, N2Nat.id, <- app_assoc. reflexivity.
  Qed.
  Lemma can_option {A} (ser : A -> list byte) d : canonical ser d -> canonical (ser_option ser) (de_option d).
  Proof.
    intros H bs o r. unfold de_option. destruct bs as [|b bs]; cbn [de_u8 dthen]; [discriminate|].
    destruct b; try discriminate.
    - intros E. injection E as <- <-. reflexivity.
    - destruct (d bs) as [[a r1]|] eqn:E1; cbn [dthen]; [|discriminate]. intros E. injection E as <- <-. apply H in E1. subst bs. reflexivity.
  Qed.
  Lemma can_pair {A B} (f : A -> list byte) d (g : B -> list byte) e : canonical f d -> canonical g e -> canonical (ser_pair f g) (de_pair d e).
  Proof.
    intros H1 H2 bs [a b] r. unfold de_pair. destruct (d bs) as [[a' r1]|] eqn:E1; cbn [dthen]; [|discriminate].
    destruct (e r1) as [[b' r2]|] eqn:E2; cbn [dthen]; [|discriminate]. intros E. injection E as <- <- <-. apply H1 in E1. apply H2 in E2. subst.
    unfold ser_pair. cbn [fst snd]. rewrite <- app_assoc. reflexivity.
  Qed.
  Lemma can_bytes : canonical enc_bytes (de_vec de_u8).
  Proof.
    intros bs l r H. apply (can_vec _ _ can_byte) in H. rewrite H. unfold ser_vec, enc_bytes. f_equal. f_equal.
    clear. induction l as [|b l IH]; [reflexivity|]. cbn. f_equal. exact IH.
  Qed.
End LemmasCodec.

(** canonical decoders of scalars and points make the composite ones canonical (maps excepted) *)
Section Canonical.
  Context {S : Suite} (Hs : canonical enc_scalar dec_scalar) (Hp : canonical enc_point dec_point).
  Ltac can := repeat match goal with
    | |- context [dthen ?e _] => let E := fresh "E" in let v := fresh "v" in let q := fresh "q" in
        destruct e as [[v q]|] eqn:E; cbn [dthen]; [|discriminate]
    end; intros X; inversion X; subst; clear X.
  Ltac fin := rewrite <- ?app_assoc; reflexivity.
  Lemma can_params : canonical ser_params de_params.
  Proof. intros bs v r. unfold de_params. can. apply can_u32 in E, E0. subst. unfold ser_params. cbn [p_n p_t]. fin. Qed.
  Lemma can_verifying_key : canonical ser_verifying_key de_verifying_key.
  Proof. intros bs v r. unfold de_verifying_key. can. apply can_u32 in E. apply Hp in E0. subst. unfold ser_verifying_key. cbn [vk_index vk_share]. fin. Qed.
  Lemma can_signing_key : canonical ser_signing_key de_signing_key.
  Proof. intros bs v r. unfold de_signing_key. can. apply can_u32 in E. apply Hs in E0. subst. unfold ser_signing_key. cbn [sk_index sk_key]. fin. Qed.
  Lemma can_share : canonical ser_share de_share.
  Proof. intros bs v r. unfold de_share. can. apply can_u32 in E, E0. apply Hs in E1. subst. unfold ser_share. cbn [sh_sender sh_receiver sh_value]. fin. Qed.
  Lemma can_encshare : canonical ser_encshare de_encshare.
  Proof.
    intros bs v r. unfold de_encshare.
    destruct (de_u32 bs) as [[i r1]|] eqn:E1; cbn [dthen]; [|discriminate].
    destruct (de_u32 r1) as [[j r2]|] eqn:E2; cbn [dthen]; [|discriminate].
    destruct (de_vec de_u8 r2) as [[nv r3]|] eqn:E3; cbn [dthen]; [|discriminate].
    destruct (nonce_of nv) as [n|] eqn:E4; [|discriminate].
    destruct (de_vec de_u8 r3) as [[c r4]|] eqn:E5; cbn [dthen]; [|discriminate]. intros X. injection X as <- <-.
    apply can_u32 in E1, E2. apply can_bytes in E3, E5. apply nonce_of_inv in E4. subst.
    unfold ser_encshare. cbn [es_sender es_receiver es_nonce es_ct]. fin.
  Qed.
  Lemma can_vss : canonical ser_vss de_vss.
  Proof. intros bs v r. unfold de_vss. can. apply can_u32 in E. apply (can_vec _ _ Hp) in E0. subst. unfold ser_vss. cbn [vss_index vss_points]. fin. Qed.
  Lemma can_nizk : canonical ser_nizk de_nizk.
  Proof. intros bs v r. unfold de_nizk. can. apply Hs in E, E0. subst. unfold ser_nizk. cbn [nz_s nz_r]. fin. Qed.
  Lemma can_complaint_proof : canonical ser_complaint_proof de_complaint_proof.
  Proof. intros bs v r. unfold de_complaint_proof. can. apply Hp in E, E0. apply Hs in E1. subst. unfold ser_complaint_proof. cbn [cp_a1 cp_a2 cp_z]. fin. Qed.
  Lemma can_complaint : canonical ser_complaint de_complaint.
  Proof.
    intros bs v r. unfold de_complaint. can. apply Hp in E, E0. apply can_encshare in E1. apply can_complaint_proof in E2. subst.
    unfold ser_complaint. cbn [c_shared c_pk c_share c_proof]. fin.
  Qed.
  Lemma can_participant : canonical ser_participant de_participant.
  Proof.
    intros bs v r. unfold de_participant. can. apply can_u32 in E. apply Hp in E0. apply (can_option _ _ can_vss) in E1.
    apply (can_option _ _ can_nizk) in E2. apply can_nizk in E3. subst. unfold ser_participant.
    cbn [pt_index pt_dh_pk pt_comm pt_sk_proof pt_dh_proof]. fin.
  Qed.
  Lemma can_part_list : canonical ser_part_list de_part_list.
  Proof.
    intros bs v r. unfold de_part_list. can. apply (can_vec _ _ can_participant) in E. apply (can_option _ _ (can_vec _ _ can_u32)) in E0. subst.
    unfold ser_part_list. cbn [pl_valid pl_mis]. fin.
  Qed.
  Lemma can_commitment : canonical ser_commitment de_commitment.
  Proof. intros bs v r. unfold de_commitment. can. apply Hs in E. apply Hp in E0. subst. unfold ser_commitment. cbn [co_secret co_commit]. fin. Qed.
  Lemma can_commitment_share : canonical ser_commitment_share de_commitment_share.
  Proof. intros bs v r. unfold de_commitment_share. can. apply can_commitment in E, E0. subst. unfold ser_commitment_share. cbn [cs_hiding cs_binding]. fin. Qed.
  Lemma can_secret_list : canonical ser_secret_list de_secret_list.
  Proof. intros bs v r. unfold de_secret_list. can. apply (can_vec _ _ can_commitment_share) in E. subst. reflexivity. Qed.
  Lemma can_public_list : canonical ser_public_list de_public_list.
  Proof. intros bs v r. unfold de_public_list. can. apply can_u32 in E. apply (can_vec _ _ (can_pair _ _ _ _ Hp Hp)) in E0. subst. unfold ser_public_list. cbn [pl_index pl_commitments]. fin. Qed.
  Lemma can_signer : canonical ser_signer de_signer.
  Proof. intros bs v r. unfold de_signer. can. apply can_u32 in E. apply (can_pair _ _ _ _ Hp Hp) in E0. subst. unfold ser_signer. cbn [sg_index sg_com]. fin. Qed.
  Lemma can_partial_sig : canonical ser_partial_sig de_partial_sig.
  Proof. intros bs v r. unfold de_partial_sig. can. apply can_u32 in E. apply Hs in E0. subst. unfold ser_partial_sig. cbn [ps_index ps_z]. fin. Qed.
  Lemma can_threshold_sig : canonical ser_threshold_sig de_threshold_sig.
  Proof. intros bs v r. unfold de_threshold_sig. can. apply Hp in E. apply Hs in E0. subst. unfold ser_threshold_sig. cbn [ts_R ts_z]. fin. Qed.
End Canonical.
