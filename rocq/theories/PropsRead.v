(** Property C138: what reading bytes from a stranger can cost. *)
From Coq Require Import String Strings.Byte Arith NArith ZArith Bool List Lia.
From Verif Require Import Base Suite Spec SpecDkg SpecSign SpecCodec Types ModelDkg ModelSign ModelCodec ModelCompare ModelAlloc ModelRead Algebra BaseLemmas LemmasShare
  LemmasCodec Toy Demo DemoDkg DemoSign PropsShare PropsCodec PropsCompare PropsVolume PropsAlloc.
Import ListNotations.

(** ** specification *)
Section Vocabulary.
  Context {S : Suite}.
  (** scalars and points are written to and read from s resp. p bytes *)
  Definition whole (s p : nat) : Prop :=
    (forall x, length (enc_scalar x) = s) /\ (forall P, length (enc_point P) = p) /\
    (forall b x r, dec_scalar b = Some (x, r) -> length b = s + length r) /\
    (forall b P r, dec_point b = Some (P, r) -> length b = p + length r).
  (** what is read back takes exactly as many bytes as were consumed *)
  Definition spends {A} (ser : A -> list byte) (d : decoder A) : Prop :=
    forall b v r, d b = Some (v, r) -> length (ser v) + length r = length b.
  (** at most *)
  Definition frugal {A} (ser : A -> list byte) (d : decoder A) : Prop :=
    forall b v r, d b = Some (v, r) -> length (ser v) + length r <= length b.
  (** k bytes suffice to stop the process, whatever is appended *)
  Definition stoppable {A} (k : nat) (rd : reader A) : Prop :=
    exists b, length b = k /\ forall more, r_from_bytes rd (b ++ more) = Panic.
  (** fewer bytes never do *)
  Definition needs {A} (k : nat) (rd : reader A) : Prop := forall b, r_from_bytes rd b = Panic -> k <= length b.
  (** either the process stops or the call answers as the reader without reservations; an input that is accepted by that one is
      accepted if there is room for as many elements as the input has bytes *)
  Definition faithful (roomy : Memory -> nat -> Prop) (mem : Memory) {A} (rd : reader A) (d : decoder A) : Prop := forall b,
    (r_from_bytes rd b = Panic \/ r_from_bytes rd b = from_bytes d b) /\
    (roomy mem (length b) -> forall v, from_bytes d b = Ok v -> r_from_bytes rd b = Ok v).
  (** k bytes are enough and fewer are not *)
  Definition stops_at {A} (k : nat) (rd : reader A) : Prop := stoppable k rd /\ needs k rd.
  (** with this much memory a vector of n elements of this size can be held *)
  Definition roomy (mem : Memory) (n : nat) : Prop :=
    (N.of_nat n * 1 <= mem_max mem /\ N.of_nat n * 4 <= mem_max mem /\ N.of_nat n * size_part mem <= mem_max mem /\
     N.of_nat n * size_scalar mem <= mem_max mem /\ N.of_nat n * size_point mem <= mem_max mem /\
     N.of_nat n * size_share mem <= mem_max mem /\ N.of_nat n * size_pair mem <= mem_max mem)%N.
  (** no vector of 2^64 - 1 elements fits *)
  Definition finite (mem : Memory) : Prop :=
    (mem_max mem < 18446744073709551615 /\ 0 < size_part mem /\ 0 < size_scalar mem /\ 0 < size_point mem /\ 0 < size_share mem /\
     0 < size_pair mem)%N.
End Vocabulary.

(** ** lengths *)
Section Spend.
  Context {S : Suite} {L : SuiteLaws S} (s p : nat) (W : whole s p).

  Lemma dthen_inv {A B} (x : option (A * list byte)) (f : A -> list byte -> option (B * list byte)) y :
    dthen x f = Some y -> exists a r, x = Some (a, r) /\ f a r = Some y.
  Proof. destruct x as [[a r]|]; cbn; [|discriminate]. eauto. Qed.
  Lemma spends_frugal {A} ser (d : decoder A) : spends ser d -> frugal ser d.
  Proof. intros H b v r E. rewrite <- (H _ _ _ E). apply le_n. Qed.
  Lemma sp_uint k b n r : de_uint k b = Some (n, r) -> k + length r = length b.
  Proof.
    unfold de_uint. destruct (Nat.ltb_spec (length b) k) as [H|H]; [discriminate|]. intros E.
    assert (r = skipn k b) as -> by congruence. rewrite skipn_length. lia.
  Qed.
  Lemma sp_u32 : spends u32_le de_u32.
  Proof.
    intros b v r E. apply dthen_inv in E as (n & r1 & E & X). apply sp_uint in E. injection X as _ <-. rewrite u32_len. exact E.
  Qed.
  Lemma sp_u8 : spends (fun b => [b]) de_u8.
  Proof. intros [|x b] v r; cbn; [discriminate|]. intros E. injection E as _ <-. reflexivity. Qed.
  Lemma sp_scalar : spends enc_scalar dec_scalar.
  Proof. intros b v r E. destruct W as (W1 & _ & W3 & _). rewrite W1, (W3 _ _ _ E). reflexivity. Qed.
  Lemma sp_point : spends enc_point dec_point.
  Proof. intros b v r E. destruct W as (_ & W2 & _ & W4). rewrite W2, (W4 _ _ _ E). reflexivity. Qed.
  Lemma fr_option {A} ser (d : decoder A) : frugal ser d -> frugal (ser_option ser) (de_option d).
  Proof.
    intros H b v r E. apply dthen_inv in E as (x & r1 & E & X). apply sp_u8 in E. cbn [length] in E.
    destruct x; try discriminate.
    - injection X as <- <-. cbn [ser_option length]. lia.
    - apply dthen_inv in X as (a & r2 & X & Y). apply H in X. injection Y as <- <-. cbn [ser_option length]. lia.
  Qed.
  Lemma sp_option {A} ser (d : decoder A) : spends ser d -> spends (ser_option ser) (de_option d).
  Proof.
    intros H b v r E. apply dthen_inv in E as (x & r1 & E & X). apply sp_u8 in E. cbn [length] in E.
    destruct x; try discriminate.
    - injection X as <- <-. cbn [ser_option length]. lia.
    - apply dthen_inv in X as (a & r2 & X & Y). apply H in X. injection Y as <- <-. cbn [ser_option length]. lia.
  Qed.
  Lemma sp_many {A} ser (d : decoder A) : spends ser d -> forall k b l r, de_many d k b = Some (l, r) ->
    length l = k /\ length (concat (map ser l)) + length r = length b.
  Proof.
    intros H. induction k as [|k IH]; intros b l r; cbn [de_many].
    - intros E. injection E as <- <-. split; reflexivity.
    - intros E. apply dthen_inv in E as (a & r1 & E & X). apply H in E. apply dthen_inv in X as (l1 & r2 & X & Y). apply IH in X.
      injection Y as <- <-. cbn [length map concat]. rewrite app_length. split; lia.
  Qed.
  Lemma fr_many {A} ser (d : decoder A) : frugal ser d -> forall k b l r, de_many d k b = Some (l, r) ->
    length l = k /\ length (concat (map ser l)) + length r <= length b.
  Proof.
    intros H. induction k as [|k IH]; intros b l r; cbn [de_many].
    - intros E. injection E as <- <-. split; [reflexivity|apply le_n].
    - intros E. apply dthen_inv in E as (a & r1 & E & X). apply H in E. apply dthen_inv in X as (l1 & r2 & X & Y). apply IH in X.
      injection Y as <- <-. cbn [length map concat]. rewrite app_length. split; lia.
  Qed.
  Lemma sp_vec {A} ser (d : decoder A) : spends ser d -> spends (ser_vec ser) (de_vec d).
  Proof.
    intros H b v r E. apply dthen_inv in E as (n & r1 & E & X). apply sp_uint in E. apply (sp_many ser _ H) in X as [_ X].
    unfold ser_vec. rewrite app_length, le_len. lia.
  Qed.
  Lemma fr_vec {A} ser (d : decoder A) : frugal ser d -> frugal (ser_vec ser) (de_vec d).
  Proof.
    intros H b v r E. apply dthen_inv in E as (n & r1 & E & X). apply sp_uint in E. apply (fr_many ser _ H) in X as [_ X].
    unfold ser_vec. rewrite app_length, le_len. lia.
  Qed.
  Lemma sp_pair {A B} f g (d : decoder A) (e : decoder B) : spends f d -> spends g e -> spends (ser_pair f g) (de_pair d e).
  Proof.
    intros H1 H2 b v r E. apply dthen_inv in E as (x & r1 & E & X). apply H1 in E. apply dthen_inv in X as (y & r2 & X & Y). apply H2 in X.
    injection Y as <- <-. unfold ser_pair. cbn [fst snd]. rewrite app_length. lia.
  Qed.
  Lemma fr_pair {A B} f g (d : decoder A) (e : decoder B) : frugal f d -> frugal g e -> frugal (ser_pair f g) (de_pair d e).
  Proof.
    intros H1 H2 b v r E. apply dthen_inv in E as (x & r1 & E & X). apply H1 in E. apply dthen_inv in X as (y & r2 & X & Y). apply H2 in X.
    injection Y as <- <-. unfold ser_pair. cbn [fst snd]. rewrite app_length. lia.
  Qed.
  Lemma binsert_size {V} (f : V -> list byte) k v (m : bmap V) :
    length (concat (map (ser_pair u32_le f) (binsert k v m))) <= length (concat (map (ser_pair u32_le f) m)) + length (ser_pair u32_le f (k, v)).
  Proof.
    induction m as [|[k0 v0] m IH]; [cbn [binsert map concat]; rewrite !app_length; cbn [length]; lia|].
    cbn [binsert]. destruct (u32_ltb k k0); [|destruct (u32_eqb k k0)]; cbn [map concat]; rewrite !app_length; cbn [length] in *; try lia.
  Qed.
  Lemma fold_size {V} (f : V -> list byte) (l : list (u32 * V)) : forall m : bmap V,
    length (concat (map (ser_pair u32_le f) (fold_left (fun m kv => binsert (fst kv) (snd kv) m) l m))) <=
    length (concat (map (ser_pair u32_le f) m)) + length (concat (map (ser_pair u32_le f) l)).
  Proof.
    induction l as [|[k v] l IH]; intros m; cbn [fold_left map concat fst snd]; [cbn [length]; lia|]. eapply Nat.le_trans; [apply IH|].
    pose proof (binsert_size f k v m). rewrite app_length. lia.
  Qed.
  Lemma fr_map {V} f (d : decoder V) : frugal f d -> frugal (ser_map f) (de_map d).
  Proof.
    intros H b v r E. apply dthen_inv in E as (l & r1 & E & X). injection X as <- <-.
    apply (fr_vec _ _ (fr_pair _ _ _ _ (spends_frugal _ _ sp_u32) H)) in E. unfold ser_map, ser_vec in *. rewrite app_length, le_len in *.
    pose proof (fold_size f l []). cbn [map concat length] in *. lia.
  Qed.
End Spend.

Ltac spend_one W :=
  match goal with
  | H : de_u32 _ = Some _ |- _ => apply sp_u32 in H
  | H : dec_scalar _ = Some _ |- _ => apply (sp_scalar _ _ W) in H
  | H : dec_point _ = Some _ |- _ => apply (sp_point _ _ W) in H
  | H : dthen _ _ = Some _ |- _ => apply dthen_inv in H as (? & ? & ? & H)
  end.
Ltac spend W := let b := fresh "b" in let v := fresh "v" in let r := fresh "r" in let E := fresh "E" in
  intros b v r E; apply dthen_inv in E as (? & ? & ? & E); repeat spend_one W.

Section Types.
  Context {S : Suite} {L : SuiteLaws S} (s p : nat) (W : whole s p).
  Lemma sp_params : spends ser_params de_params.
  Proof. spend W. injection E as <- <-. unfold ser_params. cbn [p_n p_t]. rewrite app_length. lia. Qed.
  Lemma sp_verifying_key : spends ser_verifying_key de_verifying_key.
  Proof. spend W. injection E as <- <-. unfold ser_verifying_key. cbn [vk_index vk_share]. rewrite app_length. lia. Qed.
  Lemma sp_signing_key : spends ser_signing_key de_signing_key.
  Proof. spend W. injection E as <- <-. unfold ser_signing_key. cbn [sk_index sk_key]. rewrite app_length. lia. Qed.
  Lemma sp_coefficients : spends ser_coefficients de_coefficients.
  Proof. apply sp_vec, (sp_scalar s p W). Qed.
  Lemma sp_share : spends ser_share de_share.
  Proof. spend W. injection E as <- <-. unfold ser_share. cbn [sh_sender sh_receiver sh_value]. rewrite !app_length. lia. Qed.
  Lemma sp_bytes b v r : de_vec de_u8 b = Some (v, r) -> length (enc_bytes v) + length r = length b.
  Proof.
    intros E. apply (sp_vec _ _ sp_u8) in E. unfold ser_vec, enc_bytes in *. rewrite app_length, le_len in *.
    assert (K : forall l : list byte, length (concat (map (fun b => [b]) l)) = length l) by (induction l as [|x l IH]; cbn; auto). rewrite K in E. exact E.
  Qed.
  Lemma sp_encshare : spends ser_encshare de_encshare.
  Proof.
    spend W. match goal with H : de_vec de_u8 _ = _ |- _ => apply sp_bytes in H end.
    destruct (nonce_of _) as [n|] eqn:N; [|discriminate]. apply nonce_of_inv in N. repeat spend_one W.
    match goal with H : de_vec de_u8 _ = _ |- _ => apply sp_bytes in H end. injection E as <- <-. unfold ser_encshare. cbn [es_sender es_receiver es_nonce es_ct].
    rewrite !app_length, N. lia.
  Qed.
  Lemma sp_vss : spends ser_vss de_vss.
  Proof.
    spend W. match goal with H : de_vec dec_point _ = _ |- _ => apply (sp_vec _ _ (sp_point s p W)) in H end. injection E as <- <-.
    unfold ser_vss. cbn [vss_index vss_points]. rewrite !app_length. lia.
  Qed.
  Lemma sp_nizk : spends ser_nizk de_nizk.
  Proof. spend W. injection E as <- <-. unfold ser_nizk. cbn [nz_s nz_r]. rewrite app_length. lia. Qed.
  Lemma sp_complaint_proof : spends ser_complaint_proof de_complaint_proof.
  Proof. spend W. injection E as <- <-. unfold ser_complaint_proof. cbn [cp_a1 cp_a2 cp_z]. rewrite !app_length. lia. Qed.
  Lemma sp_complaint : spends ser_complaint de_complaint.
  Proof.
    spend W. match goal with H : de_encshare _ = _ |- _ => apply sp_encshare in H end.
    match goal with H : de_complaint_proof _ = _ |- _ => apply sp_complaint_proof in H end.
    injection E as <- <-. unfold ser_complaint. cbn [c_shared c_pk c_share c_proof]. rewrite !app_length. lia.
  Qed.
  Lemma sp_participant : spends ser_participant de_participant.
  Proof.
    spend W. match goal with H : de_option de_vss _ = _ |- _ => apply (sp_option _ _ sp_vss) in H end.
    match goal with H : de_option de_nizk _ = _ |- _ => apply (sp_option _ _ sp_nizk) in H end.
    match goal with H : de_nizk _ = _ |- _ => apply sp_nizk in H end.
    injection E as <- <-. unfold ser_participant. cbn [pt_index pt_dh_pk pt_comm pt_sk_proof pt_dh_proof]. rewrite !app_length. lia.
  Qed.
  Lemma fr_state : frugal ser_state de_state.
  Proof.
    spend W. match goal with H : de_params _ = _ |- _ => apply sp_params in H end.
    match goal with H : de_option (de_map de_vss) _ = _ |- _ => apply (fr_option _ _ (fr_map _ _ (spends_frugal _ _ sp_vss))) in H end.
    match goal with H : de_map dec_point _ = _ |- _ => apply (fr_map _ _ (spends_frugal _ _ (sp_point s p W))) in H end.
    match goal with H : de_option (de_map de_encshare) _ = _ |- _ => apply (fr_option _ _ (fr_map _ _ (spends_frugal _ _ sp_encshare))) in H end.
    match goal with H : de_option (de_map de_share) _ = _ |- _ => apply (fr_option _ _ (fr_map _ _ (spends_frugal _ _ sp_share))) in H end.
    injection E as <- <-. unfold ser_state. cbn [ds_params ds_index ds_dh_sk ds_dh_pk ds_comms ds_dhs ds_enc ds_shares]. rewrite !app_length. lia.
  Qed.
  Lemma sp_commitment : spends ser_commitment de_commitment.
  Proof. spend W. injection E as <- <-. unfold ser_commitment. cbn [co_secret co_commit]. rewrite app_length. lia. Qed.
  Lemma sp_commitment_share : spends ser_commitment_share de_commitment_share.
  Proof.
    spend W. repeat match goal with H : de_commitment _ = _ |- _ => apply sp_commitment in H end. injection E as <- <-.
    unfold ser_commitment_share. cbn [cs_hiding cs_binding]. rewrite app_length. lia.
  Qed.
  Lemma sp_secret_list : spends ser_secret_list de_secret_list.
  Proof. spend W. injection E as <- <-. match goal with H : de_vec _ _ = _ |- _ => apply (sp_vec _ _ sp_commitment_share) in H; exact H end. Qed.
  Lemma sp_points : spends (ser_pair enc_point enc_point) (de_pair dec_point dec_point).
  Proof. apply sp_pair; apply (sp_point s p W). Qed.
  Lemma sp_public_list : spends ser_public_list de_public_list.
  Proof.
    spend W. match goal with H : de_vec _ _ = _ |- _ => apply (sp_vec _ _ sp_points) in H end. injection E as <- <-.
    unfold ser_public_list. cbn [pl_index pl_commitments]. rewrite app_length. lia.
  Qed.
  Lemma sp_signer : spends ser_signer de_signer.
  Proof.
    spend W. match goal with H : de_pair _ _ _ = _ |- _ => apply sp_points in H end. injection E as <- <-.
    unfold ser_signer. cbn [sg_index sg_com]. rewrite app_length. lia.
  Qed.
  Lemma sp_part_list : spends ser_part_list de_part_list.
  Proof.
    spend W. match goal with H : de_vec _ _ = _ |- _ => apply (sp_vec _ _ sp_participant) in H end.
    match goal with H : de_option _ _ = _ |- _ => apply (sp_option _ _ (sp_vec _ _ sp_u32)) in H end. injection E as <- <-.
    unfold ser_part_list. cbn [pl_valid pl_mis]. rewrite app_length. lia.
  Qed.
  Lemma sp_partial_sig : spends ser_partial_sig de_partial_sig.
  Proof. spend W. injection E as <- <-. unfold ser_partial_sig. cbn [ps_index ps_z]. rewrite app_length. lia. Qed.
  Lemma sp_threshold_sig : spends ser_threshold_sig de_threshold_sig.
  Proof. spend W. injection E as <- <-. unfold ser_threshold_sig. cbn [ts_R ts_z]. rewrite app_length. lia. Qed.
End Types.

(** ** the two readers *)
Section Near.
  Context {S : Suite} {L : SuiteLaws S} (mem : Memory) (s p : nat) (W : whole s p) (s1 : 0 < s) (p1 : 0 < p).

  Definition of_opt {A} (o : option (A * list byte)) : reading A := match o with Some (a, r) => Read a r | None => Failed end.
  Definition near {A} (n : nat) (x : reading A) (o : option (A * list byte)) : Prop :=
    x = of_opt o \/ (x = Stopped /\ (roomy mem n -> o = None)).
  Definition near_all {A} (rd : reader A) (d : decoder A) : Prop := forall n b, length b <= n -> near n (rd b) (d b).
  Lemma near_plain {A} (d : decoder A) : near_all (plain d) d.
  Proof. intros n b _. left. reflexivity. Qed.
  Lemma near_then {A B} n (x : reading A) o (f : A -> reader B) g : near n x o ->
    (forall a r, o = Some (a, r) -> near n (f a r) (g a r)) -> near n (rthen x f) (dthen o g).
  Proof.
    intros [->|[-> H]] K.
    - destruct o as [[a r]|]; cbn [of_opt rthen dthen]; [apply K; reflexivity|left; reflexivity].
    - right. split; [reflexivity|]. intros R. rewrite (H R). reflexivity.
  Qed.
  Lemma near_read {A} n (a : A) r : near n (Read a r) (Some (a, r)).
  Proof. left. reflexivity. Qed.
  Lemma near_fail {A} n : near n (@Failed A) None.
  Proof. left. reflexivity. Qed.
  Lemma near_many {A} ser (rd : reader A) d : near_all rd d -> frugal ser d -> forall k, near_all (r_many rd k) (de_many d k).
  Proof.
    intros H Hs. induction k as [|k IH]; intros n b Hn; cbn [r_many de_many]; [apply near_read|].
    apply near_then; [apply H, Hn|]. intros a r E. apply Hs in E. apply near_then; [apply IH; lia|]. intros l r' _. apply near_read.
  Qed.
  Lemma near_option {A} (rd : reader A) d : near_all rd d -> near_all (r_option rd) (de_option d).
  Proof.
    intros H n b Hn. apply near_then; [apply near_plain, Hn|]. intros x r E. apply sp_u8 in E. cbn [length] in E.
    destruct x; try apply near_fail; [apply near_read|]. apply near_then; [apply H; lia|]. intros a r' _. apply near_read.
  Qed.
  Lemma near_pair {A B} f (rd : reader A) d (re : reader B) e : near_all rd d -> frugal f d -> near_all re e -> near_all (r_pair rd re) (de_pair d e).
  Proof.
    intros H1 Hf H2 n b Hn. apply near_then; [apply H1, Hn|]. intros a r E. apply Hf in E. apply near_then; [apply H2; lia|]. intros c r' _. apply near_read.
  Qed.
  Lemma near_map {V} f (rd : reader V) d : near_all rd d -> frugal f d -> near_all (r_map rd) (de_map d).
  Proof.
    intros H Hf n b Hn.
    assert (A : de_map d b = dthen (de_u64 b) (fun n r => dthen (de_many (de_pair de_u32 d) (N.to_nat n) r)
      (fun l r => Some (fold_left (fun m kv => binsert (fst kv) (snd kv) m) l [], r)))).
    { unfold de_map, de_vec. destruct (de_u64 b) as [[k r]|]; reflexivity. }
    rewrite A. apply near_then; [apply near_plain, Hn|]. intros k r E. apply sp_uint in E. apply near_then; [|intros l r' _; apply near_read].
    apply (near_many (ser_pair u32_le f)); [| |lia].
    - apply (near_pair u32_le); [apply near_plain|apply spends_frugal, sp_u32|exact H].
    - apply fr_pair; [apply spends_frugal, sp_u32|exact Hf].
  Qed.
  Lemma sizes_least {A} (ser : A -> list byte) l : (forall v, 1 <= length (ser v)) -> length l <= length (concat (map ser l)).
  Proof. intros H. induction l as [|a l IH]; cbn [map concat length]; [apply le_n|]. rewrite app_length. pose proof (H a). lia. Qed.
  Lemma near_vec {A} ser size (rd : reader A) d : near_all rd d -> frugal ser d -> (forall v, 1 <= length (ser v)) ->
    (forall n, roomy mem n -> (N.of_nat n * size <= mem_max mem)%N) -> near_all (r_vec (mem_max mem) size rd) (de_vec d).
  Proof.
    intros H Hf H1 Hr n b Hn. apply near_then; [apply near_plain, Hn|]. intros k r E. apply sp_uint in E.
    destruct (N.leb_spec (k * size) (mem_max mem)) as [K|K]; [apply (near_many ser); [exact H|exact Hf|lia]|].
    right. split; [reflexivity|]. intros R. apply Hr in R. destruct (de_many d (N.to_nat k) r) as [[l r']|] eqn:M; [|reflexivity]. exfalso.
    apply (fr_many ser _ Hf) in M as [M1 M2]. pose proof (sizes_least ser l H1).
    assert (J : (k <= N.of_nat n)%N) by lia. assert ((k * size <= N.of_nat n * size)%N) by (apply N.mul_le_mono_r, J). lia.
  Qed.

  Ltac room := let n := fresh in let R := fresh in intros n R; red in R; tauto.
  Lemma near_coefficients : near_all (r_coefficients mem) de_coefficients.
  Proof.
    apply (near_vec enc_scalar); [apply near_plain|apply spends_frugal, (sp_scalar s p W)| |room]. intros v. destruct W as (W1 & _). rewrite W1. exact s1.
  Qed.
  Lemma near_bytes : near_all (r_bytes mem) (de_vec de_u8).
  Proof. apply (near_vec (fun b => [b])); [apply near_plain|apply spends_frugal, sp_u8|intros v; apply le_n|room]. Qed.
  Lemma near_encshare : near_all (r_encshare mem) de_encshare.
  Proof.
    intros n b Hn. apply near_then; [apply near_plain, Hn|]. intros i r E. apply sp_u32 in E. apply near_then; [apply near_plain; lia|].
    intros j r1 E1. apply sp_u32 in E1. apply near_then; [apply near_bytes; lia|]. intros nv r2 E2. apply sp_bytes in E2.
    destruct (nonce_of nv) as [nn|]; [|apply near_fail]. apply near_then; [apply near_bytes; lia|]. intros c r3 _. apply near_read.
  Qed.
  Lemma near_vss : near_all (r_vss mem) de_vss.
  Proof.
    intros n b Hn. apply near_then; [apply near_plain, Hn|]. intros i r E. apply sp_u32 in E. apply near_then; [|intros l r' _; apply near_read].
    apply (near_vec enc_point); [apply near_plain|apply spends_frugal, (sp_point s p W)| |room|lia]. intros v. destruct W as (_ & W2 & _). rewrite W2. exact p1.
  Qed.
  Lemma near_complaint : near_all (r_complaint mem) de_complaint.
  Proof.
    intros n b Hn. apply near_then; [apply near_plain, Hn|]. intros i r E. apply (sp_point s p W) in E. apply near_then; [apply near_plain; lia|].
    intros j r1 E1. apply (sp_point s p W) in E1. apply near_then; [apply near_encshare; lia|]. intros e r2 E2. apply sp_encshare in E2.
    apply near_then; [apply near_plain; lia|]. intros q r3 _. apply near_read.
  Qed.
  Lemma near_participant : near_all (r_participant mem) de_participant.
  Proof.
    intros n b Hn. apply near_then; [apply near_plain, Hn|]. intros i r E. apply sp_u32 in E. apply near_then; [apply near_plain; lia|].
    intros j r1 E1. apply (sp_point s p W) in E1. apply near_then; [apply near_option; [apply near_vss|lia]|]. intros c r2 E2.
    apply (sp_option _ _ (sp_vss s p W)) in E2. apply near_then; [apply near_plain; lia|]. intros q r3 E3.
    apply (sp_option _ _ (sp_nizk s p W)) in E3. apply near_then; [apply near_plain; lia|]. intros q' r4 _. apply near_read.
  Qed.
  Lemma near_part_list : near_all (r_part_list mem) de_part_list.
  Proof.
    intros n b Hn. apply near_then.
    - apply (near_vec ser_participant); [apply near_participant|apply spends_frugal, (sp_participant s p W)| |room|exact Hn].
      intros v. unfold ser_participant. rewrite app_length, u32_len. lia.
    - intros v r E. apply (sp_vec _ _ (sp_participant s p W)) in E. apply near_then; [|intros o r' _; apply near_read]. apply near_option; [|lia].
      apply (near_vec u32_le); [apply near_plain|apply spends_frugal, sp_u32|intros i; rewrite u32_len; lia|room].
  Qed.
  Lemma near_state : near_all (r_state mem) de_state.
  Proof.
    intros n b Hn. apply near_then; [apply near_plain, Hn|]. intros pa r E. apply sp_params in E. apply near_then; [apply near_plain; lia|].
    intros i r1 E1. apply sp_u32 in E1. apply near_then; [apply near_plain; lia|]. intros x r2 E2. apply (sp_scalar s p W) in E2.
    apply near_then; [apply near_plain; lia|]. intros pk r3 E3. apply (sp_point s p W) in E3.
    pose proof (spends_frugal _ _ (sp_vss s p W)) as Fv. pose proof (spends_frugal _ _ sp_encshare) as Fe.
    pose proof (spends_frugal _ _ (sp_point s p W)) as Fp. pose proof (spends_frugal _ _ (sp_share s p W)) as Fs.
    apply near_then; [apply near_option; [apply (near_map _ _ _ near_vss Fv)|lia]|]. intros cs r4 E4. apply (fr_option _ _ (fr_map _ _ Fv)) in E4.
    apply near_then; [apply (near_map _ _ _ (near_plain _) Fp); lia|]. intros dhs r5 E5. apply (fr_map _ _ Fp) in E5.
    apply near_then; [apply near_option; [apply (near_map _ _ _ near_encshare Fe)|lia]|]. intros es r6 E6. apply (fr_option _ _ (fr_map _ _ Fe)) in E6.
    apply near_then; [apply near_option; [apply (near_map _ _ _ (near_plain _) Fs)|lia]|]. intros sh r7 _. apply near_read.
  Qed.
  Lemma near_round_one : near_all (r_round_one mem) de_round_one.
  Proof. intros n b Hn. apply near_then; [apply near_state, Hn|]. intros a r _. apply near_read. Qed.
  Lemma near_round_two : near_all (r_round_two mem) de_round_two.
  Proof. intros n b Hn. apply near_then; [apply near_state, Hn|]. intros a r _. apply near_read. Qed.
  Lemma near_secret_list : near_all (r_secret_list mem) de_secret_list.
  Proof.
    intros n b Hn. apply near_then; [|intros l r' _; apply near_read].
    apply (near_vec ser_commitment_share); [apply near_plain|apply spends_frugal, (sp_commitment_share s p W)| |room|exact Hn].
    intros v. destruct W as (W1 & _). unfold ser_commitment_share, ser_commitment. rewrite !app_length, !W1. lia.
  Qed.
  Lemma near_public_list : near_all (r_public_list mem) de_public_list.
  Proof.
    intros n b Hn. apply near_then; [apply near_plain, Hn|]. intros i r E. apply sp_u32 in E. apply near_then; [|intros l r' _; apply near_read].
    apply (near_vec (ser_pair enc_point enc_point)); [apply near_plain|apply spends_frugal, (sp_points s p W)| |room|lia].
    intros v. destruct W as (_ & W2 & _). unfold ser_pair. rewrite app_length, !W2. lia.
  Qed.

  (** ** the shortest inputs that stop the process *)
  Lemma panic_iff {A} (rd : reader A) b : r_from_bytes rd b = Panic <-> rd b = Stopped.
  Proof. unfold r_from_bytes. destruct (rd b); split; congruence. Qed.
  Lemma rthen_stop {A B} (x : reading A) (f : A -> reader B) : rthen x f = Stopped ->
    x = Stopped \/ exists a r, x = Read a r /\ f a r = Stopped.
  Proof. destruct x as [a r| |]; cbn [rthen]; intros H; [right; eauto|discriminate|left; reflexivity]. Qed.
  Lemma plain_stop {A} (d : decoder A) b : plain d b = Stopped -> False.
  Proof. unfold plain. destruct (d b) as [[a r]|]; discriminate. Qed.
  Lemma plain_read {A} (d : decoder A) b a r : plain d b = Read a r -> d b = Some (a, r).
  Proof. unfold plain. destruct (d b) as [[a' r']|]; congruence. Qed.
  Lemma near_inv {A} (rd : reader A) d b a r : near_all rd d -> rd b = Read a r -> d b = Some (a, r).
  Proof.
    intros H E. destruct (H (length b) b (le_n _)) as [K|[K _]]; [|congruence]. rewrite E in K. destruct (d b) as [[a' r']|]; cbn in K; congruence.
  Qed.
  Definition least {A} (k : nat) (rd : reader A) : Prop := forall b, rd b = Stopped -> k <= length b.
  Lemma least_vec {A} size (rd : reader A) : least 8 (r_vec (mem_max mem) size rd).
  Proof.
    intros b H. apply rthen_stop in H as [H|(n & r & E & _)]; [destruct (plain_stop _ _ H)|]. apply plain_read, sp_uint in E. lia.
  Qed.
  Lemma least_option {A} k (rd : reader A) : least k rd -> least (1 + k) (r_option rd).
  Proof.
    intros K b H. apply rthen_stop in H as [H|(x & r & E & H)]; [destruct (plain_stop _ _ H)|]. apply plain_read, sp_u8 in E. cbn [length] in E.
    destruct x; try discriminate. apply rthen_stop in H as [H|(a & r' & _ & H)]; [|discriminate]. apply K in H. lia.
  Qed.
  Lemma least_many {A} ser d k (rd : reader A) : least k rd -> near_all rd d -> frugal ser d -> forall c, least k (r_many rd c).
  Proof.
    intros K Hn Hf. induction c as [|c IH]; intros b H; cbn [r_many] in H; [discriminate|].
    apply rthen_stop in H as [H|(a & r & E & H)]; [apply K, H|]. apply (near_inv _ _ _ _ _ Hn), Hf in E.
    apply rthen_stop in H as [H|(l & r' & _ & H)]; [|discriminate]. apply IH in H. lia.
  Qed.
  Lemma least_map {V} ser d k (rd : reader V) : least k rd -> near_all rd d -> frugal ser d -> least (12 + k) (r_map rd).
  Proof.
    intros K Hn Hf b H. apply rthen_stop in H as [H|(n & r & E & H)]; [destruct (plain_stop _ _ H)|]. apply plain_read, sp_uint in E.
    apply rthen_stop in H as [H|(l & r' & _ & H)]; [|discriminate].
    apply (least_many (ser_pair u32_le ser) (de_pair de_u32 d) (4 + k)) in H; [lia| | |].
    - intros b' H'. apply rthen_stop in H' as [H'|(i & r1 & E1 & H')]; [destruct (plain_stop _ _ H')|]. apply plain_read, sp_u32 in E1. rewrite u32_len in E1.
      apply rthen_stop in H' as [H'|(v & r2 & _ & H')]; [|discriminate]. apply K in H'. lia.
    - apply (near_pair u32_le); [apply near_plain|apply spends_frugal, sp_u32|exact Hn].
    - apply fr_pair; [apply spends_frugal, sp_u32|exact Hf].
  Qed.
  Lemma map_never {V} (d : decoder V) b : r_map (plain d) b = Stopped -> False.
  Proof.
    intros H. apply rthen_stop in H as [H|(n & r & E & H)]; [exact (plain_stop _ _ H)|]. apply rthen_stop in H as [H|(l & r' & _ & H)]; [|discriminate].
    revert r H E. generalize (N.to_nat n). intros c r H _. revert r H. induction c as [|c IH]; intros r H; cbn [r_many] in H; [discriminate|].
    apply rthen_stop in H as [H|(a & r1 & _ & H)].
    - apply rthen_stop in H as [H|(i & r2 & _ & H)]; [exact (plain_stop _ _ H)|]. apply rthen_stop in H as [H|(v & r3 & _ & H)]; [exact (plain_stop _ _ H)|discriminate].
    - apply rthen_stop in H as [H|(l & r2 & _ & H)]; [exact (IH _ H)|discriminate].
  Qed.
  Lemma option_map_never {V} (d : decoder V) b : r_option (r_map (plain d)) b = Stopped -> False.
  Proof.
    intros H. apply rthen_stop in H as [H|(x & r & E & H)]; [exact (plain_stop _ _ H)|]. destruct x; try discriminate.
    apply rthen_stop in H as [H|(a & r' & _ & H)]; [exact (map_never _ _ H)|discriminate].
  Qed.
  Lemma least_encshare : least 16 (r_encshare mem).
  Proof.
    intros b H. apply rthen_stop in H as [H|(i & r & E & H)]; [destruct (plain_stop _ _ H)|]. apply plain_read, sp_u32 in E. rewrite u32_len in E.
    apply rthen_stop in H as [H|(j & r1 & E1 & H)]; [destruct (plain_stop _ _ H)|]. apply plain_read, sp_u32 in E1. rewrite u32_len in E1.
    apply rthen_stop in H as [H|(nv & r2 & E2 & H)]; [apply least_vec in H; lia|]. apply (near_inv _ _ _ _ _ near_bytes), sp_bytes in E2.
    rewrite bytes_len in E2. unfold vec_size in E2. lia.
  Qed.
  Lemma least_vss : least 12 (r_vss mem).
  Proof.
    intros b H. apply rthen_stop in H as [H|(i & r & E & H)]; [destruct (plain_stop _ _ H)|]. apply plain_read, sp_u32 in E. rewrite u32_len in E.
    apply rthen_stop in H as [H|(l & r2 & _ & H)]; [|discriminate]. apply least_vec in H. lia.
  Qed.
  Lemma least_complaint : least (2 * p + 16) (r_complaint mem).
  Proof.
    destruct W as (_ & W2 & _).
    intros b H. apply rthen_stop in H as [H|(i & r & E & H)]; [destruct (plain_stop _ _ H)|]. apply plain_read, (sp_point s p W) in E. rewrite W2 in E.
    apply rthen_stop in H as [H|(j & r1 & E1 & H)]; [destruct (plain_stop _ _ H)|]. apply plain_read, (sp_point s p W) in E1. rewrite W2 in E1.
    apply rthen_stop in H as [H|(e & r2 & E2 & H)]; [apply least_encshare in H; lia|].
    apply rthen_stop in H as [H|(q & r3 & _ & H)]; [destruct (plain_stop _ _ H)|discriminate].
  Qed.
  Lemma least_participant : least (p + 17) (r_participant mem).
  Proof.
    destruct W as (_ & W2 & _).
    intros b H. apply rthen_stop in H as [H|(i & r & E & H)]; [destruct (plain_stop _ _ H)|]. apply plain_read, sp_u32 in E. rewrite u32_len in E.
    apply rthen_stop in H as [H|(j & r1 & E1 & H)]; [destruct (plain_stop _ _ H)|]. apply plain_read, (sp_point s p W) in E1. rewrite W2 in E1.
    apply rthen_stop in H as [H|(c & r2 & E2 & H)]; [apply (least_option _ _ least_vss) in H; lia|].
    apply rthen_stop in H as [H|(q & r3 & _ & H)]; [destruct (plain_stop _ _ H)|].
    apply rthen_stop in H as [H|(q' & r4 & _ & H)]; [destruct (plain_stop _ _ H)|discriminate].
  Qed.
  Lemma vec_read {A} size (rd : reader A) b l r : r_vec (mem_max mem) size rd b = Read l r -> 8 <= length b.
  Proof.
    unfold r_vec, plain. destruct (de_u64 b) as [[n r1]|] eqn:E; cbn [rthen]; [|discriminate]. intros _. apply sp_uint in E. lia.
  Qed.
  Lemma least_part_list : least 8 (r_part_list mem).
  Proof.
    intros b H. apply rthen_stop in H as [H|(v & r & E & H)]; [apply least_vec in H; exact H|]. apply vec_read in E. exact E.
  Qed.
  Lemma least_state : least (s + p + 37) (r_state mem).
  Proof.
    pose proof W as (W1 & W2 & _). pose proof (spends_frugal _ _ (sp_vss s p W)) as Fv. pose proof (spends_frugal _ _ sp_encshare) as Fe.
    pose proof (spends_frugal _ _ (sp_point s p W)) as Fp.
    intros b H. apply rthen_stop in H as [H|(pa & r & E & H)]; [destruct (plain_stop _ _ H)|]. apply plain_read, sp_params in E.
    unfold ser_params in E. rewrite app_length, !u32_len in E.
    apply rthen_stop in H as [H|(i & r1 & E1 & H)]; [destruct (plain_stop _ _ H)|]. apply plain_read, sp_u32 in E1. rewrite u32_len in E1.
    apply rthen_stop in H as [H|(x & r2 & E2 & H)]; [destruct (plain_stop _ _ H)|]. apply plain_read, (sp_scalar s p W) in E2. rewrite W1 in E2.
    apply rthen_stop in H as [H|(pk & r3 & E3 & H)]; [destruct (plain_stop _ _ H)|]. apply plain_read, (sp_point s p W) in E3. rewrite W2 in E3.
    apply rthen_stop in H as [H|(cs & r4 & E4 & H)].
    { apply (least_option _ _ (least_map _ _ _ _ least_vss near_vss Fv)) in H. lia. }
    apply (near_inv _ _ _ _ _ (near_option _ _ (near_map _ _ _ near_vss Fv))), (fr_option _ _ (fr_map _ _ Fv)) in E4.
    assert (1 <= length (ser_option (ser_map ser_vss) cs)) by (destruct cs; cbn [ser_option length]; lia).
    apply rthen_stop in H as [H|(dhs & r5 & E5 & H)]; [destruct (map_never _ _ H)|].
    apply (near_inv _ _ _ _ _ (near_map _ _ _ (near_plain _) Fp)), (fr_map _ _ Fp) in E5. unfold ser_map, ser_vec in E5. rewrite app_length, le_len in E5.
    apply rthen_stop in H as [H|(es & r6 & E6 & H)].
    { apply (least_option _ _ (least_map _ _ _ _ least_encshare near_encshare Fe)) in H. lia. }
    apply rthen_stop in H as [H|(sh & r7 & E7 & H)]; [destruct (option_map_never _ _ H)|discriminate].
  Qed.
  Lemma least_round_one : least (s + p + 37) (r_round_one mem).
  Proof. intros b H. apply rthen_stop in H as [H|(a & r & _ & H)]; [exact (least_state b H)|discriminate]. Qed.
  Lemma least_round_two : least (s + p + 37) (r_round_two mem).
  Proof. intros b H. apply rthen_stop in H as [H|(a & r & _ & H)]; [exact (least_state b H)|discriminate]. Qed.
  Lemma least_secret_list : least 8 (r_secret_list mem).
  Proof. intros b H. apply rthen_stop in H as [H|(a & r & _ & H)]; [exact (least_vec _ _ b H)|discriminate]. Qed.
  Lemma least_public_list : least 12 (r_public_list mem).
  Proof.
    intros b H. apply rthen_stop in H as [H|(i & r & E & H)]; [destruct (plain_stop _ _ H)|]. apply plain_read, sp_u32 in E. rewrite u32_len in E.
    apply rthen_stop in H as [H|(l & r2 & _ & H)]; [|discriminate]. apply least_vec in H. lia.
  Qed.
  Lemma least_needs {A} k (rd : reader A) : least k rd -> needs k rd.
  Proof. intros H b E. apply H, panic_iff, E. Qed.

  (** a length header of 2^64 - 1 *)
  Definition huge : list byte := le_bytes 8 18446744073709551615.
  Lemma huge_stops {A} size (rd : reader A) more : (mem_max mem < 18446744073709551615)%N -> (0 < size)%N -> r_vec (mem_max mem) size rd (huge ++ more) = Stopped.
  Proof.
    intros H1 H2. unfold r_vec, plain, de_u64, huge. rewrite de_uint_ok by reflexivity. cbn [rthen].
    destruct (N.leb_spec (18446744073709551615 * size) (mem_max mem)); [nia|reflexivity].
  Qed.
  Definition stops {A} (k : nat) (rd : reader A) : Prop := exists b, length b = k /\ forall more, rd (b ++ more) = Stopped.
  Lemma stops_stoppable {A} k (rd : reader A) : stops k rd -> stoppable k rd.
  Proof. intros (b & H1 & H2). exists b. split; [exact H1|]. intros more. apply panic_iff, H2. Qed.
  Lemma plain_exact {A} ser (d : decoder A) v r : exact any ser d -> plain d (ser v ++ r) = Read v r.
  Proof. intros H. unfold plain. rewrite H by exact I. reflexivity. Qed.
  Lemma stops_then {A B} c k ser (d : decoder A) v (f : A -> reader B) : exact any ser d -> length (ser v) = c -> stops k (f v) ->
    stops (c + k) (fun b => rthen (plain d b) f).
  Proof.
    intros H1 H2 (b & H3 & H4). exists (ser v ++ b). split; [rewrite app_length; lia|]. intros more. rewrite <- app_assoc, (plain_exact ser) by exact H1. apply H4.
  Qed.
  Lemma stops_first {A B} k (rd : reader A) (f : A -> reader B) : stops k rd -> stops k (fun b => rthen (rd b) f).
  Proof. intros (b & H1 & H2). exists b. split; [exact H1|]. intros more. rewrite H2. reflexivity. Qed.
  Lemma stops_option {A} k (rd : reader A) : stops k rd -> stops (1 + k) (r_option rd).
  Proof.
    intros (b & H1 & H2). exists (x01 :: b). split; [cbn [length]; lia|]. intros more. unfold r_option, plain. cbn [app de_u8 rthen]. rewrite H2. reflexivity.
  Qed.
  Lemma stops_map {V} k (rd : reader V) : stops k rd -> stops (12 + k) (r_map rd).
  Proof.
    intros (b & H1 & H2). exists (le_bytes 8 1 ++ u32_le u32_zero ++ b). split; [rewrite !app_length, le_len, u32_len; lia|]. intros more.
    unfold r_map. rewrite <- app_assoc. unfold plain at 1, de_u64. rewrite de_uint_ok by reflexivity. cbn [rthen]. change (N.to_nat 1) with 1. cbn [r_many].
    unfold r_pair. rewrite <- app_assoc, (plain_exact u32_le) by exact exact_u32. cbn [rthen]. rewrite H2. reflexivity.
  Qed.
  Context (Fin : finite mem).
  Lemma stops_vec {A} size (rd : reader A) : (0 < size)%N -> stops 8 (r_vec (mem_max mem) size rd).
  Proof. intros H. exists huge. split; [apply le_len|]. intros more. apply huge_stops; [apply Fin|exact H]. Qed.
  Lemma stops_coefficients : stops 8 (r_coefficients mem).
  Proof. apply stops_vec, Fin. Qed.
  Lemma stops_bytes : stops 8 (r_bytes mem).
  Proof. apply stops_vec. reflexivity. Qed.
  Lemma stops_encshare : stops 16 (r_encshare mem).
  Proof.
    apply (stops_then 4 12 u32_le de_u32 u32_zero); [exact exact_u32|apply u32_len|].
    apply (stops_then 4 8 u32_le de_u32 u32_zero); [exact exact_u32|apply u32_len|]. apply stops_first, stops_bytes.
  Qed.
  Lemma stops_vss : stops 12 (r_vss mem).
  Proof. apply (stops_then 4 8 u32_le de_u32 u32_zero); [exact exact_u32|apply u32_len|]. apply stops_first, stops_vec, Fin. Qed.
  Lemma stops_complaint : stops (2 * p + 16) (r_complaint mem).
  Proof.
    destruct W as (_ & W2 & _). replace (2 * p + 16) with (p + (p + 16)) by lia.
    apply (stops_then p (p + 16) enc_point dec_point Gzero); [exact exact_point|apply W2|].
    apply (stops_then p 16 enc_point dec_point Gzero); [exact exact_point|apply W2|]. apply stops_first, stops_encshare.
  Qed.
  Lemma stops_participant : stops (p + 17) (r_participant mem).
  Proof.
    destruct W as (_ & W2 & _). replace (p + 17) with (4 + (p + 13)) by lia.
    apply (stops_then 4 (p + 13) u32_le de_u32 u32_zero); [exact exact_u32|apply u32_len|].
    apply (stops_then p 13 enc_point dec_point Gzero); [exact exact_point|apply W2|]. apply stops_first, (stops_option 12), stops_vss.
  Qed.
  Lemma stops_part_list : stops 8 (r_part_list mem).
  Proof. apply stops_first, stops_vec, Fin. Qed.
  Lemma stops_state : stops (s + p + 37) (r_state mem).
  Proof.
    destruct W as (W1 & W2 & _). replace (s + p + 37) with (8 + (4 + (s + (p + 25)))) by lia.
    apply (stops_then 8 (4 + (s + (p + 25))) ser_params de_params (MkParams u32_zero u32_zero)); [exact exact_params|unfold ser_params; rewrite app_length, !u32_len; reflexivity|].
    apply (stops_then 4 (s + (p + 25)) u32_le de_u32 u32_zero); [exact exact_u32|apply u32_len|].
    apply (stops_then s (p + 25) enc_scalar dec_scalar F0); [exact exact_scalar|apply W1|].
    apply (stops_then p 25 enc_point dec_point Gzero); [exact exact_point|apply W2|].
    apply stops_first, (stops_option 24), (stops_map 12), stops_vss.
  Qed.
  Lemma stops_round_one : stops (s + p + 37) (r_round_one mem).
  Proof. apply stops_first, stops_state. Qed.
  Lemma stops_round_two : stops (s + p + 37) (r_round_two mem).
  Proof. apply stops_first, stops_state. Qed.
  Lemma stops_secret_list : stops 8 (r_secret_list mem).
  Proof. apply stops_first, stops_vec, Fin. Qed.
  Lemma stops_public_list : stops 12 (r_public_list mem).
  Proof. apply (stops_then 4 8 u32_le de_u32 u32_zero); [exact exact_u32|apply u32_len|]. apply stops_first, stops_vec, Fin. Qed.
End Near.

Section Both.
  Context {S : Suite} {L : SuiteLaws S} (mem : Memory).
  Lemma near_faithful {A} (rd : reader A) d : near_all mem rd d -> faithful roomy mem rd d.
  Proof.
    intros H b. unfold r_from_bytes, from_bytes. destruct (H (length b) b (le_n _)) as [->|[-> K]].
    - split; [right; destruct (d b) as [[a r]|]; reflexivity|]. intros _ v. destruct (d b) as [[a r]|]; cbn [of_opt]; congruence.
    - split; [left; reflexivity|]. intros R v. rewrite (K R). discriminate.
  Qed.
  Lemma both_ends {A} k (rd : reader A) : stops k rd -> least k rd -> stops_at k rd.
  Proof. intros H1 H2. split; [apply stops_stoppable, H1|apply least_needs, H2]. Qed.
End Both.

(** ** C138 *)
Theorem C138_no_amplification :
  forall (S : Suite) (L : SuiteLaws S) (s p : nat), whole s p ->
  spends ser_params de_params /\ spends ser_verifying_key de_verifying_key /\ spends ser_signing_key de_signing_key /\
  spends ser_coefficients de_coefficients /\ spends ser_share de_share /\ spends ser_encshare de_encshare /\ spends ser_vss de_vss /\
  spends ser_nizk de_nizk /\ spends ser_complaint_proof de_complaint_proof /\ spends ser_complaint de_complaint /\
  spends ser_participant de_participant /\ spends ser_commitment_share de_commitment_share /\ spends ser_secret_list de_secret_list /\
  spends ser_public_list de_public_list /\ spends ser_signer de_signer /\ spends ser_part_list de_part_list /\
  spends ser_partial_sig de_partial_sig /\ spends ser_threshold_sig de_threshold_sig /\
  frugal ser_round_one de_round_one /\ frugal ser_round_two de_round_two.
Proof.
  intros S L s p W. pose proof (fr_state s p W) as Fs.
  repeat split; eauto using sp_params, sp_verifying_key, sp_signing_key, sp_coefficients, sp_share, sp_encshare, sp_vss, sp_nizk, sp_complaint_proof,
    sp_complaint, sp_participant, sp_commitment_share, sp_secret_list, sp_public_list, sp_signer, sp_part_list, sp_partial_sig, sp_threshold_sig.
  - intros b v r E. apply dthen_inv in E as (st & r1 & E & X). apply Fs in E. injection X as <- <-. exact E.
  - intros b v r E. apply dthen_inv in E as (st & r1 & E & X). apply Fs in E. injection X as <- <-. exact E.
Qed.

Theorem C138_stops_or_answers :
  forall (S : Suite) (L : SuiteLaws S) (mem : Memory) (s p : nat), whole s p -> 0 < s -> 0 < p ->
  faithful roomy mem (r_coefficients mem) de_coefficients /\ faithful roomy mem (r_encshare mem) de_encshare /\
  faithful roomy mem (r_vss mem) de_vss /\ faithful roomy mem (r_complaint mem) de_complaint /\
  faithful roomy mem (r_participant mem) de_participant /\ faithful roomy mem (r_part_list mem) de_part_list /\
  faithful roomy mem (r_round_one mem) de_round_one /\ faithful roomy mem (r_round_two mem) de_round_two /\
  faithful roomy mem (r_secret_list mem) de_secret_list /\ faithful roomy mem (r_public_list mem) de_public_list.
Proof.
  intros S L mem s p W s1 p1.
  repeat apply conj; apply near_faithful;
    [apply (near_coefficients mem s p)|apply (near_encshare mem s p)|apply (near_vss mem s p)|apply (near_complaint mem s p)|apply (near_participant mem s p)
    |apply (near_part_list mem s p)|apply (near_round_one mem s p)|apply (near_round_two mem s p)|apply (near_secret_list mem s p)|apply (near_public_list mem s p)]; assumption.
Qed.

Theorem C138_shortest_input_that_stops :
  forall (S : Suite) (L : SuiteLaws S) (mem : Memory) (s p : nat), whole s p -> 0 < s -> 0 < p -> finite mem ->
  stops_at 8 (r_coefficients mem) /\ stops_at 8 (r_secret_list mem) /\ stops_at 8 (r_part_list mem) /\
  stops_at 12 (r_vss mem) /\ stops_at 12 (r_public_list mem) /\ stops_at 16 (r_encshare mem) /\
  stops_at (p + 17) (r_participant mem) /\ stops_at (2 * p + 16) (r_complaint mem) /\
  stops_at (s + p + 37) (r_round_one mem) /\ stops_at (s + p + 37) (r_round_two mem).
Proof.
  intros S L mem s p W s1 p1 Fin.
  repeat apply conj; try apply (@stops_stoppable S); try apply (@least_needs S);
    eauto using stops_coefficients, stops_secret_list, stops_part_list, stops_vss, stops_public_list, stops_encshare, stops_participant, stops_complaint,
    stops_round_one, stops_round_two, least_secret_list, least_part_list, least_vss, least_public_list, least_encshare, least_participant, least_complaint,
    least_round_one, least_round_two.
  intros b H. exact (least_vec mem s p s1 p1 _ _ b H).
Qed.

(** examples: 16 GB; the messages of the demo fit, and 8 bytes 0xff stop the reader of a coefficient list *)
Example C138_ex_widths : whole (S := Toy) 5 6.
Proof.
  destruct toy_widths as (W1 & W2 & _).
  assert (K : forall b (x : Fp) r, toy_dec_scalar b = Some (x, r) -> length b = 5 + length r).
  { intros b x r. unfold toy_dec_scalar. destruct (Nat.ltb _ _) eqn:E; [discriminate|]. cbv zeta. destruct (_ <? _)%Z; [|discriminate].
    intros X. assert (r = skipn 5 b) as -> by congruence. rewrite skipn_length. apply Nat.ltb_ge in E. lia. }
  split; [exact W1|split; [exact W2|split; [exact K|]]]. intros b P r. change (dec_point b) with (toy_dec_point b). unfold toy_dec_point.
  destruct b as [|[] b]; try discriminate. intros E. apply K in E. cbn [length]. rewrite E. reflexivity.
Qed.
Example C138_ex_memory : finite pc /\ roomy pc 1000.
Proof. unfold finite, roomy. cbn [mem_max size_part size_scalar size_point size_share size_pair pc]. lia. Qed.
Example C138_ex_messages :
  forallb (fun q => match r_from_bytes (r_participant pc) (ser_participant q ++ [x07]) with
                    | Ok v => if list_eq_dec Byte.byte_eq_dec (ser_participant v) (ser_participant q) then true else false | _ => false end) demo_ps = true /\
  (match r_from_bytes (r_coefficients (S := Toy) pc) (repeat xff 8) with Panic => true | _ => false end) = true /\
  (match r_from_bytes (r_encshare (S := Toy) pc) (repeat x00 8 ++ repeat xff 9) with Panic => true | _ => false end) = true /\
  (match r_from_bytes (r_vss (S := Toy) pc) (repeat xff 11) with Err DeserializationError => true | _ => false end) = true.
Proof. vms. Qed.
Print Assumptions C138_no_amplification.
Print Assumptions C138_stops_or_answers.
Print Assumptions C138_shortest_input_that_stops.

Section WhenStopped.
  Context {S : Suite} {L : SuiteLaws S}.
  (** after skip bytes the input announces more elements of this size than fit into the memory *)
  Definition announces (mem : Memory) (skip : nat) (size : N) (b : list byte) : Prop :=
    exists pre n rest, b = pre ++ le_bytes 8 n ++ rest /\ length pre = skip /\ (n < 256 ^ 8)%N /\ (mem_max mem < n * size)%N.

  Lemma many_plain {A} (d : decoder A) k : forall b, r_many (plain d) k b <> Stopped.
  Proof.
    induction k as [|k IH]; intros b H; cbn [r_many] in H; [discriminate|].
    apply rthen_stop in H as [H|(a & r & _ & H)]; [destruct (plain_stop _ _ H)|].
    apply rthen_stop in H as [H|(l & r' & _ & H)]; [destruct (IH _ H)|discriminate].
  Qed.
  Lemma vec_stops {A} mem size (d : decoder A) b : r_vec (mem_max mem) size (plain d) b = Stopped <-> announces mem 0 size b.
  Proof.
    unfold r_vec, announces. split.
    - intros H. apply rthen_stop in H as [H|(n & r & E & H)]; [destruct (plain_stop _ _ H)|].
      apply plain_read in E. unfold de_u64 in E. apply de_uint_inv in E. destruct E as [-> Hn].
      destruct (N.leb_spec (n * size) (mem_max mem)) as [|Hm]; [destruct (many_plain _ _ _ H)|].
      exists [], n, r. split; [reflexivity|]. split; [reflexivity|]. split; [exact Hn|exact Hm].
    - intros (pre & n & rest & -> & Hp & Hn & Hm). destruct pre; [|discriminate Hp]. cbn [app]. unfold plain at 1, de_u64.
      rewrite de_uint_ok by exact Hn. cbn [rthen]. destruct (N.leb_spec (n * size) (mem_max mem)); [lia|reflexivity].
  Qed.
  Lemma u32_then {B} (f : u32 -> reader B) (P : list byte -> Prop) : (forall i r, f i r = Stopped <-> P r) ->
    forall b, rthen (plain de_u32 b) f = Stopped <-> exists pre r, b = pre ++ r /\ length pre = 4 /\ P r.
  Proof.
    intros H b. split.
    - intros K. apply rthen_stop in K as [K|(i & r & E & K)]; [destruct (plain_stop _ _ K)|]. apply plain_read, can_u32 in E.
      exists (u32_le i), r. split; [exact E|]. split; [apply le_bytes_len|]. apply (H i), K.
    - intros (pre & r & -> & Hp & K). unfold plain, de_u32, de_uint. destruct (Nat.ltb_spec (length (pre ++ r)) 4) as [X|X]; [rewrite app_length in X; lia|].
      cbn [dthen rthen]. rewrite <- Hp, skipn_app, skipn_all, Nat.sub_diag. cbn [app skipn]. apply H, K.
  Qed.
  Lemma announces_after mem k size b : (exists pre r, b = pre ++ r /\ length pre = k /\ announces mem 0 size r) <-> announces mem k size b.
  Proof.
    split.
    - intros (pre & r & -> & Hp & pre' & n & rest & -> & Hp' & H). destruct pre'; [|discriminate Hp']. exists pre, n, rest. auto.
    - intros (pre & n & rest & -> & Hp & H). exists pre, (le_bytes 8 n ++ rest). split; [reflexivity|]. split; [exact Hp|]. exists [], n, rest. auto.
  Qed.
  Lemma wrap_stops {A B} (x : reading A) (g : A -> list byte -> B) : rthen x (fun a r => Read (g a r) r) = Stopped <-> x = Stopped.
  Proof. destruct x; cbn [rthen]; split; congruence. Qed.
End WhenStopped.

(** the four kinds of lists stop the process exactly if the announced number of elements does not fit *)
Theorem C138_when_reading_stops :
  forall (S : Suite) (L : SuiteLaws S) (mem : Memory) (b : list byte),
  (r_from_bytes (r_coefficients mem) b = Panic <-> announces mem 0 (size_scalar mem) b) /\
  (r_from_bytes (r_secret_list mem) b = Panic <-> announces mem 0 (size_share mem) b) /\
  (r_from_bytes (r_vss mem) b = Panic <-> announces mem 4 (size_point mem) b) /\
  (r_from_bytes (r_public_list mem) b = Panic <-> announces mem 4 (size_pair mem) b).
Proof.
  intros S L mem b. rewrite !panic_iff. split; [|split; [|split]].
  - apply vec_stops.
  - unfold r_secret_list. etransitivity; [exact (wrap_stops _ (fun l _ => MkSecList l))|apply vec_stops].
  - unfold r_vss. rewrite <- announces_after. apply u32_then. intros i r. etransitivity; [exact (wrap_stops _ (fun l _ => MkVss i l))|apply vec_stops].
  - unfold r_public_list. rewrite <- announces_after. apply u32_then. intros i r. etransitivity; [exact (wrap_stops _ (fun l _ => MkPubList i l))|apply vec_stops].
Qed.
Print Assumptions C138_when_reading_stops.
Example C138_ex_when : announces pc 4 (size_point pc) (u32_le (u 1) ++ le_bytes 8 (256 ^ 8 - 1) ++ []).
Proof. exists (u32_le (u 1)), (256 ^ 8 - 1)%N, []. split; [reflexivity|]. split; [apply le_bytes_len|]. split; vm_compute; reflexivity. Qed.
