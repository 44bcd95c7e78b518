(** C100: the [Debug] texts show everything, secrets included *)
From Coq Require Import String Ascii Strings.Byte NArith ZArith Bool List Lia.
From Verif Require Import Base Suite Types ModelDkg ModelSign ModelDisplay ModelDebug SpecDebug Toy Algebra BaseLemmas LemmasShare
  PropsShare Demo DemoDkg DemoSign Spec SpecDkg SpecAuth PropsReflect PropsLeak PropsDisplay.
Import ListNotations.
Local Open Scope string_scope.

(** ** combinators *)
Lemma legible_inj {A} (f : A -> string) : legible f -> forall a b, f a = f b -> a = b.
Proof.
  intros [_ H] a b E. apply (H a b "" ""); [exact I|exact I|]. rewrite E. reflexivity.
Qed.
Lemma stop_digit x c : stop x -> digit c = true -> forall r, x <> String c r.
Proof.
  intros H D r ->. cbn in H. decompose [or] H; try contradiction; subst c; discriminate D.
Qed.
Lemma digits_sep : forall s s' x y, sall digit s = true -> sall digit s' = true -> stop x -> stop y -> s ++ x = s' ++ y -> s = s' /\ x = y.
Proof.
  induction s as [|a s IH]; intros [|a' s'] x y H H' Hx Hy E; cbn in *.
  - auto.
  - subst x. apply andb_prop in H' as [H' _]. exfalso. exact (stop_digit _ _ Hx H' _ eq_refl).
  - subst y. apply andb_prop in H as [H _]. exfalso. exact (stop_digit _ _ Hy H _ eq_refl).
  - apply andb_prop in H as [_ H]. apply andb_prop in H' as [_ H']. injection E as -> E.
    destruct (IH _ _ _ H H' Hx Hy E) as [-> ->]. auto.
Qed.
Lemma dec_head n : exists c r, dec n = String c r /\ digit c = true.
Proof.
  pose proof (dec_digits n) as H. destruct (dec n) as [|c r] eqn:E.
  - exfalso. unfold dec in E. destruct n as [|q]; [discriminate E|]. cbn [N.to_uint] in E.
    pose proof (DecimalPos.Unsigned.to_uint_nonnil q) as K. destruct (Pos.to_uint q); try discriminate. auto.
  - exists c, r. split; [reflexivity|]. cbn in H. apply andb_prop in H. apply H.
Qed.
Lemma legible_dec {A} (g : A -> N) : (forall a b, g a = g b -> a = b) -> legible (fun a => dec (g a)).
Proof.
  intros Hg. split.
  - intros a. destruct (dec_head (g a)) as (c & r & E & D). exists c, r. split; [exact E|]. split; intros ->; discriminate D.
  - intros a b x y Hx Hy E. destruct (digits_sep _ _ _ _ (dec_digits _) (dec_digits _) Hx Hy E) as [K ->].
    split; [apply Hg, dec_inj, K|reflexivity].
Qed.
Lemma legible_u32 : legible debug_u32.
Proof. apply (legible_dec u32v). intros a b. apply u32_ext. Qed.
Lemma legible_byte : legible (fun b => dec (Byte.to_N b)).
Proof.
  apply (legible_dec Byte.to_N). intros a b H. apply (f_equal Byte.of_N) in H. rewrite !Byte.of_to_N in H. congruence.
Qed.

Ltac stp := cbn; tauto.
(** strip the same literal texts, then one value *)
Ltac lit H := rewrite ?sapp_assoc in H; repeat (apply sapp_inj_l in H).
Ltac val K H := lit H; apply (proj2 K) in H; [destruct H as [? H]|stp|stp].

Lemma elements_sep {A} (f : A -> string) : legible f -> forall l l' x y, elements f l ++ x = elements f l' ++ y -> l = l' /\ x = y.
Proof.
  intros [Hn Hf]. 
  assert (Step : forall a l, elements f (a :: l) = f a ++ match l with [] => "]" | _ => ", " ++ elements f l end).
  { intros a [|b l]; reflexivity. }
  induction l as [|a l IH]; intros [|b l'] x y H.
  - cbn in H. injection H as H. auto.
  - rewrite Step in H. destruct (Hn b) as (c & r & E & N1 & N2). rewrite E in H. cbn in H. injection H as H _. congruence.
  - rewrite Step in H. destruct (Hn a) as (c & r & E & N1 & N2). rewrite E in H. cbn in H. injection H as H _. congruence.
  - rewrite !Step, !sapp_assoc in H. apply Hf in H; [|destruct l; stp|destruct l'; stp]. destruct H as [-> H].
    destruct l as [|a' l], l' as [|b' l'].
    + cbn in H. injection H as H. auto.
    + discriminate H.
    + discriminate H.
    + rewrite !sapp_assoc in H. apply sapp_inj_l in H. destruct (IH _ _ _ H) as [-> ->]. auto.
Qed.
Lemma legible_vec {A} (f : A -> string) : legible f -> legible (debug_vec f).
Proof.
  intros H. split.
  - intros l. eexists. eexists. split; [reflexivity|]. split; discriminate.
  - intros l l' x y _ _ E. unfold debug_vec in E. rewrite !sapp_assoc in E. apply sapp_inj_l in E. exact (elements_sep f H _ _ _ _ E).
Qed.
Lemma entries_sep {A} (f : A -> string) : legible f -> forall l l' x y, entries f l ++ x = entries f l' ++ y -> l = l' /\ x = y.
Proof.
  intros Hf.
  assert (Step : forall k v l, entries f ((k, v) :: l) = debug_u32 k ++ ": " ++ f v ++ match l with [] => "}" | _ => ", " ++ entries f l end).
  { intros k v [|b l]; reflexivity. }
  induction l as [|[k v] l IH]; intros [|[k' v'] l'] x y H.
  - cbn in H. injection H as H. auto.
  - rewrite Step in H. destruct (proj1 legible_u32 k') as (c & r & E & N1 & N2). rewrite E in H. cbn in H. injection H as H _. congruence.
  - rewrite Step in H. destruct (proj1 legible_u32 k) as (c & r & E & N1 & N2). rewrite E in H. cbn in H. injection H as H _. congruence.
  - rewrite !Step in H. val legible_u32 H. subst k'. lit H. apply (proj2 Hf) in H; [|destruct l; stp|destruct l'; stp]. destruct H as [-> H].
    destruct l as [|a' l], l' as [|b' l'].
    + cbn in H. injection H as H. auto.
    + discriminate H.
    + discriminate H.
    + lit H. destruct (IH _ _ _ H) as [-> ->]. auto.
Qed.
Lemma legible_map {A} (f : A -> string) : legible f -> legible (debug_map f).
Proof.
  intros H. split.
  - intros l. eexists. eexists. split; [reflexivity|]. split; discriminate.
  - intros l l' x y _ _ E. unfold debug_map in E. rewrite !sapp_assoc in E. apply sapp_inj_l in E. exact (entries_sep f H _ _ _ _ E).
Qed.
Lemma legible_option {A} (f : A -> string) : legible f -> legible (debug_option f).
Proof.
  intros H. split.
  - intros [a|]; eexists; eexists; (split; [reflexivity|split; discriminate]).
  - intros [a|] [b|] x y _ _ E; try discriminate E.
    + cbn [debug_option debug_tuple more_values] in E. val H E. subst. lit E. auto.
    + lit E. auto.
Qed.
Lemma legible_indices : legible debug_indices.
Proof. apply legible_vec, legible_u32. Qed.
Lemma legible_bytes : legible debug_bytes.
Proof. apply legible_vec, legible_byte. Qed.

(** a record: [tac] peels the fields off, the rest is by [congruence] *)
Ltac heads := intros ?; eexists; eexists; (split; [reflexivity|split; discriminate]).
Ltac peel H := cbn [debug_struct more_fields debug_tuple more_values] in H.

Section Legible.
  Context {S : Suite} (fm : Formats) (Hfm : legible_formats fm).
  Let ls : legible (fmt_scalar fm) := proj1 Hfm.
  Let lp : legible (fmt_point fm) := proj1 (proj2 Hfm).
  Let lh : legible (fmt_hash fm) := proj2 (proj2 Hfm).

  Lemma lg_params : legible (debug_params fm).
  Proof.
    split; [heads|]. intros [a1 a2] [b1 b2] x y _ _ H. unfold debug_params in H. peel H.
    val legible_u32 H. val legible_u32 H. lit H. cbn in *. subst. auto.
  Qed.
  Lemma lg_dh_sk : legible (debug_dh_sk fm).
  Proof. split; [heads|]. intros a b x y _ _ H. unfold debug_dh_sk in H. peel H. val ls H. lit H. auto. Qed.
  Lemma lg_dh_pk : legible (debug_dh_pk fm).
  Proof. split; [heads|]. intros a b x y _ _ H. unfold debug_dh_pk in H. peel H. val lp H. lit H. auto. Qed.
  Lemma lg_vk : legible (debug_vk fm).
  Proof.
    split; [heads|]. intros [a1 a2] [b1 b2] x y _ _ H. unfold debug_vk in H. peel H. val legible_u32 H. val lp H. lit H. cbn in *. subst. auto.
  Qed.
  Lemma lg_sk : legible (debug_sk fm).
  Proof.
    split; [heads|]. intros [a1 a2] [b1 b2] x y _ _ H. unfold debug_sk in H. peel H. val legible_u32 H. val ls H. lit H. cbn in *. subst. auto.
  Qed.
  Lemma lg_gk : legible (debug_gk fm).
  Proof. split; [heads|]. intros a b x y _ _ H. unfold debug_gk in H. peel H. val lp H. lit H. auto. Qed.
  Lemma lg_coeffs : legible (debug_coeffs fm).
  Proof. split; [heads|]. intros a b x y _ _ H. unfold debug_coeffs in H. peel H. val (legible_vec _ ls) H. lit H. auto. Qed.
  Lemma lg_share : legible (debug_share fm).
  Proof.
    split; [heads|]. intros [a1 a2 a3] [b1 b2 b3] x y _ _ H. unfold debug_share in H. peel H.
    val legible_u32 H. val legible_u32 H. val ls H. lit H. cbn in *. subst. auto.
  Qed.
  Lemma nonce_eq (a b : Nonce) : nonce_bytes a = nonce_bytes b -> a = b.
  Proof. destruct a as [a p], b as [b q]. cbn. intros ->. f_equal. apply Eqdep_dec.UIP_dec, bool_dec. Qed.
  Lemma lg_enc : legible debug_enc.
  Proof.
    split; [heads|]. intros [a1 a2 a3 a4] [b1 b2 b3 b4] x y _ _ H. unfold debug_enc in H.
    val legible_u32 H. val legible_u32 H. val legible_bytes H. val legible_bytes H. lit H. cbn in *.
    apply nonce_eq in H2. subst. auto.
  Qed.
  Lemma lg_vss : legible (debug_vss fm).
  Proof.
    split; [heads|]. intros [a1 a2] [b1 b2] x y _ _ H. unfold debug_vss in H. peel H.
    val legible_u32 H. val (legible_vec _ lp) H. lit H. cbn in *. subst. auto.
  Qed.
  Lemma lg_nizk : legible (debug_nizk fm).
  Proof.
    split; [heads|]. intros [a1 a2] [b1 b2] x y _ _ H. unfold debug_nizk in H. peel H. val ls H. val ls H. lit H. cbn in *. subst. auto.
  Qed.
  Lemma lg_cproof : legible (debug_cproof fm).
  Proof.
    split; [heads|]. intros [a1 a2 a3] [b1 b2 b3] x y _ _ H. unfold debug_cproof in H. peel H.
    val lp H. val lp H. val ls H. lit H. cbn in *. subst. auto.
  Qed.
  Lemma lg_complaint : legible (debug_complaint fm).
  Proof.
    split; [heads|]. intros [a1 a2 a3 a4] [b1 b2 b3 b4] x y _ _ H. unfold debug_complaint in H. peel H.
    val lp H. val lg_dh_pk H. val lg_enc H. val lg_cproof H. lit H. cbn in *. subst. auto.
  Qed.
  Lemma lg_participant : legible (debug_participant fm).
  Proof.
    split; [heads|]. intros [a1 a2 a3 a4 a5] [b1 b2 b3 b4 b5] x y _ _ H. unfold debug_participant in H. peel H.
    val legible_u32 H. val lg_dh_pk H. val (legible_option _ lg_vss) H. val (legible_option _ lg_nizk) H. val lg_nizk H. lit H.
    cbn in *. subst. auto.
  Qed.
  Lemma lg_state : legible (debug_state fm).
  Proof.
    split; [heads|]. intros [a1 a2 a3 a4 a5 a6 a7 a8] [b1 b2 b3 b4 b5 b6 b7 b8] x y _ _ H. unfold debug_state in H. peel H.
    val lg_params H. val legible_u32 H. val lg_dh_sk H. val lg_dh_pk H. val (legible_option _ (legible_map _ lg_vss)) H.
    val (legible_map _ lg_dh_pk) H. val (legible_option _ (legible_map _ lg_enc)) H. val (legible_option _ (legible_map _ lg_share)) H.
    lit H. cbn in *. subst. auto.
  Qed.
  Lemma lg_round1 : legible (debug_round1 fm).
  Proof. split; [heads|]. intros [a] [b] x y _ _ H. unfold debug_round1 in H. peel H. val lg_state H. lit H. cbn in *. subst. auto. Qed.
  Lemma lg_round2 : legible (debug_round2 fm).
  Proof. split; [heads|]. intros [a] [b] x y _ _ H. unfold debug_round2 in H. peel H. val lg_state H. lit H. cbn in *. subst. auto. Qed.
  Lemma lg_plist : legible (debug_plist fm).
  Proof.
    split; [heads|]. intros [a1 a2] [b1 b2] x y _ _ H. unfold debug_plist in H. peel H.
    val (legible_vec _ lg_participant) H. val (legible_option _ legible_indices) H. lit H. cbn in *. subst. auto.
  Qed.
  Lemma lg_commitment : legible (debug_commitment fm).
  Proof.
    split; [heads|]. intros [a1 a2] [b1 b2] x y _ _ H. unfold debug_commitment in H. peel H. val ls H. val lp H. lit H. cbn in *. subst. auto.
  Qed.
  Lemma lg_cshare : legible (debug_cshare fm).
  Proof.
    split; [heads|]. intros [a1 a2] [b1 b2] x y _ _ H. unfold debug_cshare in H. peel H.
    val lg_commitment H. val lg_commitment H. lit H. cbn in *. subst. auto.
  Qed.
  Lemma lg_secret_list : legible (debug_secret_list fm).
  Proof.
    split; [heads|]. intros [a] [b] x y _ _ H. unfold debug_secret_list in H. peel H. val (legible_vec _ lg_cshare) H. lit H. cbn in *. subst. auto.
  Qed.
  Lemma lg_pair : legible (debug_pair fm).
  Proof.
    split; [heads|]. intros [a1 a2] [b1 b2] x y _ _ H. unfold debug_pair in H. peel H. val lp H. val lp H. lit H. cbn in *. subst. auto.
  Qed.
  Lemma lg_public_list : legible (debug_public_list fm).
  Proof.
    split; [heads|]. intros [a1 a2] [b1 b2] x y _ _ H. unfold debug_public_list in H. peel H.
    val legible_u32 H. val (legible_vec _ lg_pair) H. lit H. cbn in *. subst. auto.
  Qed.
  Lemma lg_signer : legible (debug_signer fm).
  Proof.
    split; [heads|]. intros [a1 a2] [b1 b2] x y _ _ H. unfold debug_signer in H. peel H. val legible_u32 H. val lg_pair H. lit H. cbn in *. subst. auto.
  Qed.
  Lemma lg_psig : legible (debug_psig fm).
  Proof.
    split; [heads|]. intros [a1 a2] [b1 b2] x y _ _ H. unfold debug_psig in H. peel H. val legible_u32 H. val ls H. lit H. cbn in *. subst. auto.
  Qed.
  Lemma lg_tsig : legible (debug_tsig fm).
  Proof.
    split; [heads|]. intros [a1 a2] [b1 b2] x y _ _ H. unfold debug_tsig in H. peel H. val lp H. val ls H. lit H. cbn in *. subst. auto.
  Qed.
  Lemma lg_agg : legible (debug_agg fm).
  Proof.
    split; [heads|]. intros [a1 a2 a3 a4 a5] [b1 b2 b3 b4 b5] x y _ _ H. unfold debug_agg in H. peel H.
    val lg_params H. val (legible_vec _ lg_signer) H. val (legible_map _ lp) H. val (legible_map _ ls) H. val lg_gk H. lit H.
    cbn in *. subst. auto.
  Qed.
  Lemma lg_initial : legible (debug_initial fm).
  Proof.
    split; [heads|]. intros [a1 a2] [b1 b2] x y _ _ H. unfold debug_initial in H. peel H. val lg_agg H. val legible_bytes H. lit H.
    cbn in *. subst. auto.
  Qed.
  Lemma lg_final : legible (debug_final fm).
  Proof.
    split; [heads|]. intros [a1 a2] [b1 b2] x y _ _ H. unfold debug_final in H. peel H. val lg_agg H. val lh H. lit H.
    cbn in *. subst. auto.
  Qed.
End Legible.

(** ** the texts of errors *)
Definition debug_beginnings : list string :=
  ["Seri"; "Des"; "CompressionE"; "Deco"; "Decr"; "E"; "Sh"; "ComplaintV"; "IndexI"; "IndexM"; "InvalidG"; "InvalidP"; "InvalidCo";
   "MissingS"; "No"; "Complaint("; "InvalidN"; "InvalidM"; "TooManyI"; "TooManyS"; "MissingC"; "InvalidB"; "InvalidCh"; "InvalidS";
   "Misb"; "InvalidT"; "Cu"].
Definition debug_kind {S : Suite} (e : Error) : nat :=
  match e with
  | SerializationError => 0 | DeserializationError => 1 | CompressionError => 2 | DecompressionError => 3
  | DecryptionError => 4 | EncryptionError => 5 | ShareVerificationError => 6 | ComplaintVerificationError => 7
  | IndexIsZero => 8 | IndexMismatch _ _ => 9 | InvalidGroupKey => 10 | InvalidProofOfKnowledge => 11
  | InvalidCommitmentLength => 12 | MissingShares => 13 | NoEncryptedShares => 14 | ComplaintErr _ => 15
  | InvalidNumberOfParticipants _ _ => 16 | InvalidMSMParameters => 17 | TooManyInvalidParticipants _ => 18 | TooManySigners _ _ => 19
  | MissingCommitmentShares => 20 | InvalidBindingFactor => 21 | InvalidChallenge => 22 | InvalidSignature => 23
  | MisbehavingParticipants _ => 24 | InvalidThresholdParams => 25 | Custom _ => 26
  end.
Lemma prefix_nil s : prefix "" s = true.
Proof. destruct s; reflexivity. Qed.
Lemma debug_kind_text : forall (S : Suite) fm e, first_prefix debug_beginnings 0 (debug_error fm e) = debug_kind e.
Proof.
  intros S fm []; try reflexivity; unfold debug_beginnings; cbn -[debug_u32 debug_vec debug_indices debug_string dec prefix];
    cbn -[debug_u32 debug_vec debug_indices debug_string dec]; rewrite ?prefix_nil; reflexivity.
Qed.
Lemma legible_nat : legible (fun n => dec (N.of_nat n)).
Proof. apply (legible_dec N.of_nat). intros; lia. Qed.
Lemma debug_error_inj : forall (S : Suite) fm, legible_formats fm -> forall e e' : Error, debug_error fm e = debug_error fm e' -> e = e'.
Proof.
  intros S fm Hf e e' H. pose proof (f_equal (first_prefix debug_beginnings 0) H) as K. rewrite !debug_kind_text in K.
  destruct e, e'; try discriminate K; clear K; try reflexivity; cbn [debug_error] in H; peel H.
  - val legible_u32 H. val legible_u32 H. congruence.
  - val (legible_vec _ (lg_complaint fm Hf)) H. congruence.
  - val legible_nat H. val legible_u32 H. congruence.
  - val legible_indices H. congruence.
  - val legible_nat H. val legible_u32 H. congruence.
  - val legible_indices H. congruence.
  - lit H. apply snoc_inj in H. apply debug_string_inj in H. congruence.
Qed.
Lemma display_inj : forall (S : Suite) fm, legible_formats fm -> forall e e' : Error,
  display (debug_complaint fm) e = display (debug_complaint fm) e' -> e = e'.
Proof.
  intros S fm Hf e e' H. destruct (C95_text_determines_the_error S _ e e' H) as [E|(l & l' & -> & -> & E)]; [exact E|].
  f_equal. exact (legible_inj _ (legible_vec _ (lg_complaint fm Hf)) _ _ E).
Qed.

(** ** pieces of texts *)
Lemma shown_self s : shown s s.
Proof. exists "", "". cbn. induction s as [|c s IH]; [reflexivity|]. cbn. congruence. Qed.
Lemma shown_l p a b : shown p b -> shown p (a ++ b).
Proof. intros (x & y & ->). exists (a ++ x), y. rewrite sapp_assoc. reflexivity. Qed.
Lemma shown_r p a b : shown p a -> shown p (a ++ b).
Proof. intros (x & y & ->). exists x, (y ++ b). rewrite !sapp_assoc. reflexivity. Qed.
Lemma shown_trans p q s : shown p q -> shown q s -> shown p s.
Proof. intros (x & y & ->) (z & w & ->). exists (z ++ x), (y ++ w). rewrite !sapp_assoc. reflexivity. Qed.
Lemma shown_field p name l n v : In (n, v) l -> shown p v -> shown p (debug_struct name l).
Proof.
  intros Hi Hp. assert (K : forall l, In (n, v) l -> shown p (more_fields l)).
  { clear - Hp. induction l as [|[n' v'] l IH]; [intros []|]. intros [E|H]; cbn [more_fields].
    - injection E as -> ->. do 3 apply shown_l. apply shown_r, Hp.
    - do 4 apply shown_l. apply IH, H. }
  destruct l as [|[n' v'] l]; [destruct Hi|]. cbn [debug_struct]. do 4 apply shown_l. destruct Hi as [E|Hi].
  - injection E as -> ->. apply shown_r, Hp.
  - apply shown_l, K, Hi.
Qed.
Lemma shown_only p name v : shown p v -> shown p (debug_tuple name [v]).
Proof. intros H. cbn [debug_tuple more_values]. do 2 apply shown_l. apply shown_r, H. Qed.
Lemma shown_vec {A} (f : A -> string) p a l : In a l -> shown p (f a) -> shown p (debug_vec f l).
Proof.
  intros Hi Hp. unfold debug_vec. apply shown_l. induction l as [|b l IH]; [destruct Hi|].
  destruct l as [|c l].
  - destruct Hi as [->|[]]. cbn [elements]. apply shown_r, Hp.
  - change (elements f (b :: c :: l)) with (f b ++ ", " ++ elements f (c :: l)). destruct Hi as [->|Hi].
    + apply shown_r, Hp.
    + do 2 apply shown_l. apply IH, Hi.
Qed.
Lemma shown_map {A} (f : A -> string) p k v (m : bmap A) : In (k, v) m -> shown p (f v) -> shown p (debug_map f m).
Proof.
  intros Hi Hp. unfold debug_map. apply shown_l. induction m as [|[k' v'] l IH]; [destruct Hi|].
  destruct l as [|c l].
  - destruct Hi as [E|[]]. injection E as -> ->. cbn [entries]. do 2 apply shown_l. apply shown_r, Hp.
  - change (entries f ((k', v') :: c :: l)) with (dec (u32v k') ++ ": " ++ f v' ++ ", " ++ entries f (c :: l)). do 2 apply shown_l.
    destruct Hi as [E|Hi].
    + injection E as -> ->. apply shown_r, Hp.
    + do 2 apply shown_l. apply IH, Hi.
Qed.

(** every secret is printed in full: signing and Diffie-Hellman keys, coefficients, shares, nonces, and those inside a whole
    key generation session *)
Theorem C100_secrets_are_shown :
  forall (S : Suite) (fm : Formats),
  (forall k, shown (fmt_scalar fm (sk_key k)) (debug_sk fm k)) /\
  (forall x, shown (fmt_scalar fm x) (debug_dh_sk fm x)) /\
  (forall l x, In x l -> shown (fmt_scalar fm x) (debug_coeffs fm l)) /\
  (forall s, shown (fmt_scalar fm (sh_value s)) (debug_share fm s)) /\
  (forall l c, In c (sl_commitments l) ->
     shown (fmt_scalar fm (co_secret (cs_hiding c))) (debug_secret_list fm l) /\
     shown (fmt_scalar fm (co_secret (cs_binding c))) (debug_secret_list fm l)) /\
  (forall st text, text = debug_round1 fm (R1 st) \/ text = debug_round2 fm (R2 st) ->
     shown (fmt_scalar fm (ds_dh_sk st)) text /\
     (forall shares i s, ds_shares st = Some shares -> bget i shares = Some s -> shown (fmt_scalar fm (sh_value s)) text)).
Proof.
  intros S fm.
  assert (Hs : forall s, shown (fmt_scalar fm (sh_value s)) (debug_share fm s)).
  { intros s. unfold debug_share. eapply shown_field; [|apply shown_self]. right. right. left. reflexivity. }
  assert (Hx : forall x, shown (fmt_scalar fm x) (debug_dh_sk fm x)).
  { intros x. unfold debug_dh_sk. apply shown_only, shown_self. }
  assert (Hc : forall c, shown (fmt_scalar fm (co_secret c)) (debug_commitment fm c)).
  { intros c. unfold debug_commitment. eapply shown_field; [|apply shown_self]. left. reflexivity. }
  split; [|split; [exact Hx|split; [|split; [exact Hs|split]]]].
  - intros k. unfold debug_sk. eapply shown_field; [|apply shown_self]. right. left. reflexivity.
  - intros l x Hi. unfold debug_coeffs. apply shown_only. apply (shown_vec _ _ x); [exact Hi|apply shown_self].
  - intros l c Hi. unfold debug_secret_list. split; (eapply shown_field; [left; reflexivity|]); apply (shown_vec _ _ c);
      (try exact Hi); unfold debug_cshare.
    + eapply shown_field; [left; reflexivity|apply Hc].
    + eapply shown_field; [right; left; reflexivity|apply Hc].
  - intros st text Ht.
    assert (K : forall p, shown p (debug_state fm st) -> shown p text).
    { intros p Hp. destruct Ht as [-> | ->]; (eapply shown_field; [left; reflexivity|exact Hp]). }
    split.
    + apply K. unfold debug_state. apply shown_only. eapply shown_field; [right; right; left; reflexivity|apply Hx].
    + intros shares i s E G. apply K. unfold debug_state. rewrite E. apply shown_only.
      eapply shown_field; [do 7 right; left; reflexivity|]. apply shown_only. apply bget_in in G.
      apply (shown_map _ _ i s); [exact G|apply Hs].
Qed.
Print Assumptions C100_secrets_are_shown.

(** the text determines the value, for every type that can be printed *)
Theorem C100_debug_text_determines_the_value :
  forall (S : Suite) (fm : Formats), legible_formats fm ->
  (forall a b, debug_params fm a = debug_params fm b -> a = b) /\
  (forall a b, debug_sk fm a = debug_sk fm b -> a = b) /\
  (forall a b, debug_vk fm a = debug_vk fm b -> a = b) /\
  (forall a b, debug_dh_sk fm a = debug_dh_sk fm b -> a = b) /\
  (forall a b, debug_dh_pk fm a = debug_dh_pk fm b -> a = b) /\
  (forall a b, debug_gk fm a = debug_gk fm b -> a = b) /\
  (forall a b, debug_coeffs fm a = debug_coeffs fm b -> a = b) /\
  (forall a b, debug_share fm a = debug_share fm b -> a = b) /\
  (forall a b : EncShare, debug_enc a = debug_enc b -> a = b) /\
  (forall a b, debug_vss fm a = debug_vss fm b -> a = b) /\
  (forall a b, debug_nizk fm a = debug_nizk fm b -> a = b) /\
  (forall a b, debug_complaint fm a = debug_complaint fm b -> a = b) /\
  (forall a b, debug_participant fm a = debug_participant fm b -> a = b) /\
  (forall a b, debug_plist fm a = debug_plist fm b -> a = b) /\
  (forall a b, debug_round1 fm a = debug_round1 fm b -> a = b) /\
  (forall a b, debug_round2 fm a = debug_round2 fm b -> a = b) /\
  (forall a b, debug_round1 fm a <> debug_round2 fm b) /\
  (forall a b, debug_cshare fm a = debug_cshare fm b -> a = b) /\
  (forall a b, debug_secret_list fm a = debug_secret_list fm b -> a = b) /\
  (forall a b, debug_public_list fm a = debug_public_list fm b -> a = b) /\
  (forall a b, debug_signer fm a = debug_signer fm b -> a = b) /\
  (forall a b, debug_psig fm a = debug_psig fm b -> a = b) /\
  (forall a b, debug_tsig fm a = debug_tsig fm b -> a = b) /\
  (forall a b, debug_initial fm a = debug_initial fm b -> a = b) /\
  (forall a b, debug_final fm a = debug_final fm b -> a = b) /\
  (forall a b, debug_error fm a = debug_error fm b -> a = b).
Proof.
  intros S fm H. repeat split; try exact (debug_error_inj S fm H); try (apply legible_inj).
  - apply lg_params.
  - apply lg_sk, H.
  - apply lg_vk, H.
  - apply lg_dh_sk, H.
  - apply lg_dh_pk, H.
  - apply lg_gk, H.
  - apply lg_coeffs, H.
  - apply lg_share, H.
  - apply lg_enc.
  - apply lg_vss, H.
  - apply lg_nizk, H.
  - apply lg_complaint, H.
  - apply lg_participant, H.
  - apply lg_plist, H.
  - apply lg_round1, H.
  - apply lg_round2, H.
  - intros [a] [b] E. unfold debug_round1, debug_round2 in E. peel E.
    apply (f_equal (fun s => s ++ "")) in E. val (lg_state fm H) E. lit E. discriminate E.
  - apply lg_cshare, H.
  - apply lg_secret_list, H.
  - apply lg_public_list, H.
  - apply lg_signer, H.
  - apply lg_psig, H.
  - apply lg_tsig, H.
  - apply lg_initial, H.
  - apply lg_final, H.
Qed.
Print Assumptions C100_debug_text_determines_the_value.

(** the message of an error, printed with [{}] or [{:?}], determines the error; so the log line of an honest participant whose
    second round failed gives away the shares it dealt to those it accuses, and t of them its secret (C80) *)
Theorem C100_logged_error_reveals_shares :
  forall (S : Suite) (L : SuiteLaws S) (fm : Formats), legible_formats fm ->
  forall (m : build) (params : Params) (parties : list Party) (q : Party) (es : list EncShare) (r : Rng) (err : Error) (cs : list Complaint),
  honest_parties params parties -> all_bootstrapped m params parties -> In q parties ->
  to_round_two m (y_st q) es r = Err err ->
  display (debug_complaint fm) err = display (debug_complaint fm) (ComplaintErr cs) \/ debug_error fm err = debug_error fm (ComplaintErr cs) ->
  (forall c, In c cs -> exists p e, In p parties /\ accused c = y_index p /\ bget (y_index p) (y_es q) = Some e /\
     decrypt_share e (enc_point (c_shared c)) =
       Ok (MkShare (y_index q) (y_index p) (poly_value (y_co q) (of_u32 (y_index p))))) /\
  (forall cs0 pts, (forall c, In c cs0 -> In c cs) -> NoDup (map accused cs0) -> (u32v (p_t params) <= N.of_nat (length cs0))%N ->
     Forall2 (fun c iv => fst iv = accused c /\ exists e, bget (accused c) (y_es q) = Some e /\
        decrypt_share e (enc_point (c_shared c)) = Ok (MkShare (y_index q) (accused c) (snd iv))) cs0 pts ->
     hd_error (y_co q) = Some (interp0 pts)).
Proof.
  intros S L fm Hf m params parties q es r err cs HP HB Hq E Ht.
  assert (err = ComplaintErr cs) as ->.
  { destruct Ht as [Ht|Ht]; [exact (display_inj S fm Hf _ _ Ht)|exact (debug_error_inj S fm Hf _ _ Ht)]. }
  apply (C80_complaints_reveal_the_makers_shares S L m params parties q es r cs HP HB Hq). left. exact E.
Qed.
Print Assumptions C100_logged_error_reveals_shares.

(** ** decimal texts on the toy suite *)
Definition toy_formats : @Formats Toy :=
  @MkFormats Toy (fun x : Fp => "Fp(" ++ dec (Z.to_N (fv x)) ++ ")") (fun x : Fp => dec (Z.to_N (fv x))) debug_bytes "PhantomData<Toy>".
Lemma toy_dec_legible : legible (fun x : Fp => dec (Z.to_N (fv x))).
Proof.
  apply (legible_dec (fun x : Fp => Z.to_N (fv x))). intros [a p] [b q]. cbn. intros E.
  assert (a = b) as -> by (unfold fp_range in p, q; lia). f_equal. apply Eqdep_dec.UIP_dec, bool_dec.
Qed.
Lemma toy_legible : legible_formats toy_formats.
Proof.
  split; [|split; [exact toy_dec_legible|exact legible_bytes]].
  split; [heads|]. intros a b x y _ _ H. cbn [fmt_scalar toy_formats] in H. val toy_dec_legible H. lit H. auto.
Qed.
Example C100_ex :
  legible_formats toy_formats /\
  debug_sk toy_formats (skey 1) = "IndividualSigningKey { index: 1, key: Fp(1077) }" /\
  debug_coeffs (S := Toy) toy_formats [mk 5; mk 9] = "Coefficients([Fp(5), Fp(9)])" /\
  debug_error toy_formats (ComplaintErr []) = "Complaint([])" /\
  debug_participant toy_formats (MkPart (S := Toy) (u 3) (mk 14) None None (MkNizk (S := Toy) (mk 1) (mk 2))) =
    "Participant { index: 3, dh_public_key: DiffieHellmanPublicKey { key: 14, _phantom: PhantomData<Toy> }, commitments: None, " ++
    "proof_of_secret_key: None, proof_of_dh_private_key: NizkPokOfSecretKey { s: Fp(1), r: Fp(2) } }".
Proof. split; [exact toy_legible|]. vms. Qed.
(** the failed second round of C80_ex as it appears in a log *)
Example C100_ex_log :
  let out := to_round_two Debug (demo_r1 demo_ps 1) (demo_shares 1 ++ C80_bads)%list 7%N in
  let text := match out with Err e => display (debug_complaint toy_formats) e | _ => "" end in
  prefix "[Complaint { dh_shared_key: " text = true /\
  text = display (debug_complaint toy_formats) (ComplaintErr C80_complaints) /\
  length C80_complaints = 2.
Proof. vms. Qed.

(** the exact text of a value of every printed type of the signing side *)
Example C100_ex_signing_texts :
  let st := MkAgg (S := Toy) (MkParams (u 3) (u 2)) [MkSigner (S := Toy) (u 1) (mk 4, mk 5)] [(u 1, mk 6 : G)] [(u 1, mk 7 : F)] (mk 8) in
  let text := "AggregatorState { parameters: ThresholdParameters { n: 3, t: 2, _phantom: PhantomData<Toy> }, signers: [Signer { " ++
    "participant_index: 1, published_commitment_share: (4, 5) }], public_keys: IndividualPublicKeys({1: 6}), " ++
    "partial_signatures: PartialThresholdSignatures({1: Fp(7)}), group_key: GroupVerifyingKey { key: 8, _phantom: PhantomData<Toy> } }" in
  debug_agg toy_formats st = text /\
  debug_initial toy_formats (MkInit (S := Toy) st [x09; xff]) =
    "SignatureAggregator { state: " ++ text ++ ", aggregator: Initial { message: [9, 255] } }" /\
  debug_final toy_formats (MkFinal (S := Toy) st [x09; xff]) =
    "SignatureAggregator { state: " ++ text ++ ", aggregator: Finalized { message_hash: [9, 255] } }" /\
  debug_psig toy_formats (MkPSig (S := Toy) (u 1) (mk 7)) = "PartialThresholdSignature { index: 1, z: Fp(7) }" /\
  debug_tsig toy_formats (MkTSig (S := Toy) (mk 6) (mk 7)) = "ThresholdSignature { group_commitment: 6, z: Fp(7) }" /\
  debug_secret_list toy_formats (MkSecList (S := Toy) [MkCS (S := Toy) (MkCom (S := Toy) (mk 1) (mk 2)) (MkCom (S := Toy) (mk 3) (mk 4))]) =
    "SecretCommitmentShareList { commitments: [CommitmentShare { hiding: Commitment { secret: Fp(1), commit: 2 }, " ++
    "binding: Commitment { secret: Fp(3), commit: 4 } }] }" /\
  debug_public_list toy_formats (MkPubList (S := Toy) (u 1) [(mk 4, mk 5)]) =
    "PublicCommitmentShareList { participant_index: 1, commitments: [(4, 5)] }".
Proof. vms. Qed.
(** and of the key generation side *)
Example C100_ex_dkg_texts :
  let st := MkState (S := Toy) (MkParams (u 3) (u 2)) (u 1) (mk 5) (mk 6) (Some [(u 2, MkVss (S := Toy) (u 2) [mk 8; mk 9])])
    [(u 2, mk 10 : G); (u 3, mk 11 : G)] None (Some [(u 2, MkShare (S := Toy) (u 2) (u 1) (mk 12))]) in
  let text := "BoxedState(ActualState { parameters: ThresholdParameters { n: 3, t: 2, _phantom: PhantomData<Toy> }, index: 1, " ++
    "dh_private_key: DiffieHellmanPrivateKey(Fp(5)), dh_public_key: DiffieHellmanPublicKey { key: 6, _phantom: PhantomData<Toy> }, " ++
    "their_commitments: Some({2: VerifiableSecretSharingCommitment { index: 2, points: [8, 9] }}), their_dh_public_keys: {2: " ++
    "DiffieHellmanPublicKey { key: 10, _phantom: PhantomData<Toy> }, 3: DiffieHellmanPublicKey { key: 11, _phantom: " ++
    "PhantomData<Toy> }}, their_encrypted_secret_shares: None, my_secret_shares: Some({2: SecretShare { sender_index: 2, " ++
    "receiver_index: 1, polynomial_evaluation: Fp(12) }}) })" in
  debug_round1 toy_formats (R1 (S := Toy) st) = "DistributedKeyGeneration { state: " ++ text ++ ", data: RoundOne }" /\
  debug_round2 toy_formats (R2 (S := Toy) st) = "DistributedKeyGeneration { state: " ++ text ++ ", data: RoundTwo }" /\
  debug_plist toy_formats (MkPList (S := Toy) [] (Some [u 4; u 5])) =
    "DKGParticipantList { valid_participants: [], misbehaving_participants: Some([4, 5]) }" /\
  debug_vk toy_formats (MkVK (S := Toy) (u 3) (mk 2)) = "IndividualVerifyingKey { index: 3, share: 2 }" /\
  debug_cproof toy_formats (MkCProof (S := Toy) (mk 1) (mk 2) (mk 3)) = "ComplaintProof { a1: 1, a2: 2, z: Fp(3) }" /\
  debug_nizk toy_formats (MkNizk (S := Toy) (mk 1) (mk 2)) = "NizkPokOfSecretKey { s: Fp(1), r: Fp(2) }" /\
  map (fun e => debug_complaint toy_formats (MkComplaint (S := Toy) (mk 1) (mk 2) e (MkCProof (S := Toy) (mk 3) (mk 4) (mk 5)))) (demo_shares 1) =
  map (fun e => "Complaint { dh_shared_key: 1, dh_public_key: DiffieHellmanPublicKey { key: 2, _phantom: PhantomData<Toy> }, " ++
     "encrypted_share: EncryptedSecretShare { sender_index: " ++ dec (u32v (es_sender e)) ++ ", receiver_index: 1, nonce: " ++
     debug_bytes (nonce_bytes (es_nonce e)) ++ ", encrypted_polynomial_evaluation: " ++ debug_bytes (es_ct e) ++
     " }, proof: ComplaintProof { a1: 3, a2: 4, z: Fp(5) } }") (demo_shares 1).
Proof. vms. Qed.
