(** C95: the text of an error determines the error *)
From Coq Require Import String Ascii NArith Bool List Lia Permutation DecimalString DecimalFacts DecimalPos DecimalN.
From Verif Require Import Base Suite Types ModelDkg ModelSign ModelDisplay Toy Algebra BaseLemmas LemmasShare PropsShare Demo.
Import ListNotations.
Local Open Scope string_scope.

(** ** strings *)
Lemma sapp_inj_l : forall s x y, s ++ x = s ++ y -> x = y.
Proof. induction s as [|c s IH]; intros x y H; [exact H|]. injection H as H. exact (IH _ _ H). Qed.
Lemma sapp_assoc : forall a b c : string, (a ++ b) ++ c = a ++ (b ++ c).
Proof. induction a as [|x a IH]; intros; [reflexivity|]. cbn. rewrite IH. reflexivity. Qed.

Fixpoint sall (p : ascii -> bool) (s : string) : bool :=
  match s with "" => true | String c s' => p c && sall p s' end.

(** two texts over an alphabet, each followed by the same character outside of it *)
Lemma stop_inj : forall p c, p c = false -> forall s s' x y, sall p s = true -> sall p s' = true ->
  s ++ String c x = s' ++ String c y -> s = s' /\ x = y.
Proof.
  intros p c Hc. induction s as [|a s IH]; intros [|a' s'] x y H H' E; cbn in *.
  - injection E as E. auto.
  - injection E as <- E. apply andb_prop in H' as [H' _]. congruence.
  - injection E as -> E. apply andb_prop in H as [H _]. congruence.
  - apply andb_prop in H as [_ H]. apply andb_prop in H' as [_ H']. injection E as -> E.
    destruct (IH _ _ _ H H' E) as [-> ->]. auto.
Qed.
(** ... and by different ones outside of it *)
Lemma stop_neq : forall p c d, p c = false -> p d = false -> c <> d -> forall s s' x y, sall p s = true -> sall p s' = true ->
  s ++ String c x = s' ++ String d y -> False.
Proof.
  intros p c d Hc Hd Hn. induction s as [|a s IH]; intros [|a' s'] x y H H' E; cbn in *.
  - injection E as E _. auto.
  - injection E as <- E. apply andb_prop in H' as [H' _]. congruence.
  - injection E as -> E. apply andb_prop in H as [H _]. congruence.
  - apply andb_prop in H as [_ H]. apply andb_prop in H' as [_ H']. injection E as -> E. exact (IH _ _ _ H H' E).
Qed.

(** ** numbers *)
Definition digit (c : ascii) : bool := ((48 <=? N_of_ascii c) && (N_of_ascii c <=? 57))%N.
Lemma dec_digits : forall n, sall digit (dec n) = true.
Proof. intros n. unfold dec. generalize (N.to_uint n). induction u; cbn; auto. Qed.
Lemma dec_inj : forall a b, dec a = dec b -> a = b.
Proof.
  intros a b H. unfold dec in H.
  assert (E : N.to_uint a = N.to_uint b).
  { apply (f_equal NilEmpty.uint_of_string) in H. rewrite !NilEmpty.usu in H. injection H as H. exact H. }
  rewrite <- (DecimalN.Unsigned.of_to a), <- (DecimalN.Unsigned.of_to b), E. reflexivity.
Qed.
Lemma u32v_dec_inj : forall a b : u32, dec (u32v a) = dec (u32v b) -> a = b.
Proof. intros a b H. apply u32_ext. apply dec_inj. exact H. Qed.

Lemma indices_inj : forall l l' : list u32, debug_indices l = debug_indices l' -> l = l'.
Proof.
  intros l l' H. unfold debug_indices, debug_vec in H. apply sapp_inj_l in H. revert l' H.
  set (f := fun i : u32 => dec (u32v i)).
  assert (HD : forall i, sall digit (f i) = true) by (intros; apply dec_digits).
  assert (HN : forall i, exists c r, f i = String c r /\ digit c = true).
  { intros i. pose proof (HD i) as H. destruct (f i) as [|c r] eqn:E.
    - exfalso. unfold f, dec in E. destruct (u32v i) as [|q]; [discriminate E|]. cbn [N.to_uint] in E.
      pose proof (DecimalPos.Unsigned.to_uint_nonnil q) as K. destruct (Pos.to_uint q); try discriminate. auto.
    - exists c, r. split; [reflexivity|]. cbn in H. apply andb_prop in H. apply H. }
  induction l as [|a l IH]; intros l' H.
  - destruct l' as [|b [|b' l']]; [reflexivity| |]; cbn in H; destruct (HN b) as (c & r & E & D); rewrite E in H;
      injection H as <- _; discriminate D.
  - destruct l' as [|b l'].
    { destruct l as [|a' l]; cbn in H; destruct (HN a) as (c & r & E & D); rewrite E in H; injection H as -> _; discriminate D. }
    destruct l as [|a' l], l' as [|b' l'].
    + cbn in H. apply (stop_inj digit "]" eq_refl) in H; [|apply HD|apply HD]. destruct H as [H _]. apply u32v_dec_inj in H. congruence.
    + cbn in H. exfalso. revert H. apply (stop_neq digit "]" "," eq_refl eq_refl); [discriminate|apply HD|apply HD].
    + cbn in H. exfalso. symmetry in H. revert H. apply (stop_neq digit "]" "," eq_refl eq_refl); [discriminate|apply HD|apply HD].
    + change (f a ++ String "," (String " " (elements f (a' :: l))) = f b ++ String "," (String " " (elements f (b' :: l')))) in H.
      apply (stop_inj digit "," eq_refl) in H; [|apply HD|apply HD]. destruct H as [H H']. apply u32v_dec_inj in H. subst b.
      injection H' as H'. f_equal. exact (IH (b' :: l') H').
Qed.

(** ** quoted strings: no escaped character is the beginning of another one *)
Definition all_ascii : list ascii := map (fun n => ascii_of_nat n) (seq 0 256).
Lemma all_ascii_in : forall c, In c all_ascii.
Proof.
  intros c. unfold all_ascii. apply in_map_iff. exists (nat_of_ascii c). split; [apply ascii_nat_embedding|].
  apply in_seq. pose proof (nat_ascii_bounded c). lia.
Qed.
Definition clash (a b : ascii) : bool := prefix (escape_char a) (escape_char b) && negb (Ascii.eqb a b).
Lemma no_clash_all : forallb (fun a => forallb (fun b => negb (clash a b)) all_ascii) all_ascii = true.
Proof. vm_compute. reflexivity. Qed.
Lemma no_clash : forall a b, prefix (escape_char a) (escape_char b) = true -> a = b.
Proof.
  intros a b H. pose proof no_clash_all as K. rewrite forallb_forall in K. pose proof (K a (all_ascii_in a)) as Ka.
  rewrite forallb_forall in Ka. specialize (Ka b (all_ascii_in b)). unfold clash in Ka. rewrite H in Ka. cbn in Ka.
  destruct (Ascii.eqb_spec a b); [assumption|discriminate Ka].
Qed.
Lemma prefix_both : forall a b x y, a ++ x = b ++ y -> prefix a b = true \/ prefix b a = true.
Proof.
  induction a as [|c a IH]; intros [|d b] x y H; cbn; auto.
  cbn in H. injection H as -> H. destruct (ascii_dec d d); [|contradiction]. exact (IH _ _ _ H).
Qed.
Lemma escape_nonempty : forall c s x, escape_char c ++ x <> "" /\ escape (String c s) <> "".
Proof.
  intros c s x. assert (H : exists d r, escape_char c = String d r).
  { destruct c as [[] [] [] [] [] [] [] []]; eexists; eexists; reflexivity. }
  destruct H as (d & r & E). cbn. rewrite E. split; discriminate.
Qed.
Lemma escape_inj : forall s s', escape s = escape s' -> s = s'.
Proof.
  induction s as [|c s IH]; intros [|c' s'] H.
  - reflexivity.
  - symmetry in H. destruct (escape_nonempty c' s' "") as [_ K]. contradiction.
  - destruct (escape_nonempty c s "") as [_ K]. contradiction.
  - cbn in H. assert (c = c').
    { destruct (prefix_both _ _ _ _ H) as [K|K]; apply no_clash in K; congruence. }
    subst c'. apply sapp_inj_l in H. f_equal. exact (IH _ H).
Qed.
Lemma snoc_inj : forall a b c, a ++ String c "" = b ++ String c "" -> a = b.
Proof.
  induction a as [|x a IH]; intros [|y b] c H; cbn in H.
  - reflexivity.
  - injection H as -> H. destruct b; discriminate H.
  - injection H as -> H. destruct a; discriminate H.
  - injection H as -> H. f_equal. exact (IH _ _ H).
Qed.
Lemma debug_string_inj : forall s s', debug_string s = debug_string s' -> s = s'.
Proof. intros s s' H. unfold debug_string in H. apply sapp_inj_l in H. apply snoc_inj in H. apply escape_inj. exact H. Qed.

(** ** which error a text belongs to, from its beginning *)
Definition beginnings : list string :=
  ["An error happened while s"; "An error happened while des"; "An error happened while c"; "An error happened while dec";
   "Could not d"; "Could not e"; "The s"; "The compl"; "The i"; "Index"; "Could not g"; "Too many s"; "The Ni"; "The l"; "Some";
   "Could not r"; "["; "The pr"; "The nu"; "Too many i"; "The pa"; "Could not compute the p"; "Could not compute the s"; "The t";
   "These"; "Inv"; """"].
Fixpoint first_prefix (l : list string) (k : nat) (s : string) : nat :=
  match l with [] => k | b :: l' => if prefix b s then k else first_prefix l' (Datatypes.S k) s end.
Definition kind_of_text : string -> nat := first_prefix beginnings 0.
Definition kind {S : Suite} (e : Error) : nat :=
  match e with
  | SerializationError => 0 | DeserializationError => 1 | CompressionError => 2 | DecompressionError => 3
  | DecryptionError => 4 | EncryptionError => 5 | ShareVerificationError => 6 | ComplaintVerificationError => 7
  | IndexIsZero => 8 | IndexMismatch _ _ => 9 | InvalidGroupKey => 10 | TooManySigners _ _ => 11
  | InvalidProofOfKnowledge => 12 | InvalidCommitmentLength => 13 | MissingShares => 14 | NoEncryptedShares => 15
  | ComplaintErr _ => 16 | InvalidMSMParameters => 17 | InvalidNumberOfParticipants _ _ => 18 | TooManyInvalidParticipants _ => 19
  | MissingCommitmentShares => 20 | InvalidBindingFactor => 21 | InvalidChallenge => 22 | InvalidSignature => 23
  | MisbehavingParticipants _ => 24 | InvalidThresholdParams => 25 | Custom _ => 26
  end.
Lemma kind_display : forall (S : Suite) dbg e, kind_of_text (display dbg e) = kind e.
Proof.
  intros S dbg []; try reflexivity; unfold kind_of_text, beginnings, display, debug_vec, debug_string; cbn.
  - destruct (elements dbg l); reflexivity.
  - destruct (escape s ++ """"); reflexivity.
Qed.

(** the text of an error determines which error it is and every number, index list and message in it; only the
    complaints of a ComplaintErr are known no further than their own debug output *)
Theorem C95_text_determines_the_error :
  forall (S : Suite) (dbg : Complaint -> string) (e e' : Error),
  display dbg e = display dbg e' ->
  e = e' \/ exists l l', e = ComplaintErr l /\ e' = ComplaintErr l' /\ debug_vec dbg l = debug_vec dbg l'.
Proof.
  intros S dbg e e' H. pose proof (f_equal kind_of_text H) as K. rewrite !kind_display in K.
  destruct e, e'; try discriminate K; clear K; try (left; reflexivity).
  - left. cbn [display] in H. apply sapp_inj_l in H. apply (stop_inj digit ")" eq_refl) in H; [|apply dec_digits|apply dec_digits].
    destruct H as [H1 H]. apply u32v_dec_inj in H1. apply (sapp_inj_l " and the public key index (") in H.
    apply (stop_inj digit ")" eq_refl) in H; [|apply dec_digits|apply dec_digits]. destruct H as [H _]. apply u32v_dec_inj in H. congruence.
  - right. eexists. eexists. split; [reflexivity|]. split; [reflexivity|]. exact H.
  - left. cbn [display] in H. apply sapp_inj_l in H. apply (stop_inj digit " " eq_refl) in H; [|apply dec_digits|apply dec_digits].
    destruct H as [H1 H]. apply dec_inj in H1. apply (sapp_inj_l "does not match Dkg instance parameters ") in H.
    apply (stop_inj digit "." eq_refl) in H; [|apply dec_digits|apply dec_digits]. destruct H as [H _]. apply u32v_dec_inj in H.
    f_equal; [lia|exact H].
  - left. cbn [display] in H. apply sapp_inj_l in H. apply indices_inj in H. congruence.
  - left. cbn [display] in H. apply sapp_inj_l in H. apply (stop_inj digit ")" eq_refl) in H; [|apply dec_digits|apply dec_digits].
    destruct H as [H1 H]. apply dec_inj in H1. apply (sapp_inj_l " given the DKG instance parameters (total participants set to ") in H.
    apply (stop_inj digit ")" eq_refl) in H; [|apply dec_digits|apply dec_digits]. destruct H as [H _]. apply u32v_dec_inj in H.
    f_equal; [lia|exact H].
  - left. cbn [display] in H. apply sapp_inj_l in H. apply indices_inj in H. congruence.
  - left. cbn [display] in H. apply debug_string_inj in H. congruence.
Qed.
Print Assumptions C95_text_determines_the_error.

(** ** errors that carry the text of another one *)
Lemma lagrange_text : forall (S : Suite) (dbg : Complaint -> string) i l e, lagrange i l = Err e -> error_to_string e = display dbg e.
Proof.
  intros S dbg i l e H. unfold lagrange in H.
  destruct (negb _); [injection H as <-; reflexivity|]. destruct (existsb _ _); [injection H as <-; reflexivity|].
  destruct (lagrange_loop _ _ _ _) as [num den]. destruct (Finverse den); [discriminate H|]. injection H as <-. reflexivity.
Qed.
Lemma signing_key_text : forall (S : Suite) (dbg : Complaint -> string) idx shares key e, signing_key_loop idx shares key = Err e ->
  exists i e0, In i (bkeys shares) /\ lagrange i idx = Err e0 /\ e = Custom (display dbg e0).
Proof.
  intros S dbg idx. induction shares as [|[i s] rest IH]; intros key e H; cbn in H; [discriminate H|].
  destruct (lagrange i idx) as [c|e0|] eqn:E; [|injection H as <-|discriminate H].
  - destruct (IH _ _ H) as (j & e0 & A & B). exists j, e0. split; [right; exact A|exact B].
  - exists i, e0. split; [left; reflexivity|]. split; [exact E|]. f_equal. exact (lagrange_text _ _ _ _ _ E).
Qed.
Lemma ivk_verify_text : forall (S : Suite) (dbg : Complaint -> string) x idx cs rhs e, ivk_verify_loop x idx cs rhs = Err e ->
  exists i e0, In i (map vss_index cs) /\ lagrange i idx = Err e0 /\ e = Custom (display dbg e0).
Proof.
  intros S dbg x idx. induction cs as [|c cs IH]; intros rhs e H; cbn in H; [discriminate H|].
  destruct (lagrange (vss_index c) idx) as [co|e0|] eqn:E; [|injection H as <-|discriminate H].
  - destruct (IH _ _ H) as (j & e0 & A & B). exists j, e0. split; [right; exact A|exact B].
  - exists (vss_index c), e0. split; [left; reflexivity|]. split; [exact E|]. f_equal. exact (lagrange_text _ _ _ _ _ E).
Qed.

(** finish and the check of a verifying key hand on the reason of a failed interpolation as text, quoted once more *)
Theorem C95_wrapped_errors_carry_the_text :
  forall (S : Suite) (dbg : Complaint -> string),
  (forall st shares e, ds_shares st = Some shares -> calculate_signing_key st = Err e ->
     exists i e0, In i (bkeys shares) /\ lagrange i (bkeys shares) = Err e0 /\ e = Custom (display dbg e0)) /\
  (forall k cs e, ivk_verify k cs = Err e -> e <> ShareVerificationError ->
     exists i e0, In i (map vss_index cs) /\ lagrange i (map vss_index cs) = Err e0 /\ e = Custom (display dbg e0)) /\
  (forall i l e, lagrange i l = Err e -> e = IndexIsZero \/
     display dbg e = """Duplicate indices provided""" /\
     display dbg (Custom (display dbg e)) = """\""Duplicate indices provided\""""").
Proof.
  intros S dbg. split; [|split].
  - intros st shares e Hs H. unfold calculate_signing_key in H. rewrite Hs in H. unfold bind in H.
    destruct (signing_key_loop (bkeys shares) shares F0) as [k|e1|] eqn:E; [discriminate H|injection H as <-|discriminate H].
    exact (signing_key_text _ dbg _ _ _ _ E).
  - intros k cs e H Hn. unfold ivk_verify, bind in H.
    destruct (ivk_verify_loop _ _ _ _) as [q|e1|] eqn:E; [|injection H as <-|discriminate H].
    + destruct (Geqb _ _); [discriminate H|]. injection H as <-. contradiction.
    + exact (ivk_verify_text _ dbg _ _ _ _ _ E).
  - intros i l e H. unfold lagrange in H.
    destruct (negb _); [injection H as <-; right; split; reflexivity|].
    destruct (existsb _ _); [injection H as <-; left; reflexivity|].
    destruct (lagrange_loop _ _ _ _) as [num den]. destruct (Finverse den); [discriminate H|]. injection H as <-. right. split; reflexivity.
Qed.
Print Assumptions C95_wrapped_errors_carry_the_text.

(** the text of a failed finalize calls partial signatures invalid although the participants it names sent none or have
    no key on record *)
Theorem C95_missing_signatures_are_called_invalid :
  forall (S : Suite) (dbg : Complaint -> string) (a : AggInitial) (e : Error), finalize a = Err e ->
  exists l, display dbg e = "These participants provided invalid partial signatures: " ++ debug_indices l /\ l <> [] /\
    forall i, In i l -> i <> u32_zero ->
      bget i (ag_partials (ai_state a)) = None \/ bget i (ag_keys (ai_state a)) = None.
Proof.
  intros S dbg a e H. unfold finalize in H.
  set (mis1 := match remaining_signers a with [] => [] | _ => _ end) in H.
  set (mis2 := map sg_index (filter _ (ag_signers (ai_state a)))) in H.
  assert (M1 : forall i, In i mis1 -> i <> u32_zero -> bget i (ag_partials (ai_state a)) = None).
  { intros i Hi Hn. unfold mis1 in Hi. destruct (remaining_signers a) as [|s0 rem0] eqn:E; [destruct Hi|].
    rewrite <- E in Hi. destruct Hi as [Hi|Hi]; [congruence|]. apply in_map_iff in Hi as (s & <- & Hs).
    unfold remaining_signers in Hs. apply dedup_by_incl in Hs. apply (Permutation_in _ (sort_by_perm sg_index _)) in Hs. apply filter_In in Hs as [_ Hs].
    destruct (bget (sg_index s) (ag_partials (ai_state a))); [discriminate Hs|reflexivity]. }
  assert (M2 : forall i, In i mis2 -> bget i (ag_keys (ai_state a)) = None).
  { intros i Hi. unfold mis2 in Hi. apply in_map_iff in Hi as (s & <- & Hs). apply filter_In in Hs as [_ Hs].
    destruct (bget (sg_index s) (ag_keys (ai_state a))); [discriminate Hs|reflexivity]. }
  destruct (mis1 ++ mis2)%list as [|x l] eqn:E; [discriminate H|]. injection H as <-.
  exists (x :: l). split; [reflexivity|]. split; [discriminate|]. intros i Hi Hn. rewrite <- E in Hi. apply in_app_iff in Hi as [Hi|Hi].
  - left. exact (M1 i Hi Hn).
  - right. exact (M2 i Hi).
Qed.
Print Assumptions C95_missing_signatures_are_called_invalid.

Example C95_ex :
  let dbg := fun _ : @Complaint Toy => "complaint" in
  display dbg (MisbehavingParticipants [u 0; u 2; u 4294967295]) =
    "These participants provided invalid partial signatures: [0, 2, 4294967295]" /\
  display dbg (IndexMismatch (u 3) (u 17)) = "Index mismatch between participant index (3) and the public key index (17)." /\
  display dbg (TooManySigners 4 (u 3)) =
    "Too many signers (4) given the DKG instance parameters (total participants set to 3)." /\
  display dbg (TooManyInvalidParticipants []) = "Too many invalid participants to continue the Dkg: []" /\
  display dbg (Custom ("a""b\" ++ String (ascii_of_nat 10) (String (ascii_of_nat 31) ""))) = """a\""b\\\n\u{1f}""".
Proof. cbv zeta. repeat split; vmr. Qed.

(** an interpolation over doubled indices, as a verifier meets it when one commitment is passed twice *)
Example C95_ex_wrapped :
  let c := MkVss (u 1) [gen] in
  ivk_verify (MkVK (u 2) gen) [c; c] = Err (Custom """Duplicate indices provided""").
Proof. vms. Qed.

(** one signer announced, nothing sent *)
Example C95_ex_finalize :
  finalize (snd (include_signer (agg_new (MkParams (u 3) (u 2)) gen []) (u 2) (gen, gen) (MkVK (u 2) gen))) =
  Err (MisbehavingParticipants [u 0; u 2]).
Proof. vmr. Qed.

(** every control character of a custom error is escaped as the core library does *)
Example C95_ex_escapes :
  let dbg := fun _ : @Complaint Toy => "complaint" in
  let from := fix from (n k : nat) : string := match k with O => "" | Datatypes.S k' => String (ascii_of_nat n) (from (Datatypes.S n) k') end in
  display dbg (Custom (from 0 33)) =
    """\0\u{1}\u{2}\u{3}\u{4}\u{5}\u{6}\u{7}\u{8}\t\n\u{b}\u{c}\r\u{e}\u{f}\u{10}\u{11}\u{12}\u{13}\u{14}\u{15}\u{16}\u{17}\u{18}\u{19}\u{1a}\u{1b}\u{1c}\u{1d}\u{1e}\u{1f} """ /\
  display dbg (Custom (from 126 2)) = """~\u{7f}""".
Proof. cbv zeta. split; vmr. Qed.
