(** C109: sessions over a network. What the calls return can be sent and stored: written, and read back as it was. Whatever
    was read from bytes can be passed on. The programs of the documentation have the same outcome when all that passes
    between participants, and all they keep, goes through bytes. *)
From Coq Require Import String Strings.Byte Arith NArith ZArith Bool List Lia Permutation Field.
From Verif Require Import Base BaseLemmas Suite Algebra Spec Types Toy ModelDkg ModelSign ModelErase ModelCompare ModelCodec ModelDoc ModelWire SpecDkg SpecSign SpecCodec
  LemmasShare LemmasRound1 LemmasRound2 LemmasFinish PropsShare PropsFinish PropsReshare LemmasSign PropsSign LemmasAgg PropsAgg LemmasCodec
  Demo DemoDkg DemoSign PropsCodec PropsDoc PropsDocBad.
Import ListNotations.

(** written, and read back as it was, whatever follows *)
Definition travels {A} {S : Suite} (ser : A -> list byte) (d : decoder A) (v : A) : Prop :=
  exists b, to_bytes ser v = Ok b /\ forall junk, from_bytes d (b ++ junk) = Ok v.

Section Wire.
  Context {S : Suite} {L : SuiteLaws S}.

  Lemma exact_travels {A} (R : A -> Prop) ser d v : exact R ser d -> R v -> travels ser d v.
  Proof.
    intros H HR. destruct (exact_round_trips R ser d H v HR) as (b & E & E2 & _). exists b. split; [exact E|exact E2].
  Qed.
  Lemma wire_ok {A} (R : A -> Prop) ser d v : exact R ser d -> R v -> wire ser d v = Ok v.
  Proof.
    intros H HR. destruct (exact_travels R ser d v H HR) as (b & E & E2). unfold wire. rewrite E. cbn [bind].
    specialize (E2 []). rewrite app_nil_r in E2. exact E2.
  Qed.
  Lemma traverse_same {A} (f : A -> result A) l : (forall a, In a l -> f a = Ok a) -> traverse f l = Ok l.
  Proof.
    induction l as [|a l IH]; intros H; [reflexivity|]. cbn [traverse]. rewrite (H a (or_introl eq_refl)). cbn [bind].
    rewrite IH by (intros b Hb; apply H; right; exact Hb). reflexivity.
  Qed.
  Lemma wire_shares_ok es : real_map real_enc es -> wire_shares es = Ok es.
  Proof.
    intros [_ H]. apply traverse_same. intros [k e] Hin. cbn [fst snd]. rewrite (wire_ok real_enc) by (exact exact_encshare || exact (H k e Hin)). reflexivity.
  Qed.
  Lemma each_ext {A B} (f g : A -> Rng -> result (B * Rng)) l : (forall a r, In a l -> f a r = g a r) -> forall r, each f l r = each g l r.
  Proof.
    induction l as [|a l IH]; intros H r; [reflexivity|]. cbn [each]. rewrite (H a r (or_introl eq_refl)).
    destruct (g a r) as [[b r1]|e|]; cbn [bind]; try reflexivity. rewrite IH by (intros; apply H; right; assumption). reflexivity.
  Qed.
  Lemma each_all {A B} (P : B -> Prop) (f : A -> Rng -> result (B * Rng)) l :
    (forall a r b r', In a l -> f a r = Ok (b, r') -> P b) -> forall r bs r', each f l r = Ok (bs, r') -> forall b, In b bs -> P b.
  Proof.
    induction l as [|a l IH]; intros H r bs r'; cbn [each].
    - intros E. injection E as <- _. intros b [].
    - destruct (f a r) as [[b r1]|e|] eqn:E1; cbn [bind]; try discriminate.
      destruct (each f l r1) as [[bs1 r2]|e|] eqn:E2; cbn [bind]; try discriminate. intros E. injection E as <- _.
      intros x [<-|Hx]; [apply (H a r b r1 (or_introl eq_refl) E1)|].
      apply (IH (fun a' r' b' r'' Ha => H a' r' b' r'' (or_intror Ha)) r1 bs1 r2 E2 x Hx).
  Qed.
  Lemma traverse_ext {A B} (f g : A -> result B) l : (forall a, In a l -> f a = g a) -> traverse f l = traverse g l.
  Proof.
    induction l as [|a l IH]; intros H; [reflexivity|]. cbn [traverse]. rewrite (H a (or_introl eq_refl)).
    rewrite IH by (intros; apply H; right; assumption). reflexivity.
  Qed.
  Lemma traverse_all {A B} (P : B -> Prop) (f : A -> result B) l :
    (forall a b, In a l -> f a = Ok b -> P b) -> forall bs, traverse f l = Ok bs -> forall b, In b bs -> P b.
  Proof.
    induction l as [|a l IH]; intros H bs; cbn [traverse].
    - intros E. injection E as <-. intros b [].
    - destruct (f a) as [b|e|] eqn:E1; cbn [bind]; try discriminate. destruct (traverse f l) as [bs1|e|] eqn:E2; cbn [bind]; try discriminate.
      intros E. injection E as <-. intros x [<-|Hx]; [apply (H a b (or_introl eq_refl) E1)|].
      apply (IH (fun a' b' Ha => H a' b' (or_intror Ha)) bs1 eq_refl x Hx).
  Qed.

  (** ** what the calls return *)
  Lemma small_fits {A} (l : list A) : (N.of_nat (length l) <= 4294967296)%N -> fits l.
  Proof. unfold fits. lia. Qed.
  Lemma rand_scalars_length k r : length (fst (rand_scalars k r)) = k.
  Proof.
    revert r. induction k as [|k IH]; intros r; [reflexivity|]. cbn [rand_scalars]. destruct (rand_scalar r) as [x r1].
    specialize (IH r1). destruct (rand_scalars k r1) as [l r2]. cbn in *. congruence.
  Qed.
  Lemma new_internal_real p b i sec r d co x r' : new_internal p b i sec r = Ok (d, co, x, r') ->
    real_participant d /\ forall c, co = Some c -> fits c.
  Proof.
    unfold new_internal. destruct (u32_eqb i u32_zero); [discriminate|]. cbv zeta. destruct (rand_scalar r) as [y r1].
    destruct (nizk_prove _ _ _ r1) as [q r2]. destruct b.
    - intros E. injection E as <- <- _ _. split; [intros c Ec|intros c Ec]; discriminate.
    - destruct (match sec with Some _ => _ | None => _ end) as [a0 r3].
      pose proof (rand_scalars_length (u32_nat (p_t p) - 1) r3) as HL. destruct (rand_scalars (u32_nat (p_t p) - 1) r3) as [rest r4]. cbn [fst] in HL.
      destruct (vss_public_key _) as [pk|]; [|discriminate]. destruct (nizk_prove i a0 pk r4) as [q' r5].
      assert (HF : fits (a0 :: rest)).
      { apply small_fits. cbn [length]. rewrite HL. pose proof (u32_bound (p_t p)). unfold u32_nat. lia. }
      intros E. injection E as <- <- _ _. split; intros c Ec; injection Ec as <-; [|exact HF].
      unfold real_vss. cbn [vss_points]. unfold fits. rewrite map_length, firstn_length. unfold fits in HF. lia.
  Qed.
  Lemma new_dealer_real p i r d co x r' : new_dealer p i r = Ok (d, co, x, r') -> real_participant d /\ fits co.
  Proof.
    unfold new_dealer. destruct (new_internal p false i None r) as [[[[d1 [c|]] x1] r1]|e|] eqn:E; cbn [bind]; try discriminate.
    intros X. injection X as <- <- _ _. apply new_internal_real in E. split; [apply E|apply E; reflexivity].
  Qed.
  Lemma new_signer_real p i r d x r' : new_signer p i r = Ok (d, x, r') -> real_participant d.
  Proof.
    unfold new_signer. destruct (new_internal p true i None r) as [[[[d1 c] x1] r1]|e|] eqn:E; cbn [bind]; try discriminate.
    intros X. injection X as <- _ _. apply new_internal_real in E. apply E.
  Qed.
  Lemma check_all_lists m params fd fs ps : forall a a', check_all m params fd fs ps a = Ok a' ->
    (forall p, In p (acc_valid a') -> In p (acc_valid a) \/ In p ps) /\
    length (acc_valid a') + length (acc_mis a') = length (acc_valid a) + length (acc_mis a) + length ps.
  Proof.
    induction ps as [|p ps IH]; intros a a'; cbn [check_all].
    - intros E. injection E as <-. split; [auto|cbn; lia].
    - destruct (check_one m params fd fs p a) as [b|e|] eqn:E1; cbn [bind]; try discriminate. intros E.
      assert (B : (acc_valid b = acc_valid a ++ [p] /\ acc_mis b = acc_mis a) \/ b = acc_flag a p).
      { clear IH E. unfold check_one in E1.
        destruct (is_ok (nizk_verify (pt_dh_proof p) _ _)); [|injection E1 as <-; auto].
        destruct fs.
        - destruct (part_public_key p); [|injection E1 as <-; auto]. destruct (pt_sk_proof p); [|discriminate].
          destruct (is_ok (nizk_verify _ _ _)); [|injection E1 as <-; auto]. destruct (pt_comm p) as [c|]; [|discriminate].
          destruct (fd && _); injection E1 as <-; [right; reflexivity|left; cbn [acc_valid acc_mis]; auto].
        - destruct (is_debug m && negb fd); [discriminate|]. injection E1 as <-. left. cbn [acc_valid acc_mis]. auto. }
      destruct (IH b a' E) as (H1 & H2). destruct B as [[B1 B2]| ->].
      + rewrite B1, B2, app_length in H2. cbn [length] in *. split; [|lia]. intros q Hq. rewrite B1 in H1.
        destruct (H1 q Hq) as [K|K]; [apply in_app_or in K; destruct K as [K|[<-|[]]]; [left; exact K|right; left; reflexivity]|right; right; exact K].
      + unfold acc_flag in *. cbn [acc_valid acc_mis] in *. rewrite app_length in H2. cbn [length] in *. split; [|lia].
        intros q Hq. destruct (H1 q Hq) as [K|K]; [left; exact K|right; right; exact K].
  Qed.
  Lemma new_state_list m params x my co ps fd fs r s l r' : (forall p, In p ps -> real_participant p) ->
    new_state_internal m params x my co ps fd fs r = Ok (s, l, r') -> real_part_list l.
  Proof.
    intros Hp. unfold new_state_internal. destruct (N.eqb_spec (N.of_nat (length ps)) (u32v (p_n params))) as [Hn|]; [|discriminate]. cbn [negb].
    destruct (check_all m params fd fs ps _) as [a|e|] eqn:E1; cbn [bind]; try discriminate.
    apply check_all_lists in E1. cbn [acc_valid acc_mis length] in E1. destruct E1 as [H1 H2].
    assert (R : real_part_list (MkPList (acc_valid a) (opt_list (acc_mis a)))).
    { pose proof (u32_bound (p_n params)) as Hb. split; cbn [pl_valid pl_mis].
      - split; [apply small_fits; lia|]. intros p Hin. apply H1 in Hin. destruct Hin as [[]|Hin]. apply Hp, Hin.
      - intros z Ez. unfold opt_list in Ez. destruct (acc_mis a) as [|i q]; [discriminate|]. injection Ez as <-. apply small_fits. lia. }
    destruct (N.ltb _ _); [discriminate|]. destruct (negb fd && fs).
    - destruct (u32_sub _ _ _) as [n'|e|]; cbn [bind]; try discriminate. destruct (params_new _ _ _) as [p'|e|]; cbn [bind]; try discriminate.
      intros E. injection E as _ <- _. exact R.
    - destruct (encrypt_all my x co ps [] r) as [[es r1]|e|] eqn:E2; cbn [bind]; try discriminate.
      destruct (u32_sub _ _ _) as [n'|e|]; cbn [bind]; try discriminate. destruct (params_new _ _ _) as [p'|e|]; cbn [bind]; try discriminate.
      intros E. injection E as _ <- _. exact R.
  Qed.
  Lemma their_shares_real st es : real_state (st1 st) -> their_encrypted_secret_shares st = Ok es -> real_map real_enc es.
  Proof.
    intros H. unfold their_encrypted_secret_shares. destruct (ds_enc (st1 st)) as [z|] eqn:E; [|discriminate]. intros X. injection X as <-. apply H, E.
  Qed.
  Lemma reshare_real m params sk signers r d es l r' : cipher_fits -> (forall p, In p signers -> real_participant p) ->
    reshare m params sk signers r = Ok (d, es, l, r') -> real_participant d /\ real_map real_enc es /\ real_part_list l.
  Proof.
    intros HC Hp. unfold reshare. destruct (new_internal _ _ _ _ _) as [[[[d1 [c|]] x1] r1]|e|] eqn:E1; cbn [bind]; try discriminate.
    destruct (new_state_internal _ _ _ _ _ _ _ _ _) as [[[st l1] r2]|e|] eqn:E2; cbn [bind]; try discriminate.
    destruct (their_encrypted_secret_shares st) as [es1|e|] eqn:E3; cbn [bind]; try discriminate. intros X. injection X as <- <- <- _.
    split; [apply new_internal_real in E1; apply E1|]. split; [|apply (new_state_list _ _ _ _ _ _ _ _ _ _ _ _ Hp E2)].
    destruct (new_state_real _ _ _ _ _ _ _ _ _ _ _ _ HC Hp E2) as [HR _]. apply (their_shares_real _ _ HR E3).
  Qed.
  Lemma round_two_complaints m st es : forall sh cs r sh' cs' r', round_two_loop m st es sh cs r = Ok (sh', cs', r') ->
    (forall e, In e es -> real_enc e) -> (forall c, In c cs -> real_complaint c) -> forall c, In c cs' -> real_complaint c.
  Proof.
    induction es as [|e es IH]; intros sh cs r sh' cs' r'; cbn [round_two_loop].
    - intros E _ H. injection E as _ <- _. exact H.
    - destruct (is_debug m && _); [discriminate|]. destruct (bget _ _) as [pk|]; [|discriminate]. destruct (ds_comms st) as [comms|]; [|discriminate].
      destruct (find _ comms).
      + destruct (complaint_new _ _ _ _ _) as [c r1] eqn:Ec. intros E He H. apply (IH _ _ _ _ _ _ E); [intros; apply He; right; assumption|].
        intros c' Hc'. apply in_app_or in Hc'. destruct Hc' as [Hc'|[<-|[]]]; [apply H, Hc'|].
        unfold complaint_new in Ec. destruct (rand_scalar r). cbv zeta in Ec. injection Ec as <- _. apply (He e (or_introl eq_refl)).
      + intros E He H. apply (IH _ _ _ _ _ _ E); [intros; apply He; right; assumption|exact H].
  Qed.
  Lemma complaints_real m s es r s' cs r' : (forall e, In e es -> real_enc e) -> to_round_two m s es r = Ok (s', cs, r') ->
    forall c, In c cs -> real_complaint c.
  Proof.
    intros H. unfold to_round_two. cbv zeta. destruct (N.ltb _ _); [discriminate|].
    destruct (round_two_loop _ _ _ _ _ _) as [[[sh cs1] r1]|e|] eqn:E1; cbn [bind]; try discriminate.
    destruct (u32_sub _ _ _) as [n'|e|]; cbn [bind]; try discriminate. destruct (u32_ltb _ _); [discriminate|].
    intros E. injection E as _ <- _. apply (round_two_complaints _ _ _ _ _ _ _ _ _ E1 H). intros c [].
  Qed.
  Lemma gen_shares_length k n r : length (fst (gen_shares k n r)) = n.
  Proof.
    revert r. induction n as [|n IH]; intros r; [reflexivity|]. cbn [gen_shares]. destruct (nonce_pair k r) as [[x y] r1].
    specialize (IH r1). destruct (gen_shares k n r1) as [l r2]. cbn in *. congruence.
  Qed.
  Lemma lists_real r k n pub sec r' : (N.of_nat n < 18446744073709551616)%N -> generate_commitment_share_lists r k n = (pub, sec, r') ->
    fits (pl_commitments pub) /\ fits (sl_commitments sec).
  Proof.
    intros Hn. unfold generate_commitment_share_lists. pose proof (gen_shares_length k n r) as HL. destruct (gen_shares k n r) as [l r1]. cbn [fst] in HL.
    intros E. injection E as <- <- _. unfold fits. cbn [pl_commitments sl_commitments]. rewrite map_length, HL. auto.
  Qed.
  Lemma drop_share_fits l c : fits (sl_commitments l) -> fits (sl_commitments (drop_share l c)).
  Proof.
    unfold drop_share, fits. destruct (find_last _ _ _ _) as [i|]; [|auto]. cbn [sl_commitments]. unfold remove_at. rewrite app_length, firstn_length, skipn_length. lia.
  Qed.
  Lemma sign_fits m k mh gk l idx sg : fits (sl_commitments l) -> fits (sl_commitments (snd (sign m k mh gk l idx sg))).
  Proof.
    intros H. unfold sign. destruct (usize_succ m idx); cbn [snd]; try exact H. destruct (N.ltb _ _); cbn [snd]; try exact H.
    destruct (compute_binding_factors mh sg) as [bf|e|]; cbn [snd]; try exact H.
    destruct (binding_factor_for_participant _ _) as [rho|e|]; cbn [snd]; try exact H.
    destruct (compute_group_commitment _ _) as [R|e|]; cbn [snd]; try exact H.
    destruct (lagrange _ _) as [la|e|]; cbn [snd]; try exact H. destruct (nthN _ _) as [cs|]; cbn [snd]; try exact H.
    apply drop_share_fits, H.
  Qed.

  (** ** what is read from bytes *)
  Definition reads {A} (R : A -> Prop) (d : decoder A) : Prop := forall bs v r, d bs = Some (v, r) -> R v.
  Lemma reads_any {A} (d : decoder A) : reads any d.
  Proof. intros bs v r _. exact I. Qed.
  Lemma de_many_reads {A} (R : A -> Prop) d : reads R d -> forall k bs l r, de_many d k bs = Some (l, r) -> length l = k /\ forall a, In a l -> R a.
  Proof.
    intros H. induction k as [|k IH]; intros bs l r; cbn [de_many].
    - intros E. injection E as <- _. split; [reflexivity|intros a []].
    - destruct (d bs) as [[a r1]|] eqn:E1; cbn [dthen]; [|discriminate]. destruct (de_many d k r1) as [[l1 r2]|] eqn:E2; cbn [dthen]; [|discriminate].
      intros E. injection E as <- _. destruct (IH _ _ _ E2) as [H1 H2]. split; [cbn; congruence|]. intros b [<-|Hb]; [apply (H _ _ _ E1)|apply H2, Hb].
  Qed.
  Lemma reads_vec {A} (R : A -> Prop) d : reads R d -> reads (real_vec R) (de_vec d).
  Proof.
    intros H bs l r. unfold de_vec, de_u64. destruct (de_uint 8 bs) as [[n r1]|] eqn:E1; cbn [dthen]; [|discriminate].
    intros E. apply (de_many_reads R d H) in E. destruct E as [E H2]. apply de_uint_inv in E1. destruct E1 as [_ Hn].
    split; [|exact H2]. unfold fits. rewrite E, N2Nat.id. exact Hn.
  Qed.
  Lemma reads_fits {A} (d : decoder A) : reads (@fits A) (de_vec d).
  Proof. intros bs l r E. apply (reads_vec any d (reads_any d)) in E. apply E. Qed.
  Lemma reads_option {A} (R : A -> Prop) d : reads R d -> reads (real_option R) (de_option d).
  Proof.
    intros H bs o r. unfold de_option. destruct (de_u8 bs) as [[b r1]|]; cbn [dthen]; [|discriminate].
    destruct b; try discriminate; [intros E; injection E as <- _; intros a Ea; discriminate|].
    destruct (d r1) as [[a r2]|] eqn:E1; cbn [dthen]; [|discriminate]. intros E. injection E as <- _. intros a' Ea. injection Ea as <-. apply (H _ _ _ E1).
  Qed.
  Lemma reads_pair {A B} (Q : A -> Prop) (R : B -> Prop) d e : reads Q d -> reads R e -> reads (fun p => Q (fst p) /\ R (snd p)) (de_pair d e).
  Proof.
    intros H1 H2 bs p r. unfold de_pair. destruct (d bs) as [[a r1]|] eqn:E1; cbn [dthen]; [|discriminate].
    destruct (e r1) as [[b r2]|] eqn:E2; cbn [dthen]; [|discriminate]. intros E. injection E as <- _. split; [apply (H1 _ _ _ E1)|apply (H2 _ _ _ E2)].
  Qed.
  Lemma reads_map {V} (R : V -> Prop) d : reads R d -> reads (real_map R) (de_map d).
  Proof.
    intros H bs m r. unfold de_map. destruct (de_vec _ bs) as [[l r1]|] eqn:E1; cbn [dthen]; [|discriminate].
    apply (reads_vec _ _ (reads_pair any R de_u32 d (reads_any _) H)) in E1. destruct E1 as [_ H2].
    intros E. injection E as <- _. assert (H3 : real_map R (@nil (u32 * V))) by apply real_map_nil. revert H3. generalize (@nil (u32 * V)). clear r bs r1.
    induction l as [|[k v] l IH]; intros acc Ha; [exact Ha|]. cbn [fold_left fst snd]. apply IH; [intros; apply H2; right; assumption|].
    apply fold_binsert_real; [exact Ha|apply (H2 (k, v)); left; reflexivity].
  Qed.
  Ltac step E := match goal with |- dthen ?e _ = _ -> _ => destruct e as [[? ?]|] eqn:E; cbn [dthen]; [|discriminate] end.
  Lemma reads_vss : reads real_vss de_vss.
  Proof.
    intros bs v r. unfold de_vss. step E1. step E2. intros E. injection E as <- _. apply (reads_fits _ _ _ _ E2).
  Qed.
  Lemma reads_enc : reads real_enc de_encshare.
  Proof.
    intros bs v r. unfold de_encshare. step E1. step E2. step E3. destruct (nonce_of _) as [n|] eqn:En; [|discriminate]. step E4.
    intros E. injection E as <- _. split; cbn [es_nonce es_ct]; [|apply (reads_fits _ _ _ _ E4)].
    apply nonce_of_inv in En. rewrite En. apply (reads_fits _ _ _ _ E3).
  Qed.
  Lemma reads_complaint : reads real_complaint de_complaint.
  Proof.
    intros bs v r. unfold de_complaint. step E1. step E2. step E3. step E4. intros E. injection E as <- _. apply (reads_enc _ _ _ E3).
  Qed.
  Lemma reads_participant : reads real_participant de_participant.
  Proof.
    intros bs v r. unfold de_participant. step E1. step E2. step E3. step E4. step E5. intros E. injection E as <- _.
    apply (reads_option real_vss _ reads_vss _ _ _ E3).
  Qed.
  Lemma reads_part_list : reads real_part_list de_part_list.
  Proof.
    intros bs v r. unfold de_part_list. step E1. step E2. intros E. injection E as <- _. split; cbn [pl_valid pl_mis].
    - apply (reads_vec _ _ reads_participant _ _ _ E1).
    - apply (reads_option _ _ (reads_fits _) _ _ _ E2).
  Qed.
  Lemma reads_state : reads real_state de_state.
  Proof.
    intros bs v r. unfold de_state. step E1. step E2. step E3. step E4. step E5. step E6. step E7. step E8. intros E. injection E as <- _.
    split; cbn [ds_comms ds_dhs ds_enc ds_shares].
    - apply (reads_option _ _ (reads_map _ _ reads_vss) _ _ _ E5).
    - apply (reads_map _ _ (reads_any _) _ _ _ E6).
    - apply (reads_option _ _ (reads_map _ _ reads_enc) _ _ _ E7).
    - apply (reads_option _ _ (reads_map _ _ (reads_any _)) _ _ _ E8).
  Qed.
  Lemma reads_round_one : reads (fun s => real_state (st1 s)) de_round_one.
  Proof. intros bs v r. unfold de_round_one. step E1. intros E. injection E as <- _. apply (reads_state _ _ _ E1). Qed.
  Lemma reads_round_two : reads (fun s => real_state (st2 s)) de_round_two.
  Proof. intros bs v r. unfold de_round_two. step E1. intros E. injection E as <- _. apply (reads_state _ _ _ E1). Qed.
  Lemma reads_secret_list : reads (fun l => fits (sl_commitments l)) de_secret_list.
  Proof. intros bs v r. unfold de_secret_list. step E1. intros E. injection E as <- _. apply (reads_fits _ _ _ _ E1). Qed.
  Lemma reads_public_list : reads (fun l => fits (pl_commitments l)) de_public_list.
  Proof. intros bs v r. unfold de_public_list. step E1. step E2. intros E. injection E as <- _. apply (reads_fits _ _ _ _ E2). Qed.
  Lemma relay {A} (R : A -> Prop) ser d : exact R ser d -> reads R d -> forall bs v, from_bytes d bs = Ok v -> R v /\ travels ser d v.
  Proof.
    intros He Hr bs v. unfold from_bytes. destruct (d bs) as [[w r]|] eqn:E; [|discriminate]. intros X. injection X as ->.
    pose proof (Hr _ _ _ E) as HR. split; [exact HR|apply (exact_travels R _ _ _ He HR)].
  Qed.
End Wire.

(** * C109: what was read can be passed on *)
Theorem C109_read_values_travel : forall (S : Suite) (L : SuiteLaws S) (bs : list byte),
  (forall v, from_bytes de_params bs = Ok v -> travels ser_params de_params v) /\
  (forall v, from_bytes de_scalar bs = Ok v -> travels ser_scalar de_scalar v) /\
  (forall v, from_bytes de_point bs = Ok v -> travels ser_point de_point v) /\
  (forall v, from_bytes de_verifying_key bs = Ok v -> travels ser_verifying_key de_verifying_key v) /\
  (forall v, from_bytes de_signing_key bs = Ok v -> travels ser_signing_key de_signing_key v) /\
  (forall v, from_bytes de_coefficients bs = Ok v -> travels ser_coefficients de_coefficients v) /\
  (forall v, from_bytes de_share bs = Ok v -> travels ser_share de_share v) /\
  (forall v, from_bytes de_encshare bs = Ok v -> real_enc v /\ travels ser_encshare de_encshare v) /\
  (forall v, from_bytes de_vss bs = Ok v -> travels ser_vss de_vss v) /\
  (forall v, from_bytes de_nizk bs = Ok v -> travels ser_nizk de_nizk v) /\
  (forall v, from_bytes de_complaint_proof bs = Ok v -> travels ser_complaint_proof de_complaint_proof v) /\
  (forall v, from_bytes de_complaint bs = Ok v -> travels ser_complaint de_complaint v) /\
  (forall v, from_bytes de_participant bs = Ok v -> real_participant v /\ travels ser_participant de_participant v) /\
  (forall v, from_bytes de_part_list bs = Ok v -> travels ser_part_list de_part_list v) /\
  (forall v, from_bytes de_round_one bs = Ok v -> real_state (st1 v) /\ travels ser_round_one de_round_one v) /\
  (forall v, from_bytes de_round_two bs = Ok v -> real_state (st2 v) /\ travels ser_round_two de_round_two v) /\
  (forall v, from_bytes de_commitment_share bs = Ok v -> travels ser_commitment_share de_commitment_share v) /\
  (forall v, from_bytes de_secret_list bs = Ok v -> travels ser_secret_list de_secret_list v) /\
  (forall v, from_bytes de_public_list bs = Ok v -> travels ser_public_list de_public_list v) /\
  (forall v, from_bytes de_signer bs = Ok v -> travels ser_signer de_signer v) /\
  (forall v, from_bytes de_partial_sig bs = Ok v -> travels ser_partial_sig de_partial_sig v) /\
  (forall v, from_bytes de_threshold_sig bs = Ok v -> travels ser_threshold_sig de_threshold_sig v).
Proof.
  intros S L bs.
  repeat match goal with |- _ /\ _ => split end; intros v E.
  - apply (relay any _ _ exact_params (reads_any _) bs v E).
  - apply (relay any _ _ exact_scalar (reads_any _) bs v E).
  - apply (relay any _ _ exact_point (reads_any _) bs v E).
  - apply (relay any _ _ exact_verifying_key (reads_any _) bs v E).
  - apply (relay any _ _ exact_signing_key (reads_any _) bs v E).
  - apply (relay _ _ _ exact_coefficients (reads_fits _) bs v E).
  - apply (relay any _ _ exact_share (reads_any _) bs v E).
  - apply (relay _ _ _ exact_encshare reads_enc bs v E).
  - apply (relay _ _ _ exact_vss reads_vss bs v E).
  - apply (relay any _ _ exact_nizk (reads_any _) bs v E).
  - apply (relay any _ _ exact_complaint_proof (reads_any _) bs v E).
  - apply (relay _ _ _ exact_complaint reads_complaint bs v E).
  - apply (relay _ _ _ exact_participant reads_participant bs v E).
  - apply (relay _ _ _ exact_part_list reads_part_list bs v E).
  - apply (relay _ _ _ exact_round_one reads_round_one bs v E).
  - apply (relay _ _ _ exact_round_two reads_round_two bs v E).
  - apply (relay any _ _ exact_commitment_share (reads_any _) bs v E).
  - apply (relay _ _ _ exact_secret_list reads_secret_list bs v E).
  - apply (relay _ _ _ exact_public_list reads_public_list bs v E).
  - apply (relay any _ _ exact_signer (reads_any _) bs v E).
  - apply (relay any _ _ exact_partial_sig (reads_any _) bs v E).
  - apply (relay any _ _ exact_threshold_sig (reads_any _) bs v E).
Qed.
Print Assumptions C109_read_values_travel.

(** * C109: what the calls return can be sent *)
Theorem C109_returned_values_travel : forall (S : Suite) (L : SuiteLaws S),
  (** lengths of the nonce and of ciphertexts are below 2^64 *)
  (N.of_nat nonce_len < 18446744073709551616)%N -> (forall k n v c, aead_enc k n (enc_scalar v) = Some c -> fits c) ->
  (** new participants *)
  (forall params i r p co x r', new_dealer params i r = Ok (p, co, x, r') ->
     travels ser_participant de_participant p /\ travels ser_coefficients de_coefficients co /\ travels ser_scalar de_scalar x) /\
  (forall params i r p x r', new_signer params i r = Ok (p, x, r') ->
     travels ser_participant de_participant p /\ travels ser_scalar de_scalar x) /\
  (** round one of key generation and of resharing: the state, the list of participants and every share *)
  (forall m params x my ps r s l r', (forall p, In p ps -> real_participant p) ->
     (exists co, bootstrap m params x my co ps r = Ok (s, l, r')) \/ dkg_new m params x my ps r = Ok (s, l, r') ->
     travels ser_round_one de_round_one s /\ travels ser_part_list de_part_list l /\
     forall es i e, their_encrypted_secret_shares s = Ok es -> bget i es = Some e -> travels ser_encshare de_encshare e) /\
  (forall m params sk signers r d es l r', (forall p, In p signers -> real_participant p) ->
     reshare m params sk signers r = Ok (d, es, l, r') ->
     travels ser_participant de_participant d /\ travels ser_part_list de_part_list l /\
     forall i e, bget i es = Some e -> travels ser_encshare de_encshare e) /\
  (** round two: the state and every complaint; settling; finish *)
  (forall m s es r s' cs r', real_state (st1 s) -> (forall e, In e es -> real_enc e) ->
     to_round_two m s es r = Ok (s', cs, r') ->
     travels ser_round_two de_round_two s' /\ forall c, In c cs -> travels ser_complaint de_complaint c) /\
  (forall s cs keys s', real_state (st2 s) -> blame s cs = Ok (keys, s') ->
     travels ser_round_two de_round_two s' /\ forall k, In k keys -> travels ser_point de_point k) /\
  (forall s gk sk, finish s = Ok (gk, sk) -> travels ser_point de_point gk /\ travels ser_signing_key de_signing_key sk) /\
  (** precomputation, signing and aggregation *)
  (forall r k n pub sec r', (N.of_nat n < 18446744073709551616)%N -> generate_commitment_share_lists r k n = (pub, sec, r') ->
     travels ser_public_list de_public_list pub /\ travels ser_secret_list de_secret_list sec) /\
  (forall m k mh gk l idx signers, fits (sl_commitments l) ->
     travels ser_secret_list de_secret_list (snd (sign m k mh gk l idx signers)) /\
     forall p, fst (sign m k mh gk l idx signers) = Ok p -> travels ser_partial_sig de_partial_sig p) /\
  (forall f sig, aggregate f = Ok sig -> travels ser_threshold_sig de_threshold_sig sig).
Proof.
  intros S L H1 H2. assert (HC : cipher_fits) by (split; [unfold fits; rewrite repeat_length; exact H1|exact H2]).
  assert (TS : forall x, travels ser_scalar de_scalar x) by (intros x; apply (exact_travels any _ _ x exact_scalar I)).
  assert (TP : forall x, travels ser_point de_point x) by (intros x; apply (exact_travels any _ _ x exact_point I)).
  assert (TE : forall es i e, real_map real_enc es -> bget i es = Some e -> travels ser_encshare de_encshare e).
  { intros es i e [_ H] E. apply (exact_travels _ _ _ _ exact_encshare). apply bget_in in E. apply (H _ _ E). }
  repeat match goal with |- _ /\ _ => split end.
  - intros params i r p co x r' E. apply new_dealer_real in E. destruct E as [A B].
    split; [apply (exact_travels _ _ _ _ exact_participant A)|]. split; [apply (exact_travels _ _ _ _ exact_coefficients B)|apply TS].
  - intros params i r p x r' E. apply new_signer_real in E. split; [apply (exact_travels _ _ _ _ exact_participant E)|apply TS].
  - intros m params x my ps r s l r' Hp Hs.
    assert (HR : real_state (st1 s) /\ real_part_list l).
    { destruct Hs as [[co E]|E]; (split; [apply (new_state_real _ _ _ _ _ _ _ _ _ _ _ _ HC Hp E)|apply (new_state_list _ _ _ _ _ _ _ _ _ _ _ _ Hp E)]). }
    destruct HR as [A B]. split; [apply (exact_travels _ _ _ _ exact_round_one A)|]. split; [apply (exact_travels _ _ _ _ exact_part_list B)|].
    intros es i e E. apply TE. apply (their_shares_real _ _ A E).
  - intros m params sk signers r d es l r' Hp E. destruct (reshare_real _ _ _ _ _ _ _ _ _ HC Hp E) as (A & B & C).
    split; [apply (exact_travels _ _ _ _ exact_participant A)|]. split; [apply (exact_travels _ _ _ _ exact_part_list C)|].
    intros i e. apply TE, B.
  - intros m s es r s' cs r' Hs He E. split; [apply (exact_travels _ _ _ _ exact_round_two (to_round_two_real _ _ _ _ _ _ _ Hs E))|].
    intros c Hc. apply (exact_travels _ _ _ _ exact_complaint (complaints_real _ _ _ _ _ _ _ He E c Hc)).
  - intros s cs keys s' Hs E. split; [apply (exact_travels _ _ _ _ exact_round_two (blame_real _ _ _ _ Hs E))|intros; apply TP].
  - intros s gk sk _. split; [apply TP|apply (exact_travels any _ _ _ exact_signing_key I)].
  - intros r k n pub sec r' Hn E. apply (lists_real _ _ _ _ _ _ Hn) in E. destruct E as [A B].
    split; [apply (exact_travels _ _ _ _ exact_public_list A)|apply (exact_travels _ _ _ _ exact_secret_list B)].
  - intros m k mh gk l idx signers Hl. split; [apply (exact_travels _ _ _ _ exact_secret_list (sign_fits _ _ _ _ _ _ _ Hl))|].
    intros p _. apply (exact_travels any _ _ _ exact_partial_sig I).
  - intros f sig _. apply (exact_travels any _ _ _ exact_threshold_sig I).
Qed.
Print Assumptions C109_returned_values_travel.

Section Programs.
  Context {S : Suite} {L : SuiteLaws S}.
  Hypothesis HC : cipher_fits.

  Lemma wired_dealer_ok params i r : wired_dealer params i r = new_dealer params i r.
  Proof.
    unfold wired_dealer. destruct (new_dealer params i r) as [[[[p co] x] r']|e|] eqn:E; cbn [bind]; try reflexivity.
    apply new_dealer_real in E. destruct E as [A B].
    rewrite (wire_ok _ _ _ _ exact_participant A). cbn [bind]. rewrite (wire_ok _ _ _ _ exact_coefficients B). cbn [bind].
    rewrite (wire_ok any _ _ x exact_scalar I). reflexivity.
  Qed.
  Lemma wired_signer_ok params i r : wired_signer params i r = new_signer params i r.
  Proof.
    unfold wired_signer. destruct (new_signer params i r) as [[[p x] r']|e|] eqn:E; cbn [bind]; try reflexivity.
    apply new_signer_real in E. rewrite (wire_ok _ _ _ _ exact_participant E). cbn [bind].
    rewrite (wire_ok any _ _ x exact_scalar I). reflexivity.
  Qed.
  Lemma round_one_real m params ps d r st es r' : (forall p, In p ps -> real_participant p) -> doc_round_one m params ps d r = Ok (st, es, r') ->
    real_state (st1 st) /\ real_map real_enc es.
  Proof.
    intros Hp. destruct d as [[p co] x]. unfold doc_round_one. destruct (bootstrap _ _ _ _ _ _ _) as [[[st1' l] r1]|e|] eqn:E1; cbn [bind]; try discriminate.
    destruct (their_encrypted_secret_shares st1') as [es1|e|] eqn:E2; cbn [bind]; try discriminate. intros X. injection X as <- <- _.
    destruct (new_state_real _ _ _ _ _ _ _ _ _ _ _ _ HC Hp E1) as [A _]. split; [exact A|apply (their_shares_real _ _ A E2)].
  Qed.
  Lemma wired_round_one_ok m params ps d r : (forall p, In p ps -> real_participant p) ->
    wired_round_one m params ps d r = doc_round_one m params ps d r.
  Proof.
    intros Hp. pose proof (round_one_real m params ps d r) as H. destruct d as [[p co] x]. unfold wired_round_one, doc_round_one in *.
    destruct (bootstrap _ _ _ _ _ _ _) as [[[st1' l] r1]|e|]; cbn [bind] in *; try reflexivity.
    destruct (their_encrypted_secret_shares st1') as [es1|e|]; cbn [bind] in *; try reflexivity.
    destruct (H _ _ _ Hp eq_refl) as [A B]. rewrite (wire_ok _ _ _ _ exact_round_one A). cbn [bind]. rewrite (wire_shares_ok _ B). reflexivity.
  Qed.
  Lemma wired_round_two_ok m x r : real_state (st1 (fst x)) -> wired_round_two m x r = doc_round_two m x r.
  Proof.
    intros H. unfold wired_round_two, doc_round_two. destruct (to_round_two m (fst x) (snd x) r) as [[[s2 cs] r']|e|] eqn:E; cbn [bind]; try reflexivity.
    destruct (assert_true _); cbn [bind]; try reflexivity. rewrite (wire_ok _ _ _ s2 exact_round_two (to_round_two_real _ _ _ _ _ _ _ H E)). reflexivity.
  Qed.
  Lemma wired_finish_ok s2 : wired_finish s2 = finish s2.
  Proof.
    unfold wired_finish. destruct (finish s2) as [[gk sk]|e|]; cbn [bind]; try reflexivity.
    rewrite (wire_ok any _ _ gk exact_point I). cbn [bind]. rewrite (wire_ok any _ _ sk exact_signing_key I). reflexivity.
  Qed.
  Lemma wired_session_ok m ids states sent r : (forall s, In s states -> real_state (st1 s)) ->
    wired_session m ids states sent r = doc_session m ids states sent r.
  Proof.
    intros H. unfold wired_session, doc_session. destruct (traverse (doc_box sent) ids) as [boxes|e|]; cbn [bind]; try reflexivity.
    rewrite (each_ext (wired_round_two m) (doc_round_two m)).
    2:{ intros [s b] r0 Hin. apply wired_round_two_ok. apply in_combine_l in Hin. apply H, Hin. }
    destruct (each (doc_round_two m) _ r) as [[s2s r1]|e|]; cbn [bind]; try reflexivity.
    rewrite (traverse_ext wired_finish finish) by (intros; apply wired_finish_ok). reflexivity.
  Qed.
  Lemma dealers_real params ids r ds r' : each (new_dealer params) ids r = Ok (ds, r') -> forall p, In p (map (fun d => fst (fst d)) ds) -> real_participant p.
  Proof.
    intros E p Hp. apply in_map_iff in Hp. destruct Hp as (d & <- & Hd).
    apply (each_all (fun d : Participant * list F * F => real_participant (fst (fst d))) _ _) with (2 := E) (b := d); [|exact Hd].
    intros a r0 [[p co] x] r1 _ E1. apply new_dealer_real in E1. apply E1.
  Qed.
  Lemma rounds_real m params ps ds r ss r' : (forall p, In p ps -> real_participant p) -> each (doc_round_one m params ps) ds r = Ok (ss, r') ->
    forall x, In x ss -> real_state (st1 (fst x)) /\ real_map real_enc (snd x).
  Proof.
    intros Hp E. apply (each_all _ _ _) with (2 := E). intros a r0 [st es] r1 _ E1. apply (round_one_real _ _ _ _ _ _ _ _ Hp E1).
  Qed.
  Lemma wired_generation_ok m n t ids r : wired_generation m n t ids r = doc_generation m n t ids r.
  Proof.
    unfold wired_generation, doc_generation. destruct (params_new m n t) as [params|e|]; cbn [bind]; try reflexivity.
    rewrite (wire_ok any _ _ params exact_params I). cbn [bind]. rewrite (each_ext (wired_dealer params) (new_dealer params)) by (intros; apply wired_dealer_ok).
    destruct (each (new_dealer params) ids r) as [[ds r1]|e|] eqn:E1; cbn [bind]; try reflexivity.
    pose proof (dealers_real _ _ _ _ _ E1) as Hp. set (ps := map (fun d => fst (fst d)) ds) in *.
    rewrite (each_ext (wired_round_one m params ps) (doc_round_one m params ps)) by (intros; apply wired_round_one_ok, Hp).
    destruct (each (doc_round_one m params ps) ds r1) as [[ss r2]|e|] eqn:E2; cbn [bind]; try reflexivity.
    pose proof (rounds_real _ _ _ _ _ _ _ Hp E2) as Hs. rewrite wired_session_ok; [reflexivity|].
    intros s Hin. apply in_map_iff in Hin. destruct Hin as (x & <- & Hx). apply Hs, Hx.
  Qed.
  Lemma wired_resharing_ok m params outs n t ids r : wired_resharing m params outs n t ids r = doc_resharing m params outs n t ids r.
  Proof.
    unfold wired_resharing, doc_resharing, doc_handover. destruct (params_new m n t) as [np|e|]; cbn [bind]; try reflexivity.
    rewrite (wire_ok any _ _ np exact_params I). cbn [bind]. rewrite (each_ext (wired_signer np) (new_signer np)) by (intros; apply wired_signer_ok).
    destruct (each (new_signer np) ids r) as [[ss r1]|e|] eqn:E1; cbn [bind]; try reflexivity.
    assert (Hp : forall p, In p (map fst ss) -> real_participant p).
    { intros p Hp. apply in_map_iff in Hp. destruct Hp as (d & <- & Hd).
      apply (each_all (fun d : Participant * F => real_participant (fst d)) _ _) with (2 := E1) (b := d); [|exact Hd].
      intros a r0 [p x] r2 _ E. apply new_signer_real in E. exact E. }
    set (rs := fun o r => let* (d, es, _, r') := reshare m np (snd o) (map fst ss) r in Ok (d, es, r')).
    assert (HR : forall o r d es r', rs o r = Ok (d, es, r') -> real_participant d /\ real_map real_enc es).
    { intros o r0 d es r'. unfold rs. destruct (reshare _ _ _ _ _) as [[[[d1 es1] l1] r2]|e|] eqn:E; cbn [bind]; try discriminate.
      intros X. injection X as <- <- _. destruct (reshare_real _ _ _ _ _ _ _ _ _ HC Hp E) as (A & B & _). auto. }
    rewrite (each_ext (wired_reshare m np (map fst ss)) rs).
    2:{ intros o r0 _. specialize (HR o r0). unfold rs, wired_reshare in *. destruct (reshare _ _ _ _ _) as [[[[d1 es1] l1] r2]|e|]; cbn [bind] in *; try reflexivity.
        destruct (HR _ _ _ eq_refl) as [A B]. rewrite (wire_ok _ _ _ _ exact_participant A). cbn [bind]. rewrite (wire_shares_ok _ B). reflexivity. }
    destruct (each rs outs r1) as [[ds r2]|e|] eqn:E2; cbn [bind]; try reflexivity.
    assert (Hd : forall p, In p (map fst ds) -> real_participant p).
    { intros p Hq. apply in_map_iff in Hq. destruct Hq as (d & <- & Hd).
      apply (each_all (fun d : Participant * bmap EncShare => real_participant (fst d)) _ _) with (2 := E2) (b := d); [|exact Hd].
      intros a r0 [q es] r3 _ E. apply HR in E. apply E. }
    set (nw := fun (s : Participant * F) r => let* (st, _, r') := dkg_new m params (snd s) (pt_index (fst s)) (map fst ds) r in Ok (st, r')).
    assert (HN : forall s r st r', nw s r = Ok (st, r') -> real_state (st1 st)).
    { intros s r0 st r'. unfold nw. destruct (dkg_new _ _ _ _ _ _) as [[[st1' l1] r3]|e|] eqn:E; cbn [bind]; try discriminate.
      intros X. injection X as <- _. apply (new_state_real _ _ _ _ _ _ _ _ _ _ _ _ HC Hd E). }
    rewrite (each_ext (wired_new m params (map fst ds)) nw).
    2:{ intros s r0 _. specialize (HN s r0). unfold nw, wired_new in *. destruct (dkg_new _ _ _ _ _ _) as [[[st1' l1] r3]|e|]; cbn [bind] in *; try reflexivity.
        rewrite (wire_ok _ _ _ st1' exact_round_one (HN _ _ eq_refl)). reflexivity. }
    destruct (each nw ss r2) as [[states r3]|e|] eqn:E3; cbn [bind]; try reflexivity.
    rewrite wired_session_ok.
    { destruct (doc_session _ _ _ _ _) as [[outs' r4]|e|]; cbn [bind]; try reflexivity. destruct (doc_same_key _ _); reflexivity. }
    intros s Hin. apply (each_all (fun st => real_state (st1 st)) _ _) with (2 := E3) (b := s); [|exact Hin].
    intros a r0 st r4 _ E. apply (HN _ _ _ _ E).
  Qed.
  Lemma wired_include_ok l : forall a, wired_include_all a l = doc_include_all a l.
  Proof.
    induction l as [|x l IH]; intros a; [reflexivity|]. cbn [wired_include_all doc_include_all]. unfold wired_include, doc_include.
    destruct (unwrap _) as [com|e|]; cbn [bind]; try reflexivity. rewrite (wire_ok any _ _ (to_public (fst x)) exact_verifying_key I). cbn [bind]. apply IH.
  Qed.
  Lemma wired_signing_ok m params outs chosen message r : wired_signing m params outs chosen message r = doc_signing m params outs chosen message r.
  Proof.
    unfold wired_signing, doc_signing.
    rewrite (each_ext wired_lists (fun o r => Ok (generate_commitment_share_lists r (snd o) 1))).
    2:{ intros o r0 _. unfold wired_lists. destruct (generate_commitment_share_lists r0 (snd o) 1) as [[pub sec] r'] eqn:E.
        destruct (lists_real r0 (snd o) 1 pub sec r' eq_refl E) as [A B]. rewrite (wire_ok _ _ _ pub exact_public_list A). cbn [bind].
        rewrite (wire_ok _ _ _ sec exact_secret_list B). reflexivity. }
    destruct (each _ outs r) as [[lists r1]|e|]; cbn [bind]; try reflexivity.
    destruct (traverse _ chosen) as [signing|e|]; cbn [bind]; try reflexivity. rewrite wired_include_ok.
    destruct (doc_include_all _ signing) as [a|e|]; cbn [bind]; try reflexivity.
    rewrite (traverse_same (wire ser_signer de_signer)) by (intros s _; apply (wire_ok any _ _ s exact_signer I)). cbn [bind].
    rewrite (traverse_ext (wired_sign m message (hd Gzero (map fst outs)) (ag_signers (ai_state a)))
      (fun x => fst (sign m (fst x) (h4 message) (hd Gzero (map fst outs)) (snd (snd x)) 0 (ag_signers (ai_state a))))).
    2:{ intros x _. unfold wired_sign. destruct (fst (sign _ _ _ _ _ _ _)) as [p|e|]; cbn [bind]; try reflexivity. apply (wire_ok any _ _ p exact_partial_sig I). }
    destruct (traverse _ signing) as [partials|e|]; cbn [bind]; try reflexivity.
    destruct (finalize _) as [f|e|]; cbn [bind]; try reflexivity. destruct (aggregate f) as [sig|e|]; cbn [bind]; try reflexivity.
    rewrite (wire_ok any _ _ sig exact_threshold_sig I). reflexivity.
  Qed.

  Lemma zero_nonce_fits : fits (nonce_bytes zero_nonce).
  Proof. destruct HC as [H _]. exact H. Qed.
  Lemma garble_real victim es es' : real_map real_enc es -> doc_garble victim es = Ok es' -> real_map real_enc es'.
  Proof.
    intros H. unfold doc_garble. destruct (bget victim es) as [e|] eqn:E; cbn [unwrap bind]; [|discriminate]. intros X. injection X as <-.
    apply fold_binsert_real; [exact H|]. split; cbn [es_nonce es_ct]; [apply zero_nonce_fits|]. apply bget_in in E. apply (proj2 H _ _ E).
  Qed.
  Lemma box_real sent i box : (forall es, In es sent -> real_map real_enc es) -> doc_box sent i = Ok box -> forall e, In e box -> real_enc e.
  Proof.
    intros H E. apply (traverse_all _ _ _) with (2 := E). intros es e Hes X. destruct (bget i es) as [e'|] eqn:Eb; [|discriminate]. injection X as ->.
    apply bget_in in Eb. apply (proj2 (H es Hes) _ _ Eb).
  Qed.
  Lemma wired_settle_ok all k s2 : real_state (st2 s2) -> wired_settle all k s2 = doc_settle all k s2.
  Proof.
    intros H. unfold wired_settle, doc_settle. destruct (blame s2 all) as [[keys s3]|e|] eqn:E; cbn [bind]; try reflexivity.
    destruct (assert_true (Nat.eqb _ _)); cbn [bind]; try reflexivity. destruct (unwrap _) as [k'|e|]; cbn [bind]; try reflexivity.
    rewrite (wire_ok any _ _ k' exact_point I). cbn [bind]. destruct (assert_true _); cbn [bind]; try reflexivity.
    rewrite (wire_ok _ _ _ s3 exact_round_two (blame_real _ _ _ _ H E)). cbn [bind]. apply wired_finish_ok.
  Qed.
  Lemma wired_blamed_ok m n t before bob after victim r :
    wired_blamed m n t before bob after victim r = doc_blamed m n t before bob after victim r.
  Proof.
    unfold wired_blamed, doc_blamed. destruct (params_new m n t) as [params|e|]; cbn [bind]; try reflexivity.
    rewrite (wire_ok any _ _ params exact_params I). cbn [bind]. rewrite (each_ext (wired_dealer params) (new_dealer params)) by (intros; apply wired_dealer_ok).
    destruct (each (new_dealer params) _ r) as [[ds r1]|e|] eqn:E1; cbn [bind]; try reflexivity.
    pose proof (dealers_real _ _ _ _ _ E1) as Hp. set (ps := map (fun d => fst (fst d)) ds) in *.
    rewrite (each_ext (wired_round_one m params ps) (doc_round_one m params ps)) by (intros; apply wired_round_one_ok, Hp).
    destruct (each (doc_round_one m params ps) ds r1) as [[ss r2]|e|] eqn:E2; cbn [bind]; try reflexivity.
    pose proof (rounds_real _ _ _ _ _ _ _ Hp E2) as Hs.
    set (gb := fun x : u32 * bmap EncShare => if u32_eqb (fst x) bob then doc_garble victim (snd x) else Ok (snd x)).
    assert (HI : forall x, In x (combine (map pt_index ps) (map snd ss)) -> real_map real_enc (snd x)).
    { intros [i es] Hin. apply in_combine_r in Hin. apply in_map_iff in Hin. destruct Hin as (x & <- & Hx). apply Hs, Hx. }
    rewrite (traverse_ext _ gb).
    2:{ intros x Hx. unfold gb, wired_garble. destruct (u32_eqb (fst x) bob); [|reflexivity].
        destruct (doc_garble victim (snd x)) as [es'|e|] eqn:Eg; cbn [bind]; try reflexivity. apply wire_shares_ok. apply (garble_real _ _ _ (HI x Hx) Eg). }
    destruct (traverse gb _) as [sent|e|] eqn:E3; cbn [bind]; try reflexivity.
    assert (HSt : forall es, In es sent -> real_map real_enc es).
    { apply (traverse_all _ _ _) with (2 := E3). intros x es Hx. unfold gb. destruct (u32_eqb (fst x) bob).
      - apply garble_real, HI, Hx.
      - intros X. injection X as <-. apply HI, Hx. }
    set (others := filter _ _). destruct (traverse (doc_box sent) (map fst others)) as [boxes|e|] eqn:E4; cbn [bind]; try reflexivity.
    assert (HB : forall box, In box boxes -> forall e, In e box -> real_enc e).
    { refine (traverse_all (fun box => forall e, In e box -> real_enc e) (doc_box sent) (map fst others) _ boxes E4). intros i box _ Eb. apply (box_real sent i box HSt Eb). }
    assert (HO : forall x, In x (combine (map fst others) (combine (map snd others) boxes)) -> real_state (st1 (fst (snd x))) /\ forall e, In e (snd (snd x)) -> real_enc e).
    { intros [i [st box]] Hin. apply in_combine_r in Hin. cbn [fst snd]. split; [|apply HB; apply in_combine_r in Hin; exact Hin].
      apply in_combine_l in Hin. apply in_map_iff in Hin. destruct Hin as ([j st'] & <- & Hx). unfold others in Hx. apply filter_In in Hx. destruct Hx as [Hx _].
      apply in_combine_r in Hx. apply in_map_iff in Hx. destruct Hx as (y & Ey & Hy). cbn [snd]. rewrite <- Ey. apply Hs, Hy. }
    assert (HT : forall x r s2 cs r', In x (combine (map fst others) (combine (map snd others) boxes)) ->
      doc_complaining_round_two m victim x r = Ok (s2, cs, r') -> real_state (st2 s2) /\ forall c, In c cs -> real_complaint c).
    { intros x r0 s2 cs r' Hx. unfold doc_complaining_round_two. destruct (to_round_two _ _ _ _) as [[[s2' cs'] r3]|e|] eqn:E; cbn [bind]; try discriminate.
      destruct (assert_true _); cbn [bind]; try discriminate. intros X. injection X as <- <- _. destruct (HO x Hx) as [A B].
      split; [apply (to_round_two_real _ _ _ _ _ _ _ A E)|apply (complaints_real _ _ _ _ _ _ _ B E)]. }
    rewrite (each_ext (wired_complaining_round_two m victim) (doc_complaining_round_two m victim)).
    2:{ intros x r0 Hx. unfold wired_complaining_round_two. destruct (doc_complaining_round_two m victim x r0) as [[[s2 cs] r']|e|] eqn:E; cbn [bind]; try reflexivity.
        destruct (HT _ _ _ _ _ Hx E) as [A B]. rewrite (wire_ok _ _ _ s2 exact_round_two A). cbn [bind].
        rewrite (traverse_same (wire ser_complaint de_complaint)) by (intros c Hc; apply (wire_ok _ _ _ c exact_complaint (B c Hc))). reflexivity. }
    destruct (each (doc_complaining_round_two m victim) _ r2) as [[s2s r3]|e|] eqn:E5; cbn [bind]; try reflexivity.
    destruct (unwrap _) as [b|e|]; cbn [bind]; try reflexivity.
    rewrite (traverse_ext (fun x => wired_settle (concat (map snd s2s)) (pt_dh_pk b) (fst x)) (fun x => doc_settle (concat (map snd s2s)) (pt_dh_pk b) (fst x))); [reflexivity|].
    intros x Hx. apply wired_settle_ok.
    apply (each_all (fun x : RoundTwo * list Complaint => real_state (st2 (fst x))) _ _) with (2 := E5) (b := x); [|exact Hx].
    intros y r0 [s2 cs] r4 Hy E. apply (HT _ _ _ _ _ Hy E).
  Qed.
End Programs.

(** * C109: the programs of the documentation over a network *)
Theorem C109_sessions_over_the_wire :
  forall (S : Suite) (L : SuiteLaws S) (m : build),
  (** lengths of the nonce and of ciphertexts are below 2^64 *)
  (N.of_nat nonce_len < 18446744073709551616)%N -> (forall k n v c, aead_enc k n (enc_scalar v) = Some c -> fits c) ->
  (forall n t ids chosen n' t' ids' chosen' message r,
     wired_tour m n t ids chosen n' t' ids' chosen' message r = doc_tour m n t ids chosen n' t' ids' chosen' message r) /\
  (forall n t before bob after victim r,
     wired_blamed m n t before bob after victim r = doc_blamed m n t before bob after victim r).
Proof.
  intros S L m H1 H2. assert (HC : cipher_fits) by (split; [unfold fits; rewrite repeat_length; exact H1|exact H2]).
  split; [|intros; apply wired_blamed_ok, HC].
  intros n t ids chosen n' t' ids' chosen' message r. unfold wired_tour, doc_tour. rewrite wired_generation_ok by exact HC.
  destruct (doc_generation m n t ids r) as [[[[params ps] outs] r1]|e|]; cbn [bind]; try reflexivity.
  destruct (doc_check ps outs); cbn [bind]; try reflexivity. rewrite wired_signing_ok.
  destruct (doc_signing m params outs chosen message r1) as [[sig r2]|e|]; cbn [bind]; try reflexivity. rewrite wired_resharing_ok by exact HC.
  destruct (doc_resharing m params outs n' t' ids' r2) as [[[params' outs'] r3]|e|]; cbn [bind]; try reflexivity. rewrite wired_signing_ok. reflexivity.
Qed.
Print Assumptions C109_sessions_over_the_wire.

(** the documented sessions on the toy suite, over the wire; and a share, a complaint and a state that were read *)
Definition wired_run : result (G * ThresholdSig * ThresholdSig) :=
  wired_tour (S := Toy) Debug (u 3) (u 2) tour_ids [0; 2] (u 4) (u 3) tour_ids' [3; 0; 1] [x68; x69] 77%N.
Example C109_ex_hypotheses : (N.of_nat (@nonce_len Toy) < 18446744073709551616)%N /\ forall k n v c, @aead_enc Toy k n (enc_scalar v) = Some c -> fits c.
Proof. destruct toy_ciphers as [H1 H2]. split; [unfold fits in H1; rewrite repeat_length in H1; exact H1|exact H2]. Qed.
Example C109_ex :
  (let* (gk, sig, sig') := wired_run in
   Ok (Geqb gk Gzero, verify_signature gk sig (h4 [x68; x69]), verify_signature gk sig' (h4 [x68; x69]), Geqb (ts_R sig) (ts_R sig')))
  = Ok (false, Ok tt, Ok tt, false).
Proof. vms. Qed.
Example C109_ex_blaming :
  seen (wired_blamed (S := Toy) Debug bad_n bad_t [u 4; u 1] (u 3) [u 2] (u 2) 77%N) = Ok ([u 4; u 1; u 2], false, true, true).
Proof. vms. Qed.
(** reading accepts what no to_bytes wrote: a state whose first map entry stands there twice. What is passed on is the state read *)
Definition double_state : @DkgState Toy :=
  let s := st1 (demo_r1 demo_ps 2) in
  MkState (ds_params s) (ds_index s) (ds_dh_sk s) (ds_dh_pk s) (ds_comms s)
    (match ds_dhs s with e :: m => e :: e :: m | [] => [] end) (ds_enc s) (ds_shares s).
Definition double_bytes : list byte := ser_state double_state.
Example C109_ex_read :
  (let* s := from_bytes de_round_one double_bytes in
   let* b := to_bytes ser_round_one s in
   let* s' := from_bytes de_round_one b in
   let* b' := to_bytes ser_round_one s' in
   Ok (Nat.ltb (length b) (length double_bytes), list_eqb Byte.eqb b b', list_eqb Byte.eqb b demo_b1)) = Ok (true, true, true).
Proof. vms. Qed.
