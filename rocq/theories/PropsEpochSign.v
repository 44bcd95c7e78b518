(** Property C150: the partial signatures made in all epochs tell a moving adversary nothing more about the secret: with any list of them
    the number of choices of all dealers of all epochs and of all nonces is still the same for every secret. *)
From Coq Require Import String Strings.Byte Arith NArith ZArith Bool List Permutation Lia Field.
From Verif Require Import Base Suite Spec SpecDkg SpecSign SpecEpoch Types ModelDkg ModelSign Algebra BaseLemmas LemmasShare LemmasFinish LemmasSign
  Toy Demo DemoDkg DemoSign PropsShare PropsFinish PropsReshare PropsAttack PropsEpoch PropsLikely PropsChance PropsJoint PropsEpochCount.
Import ListNotations.

(** * specification *)
Section Vocabulary.
  Context {S : Suite}.
  (** a partial signature that was published: the epoch of the key, the signer, what was signed, and the scalar returned *)
  Record Answer := MkAnswer {
    an_epoch : nat; an_signer : u32; an_hash : list byte; an_gk : G; an_signers : list Signer; an_z : F }.
  (** a pair of nonces, as [CommitmentShare] of src/sign/precomputation.rs 110-119 *)
  Definition nonce_pair (n : F * F) : CommitmentShare :=
    MkCS (MkCom (fst n) (gen * fst n)%G) (MkCom (snd n) (gen * snd n)%G).
  (** with the dealings h and the nonces n, used for nothing else, signing gives this answer *)
  Definition gives (m : build) (h : list Epoch) (a : Answer) (n : F * F) : Prop :=
    exists e, nth_error h (an_epoch a) = Some e /\
      fst (sign m (MkSK (an_signer a) (key_of e (an_signer a))) (an_hash a) (an_gk a) (MkSecList [nonce_pair n]) 0 (an_signers a)) =
        Ok (MkPSig (an_signer a) (an_z a)).
  (** resharings in sequence, with the signing keys after each of them *)
  Inductive resharings (m : build) : nat -> list SigningKey -> list (list SigningKey) -> Prop :=
  | rs_nil t ks : resharings m t ks []
  | rs_cons t1 ks gks t2 ks2 kss : resharing m t1 ks gks t2 ks2 -> resharings m t2 ks2 kss -> resharings m t1 ks (ks2 :: kss).
  (** the signer takes part, and the list has no repeated and no zero index (otherwise [sign] returns an error, C38) *)
  Definition proper (len : nat) (a : Answer) : Prop :=
    an_epoch a < len /\ In (an_signer a) (map sg_index (an_signers a)) /\ good_indices (map sg_index (an_signers a)).
End Vocabulary.

Section Sums.
  Context {S : Suite} {L : SuiteLaws S}.
  Add Field F_fld : F_field.
  Lemma nonce_of (z e r w : F) : ((z - e * r - w) + e * r + w = z)%F. Proof. ring. Qed.
  Lemma nonce_is (d e r w z : F) : (d + e * r + w)%F = z -> d = (z - e * r - w)%F. Proof. intros <-. ring. Qed.
  Lemma same_views_length B As es es' : same_views B As es es' -> length es' = length es.
  Proof. induction 1; [reflexivity|]. cbn [length]. congruence. Qed.
  Lemma sign_alone m i x h gk n ss z : In i (map sg_index ss) -> good_indices (map sg_index ss) ->
    (fst (sign m (MkSK i x) h gk (MkSecList [nonce_pair n]) 0 ss) = Ok (MkPSig i z) <->
     (fst n + snd n * binding h ss i + weight i (map sg_index ss) * x * session_chal h gk ss)%F = z).
  Proof.
    intros H1 H2. rewrite (sign_succeeds m (MkSK i x) h gk (MkSecList [nonce_pair n]) 0 ss (nonce_pair n)); try assumption; try reflexivity.
    cbn [fst sk_index sk_key nonce_pair cs_hiding cs_binding co_secret]. unfold partial_value. split; [intros E; injection E as E; exact E|intros ->; reflexivity].
  Qed.
  Lemma gives_count m q h a : exactly q (fun _ : F => True) -> proper (length h) a -> exactly q (gives m h a).
  Proof.
    intros Hq (H1 & H2 & H3). destruct (nth_error h (an_epoch a)) as [e|] eqn:E; [|apply nth_error_None in E; lia].
    set (r := binding (an_hash a) (an_signers a) (an_signer a)).
    set (w := (weight (an_signer a) (map sg_index (an_signers a)) * key_of e (an_signer a) * session_chal (an_hash a) (an_gk a) (an_signers a))%F).
    apply (exactly_image _ (fun _ : F => True) _ (fun b => ((an_z a - b * r - w)%F, b))); [congruence| |exact Hq].
    intros n. unfold gives. rewrite E. split.
    - intros (e0 & E0 & K). injection E0 as <-. apply sign_alone in K; auto. exists (snd n). split; [exact I|]. destruct n as [d b]. cbn [fst snd] in *.
      f_equal. apply nonce_is, K.
    - intros (b & _ & ->). exists e. split; [reflexivity|]. apply sign_alone; auto. cbn [fst snd]. apply nonce_of.
  Qed.
End Sums.

(** * C150 *)
Theorem C150_signatures_of_all_epochs :
  forall (S : Suite) (L : SuiteLaws S) (m : build) (q : nat) (e : Epoch) (es : list Epoch) (A : list u32) (As : list (list u32)) (as_ : list Answer) (s : F),
  exactly q (fun _ : F => True) ->
  well_dealt e -> ep_t e <= length (ep_deals e) -> chain e es -> few (A :: As) (e :: es) ->
  (forall x, In x (e :: es) -> (N.of_nat (ep_t x) < 4294967296)%N) ->
  (forall a, In a as_ -> proper (length (e :: es)) a) ->
  exactly (q ^ ((ep_t e - length A) * hidden A e - 1 + free_later A As es) * q ^ length as_)
    (fun hn : list Epoch * list (F * F) => explains A (A :: As) (e :: es) s (fst hn) /\ Forall2 (gives m (fst hn)) as_ (snd hn)).
Proof.
  intros S L m q e es A As as_ s Hq He Hl HC HF HS Ha.
  apply (exactly_iff _ (fun hn : list Epoch * list (F * F) => exists h, explains A (A :: As) (e :: es) s h /\ (fst hn = h /\ Forall2 (gives m h) as_ (snd hn)))).
  { intros [h n]. cbn [fst snd]. split; [intros (h' & H1 & <- & H2); auto|intros (H1 & H2); exists h; auto]. }
  apply exactly_sum.
  - apply (C146_every_secret_equally_likely S L); assumption.
  - intros h Hh. assert (Hlen : length h = length (e :: es)).
    { destruct Hh as (e' & es' & -> & _ & _ & V & _). exact (same_views_length _ _ _ _ V). }
    apply (exactly_image _ (Forall2 (gives m h) as_) _ (fun n => (h, n))); [congruence| |].
    + intros [h' n]. cbn [fst snd]. split; [intros (-> & K); exists n; auto|intros (n' & K & E)]. injection E as -> ->. auto.
    + apply exactly_each. intros a Hin. apply gives_count; [exact Hq|]. rewrite Hlen. apply Ha, Hin.
  - intros h h' b _ _ (<- & _) (<- & _). reflexivity.
Qed.
Print Assumptions C150_signatures_of_all_epochs.

(** what [sign] returns with the keys of an epoch is such an answer, whatever else the list of nonces holds and whichever position is used *)
Theorem C150_sign_gives_answers :
  forall (S : Suite) (L : SuiteLaws S) (m m' : build) (h : list Epoch) (n : nat) (e : Epoch) (k : SigningKey) (msg : list byte) (gk : G)
    (l l' : SecretList) (idx : N) (ss : list Signer) (p : PartialSig),
  nth_error h n = Some e -> sk_key k = key_of e (sk_index k) -> sign m k msg gk l idx ss = (Ok p, l') ->
  exists cs, nth_error (sl_commitments l) (N.to_nat idx) = Some cs /\ ps_index p = sk_index k /\
    proper (length h) (MkAnswer n (sk_index k) msg gk ss (ps_z p)) /\
    gives m' h (MkAnswer n (sk_index k) msg gk ss (ps_z p)) (co_secret (cs_hiding cs), co_secret (cs_binding cs)).
Proof.
  intros S L m m' h n e k msg gk l l' idx ss p Hn Hk Hs. apply sign_ok_inv in Hs as (cs & H1 & H2 & H3 & -> & _).
  exists cs. split; [exact H1|]. split; [reflexivity|]. split.
  - split; [|split; assumption]. cbn [an_epoch]. apply nth_error_Some. congruence.
  - exists e. split; [exact Hn|]. cbn [an_signer an_hash an_gk an_signers an_z ps_z]. apply sign_alone; auto. cbn [fst snd].
    rewrite Hk. reflexivity.
Qed.
Print Assumptions C150_sign_gives_answers.

Lemma resharings_chain : forall (S : Suite) (L : SuiteLaws S) (m : build) (t : nat) (ks : list SigningKey) (kss : list (list SigningKey)),
  resharings m t ks kss ->
  forall e, ep_t e = t -> (forall k, In k ks -> sk_key k = key_of e (sk_index k)) ->
  exists es, chain e es /\ (forall x, In x es -> (N.of_nat (ep_t x) < 4294967296)%N) /\
    Forall2 (fun x ks' => forall k, In k ks' -> sk_key k = key_of x (sk_index k)) es kss.
Proof.
  intros S L m t ks kss HH. induction HH as [t ks|t1 ks gks t2 ks2 kss HR HH IH]; intros e Ht HK.
  - exists []. cbn. repeat split; auto. intros x [].
  - subst t1. destruct (C72_resharing_is_an_epoch S L m e ks gks t2 ks2 HK HR) as (n & N1 & N2 & N3 & _ & N4 & N5).
    destruct (IH n N3 N4) as (es & C1 & C2 & C3). exists (n :: es). cbn [chain]. split; [auto|]. split; [|constructor; assumption].
    intros x [<-|Hx]; [|apply C2, Hx]. rewrite N3. destruct HR as (params1 & params2 & hs & ws & outs & _ & _ & _ & -> & _). apply u32_bound.
Qed.
Lemma nth_both {A B} (R : A -> B -> Prop) l l' n b : Forall2 R l l' -> nth_error l' n = Some b -> exists a, nth_error l n = Some a /\ R a b.
Proof.
  intros H. revert n. induction H as [|x y l l' H HF IH]; intros [|n] E; try discriminate.
  - injection E as <-. exists x. auto.
  - apply IH, E.
Qed.

Lemma last_of_cons {A} (l : list A) : forall a d, last (a :: l) d = last l a.
Proof. induction l as [|b l IH]; intros a d; [reflexivity|]. change (last (b :: l) d = last (b :: l) a). rewrite !IH. reflexivity. Qed.

(** the histories of C33 and C146 are such sequences *)
Theorem C150_histories_are_resharings :
  forall (S : Suite) (m : build) (t t' : nat) (ks ks' : list SigningKey) (rest : list (list G)),
  history m t ks rest t' ks' -> exists kss, resharings m t ks kss /\ length kss = length rest /\ last kss ks = ks'.
Proof.
  intros S m t t' ks ks' rest HH. induction HH as [t ks|t1 ks gks t2 ks2 rest t3 ks3 HR HH (kss & K1 & K2 & K3)]; [exists []; repeat split; constructor|].
  exists (ks2 :: kss). split; [exact (rs_cons m _ _ _ _ _ _ HR K1)|]. split; [cbn [length]; congruence|].
  rewrite <- K3. apply last_of_cons.
Qed.
Print Assumptions C150_histories_are_resharings.

(** the same for key generation and any number of resharings by calls of the API, with the answers of the keys of all epochs *)
Theorem C150_for_the_api :
  forall (S : Suite) (L : SuiteLaws S) (m : build) (q : nat) (params : Params) (parties : list Party) (outs : list (G * SigningKey))
    (kss : list (list SigningKey)),
  exactly q (fun _ : F => True) -> honest_parties params parties -> all_bootstrapped m params parties ->
  Forall2 (party_run m parties) parties outs ->
  resharings m (N.to_nat (u32v (p_t params))) (map snd outs) kss ->
  let e := generation params parties in
  exists es, chain e es /\ length es = length kss /\
    (forall n ks k msg gk l l' idx ss p,
      nth_error (map snd outs :: kss) n = Some ks -> In k ks -> sign m k msg gk l idx ss = (Ok p, l') ->
      exists cs, nth_error (sl_commitments l) (N.to_nat idx) = Some cs /\
        proper (length (e :: es)) (MkAnswer n (sk_index k) msg gk ss (ps_z p)) /\
        gives m (e :: es) (MkAnswer n (sk_index k) msg gk ss (ps_z p)) (co_secret (cs_hiding cs), co_secret (cs_binding cs))) /\
    forall A As as_, few (A :: As) (e :: es) -> (forall a, In a as_ -> proper (length (e :: es)) a) ->
    exists N, N <> 0 /\ forall s, exactly N
      (fun hn : list Epoch * list (F * F) => explains A (A :: As) (e :: es) s (fst hn) /\ Forall2 (gives m (fst hn)) as_ (snd hn)).
Proof.
  intros S L m q params parties outs kss Hq HP HB HR HH e.
  destruct (C72_key_generation_is_an_epoch S L m params parties HP HB) as (W1 & W2 & W3). fold e in W1, W2, W3.
  assert (HK : forall k, In k (map snd outs) -> sk_key k = key_of e (sk_index k)).
  { intros k Hk. apply in_map_iff in Hk as ((gk & sk) & <- & Hk).
    destruct (forall2_right _ _ _ _ HR Hk) as (p & Hp & senders & sh & r & s2 & cs & r' & K2 & K3 & K4 & K5).
    destruct (W3 p senders sh r Hp K2 K3) as (s2' & r'' & E1 & E2). rewrite K4 in E1. injection E1 as <- _ _. rewrite K5 in E2. injection E2 as -> ->. reflexivity. }
  destruct (resharings_chain S L m _ (map snd outs) kss HH e eq_refl HK) as (es & C1 & C2 & C3).
  exists es. split; [exact C1|]. split; [exact (Forall2_len _ _ _ C3)|]. split.
  - intros n ks k msg gk l l' idx ss p Hn Hk Hs.
    destruct (nth_both (fun x ks' => forall k, In k ks' -> sk_key k = key_of x (sk_index k)) (e :: es) (map snd outs :: kss) n ks) as (x & X1 & X2);
      [constructor; assumption|exact Hn|].
    destruct (C150_sign_gives_answers S L m m (e :: es) n x k msg gk l l' idx ss p X1 (X2 k Hk) Hs) as (cs & K1 & _ & K2 & K3).
    exists cs. auto.
  - intros A As as_ HF Ha. exists (q ^ ((ep_t e - length A) * hidden A e - 1 + free_later A As es) * q ^ length as_). split.
    + assert (q <> 0). { destruct Hq as (l0 & _ & <- & Hl). destruct l0; [destruct (proj2 (Hl F0) I)|discriminate]. }
      apply Nat.neq_mul_0. split; apply Nat.pow_nonzero; assumption.
    + intros s. apply (C150_signatures_of_all_epochs S L); auto. intros x [<-|Hx]; [|apply C2, Hx]. unfold e. cbn [generation ep_t].
      rewrite N2Nat.id. apply u32_bound.
Qed.
Print Assumptions C150_for_the_api.

(** the epochs of C72_ex, and one partial signature with a key of each of them *)
Definition c150_answers : list (Answer (S := Toy)) :=
  [MkAnswer 0 (u 3) shash sgroup [ssigner 1 0; ssigner 3 0] (mk 77); MkAnswer 1 (u 4) shash sgroup [ssigner 4 0; ssigner 5 0; ssigner 7 0] (mk 78)].
Example C150_ex : exists q, exactly q (fun _ : @F Toy => True) /\
  forall s, exactly (q ^ 1 * q ^ 2) (fun hn : list (Epoch (S := Toy)) * list (@F Toy * @F Toy) =>
    explains (S := Toy) [u 2] [[u 2]; [u 5; u 7]] [c72_first; c72_second] s (fst hn) /\ Forall2 (gives (S := Toy) Debug (fst hn)) c150_answers (snd hn)).
Proof.
  destruct toy_count as (q & _ & H). exists q. split; [exact H|]. intros s.
  change (q ^ 2) with (q ^ length c150_answers).
  replace 1 with ((ep_t c72_first - length [u 2]) * hidden [u 2] c72_first - 1 + free_later (S := Toy) [u 2] [[u 5; u 7]] [c72_second]) by vmr.
  apply (C150_signatures_of_all_epochs Toy ToyLaws Debug q c72_first [c72_second] [u 2] [[u 5; u 7]] c150_answers s); auto; [apply c72_first_ok|apply c72_first_ok| | | |].
  - split; [|split; [|exact I]].
    + constructor; [vm_compute; lia|good|]. intros d [<-|[<-|[]]]; reflexivity.
    + split; [vm_compute; lia|]. intros d [<-|[<-|[]]]; reflexivity.
  - constructor; [split; [good|vm_compute; lia]|]. constructor; [split; [good|vm_compute; lia]|constructor].
  - intros x [<-|[<-|[]]]; vm_compute; reflexivity.
  - intros a [<-|[<-|[]]]; (split; [cbn; lia|]); cbn [an_signer an_signers map sg_index ssigner].
    + split; [right; left; reflexivity|good].
    + split; [left; reflexivity|good].
Qed.

(** a key of the first epoch signs *)
Example C150_ex_sign : exists k l ss p, sk_key k = key_of c72_first (sk_index k) /\ fst (sign (S := Toy) Debug k shash sgroup l 0 ss) = Ok p.
Proof.
  exists (MkSK (u 3) (key_of c72_first (u 3))), (MkSecList [nonce_pair (S := Toy) (mk 5, mk 6)]), [ssigner 1 0; ssigner 3 0].
  eexists. split; [reflexivity|]. rewrite (sign_succeeds (S := Toy) (L := ToyLaws) _ _ _ _ _ _ _ (nonce_pair (S := Toy) (mk 5, mk 6))); [reflexivity|reflexivity|reflexivity|right; left; reflexivity|good].
Qed.

(** the demo key generation (2 of 3), reshared by its three participants *)
Example C150_ex_api : exists outs kss, Forall2 (party_run (S := Toy) Debug demo_parties) demo_parties outs /\
  resharings (S := Toy) Debug (N.to_nat (u32v (p_t demo_params))) (map snd outs) kss /\ length kss = 1.
Proof.
  destruct C146_ex_api as (q & outs & gks & ks' & _ & Ho & HH & _). destruct (C150_histories_are_resharings Toy _ _ _ _ _ _ HH) as (kss & K1 & K2 & _).
  exists outs, kss. split; [exact Ho|]. split; [exact K1|exact K2].
Qed.
