(** C153: a key generation tried again with the same entries. *)
From Coq Require Import String Strings.Byte Arith NArith ZArith Bool List Permutation Sorted Lia Field.
From Verif Require Import Base Suite Spec SpecDkg SpecSign SpecRobust SpecEnd SpecReveal Types ModelDkg ModelSign Algebra BaseLemmas LemmasShare LemmasRound1
  LemmasRound2 LemmasFinish LemmasAgg Toy Demo DemoDkg PropsRound1 PropsRound2 PropsFinish PropsReshare PropsLeak PropsReveal.
Import ListNotations.

Section Attempts.
  Context {S : Suite} {L : SuiteLaws S}.
  (** the same participant in two attempts: what new_dealer made is the same, what bootstrap made may differ *)
  Definition same_entry (p q : Party) : Prop := y_index q = y_index p /\ y_d q = y_d p /\ y_co q = y_co p /\ y_x q = y_x p.
  (** attempts of one key generation: everybody calls bootstrap again, on the same entries *)
  Definition attempts (m : build) (params : Params) (parties : list Party) (tries : list (list Party)) : Prop :=
    honest_parties params parties /\ In parties tries /\
    forall l, In l tries -> Forall2 same_entry parties l /\ all_bootstrapped m params l.

  Lemma same_map {B} (f : Party -> B) : (forall p q, same_entry p q -> f q = f p) -> forall l l', Forall2 same_entry l l' -> map f l' = map f l.
  Proof. intros H l l' HF. induction HF as [|p q l l' E HF IH]; cbn [map]; [reflexivity|]. rewrite (H p q E), IH. reflexivity. Qed.
  Lemma same_in l l' q : Forall2 same_entry l l' -> In q l' -> exists p, In p l /\ same_entry p q.
  Proof. intros HF Hq. induction HF as [|p p' l l' E HF IH]; [destruct Hq|]. destruct Hq as [<-|Hq]; [exists p; split; [left; reflexivity|exact E]|].
    destruct (IH Hq) as (p0 & A & B). exists p0. split; [right; exact A|exact B]. Qed.
  Lemma same_honest params l l' : honest_parties params l -> Forall2 same_entry l l' -> honest_parties params l'.
  Proof.
    intros [H1 H2 H3 H4] HF. constructor.
    - rewrite <- (Forall2_len _ _ _ HF). exact H1.
    - exact H2.
    - rewrite (same_map y_index (fun p q E => proj1 E) l l' HF). exact H3.
    - intros q Hq. destruct (same_in l l' q HF Hq) as (p & Hp & E1 & E2 & E3 & E4). destruct (H4 p Hp) as (r & r' & E).
      exists r, r'. rewrite E1, E2, E3, E4. exact E.
  Qed.
  Lemma same_values l l' x : Forall2 same_entry l l' -> dealt_values l' x = dealt_values l x.
  Proof. intros HF. unfold dealt_values. apply same_map; [|exact HF]. intros p q (E1 & _ & E3 & _). rewrite E1, E3. reflexivity. Qed.
  Lemma mixed_bootstrapped m params parties tries mixed : attempts m params parties tries -> Forall2 same_entry parties mixed ->
    (forall w, In w mixed -> exists l, In l tries /\ In w l) -> all_bootstrapped m params mixed.
  Proof.
    intros (_ & _ & HT) HF HM w Hw. destruct (HM w Hw) as (l & Hl & Hwl). destruct (HT l Hl) as [HFl HBl]. destruct (HBl w Hwl) as (ps & HP & HB).
    exists ps. split; [|exact HB]. rewrite (same_map y_d (fun p q E => proj1 (proj2 E)) parties mixed HF).
    rewrite <- (same_map y_d (fun p q E => proj1 (proj2 E)) parties l HFl). exact HP.
  Qed.
End Attempts.

(** whatever attempt a participant is in and whatever attempts the shares come from, it ends as in the first attempt *)
Theorem C153_messages_of_all_attempts_mix :
  forall (S : Suite) (L : SuiteLaws S) (m : build) (params : Params) (parties : list Party) (tries : list (list Party)) (mixed senders : list Party)
    (q0 q : Party) (es : list EncShare) (r : Rng) (out : G * SigningKey),
  attempts m params parties tries ->
  (** one party of each entry, taken from any of the attempts *)
  Forall2 same_entry parties mixed -> (forall w, In w mixed -> exists l, In l tries /\ In w l) ->
  In q0 parties -> party_run m parties q0 out ->
  In q mixed -> y_index q = y_index q0 -> Permutation senders mixed -> delivered senders q es ->
  exists s2 r', to_round_two m (y_st q) es r = Ok (s2, [], r') /\ finish s2 = Ok out.
Proof.
  intros S L m params parties tries mixed senders q0 q es r out HA HF HM Hq0 (senders0 & es0 & r0 & s20 & cs0 & r0' & P0 & D0 & E0 & F0') Hq Ei HP HD.
  pose proof (mixed_bootstrapped m params parties tries mixed HA HF HM) as HB. destruct HA as (H & H0 & HT).
  destruct (C18_honest_agreement S L m params parties H (proj2 (HT parties H0))) as (s & -> & A).
  destruct (A q0 senders0 es0 r0 Hq0 P0 D0) as (s2' & r2' & sk & A1 & A2 & A3 & A4 & _).
  rewrite E0 in A1. injection A1 as <- _ _. rewrite F0' in A2. injection A2 as ->.
  destruct (C18_honest_agreement S L m params mixed (same_honest params parties mixed H HF) HB) as (s' & -> & B).
  destruct (B q senders es r Hq HP HD) as (s2 & r' & sk' & B1 & B2 & B3 & B4 & _).
  exists s2, r'. split; [exact B1|]. rewrite B2. f_equal. f_equal.
  - rewrite (same_values parties mixed) by exact HF. reflexivity.
  - destruct sk as [i k], sk' as [i' k']. cbn [sk_index sk_key] in *. subst. rewrite Ei, (same_values parties mixed) by exact HF. reflexivity.
Qed.
Print Assumptions C153_messages_of_all_attempts_mix.

(** complaints of all attempts add up: t makers, wherever they complained, open the secret of the dealer they accuse *)
Theorem C153_complaints_of_all_attempts_add_up :
  forall (S : Suite) (L : SuiteLaws S) (m : build) (params : Params) (parties : list Party) (tries : list (list Party)) (p : Party)
    (got : list (list Party * Party * Complaint)) (vs : list F),
  attempts m params parties tries -> In p parties ->
  (** the attempt, the maker's state in it, and the complaint against p that came out of its second round *)
  (forall l q c, In (l, q, c) got -> In l tries /\ In q l /\ accused c = y_index p /\ exists es r cs, In c cs /\
     (to_round_two m (y_st q) es r = Err (ComplaintErr cs) \/ exists s2 r', to_round_two m (y_st q) es r = Ok (s2, cs, r'))) ->
  NoDup (map (fun g => y_index (snd (fst g))) got) -> (u32v (p_t params) <= N.of_nat (length got))%N ->
  (** each is used to open what p sent to the maker in that attempt *)
  Forall2 (fun g v => exists p' e, In p' (fst (fst g)) /\ same_entry p p' /\ bget (y_index (snd (fst g))) (y_es p') = Some e /\
    decrypt_share e (enc_point (c_shared (snd g))) = Ok (MkShare (y_index p) (y_index (snd (fst g))) v)) got vs ->
  hd_error (y_co p) = Some (interp0 (combine (map (fun g => y_index (snd (fst g))) got) vs)).
Proof.
  intros S L m params parties tries p got vs (H & H0 & HT) Hp Hgot Hnd Hl HF.
  assert (E : combine (map (fun g => y_index (snd (fst g))) got) vs =
    map (fun i => (i, poly_value (y_co p) (of_u32 i))) (map (fun g => y_index (snd (fst g))) got)).
  { clear Hnd Hl. induction HF as [|[[l q] c] v got vs (p' & e & Hp' & Es & Be & Ee) HF IH]; [reflexivity|]. cbn [map combine fst snd] in *.
    rewrite IH by (intros l' q' c' Hin; apply Hgot; right; exact Hin). f_equal. f_equal.
    destruct (Hgot l q c (or_introl eq_refl)) as (Hlt & Hq & Ha & X). destruct (HT l Hlt) as [HFl HBl].
    pose proof (same_honest params parties l H HFl) as Hh.
    destruct (C101_complaints_reveal_the_accused S L m params l (fun q' c' => q' = q /\ c' = c) Hh HBl) as [A _].
    { intros q' c' [-> ->]. split; [exact Hq|exact X]. }
    destruct (A q c (conj eq_refl eq_refl)) as (p1 & e1 & Hp1 & Ha1 & Be1 & Ee1).
    destruct Es as (Es1 & _ & Es3 & _).
    assert (p1 = p').
    { apply (NoDup_map_inj_in y_index l); [apply Hh|assumption|assumption|congruence]. }
    subst p1. rewrite Be in Be1. injection Be1 as <-. rewrite Ee in Ee1. injection Ee1 as _ ->. rewrite Es3. reflexivity. }
  rewrite E. destruct (honest_fresh params parties p H Hp) as [_ _ Hco _ _ _].
  rewrite interp0_poly; [|exact Hnd|rewrite map_length; lia].
  destruct (y_co p) as [|a co]; [cbn in Hco; destruct (hp_threshold _ _ H); lia|]. cbn [hd_error]. f_equal. symmetry. apply poly_value_0.
Qed.
Print Assumptions C153_complaints_of_all_attempts_add_up.

(** and fewer than t makers, over all attempts together, leave every secret possible *)
Theorem C153_fewer_complaints_fit_every_secret :
  forall (S : Suite) (L : SuiteLaws S) (m : build) (params : Params) (parties : list Party) (tries : list (list Party)) (p : Party)
    (got : list (list Party * Party * Complaint)) (vs : list F),
  attempts m params parties tries -> In p parties ->
  (** the attempt, the maker's state in it, and the complaint against p that came out of its second round *)
  (forall l q c, In (l, q, c) got -> In l tries /\ In q l /\ accused c = y_index p /\ exists es r cs, In c cs /\
     (to_round_two m (y_st q) es r = Err (ComplaintErr cs) \/ exists s2 r', to_round_two m (y_st q) es r = Ok (s2, cs, r'))) ->
  NoDup (map (fun g => y_index (snd (fst g))) got) -> (N.of_nat (length got) < u32v (p_t params))%N ->
  (** each is used to open what p sent to the maker in that attempt *)
  Forall2 (fun g v => exists p' e, In p' (fst (fst g)) /\ same_entry p p' /\ bget (y_index (snd (fst g))) (y_es p') = Some e /\
    decrypt_share e (enc_point (c_shared (snd g))) = Ok (MkShare (y_index p) (y_index (snd (fst g))) v)) got vs ->
  forall s, exists co, length co = length (y_co p) /\ hd_error co = Some s /\
    Forall2 (fun g v => v = poly_value co (of_u32 (y_index (snd (fst g))))) got vs.
Proof.
  intros S L m params parties tries p got vs (H & H0 & HT) Hp Hgot Hnd Hl HF.
  assert (E : combine (map (fun g => y_index (snd (fst g))) got) vs =
    map (fun i => (i, poly_value (y_co p) (of_u32 i))) (map (fun g => y_index (snd (fst g))) got)).
  { clear Hnd Hl. induction HF as [|[[l q] c] v got vs (p' & e & Hp' & Es & Be & Ee) HF IH]; [reflexivity|]. cbn [map combine fst snd] in *.
    rewrite IH by (intros l' q' c' Hin; apply Hgot; right; exact Hin). f_equal. f_equal.
    destruct (Hgot l q c (or_introl eq_refl)) as (Hlt & Hq & Ha & X). destruct (HT l Hlt) as [HFl HBl].
    pose proof (same_honest params parties l H HFl) as Hh.
    destruct (C101_complaints_reveal_the_accused S L m params l (fun q' c' => q' = q /\ c' = c) Hh HBl) as [A _].
    { intros q' c' [-> ->]. split; [exact Hq|exact X]. }
    destruct (A q c (conj eq_refl eq_refl)) as (p1 & e1 & Hp1 & Ha1 & Be1 & Ee1).
    destruct Es as (Es1 & _ & Es3 & _).
    assert (p1 = p').
    { apply (NoDup_map_inj_in y_index l); [apply Hh|assumption|assumption|congruence]. }
    subst p1. rewrite Be in Be1. injection Be1 as <-. rewrite Ee in Ee1. injection Ee1 as _ ->. rewrite Es3. reflexivity. }
  intros s. destruct (honest_fresh params parties p H Hp) as [_ _ Hco _ _ _].
  assert (Hz : ~ In u32_zero (map (fun g : list Party * Party * Complaint => y_index (snd (fst g))) got)).
  { intros Hz. apply in_map_iff in Hz. destruct Hz as ([[l q] c] & Ez & Hin). cbn [fst snd] in Ez.
    destruct (Hgot l q c Hin) as (Hlt & Hq & _). destruct (HT l Hlt) as [HFl _].
    destruct (hp_indices _ _ (same_honest params parties l H HFl)) as [_ Hnz]. apply Hnz. rewrite <- Ez. apply in_map, Hq. }
  destruct (secrecy_exists (length (y_co p)) (y_co p) _ s eq_refl Hnd Hz ltac:(rewrite map_length; lia)) as (co & C1 & C2 & C3).
  exists co. split; [exact C1|]. split.
  - destruct co as [|a co]; [cbn in C1; destruct (hp_threshold _ _ H); lia|]. rewrite poly_value_0 in C2. cbn [hd] in C2. rewrite C2. reflexivity.
  - clear Hgot Hnd Hl Hz. induction HF as [|g v got vs _ HF IH]; constructor.
    + cbn [map combine] in E. injection E as E _. rewrite E. symmetry. apply C3. left. reflexivity.
    + apply IH; [cbn [map combine] in E; injection E as _ E; exact E|intros i Hi; apply C3; right; exact Hi].
Qed.
Print Assumptions C153_fewer_complaints_fit_every_secret.

(** the generation of three, and the same three calling bootstrap again with other random numbers *)
Definition at_r1 (i : N) : RoundOne :=
  let '(s, _, _) := got (R1 no_state, MkPList [] None, 0%N)
    (bootstrap Debug demo_params (dealer_x 3 2 i (10 * i)) (u i) (dealer_co 3 2 i (10 * i)) demo_ps (2000 + i)%N) in s.
Definition at_party (i : N) : Party :=
  MkParty (u i) (dealer 3 2 i (10 * i)) (dealer_co 3 2 i (10 * i)) (dealer_x 3 2 i (10 * i))
    (at_r1 i) (got [] (their_encrypted_secret_shares (at_r1 i))).
Definition at_parties : list Party := map at_party [1; 2; 3]%N.
Lemma at_entry i : same_entry (demo_party i) (at_party i).
Proof. unfold same_entry, demo_party, at_party. cbn [y_index y_d y_co y_x]. auto. Qed.
Lemma at_refl (S : Suite) (p : Party) : same_entry p p.
Proof. unfold same_entry. auto. Qed.
Lemma at_same : Forall2 same_entry demo_parties at_parties.
Proof. unfold demo_parties, at_parties. cbn [map]. repeat (apply Forall2_cons; [apply at_entry|]). apply Forall2_nil. Qed.
Lemma at_bootstrapped : all_bootstrapped Debug demo_params at_parties.
Proof.
  assert (H : honest_parties demo_params at_parties) by exact (same_honest demo_params demo_parties at_parties C18_ex_honest at_same).
  intros p Hp. exists demo_ps.
  assert (HP : Permutation demo_ps (map y_d at_parties)) by apply Permutation_refl.
  split; [exact HP|].
  assert (K : forall i, In (at_party i) at_parties -> bootstrapped Debug demo_params demo_ps (at_party i)).
  { intros i Hi.
    destruct (C18_round_one_succeeds Toy ToyLaws Debug demo_params at_parties (at_party i) demo_ps (2000 + i)%N H Hi HP) as (st & es & r' & E1 & E2 & _).
    exists (2000 + i)%N, (MkPList demo_ps None), r'.
    assert (Es : y_st (at_party i) = st).
    { cbn [y_st at_party]. unfold at_r1. cbn [y_x y_co y_index at_party] in E1. rewrite E1. reflexivity. }
    split; [rewrite Es; exact E1|]. cbn [y_es at_party]. cbn [y_st at_party] in *. rewrite Es, E2. reflexivity. }
  destruct Hp as [<-|[<-|[<-|[]]]]; apply K; [left; reflexivity|right; left; reflexivity|right; right; left; reflexivity].
Qed.
Example C153_ex : attempts Debug demo_params demo_parties [demo_parties; at_parties] /\
  Forall2 same_entry demo_parties [demo_party 1; at_party 2; at_party 3] /\
  (forall w, In w [demo_party 1; at_party 2; at_party 3] -> exists l, In l [demo_parties; at_parties] /\ In w l).
Proof.
  split; [|split].
  - split; [exact C18_ex_honest|]. split; [left; reflexivity|]. intros l [<-|[<-|[]]].
    + split; [|exact C18_ex_bootstrapped]. unfold demo_parties. cbn [map]. repeat (apply Forall2_cons; [apply at_refl|]). apply Forall2_nil.
    + split; [exact at_same|exact at_bootstrapped].
  - unfold demo_parties. cbn [map]. apply Forall2_cons; [apply at_refl|]. repeat (apply Forall2_cons; [apply at_entry|]). apply Forall2_nil.
  - intros w [<-|[<-|[<-|[]]]].
    + exists demo_parties. split; left; reflexivity.
    + exists at_parties. split; right; left; reflexivity.
    + exists at_parties. split; [right; left; reflexivity|right; right; left; reflexivity].
Qed.
(** the second attempt's messages are others; participant 3 of the second attempt, with the share of 1 from the first,
    ends with the key of the first *)
Definition at_nonce (p : Party) : list byte := match bget (u 3) (y_es p) with Some e => nonce_bytes (es_nonce e) | None => [] end.
Example C153_ex_mixed :
  (if list_eq_dec Byte.byte_eq_dec (at_nonce (demo_party 1)) (at_nonce (at_party 1)) then true else false) = false /\
  (let* (s2, cs, _) := to_round_two Debug (at_r1 3) (shares_to 3 [demo_r1 demo_ps 1; at_r1 2; at_r1 3]) 7%N in
   let* (gk, sk) := finish s2 in Ok (length cs, gk, sk)) =
  Ok (0, (toy_gen * interp0 (dealt_values demo_parties (mk 0)))%G, MkSK (u 3) (interp0 (dealt_values demo_parties (mk 3)))).
Proof. vms. Qed.
(** one complaint about 1 in each attempt, fewer than the threshold in both (each alone is a case of the third theorem);
    together they give the secret of 1 *)
Definition at_junk (i : N) : EncShare := MkEnc (S := Toy) (u 1) (u i) (fst (gen_nonce 0%N)) [].
Definition at_complaints (st : RoundOne) (shares : list EncShare) (i : N) : list Complaint :=
  complaints_in (to_round_two Debug st (shares ++ [at_junk i]) 7%N).
Definition at_first : list Complaint := at_complaints (demo_r1 demo_ps 2) (demo_shares 2) 2.
Definition at_second : list Complaint := at_complaints (at_r1 3) (shares_to 3 (map at_r1 [1; 2; 3]%N)) 3.
Example C153_ex_complaints :
  map accused at_first = [u 1] /\ map accused at_second = [u 1] /\
  hd_error (y_co (demo_party 1)) = Some (interp0
    (flat_map (fun c => opened c (bget (u 2) (y_es (demo_party 1)))) at_first ++
     flat_map (fun c => opened c (bget (u 3) (y_es (at_party 1)))) at_second)).
Proof. vms. Qed.
