(** C154: one entry of new_dealer used in several groups. *)
From Coq Require Import String Strings.Byte Arith NArith ZArith Bool List Permutation Sorted Lia Field.
From Verif Require Import Base Suite Spec SpecDkg Types ModelDkg Algebra BaseLemmas LemmasShare LemmasRound1
  LemmasRound2 LemmasFinish Toy Demo DemoDkg PropsRound1 PropsRound2 PropsFinish PropsLeak PropsAttempts.
Import ListNotations.

Section Groups.
  Context {S : Suite} {L : SuiteLaws S}.
  (** key generations of any groups, of any sizes, that all have the entry of p among their participants *)
  Definition entry_in_groups (m : build) (p : Party) (groups : list (Params * list Party)) : Prop :=
    forall params l, In (params, l) groups ->
      honest_parties params l /\ all_bootstrapped m params l /\ exists p', In p' l /\ same_entry p p'.
  (** q, a participant of the group l, opens with its own Diffie-Hellman secret what p sent it there *)
  Definition opens_of (p : Party) (l : list Party) (q : Party) (v : F) : Prop :=
    exists p' e, In p' l /\ same_entry p p' /\ bget (y_index q) (y_es p') = Some e /\
      decrypt_share e (enc_point (pt_dh_pk (y_d p) * y_x q)%G) = Ok (MkShare (y_index p) (y_index q) v).

  Lemma Forall2_inv_head {A B} (R : A -> B -> Prop) a b l l' : Forall2 R (a :: l) (b :: l') -> R a b.
  Proof. intros H. inversion H; assumption. Qed.
  Lemma opens_value m p groups params l q v : entry_in_groups m p groups -> In (params, l) groups -> In q l ->
    opens_of p l q v -> v = poly_value (y_co p) (of_u32 (y_index q)).
  Proof.
    intros HG Hl Hq (p' & e & Hp' & (E1 & E2 & E3 & E4) & Be & Ee). destruct (HG params l Hl) as (H & HB & _).
    assert (HD : Forall2 (fun d e => let '(j, x, co) := d in es_sender e = j /\ es_receiver e = y_index q /\
       decrypt_share e (enc_point ((gen * x) * y_x q)%G) =
         Ok (MkShare j (y_index q) (poly_value co (of_u32 (y_index q))))) (map dealing [p']) [e]).
    { apply (honest_delivered_some m params l [p'] q [e] H HB Hq); [intros p0 [<-|[]]; exact Hp'|constructor; [exact Be|constructor]]. }
    cbn [map dealing] in HD. apply Forall2_inv_head in HD. destruct HD as (_ & _ & X). destruct (honest_fresh params l p' H Hp') as [_ Hpk _ _ _ _].
    rewrite <- Hpk, E2, Ee in X. injection X as _ X. rewrite X, E3. reflexivity.
  Qed.
  Lemma opens_exists m p groups params l q : entry_in_groups m p groups -> In (params, l) groups -> In q l -> exists v, opens_of p l q v.
  Proof.
    intros HG Hl Hq. destruct (HG params l Hl) as (H & HB & p' & Hp' & E). pose proof E as (E1 & E2 & E3 & E4).
    destruct (honest_state m params l p' H HB Hp') as (st & comms & ps & _ & HPs & [K1 K2] & _).
    destruct (honest_fresh params l q H Hq) as [Hi _ _ _ _ _].
    destruct (K2 (y_index q) (y_d q)) as (e & G1 & _).
    { apply last_with_distinct; [eapply honest_nodup_ps; eassumption|]. split; [|exact Hi].
      eapply Permutation_in; [apply Permutation_sym, HPs|]. apply in_map, Hq. }
    assert (HD : Forall2 (fun d e => let '(j, x, co) := d in es_sender e = j /\ es_receiver e = y_index q /\
       decrypt_share e (enc_point ((gen * x) * y_x q)%G) =
         Ok (MkShare j (y_index q) (poly_value co (of_u32 (y_index q))))) (map dealing [p']) [e]).
    { apply (honest_delivered_some m params l [p'] q [e] H HB Hq); [intros p0 [<-|[]]; exact Hp'|constructor; [exact G1|constructor]]. }
    cbn [map dealing] in HD. apply Forall2_inv_head in HD. destruct HD as (_ & _ & X). destruct (honest_fresh params l p' H Hp') as [_ Hpk _ _ _ _].
    eexists. exists p', e. split; [exact Hp'|]. split; [exact E|]. split; [exact G1|]. rewrite <- E1, <- E2, Hpk. exact X.
  Qed.
  Lemma opens_list m p groups got vs : entry_in_groups m p groups ->
    (forall l q, In (l, q) got -> exists params, In (params, l) groups /\ In q l) ->
    Forall2 (fun g v => opens_of p (fst g) (snd g) v) got vs ->
    vs = map (fun g => poly_value (y_co p) (of_u32 (y_index (snd g)))) got.
  Proof.
    intros HG Hin HF. induction HF as [|[l q] v got vs Hv HF IH]; [reflexivity|]. cbn [map fst snd] in *.
    destruct (Hin l q (or_introl eq_refl)) as (params & A & B). f_equal; [exact (opens_value m p groups params l q v HG A B Hv)|].
    apply IH. intros l' q' H'. apply Hin. right; exact H'.
  Qed.
  Lemma combine_maps {A B C} (f : A -> B) (g : B -> C) l : combine (map f l) (map (fun x => g (f x)) l) = map (fun i => (i, g i)) (map f l).
  Proof. induction l as [|a l IH]; cbn [map combine]; [reflexivity|]. rewrite IH. reflexivity. Qed.
End Groups.

(** every participant of every group can open its message; t of them with different indices, wherever they are, get the secret *)
Theorem C154_receivers_of_all_groups_add_up :
  forall (S : Suite) (L : SuiteLaws S) (m : build) (p : Party) (groups : list (Params * list Party)) (got : list (list Party * Party)),
  entry_in_groups m p groups ->
  (forall l q, In (l, q) got -> exists params, In (params, l) groups /\ In q l) ->
  (exists vs, Forall2 (fun g v => opens_of p (fst g) (snd g) v) got vs) /\
  forall vs, Forall2 (fun g v => opens_of p (fst g) (snd g) v) got vs ->
  NoDup (map (fun g => y_index (snd g)) got) ->
  forall params l, In (params, l) groups -> (u32v (p_t params) <= N.of_nat (length got))%N ->
  hd_error (y_co p) = Some (interp0 (combine (map (fun g => y_index (snd g)) got) vs)).
Proof.
  intros S L m p groups got HG Hin. split.
  - clear -HG Hin L. induction got as [|[l q] got IH]; [exists []; constructor|].
    destruct IH as [vs IH]; [intros l' q' H'; apply Hin; right; exact H'|].
    destruct (Hin l q (or_introl eq_refl)) as (params & A & B). destruct (opens_exists m p groups params l q HG A B) as [v Hv].
    exists (v :: vs). constructor; assumption.
  - intros vs HF Hnd params l Hl Ht. rewrite (opens_list m p groups got vs HG Hin HF).
    rewrite (combine_maps (fun g : list Party * Party => y_index (snd g)) (fun i => poly_value (y_co p) (of_u32 i))).
    destruct (HG params l Hl) as (H & _ & p' & Hp' & _ & _ & E3 & _). destruct (honest_fresh params l p' H Hp') as [_ _ Hco _ _ _].
    rewrite E3 in Hco. rewrite interp0_poly; [|exact Hnd|rewrite map_length; lia].
    destruct (y_co p) as [|a co]; [cbn in Hco; destruct (hp_threshold _ _ H); lia|]. cbn [hd_error]. f_equal. symmetry. apply poly_value_0.
Qed.
Print Assumptions C154_receivers_of_all_groups_add_up.

(** fewer than t different indices over all groups leave every secret possible, however many groups there are *)
Theorem C154_fewer_receivers_fit_every_secret :
  forall (S : Suite) (L : SuiteLaws S) (m : build) (p : Party) (groups : list (Params * list Party)) (got : list (list Party * Party))
    (vs : list F) (idx : list u32) (params : Params) (l : list Party) (s : F),
  entry_in_groups m p groups ->
  (forall l q, In (l, q) got -> exists params, In (params, l) groups /\ In q l) ->
  Forall2 (fun g v => opens_of p (fst g) (snd g) v) got vs ->
  (** the same index may occur in several groups *)
  (forall g, In g got -> In (y_index (snd g)) idx) -> good_indices idx ->
  In (params, l) groups -> (N.of_nat (length idx) < u32v (p_t params))%N ->
  exists co, length co = length (y_co p) /\ hd_error co = Some s /\
    Forall2 (fun g v => v = poly_value co (of_u32 (y_index (snd g)))) got vs.
Proof.
  intros S L m p groups got vs idx params l s HG Hin HF Hidx [Hnd Hz] Hl Ht.
  rewrite (opens_list m p groups got vs HG Hin HF).
  destruct (HG params l Hl) as (H & _ & p' & Hp' & _ & _ & E3 & _). destruct (honest_fresh params l p' H Hp') as [_ _ Hco _ _ _].
  rewrite E3 in Hco.
  destruct (secrecy_exists (length (y_co p)) (y_co p) idx s eq_refl Hnd Hz ltac:(lia)) as (co & C1 & C2 & C3).
  exists co. split; [exact C1|]. split.
  - destruct co as [|a co]; [cbn in C1; destruct (hp_threshold _ _ H); lia|]. rewrite poly_value_0 in C2. cbn [hd] in C2. rewrite C2. reflexivity.
  - clear -Hidx C3. induction got as [|g got IH]; cbn [map]; constructor.
    + symmetry. apply C3, Hidx. left; reflexivity.
    + apply IH. intros g' Hg'. apply Hidx. right; exact Hg'.
Qed.
Print Assumptions C154_fewer_receivers_fit_every_secret.

(** the generation of 1, 2 and 3, and one of 1, 4 and 5, threshold two: 2 in the first and 4 in the second get the secret of 1 *)
Definition gr_ps : list Participant := [dealer 3 2 1 10; dealer 3 2 4 40; dealer 3 2 5 50].
Definition gr_party (i : N) : Party :=
  MkParty (u i) (dealer 3 2 i (10 * i)) (dealer_co 3 2 i (10 * i)) (dealer_x 3 2 i (10 * i))
    (demo_r1 gr_ps i) (got [] (their_encrypted_secret_shares (demo_r1 gr_ps i))).
Definition gr_parties : list Party := map gr_party [1; 4; 5]%N.
Lemma gr_honest : honest_parties demo_params gr_parties.
Proof.
  constructor.
  - vmr.
  - split; vm_compute; discriminate.
  - good.
  - intros p [<-|[<-|[<-|[]]]]; unfold dealt_by.
    + exists 10%N, (let '(_, _, _, r) := dealer_run 3 2 1 10 in r). vmr.
    + exists 40%N, (let '(_, _, _, r) := dealer_run 3 2 4 40 in r). vmr.
    + exists 50%N, (let '(_, _, _, r) := dealer_run 3 2 5 50 in r). vmr.
Qed.
Lemma gr_bootstrapped : all_bootstrapped Debug demo_params gr_parties.
Proof.
  intros p Hp. exists gr_ps.
  assert (HP : Permutation gr_ps (map y_d gr_parties)) by apply Permutation_refl.
  split; [exact HP|].
  assert (K : forall i, In (gr_party i) gr_parties -> bootstrapped Debug demo_params gr_ps (gr_party i)).
  { intros i Hi.
    destruct (C18_round_one_succeeds Toy ToyLaws Debug demo_params gr_parties (gr_party i) gr_ps (1000 + i)%N
      gr_honest Hi HP) as (st & es & r' & E1 & E2 & _).
    exists (1000 + i)%N, (MkPList gr_ps None), r'.
    assert (Es : y_st (gr_party i) = st).
    { cbn [y_st gr_party]. unfold demo_r1. cbn [y_x y_co y_index gr_party] in E1. rewrite E1. reflexivity. }
    split; [rewrite Es; exact E1|]. cbn [y_es gr_party]. cbn [y_st gr_party] in *. rewrite Es, E2. reflexivity. }
  destruct Hp as [<-|[<-|[<-|[]]]]; apply K; [left; reflexivity|right; left; reflexivity|right; right; left; reflexivity].
Qed.
Example C154_ex : entry_in_groups Debug (demo_party 1) [(demo_params, demo_parties); (demo_params, gr_parties)] /\
  (forall l q, In (l, q) [(demo_parties, demo_party 2); (gr_parties, gr_party 4)] ->
     exists params, In (params, l) [(demo_params, demo_parties); (demo_params, gr_parties)] /\ In q l) /\
  good_indices (map (fun g => y_index (snd g)) [(demo_parties, demo_party 2); (gr_parties, gr_party 4)]).
Proof.
  split; [|split].
  - intros params l [E|[E|[]]]; injection E as <- <-.
    + split; [exact C18_ex_honest|]. split; [exact C18_ex_bootstrapped|]. exists (demo_party 1). split; [left; reflexivity|apply at_refl].
    + split; [exact gr_honest|]. split; [exact gr_bootstrapped|]. exists (gr_party 1). split; [left; reflexivity|].
      unfold same_entry, demo_party, gr_party. cbn [y_index y_d y_co y_x]. auto.
  - intros l q [E|[E|[]]]; injection E as <- <-; exists demo_params.
    + split; [left; reflexivity|right; left; reflexivity].
    + split; [right; left; reflexivity|right; left; reflexivity].
  - good.
Qed.
Definition gr_opened (p q : Party) : list (u32 * @F Toy) :=
  match bget (y_index q) (y_es p) with
  | Some e => match decrypt_share e (enc_point (pt_dh_pk (y_d p) * y_x q)%G) with Ok s => [(sh_receiver s, sh_value s)] | _ => [] end
  | None => []
  end.
Example C154_ex_secret :
  length (gr_opened (demo_party 1) (demo_party 2)) = 1 /\ length (gr_opened (gr_party 1) (gr_party 4)) = 1 /\
  hd_error (y_co (demo_party 1)) = Some (interp0 (gr_opened (demo_party 1) (demo_party 2) ++ gr_opened (gr_party 1) (gr_party 4))).
Proof. vms. Qed.
