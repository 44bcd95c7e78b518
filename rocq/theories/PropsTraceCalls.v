(** C144: the whole calls of the key generation and a whole session leave a record that does not depend on the secrets. *)
From Coq Require Import String Strings.Byte Arith NArith ZArith Bool List Lia Permutation.
From Verif Require Import Base Suite Spec SpecDkg Types ModelDkg ModelTrace ModelTraceCalls Algebra BaseLemmas LemmasShare LemmasRound1
  LemmasRound2 LemmasFinish LemmasBlame PropsFinish PropsOrder PropsTrace Toy Demo DemoDkg PropsBlame PropsReshare.
Import ListNotations.

(** ** what the theorems speak about *)
Section Notions.
  Context {S : Suite} {L : SuiteLaws S}.
  (** two published participants at the same index with the same outcome of the first round's checks *)
  Definition matched (ok : Participant -> Prop) (p p' : Participant) : Prop :=
    pt_index p = pt_index p' /\ (ok p <-> ok p') /\ (crashing p <-> crashing p').
  (** two complaints of the same maker about the same participant, both upheld or both dismissed *)
  Definition judged_alike (st st' : DkgState) (c c' : Complaint) : Prop :=
    accused c = accused c' /\ maker c = maker c' /\ (upheld st c <-> upheld st' c').
  (** two participants at the end, with shares and commitments of the same dealers, empty or not *)
  Definition same_dealers (st st' : DkgState) : Prop :=
    option_map bkeys (ds_shares st) = option_map bkeys (ds_shares st') /\
    option_map (map (fun kc => (fst kc, Nat.eqb (length (vss_points (snd kc))) 0))) (ds_comms st) =
    option_map (map (fun kc => (fst kc, Nat.eqb (length (vss_points (snd kc))) 0))) (ds_comms st').
  (** the next call, after a success *)
  Definition on_ok {A B} (x : traced (result A)) (f : A -> traced (result B)) : traced (result B) :=
    let+ a := x in match a with Ok v => f v | Err e => pure (Err e) | Panic => pure Panic end.
  (** round one, of a key generation or of a resharing, as in [round_one] *)
  Definition t_round_one (reshared : bool) (m : build) (params : Params) (x : F) (my : u32) (co : list F) (ps : list Participant) (r : Rng) :=
    if reshared then t_dkg_new m params x my ps r else t_bootstrap m params x my co ps r.
  (** the calls of one participant from round one to the end, as in [session] *)
  Definition t_session (reshared : bool) (m : build) (params : Params) (x : F) (my : u32) (co : list F) (ps : list Participant)
      (es : list EncShare) (cs : list Complaint) (r q : Rng) : traced (result (list Complaint * list G * G * SigningKey)) :=
    on_ok (t_round_one reshared m params x my co ps r) (fun '(s1, _, _) =>
    on_ok (t_to_round_two m s1 es q) (fun '(s2, raised, _) =>
    on_ok (t_blame s2 cs) (fun '(keys, s3) =>
    on_ok (t_finish s3) (fun '(gk, sk) => pure (Ok (raised, keys, gk, sk)))))).
End Notions.

Section Calls.
  Context {S : Suite} {L : SuiteLaws S}.
  Ltac fs := repeat (rewrite fst_bind || cbn [fst snd pure does test]).
  Ltac ss := repeat (rewrite snd_bind || rewrite fst_bind || cbn [fst snd pure does test app]).
  Ltac cf := repeat match goal with |- ?a :: _ = ?a :: _ => apply (f_equal (cons a)) | |- ?a ++ _ = ?a ++ _ => apply (f_equal (app a)) end.

  (** *** the values *)
  Lemma fst_wipes {A} n (k : traced A) : fst (let+ _ := wipes n in k) = fst k.
  Proof. rewrite fst_bind. reflexivity. Qed.
  Lemma fst_nsi m params x my co ps fd fs r :
    fst (t_new_state_internal m params x my co ps fd fs r) = new_state_internal m params x my co ps fd fs r.
  Proof.
    unfold t_new_state_internal, new_state_internal. fs. destruct (negb _); [reflexivity|].
    destruct (check_all _ _ _ _ _ _) as [a|e|]; cbn [bind]; try reflexivity. fs. destruct (N.ltb _ _); [reflexivity|]. fs.
    destruct (negb fd && fs).
    - fs. destruct (u32_sub _ _ _) as [n|e|]; cbn [bind]; try reflexivity. destruct (params_new _ _ _) as [p|e|]; reflexivity.
    - destruct co as [cs|]; fs; rewrite ?fst_all.
      + destruct (encrypt_all _ _ _ _ _ _) as [[es r']|e|]; cbn [bind]; try reflexivity. fs.
        destruct (u32_sub _ _ _) as [n|e|]; cbn [bind]; try reflexivity. destruct (params_new _ _ _) as [p|e|]; reflexivity.
      + destruct (encrypt_all _ _ _ _ _ _) as [[es r']|e|]; cbn [bind]; try reflexivity. fs.
        destruct (u32_sub _ _ _) as [n|e|]; cbn [bind]; try reflexivity. destruct (params_new _ _ _) as [p|e|]; reflexivity.
  Qed.
  Lemma fst_boot m params x my co ps r : fst (t_bootstrap m params x my co ps r) = bootstrap m params x my co ps r.
  Proof. apply fst_nsi. Qed.
  Lemma fst_dnew m params x my ps r : fst (t_dkg_new m params x my ps r) = dkg_new m params x my ps r.
  Proof. apply fst_nsi. Qed.
  Lemma fst_reshare m params sk ps r : fst (t_reshare m params sk ps r) = reshare m params sk ps r.
  Proof.
    unfold t_reshare, reshare. fs. rewrite fst_new. destruct (new_internal _ _ _ _ _) as [[[[d co] x] r1]|e|]; cbn [bind]; try reflexivity.
    destruct co as [cs|]; [|reflexivity]. fs. rewrite fst_nsi.
    destruct (new_state_internal _ _ _ _ _ _ _ _ _) as [[[st l] r2]|e|]; cbn [bind]; fs; reflexivity.
  Qed.
  Lemma fst_remove l : forall st, fst (t_remove_all st l) = remove_all st l.
  Proof.
    induction l as [|i l IH]; intros st; cbn [t_remove_all remove_all]; fs; [reflexivity|].
    destruct (remove_malicious st i) as [st'|e|]; cbn [bind]; [apply IH| |]; reflexivity.
  Qed.
  Lemma fst_blame s cs : fst (t_blame s cs) = blame s cs.
  Proof.
    unfold t_blame, blame. destruct (blame_loop _ _ _) as [l|e|]; cbn [bind]; try reflexivity. fs. rewrite fst_remove.
    destruct (remove_all _ _) as [st|e|]; reflexivity.
  Qed.
  Lemma fst_finish s : fst (t_finish s) = finish s.
  Proof.
    unfold t_finish, finish. fs. rewrite fst_key. destruct (calculate_signing_key _) as [sk|e|]; cbn [bind]; fs; try reflexivity.
    destruct (calculate_group_key _) as [gk|e|]; cbn [bind]; fs; reflexivity.
  Qed.
  Lemma fst_on {A B} (x : traced (result A)) (f : A -> traced (result B)) : fst (on_ok x f) = let* a := fst x in fst (f a).
  Proof. unfold on_ok. rewrite fst_bind. destruct (fst x); reflexivity. Qed.
  Lemma snd_on {A B} (x : traced (result A)) (f : A -> traced (result B)) :
    snd (on_ok x f) = snd x ++ match fst x with Ok a => snd (f a) | _ => [] end.
  Proof. unfold on_ok. rewrite snd_bind. destruct (fst x); reflexivity. Qed.
  Lemma fst_one b m params x my co ps r : fst (t_round_one b m params x my co ps r) = round_one b m params x my co ps r.
  Proof. unfold t_round_one, round_one. destruct b; [apply fst_dnew|apply fst_boot]. Qed.
  Lemma fst_session b m params x my co ps es cs r q : fst (t_session b m params x my co ps es cs r q) = session b m params x my co ps es cs r q.
  Proof.
    unfold t_session, session. rewrite fst_on, fst_one.
    destruct (round_one b m params x my co ps r) as [[[s1 l] r1]|e|]; cbn [bind]; try reflexivity.
    rewrite fst_on, fst_two.
    destruct (to_round_two _ _ _ _) as [[[s2 cp] r2]|e|]; cbn [bind]; try reflexivity. rewrite fst_on, fst_blame.
    destruct (blame _ _) as [[ks s3]|e|]; cbn [bind]; try reflexivity. rewrite fst_on, fst_finish.
    destruct (finish _) as [[gk sk]|e|]; reflexivity.
  Qed.

  (** *** the shapes of maps *)
  Lemma binsert_shape {A B} k (v : A) (v' : B) : forall m m', bkeys m = bkeys m' -> bkeys (binsert k v m) = bkeys (binsert k v' m').
  Proof.
    induction m as [|[j w] m IH]; intros [|[j' w'] m'] H; try discriminate; [reflexivity|]. injection H as <- H. cbn [binsert].
    unfold bkeys in *. destruct (u32_ltb k j); [cbn [map fst]; do 2 f_equal; exact H|]. destruct (u32_eqb k j); cbn [map fst]; f_equal; auto.
  Qed.
  Lemma binsert_all_shape {A B} : forall (l : list (u32 * A)) (l' : list (u32 * B)) m m', map fst l = map fst l' -> bkeys m = bkeys m' ->
    bkeys (binsert_all l m) = bkeys (binsert_all l' m').
  Proof.
    induction l as [|[k v] l IH]; intros [|[k' v'] l'] m m' H Hm; try discriminate; [exact Hm|]. injection H as <- H. cbn [binsert_all].
    apply IH; [exact H|]. apply binsert_shape, Hm.
  Qed.
  Lemma drop_shape {A B} l : forall (m : bmap A) (m' : bmap B), bkeys m = bkeys m' -> bkeys (drop_keys l m) = bkeys (drop_keys l m').
  Proof.
    induction m as [|[k v] m IH]; intros [|[k' v'] m'] H; try discriminate; [reflexivity|]. injection H as <- H. unfold drop_keys in *. cbn [filter fst].
    destruct (negb _); unfold bkeys in *; cbn [map fst]; [f_equal|]; apply IH, H.
  Qed.
  Lemma remove_shape {A B} i : forall (m : bmap A) (m' : bmap B), bkeys m = bkeys m' -> bkeys (bremove i m) = bkeys (bremove i m').
  Proof.
    induction m as [|[k v] m IH]; intros [|[k' v'] m'] H; try discriminate; [reflexivity|]. injection H as <- H. unfold bremove in *. cbn [filter fst].
    destruct (negb _); unfold bkeys in *; cbn [map fst]; [f_equal|]; apply IH, H.
  Qed.
  Lemma filter_shape (b : Participant -> bool) : forall ps ps', Forall2 (fun p p' => pt_index p = pt_index p' /\ b p = b p') ps ps' ->
    map pt_index (filter b ps) = map pt_index (filter b ps').
  Proof.
    induction 1 as [|p p' ps ps' [H1 H2] H IH]; [reflexivity|]. cbn [filter]. rewrite H2. destruct (b p'); cbn; rewrite ?H1, ?IH; reflexivity.
  Qed.
  Lemma existsb_shape (b : Participant -> bool) : forall ps ps', Forall2 (fun p p' => b p = b p') ps ps' -> existsb b ps = existsb b ps'.
  Proof. induction 1 as [|p p' ps ps' H1 H IH]; [reflexivity|]. cbn. rewrite H1, IH. reflexivity. Qed.
  Lemma comm_keys ps : (forall p, In p ps -> pt_comm p <> None) -> map fst (comm_entries ps) = map pt_index ps.
  Proof.
    induction ps as [|p ps IH]; intros H; [reflexivity|]. unfold comm_entries in *. cbn [flat_map map]. rewrite map_app, IH by (intros q Hq; apply H; right; exact Hq).
    specialize (H p (or_introl eq_refl)). destruct (pt_comm p); [reflexivity|congruence].
  Qed.
  Lemma dh_keys ps : map fst (dh_entries ps) = map pt_index ps.
  Proof. unfold dh_entries. rewrite map_map. reflexivity. Qed.
  Lemma f2_length {A B} (R : A -> B -> Prop) l l' : Forall2 R l l' -> length l = length l'.
  Proof. induction 1; cbn; congruence. Qed.
  Lemma f2_imp {A B} (R Q : A -> B -> Prop) l l' : (forall a b, R a b -> Q a b) -> Forall2 R l l' -> Forall2 Q l l'.
  Proof. intros H. induction 1; constructor; auto. Qed.
  Lemma bool_iff (a b : bool) : (a = true <-> b = true) -> a = b.
  Proof. destruct a, b; intros [H1 H2]; try reflexivity; [discriminate (H1 eq_refl)|discriminate (H2 eq_refl)]. Qed.

  (** *** round one *)
  (** what two round one states have in common *)
  Definition similar (st st' : DkgState) : Prop :=
    same_place st st' /\ ds_shares st = None /\ ds_shares st' = None.
  (** all recorded commitments have a first point *)
  Definition proper (st : DkgState) : Prop := forall comms k c, ds_comms st = Some comms -> In (k, c) comms -> vss_points c <> [].
  Definition alike_ends (st st' : DkgState) : Prop := similar st st' /\ proper st /\ proper st'.

  Lemma proper_insert (l : list (u32 * Vss)) : (forall k c, In (k, c) l -> vss_points c <> []) -> forall k c, In (k, c) (binsert_all l []) -> vss_points c <> [].
  Proof.
    intros H. assert (G : forall (l : list (u32 * Vss)) m, (forall k c, In (k, c) l -> vss_points c <> []) -> (forall k c, In (k, c) m -> vss_points c <> []) ->
      forall k c, In (k, c) (binsert_all l m) -> vss_points c <> []).
    { clear. induction l as [|[k v] l IH]; intros m Hl Hm; [exact Hm|]. cbn [binsert_all]. apply IH; [intros; eapply Hl; right; eassumption|].
      assert (Hv : vss_points v <> []) by (eapply Hl; left; reflexivity). clear - Hv Hm.
      induction m as [|[j w] m IH]; cbn [binsert]; intros k0 c Hin.
      - destruct Hin as [[= <- <-]|[]]. exact Hv.
      - destruct (u32_ltb k j).
        + destruct Hin as [[= <- <-]|Hin]; [exact Hv|]. eapply Hm, Hin.
        + destruct (u32_eqb k j).
          * destruct Hin as [[= <- <-]|Hin]; [exact Hv|]. eapply Hm. right. exact Hin.
          * destruct Hin as [[= <- <-]|Hin]; [eapply Hm; left; reflexivity|]. eapply IH; [|exact Hin]. intros; eapply Hm; right; eassumption. }
    apply G; [exact H|]. intros k c [].
  Qed.
  Lemma proper_valid fd t ps : forall k c, In (k, c) (comm_entries (filter (okb fd true t) ps)) -> vss_points c <> [].
  Proof.
    intros k c Hin. unfold comm_entries in Hin. apply in_flat_map in Hin. destruct Hin as (p & Hp & Hc).
    apply filter_In in Hp. destruct Hp as [_ Hp]. unfold okb in Hp. cbn [negb orb] in Hp. apply andb_prop in Hp. destruct Hp as [_ Hp].
    apply andb_prop in Hp. destruct Hp as [Hp _]. apply keyb_iff in Hp. destruct Hp as (c' & P & rest & pr & H1 & H2 & _).
    rewrite H1 in Hc. destruct Hc as [[= <- <-]|[]]. rewrite H2. discriminate.
  Qed.

  Definition outcome {A B} (R : A -> B -> Prop) (x : result A) (y : result B) : Prop :=
    match x, y with Ok a, Ok b => R a b | Err _, Err _ | Panic, Panic => True | _, _ => False end.

  Lemma snd_nsi m params x x' my co co' ps ps' fd fs r r' : (fd = true \/ fs = true) ->
    ((fd = false /\ fs = true) \/ exists cs cs', co = Some cs /\ co' = Some cs' /\ length cs = length cs') ->
    Forall2 (fun p p' => pt_index p = pt_index p' /\ okb fd fs (p_t params) p = okb fd fs (p_t params) p' /\ crashb p = crashb p') ps ps' ->
    snd (t_new_state_internal m params x my co ps fd fs r) = snd (t_new_state_internal m params x' my co' ps' fd fs r') /\
    outcome (fun a a' => let '(s, _, _) := a in let '(s', _, _) := a' in
        alike_ends (st1 s) (st1 s') /\ (fd = true -> ds_enc (st1 s) <> None /\ ds_enc (st1 s') <> None) /\
        (fs = true -> ds_comms (st1 s) <> None))
      (new_state_internal m params x my co ps fd fs r) (new_state_internal m params x' my co' ps' fd fs r').
  Proof.
    intros Hf Hco H. unfold t_new_state_internal, new_state_internal. ss. rewrite !(check_all_eq m params fd fs _ Hf). cbv zeta.
    pose proof (f2_length _ _ _ H) as Hlen. rewrite Hlen. cf.
    assert (Ecr : existsb crashb ps = existsb crashb ps') by (apply existsb_shape; eapply f2_imp; [|exact H]; cbn; tauto).
    rewrite Ecr. destruct (negb (N.eqb _ _)); [split; [reflexivity|exact I]|]. destruct (fs && existsb crashb ps'); [split; [reflexivity|exact I]|].
    cbn [bind acc_valid acc_mis acc_comms acc_dhs app].
    assert (Ev : map pt_index (filter (okb fd fs (p_t params)) ps) = map pt_index (filter (okb fd fs (p_t params)) ps'))
      by (apply filter_shape; eapply f2_imp; [|exact H]; cbn; tauto).
    assert (Em : map pt_index (filter (fun p => negb (okb fd fs (p_t params) p)) ps) = map pt_index (filter (fun p => negb (okb fd fs (p_t params) p)) ps'))
      by (apply filter_shape; eapply f2_imp; [|exact H]; cbn; intros a b (X & Y & _); rewrite Y; auto).
    assert (El : length (filter (okb fd fs (p_t params)) ps) = length (filter (okb fd fs (p_t params)) ps'))
      by (apply (f_equal (@length u32)) in Ev; rewrite !map_length in Ev; exact Ev).
    rewrite El, Em. set (mis := map pt_index (filter (fun p => negb (okb fd fs (p_t params) p)) ps')). clearbody mis. ss.
    destruct (N.ltb _ _); [split; [reflexivity|exact I]|]. ss.
    set (v := filter (okb fd fs (p_t params)) ps) in *. set (v' := filter (okb fd fs (p_t params)) ps') in *.
    assert (Ed : bkeys (binsert_all (dh_entries v) []) = bkeys (binsert_all (dh_entries v') []))
      by (apply binsert_all_shape; [rewrite !dh_keys; exact Ev|reflexivity]).
    assert (Ec : fs = true -> bkeys (binsert_all (comm_entries v) []) = bkeys (binsert_all (comm_entries v') [])).
    { intros E. apply binsert_all_shape; [|reflexivity]. unfold v, v' in *. rewrite E in *.
      rewrite !comm_keys by (intros p Hp; eapply comm_entries_none_free, Hp). exact Ev. }
    assert (Hp : fs = true -> (forall k c, In (k, c) (binsert_all (comm_entries v) []) -> vss_points c <> []) /\
                              (forall k c, In (k, c) (binsert_all (comm_entries v') []) -> vss_points c <> [])).
    { intros E. unfold v, v'. rewrite E. split; apply proper_insert, proper_valid. }
    destruct (negb fd && fs) eqn:Eb.
    - destruct fd; [discriminate|]. destruct fs; [|discriminate]. ss.
      destruct (u32_sub _ _ _) as [n|e|]; cbn [bind]; ss; try (split; [reflexivity|exact I]).
      destruct (params_new _ _ _) as [p|e|]; cbn [bind is_ok]; ss; try (split; [reflexivity|exact I]).
      split; [reflexivity|]. cbn [outcome st1]. destruct (Hp eq_refl) as [P1 P2].
      split; [|split; [discriminate|discriminate]]. split; [split; [repeat split|split; reflexivity]|split].
      + exact Ed.
      + cbn. f_equal. apply Ec. reflexivity.
      + intros comms k c [= <-]. apply P1.
      + intros comms k c [= <-]. apply P2.
    - destruct Hco as [[-> ->]|(cs & cs' & -> & -> & Hcs)]; [discriminate|].
      destruct (encrypt_all_ok my x cs ps [] r) as (es & q & E1 & _). destruct (encrypt_all_ok my x' cs' ps' [] r') as (es' & q' & E1' & _).
      ss. rewrite !fst_all, E1, E1'. rewrite (snd_all my x cs my x' cs' Hcs ps ps' [] [] r r' Hlen). cbn [bind]. ss.
      destruct (u32_sub _ _ _) as [n|e|]; cbn [bind]; ss; try (split; [reflexivity|exact I]).
      destruct (params_new _ _ _) as [p|e|]; cbn [bind is_ok]; ss; try (split; [reflexivity|exact I]).
      split; [reflexivity|]. cbn [outcome st1 ds_enc ds_comms].
      split; [|split; [split; discriminate|intros ->; discriminate]]. split; [split; [repeat split|split; reflexivity]|split].
      + exact Ed.
      + cbn [ds_comms]. destruct fs; [|reflexivity]. cbn [option_map]. f_equal. apply Ec. reflexivity.
      + intros comms k c. cbn [ds_comms]. destruct fs; [|discriminate]. intros [= <-]. apply (Hp eq_refl).
      + intros comms k c. cbn [ds_comms]. destruct fs; [|discriminate]. intros [= <-]. apply (Hp eq_refl).
  Qed.

  (** what the checks say, as the specification puts it *)
  Lemma matched_boot params ps ps' : Forall2 (matched (ok_bootstrap (p_t params))) ps ps' ->
    Forall2 (fun p p' => pt_index p = pt_index p' /\ okb true true (p_t params) p = okb true true (p_t params) p' /\ crashb p = crashb p') ps ps'.
  Proof.
    apply f2_imp. intros p p' (H1 & H2 & H3). split; [exact H1|]. split; apply bool_iff; [rewrite !okb_bootstrap|rewrite !crashb_iff]; assumption.
  Qed.
  Lemma matched_new params ps ps' : Forall2 (matched ok_new) ps ps' ->
    Forall2 (fun p p' => pt_index p = pt_index p' /\ okb false true (p_t params) p = okb false true (p_t params) p' /\ crashb p = crashb p') ps ps'.
  Proof.
    apply f2_imp. intros p p' (H1 & H2 & H3). split; [exact H1|]. split; apply bool_iff; [rewrite !okb_new|rewrite !crashb_iff]; assumption.
  Qed.
  (** resharing never looks at the proofs of the signing key: only the Diffie-Hellman proofs count *)
  Lemma snd_nsi_reshare m params x x' my cs cs' ps ps' r r' : length cs = length cs' ->
    Forall2 (fun p p' => pt_index p = pt_index p' /\ (ok_reshare p <-> ok_reshare p')) ps ps' ->
    snd (t_new_state_internal m params x my (Some cs) ps true false r) = snd (t_new_state_internal m params x' my (Some cs') ps' true false r') /\
    outcome (fun a a' => let '(s, _, _) := a in let '(s', _, _) := a' in ds_enc (st1 s) <> None /\ ds_enc (st1 s') <> None)
      (new_state_internal m params x my (Some cs) ps true false r) (new_state_internal m params x' my (Some cs') ps' true false r').
  Proof.
    intros Hcs H. assert (Hf : true = true \/ false = true) by (left; reflexivity).
    unfold t_new_state_internal, new_state_internal. ss. rewrite !(check_all_eq m params true false _ Hf). cbv zeta. cbn [andb].
    pose proof (f2_length _ _ _ H) as Hlen. rewrite Hlen. cf.
    destruct (negb (N.eqb _ _)); [split; [reflexivity|exact I]|].
    cbn [bind acc_valid acc_mis acc_comms acc_dhs app].
    assert (H' : Forall2 (fun p p' => pt_index p = pt_index p' /\ okb true false (p_t params) p = okb true false (p_t params) p') ps ps').
    { eapply f2_imp; [|exact H]. cbn. intros p p' [X Y]. split; [exact X|]. apply bool_iff. rewrite !okb_reshare. exact Y. }
    assert (Ev : map pt_index (filter (okb true false (p_t params)) ps) = map pt_index (filter (okb true false (p_t params)) ps'))
      by (apply filter_shape, H').
    assert (Em : map pt_index (filter (fun p => negb (okb true false (p_t params) p)) ps) = map pt_index (filter (fun p => negb (okb true false (p_t params) p)) ps'))
      by (apply filter_shape; eapply f2_imp; [|exact H']; cbn; intros a b (X & Y); rewrite Y; auto).
    assert (El : length (filter (okb true false (p_t params)) ps) = length (filter (okb true false (p_t params)) ps'))
      by (apply (f_equal (@length u32)) in Ev; rewrite !map_length in Ev; exact Ev).
    rewrite El, Em. set (mis := map pt_index (filter (fun p => negb (okb true false (p_t params) p)) ps')). clearbody mis. ss.
    destruct (N.ltb _ _); [split; [reflexivity|exact I]|]. ss. cbn [negb andb].
    destruct (encrypt_all_ok my x cs ps [] r) as (es & q & E1 & _). destruct (encrypt_all_ok my x' cs' ps' [] r') as (es' & q' & E1' & _).
    ss. rewrite !fst_all, E1, E1'. rewrite (snd_all my x cs my x' cs' Hcs ps ps' [] [] r r' Hlen). cbn [bind]. ss.
    destruct (u32_sub _ _ _) as [n|e|]; cbn [bind]; ss; try (split; [reflexivity|exact I]).
    destruct (params_new _ _ _) as [p|e|]; cbn [bind is_ok]; ss; try (split; [reflexivity|exact I]).
    split; [reflexivity|]. cbn. split; discriminate.
  Qed.
  (** creating the dealer: how it ends and how many coefficients it has *)
  Lemma new_shape params i sk sk' r r' :
    outcome (fun a a' => let '(_, co, _, _) := a in let '(_, co', _, _) := a' in
        option_map (@length F) co = option_map (@length F) co')
      (new_internal params false i (Some sk) r) (new_internal params false i (Some sk') r').
  Proof.
    unfold new_internal. destruct (u32_eqb i u32_zero); [exact I|]. destruct (rand_scalar r) as [x r1]. destruct (rand_scalar r') as [x' r1'].
    destruct (nizk_prove _ _ _ r1) as [pf r2]. destruct (nizk_prove _ _ _ r1') as [pf' r2']. cbn [outcome].
    pose proof (rands_len (u32_nat (p_t params) - 1) r2) as H1. pose proof (rands_len (u32_nat (p_t params) - 1) r2') as H2.
    destruct (rand_scalars _ r2) as [l r3]. destruct (rand_scalars _ r2') as [l' r3']. cbn [fst] in *. unfold vss_public_key.
    destruct (u32_nat (p_t params)) as [|n]; cbn [firstn map vss_points]; [exact I|].
    destruct (nizk_prove _ _ _ r3) as [pf1 r4]. destruct (nizk_prove _ _ _ r3') as [pf1' r4']. cbn. congruence.
  Qed.
  Lemma snd_reshare m params sk sk' ps ps' r r' : sk_index sk = sk_index sk' ->
    Forall2 (fun p p' => pt_index p = pt_index p' /\ (ok_reshare p <-> ok_reshare p')) ps ps' ->
    snd (t_reshare m params sk ps r) = snd (t_reshare m params sk' ps' r').
  Proof.
    intros Hi H. unfold t_reshare. rewrite <- Hi. rewrite !snd_bind. rewrite (snd_new params params false (sk_index sk) (sk_index sk) (Some (sk_key sk)) (Some (sk_key sk')) r r'); [|reflexivity|tauto|split; discriminate].
    cf. rewrite !fst_new. pose proof (new_shape params (sk_index sk) (sk_key sk) (sk_key sk') r r') as Q.
    destruct (new_internal params false (sk_index sk) (Some (sk_key sk)) r) as [[[[d co] x] r1]|e|];
      destruct (new_internal params false (sk_index sk) (Some (sk_key sk')) r') as [[[[d' co'] x'] r1']|e'|]; try contradiction Q; try reflexivity.
    cbn [outcome] in Q. ss. cf. destruct co as [cs|], co' as [cs'|]; try discriminate Q; [|reflexivity]. injection Q as Q.
    destruct (snd_nsi_reshare m params x x' (sk_index sk) cs cs' ps ps' r1 r1' Q H) as [I1 I2]. ss. rewrite I1, !fst_nsi. cf.
    destruct (new_state_internal _ _ _ _ _ ps _ _ _) as [[[st l] r2]|e|]; destruct (new_state_internal _ _ _ _ _ ps' _ _ _) as [[[st' l'] r2']|e'|];
      try contradiction I2; ss; cf; [|rewrite Q; reflexivity|reflexivity].
    cbn [outcome] in I2. unfold their_encrypted_secret_shares. destruct (ds_enc (st1 st)); [|destruct I2; congruence].
    destruct (ds_enc (st1 st')); [|destruct I2; congruence]. cbn [bind is_ok]. ss. rewrite Q. reflexivity.
  Qed.

  (** *** round two: which senders' shares are kept *)
  Lemma loop2_keys m st st' : same_place st st' -> forall es es', Forall2 (alike st st') es es' -> forall sh sh' cp cp' r r' a b c a' b' c',
    bkeys sh = bkeys sh' -> round_two_loop m st es sh cp r = Ok (a, b, c) -> round_two_loop m st' es' sh' cp' r' = Ok (a', b', c') -> bkeys a = bkeys a'.
  Proof.
    intros (Hp & Hi & Hd & Hc) es es' H. induction H as [|e e' es es' (As & Ar & At & Ao & Af) H IH]; intros sh sh' cp cp' r r' a b c a' b' c' Hk E E'.
    - cbn in E, E'. congruence.
    - cbn [round_two_loop] in E, E'. destruct (is_debug m && _); [discriminate|]. destruct (is_debug m && _); [discriminate|].
      unfold opening, plain in Ao. destruct (bget (es_sender e) (ds_dhs st)) as [pk|]; [|discriminate].
      destruct (bget (es_sender e') (ds_dhs st')) as [pk'|]; [|discriminate].
      destruct (ds_comms st) as [cs|]; [|discriminate]. destruct (ds_comms st') as [cs'|]; [|discriminate].
      unfold decrypt_share in E, E'.
      destruct (aead_dec (hkdf (enc_point (pk * ds_dh_sk st)%G)) _ _) as [w|]; destruct (aead_dec (hkdf (enc_point (pk' * ds_dh_sk st')%G)) _ _) as [w'|];
        try discriminate Ao.
      + cbn [option_map] in Ao. injection Ao as Aw Av.
        destruct (dec_scalar w) as [[v rest]|]; destruct (dec_scalar w') as [[v' rest']|]; try discriminate Av.
        * assert (G : bkeys (binsert (es_sender e) (MkShare (es_sender e) (es_receiver e) v) sh) = bkeys (binsert (es_sender e') (MkShare (es_sender e') (es_receiver e') v') sh'))
            by (rewrite <- As; apply binsert_shape, Hk).
          repeat match type of E with context [match ?t with _ => _ end] => destruct t end;
          repeat match type of E' with context [match ?t with _ => _ end] => destruct t end; cbn [sh_sender] in E, E'; try discriminate E; try discriminate E'; eapply IH; eassumption.
        * repeat match type of E with context [match ?t with _ => _ end] => destruct t end;
          repeat match type of E' with context [match ?t with _ => _ end] => destruct t end; try discriminate E; try discriminate E'; eapply IH; eassumption.
      + repeat match type of E with context [match ?t with _ => _ end] => destruct t end;
        repeat match type of E' with context [match ?t with _ => _ end] => destruct t end; try discriminate E; try discriminate E'; eapply IH; eassumption.
  Qed.
  Lemma two_shape m s s' es es' r r' : same_place (st1 s) (st1 s') -> Forall2 (alike (st1 s) (st1 s')) es es' ->
    outcome (fun a a' => let '(s2, _, _) := a in let '(s2', _, _) := a' in
        (ds_params (st2 s2) = ds_params (st1 s) /\ ds_comms (st2 s2) = ds_comms (st1 s) /\ ds_dhs (st2 s2) = ds_dhs (st1 s)) /\
        (ds_params (st2 s2') = ds_params (st1 s') /\ ds_comms (st2 s2') = ds_comms (st1 s') /\ ds_dhs (st2 s2') = ds_dhs (st1 s')) /\
        ds_shares (st2 s2) <> None /\ option_map bkeys (ds_shares (st2 s2)) = option_map bkeys (ds_shares (st2 s2')))
      (to_round_two m s es r) (to_round_two m s' es' r').
  Proof.
    intros Hp H. unfold to_round_two. cbn [ds_params]. pose proof Hp as (P1 & P2 & P3 & P4).
    rewrite (f2_length _ _ _ H), <- P1. destruct (N.ltb _ _); [exact I|].
    match goal with |- context [round_two_loop m ?a es _ _ _] => match goal with |- context [round_two_loop m ?b es' _ _ _] =>
      assert (Q1 : same_place a b) by (repeat split; assumption); pose proof (snd_loop2 m a b Q1 es es' H [] [] [] [] r r' eq_refl) as [I1 I2];
      pose proof (loop2_keys m a b Q1 es es' H [] [] [] [] r r') as K;
      destruct (round_two_loop m a es [] [] r) as [[[sh cp] q]|e|]; destruct (round_two_loop m b es' [] [] r') as [[[sh' cp'] q']|e'|];
        try contradiction; try exact I end end.
    cbn [bind]. rewrite I2. destruct (u32_sub _ _ _) as [n|e|]; cbn [bind]; try exact I. destruct (u32_ltb _ _); [exact I|]. cbn.
    repeat (split; [repeat split|]). 1: discriminate. f_equal. eapply K; reflexivity.
  Qed.

  (** *** settling *)
  Lemma verdicts_alike st st' comms comms' cs cs' : ds_comms st = Some comms -> ds_comms st' = Some comms' -> Forall2 (judged_alike st st') cs cs' ->
    verdicts st cs = verdicts st' cs'.
  Proof.
    intros Hc Hc' H. destruct (verdicts_spec st comms cs Hc) as [V1 V2]. destruct (verdicts_spec st' comms' cs' Hc') as [W1 W2].
    apply increasing_unique; [exact V1|exact W1|]. intros j. rewrite V2, W2. unfold convicted.
    clear - H. induction H as [|c c' cs cs' (A & M & U) H IH].
    - split; intros (c & [] & _).
    - assert (G : convicts st c j <-> convicts st' c' j) by (unfold convicts; rewrite A, M, U; tauto).
      split; intros (d & [<-|Hd] & Hv).
      + exists c'. split; [left; reflexivity|tauto].
      + destruct IH as [IH _]. destruct IH as (d' & X & Y); [exists d; auto|]. exists d'. split; [right; exact X|exact Y].
      + exists c. split; [left; reflexivity|tauto].
      + destruct IH as [_ IH]. destruct IH as (d' & X & Y); [exists d; auto|]. exists d'. split; [right; exact X|exact Y].
  Qed.
  Lemma snd_remove l : forall st st' comms comms' shares shares', ds_comms st = Some comms -> ds_comms st' = Some comms' ->
    ds_shares st = Some shares -> ds_shares st' = Some shares' -> bkeys shares = bkeys shares' ->
    snd (t_remove_all st l) = snd (t_remove_all st' l).
  Proof.
    induction l as [|i l IH]; intros st st' comms comms' shares shares' Hc Hc' Hs Hs' Hk; cbn [t_remove_all]; [reflexivity|]. ss. cf.
    unfold remove_malicious. rewrite Hc, Hc', Hs, Hs'. pose proof (bget_shape i shares shares' Hk) as B.
    destruct (bget i shares), (bget i shares'); try contradiction; ss; cf; eapply IH; cbn; try reflexivity; apply remove_shape, Hk.
  Qed.
  Lemma snd_blame s s' comms comms' shares shares' cs cs' : ds_comms (st2 s) = Some comms -> ds_comms (st2 s') = Some comms' ->
    ds_shares (st2 s) = Some shares -> ds_shares (st2 s') = Some shares' -> bkeys shares = bkeys shares' ->
    Forall2 (judged_alike (st2 s) (st2 s')) cs cs' ->
    snd (t_blame s cs) = snd (t_blame s' cs').
  Proof.
    intros Hc Hc' Hs Hs' Hk H. pose proof (verdicts_alike _ _ _ _ _ _ Hc Hc' H) as V. unfold t_blame, verdicts in *.
    destruct (blame_loop_ok (st2 s) comms Hc cs []) as (l & E & _). destruct (blame_loop_ok (st2 s') comms' Hc' cs' []) as (l' & E' & _).
    rewrite E, E' in *. rewrite V. ss. rewrite (snd_remove _ (st2 s) (st2 s') comms comms' shares shares' Hc Hc' Hs Hs' Hk). cf.
    rewrite !fst_remove, (remove_all_ok _ _ comms shares Hc Hs), (remove_all_ok _ _ comms' shares' Hc' Hs'). reflexivity.
  Qed.

  (** *** the end *)
  Lemma group_shape idx : forall (cs cs' : bmap Vss) k k',
    map (fun kc => (fst kc, Nat.eqb (length (vss_points (snd kc))) 0)) cs = map (fun kc => (fst kc, Nat.eqb (length (vss_points (snd kc))) 0)) cs' ->
    outcome (fun _ _ => True) (group_key_loop idx cs k) (group_key_loop idx cs' k').
  Proof.
    induction cs as [|[i c] cs IH]; intros [|[i' c'] cs'] k k' H; try discriminate; [exact I|]. cbn [map fst snd] in H. injection H as <- Hl H.
    cbn [group_key_loop]. destruct (lagrange i idx); cbn [bind]; try exact I. unfold vss_public_key.
    destruct (vss_points c), (vss_points c'); try discriminate Hl; [exact I|]. apply IH, H.
  Qed.
  Lemma snd_finish s s' : same_dealers (st2 s) (st2 s') -> snd (t_finish s) = snd (t_finish s').
  Proof.
    intros [Hs Hc]. unfold t_finish. ss. rewrite (snd_key _ _ Hs). cf. rewrite !fst_key.
    assert (K : outcome (fun _ _ => True) (calculate_signing_key (st2 s)) (calculate_signing_key (st2 s'))).
    { unfold calculate_signing_key. destruct (ds_shares (st2 s)) as [sh|], (ds_shares (st2 s')) as [sh'|]; try discriminate Hs; [|exact I].
      injection Hs as Hs. rewrite Hs. generalize (bkeys sh') as idx. intros idx. generalize F0 at 1 as k. generalize F0 as k'.
      revert sh' Hs. clear. induction sh as [|[i v] sh IH]; intros [|[i' v'] sh'] H k' k; try discriminate; [exact I|].
      injection H as <- H. cbn [signing_key_loop]. destruct (lagrange i idx); cbn [bind]; try exact I. apply IH, H. }
    assert (C : outcome (fun _ _ => True) (calculate_group_key (st2 s)) (calculate_group_key (st2 s'))).
    { unfold calculate_group_key. destruct (ds_comms (st2 s)) as [cs|], (ds_comms (st2 s')) as [cs'|]; try discriminate Hc; [|exact I].
      injection Hc as Hc. assert (E : bkeys cs = bkeys cs').
      { apply (f_equal (map fst)) in Hc. rewrite !map_map in Hc. exact Hc. }
      rewrite E. apply group_shape, Hc. }
    assert (D : snd (t_drop_state (st2 s)) = snd (t_drop_state (st2 s'))).
    { unfold t_drop_state. ss. destruct (ds_shares (st2 s)) as [sh|], (ds_shares (st2 s')) as [sh'|]; try discriminate Hs; [|reflexivity].
      injection Hs as Hs. apply (f_equal (@length u32)) in Hs. unfold bkeys in Hs. rewrite !map_length in Hs. rewrite Hs. reflexivity. }
    destruct (calculate_signing_key (st2 s)), (calculate_signing_key (st2 s')); try contradiction K; ss; rewrite ?D; try reflexivity.
    cf. destruct (calculate_group_key (st2 s)), (calculate_group_key (st2 s')); try contradiction C; ss; rewrite ?D; reflexivity.
  Qed.

  (** *** a whole session *)
  Lemma keys_map (cs cs' : bmap Vss) : bkeys cs = bkeys cs' -> (forall k c, In (k, c) cs -> vss_points c <> []) ->
    (forall k c, In (k, c) cs' -> vss_points c <> []) ->
    map (fun kc => (fst kc, Nat.eqb (length (vss_points (snd kc))) 0)) cs = map (fun kc => (fst kc, Nat.eqb (length (vss_points (snd kc))) 0)) cs'.
  Proof.
    revert cs'. induction cs as [|[k c] cs IH]; intros [|[k' c'] cs'] H P P'; try discriminate; [reflexivity|]. injection H as <- H. cbn [map fst snd].
    pose proof (P k c (or_introl eq_refl)) as Q. pose proof (P' k c' (or_introl eq_refl)) as Q'.
    destruct (vss_points c); [congruence|]. destruct (vss_points c'); [congruence|]. cbn. f_equal. apply IH; [exact H| |]; intros; [eapply P|eapply P']; right; eassumption.
  Qed.
  Lemma upheld_same st st' c : ds_params st = ds_params st' -> ds_comms st = ds_comms st' -> ds_dhs st = ds_dhs st' -> (upheld st c <-> upheld st' c).
  Proof. intros H1 H2 H3. unfold upheld, registered. rewrite H1, H2, H3. tauto. Qed.
  Lemma snd_one b m params x x' my co co' ps ps' r r' : (b = false -> length co = length co') ->
    Forall2 (matched (if b then ok_new else ok_bootstrap (p_t params))) ps ps' ->
    snd (t_round_one b m params x my co ps r) = snd (t_round_one b m params x' my co' ps' r') /\
    outcome (fun a a' => let '(s, _, _) := a in let '(s', _, _) := a' in alike_ends (st1 s) (st1 s') /\ ds_comms (st1 s) <> None)
      (round_one b m params x my co ps r) (round_one b m params x' my co' ps' r').
  Proof.
    intros Hco H. unfold t_round_one, round_one. destruct b.
    - unfold t_dkg_new, dkg_new.
      destruct (snd_nsi m params x x' my None None ps ps' false true r r') as [I1 I2]; [right; reflexivity|left; auto|apply matched_new, H|].
      split; [exact I1|]. destruct (new_state_internal _ _ _ _ _ ps _ _ _) as [[[s l] q]|e|]; destruct (new_state_internal _ _ _ _ _ ps' _ _ _) as [[[s' l'] q']|e'|];
        try contradiction I2; try exact I. cbn in *. tauto.
    - unfold t_bootstrap, bootstrap.
      destruct (snd_nsi m params x x' my (Some co) (Some co') ps ps' true true r r') as [I1 I2]; [right; reflexivity| |apply matched_boot, H|].
      { right. exists co, co'. auto. }
      split; [exact I1|]. destruct (new_state_internal _ _ _ _ _ ps _ _ _) as [[[s l] q]|e|]; destruct (new_state_internal _ _ _ _ _ ps' _ _ _) as [[[s' l'] q']|e'|];
        try contradiction I2; try exact I. cbn in *. tauto.
  Qed.
  Lemma snd_session b m params x x' my co co' ps ps' es es' cs cs' r r' q q' : (b = false -> length co = length co') ->
    Forall2 (matched (if b then ok_new else ok_bootstrap (p_t params))) ps ps' ->
    (forall s l u s' l' u', round_one b m params x my co ps r = Ok (s, l, u) -> round_one b m params x' my co' ps' r' = Ok (s', l', u') ->
       Forall2 (alike (st1 s) (st1 s')) es es' /\ Forall2 (judged_alike (st1 s) (st1 s')) cs cs') ->
    snd (t_session b m params x my co ps es cs r q) = snd (t_session b m params x' my co' ps' es' cs' r' q').
  Proof.
    intros Hco Hps Hin. unfold t_session. destruct (snd_one b m params x x' my co co' ps ps' r r' Hco Hps) as [I1 I2].
    rewrite !(snd_on (t_round_one _ _ _ _ _ _ _ _)), I1, !fst_one. cf.
    destruct (round_one b m params x my co ps r) as [[[s l] u]|e|]; destruct (round_one b m params x' my co' ps' r') as [[[s' l'] u']|e'|];
      try contradiction I2; try reflexivity. cbn [outcome] in I2. destruct I2 as [[[Hsp _] [Pp Pp']] Hcn].
    destruct (Hin s l u s' l' u' eq_refl eq_refl) as [He Hc]. clear Hin.
    rewrite !snd_on, !fst_two, (snd_two m s s' es es' q q' Hsp He). cf. pose proof (two_shape m s s' es es' q q' Hsp He) as T.
    destruct (to_round_two m s es q) as [[[s2 cp] u2]|e|]; destruct (to_round_two m s' es' q') as [[[s2' cp'] u2']|e'|]; try contradiction T; try reflexivity.
    cbn [outcome] in T. destruct T as ((A1 & A2 & A3) & (B1 & B2 & B3) & Hsn & Hk).
    destruct (ds_comms (st1 s)) as [comms|] eqn:Ec; [|congruence].
    destruct Hsp as (P1 & P2 & P3 & P4). rewrite Ec in P4. destruct (ds_comms (st1 s')) as [comms'|] eqn:Ec'; [|discriminate]. injection P4 as P4.
    destruct (ds_shares (st2 s2)) as [sh|] eqn:Es; [|congruence]. destruct (ds_shares (st2 s2')) as [sh'|] eqn:Es'; [|discriminate]. injection Hk as Hk.
    assert (Hj : Forall2 (judged_alike (st2 s2) (st2 s2')) cs cs').
    { eapply f2_imp; [|exact Hc]. intros c c' (C1 & C2 & C3). split; [exact C1|]. split; [exact C2|].
      rewrite (upheld_same (st2 s2) (st1 s) c), (upheld_same (st2 s2') (st1 s') c') by congruence. exact C3. }
    rewrite !snd_on, !fst_blame, (snd_blame s2 s2' comms comms' sh sh' cs cs' A2 B2 Es Es' Hk Hj). cf.
    pose proof (verdicts_alike _ _ _ _ _ _ A2 B2 Hj) as V. destruct s2 as [st]. destruct s2' as [st']. cbn [st2] in *.
    rewrite (blame_eq st comms sh cs A2 Es), (blame_eq st' comms' sh' cs' B2 Es'), V. set (l0 := verdicts st' cs').
    rewrite !snd_on, !fst_finish.
    assert (D : same_dealers (st2 (R2 (drop_state l0 st))) (st2 (R2 (drop_state l0 st')))).
    { unfold same_dealers, drop_state. cbn [st2 ds_shares ds_comms]. rewrite A2, B2, Es, Es'. cbn [option_map]. split; f_equal.
      - apply drop_shape, Hk.
      - apply keys_map; [apply drop_shape, P4| |]; intros k c Hin; unfold drop_keys in Hin; apply filter_In in Hin; destruct Hin as [Hin _];
          [eapply Pp|eapply Pp']; eauto. }
    rewrite (snd_finish (R2 (drop_state l0 st)) (R2 (drop_state l0 st')) D). cf.
    destruct (finish (R2 (drop_state l0 st))) as [[gk sk]|e|]; destruct (finish (R2 (drop_state l0 st'))) as [[gk' sk']|e'|]; reflexivity.
  Qed.

  (** *** honest groups *)
  Lemma encrypt_all_plain my x co ps0 : forall ps acc r es r', encrypt_all my x (Some co) ps acc r = Ok (es, r') ->
    (forall p, In p ps -> In p ps0) ->
    let good k e := exists p, In p ps0 /\ pt_index p = k /\ es_sender e = my /\ es_receiver e = k /\
        aead_dec (hkdf (enc_point (pt_dh_pk p * x)%G)) (nonce_bytes (es_nonce e)) (es_ct e) = Some (enc_scalar (poly_value co (of_u32 k))) in
    (forall k e, bget k acc = Some e -> good k e) -> forall k e, bget k es = Some e -> good k e.
  Proof.
    induction ps as [|p ps IH]; intros acc r es r' E Hin good Hg; cbn [encrypt_all] in E.
    - injection E as <- _. exact Hg.
    - rewrite evaluate_polynomial_eq in E. unfold encrypt_share in E. destruct (gen_nonce r) as [n q].
      destruct (aead_enc _ _ _) as [ct|] eqn:Ea; [|discriminate]. cbn [bind] in E. cbn [sh_value sh_sender sh_receiver] in *.
      eapply IH; [exact E|intros; apply Hin; right; assumption|]. intros k e. rewrite bget_binsert. destruct (u32_eqb k (pt_index p)) eqn:Ek; [|apply Hg].
      apply u32_eqb_spec in Ek. subst k. intros [= <-]. exists p. split; [apply Hin; left; reflexivity|]. cbn. repeat (split; [reflexivity|]).
      apply aead_dec_enc, Ea.
  Qed.
  Lemma bootstrap_plain m params x my co ps r st l r' es : bootstrap m params x my co ps r = Ok (st, l, r') ->
    their_encrypted_secret_shares st = Ok es -> forall k e, bget k es = Some e ->
    exists p, In p ps /\ pt_index p = k /\ es_sender e = my /\ es_receiver e = k /\
        aead_dec (hkdf (enc_point (pt_dh_pk p * x)%G)) (nonce_bytes (es_nonce e)) (es_ct e) = Some (enc_scalar (poly_value co (of_u32 k))).
  Proof.
    unfold bootstrap, new_state_internal. intros E Ee k e Hg. destruct (negb (N.eqb _ _)); [discriminate|].
    destruct (check_all _ _ _ _ _ _) as [a|q|]; cbn [bind] in E; try discriminate. destruct (N.ltb _ _); [discriminate|]. cbn [negb andb] in E.
    destruct (encrypt_all my x (Some co) ps [] r) as [[es0 r0]|q|] eqn:E0; cbn [bind] in E; try discriminate.
    destruct (u32_sub _ _ _) as [n|q|]; cbn [bind] in E; try discriminate. destruct (params_new _ _ _) as [pp|q|]; cbn [bind] in E; try discriminate.
    injection E as <- _ _. cbn in Ee. injection Ee as <-.
    refine (encrypt_all_plain my x co ps ps [] r es0 r0 E0 _ _ k e Hg); [auto|]. intros k' e' X. discriminate X.
  Qed.
  Lemma honest_accepts m params parties p ps r s l u senders es : honest_parties params parties -> all_bootstrapped m params parties -> In p parties ->
    Permutation ps (map y_d parties) -> bootstrap m params (y_x p) (y_index p) (y_co p) ps r = Ok (s, l, u) ->
    (forall q, In q senders -> In q parties) -> delivered senders p es ->
    Forall2 (fun q e => es_sender e = y_index q /\ es_receiver e = y_index p /\ exists v, accepted (st1 s) e v) senders es.
  Proof.
    intros H HB Hp HP E Hs HD. destruct (honest_round_one m params parties p ps r H Hp HP) as (st & es0 & comms & r' & E1 & _ & _ & E4 & E5 & E6 & E7 & E8).
    rewrite E in E1. injection E1 as -> _ _. cbn [st1].
    induction HD as [|q e senders es Hg HD IH]; constructor; [|apply IH; intros; apply Hs; right; assumption]. clear IH.
    pose proof (Hs q (or_introl eq_refl)) as Hq. destruct (HB q Hq) as (ps1 & HP1 & r1 & l1 & r1' & B1 & B2).
    destruct (bootstrap_plain _ _ _ _ _ _ _ _ _ _ _ B1 B2 _ _ Hg) as (d & D1 & D2 & D3 & D4 & D5).
    assert (Hd : d = y_d p).
    { assert (N1 : NoDup (map pt_index ps1)) by (eapply honest_nodup_ps; eassumption).
      assert (Hy : In (y_d p) ps1) by (eapply Permutation_in; [apply Permutation_sym, HP1|]; apply in_map, Hp).
      destruct (honest_fresh params parties p H Hp) as [Hi _ _ _ _ _].
      clear - N1 D1 Hy D2 Hi. rewrite <- Hi in D2. revert N1 D1 Hy D2. induction ps1 as [|a t IH]; intros N1 D1 Hy D2; [contradiction|].
      inversion N1 as [|? ? X Y]; subst. destruct D1 as [<-|D1], Hy as [Hy|Hy].
      - exact Hy.
      - elim X. rewrite D2. apply in_map, Hy.
      - elim X. rewrite Hy, <- D2. apply in_map, D1.
      - apply IH; assumption. }
    subst d. split; [exact D3|]. split; [exact D4|]. exists (poly_value (y_co q) (of_u32 (y_index p))). split.
    - unfold plain. rewrite D3, (E8 q Hq). rewrite (rec_sk _ _ _ _ _ E4). destruct (honest_fresh params parties p H Hp) as [_ Hpk _ _ _ _].
      rewrite Hpk in D5. rewrite dh_shared. exact D5.
    - intros comms0 c Ec Hin. rewrite E5 in Ec. injection Ec as <-. rewrite D3 in Hin. apply in_bget in Hin; [|exact E6].
      apply E7 in Hin. destruct Hin as (q' & Hq' & Ei & ->). rewrite D4.
      assert (q' = q).
      { pose proof (proj1 (hp_indices _ _ H)) as N1. clear - N1 Hq Hq' Ei. revert N1 Hq Hq'. induction parties as [|a t IH]; intros N1 Hq Hq'; [contradiction|].
        inversion N1 as [|? ? X Y]; subst. destruct Hq as [<-|Hq], Hq' as [<-|Hq']; auto.
        - elim X. rewrite <- Ei. apply in_map, Hq'.
        - elim X. rewrite Ei. apply in_map, Hq. }
      subst q'. unfold on_commitment. cbn [vss_points]. symmetry. apply gpoly_committed.
  Qed.

  (** *** how much is wiped *)
  Fixpoint wiped (l : list event) : nat := match l with [] => 0 | Op Wipe :: l' => Datatypes.S (wiped l') | _ :: l' => wiped l' end.
  Lemma wiped_app l l' : wiped (l ++ l') = wiped l + wiped l'.
  Proof. induction l as [|[[]|b] l IH]; cbn [wiped app]; rewrite ?IH; reflexivity. Qed.
  Ltac ww := repeat (progress (ss; cbn [wiped] || rewrite wiped_app)); cbn [Nat.add].
  Lemma wiped_wipes n : wiped (snd (wipes n)) = n.
  Proof. induction n as [|n IH]; cbn [wipes]; ss; [reflexivity|]. cbn [wiped]. rewrite IH. reflexivity. Qed.
  Lemma wiped_prove i sk pk r : wiped (snd (t_nizk_prove i sk pk r)) = 0.
  Proof. unfold t_nizk_prove. destruct (rand_scalar r). ss. reflexivity. Qed.
  Lemma wiped_rands k : forall r, wiped (snd (t_rand_scalars k r)) = 0.
  Proof.
    induction k as [|k IH]; intros r; cbn [t_rand_scalars]; ss; [reflexivity|]. destruct (rand_scalar r) as [a r1]. ss.
    destruct (fst (t_rand_scalars k r1)) as [l r2]. ss. cbn [wiped]. rewrite wiped_app, IH. reflexivity.
  Qed.
  Lemma wiped_commit l : wiped (snd (t_commit l)) = 0.
  Proof. induction l as [|a l IH]; cbn [t_commit]; ss; [reflexivity|]. cbn [wiped]. rewrite wiped_app, IH. reflexivity. Qed.
  Lemma wiped_new p sg i sec r : wiped (snd (t_new_internal p sg i sec r)) = 0.
  Proof.
    unfold t_new_internal. ss. destruct (u32_eqb i u32_zero); [reflexivity|]. destruct (rand_scalar r) as [k r1]. ss.
    destruct (fst (t_nizk_prove i k (gen * k)%G r1)) as [pf r2]. cbn [wiped]. rewrite wiped_app, wiped_prove. cbn [Nat.add].
    ss. cbn [wiped]. destruct sg; [reflexivity|]. rewrite snd_bind, wiped_app.
    match goal with |- wiped (snd ?m) + wiped (snd (let (_, _) := fst ?m' in _)) = _ => assert (W : wiped (snd m) = 0) by (destruct sec; reflexivity) end.
    rewrite W. match goal with |- 0 + wiped (snd (let (_, _) := fst ?m in _)) = _ => destruct (fst m) as [a0 r3] end.
    rewrite snd_bind, wiped_app, wiped_rands. destruct (fst (t_rand_scalars _ r3)) as [rest r4]. rewrite snd_bind, wiped_app, wiped_commit.
    destruct (vss_public_key _) as [pk|]; [|reflexivity]. rewrite snd_bind, wiped_app, snd_bind, wiped_app, wiped_prove.
    destruct (fst (t_nizk_prove i a0 pk r4)). reflexivity.
  Qed.
  Lemma wiped_eval x len cs : forall k s, wiped (snd (t_eval_loop x len k cs s)) = 0.
  Proof.
    induction cs as [|c cs IH]; intros k s; cbn [t_eval_loop]; ss; [reflexivity|]. destruct (negb _); ss; cbn [wiped]; rewrite IH; reflexivity.
  Qed.
  Lemma wiped_all i x cs ps : forall acc r, wiped (snd (t_encrypt_all i x cs ps acc r)) = length ps.
  Proof.
    induction ps as [|p ps IH]; intros acc r; cbn [t_encrypt_all]; [reflexivity|]. rewrite snd_bind, wiped_app. cbn [fst snd test].
    rewrite snd_bind, wiped_app. unfold t_evaluate_polynomial at 1. rewrite snd_bind, wiped_app, wiped_eval. cbn [snd pure]. rewrite fst_poly.
    rewrite !snd_bind, !wiped_app. cbn [fst snd does]. rewrite fst_encrypt.
    destruct (encrypt_ok (evaluate_polynomial i (pt_index p) cs) (enc_point (pt_dh_pk p * x)%G) r) as (e & r1 & E). rewrite E.
    assert (W : wiped (snd (t_encrypt_share (evaluate_polynomial i (pt_index p) cs) (enc_point (pt_dh_pk p * x)%G) r)) = 0).
    { unfold t_encrypt_share. ss. destruct (gen_nonce r) as [n q]. ss. destruct (aead_enc _ _ _); ss; reflexivity. }
    rewrite W, !snd_bind, !wiped_app, IH. reflexivity.
  Qed.
  Lemma wiped_nsi m params x my cs ps fs r s l q : new_state_internal m params x my (Some cs) ps true fs r = Ok (s, l, q) ->
    wiped (snd (t_new_state_internal m params x my (Some cs) ps true fs r)) = length ps /\ length ps = N.to_nat (u32v (p_n params)) /\ ds_enc (st1 s) <> None.
  Proof.
    unfold new_state_internal, t_new_state_internal. intros E. ss. destruct (N.eqb _ _) eqn:En; cbn [negb] in *; [|discriminate].
    destruct (check_all _ _ _ _ _ _) as [a|e|]; cbn [bind] in E; try discriminate. ss. destruct (N.ltb _ _); [discriminate|]. ss. cbn [negb andb] in *.
    ss. rewrite fst_all. destruct (encrypt_all my x (Some cs) ps [] r) as [[es r']|e|]; cbn [bind] in E; try discriminate. ss.
    destruct (u32_sub _ _ _) as [n|e|]; cbn [bind] in E; try discriminate. cbn [bind].
    destruct (params_new _ _ _) as [pp|e|]; cbn [bind] in E; try discriminate. injection E as <- _ _. cbn [bind is_ok]. ss.
    cbn [wiped]. rewrite wiped_app, wiped_all. split; [cbn; lia|]. split; [apply N.eqb_eq in En; lia|discriminate].
  Qed.
  Lemma wiped_reshare m params sk ps r out : (1 <= u32v (p_t params))%N -> reshare m params sk ps r = Ok out ->
    wiped (snd (t_reshare m params sk ps r)) = N.to_nat (u32v (p_n params)) + N.to_nat (u32v (p_t params)) + 2.
  Proof.
    intros Ht E. assert (Hz : sk_index sk <> u32_zero).
    { intros X. unfold reshare, new_internal in E. rewrite X, (proj2 (u32_eqb_spec _ _) eq_refl) in E. discriminate. }
    unfold reshare in E. unfold t_reshare. rewrite snd_bind, wiped_app, wiped_new, fst_new.
    destruct (new_internal_dealer params (sk_index sk) (Some (sk_key sk)) r Hz Ht) as (d & co & x & r1 & E1 & Hf & _). rewrite E1 in *. cbn [bind] in E. ss.
    rewrite fst_nsi. destruct (new_state_internal m params x (sk_index sk) (Some co) ps true false r1) as [[[st l] r2]|e|] eqn:E2; cbn [bind] in E; try discriminate.
    destruct (wiped_nsi _ _ _ _ _ _ _ _ _ _ _ E2) as (W1 & W2 & W3). cbn [is_ok]. ss. cbn [wiped]. rewrite wiped_app, W1, W2. cbn [wiped]. unfold their_encrypted_secret_shares. destruct (ds_enc (st1 st)); [|congruence]. cbn [bind is_ok]. ss. cbn [wiped wipes]. ss. cbn [wiped]. rewrite wiped_app, wiped_wipes.
    rewrite (fd_len _ _ _ _ _ Hf). cbn. lia.
  Qed.
  Lemma wiped_key_loop idx sh : forall k key, signing_key_loop idx sh k = Ok key -> wiped (snd (t_signing_key_loop idx sh k)) = length sh.
  Proof.
    induction sh as [|[i s] sh IH]; intros k key E; cbn [t_signing_key_loop signing_key_loop] in *; [reflexivity|]. destruct (lagrange i idx) as [c|e|]; try discriminate.
    ss. cbn [wiped]. rewrite (IH _ _ E). reflexivity.
  Qed.
  Lemma wiped_finish st sh out : ds_shares st = Some sh -> finish (R2 st) = Ok out -> wiped (snd (t_finish (R2 st))) = 2 * length sh + 1.
  Proof.
    intros Hs E. unfold finish in E. unfold t_finish. cbn [st2] in *. ss. rewrite fst_key.
    destruct (calculate_signing_key st) as [sk|e|] eqn:Ek; cbn [bind] in E; try discriminate. ss.
    destruct (calculate_group_key st) as [gk|e|]; cbn [bind] in E; try discriminate. cbn [is_ok]. ss.
    unfold t_calculate_signing_key, calculate_signing_key, t_drop_state in *. rewrite Hs in *. ss. rewrite fst_key_loop.
    destruct (signing_key_loop (bkeys sh) sh F0) as [key|e|] eqn:El; cbn [bind] in Ek; try discriminate. ss.
    cbn [wiped]. rewrite !wiped_app, (wiped_key_loop _ _ _ _ El). cbn [wiped]. rewrite ?wiped_app, ?wiped_wipes. cbn. lia.
  Qed.
  (** also when a call fails *)
  Lemma wiped_reshare_err m params sk ps r e : (1 <= u32v (p_t params))%N -> sk_index sk <> u32_zero -> reshare m params sk ps r = Err e ->
    N.to_nat (u32v (p_t params)) + 1 <= wiped (snd (t_reshare m params sk ps r)).
  Proof.
    intros Ht Hz E. unfold reshare in E. unfold t_reshare. rewrite snd_bind, wiped_app, wiped_new, fst_new.
    destruct (new_internal_dealer params (sk_index sk) (Some (sk_key sk)) r Hz Ht) as (d & co & x & r1 & E1 & Hf & _). rewrite E1 in *. cbn [bind] in E. ss.
    rewrite fst_nsi. destruct (new_state_internal m params x (sk_index sk) (Some co) ps true false r1) as [[[st l] r2]|e'|] eqn:E2; cbn [bind] in E; try discriminate.
    - destruct (wiped_nsi _ _ _ _ _ _ _ _ _ _ _ E2) as (_ & _ & W3). unfold their_encrypted_secret_shares in E. destruct (ds_enc (st1 st)); [discriminate E|congruence].
    - cbn [is_ok]. ss. cbn [wiped]. rewrite wiped_app. cbn [wiped]. ss. rewrite wiped_app, wiped_wipes, (fd_len _ _ _ _ _ Hf). cbn. lia.
  Qed.
  Lemma wiped_finish_err st sh e : ds_shares st = Some sh -> finish (R2 st) = Err e -> length sh + 1 <= wiped (snd (t_finish (R2 st))).
  Proof.
    intros Hs E. unfold finish in E. unfold t_finish. cbn [st2] in *. ss. rewrite fst_key.
    destruct (calculate_signing_key st) as [sk|e'|]; cbn [bind] in E; try discriminate.
    - destruct (calculate_group_key st) as [gk|e'|]; cbn [bind] in E; try discriminate. cbn [is_ok]. ss. unfold t_drop_state. rewrite Hs. ss.
      rewrite !wiped_app. cbn [wiped]. rewrite ?wiped_app. cbn [wiped]. rewrite ?wiped_app, ?wiped_wipes. cbn. lia.
    - cbn [is_ok]. ss. unfold t_drop_state. rewrite Hs. ss. rewrite !wiped_app. cbn [wiped]. rewrite ?wiped_app, ?wiped_wipes. cbn. lia.
  Qed.
  Lemma remove_one {V} i (sh : bmap V) : NoDup (map fst sh) ->
    NoDup (map fst (bremove i sh)) /\ (match bget i sh with Some _ => 1 | None => 0 end) + length (bremove i sh) = length sh.
  Proof.
    unfold bremove. induction sh as [|[k v] sh IH]; intros N; [split; [constructor|reflexivity]|]. cbn [map fst] in N. inversion N as [|? ? N1 N2]; subst.
    destruct (IH N2) as [I1 I2]. cbn [bget filter fst]. destruct (u32_eqb i k) eqn:E; cbn [negb].
    - apply u32_eqb_spec in E. subst k. split; [exact I1|].
      assert (B : bget i sh = None).
      { clear - N1. induction sh as [|[k v] sh IH]; [reflexivity|]. cbn [bget]. destruct (u32_eqb i k) eqn:E; [apply u32_eqb_spec in E; subst k; destruct (N1 (or_introl eq_refl))|].
        apply IH. intros K. apply N1. right. exact K. }
      rewrite B in I2. cbn [length]. lia.
    - cbn [map fst length]. split; [|lia]. constructor; [|exact I1]. intros K. apply N1. apply in_map_iff in K as ([k' v'] & K1 & K2). cbn [fst] in K1. subst k'.
      apply filter_In in K2 as [K2 _]. apply (in_map fst) in K2. exact K2.
  Qed.
  Lemma wiped_removed l : forall st comms sh st', ds_comms st = Some comms -> ds_shares st = Some sh -> NoDup (map fst sh) -> remove_all st l = Ok st' ->
    exists sh', ds_shares st' = Some sh' /\ wiped (snd (t_remove_all st l)) + length sh' = length sh.
  Proof.
    induction l as [|i l IH]; intros st comms sh st' Hc Hs N E.
    - injection E as <-. exists sh. split; [exact Hs|reflexivity].
    - destruct (remove_one i sh N) as [N' Hl]. cbn [remove_all t_remove_all] in *. unfold remove_malicious in *. rewrite Hc, Hs in *. cbn [bind] in E.
      edestruct IH as (sh' & S1 & S2); [| | |exact E|]; [reflexivity|reflexivity|exact N'|]. exists sh'. split; [exact S1|].
      ss. cbn [wiped]. rewrite wiped_app. destruct (bget i sh); [rewrite wiped_wipes|cbn [pure snd wiped]]; lia.
  Qed.
  Lemma wiped_blame st comms sh cs ks st' : ds_comms st = Some comms -> ds_shares st = Some sh -> NoDup (map fst sh) -> blame (R2 st) cs = Ok (ks, R2 st') ->
    exists sh', ds_shares st' = Some sh' /\ wiped (snd (t_blame (R2 st) cs)) + length sh' = length sh.
  Proof.
    intros Hc Hs N E. unfold blame in E. unfold t_blame. cbn [st2] in *. destruct (blame_loop st cs []) as [l|e|]; cbn [bind] in E; try discriminate.
    cbv zeta. rewrite snd_bind, wiped_app, fst_remove.
    destruct (remove_all st _) as [st1'|e|] eqn:Er; cbn [bind] in E; try discriminate. injection E as _ <-.
    destruct (wiped_removed _ _ _ _ _ Hc Hs N Er) as (sh' & S1 & S2). exists sh'. split; [exact S1|]. cbn [pure snd wiped]. lia.
  Qed.
End Calls.

(** C144 *)
(** the instrumented calls compute what the model's calls compute *)
Theorem C144_instrumented_values :
  forall (S : Suite) (L : SuiteLaws S),
  (forall m params x my co ps r, fst (t_bootstrap m params x my co ps r) = bootstrap m params x my co ps r) /\
  (forall m params x my ps r, fst (t_dkg_new m params x my ps r) = dkg_new m params x my ps r) /\
  (forall m params sk ps r, fst (t_reshare m params sk ps r) = reshare m params sk ps r) /\
  (forall s cs, fst (t_blame s cs) = blame s cs) /\
  (forall s, fst (t_finish s) = finish s) /\
  (forall b m params x my co ps es cs r q, fst (t_session b m params x my co ps es cs r q) = session b m params x my co ps es cs r q).
Proof.
  intros S L. split; [intros; apply fst_boot|]. split; [intros; apply fst_dnew|]. split; [intros; apply fst_reshare|].
  split; [intros; apply fst_blame|]. split; [intros; apply fst_finish|]. intros; apply fst_session.
Qed.

(** round one of a key generation and of a resharing: the parameters, the number of coefficients, the outcomes of the checks *)
Theorem C144_bootstrap_trace :
  forall (S : Suite) (L : SuiteLaws S) (m : build) (params : Params) (x x' : F) (my : u32) (co co' : list F) (ps ps' : list Participant) (r r' : Rng),
  length co = length co' -> Forall2 (matched (ok_bootstrap (p_t params))) ps ps' ->
  trace (t_bootstrap m params x my co ps r) = trace (t_bootstrap m params x' my co' ps' r').
Proof. intros S L m params x x' my co co' ps ps' r r' H1 H2. exact (proj1 (snd_one false m params x x' my co co' ps ps' r r' (fun _ => H1) H2)). Qed.
Theorem C144_new_trace :
  forall (S : Suite) (L : SuiteLaws S) (m : build) (params : Params) (x x' : F) (my : u32) (ps ps' : list Participant) (r r' : Rng),
  Forall2 (matched ok_new) ps ps' ->
  trace (t_dkg_new m params x my ps r) = trace (t_dkg_new m params x' my ps' r').
Proof.
  intros S L m params x x' my ps ps' r r' H.
  exact (proj1 (snd_one true m params x x' my [] [] ps ps' r r' (fun _ => eq_refl) H)).
Qed.
(** dealing a resharing: the parameters, the index and the outcomes of the checks of the new signers; not the signing key *)
Theorem C144_reshare_trace :
  forall (S : Suite) (L : SuiteLaws S) (m : build) (params : Params) (sk sk' : SigningKey) (ps ps' : list Participant) (r r' : Rng),
  sk_index sk = sk_index sk' ->
  Forall2 (fun p p' => pt_index p = pt_index p' /\ (ok_reshare p <-> ok_reshare p')) ps ps' ->
  trace (t_reshare m params sk ps r) = trace (t_reshare m params sk' ps' r').
Proof. intros. apply snd_reshare; assumption. Qed.
(** settling complaints: whose shares are held, and the verdicts *)
Theorem C144_blame_trace :
  forall (S : Suite) (L : SuiteLaws S) (s s' : RoundTwo) (comms comms' : bmap Vss) (shares shares' : bmap SecretShare) (cs cs' : list Complaint),
  ds_comms (st2 s) = Some comms -> ds_comms (st2 s') = Some comms' -> ds_shares (st2 s) = Some shares -> ds_shares (st2 s') = Some shares' ->
  bkeys shares = bkeys shares' -> Forall2 (judged_alike (st2 s) (st2 s')) cs cs' ->
  trace (t_blame s cs) = trace (t_blame s' cs').
Proof. intros S L s s' comms comms' shares shares' cs cs' H1 H2 H3 H4 H5 H6. exact (snd_blame s s' comms comms' shares shares' cs cs' H1 H2 H3 H4 H5 H6). Qed.
(** the end: the dealers *)
Theorem C144_finish_trace :
  forall (S : Suite) (L : SuiteLaws S) (s s' : RoundTwo), same_dealers (st2 s) (st2 s') -> trace (t_finish s) = trace (t_finish s').
Proof. intros. apply snd_finish; assumption. Qed.
(** a whole session, from round one to the keys: indices, outcomes of the checks, senders, lengths, which shares open and match,
    verdicts; no secret, no public key, no draw *)
Theorem C144_session_trace :
  forall (S : Suite) (L : SuiteLaws S) (reshared : bool) (m : build) (params : Params) (x x' : F) (my : u32) (co co' : list F)
    (ps ps' : list Participant) (es es' : list EncShare) (cs cs' : list Complaint) (r r' q q' : Rng),
  (reshared = false -> length co = length co') ->
  Forall2 (matched (if reshared then ok_new else ok_bootstrap (p_t params))) ps ps' ->
  (forall s l u s' l' u', round_one reshared m params x my co ps r = Ok (s, l, u) -> round_one reshared m params x' my co' ps' r' = Ok (s', l', u') ->
     Forall2 (alike (st1 s) (st1 s')) es es' /\ Forall2 (judged_alike (st1 s) (st1 s')) cs cs') ->
  trace (t_session reshared m params x my co ps es cs r q) = trace (t_session reshared m params x' my co' ps' es' cs' r' q').
Proof. intros. apply snd_session; assumption. Qed.
(** two honest groups with the same indices: whoever sits at an index leaves the same record *)
Theorem C144_honest_session_trace :
  forall (S : Suite) (L : SuiteLaws S) (m : build) (params : Params) (parties parties' : list Party) (p p' : Party) (ps ps' : list Participant)
    (senders senders' : list Party) (es es' : list EncShare) (r r' q q' : Rng),
  honest_parties params parties -> honest_parties params parties' -> all_bootstrapped m params parties -> all_bootstrapped m params parties' ->
  In p parties -> In p' parties' -> y_index p = y_index p' ->
  Permutation ps (map y_d parties) -> Permutation ps' (map y_d parties') -> map pt_index ps = map pt_index ps' ->
  (forall a, In a senders -> In a parties) -> (forall a, In a senders' -> In a parties') -> map y_index senders = map y_index senders' ->
  delivered senders p es -> delivered senders' p' es' ->
  map (fun e => length (es_ct e)) es = map (fun e => length (es_ct e)) es' ->
  trace (t_session false m params (y_x p) (y_index p) (y_co p) ps es [] r q) =
  trace (t_session false m params (y_x p') (y_index p') (y_co p') ps' es' [] r' q').
Proof.
  intros S L m params parties parties' p p' ps ps' senders senders' es es' r r' q q' H H' B B' Hp Hp' Hi P P' Hix Hs Hs' Hsx D D' Hl.
  rewrite <- Hi.
  assert (M : Forall2 (matched (ok_bootstrap (p_t params))) ps ps').
  { assert (A : forall d, In d ps -> ok_bootstrap (p_t params) d /\ ~ crashing d).
    { intros d Hd. apply (Permutation_in _ P) in Hd. apply in_map_iff in Hd. destruct Hd as (a & <- & Ha).
      pose proof (honest_fresh params parties a H Ha) as Hf. split; [eapply fresh_ok; [apply H|exact Hf]|eapply fresh_not_crashing, Hf]. }
    assert (A' : forall d, In d ps' -> ok_bootstrap (p_t params) d /\ ~ crashing d).
    { intros d Hd. apply (Permutation_in _ P') in Hd. apply in_map_iff in Hd. destruct Hd as (a & <- & Ha).
      pose proof (honest_fresh params parties' a H' Ha) as Hf. split; [eapply fresh_ok; [apply H'|exact Hf]|eapply fresh_not_crashing, Hf]. }
    clear - Hix A A'. revert ps' Hix A'. induction ps as [|d ps IH]; intros [|d' ps'] Hix A'; try discriminate; constructor.
    - injection Hix as E _. destruct (A d (or_introl eq_refl)), (A' d' (or_introl eq_refl)). split; [exact E|]. tauto.
    - injection Hix as _ E. apply IH; [intros; apply A; right; assumption|exact E|intros; apply A'; right; assumption]. }
  refine (snd_session false m params (y_x p) (y_x p') (y_index p) (y_co p) (y_co p') ps ps' es es' [] [] r r' q q' _ M _).
  { intros _. rewrite (fd_len _ _ _ _ _ (honest_fresh params parties p H Hp)), (fd_len _ _ _ _ _ (honest_fresh params parties' p' H' Hp')). reflexivity. }
  cbn [round_one]. intros s l u s' l' u' E E'. split; [|constructor].
  assert (SP : same_place (st1 s) (st1 s')).
  { pose proof (snd_one false m params (y_x p) (y_x p') (y_index p) (y_co p) (y_co p') ps ps' r r') as [_ Q]; [|exact M|].
    - intros _. rewrite (fd_len _ _ _ _ _ (honest_fresh params parties p H Hp)), (fd_len _ _ _ _ _ (honest_fresh params parties' p' H' Hp')). reflexivity.
    - cbn [round_one] in Q. rewrite E, E' in Q. apply Q. }
  rewrite Hi in E'.
  pose proof (honest_accepts m params parties p ps r s l u senders es H B Hp P E Hs D) as A.
  pose proof (honest_accepts m params parties' p' ps' r' s' l' u' senders' es' H' B' Hp' P' E' Hs' D') as A'.
  clear - L A A' Hl Hsx SP Hi. revert senders' es' A' Hl Hsx. induction A as [|a e senders es (A1 & A2 & v & A3) A IH]; intros senders' es' A' Hl Hsx.
  - destruct A'; [constructor|discriminate].
  - destruct A' as [|a' e' senders' es' (A1' & A2' & v' & A3') A']; [discriminate|]. injection Hl as Hl1 Hl2. injection Hsx as Hs1 Hs2.
    constructor; [|eapply IH; eassumption]. apply (accepted_alike (st1 s) (st1 s') e e' v v'); congruence || assumption.
Qed.
(** what a successful resharing deals with is wiped: each share it computed, each coefficient, both copies of the Diffie-Hellman secret *)
Theorem C144_reshare_wipes :
  forall (S : Suite) (L : SuiteLaws S) (m : build) (params : Params) (sk : SigningKey) (ps : list Participant) (r : Rng)
    (out : Participant * bmap EncShare * PartList * Rng),
  (1 <= u32v (p_t params))%N -> reshare m params sk ps r = Ok out ->
  wiped (trace (t_reshare m params sk ps r)) = N.to_nat (u32v (p_n params)) + N.to_nat (u32v (p_t params)) + 2.
Proof. intros. eapply wiped_reshare; eassumption. Qed.
(** and the end wipes each share after use and when it is dropped, and the Diffie-Hellman secret *)
Theorem C144_finish_wipes :
  forall (S : Suite) (L : SuiteLaws S) (st : DkgState) (shares : bmap SecretShare) (out : G * SigningKey),
  ds_shares st = Some shares -> finish (R2 st) = Ok out -> wiped (trace (t_finish (R2 st))) = 2 * length shares + 1.
Proof. intros. eapply wiped_finish; eassumption. Qed.

(** when they fail after that, what was computed is wiped all the same *)
Theorem C144_failing_calls_wipe :
  forall (S : Suite) (L : SuiteLaws S),
  (forall m params sk ps r e, (1 <= u32v (p_t params))%N -> sk_index sk <> u32_zero -> reshare m params sk ps r = Err e ->
     N.to_nat (u32v (p_t params)) + 1 <= wiped (trace (t_reshare m params sk ps r))) /\
  (forall st shares e, ds_shares st = Some shares -> finish (R2 st) = Err e -> length shares + 1 <= wiped (trace (t_finish (R2 st)))).
Proof. intros S L. split; intros; [eapply wiped_reshare_err|eapply wiped_finish_err]; eassumption. Qed.
(** blame wipes exactly the shares it removes *)
Theorem C144_blame_wipes :
  forall (S : Suite) (L : SuiteLaws S) (st st' : DkgState) (comms : bmap Vss) (shares : bmap SecretShare) (cs : list Complaint) (ks : list G),
  ds_comms st = Some comms -> ds_shares st = Some shares -> NoDup (bkeys shares) -> blame (R2 st) cs = Ok (ks, R2 st') ->
  exists kept, ds_shares st' = Some kept /\ wiped (trace (t_blame (R2 st) cs)) + length kept = length shares.
Proof. intros. eapply wiped_blame; eassumption. Qed.

(** ** examples *)
(** a second honest group of three with other secrets *)
Definition tr_party (i : N) : Party :=
  MkParty (u i) (dealer 3 2 i (10 * i + 1)) (dealer_co 3 2 i (10 * i + 1)) (dealer_x 3 2 i (10 * i + 1))
    (tr_r1 i) (got [] (their_encrypted_secret_shares (tr_r1 i))).
Definition tr_parties : list Party := map tr_party [1; 2; 3]%N.
Example C144_ex_honest : honest_parties demo_params tr_parties.
Proof.
  constructor.
  - vmr.
  - split; vm_compute; discriminate.
  - good.
  - intros p [<-|[<-|[<-|[]]]]; unfold dealt_by.
    + exists 11%N, (let '(_, _, _, r) := dealer_run 3 2 1 11 in r). vmr.
    + exists 21%N, (let '(_, _, _, r) := dealer_run 3 2 2 21 in r). vmr.
    + exists 31%N, (let '(_, _, _, r) := dealer_run 3 2 3 31 in r). vmr.
Qed.
Example C144_ex_bootstrapped : all_bootstrapped Debug demo_params tr_parties.
Proof.
  intros p Hp. exists tr_ps.
  assert (HP : Permutation tr_ps (map y_d tr_parties)) by apply Permutation_refl.
  split; [exact HP|].
  assert (K : forall i, In (tr_party i) tr_parties -> bootstrapped Debug demo_params tr_ps (tr_party i)).
  { intros i Hi.
    destruct (C18_round_one_succeeds Toy ToyLaws Debug demo_params tr_parties (tr_party i) tr_ps (2000 + i)%N
      C144_ex_honest Hi HP) as (st & es & r' & E1 & E2 & _).
    exists (2000 + i)%N, (MkPList tr_ps None), r'.
    assert (Es : y_st (tr_party i) = st).
    { cbn [y_st tr_party]. unfold tr_r1. cbn [y_x y_co y_index tr_party] in E1. rewrite E1. reflexivity. }
    split; [rewrite Es; exact E1|]. cbn [y_es tr_party]. cbn [y_st tr_party] in *. rewrite Es, E2. reflexivity. }
  destruct Hp as [<-|[<-|[<-|[]]]]; apply K; [left|right; left|right; right; left]; reflexivity.
Qed.
Definition view_session (x : traced (@result Toy (list Complaint * list G * G * SigningKey))) : bool * nat :=
  (match fst x with Ok ([], [], _, _) => true | _ => false end, length (trace x)).
(** both sessions succeed, with records of the same length (equal by the theorem, whose hypotheses they meet) *)
Example C144_ex_session :
  view_session (t_session false Debug demo_params (y_x (demo_party 2)) (u 2) (y_co (demo_party 2)) demo_ps (demo_shares 2) [] 7%N 8%N) = (true, 160) /\
  view_session (t_session false Debug demo_params (y_x (tr_party 2)) (u 2) (y_co (tr_party 2)) tr_ps (tr_shares 2) [] 9%N 10%N) = (true, 160) /\
  map (fun e => length (es_ct e)) (demo_shares 2) = map (fun e => length (es_ct e)) (tr_shares 2).
Proof. vms. Qed.

Definition held_for (j i : N) (f : N -> RoundOne) : bool :=
  match their_encrypted_secret_shares (f i) with Ok es => match bget (u j) es with Some _ => true | None => false end | _ => false end.
Lemma delivered_flat (j : N) (q : Party) (f : N -> RoundOne) (P : N -> Party) :
  (forall i, y_es (P i) = got [] (their_encrypted_secret_shares (f i))) -> y_index q = u j ->
  forall l, forallb (fun i => held_for j i f) l = true -> delivered (map P l) q (shares_to j (map f l)).
Proof.
  intros H Hq. unfold delivered. rewrite Hq. induction l as [|i l IH]; intros Hl; [constructor|].
  cbn [forallb] in Hl. apply andb_true_iff in Hl. destruct Hl as [Hi Hl]. specialize (IH Hl).
  cbn [map shares_to flat_map]. unfold held_for in Hi. specialize (H i).
  destruct (their_encrypted_secret_shares (f i)) as [es|e|] eqn:E; try discriminate Hi.
  destruct (bget (u j) es) as [e|] eqn:E'; [|discriminate Hi]. cbn [app]. constructor; [|exact IH]. rewrite H. exact E'.
Qed.
Example C144_ex_honest_session :
  trace (t_session false Debug demo_params (y_x (demo_party 2)) (u 2) (y_co (demo_party 2)) demo_ps (demo_shares 2) [] 7%N 8%N) =
  trace (t_session false Debug demo_params (y_x (tr_party 2)) (u 2) (y_co (tr_party 2)) tr_ps (tr_shares 2) [] 9%N 10%N).
Proof.
  apply (C144_honest_session_trace Toy ToyLaws Debug demo_params demo_parties tr_parties (demo_party 2) (tr_party 2) demo_ps tr_ps
    demo_parties tr_parties (demo_shares 2) (tr_shares 2) 7%N 9%N 8%N 10%N C18_ex_honest C144_ex_honest C18_ex_bootstrapped C144_ex_bootstrapped).
  - right; left; reflexivity.
  - right; left; reflexivity.
  - reflexivity.
  - apply Permutation_refl.
  - apply Permutation_refl.
  - reflexivity.
  - auto.
  - auto.
  - reflexivity.
  - apply (delivered_flat 2%N (demo_party 2) (demo_r1 demo_ps) demo_party); [reflexivity|reflexivity|vmr].
  - apply (delivered_flat 2%N (tr_party 2) tr_r1 tr_party); [reflexivity|reflexivity|vmr].
  - apply C144_ex_session.
Qed.
(** a bad share shows: it is complained about, and the session ends without the missing share *)
Example C144_ex_bad_share :
  view_session (t_session false Debug demo_params (y_x (demo_party 3)) (u 3) (y_co (demo_party 3)) demo_ps (garbled_from 2 3) [] 7%N 8%N) = (false, 153).
Proof. vmr. Qed.
(** two complaints of 3 about 2, made with different draws, seen by 1 and by 3 *)
Definition other_c : Complaint :=
  match @to_round_two Toy Debug (demo_r1 demo_ps 3) (garbled_from 2 3) 99%N with Ok (_, cs, _) => hd no_complaint cs | _ => no_complaint end.
Definition blames (st : DkgState) (c : Complaint) : N := match blame_one st c with Ok i => u32v i | _ => 0%N end.
Lemma blames_upheld (st : DkgState) (comms : bmap Vss) (c : Complaint) : ds_comms st = Some comms ->
  blames st c = u32v (accused c) -> u32v (maker c) <> u32v (accused c) -> upheld st c.
Proof.
  intros Hc H Hn. unfold blames in H. destruct (blame_one_cases st comms c Hc) as [[U _]|[_ E]]; [exact U|].
  rewrite E in H. contradiction.
Qed.
Definition view_blame (x : traced (@result Toy (list G * RoundTwo))) : bool * nat * nat :=
  (match fst x with Ok _ => true | _ => false end, length (trace x), wiped (trace x)).
Definition held_shares (st : DkgState) : list u32 := match ds_shares st with Some sh => bkeys sh | None => [] end.
Example C144_ex_blame :
  (blames (honest_st 1) (victim_c 2 3), u32v (accused (victim_c 2 3)), u32v (maker (victim_c 2 3))) = (2, 2, 3)%N /\
  (blames (honest_st 3) other_c, u32v (accused other_c), u32v (maker other_c)) = (2, 2, 3)%N /\
  held_shares (honest_st 1) = held_shares (honest_st 3) /\
  Z.eqb (fv (cp_z (c_proof other_c))) (fv (cp_z (c_proof (victim_c 2 3)))) = false /\
  view_blame (t_blame (R2 (honest_st 1)) [victim_c 2 3]) = (true, 3, 1) /\
  view_blame (t_blame (R2 (honest_st 3)) [other_c]) = (true, 3, 1).
Proof. vms. Qed.
(** four shares, three coefficients, two copies; and three shares twice, one secret *)
Example C144_ex_wipes :
  wiped (trace (t_reshare Debug re_params (demo_key 3) (map z_p re_heirs) 71%N)) = 9 /\
  wiped (trace (t_finish (R2 (honest_st 1)))) = 7.
Proof. vms. Qed.
(** no new signers given; and no commitments left to compute the group key from *)
Definition without_comms (st : DkgState) : DkgState :=
  MkState (ds_params st) (ds_index st) (ds_dh_sk st) (ds_dh_pk st) None (ds_dhs st) (ds_enc st) (ds_shares st).
Definition failed {A} (x : @result Toy A) : bool := match x with Err _ => true | _ => false end.
Example C144_ex_failing :
  failed (reshare Debug re_params (demo_key 3) [] 71%N) = true /\ wiped (trace (t_reshare Debug re_params (demo_key 3) [] 71%N)) = 4 /\
  failed (finish (R2 (without_comms (honest_st 1)))) = true /\ wiped (trace (t_finish (R2 (without_comms (honest_st 1))))) = 8.
Proof. vms. Qed.

Print Assumptions C144_instrumented_values.
Print Assumptions C144_bootstrap_trace.
Print Assumptions C144_new_trace.
Print Assumptions C144_reshare_trace.
Print Assumptions C144_blame_trace.
Print Assumptions C144_finish_trace.
Print Assumptions C144_session_trace.
Print Assumptions C144_honest_session_trace.
Print Assumptions C144_reshare_wipes.
Print Assumptions C144_finish_wipes.
Print Assumptions C144_failing_calls_wipe.
Print Assumptions C144_blame_wipes.
