(** Specification vocabulary for the key generation: which participants pass round one, what a map
    holds, which shares are good. Written from the protocol description, not from the model's loops. *)
From Coq Require Import String Strings.Byte Arith NArith Bool List Permutation.
From Verif Require Import Base Suite Spec Types ModelDkg.
Import ListNotations.

Section SpecDkg.
  Context {S : Suite}.

  (** the DH key proof verifies *)
  Definition dh_proof_ok (p : Participant) : Prop :=
    nizk_verify (pt_dh_proof p) (pt_index p) (pt_dh_pk p) = Ok tt.

  (** a commitment with at least one point and a verifying proof for the first point *)
  Definition key_proof_ok (p : Participant) : Prop :=
    exists c P rest pr, pt_comm p = Some c /\ vss_points c = P :: rest /\
      pt_sk_proof p = Some pr /\ nizk_verify pr (pt_index p) P = Ok tt.

  (** the commitment has exactly k points *)
  Definition commitment_length (k : N) (p : Participant) : Prop :=
    exists c, pt_comm p = Some c /\ N.of_nat (length (vss_points c)) = k.

  (** what each entry point requires of a participant *)
  Definition ok_bootstrap (t : u32) (p : Participant) : Prop :=
    dh_proof_ok p /\ key_proof_ok p /\ commitment_length (u32v t) p.
  Definition ok_new (p : Participant) : Prop := dh_proof_ok p /\ key_proof_ok p.
  Definition ok_reshare (p : Participant) : Prop := dh_proof_ok p.

  (** a participant that makes round one panic *)
  Definition crashing (p : Participant) : Prop :=
    dh_proof_ok p /\ (exists c P rest, pt_comm p = Some c /\ vss_points c = P :: rest) /\ pt_sk_proof p = None.

  (** [splits ok ps valid mis]: valid/mis are the sublists of ps satisfying or violating ok,
      in the order of ps (the second one as indices) *)
  Inductive splits (ok : Participant -> Prop) : list Participant -> list Participant -> list u32 -> Prop :=
  | splits_nil : splits ok [] [] []
  | splits_ok p ps v m : ok p -> splits ok ps v m -> splits ok (p :: ps) (p :: v) m
  | splits_bad p ps v m : ~ ok p -> splits ok ps v m -> splits ok (p :: ps) v (pt_index p :: m).

  (** the last element of a list of participants with index j *)
  Definition last_with (j : u32) (ps : list Participant) (p : Participant) : Prop :=
    exists l1 l2, ps = l1 ++ p :: l2 /\ pt_index p = j /\ forall q, In q l2 -> pt_index q <> j.

  (** the map m holds exactly, for each index j, the value [f p] of the last participant with index j *)
  Definition holds_last {V} (f : Participant -> option V) (ps : list Participant) (m : bmap V) : Prop :=
    forall j v, bget j m = Some v <-> exists p, last_with j ps p /\ f p = Some v.

  (** what a round one state records: own data, thresholds with n reduced to the number of valid
      participants, DH keys of the valid participants, and (unless dealing in a resharing) their commitments *)
  Record records (params : Params) (my : u32) (x : F) (valid : list Participant) (st : DkgState) : Prop := {
    rec_n : u32v (p_n (ds_params st)) = N.of_nat (length valid);
    rec_t : p_t (ds_params st) = p_t params;
    rec_index : ds_index st = my;
    rec_sk : ds_dh_sk st = x;
    rec_pk : ds_dh_pk st = (gen * x)%G;
    rec_dhs : holds_last (fun p => Some (pt_dh_pk p)) valid (ds_dhs st);
    rec_shares : ds_shares st = None }.
  Definition records_comms (valid : list Participant) (st : DkgState) : Prop :=
    exists comms, ds_comms st = Some comms /\ holds_last pt_comm valid comms.

  (** the list of misbehaving indices as returned: absent when empty *)
  Definition none_if_empty (l : list u32) : option (list u32) :=
    match l with [] => None | _ :: _ => Some l end.

  (** an encrypted share of polynomial [co] from dealer [my] (DH secret [x]) to participant p *)
  Definition share_for (my : u32) (x : F) (co : list F) (p : Participant) (e : EncShare) : Prop :=
    es_sender e = my /\ es_receiver e = pt_index p /\
    decrypt_share e (enc_point (pt_dh_pk p * x)%G) =
      Ok (MkShare my (pt_index p) (poly_value co (of_u32 (pt_index p)))).
  (** one such share for every listed participant, nothing else; the last listed wins on equal indices *)
  Definition shares_for_all (my : u32) (x : F) (co : list F) (ps : list Participant) (es : bmap EncShare) : Prop :=
    (forall j, In j (bkeys es) <-> In j (map pt_index ps)) /\
    (forall j p, last_with j ps p -> exists e, bget j es = Some e /\ share_for my x co p e).

  (** an honestly generated dealer for threshold t with coefficients [co] and DH secret x *)
  Record fresh_dealer (p : Params) (i : u32) (d : Participant) (co : list F) (x : F) : Prop := {
    fd_index : pt_index d = i;
    fd_pk : pt_dh_pk d = (gen * x)%G;
    fd_len : length co = N.to_nat (u32v (p_t p));
    fd_comm : pt_comm d = Some (MkVss i (committed co));
    fd_dhp : nizk_verify (pt_dh_proof d) i (pt_dh_pk d) = Ok tt;
    fd_skp : exists pr a0, pt_sk_proof d = Some pr /\ hd_error co = Some a0 /\
             nizk_verify pr i (gen * a0)%G = Ok tt }.


  (** ** round two *)

  (** e opens to value v with the Diffie-Hellman key of the receiver's secret x and the sender's registered key *)
  Definition opens (st : DkgState) (e : EncShare) (v : F) : Prop :=
    exists pk, bget (es_sender e) (ds_dhs st) = Some pk /\
      decrypt_share e (enc_point (pk * ds_dh_sk st)%G) = Ok (MkShare (es_sender e) (es_receiver e) v).
  (** v lies on the polynomial committed to by c, at index i *)
  Definition on_commitment (c : Vss) (i : u32) (v : F) : Prop :=
    (gen * v)%G = gpoly_value (vss_points c) (of_u32 i).
  (** the sender has a retained commitment and e does not open to the committed value *)
  Definition bad_for (st : DkgState) (e : EncShare) : Prop :=
    exists comms c, ds_comms st = Some comms /\ bget (es_sender e) comms = Some c /\
      ~ exists v, opens st e v /\ on_commitment c (es_receiver e) v.
  (** c is a complaint of the owner of st about e *)
  Definition complains (st : DkgState) (e : EncShare) (c : Complaint) : Prop :=
    c_share c = e /\ c_pk c = (gen * ds_dh_sk st)%G /\
    exists pk, bget (es_sender e) (ds_dhs st) = Some pk /\ c_shared c = (pk * ds_dh_sk st)%G /\
      complaint_verify c pk = Ok tt.
  (** one complaint per bad share, in order, none for the others *)
  Inductive complaint_list (st : DkgState) : list EncShare -> list Complaint -> Prop :=
  | cl_nil : complaint_list st [] []
  | cl_bad e es c cs : bad_for st e -> complains st e c -> complaint_list st es cs ->
      complaint_list st (e :: es) (c :: cs)
  | cl_good e es cs : ~ bad_for st e -> complaint_list st es cs -> complaint_list st (e :: es) cs.

  (** the call does not stop at e *)
  Definition acceptable (m : build) (st : DkgState) (e : EncShare) : Prop :=
    (m = Debug -> es_receiver e = ds_index st) /\ exists pk, bget (es_sender e) (ds_dhs st) = Some pk.

  (** x is the last element of l with property P *)
  Definition last_such {A} (P : A -> Prop) (l : list A) (x : A) : Prop :=
    exists l1 l2, l = l1 ++ x :: l2 /\ P x /\ forall y, In y l2 -> ~ P y.

  (** the state after round two: everything kept, encrypted shares dropped, and for every sender the
      value of its last share that opens (whether or not it matches the commitment) *)
  Record after_round_two (st : DkgState) (es : list EncShare) (st' : DkgState) : Prop := {
    ar_params : ds_params st' = ds_params st;
    ar_index : ds_index st' = ds_index st;
    ar_sk : ds_dh_sk st' = ds_dh_sk st;
    ar_pk : ds_dh_pk st' = ds_dh_pk st;
    ar_comms : ds_comms st' = ds_comms st;
    ar_dhs : ds_dhs st' = ds_dhs st;
    ar_enc : ds_enc st' = None;
    ar_shares : exists shares, ds_shares st' = Some shares /\ NoDup (bkeys shares) /\
      forall j s, bget j shares = Some s <->
        exists e, last_such (fun e => es_sender e = j /\ exists v, opens st e v) es e /\
          exists v, opens st e v /\ s = MkShare j (es_receiver e) v }.

  (** ** settling complaints *)

  (** the DH key registered for i; the zero point stands for an unregistered one *)
  Definition registered (st : DkgState) (i : u32) (pk : G) : Prop :=
    bget i (ds_dhs st) = Some pk \/ (bget i (ds_dhs st) = None /\ pk = Gzero).
  Definition accused (c : Complaint) : u32 := es_sender (c_share c).
  Definition maker (c : Complaint) : u32 := es_receiver (c_share c).
  (** the accused is a retained dealer in range, the proof verifies against its registered key, and the
      share does not open under the revealed key to the committed value *)
  Definition upheld (st : DkgState) (c : Complaint) : Prop :=
    accused c <> u32_zero /\ (u32v (accused c) <= u32v (p_n (ds_params st)))%N /\
    exists comms com pk, ds_comms st = Some comms /\ bget (accused c) comms = Some com /\
      registered st (accused c) pk /\ complaint_verify c pk = Ok tt /\
      ~ exists v, decrypt_share (c_share c) (enc_point (c_shared c)) = Ok (MkShare (accused c) (maker c) v) /\
          on_commitment com (maker c) v.
  (** the index a complaint convicts *)
  Definition convicts (st : DkgState) (c : Complaint) (j : u32) : Prop :=
    (upheld st c /\ j = accused c) \/ (~ upheld st c /\ j = maker c).
  Definition convicted (st : DkgState) (cs : list Complaint) (j : u32) : Prop :=
    exists c, In c cs /\ convicts st c j.
  (** m' is m without the keys satisfying P, in the same order *)
  Inductive without {V} (P : u32 -> Prop) : bmap V -> bmap V -> Prop :=
  | wo_nil : without P [] []
  | wo_drop k v m m' : P k -> without P m m' -> without P ((k, v) :: m) m'
  | wo_keep k v m m' : ~ P k -> without P m m' -> without P ((k, v) :: m) ((k, v) :: m').
  (** the state after removing the indices satisfying P *)
  Record pruned (P : u32 -> Prop) (st st' : DkgState) : Prop := {
    pr_params : ds_params st' = ds_params st;
    pr_index : ds_index st' = ds_index st;
    pr_sk : ds_dh_sk st' = ds_dh_sk st;
    pr_pk : ds_dh_pk st' = ds_dh_pk st;
    pr_dhs : ds_dhs st' = ds_dhs st;
    pr_enc : ds_enc st' = ds_enc st;
    pr_comms : exists m m', ds_comms st = Some m /\ ds_comms st' = Some m' /\ without P m m';
    pr_shares : exists m m', ds_shares st = Some m /\ ds_shares st' = Some m' /\ without P m m' }.
  (** the registered keys of the given indices, in their order *)
  Inductive keys_of (st : DkgState) : list u32 -> list G -> Prop :=
  | ko_nil : keys_of st [] []
  | ko_some i l k ks : bget i (ds_dhs st) = Some k -> keys_of st l ks -> keys_of st (i :: l) (k :: ks)
  | ko_none i l ks : bget i (ds_dhs st) = None -> keys_of st l ks -> keys_of st (i :: l) ks.

  (** ** keys *)

  (** what a set of commitments says about the point x: the interpolation over the dealers of their
      committed polynomials at x. At x = i this is the public key of participant i, at x = 0 the group key. *)
  Definition dealt_point (comms : bmap Vss) (x : F) : G :=
    ginterp0 (map (fun jc => (fst jc, gpoly_value (vss_points (snd jc)) x)) comms).
  (** the same for a list of commitments, identified by their own index field *)
  Definition by_index (cs : list Vss) : bmap Vss := map (fun c => (vss_index c, c)) cs.
  (** the dealers' public keys (first points), interpolated *)
  Definition first_points (comms : bmap Vss) (gk : G) : Prop :=
    exists pks, Forall2 (fun jc jp => fst jp = fst jc /\ exists rest, vss_points (snd jc) = snd jp :: rest) comms pks /\
      gk = ginterp0 pks.
  (** signing keys as interpolation points *)
  Definition key_points (ks : list SigningKey) : list (u32 * F) := map (fun k => (sk_index k, sk_key k)) ks.

  (** ** a run of honest participants *)
  (** a participant with what it generated and computed so far *)
  Record Party := MkParty {
    y_index : u32; y_d : Participant; y_co : list F; y_x : F; y_st : RoundOne; y_es : bmap EncShare }.
  (** its keys come from new_dealer *)
  Definition dealt_by (params : Params) (p : Party) : Prop :=
    exists r r', new_dealer params (y_index p) r = Ok (y_d p, y_co p, y_x p, r').
  (** it ran bootstrap on the list ps *)
  Definition bootstrapped (m : build) (params : Params) (ps : list Participant) (p : Party) : Prop :=
    exists r lists r', bootstrap m params (y_x p) (y_index p) (y_co p) ps r = Ok (y_st p, lists, r') /\
      their_encrypted_secret_shares (y_st p) = Ok (y_es p).
  (** n participants with distinct non-zero indices, all honest; everyone may list the others in any order *)
  Record honest_parties (params : Params) (parties : list Party) : Prop := {
    hp_count : N.of_nat (length parties) = u32v (p_n params);
    hp_threshold : (1 <= u32v (p_t params) <= u32v (p_n params))%N;
    hp_indices : good_indices (map y_index parties);
    hp_dealt : forall p, In p parties -> dealt_by params p }.
  Definition all_bootstrapped (m : build) (params : Params) (parties : list Party) : Prop :=
    forall p, In p parties -> exists ps, Permutation ps (map y_d parties) /\ bootstrapped m params ps p.
  (** es are the shares for q of the given senders *)
  Definition delivered (senders : list Party) (q : Party) (es : list EncShare) : Prop :=
    Forall2 (fun p e => bget (y_index q) (y_es p) = Some e) senders es.
  (** what one participant does after bootstrap, ending with a group key and a signing key *)
  Definition party_run (m : build) (parties : list Party) (q : Party) (out : G * SigningKey) : Prop :=
    exists senders es r s2 cs r', Permutation senders parties /\ delivered senders q es /\
      to_round_two m (y_st q) es r = Ok (s2, cs, r') /\ finish s2 = Ok out.
  (** the points (index, value at x of the dealt polynomial) *)
  Definition dealt_values (parties : list Party) (x : F) : list (u32 * F) :=
    map (fun p => (y_index p, poly_value (y_co p) x)) parties.
  (** ** resharing *)

  (** any t of the keys (at distinct indices) interpolate to s *)
  Definition recovers (t : nat) (s : F) (ks : list SigningKey) : Prop :=
    good_indices (map sk_index ks) /\
    forall sub, (forall k, In k sub -> In k ks) -> NoDup (map sk_index sub) -> t <= length sub ->
      interp0 (key_points sub) = s.
  (** a new signer: index, published participant, DH secret *)
  Record Heir := MkHeir { z_index : u32; z_p : Participant; z_x : F }.
  (** where its participant and secret come from: made for the resharing, or kept from an earlier key generation *)
  Definition prepared (params : Params) (z : Heir) : Prop :=
    (exists r r', new_signer params (z_index z) r = Ok (z_p z, z_x z, r')) \/
    (exists params' co r r', new_dealer params' (z_index z) r = Ok (z_p z, co, z_x z, r')).
  Record honest_heirs (params : Params) (hs : list Heir) : Prop := {
    hh_count : N.of_nat (length hs) = u32v (p_n params);
    hh_threshold : (1 <= u32v (p_t params) <= u32v (p_n params))%N;
    hh_indices : good_indices (map z_index hs);
    hh_made : forall z, In z hs -> prepared params z }.
  (** an old participant: its key, and the participant and shares it published in the resharing *)
  Record Donor := MkDonor { w_key : SigningKey; w_d : Participant; w_es : bmap EncShare }.
  Record honest_donors (m : build) (params : Params) (hs : list Heir) (ws : list Donor) : Prop := {
    hd_indices : good_indices (map (fun w => sk_index (w_key w)) ws);
    hd_reshared : forall w, In w ws -> exists ps r lists r', Permutation ps (map z_p hs) /\
      reshare m params (w_key w) ps r = Ok (w_d w, w_es w, lists, r') }.
  (** es are the shares of the given donors for z *)
  Definition received (senders : list Donor) (z : Heir) (es : list EncShare) : Prop :=
    Forall2 (fun w e => bget (z_index z) (w_es w) = Some e) senders es.
  (** what one new signer does, ending with a group key and a signing key *)
  Definition heir_run (m : build) (params1 : Params) (ws : list Donor) (z : Heir) (out : G * SigningKey) : Prop :=
    exists ds senders es r lists r1 s1 r2 s2 cs r3,
      Permutation ds (map w_d ws) /\ Permutation senders ws /\ received senders z es /\
      dkg_new m params1 (z_x z) (z_index z) ds r = Ok (s1, lists, r1) /\
      to_round_two m s1 es r2 = Ok (s2, cs, r3) /\ finish s2 = Ok out.
  (** one resharing from (at least t1 of) the keys ks to the keys ks'; gks are the group keys obtained *)
  Definition resharing (m : build) (t1 : nat) (ks : list SigningKey) (gks : list G) (t2 : nat) (ks' : list SigningKey) : Prop :=
    exists params1 params2 hs ws outs,
      N.of_nat (length ws) = u32v (p_n params1) /\ N.of_nat t1 = u32v (p_t params1) /\
      (1 <= u32v (p_t params1) <= u32v (p_n params1))%N /\ N.of_nat t2 = u32v (p_t params2) /\
      (forall w, In w ws -> In (w_key w) ks) /\ honest_heirs params2 hs /\ honest_donors m params2 hs ws /\
      Forall2 (heir_run m params1 ws) hs outs /\ gks = map fst outs /\ ks' = map snd outs.
  (** any number of resharings in sequence *)
  Inductive history (m : build) : nat -> list SigningKey -> list (list G) -> nat -> list SigningKey -> Prop :=
  | hist_nil t ks : history m t ks [] t ks
  | hist_cons t1 ks gks t2 ks2 rest t3 ks3 : resharing m t1 ks gks t2 ks2 -> history m t2 ks2 rest t3 ks3 ->
      history m t1 ks (gks :: rest) t3 ks3.
End SpecDkg.
