(** Vocabulary for C134: many signing machines and many coordinators at work at the same time. Each machine holds one
    signing key and any number of nonce lists; each table is one aggregator. Requests, positions, pairs, keys and partial
    signatures handed over are arbitrary, and the calls interleave in any order. *)
From Coq Require Import String Strings.Byte Arith NArith Bool List.
From Verif Require Import Base Suite Spec SpecDkg SpecSign SpecCodec SpecEnd Types ModelDkg ModelSign ModelCodec.
Import ListNotations.

Section SpecHall.
  Context {S : Suite}.

  Record Machine := MkMachine { mc_key : SigningKey; mc_lists : list (list CommitmentShare) }.
  (** what new was given, the calls made so far with their outcomes, and the aggregator *)
  Record Table := MkTable { tb_params : Params; tb_gk : G; tb_msg : list byte; tb_calls : trace; tb_agg : AggInitial }.
  Record Hall := MkHall {
    hl_machines : list Machine;
    hl_made : list (SigningKey * CommitmentShare);  (* all pairs generated so far, with the key they were generated for *)
    hl_answers : list Use;                          (* all successful sign calls so far *)
    hl_tables : list Table }.
  Definition opening (ks : list SigningKey) : Hall := MkHall (map (fun k => MkMachine k []) ks) [] [] [].

  (** a machine stores one of its lists and reads it back *)
  Inductive reloads (h : Hall) : Hall -> Prop :=
  | rl_list m1 k wa l wb m2 b l' : hl_machines h = m1 ++ MkMachine k (wa ++ l :: wb) :: m2 ->
      to_bytes ser_secret_list (MkSecList l) = Ok b -> from_bytes de_secret_list b = Ok (MkSecList l') ->
      reloads h (MkHall (m1 ++ MkMachine k (wa ++ l' :: wb) :: m2) (hl_made h) (hl_answers h) (hl_tables h)).

  Inductive deed (m : build) (h : Hall) : Hall -> Prop :=
  (* a machine generates a list and publishes its public part; the number of shares is a usize *)
  | dd_lists m1 k w m2 r n pub sec r' : hl_machines h = m1 ++ MkMachine k w :: m2 -> (N.of_nat n < 18446744073709551616)%N ->
      generate_commitment_share_lists r k n = (pub, sec, r') ->
      deed m h (MkHall (m1 ++ MkMachine k (sl_commitments sec :: w) :: m2) (map (pair k) (sl_commitments sec) ++ hl_made h)
        (hl_answers h) (hl_tables h))
  (* it is asked to sign, by whomever, and signs with any position of any list *)
  | dd_answer m1 k wa l wb m2 hash gk ss idx p l1 cs : hl_machines h = m1 ++ MkMachine k (wa ++ l :: wb) :: m2 ->
      sign m k hash gk (MkSecList l) idx ss = (Ok p, MkSecList l1) -> nth_error l (N.to_nat idx) = Some cs ->
      deed m h (MkHall (m1 ++ MkMachine k (wa ++ l1 :: wb) :: m2) (hl_made h) (MkUse k hash gk ss cs p :: hl_answers h) (hl_tables h))
  (* or sign fails *)
  | dd_refused m1 k wa l wb m2 hash gk ss idx o l1 : hl_machines h = m1 ++ MkMachine k (wa ++ l :: wb) :: m2 ->
      sign m k hash gk (MkSecList l) idx ss = (o, MkSecList l1) -> (forall p, o <> Ok p) ->
      deed m h (MkHall (m1 ++ MkMachine k (wa ++ l1 :: wb) :: m2) (hl_made h) (hl_answers h) (hl_tables h))
  | dd_reload h' : reloads h h' -> deed m h h'
  (* somebody starts to coordinate *)
  | dd_open p gk msg : deed m h (MkHall (hl_machines h) (hl_made h) (hl_answers h) (MkTable p gk msg [] (agg_new p gk msg) :: hl_tables h))
  (* anything is passed to include_signer and to include_partial_signature *)
  | dd_seat t1 t t2 i com pk o a : hl_tables h = t1 ++ t :: t2 -> include_signer (tb_agg t) i com pk = (o, a) ->
      deed m h (MkHall (hl_machines h) (hl_made h) (hl_answers h)
        (t1 ++ MkTable (tb_params t) (tb_gk t) (tb_msg t) (tb_calls t ++ [(CInc i com pk, o)]) a :: t2))
  | dd_hand t1 t t2 p : hl_tables h = t1 ++ t :: t2 ->
      deed m h (MkHall (hl_machines h) (hl_made h) (hl_answers h)
        (t1 ++ MkTable (tb_params t) (tb_gk t) (tb_msg t) (tb_calls t ++ [(CPart p, Ok tt)]) (include_partial_signature (tb_agg t) p) :: t2)).
  Inductive deeds (m : build) : Hall -> Hall -> Prop :=
  | ds_none h : deeds m h h
  | ds_deed h h' h'' : deeds m h h' -> deed m h' h'' -> deeds m h h''.
  (** everything that can have happened between machines with the keys ks *)
  Definition happened (m : build) (ks : list SigningKey) (h : Hall) : Prop := deeds m (opening ks) h.

  (** the pairs a hall still holds *)
  Definition stock (h : Hall) : list (SigningKey * CommitmentShare) :=
    flat_map (fun mc => map (pair (mc_key mc)) (concat (mc_lists mc))) (hl_machines h).

  (** the signers of a table *)
  Definition seated (t : Table) : list Signer := ag_signers (ai_state (tb_agg t)).
  (** u is the answer to the request of the table *)
  Definition answers_table (t : Table) (u : Use) : Prop :=
    us_hash u = h4 (tb_msg t) /\ us_gk u = tb_gk t /\ us_signers u = seated t.
  (** u was made by the signer s, with the pair the table has for it *)
  Definition made_by (s : Signer) (u : Use) : Prop := sk_index (us_key u) = sg_index s /\ published (us_pair u) = sg_com s.
  (** all signers of the table are machines with keys of ks, listed with their verifying keys and with pairs they made *)
  Definition booked (ks : list SigningKey) (h : Hall) (t : Table) : Prop :=
    forall s, In s (seated t) -> exists k cs, In k ks /\ sk_index k = sg_index s /\ published cs = sg_com s /\
      In (k, cs) (hl_made h) /\ last_key (tb_calls t) (sg_index s) (gen * sk_key k)%G.
  (** the pairs of the table were used for nothing else *)
  Definition reserved (h : Hall) (t : Table) : Prop :=
    forall s u, In s (seated t) -> In u (hl_answers h) -> made_by s u -> answers_table t u.
  (** the table has the answer of signer s *)
  Definition delivered (h : Hall) (t : Table) (s : Signer) : Prop :=
    exists u, In u (hl_answers h) /\ made_by s u /\ answers_table t u /\
      last_partial (tb_calls t) (sg_index s) (ps_z (us_sig u)) /\ last_key (tb_calls t) (sg_index s) (gen * sk_key (us_key u))%G.
  (** what the coordinator of the table gets is a signature that is valid for its message under its key *)
  Definition finished (t : Table) : Prop :=
    exists sig, outcome (tb_agg t) = Ok sig /\ verify_signature (tb_gk t) sig (h4 (tb_msg t)) = Ok tt.
  (** the same session, later *)
  Definition goes_on (t t' : Table) : Prop :=
    tb_params t' = tb_params t /\ tb_gk t' = tb_gk t /\ tb_msg t' = tb_msg t /\ seated t' = seated t.
End SpecHall.
