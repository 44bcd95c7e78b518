(** The calls of the key generation as wholes, instrumented like the functions of ModelTrace.v: round one (bootstrap, new,
    reshare), blame and finish, with the wiping of the secrets that are dropped on the way. Computations on public data
    only (the checks of the participants and of the complaints, the group key) are no events. *)
From Coq Require Import String Strings.Byte Arith NArith Bool List.
From Verif Require Import Base Suite Types ModelDkg ModelTrace.
Import ListNotations.

(** wiping so many scalars: the Drop implementations of src/dkg/secret_share.rs 37-41 (each coefficient), 58-62 (a share),
    src/keys.rs 27-31 (a Diffie-Hellman secret), 196-200 (a signing key) *)
Fixpoint wipes (n : nat) : traced unit :=
  match n with
  | O => pure tt
  | Datatypes.S n' => let+ _ := does Wipe tt in wipes n'
  end.

Section TraceCalls.
  Context {S : Suite}.

  (** new_state_internal, src/dkg/key_generation.rs 704-886; the loop of the checks (731-781) reads public data only.
      The public calls never have an absent [coeffs] in the dealing branch (640-701, src/dkg/participant.rs 265-274). *)
  Definition t_new_state_internal (m : build) (params : Params) (dh_sk : F) (my_index : u32)
      (coeffs : option (list F)) (ps : list Participant) (from_dealer from_signer : bool) (r : Rng)
    : traced (result (RoundOne * PartList * Rng)) :=
    let+ dh_pk := does GMul (gen * dh_sk)%G in
    let+ b := test (negb (N.eqb (N.of_nat (length ps)) (u32v (p_n params)))) in
    if b then pure (Err (InvalidNumberOfParticipants (length ps) (p_n params)))
    else
      match check_all m params from_dealer from_signer ps (MkAcc [] [] [] []) with
      | Ok a =>
          let+ b := test (N.ltb (N.of_nat (length (acc_valid a))) (u32v (p_t params))) in
          if b then pure (Err (TooManyInvalidParticipants (acc_mis a)))
          else
            let params' := let* n' := u32_sub m (p_n params) (u32_of_N (N.of_nat (length (acc_mis a)))) in
                           params_new m n' (p_t params) in
            let+ b := test (negb from_dealer && from_signer) in
            if b then
              let+ _ := test (is_ok params') in
              match params' with
              | Ok p =>
                  let+ k := does Copy dh_sk in
                  pure (Ok (R1 (MkState p my_index k dh_pk (Some (acc_comms a)) (acc_dhs a) None None),
                            MkPList (acc_valid a) (opt_list (acc_mis a)), r))
              | Err e => pure (Err e)
              | Panic => pure Panic
              end
            else
              let+ x := match coeffs with
                        | Some cs => t_encrypt_all my_index dh_sk cs ps [] r
                        | None => pure (encrypt_all my_index dh_sk None ps [] r)
                        end in
              match x with
              | Ok (es, r') =>
                  let+ _ := test (is_ok params') in
                  match params' with
                  | Ok p =>
                      let+ k := does Copy dh_sk in
                      pure (Ok (R1 (MkState p my_index k dh_pk (if from_signer then Some (acc_comms a) else None)
                                      (acc_dhs a) (Some es) None),
                                MkPList (acc_valid a) (opt_list (acc_mis a)), r'))
                  | Err e => pure (Err e)
                  | Panic => pure Panic
                  end
              | Err e => pure (Err e)
              | Panic => pure Panic
              end
      | Err e => pure (Err e)
      | Panic => pure Panic
      end.

  (** bootstrap, src/dkg/key_generation.rs 640-658 *)
  Definition t_bootstrap (m : build) (params : Params) (dh_sk : F) (my_index : u32)
      (coeffs : list F) (ps : list Participant) (r : Rng) : traced (result (RoundOne * PartList * Rng)) :=
    t_new_state_internal m params dh_sk my_index (Some coeffs) ps true true r.
  (** new, src/dkg/key_generation.rs 684-701 *)
  Definition t_dkg_new (m : build) (params : Params) (dh_sk : F) (my_index : u32)
      (dealers : list Participant) (r : Rng) : traced (result (RoundOne * PartList * Rng)) :=
    t_new_state_internal m params dh_sk my_index None dealers false true r.

  (** reshare, src/dkg/participant.rs 244-281: at the end the state with its copy of the Diffie-Hellman secret, the
      coefficients and the Diffie-Hellman secret are dropped, in this order; on an error (274) the last two *)
  Definition t_reshare (m : build) (params : Params) (sk : SigningKey) (signers : list Participant) (r : Rng)
    : traced (result (Participant * bmap EncShare * PartList * Rng)) :=
    let+ x := t_new_internal params false (sk_index sk) (Some (sk_key sk)) r in
    let+ _ := test (is_ok x) in
    match x with
    | Ok (dealer, co, dh_sk, r1) =>
        match co with
        | None => pure Panic
        | Some coeffs =>
            let+ y := t_new_state_internal m params dh_sk (sk_index sk) (Some coeffs) signers true false r1 in
            let+ _ := test (is_ok y) in
            match y with
            | Ok (st, lists, r2) =>
                let z := let* es := their_encrypted_secret_shares st in Ok (dealer, es, lists, r2) in
                let+ _ := test (is_ok z) in
                let+ _ := wipes 1 in
                let+ _ := wipes (length coeffs) in
                let+ _ := wipes 1 in
                pure z
            | Err e =>
                let+ _ := wipes (length coeffs) in
                let+ _ := wipes 1 in
                pure (Err e)
            | Panic => pure Panic
            end
        end
    | Err e => pure (Err e)
    | Panic => pure Panic
    end.

  (** the removal loop of blame with remove_malicious, src/dkg/key_generation.rs 1098-1114, 1174-1176: a removed share is
      dropped, hence wiped *)
  Fixpoint t_remove_all (st : DkgState) (l : list u32) : traced (result DkgState) :=
    match l with
    | [] => let+ _ := test false in pure (Ok st)
    | i :: l' =>
        let+ _ := test true in
        let+ _ := match ds_shares st with
                  | Some shares => match bget i shares with Some _ => wipes 1 | None => pure tt end
                  | None => pure tt
                  end in
        match remove_malicious st i with
        | Ok st' => t_remove_all st' l'
        | Err e => pure (Err e)
        | Panic => pure Panic
        end
    end.
  (** blame, src/dkg/key_generation.rs 1097-1184: the loop over the complaints (1116-1169) reads public data only *)
  Definition t_blame (s : RoundTwo) (cs : list Complaint) : traced (result (list G * RoundTwo)) :=
    match blame_loop (st2 s) cs [] with
    | Ok pending =>
        let pending := dedup_by (fun x => x) (sort_by (fun x => x) pending) in
        let+ x := t_remove_all (st2 s) pending in
        match x with
        | Ok st' => pure (Ok (lookup_all (ds_dhs st') pending, R2 st'))
        | Err e => pure (Err e)
        | Panic => pure Panic
        end
    | Err e => pure (Err e)
    | Panic => pure Panic
    end.

  (** dropping the state of the key generation, src/dkg/key_generation.rs 530-552: its Diffie-Hellman secret and its shares *)
  Definition t_drop_state (st : DkgState) : traced unit :=
    let+ _ := wipes 1 in
    wipes (match ds_shares st with Some shares => length shares | None => 0 end).
  (** finish, src/dkg/key_generation.rs 1012-1017: the state is consumed; if there is no group key the signing key is
      dropped too. The group key (1055-1083) is computed from public data. *)
  Definition t_finish (s : RoundTwo) : traced (result (G * SigningKey)) :=
    let+ x := t_calculate_signing_key (st2 s) in
    let+ _ := test (is_ok x) in
    match x with
    | Ok sk =>
        let y := calculate_group_key (st2 s) in
        let+ _ := test (is_ok y) in
        match y with
        | Ok gk => let+ _ := t_drop_state (st2 s) in pure (Ok (gk, sk))
        | Err e => let+ _ := wipes 1 in let+ _ := t_drop_state (st2 s) in pure (Err e)
        | Panic => pure Panic
        end
    | Err e => let+ _ := t_drop_state (st2 s) in pure (Err e)
    | Panic => pure Panic
    end.
End TraceCalls.
