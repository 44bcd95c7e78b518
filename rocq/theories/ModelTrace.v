(** The functions that handle secrets, instrumented: beside its value, each returns the list of operations it performs
    (calls of the external libraries, with the lengths they see, copies and wipes) and of the outcomes of its tests.
    Two runs with different lists differ in what they execute. The operations are those of the source, one event per call;
    calls whose arguments are all public are no events. The running time of a single operation is not modelled. *)
From Coq Require Import String Strings.Byte Arith NArith Bool List.
From Verif Require Import Base Suite Types ModelDkg ModelSign.
Import ListNotations.

(** src/dkg/secret_share.rs 75-82, 294-361, src/sign/precomputation.rs 24-35, 102-134, 211-227: scalar and group operations,
    comparisons, conversion to affine coordinates, sampling, drawing bytes, hashing, key derivation, encryption and
    decryption of so many bytes, writing and reading values, copying, wiping, moving elements of a vector *)
Inductive op := FAdd | FMul | FEq | GMul | GAffine | GEqual | Sample | Draw (n : nat) | Hash (n : nat)
  | Kdf (n : nat) | Seal (n : nat) | Unseal (n : nat) | Write | Read (n : nat) | Copy | Wipe | Shift (n : nat).
(** one event: an operation, or a test with its outcome (the conditions of [if], [match], [?] and of the loops),
    e.g. src/sign/precomputation.rs 218-225 *)
Inductive event := Op (o : op) | Test (b : bool).
(** a value with the events that led to it, e.g. src/sign/precomputation.rs 211-227 *)
Definition traced (A : Type) := (A * list event)%type.
(** sequencing of statements, e.g. src/sign/precomputation.rs 212-226 *)
Definition tbind {A B} (x : traced A) (f : A -> traced B) : traced B :=
  let (a, e) := x in let (b, e') := f a in (b, e ++ e').
(** a value computed from public data only, e.g. src/sign/signature.rs 315-323 *)
Definition pure {A} (a : A) : traced A := (a, []).
(** one operation, e.g. src/sign/precomputation.rs 104 *)
Definition does {A} (o : op) (a : A) : traced A := (a, [Op o]).
(** a test, e.g. src/sign/precomputation.rs 219 *)
Definition test (b : bool) : traced bool := (b, [Test b]).
Notation "'let+' x ':=' e 'in' k" := (tbind e (fun x => k))
  (at level 200, x pattern, e at level 100, k at level 200, right associativity).

Section Trace.
  Context {S : Suite}.

  (** the loop of evaluate_polynomial, src/dkg/secret_share.rs 75-82 *)
  Fixpoint t_eval_loop (x : F) (len k : nat) (rev_coeffs : list F) (sum : F) : traced F :=
    match rev_coeffs with
    | [] => let+ _ := test false in pure sum
    | c :: cs =>
        let+ _ := test true in
        let+ sum := does FAdd (sum + c)%F in
        let+ b := test (negb (Nat.eqb k (len - 1))) in
        let+ sum := (if b then does FMul (sum * x)%F else pure sum) in
        t_eval_loop x len (k + 1) cs sum
    end.
  (** evaluate_polynomial, src/dkg/secret_share.rs 66-88 *)
  Definition t_evaluate_polynomial (sender receiver : u32) (coeffs : list F) : traced SecretShare :=
    let+ v := t_eval_loop (of_u32 receiver) (length coeffs) 0 (rev coeffs) F0 in
    pure (MkShare sender receiver v).

  (** prove, src/dkg/nizkpok.rs 42-62 *)
  Definition t_nizk_prove (index : u32) (sk : F) (pk : G) (r : Rng) : traced (Nizk * Rng) :=
    let (k, r') := rand_scalar r in
    let+ k := does Sample k in
    let+ m := does GMul (gen * k)%G in
    let+ msg := does Write (nizk_message index pk m) in
    let+ s := does (Hash (length msg)) (h0 msg) in
    let+ p := does FMul (sk * s)%F in
    let+ z := does FAdd (k + p)%F in
    pure (MkNizk s z, r').

  (** the sampling loop, src/dkg/participant.rs 180-182 *)
  Fixpoint t_rand_scalars (k : nat) (r : Rng) : traced (list F * Rng) :=
    match k with
    | O => let+ _ := test false in pure ([], r)
    | Datatypes.S k' =>
        let+ _ := test true in
        let (a, r1) := rand_scalar r in
        let+ a := does Sample a in
        let+ (l, r2) := t_rand_scalars k' r1 in
        pure (a :: l, r2)
    end.
  (** the loop of the commitments, src/dkg/participant.rs 189-193 *)
  Fixpoint t_commit (l : list F) : traced (list G) :=
    match l with
    | [] => let+ _ := test false in pure []
    | a :: l' => let+ _ := test true in let+ P := does GMul (gen * a)%G in let+ Ps := t_commit l' in pure (P :: Ps)
    end.
  (** new_internal, src/dkg/participant.rs 128-220 *)
  Definition t_new_internal (p : Params) (is_signer : bool) (index : u32) (secret : option F) (r : Rng)
    : traced (result (Participant * option (list F) * F * Rng)) :=
    let+ b := test (u32_eqb index u32_zero) in
    if b then pure (Err IndexIsZero) else
    let t := u32_nat (p_t p) in
    let (dh_sk, r1) := rand_scalar r in
    let+ dh_sk := does Sample dh_sk in
    let+ dh_pk := does GMul (gen * dh_sk)%G in
    let+ (dh_proof, r2) := t_nizk_prove index dh_sk dh_pk r1 in
    let+ b := test is_signer in
    if b then pure (Ok (MkPart index dh_pk None None dh_proof, None, dh_sk, r2)) else
    let+ (a0, r3) := match secret with
                     | Some sk => let+ _ := test true in does Copy (sk, r2)
                     | None => let+ _ := test false in does Sample (rand_scalar r2)
                     end in
    let+ (rest, r4) := t_rand_scalars (t - 1) r3 in
    let coeffs := a0 :: rest in
    let+ points := t_commit (firstn t coeffs) in
    let comm := MkVss index points in
    match vss_public_key comm with
    | None => let+ _ := test false in pure Panic
    | Some pk =>
        let+ _ := test true in
        let+ (sk_proof, r5) := t_nizk_prove index a0 pk r4 in
        pure (Ok (MkPart index dh_pk (Some comm) (Some sk_proof) dh_proof, Some coeffs, dh_sk, r5))
    end.

  (** encrypt_share, src/dkg/secret_share.rs 294-326 *)
  Definition t_encrypt_share (s : SecretShare) (key_bytes : list byte) (r : Rng) : traced (result (EncShare * Rng)) :=
    let+ key := does (Kdf (length key_bytes)) (hkdf key_bytes) in
    let (nonce, r') := gen_nonce r in
    let+ nonce := does (Draw nonce_len) nonce in
    let+ plain := does Write (enc_scalar (sh_value s)) in
    let+ c := does (Seal (length plain)) (aead_enc key (nonce_bytes nonce) plain) in
    match c with
    | None => let+ _ := test false in pure (Err EncryptionError)
    | Some ct => let+ _ := test true in pure (Ok (MkEnc (sh_sender s) (sh_receiver s) nonce ct, r'))
    end.
  (** the share encryption loop, src/dkg/key_generation.rs 832-849; the share is wiped when it is dropped
      (src/dkg/secret_share.rs 58-62) *)
  Fixpoint t_encrypt_all (my_index : u32) (dh_sk : F) (coeffs : list F)
      (ps : list Participant) (acc : bmap EncShare) (r : Rng) : traced (result (bmap EncShare * Rng)) :=
    match ps with
    | [] => let+ _ := test false in pure (Ok (acc, r))
    | p :: ps' =>
        let+ _ := test true in
        let+ share := t_evaluate_polynomial my_index (pt_index p) coeffs in
        let+ dh_key := does GMul (pt_dh_pk p * dh_sk)%G in
        let+ key_bytes := does Write (enc_point dh_key) in
        let+ x := t_encrypt_share share key_bytes r in
        match x with
        | Ok (e, r') =>
            let+ _ := test true in
            let+ _ := does Wipe tt in
            t_encrypt_all my_index dh_sk coeffs ps' (binsert (pt_index p) e acc) r'
        | Err e => let+ _ := test false in does Wipe (Err e)
        | Panic => pure Panic
        end
    end.

  (** decrypt_share, src/dkg/secret_share.rs 334-361 *)
  Definition t_decrypt_share (e : EncShare) (key_bytes : list byte) : traced (result SecretShare) :=
    let+ key := does (Kdf (length key_bytes)) (hkdf key_bytes) in
    let+ p := does (Unseal (length (es_ct e))) (aead_dec key (nonce_bytes (es_nonce e)) (es_ct e)) in
    match p with
    | None => let+ _ := test false in pure (Err DecryptionError)
    | Some bytes =>
        let+ _ := test true in
        let+ d := does (Read (length bytes)) (dec_scalar bytes) in
        match d with
        | None => let+ _ := test false in pure (Err DecompressionError)
        | Some (v, _) => let+ _ := test true in pure (Ok (MkShare (es_sender e) (es_receiver e) v))
        end
    end.
  (** Complaint::new, src/dkg/complaint.rs 40-91 *)
  Definition t_complaint_new (accused_pk : G) (dh_sk : F) (shared : G) (e : EncShare) (r : Rng) : traced (Complaint * Rng) :=
    let (k, r') := rand_scalar r in
    let+ k := does Sample k in
    let+ a1 := does GMul (gen * k)%G in
    let+ a2 := does GMul (accused_pk * k)%G in
    let+ pk := does GMul (gen * dh_sk)%G in
    let+ msg := does Write (complaint_message pk accused_pk shared a1 a2 e) in
    let+ h := does (Hash (length msg)) (sha256_h2f complaint_tag msg) in
    let+ p := does FMul (h * dh_sk)%F in
    let+ z := does FAdd (k + p)%F in
    pure (MkComplaint shared pk e (MkCProof a1 a2 z), r').
  (** SecretShare::verify, src/dkg/secret_share.rs 92-107; evaluate_hiding has public arguments *)
  Definition t_share_verify (s : SecretShare) (c : Vss) : traced bool :=
    let+ lhs := does GMul (gen * sh_value s)%G in
    let rhs := evaluate_hiding c (of_u32 (sh_receiver s)) in
    let+ lhs := does GAffine lhs in
    let+ b := does GEqual (Geqb lhs rhs) in
    test b.
  (** the inner loop of to_round_two, src/dkg/key_generation.rs 953-977 *)
  Fixpoint t_check_share (sender : u32) (d : result SecretShare) (comms : bmap Vss) : traced bool :=
    match comms with
    | [] => let+ _ := test false in pure false
    | (i, c) :: rest =>
        let+ _ := test true in
        let+ b := test (u32_eqb i sender) in
        if b then
          match d with
          | Ok s =>
              let+ _ := test true in
              let+ good := t_share_verify s c in
              if good then t_check_share sender d rest else pure true
          | _ => let+ _ := test false in pure true
          end
        else t_check_share sender d rest
    end.
  (** the share loop of to_round_two, src/dkg/key_generation.rs 928-984 *)
  Fixpoint t_round_two_loop (m : build) (st : DkgState) (es : list EncShare)
      (shares : bmap SecretShare) (complaints : list Complaint) (r : Rng)
    : traced (result (bmap SecretShare * list Complaint * Rng)) :=
    match es with
    | [] => let+ _ := test false in pure (Ok (shares, complaints, r))
    | e :: es' =>
        let+ _ := test true in
        let+ b := test (is_debug m && negb (u32_eqb (es_receiver e) (ds_index st))) in
        if b then pure Panic
        else
          match bget (es_sender e) (ds_dhs st) with
          | None => let+ _ := test false in pure (Err invalid_indices_error)
          | Some pk =>
              let+ _ := test true in
              let+ shared := does GMul (pk * ds_dh_sk st)%G in
              let+ key_bytes := does Write (enc_point shared) in
              let+ d := t_decrypt_share e key_bytes in
              match ds_comms st with
              | None => let+ _ := test false in pure Panic
              | Some comms =>
                  let+ _ := test true in
                  let+ bad := t_check_share (es_sender e) d comms in
                  let+ (complaints', r') :=
                    (if bad
                     then let+ (c, r1) := t_complaint_new pk (ds_dh_sk st) shared e r in pure (complaints ++ [c], r1)
                     else pure (complaints, r)) in
                  match d with
                  | Ok s => let+ _ := test true in t_round_two_loop m st es' (binsert (sh_sender s) s shares) complaints' r'
                  | _ => let+ _ := test false in t_round_two_loop m st es' shares complaints' r'
                  end
              end
          end
    end.
  (** to_round_two, src/dkg/key_generation.rs 903-1000 *)
  Definition t_to_round_two (m : build) (s : RoundOne) (es : list EncShare) (r : Rng)
    : traced (result (RoundTwo * list Complaint * Rng)) :=
    let st := st1 s in
    let st := MkState (ds_params st) (ds_index st) (ds_dh_sk st) (ds_dh_pk st)
                (ds_comms st) (ds_dhs st) None (ds_shares st) in
    let+ b := test (N.ltb (N.of_nat (length es)) (u32v (p_t (ds_params st)))) in
    if b then pure (Err MissingShares)
    else
      let+ x := t_round_two_loop m st es [] [] r in
      match x with
      | Ok (shares, complaints, r') =>
          let y := let* rem := u32_sub m (p_n (ds_params st)) (u32_of_N (N.of_nat (length complaints))) in
            if u32_ltb rem (p_t (ds_params st)) then Err (ComplaintErr complaints)
            else
              Ok (R2 (MkState (ds_params st) (ds_index st) (ds_dh_sk st) (ds_dh_pk st)
                        (ds_comms st) (ds_dhs st) (ds_enc st) (Some shares)), complaints, r') in
          let+ _ := test (is_ok y) in pure y
      | Err e => pure (Err e)
      | Panic => pure Panic
      end.

  (** the loop of calculate_signing_key with the wiping of each share, src/dkg/key_generation.rs 1033-1042 *)
  Fixpoint t_signing_key_loop (idx : list u32) (shares : bmap SecretShare) (key : F) : traced (result F) :=
    match shares with
    | [] => let+ _ := test false in pure (Ok key)
    | (i, s) :: rest =>
        let+ _ := test true in
        match lagrange i idx with
        | Ok c =>
            let+ _ := test true in
            let+ p := does FMul (sh_value s * c)%F in
            let+ key := does FAdd (key + p)%F in
            let+ key := does Wipe key in
            t_signing_key_loop idx rest key
        | Err e => let+ _ := test false in pure (Err (Custom (error_to_string e)))
        | Panic => pure Panic
        end
    end.
  (** calculate_signing_key, src/dkg/key_generation.rs 1022-1048 *)
  Definition t_calculate_signing_key (st : DkgState) : traced (result SigningKey) :=
    match ds_shares st with
    | None => let+ _ := test false in pure Panic
    | Some shares =>
        let+ _ := test true in
        let+ x := t_signing_key_loop (bkeys shares) shares F0 in
        match x with
        | Ok key => pure (Ok (MkSK (ds_index st) key))
        | Err e => pure (Err e)
        | Panic => pure Panic
        end
    end.

  (** nonce_generate, src/sign/precomputation.rs 24-35 *)
  Definition t_nonce_generate (k : SigningKey) (r : Rng) : traced (F * Rng) :=
    let (b, r') := rand_bytes hash_len r in
    let+ b := does (Draw hash_len) b in
    let+ msg := does Write (b ++ ser_signing_key k) in
    let+ x := does (Hash (length msg)) (h3 msg) in
    pure (x, r').
  (** NoncePair::new and the conversion, src/sign/precomputation.rs 40-74; the nonce pair is wiped when it is dropped *)
  Definition t_share_new (k : SigningKey) (r : Rng) : traced (CommitmentShare * Rng) :=
    let+ (d, r1) := t_nonce_generate k r in
    let+ (e, r2) := t_nonce_generate k r1 in
    let+ D := does GMul (gen * d)%G in
    let+ E := does GMul (gen * e)%G in
    does Wipe (MkCS (MkCom d D) (MkCom e E), r2).
  (** the loop of generate_commitment_share_lists, src/sign/precomputation.rs 186-191 *)
  Fixpoint t_gen_shares (k : SigningKey) (n : nat) (r : Rng) : traced (list CommitmentShare * Rng) :=
    match n with
    | O => let+ _ := test false in pure ([], r)
    | Datatypes.S n' =>
        let+ _ := test true in
        let+ (c, r1) := t_share_new k r in
        let+ (l, r2) := t_gen_shares k n' r1 in
        pure (c :: l, r2)
    end.
  (** generate_commitment_share_lists, src/sign/precomputation.rs 179-206 *)
  Definition t_generate_lists (r : Rng) (k : SigningKey) (n : nat) : traced (PublicList * SecretList * Rng) :=
    let+ (l, r') := t_gen_shares k n r in
    pure (MkPubList (sk_index k) (map publish l), MkSecList l, r').

  (** PartialEq for Commitment, src/sign/precomputation.rs 102-106: [&] evaluates both sides *)
  Definition t_com_eq (a b : Commitment) : traced bool :=
    let+ x := does FEq (Feqb (co_secret a) (co_secret b)) in
    let+ p := does GAffine (co_commit a) in
    let+ q := does GAffine (co_commit b) in
    let+ y := does GEqual (Geqb p q) in
    pure (x && y).
  (** PartialEq for CommitmentShare, src/sign/precomputation.rs 130-134 *)
  Definition t_cs_eq (a b : CommitmentShare) : traced bool :=
    let+ x := t_com_eq (cs_hiding a) (cs_hiding b) in
    let+ y := t_com_eq (cs_binding a) (cs_binding b) in
    pure (x && y).
  (** the search loop of drop_share, src/sign/precomputation.rs 218-222 *)
  Fixpoint t_find_last (c : CommitmentShare) (l : list CommitmentShare) (i : nat) (found : option nat) : traced (option nat) :=
    match l with
    | [] => let+ _ := test false in pure found
    | s :: l' =>
        let+ _ := test true in
        let+ e := t_cs_eq s c in
        let+ b := test e in
        t_find_last c l' (i + 1) (if b then Some i else found)
    end.
  (** drop_share, src/sign/precomputation.rs 211-227: [Vec::remove] moves the elements behind the removed one *)
  Definition t_drop_share (l : SecretList) (c : CommitmentShare) : traced SecretList :=
    let+ f := t_find_last c (sl_commitments l) 0 None in
    let+ l' := match f with
               | Some i =>
                   let+ _ := test true in
                   let+ x := does (Shift (length (sl_commitments l) - i - 1)) (remove_at (sl_commitments l) i) in
                   does Wipe (MkSecList x)
               | None => let+ _ := test false in pure l
               end in
    does Wipe l'.
  (** sign, src/sign/signature.rs 303-341. The binding factors, the group commitment, the Lagrange coefficient and the
      challenge are computed from public data (317-331); their success is tested. *)
  Definition t_sign (m : build) (k : SigningKey) (message_hash : list byte) (group_key : G)
      (l : SecretList) (idx : N) (signers : list Signer) : traced (result PartialSig * SecretList) :=
    match usize_succ m idx with
    | Panic => pure (Panic, l)
    | Err e => pure (Err e, l)
    | Ok idx1 =>
    let+ b := test (N.ltb (N.of_nat (length (sl_commitments l))) idx1) in
    if b then pure (Err MissingCommitmentShares, l) else
    let publics := let* bf := compute_binding_factors message_hash signers in
      let* rho := binding_factor_for_participant (sk_index k) bf in
      let* R := compute_group_commitment signers bf in
      let* lambda := lagrange (sk_index k) (map sg_index signers) in
      Ok (rho, R, lambda) in
    match publics with
    | Panic => let+ _ := test false in pure (Panic, l)
    | Err e => let+ _ := test false in pure (Err e, l)
    | Ok (rho, R, lambda) =>
        let+ _ := test true in
        match nthN (sl_commitments l) idx with
        | None => let+ _ := test false in pure (Panic, l)
        | Some cs =>
            let+ _ := test true in
            let+ cs := does Copy cs in
            let c := compute_challenge R group_key message_hash in
            let+ x := does FMul (co_secret (cs_binding cs) * rho)%F in
            let+ y := does FAdd (co_secret (cs_hiding cs) + x)%F in
            let+ u := does FMul (lambda * sk_key k)%F in
            let+ v := does FMul (u * c)%F in
            let+ z := does FAdd (y + v)%F in
            let+ l' := t_drop_share l cs in
            pure (Ok (MkPSig (sk_index k) z), l')
        end
    end
    end.
End Trace.
