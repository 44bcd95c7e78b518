(** Model of parameters.rs, utils.rs, ciphersuite.rs, keys.rs and dkg/*.rs. *)
From Coq Require Import String Strings.Byte NArith Bool List.
From Verif Require Import Base Suite Types.
Import ListNotations.

Section Model.
  Context {S : Suite}.

  (** ThresholdParameters::new, src/parameters.rs 31-43 *)
  Definition params_new (m : build) (n t : u32) : result Params :=
    if is_debug m && (u32_eqb n u32_zero || u32_eqb t u32_zero || u32_ltb n t) then Panic
    else if u32_eqb n u32_zero || u32_eqb t u32_zero || u32_ltb n t
    then Err InvalidThresholdParams
    else Ok (MkParams n t).

  (** The loop of calculate_lagrange_coefficients, src/utils.rs 63-71 *)
  Fixpoint lagrange_loop (i : u32) (l : list u32) (num den : F) : F * F :=
    match l with
    | [] => (num, den)
    | j :: l' =>
        if u32_eqb j i then lagrange_loop i l' num den
        else lagrange_loop i l' (num * of_u32 j)%F (den * (of_u32 j - of_u32 i))%F
    end.

  (** src/utils.rs 50 *)
  Definition dup_error : Error := Custom "Duplicate indices provided".

  (** calculate_lagrange_coefficients, src/utils.rs 42-77 *)
  Definition lagrange (i : u32) (all : list u32) : result F :=
    let sorted := dedup_by (fun x => x) (sort_by (fun x => x) all) in
    if negb (Nat.eqb (length sorted) (length all)) then Err dup_error
    else if existsb (u32_eqb u32_zero) sorted then Err IndexIsZero
    else
      let (num, den) := lagrange_loop i sorted F1 F1 in
      match Finverse den with
      | Some x => Ok (num * x)%F
      | None => Err dup_error
      end.

  (** hash_to_field / hash_to_array, src/utils.rs 79-99, and the oracles of
      src/ciphersuite.rs 56-116 *)
  Definition tag (s : string) : list byte := context_string ++ bytes_of_string s.
  (** src/ciphersuite.rs 56-58 *)
  Definition h0 (msg : list byte) : F := inner_h2f (tag "nizkpok") msg.
  (** src/ciphersuite.rs 67-69 *)
  Definition h1 (msg : list byte) : F := inner_h2f (tag "rho") msg.
  (** src/ciphersuite.rs 78-80 *)
  Definition h2 (msg : list byte) : F := inner_h2f (tag "challenge") msg.
  (** src/ciphersuite.rs 89-91 *)
  Definition h3 (msg : list byte) : F := inner_h2f (tag "nonce") msg.
  (** src/ciphersuite.rs 103-105 *)
  Definition h4 (msg : list byte) : list byte := inner_digest (tag "message" ++ msg).
  (** src/ciphersuite.rs 114-116 *)
  Definition h5 (msg : list byte) : list byte := inner_digest (tag "commitment" ++ msg).

  (** ** dkg/secret_share.rs *)

  (** The Horner loop of evaluate_polynomial, src/dkg/secret_share.rs 75-82
      ([k] is the enumeration counter, [len] the number of coefficients). *)
  Fixpoint eval_loop (x : F) (len k : nat) (rev_coeffs : list F) (sum : F) : F :=
    match rev_coeffs with
    | [] => sum
    | c :: cs =>
        let sum := (sum + c)%F in
        let sum := if negb (Nat.eqb k (len - 1)) then (sum * x)%F else sum in
        eval_loop x len (k + 1) cs sum
    end.

  (** SecretShare::evaluate_polynomial, src/dkg/secret_share.rs 66-88 *)
  Definition evaluate_polynomial (sender receiver : u32) (coeffs : list F) : SecretShare :=
    MkShare sender receiver
      (eval_loop (of_u32 receiver) (length coeffs) 0 (rev coeffs) F0).

  (** VerifiableSecretSharingCommitment::public_key, src/dkg/secret_share.rs 252-258 *)
  Definition vss_public_key (c : Vss) : option G :=
    match vss_points c with [] => None | P :: _ => Some P end.

  (** loop of evaluate_hiding, src/dkg/secret_share.rs 265-272 (also keys.rs 109-115, 166-172) *)
  Fixpoint hiding_loop (x : F) (len k : nat) (rev_points : list G) (sum : G) : G :=
    match rev_points with
    | [] => sum
    | c :: cs =>
        let sum := (sum + c)%G in
        let sum := if negb (Nat.eqb k (len - 1)) then (sum * x)%G else sum in
        hiding_loop x len (k + 1) cs sum
    end.

  (** evaluate_hiding, src/dkg/secret_share.rs 261-275 *)
  Definition evaluate_hiding (c : Vss) (x : F) : G :=
    hiding_loop x (length (vss_points c)) 0 (rev (vss_points c)) Gzero.

  (** SecretShare::verify, src/dkg/secret_share.rs 92-107 *)
  Definition share_verify (s : SecretShare) (c : Vss) : result unit :=
    let lhs := (gen * sh_value s)%G in
    let rhs := evaluate_hiding c (of_u32 (sh_receiver s)) in
    if Geqb lhs rhs then Ok tt else Err ShareVerificationError.

  (** check_degree, src/dkg/secret_share.rs 279-285 *)
  Definition check_degree (c : Vss) (p : Params) : result unit :=
    if negb (N.eqb (N.of_nat (length (vss_points c))) (u32v (p_t p)))
    then Err InvalidCommitmentLength else Ok tt.

  (** [Cipher::generate_nonce], src/dkg/secret_share.rs 307: a fixed-size array filled by the rng
      (padding/truncation never acts for a generator obeying the length law). *)
  Definition pad (k : nat) (l : list byte) : list byte := firstn k (l ++ repeat x00 k).
  Lemma pad_length k l : Nat.eqb (length (pad k l)) k = true.
  Proof.
    apply PeanoNat.Nat.eqb_eq. unfold pad. rewrite firstn_length, app_length, repeat_length.
    apply PeanoNat.Nat.min_l. apply PeanoNat.Nat.le_add_l.
  Qed.
  (** src/dkg/secret_share.rs 307 *)
  Definition gen_nonce (r : Rng) : Nonce * Rng :=
    let (b, r') := rand_bytes nonce_len r in
    (MkNonce (pad nonce_len b) (pad_length nonce_len b), r').

  (** encrypt_share, src/dkg/secret_share.rs 294-326 *)
  Definition encrypt_share (s : SecretShare) (key_bytes : list byte) (r : Rng)
    : result (EncShare * Rng) :=
    let key := hkdf key_bytes in
    let (nonce, r') := gen_nonce r in
    match aead_enc key (nonce_bytes nonce) (enc_scalar (sh_value s)) with
    | None => Err EncryptionError
    | Some ct => Ok (MkEnc (sh_sender s) (sh_receiver s) nonce ct, r')
    end.

  (** decrypt_share, src/dkg/secret_share.rs 334-361 *)
  Definition decrypt_share (e : EncShare) (key_bytes : list byte) : result SecretShare :=
    let key := hkdf key_bytes in
    match aead_dec key (nonce_bytes (es_nonce e)) (es_ct e) with
    | None => Err DecryptionError
    | Some bytes =>
        match dec_scalar bytes with
        | None => Err DecompressionError
        | Some (v, _) => Ok (MkShare (es_sender e) (es_receiver e) v)
        end
    end.

  (** CanonicalSerialize for EncryptedSecretShare, src/dkg/secret_share.rs 161-176:
      two u32, the nonce as a Vec<u8> and the ciphertext as a Vec<u8> (u64 length prefix) *)
  Definition enc_bytes (l : list byte) : list byte :=
    le_bytes 8 (N.of_nat (length l)) ++ l.
  (** src/dkg/secret_share.rs 161-176 *)
  Definition ser_encshare (e : EncShare) : list byte :=
    u32_le (es_sender e) ++ u32_le (es_receiver e) ++
    enc_bytes (nonce_bytes (es_nonce e)) ++ enc_bytes (es_ct e).

  (** ** dkg/nizkpok.rs *)

  (** message hashed at src/dkg/nizkpok.rs 51-56, 75-81 *)
  Definition nizk_message (index : u32) (pk m : G) : list byte :=
    u32_le index ++ enc_point pk ++ enc_point m.

  (** prove, src/dkg/nizkpok.rs 42-62 *)
  Definition nizk_prove (index : u32) (sk : F) (pk : G) (r : Rng) : Nizk * Rng :=
    let (k, r') := rand_scalar r in
    let m := (gen * k)%G in
    let s := h0 (nizk_message index pk m) in
    (MkNizk s (k + sk * s)%F, r').

  (** verify, src/dkg/nizkpok.rs 65-90 *)
  Definition nizk_verify (p : Nizk) (index : u32) (pk : G) : result unit :=
    let m := (gen * nz_r p + pk * (- nz_s p)%F)%G in
    let s' := h0 (nizk_message index pk m) in
    if Feqb (nz_s p) s' then Ok tt else Err InvalidProofOfKnowledge.

  (** ** dkg/complaint.rs *)

  (** hash input, src/dkg/complaint.rs 58-79, 104-128 *)
  Definition complaint_message (pk_maker pk_accused shared a1 a2 : G) (e : EncShare) : list byte :=
    enc_point pk_maker ++ enc_point pk_accused ++ enc_point shared ++
    enc_point a1 ++ enc_point a2 ++ ser_encshare e.
  (** src/dkg/complaint.rs 53, 101 *)
  Definition complaint_tag : list byte := bytes_of_string "Complaint Context".

  (** Complaint::new, src/dkg/complaint.rs 40-91 *)
  Definition complaint_new (accused_pk : G) (dh_sk : F) (shared : G) (e : EncShare) (r : Rng)
    : Complaint * Rng :=
    let (k, r') := rand_scalar r in
    let a1 := (gen * k)%G in
    let a2 := (accused_pk * k)%G in
    let pk := (gen * dh_sk)%G in
    let h := sha256_h2f complaint_tag (complaint_message pk accused_pk shared a1 a2 e) in
    (MkComplaint shared pk e (MkCProof a1 a2 (k + h * dh_sk)%F), r').

  (** Complaint::verify, src/dkg/complaint.rs 99-139 *)
  Definition complaint_verify (c : Complaint) (pk_l : G) : result unit :=
    let p := c_proof c in
    let h := sha256_h2f complaint_tag
               (complaint_message (c_pk c) pk_l (c_shared c) (cp_a1 p) (cp_a2 p) (c_share c)) in
    if negb (Geqb (cp_a1 p + c_pk c * h)%G (gen * cp_z p)%G)
    then Err ComplaintVerificationError
    else if negb (Geqb (cp_a2 p + c_shared c * h)%G (pk_l * cp_z p)%G)
    then Err ComplaintVerificationError
    else Ok tt.

  (** ** dkg/participant.rs *)

  (** sampling loop, src/dkg/participant.rs 180-182 *)
  Fixpoint rand_scalars (k : nat) (r : Rng) : list F * Rng :=
    match k with
    | O => ([], r)
    | Datatypes.S k' =>
        let (a, r1) := rand_scalar r in
        let (l, r2) := rand_scalars k' r1 in
        (a :: l, r2)
    end.

  (** the cast [as usize], src/dkg/participant.rs 143 *)
  Definition u32_nat (x : u32) : nat := N.to_nat (u32v x).

  (** new_internal, src/dkg/participant.rs 128-220. The commitment loop 189-193 pushes
      g*coefficients[j] for j in 0..t; for t = 0 the vector stays empty and 202-204 panics. *)
  Definition new_internal (p : Params) (is_signer : bool) (index : u32) (secret : option F) (r : Rng)
    : result (Participant * option (list F) * F * Rng) :=
    if u32_eqb index u32_zero then Err IndexIsZero
    else
      let t := u32_nat (p_t p) in
      let (dh_sk, r1) := rand_scalar r in
      let dh_pk := (gen * dh_sk)%G in
      let (dh_proof, r2) := nizk_prove index dh_sk dh_pk r1 in
      if is_signer then
        Ok (MkPart index dh_pk None None dh_proof, None, dh_sk, r2)
      else
        let (a0, r3) := match secret with
                        | Some sk => (sk, r2)
                        | None => rand_scalar r2
                        end in
        let (rest, r4) := rand_scalars (t - 1) r3 in
        let coeffs := a0 :: rest in
        let comm := MkVss index (map (fun a => (gen * a)%G) (firstn t coeffs)) in
        match vss_public_key comm with
        | None => Panic
        | Some pk =>
            let (sk_proof, r5) := nizk_prove index a0 pk r4 in
            Ok (MkPart index dh_pk (Some comm) (Some sk_proof) dh_proof, Some coeffs, dh_sk, r5)
        end.

  (** new_dealer, src/dkg/participant.rs 81-93 *)
  Definition new_dealer (p : Params) (index : u32) (r : Rng)
    : result (Participant * list F * F * Rng) :=
    let* (dealer, co, dh_sk, r') := new_internal p false index None r in
    match co with
    | Some c => Ok (dealer, c, dh_sk, r')
    | None => Panic
    end.

  (** new_signer, src/dkg/participant.rs 118-126 *)
  Definition new_signer (p : Params) (index : u32) (r : Rng)
    : result (Participant * F * Rng) :=
    let* (signer, _, dh_sk, r') := new_internal p true index None r in
    Ok (signer, dh_sk, r').

  (** Participant::public_key, src/dkg/participant.rs 286-288 *)
  Definition part_public_key (p : Participant) : option G :=
    match pt_comm p with None => None | Some c => vss_public_key c end.

  (** ** dkg/key_generation.rs, round one *)

  (** local variables of new_state_internal, src/dkg/key_generation.rs 714-718 *)
  Record Acc := MkAcc {
    acc_comms : bmap Vss; acc_dhs : bmap G;
    acc_valid : list Participant; acc_mis : list u32 }.

  (** [misbehaving_participants.push(p.index)], src/dkg/key_generation.rs 741, 760, 768, 779 *)
  Definition acc_flag (a : Acc) (p : Participant) : Acc :=
    MkAcc (acc_comms a) (acc_dhs a) (acc_valid a) (acc_mis a ++ [pt_index p]).

  (** the tests of [Ok(())] and [is_ok()], src/dkg/key_generation.rs 733-734, 751 *)
  Definition is_ok {A} (x : result A) : bool := match x with Ok _ => true | _ => false end.

  (** one iteration of the checking loop, src/dkg/key_generation.rs 731-781 *)
  Definition check_one (m : build) (params : Params) (from_dealer from_signer : bool)
      (p : Participant) (a : Acc) : result Acc :=
    if is_ok (nizk_verify (pt_dh_proof p) (pt_index p) (pt_dh_pk p)) then
      if from_signer then
        match part_public_key p with
        | None => Ok (acc_flag a p)
        | Some pk =>
            match pt_sk_proof p with
            | None => Panic
            | Some pr =>
                if is_ok (nizk_verify pr (pt_index p) pk) then
                  match pt_comm p with
                  | None => Panic
                  | Some c =>
                      if from_dealer && negb (is_ok (check_degree c params))
                      then Ok (acc_flag a p)
                      else Ok (MkAcc (binsert (pt_index p) c (acc_comms a))
                                     (binsert (pt_index p) (pt_dh_pk p) (acc_dhs a))
                                     (acc_valid a ++ [p]) (acc_mis a))
                  end
                else Ok (acc_flag a p)
            end
        end
      else if is_debug m && negb from_dealer then Panic
      else Ok (MkAcc (acc_comms a)
                     (binsert (pt_index p) (pt_dh_pk p) (acc_dhs a))
                     (acc_valid a ++ [p]) (acc_mis a))
    else Ok (acc_flag a p).

  (** the checking loop, src/dkg/key_generation.rs 731-781 *)
  Fixpoint check_all (m : build) (params : Params) (from_dealer from_signer : bool)
      (ps : list Participant) (a : Acc) : result Acc :=
    match ps with
    | [] => Ok a
    | p :: ps' =>
        let* a' := check_one m params from_dealer from_signer p a in
        check_all m params from_dealer from_signer ps' a'
    end.

  (** the share encryption loop, src/dkg/key_generation.rs 832-849 *)
  Fixpoint encrypt_all (my_index : u32) (dh_sk : F) (coeffs : option (list F))
      (ps : list Participant) (acc : bmap EncShare) (r : Rng) : result (bmap EncShare * Rng) :=
    match ps with
    | [] => Ok (acc, r)
    | p :: ps' =>
        match coeffs with
        | None => Panic
        | Some cs =>
            let share := evaluate_polynomial my_index (pt_index p) cs in
            let dh_key := (pt_dh_pk p * dh_sk)%G in
            let* (e, r') := encrypt_share share (enc_point dh_key) r in
            encrypt_all my_index dh_sk coeffs ps' (binsert (pt_index p) e acc) r'
        end
    end.

  (** src/dkg/key_generation.rs 879-883 *)
  Definition opt_list (l : list u32) : option (list u32) :=
    match l with [] => None | _ => Some l end.

  (** new_state_internal, src/dkg/key_generation.rs 704-886 *)
  Definition new_state_internal (m : build) (params : Params) (dh_sk : F) (my_index : u32)
      (coeffs : option (list F)) (ps : list Participant) (from_dealer from_signer : bool) (r : Rng)
    : result (RoundOne * PartList * Rng) :=
    let dh_pk := (gen * dh_sk)%G in
    if negb (N.eqb (N.of_nat (length ps)) (u32v (p_n params)))
    then Err (InvalidNumberOfParticipants (length ps) (p_n params))
    else
      let* a := check_all m params from_dealer from_signer ps (MkAcc [] [] [] []) in
      if N.ltb (N.of_nat (length (acc_valid a))) (u32v (p_t params))
      then Err (TooManyInvalidParticipants (acc_mis a))
      else if negb from_dealer && from_signer then
        let* n' := u32_sub m (p_n params) (u32_of_N (N.of_nat (length (acc_mis a)))) in
        let* params' := params_new m n' (p_t params) in
        Ok (R1 (MkState params' my_index dh_sk dh_pk (Some (acc_comms a)) (acc_dhs a) None None),
            MkPList (acc_valid a) (opt_list (acc_mis a)), r)
      else
        let* (es, r') := encrypt_all my_index dh_sk coeffs ps [] r in
        let* n' := u32_sub m (p_n params) (u32_of_N (N.of_nat (length (acc_mis a)))) in
        let* params' := params_new m n' (p_t params) in
        Ok (R1 (MkState params' my_index dh_sk dh_pk
                  (if from_signer then Some (acc_comms a) else None)
                  (acc_dhs a) (Some es) None),
            MkPList (acc_valid a) (opt_list (acc_mis a)), r').

  (** bootstrap, src/dkg/key_generation.rs 640-658 *)
  Definition bootstrap (m : build) (params : Params) (dh_sk : F) (my_index : u32)
      (coeffs : list F) (ps : list Participant) (r : Rng) : result (RoundOne * PartList * Rng) :=
    new_state_internal m params dh_sk my_index (Some coeffs) ps true true r.

  (** new, src/dkg/key_generation.rs 684-701 *)
  Definition dkg_new (m : build) (params : Params) (dh_sk : F) (my_index : u32)
      (dealers : list Participant) (r : Rng) : result (RoundOne * PartList * Rng) :=
    new_state_internal m params dh_sk my_index None dealers false true r.

  (** their_encrypted_secret_shares, src/dkg/key_generation.rs 890-897 *)
  Definition their_encrypted_secret_shares (s : RoundOne) : result (bmap EncShare) :=
    match ds_enc (st1 s) with Some x => Ok x | None => Err NoEncryptedShares end.

  (** reshare, src/dkg/participant.rs 244-281 *)
  Definition reshare (m : build) (params : Params) (sk : SigningKey) (signers : list Participant) (r : Rng)
    : result (Participant * bmap EncShare * PartList * Rng) :=
    let* (dealer, co, dh_sk, r1) := new_internal params false (sk_index sk) (Some (sk_key sk)) r in
    match co with
    | None => Panic
    | Some coeffs =>
        let* (st, lists, r2) :=
          new_state_internal m params dh_sk (sk_index sk) (Some coeffs) signers true false r1 in
        let* es := their_encrypted_secret_shares st in
        Ok (dealer, es, lists, r2)
    end.

  (** ** dkg/key_generation.rs, round two *)

  (** src/dkg/key_generation.rs 982 *)
  Definition invalid_indices_error : Error :=
    Custom "to_round_two() was called with encrypted secret shares containing invalid indices".

  (** "the decrypted share is incorrect" test, src/dkg/key_generation.rs 959-965 *)
  Definition bad_share (d : result SecretShare) (c : Vss) : bool :=
    match d with
    | Ok s => negb (is_ok (share_verify s c))
    | _ => true
    end.

  (** the share loop of to_round_two, src/dkg/key_generation.rs 928-984.
      The inner loop 953-977 over the commitment map pushes a complaint for the first entry
      with the sender's index and a bad share, then stops. *)
  Fixpoint round_two_loop (m : build) (st : DkgState) (es : list EncShare)
      (shares : bmap SecretShare) (complaints : list Complaint) (r : Rng)
    : result (bmap SecretShare * list Complaint * Rng) :=
    match es with
    | [] => Ok (shares, complaints, r)
    | e :: es' =>
        if is_debug m && negb (u32_eqb (es_receiver e) (ds_index st)) then Panic
        else
          match bget (es_sender e) (ds_dhs st) with
          | None => Err invalid_indices_error
          | Some pk =>
              let shared := (pk * ds_dh_sk st)%G in
              let d := decrypt_share e (enc_point shared) in
              match ds_comms st with
              | None => Panic
              | Some comms =>
                  let (complaints', r') :=
                    match find (fun kc => u32_eqb (fst kc) (es_sender e) && bad_share d (snd kc)) comms with
                    | Some _ =>
                        let (c, r1) := complaint_new pk (ds_dh_sk st) shared e r in
                        (complaints ++ [c], r1)
                    | None => (complaints, r)
                    end in
                  let shares' := match d with
                                 | Ok s => binsert (sh_sender s) s shares
                                 | _ => shares
                                 end in
                  round_two_loop m st es' shares' complaints' r'
              end
          end
    end.

  (** to_round_two, src/dkg/key_generation.rs 903-1000 *)
  Definition to_round_two (m : build) (s : RoundOne) (es : list EncShare) (r : Rng)
    : result (RoundTwo * list Complaint * Rng) :=
    let st := st1 s in
    let st := MkState (ds_params st) (ds_index st) (ds_dh_sk st) (ds_dh_pk st)
                (ds_comms st) (ds_dhs st) None (ds_shares st) in
    if N.ltb (N.of_nat (length es)) (u32v (p_t (ds_params st))) then Err MissingShares
    else
      let* (shares, complaints, r') := round_two_loop m st es [] [] r in
      let* rem := u32_sub m (p_n (ds_params st)) (u32_of_N (N.of_nat (length complaints))) in
      if u32_ltb rem (p_t (ds_params st)) then Err (ComplaintErr complaints)
      else
        Ok (R2 (MkState (ds_params st) (ds_index st) (ds_dh_sk st) (ds_dh_pk st)
                  (ds_comms st) (ds_dhs st) (ds_enc st) (Some shares)), complaints, r').

  (** loop of calculate_signing_key, src/dkg/key_generation.rs 1033-1042 *)
  Fixpoint signing_key_loop (idx : list u32) (shares : bmap SecretShare) (key : F) : result F :=
    match shares with
    | [] => Ok key
    | (i, s) :: rest =>
        match lagrange i idx with
        | Ok c => signing_key_loop idx rest (key + sh_value s * c)%F
        | Err e => Err (Custom (error_to_string e))
        | Panic => Panic
        end
    end.

  (** calculate_signing_key, src/dkg/key_generation.rs 1022-1048 *)
  Definition calculate_signing_key (st : DkgState) : result SigningKey :=
    match ds_shares st with
    | None => Panic
    | Some shares =>
        let* key := signing_key_loop (bkeys shares) shares F0 in
        Ok (MkSK (ds_index st) key)
    end.

  (** loop of calculate_group_key, src/dkg/key_generation.rs 1068-1080 *)
  Fixpoint group_key_loop (idx : list u32) (comms : bmap Vss) (key : G) : result G :=
    match comms with
    | [] => Ok key
    | (i, c) :: rest =>
        let* co := lagrange i idx in
        match vss_public_key c with
        | None => Panic
        | Some pk => group_key_loop idx rest (key + pk * co)%G
        end
    end.

  (** calculate_group_key, src/dkg/key_generation.rs 1055-1083 *)
  Definition calculate_group_key (st : DkgState) : result G :=
    match ds_comms st with
    | None => Err InvalidGroupKey
    | Some comms => group_key_loop (bkeys comms) comms Gzero
    end.

  (** finish, src/dkg/key_generation.rs 1012-1017 *)
  Definition finish (s : RoundTwo) : result (G * SigningKey) :=
    let* sk := calculate_signing_key (st2 s) in
    let* gk := calculate_group_key (st2 s) in
    Ok (gk, sk).

  (** verdict of one iteration of the complaint loop of blame, src/dkg/key_generation.rs 1118-1169:
      the index pushed onto pending_removals (always the maker or the accused) *)
  Definition blame_one (st : DkgState) (c : Complaint) : result u32 :=
    let accused := es_sender (c_share c) in
    let maker := es_receiver (c_share c) in
    if u32_eqb accused u32_zero || u32_ltb (p_n (ds_params st)) accused then Ok maker
    else
      match ds_comms st with
      | None => Panic
      | Some comms =>
          match bget accused comms with
          | None => Ok maker
          | Some com =>
              let pk_accused := match bget accused (ds_dhs st) with
                                | Some pk => pk
                                | None => Gzero
                                end in
              if negb (is_ok (complaint_verify c pk_accused)) then Ok maker
              else
                match decrypt_share (c_share c) (enc_point (c_shared c)) with
                | Ok s => if is_ok (share_verify s com) then Ok maker else Ok accused
                | _ => Ok accused
                end
          end
      end.

  (** complaint loop of blame, src/dkg/key_generation.rs 1116-1169 *)
  Fixpoint blame_loop (st : DkgState) (cs : list Complaint) (pending : list u32) : result (list u32) :=
    match cs with
    | [] => Ok pending
    | c :: cs' =>
        let* v := blame_one st c in
        blame_loop st cs' (pending ++ [v])
    end.

  (** remove_malicious, src/dkg/key_generation.rs 1098-1114 *)
  Definition remove_malicious (st : DkgState) (i : u32) : result DkgState :=
    match ds_comms st, ds_shares st with
    | Some comms, Some shares =>
        Ok (MkState (ds_params st) (ds_index st) (ds_dh_sk st) (ds_dh_pk st)
              (Some (bremove i comms)) (ds_dhs st) (ds_enc st) (Some (bremove i shares)))
    | _, _ => Panic
    end.

  (** removal loop of blame, src/dkg/key_generation.rs 1174-1176 *)
  Fixpoint remove_all (st : DkgState) (l : list u32) : result DkgState :=
    match l with
    | [] => Ok st
    | i :: l' => let* st' := remove_malicious st i in remove_all st' l'
    end.

  (** lookup of the returned keys, src/dkg/key_generation.rs 1178-1183 *)
  Fixpoint lookup_all (m : bmap G) (l : list u32) : list G :=
    match l with
    | [] => []
    | i :: l' => match bget i m with
                 | Some k => k :: lookup_all m l'
                 | None => lookup_all m l'
                 end
    end.

  (** blame, src/dkg/key_generation.rs 1097-1184 *)
  Definition blame (s : RoundTwo) (cs : list Complaint) : result (list G * RoundTwo) :=
    let* pending := blame_loop (st2 s) cs [] in
    let pending := dedup_by (fun x => x) (sort_by (fun x => x) pending) in
    let* st' := remove_all (st2 s) pending in
    Ok (lookup_all (ds_dhs st') pending, R2 st').

  (** ** keys.rs *)

  (** Loop shared (textually) by IndividualVerifyingKey::verify and
      generate_from_commitments, src/keys.rs 107-124 and 164-176: modelled twice below
      because the error handling differs. *)
  Fixpoint ivk_verify_loop (x : F) (idx : list u32) (cs : list Vss) (rhs : G) : result G :=
    match cs with
    | [] => Ok rhs
    | c :: cs' =>
        let tmp := hiding_loop x (length (vss_points c)) 0 (rev (vss_points c)) Gzero in
        match lagrange (vss_index c) idx with
        | Ok co => ivk_verify_loop x idx cs' (rhs + tmp * co)%G
        | Err e => Err (Custom (error_to_string e))
        | Panic => Panic
        end
    end.

  (** IndividualVerifyingKey::verify, src/keys.rs 95-131 *)
  Definition ivk_verify (k : VerifyingKey) (cs : list Vss) : result unit :=
    let* rhs := ivk_verify_loop (of_u32 (vk_index k)) (map vss_index cs) cs Gzero in
    if Geqb (vk_share k) rhs then Ok tt else Err ShareVerificationError.

  (** src/keys.rs 164-176 *)
  Fixpoint ivk_generate_loop (x : F) (idx : list u32) (cs : list Vss) (share : G) : result G :=
    match cs with
    | [] => Ok share
    | c :: cs' =>
        let tmp := hiding_loop x (length (vss_points c)) 0 (rev (vss_points c)) Gzero in
        let* co := lagrange (vss_index c) idx in
        ivk_generate_loop x idx cs' (share + tmp * co)%G
    end.

  (** generate_from_commitments, src/keys.rs 152-182 *)
  Definition ivk_generate (i : u32) (cs : list Vss) : result VerifyingKey :=
    let* share := ivk_generate_loop (of_u32 i) (map vss_index cs) cs Gzero in
    Ok (MkVK i share).

  (** from_single_key, src/keys.rs 207-209 *)
  Definition from_single_key (k : F) : SigningKey := MkSK (u32_of_N 1) k.

  (** to_public, src/keys.rs 212-219 *)
  Definition to_public (k : SigningKey) : VerifyingKey := MkVK (sk_index k) (gen * sk_key k)%G.
End Model.
