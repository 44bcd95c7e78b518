(** The work of each call: beside its value, each function returns how many multiplications of a point by a scalar it
    makes (an msm of k terms counts as k) and how many bytes it passes to the hash functions of the ciphersuite (H0 to H5
    and the hash of the complaints). Not counted: operations of the field, additions of points, the key derivation and the
    encryption of the shares, the arithmetic inside the libraries. One count per call of the source. *)
From Coq Require Import String Strings.Byte Arith NArith Bool List.
From Verif Require Import Base Suite Types ModelDkg ModelSign.
Import ListNotations.

(** multiplications and hashed bytes, e.g. src/dkg/nizkpok.rs 66-81 *)
Record work := Work { wk_mul : nat; wk_hash : nat }.
(** the work of two statements, e.g. src/dkg/nizkpok.rs 66-81 *)
Definition wplus (a b : work) : work := Work (wk_mul a + wk_mul b) (wk_hash a + wk_hash b).
(** a value with the work that led to it, e.g. src/dkg/nizkpok.rs 66-81 *)
Definition counted (A : Type) := (A * work)%type.
(** sequencing of statements, e.g. src/dkg/nizkpok.rs 66-90 *)
Definition cbind {A B} (x : counted A) (f : A -> counted B) : counted B :=
  let (a, w) := x in let (b, w') := f a in (b, wplus w w').
(** a value without counted work, e.g. src/dkg/key_generation.rs 714-718 *)
Definition free {A} (a : A) : counted A := (a, Work 0 0).
Notation "'let+' x ':=' e 'in' k" := (cbind e (fun x => k))
  (at level 200, x pattern, e at level 100, k at level 200, right associativity).

Section Cost.
  Context {S : Suite}.

  (** the [?] operator, e.g. src/sign/signature.rs 315 *)
  Definition rbind {A B} (x : counted (result A)) (f : A -> counted (result B)) : counted (result B) :=
    let+ r := x in match r with Ok a => f a | Err e => free (Err e) | Panic => free Panic end.
  (** one multiplication, e.g. src/dkg/nizkpok.rs 49 *)
  Definition mulG (p : G) (x : F) : counted G := ((p * x)%G, Work 1 0).
  (** the value of a hash of a message, e.g. src/dkg/nizkpok.rs 58 *)
  Definition hashing {A} (msg : list byte) (v : A) : counted A := (v, Work 0 (length msg)).
End Cost.
Notation "'let!' x ':=' e 'in' k" := (rbind e (fun x => k))
  (at level 200, x pattern, e at level 100, k at level 200, right associativity).

Section Calls.
  Context {S : Suite}.

  (** loop of evaluate_hiding, src/dkg/secret_share.rs 265-272, src/keys.rs 109-115, 166-172 *)
  Fixpoint c_hiding_loop (x : F) (len k : nat) (rev_points : list G) (sum : G) : counted G :=
    match rev_points with
    | [] => free sum
    | c :: cs =>
        let sum := (sum + c)%G in
        let+ sum := (if negb (Nat.eqb k (len - 1)) then mulG sum x else free sum) in
        c_hiding_loop x len (k + 1) cs sum
    end.
  (** evaluate_hiding, src/dkg/secret_share.rs 261-275 *)
  Definition c_evaluate_hiding (c : Vss) (x : F) : counted G :=
    c_hiding_loop x (length (vss_points c)) 0 (rev (vss_points c)) Gzero.
  (** SecretShare::verify, src/dkg/secret_share.rs 92-107 *)
  Definition c_share_verify (s : SecretShare) (c : Vss) : counted (result unit) :=
    let+ lhs := mulG gen (sh_value s) in
    let+ rhs := c_evaluate_hiding c (of_u32 (sh_receiver s)) in
    free (if Geqb lhs rhs then Ok tt else Err ShareVerificationError).

  (** prove, src/dkg/nizkpok.rs 42-62 *)
  Definition c_nizk_prove (index : u32) (sk : F) (pk : G) (r : Rng) : counted (Nizk * Rng) :=
    let (k, r') := rand_scalar r in
    let+ m := mulG gen k in
    let+ s := hashing (nizk_message index pk m) (h0 (nizk_message index pk m)) in
    free (MkNizk s (k + sk * s)%F, r').
  (** verify, src/dkg/nizkpok.rs 65-90 *)
  Definition c_nizk_verify (p : Nizk) (index : u32) (pk : G) : counted (result unit) :=
    let+ a := mulG gen (nz_r p) in
    let+ b := mulG pk (- nz_s p)%F in
    let m := (a + b)%G in
    let+ s' := hashing (nizk_message index pk m) (h0 (nizk_message index pk m)) in
    free (if Feqb (nz_s p) s' then Ok tt else Err InvalidProofOfKnowledge).

  (** Complaint::new, src/dkg/complaint.rs 40-91 *)
  Definition c_complaint_new (accused_pk : G) (dh_sk : F) (shared : G) (e : EncShare) (r : Rng) : counted (Complaint * Rng) :=
    let (k, r') := rand_scalar r in
    let+ a1 := mulG gen k in
    let+ a2 := mulG accused_pk k in
    let+ pk := mulG gen dh_sk in
    let msg := complaint_message pk accused_pk shared a1 a2 e in
    let+ h := hashing msg (sha256_h2f complaint_tag msg) in
    free (MkComplaint shared pk e (MkCProof a1 a2 (k + h * dh_sk)%F), r').
  (** Complaint::verify, src/dkg/complaint.rs 99-139 *)
  Definition c_complaint_verify (c : Complaint) (pk_l : G) : counted (result unit) :=
    let p := c_proof c in
    let msg := complaint_message (c_pk c) pk_l (c_shared c) (cp_a1 p) (cp_a2 p) (c_share c) in
    let+ h := hashing msg (sha256_h2f complaint_tag msg) in
    let+ x := mulG (c_pk c) h in
    let+ y := mulG gen (cp_z p) in
    if negb (Geqb (cp_a1 p + x)%G y) then free (Err ComplaintVerificationError)
    else
      let+ x := mulG (c_shared c) h in
      let+ y := mulG pk_l (cp_z p) in
      if negb (Geqb (cp_a2 p + x)%G y) then free (Err ComplaintVerificationError) else free (Ok tt).

  (** the commitment to the coefficients, src/dkg/participant.rs 190-193 *)
  Fixpoint c_commit (l : list F) : counted (list G) :=
    match l with
    | [] => free []
    | a :: l' => let+ p := mulG gen a in let+ ps := c_commit l' in free (p :: ps)
    end.
  (** new_internal, src/dkg/participant.rs 128-220 *)
  Definition c_new_internal (p : Params) (is_signer : bool) (index : u32) (secret : option F) (r : Rng)
    : counted (result (Participant * option (list F) * F * Rng)) :=
    if u32_eqb index u32_zero then free (Err IndexIsZero)
    else
      let t := u32_nat (p_t p) in
      let (dh_sk, r1) := rand_scalar r in
      let+ dh_pk := mulG gen dh_sk in
      let+ (dh_proof, r2) := c_nizk_prove index dh_sk dh_pk r1 in
      if is_signer then free (Ok (MkPart index dh_pk None None dh_proof, None, dh_sk, r2))
      else
        let (a0, r3) := match secret with Some sk => (sk, r2) | None => rand_scalar r2 end in
        let (rest, r4) := rand_scalars (t - 1) r3 in
        let coeffs := a0 :: rest in
        let+ points := c_commit (firstn t coeffs) in
        let comm := MkVss index points in
        match vss_public_key comm with
        | None => free Panic
        | Some pk =>
            let+ (sk_proof, r5) := c_nizk_prove index a0 pk r4 in
            free (Ok (MkPart index dh_pk (Some comm) (Some sk_proof) dh_proof, Some coeffs, dh_sk, r5))
        end.
  (** new_dealer, src/dkg/participant.rs 81-93 *)
  Definition c_new_dealer (p : Params) (index : u32) (r : Rng) : counted (result (Participant * list F * F * Rng)) :=
    let! (dealer, co, dh_sk, r') := c_new_internal p false index None r in
    match co with Some c => free (Ok (dealer, c, dh_sk, r')) | None => free Panic end.
  (** new_signer, src/dkg/participant.rs 118-126 *)
  Definition c_new_signer (p : Params) (index : u32) (r : Rng) : counted (result (Participant * F * Rng)) :=
    let! (signer, _, dh_sk, r') := c_new_internal p true index None r in
    free (Ok (signer, dh_sk, r')).

  (** one iteration of the checking loop, src/dkg/key_generation.rs 731-781 *)
  Definition c_check_one (m : build) (params : Params) (from_dealer from_signer : bool) (p : Participant) (a : Acc)
    : counted (result Acc) :=
    let+ v := c_nizk_verify (pt_dh_proof p) (pt_index p) (pt_dh_pk p) in
    if is_ok v then
      if from_signer then
        match part_public_key p with
        | None => free (Ok (acc_flag a p))
        | Some pk =>
            match pt_sk_proof p with
            | None => free Panic
            | Some pr =>
                let+ w := c_nizk_verify pr (pt_index p) pk in
                free (if is_ok w then
                  match pt_comm p with
                  | None => Panic
                  | Some c =>
                      if from_dealer && negb (is_ok (check_degree c params))
                      then Ok (acc_flag a p)
                      else Ok (MkAcc (binsert (pt_index p) c (acc_comms a))
                                     (binsert (pt_index p) (pt_dh_pk p) (acc_dhs a))
                                     (acc_valid a ++ [p]) (acc_mis a))
                  end
                else Ok (acc_flag a p))
            end
        end
      else free (if is_debug m && negb from_dealer then Panic
      else Ok (MkAcc (acc_comms a)
                     (binsert (pt_index p) (pt_dh_pk p) (acc_dhs a))
                     (acc_valid a ++ [p]) (acc_mis a)))
    else free (Ok (acc_flag a p)).
  (** the checking loop, src/dkg/key_generation.rs 731-781 *)
  Fixpoint c_check_all (m : build) (params : Params) (from_dealer from_signer : bool) (ps : list Participant) (a : Acc)
    : counted (result Acc) :=
    match ps with
    | [] => free (Ok a)
    | p :: ps' => let! a' := c_check_one m params from_dealer from_signer p a in c_check_all m params from_dealer from_signer ps' a'
    end.
  (** the share encryption loop, src/dkg/key_generation.rs 832-849 *)
  Fixpoint c_encrypt_all (my_index : u32) (dh_sk : F) (coeffs : option (list F)) (ps : list Participant)
      (acc : bmap EncShare) (r : Rng) : counted (result (bmap EncShare * Rng)) :=
    match ps with
    | [] => free (Ok (acc, r))
    | p :: ps' =>
        match coeffs with
        | None => free Panic
        | Some cs =>
            let share := evaluate_polynomial my_index (pt_index p) cs in
            let+ dh_key := mulG (pt_dh_pk p) dh_sk in
            let! (e, r') := free (encrypt_share share (enc_point dh_key) r) in
            c_encrypt_all my_index dh_sk coeffs ps' (binsert (pt_index p) e acc) r'
        end
    end.
  (** new_state_internal, src/dkg/key_generation.rs 704-886 *)
  Definition c_new_state_internal (m : build) (params : Params) (dh_sk : F) (my_index : u32)
      (coeffs : option (list F)) (ps : list Participant) (from_dealer from_signer : bool) (r : Rng)
    : counted (result (RoundOne * PartList * Rng)) :=
    let+ dh_pk := mulG gen dh_sk in
    if negb (N.eqb (N.of_nat (length ps)) (u32v (p_n params)))
    then free (Err (InvalidNumberOfParticipants (length ps) (p_n params)))
    else
      let! a := c_check_all m params from_dealer from_signer ps (MkAcc [] [] [] []) in
      if N.ltb (N.of_nat (length (acc_valid a))) (u32v (p_t params))
      then free (Err (TooManyInvalidParticipants (acc_mis a)))
      else if negb from_dealer && from_signer then
        free (let* n' := u32_sub m (p_n params) (u32_of_N (N.of_nat (length (acc_mis a)))) in
        let* params' := params_new m n' (p_t params) in
        Ok (R1 (MkState params' my_index dh_sk dh_pk (Some (acc_comms a)) (acc_dhs a) None None),
            MkPList (acc_valid a) (opt_list (acc_mis a)), r))
      else
        let! (es, r') := c_encrypt_all my_index dh_sk coeffs ps [] r in
        free (let* n' := u32_sub m (p_n params) (u32_of_N (N.of_nat (length (acc_mis a)))) in
        let* params' := params_new m n' (p_t params) in
        Ok (R1 (MkState params' my_index dh_sk dh_pk
                  (if from_signer then Some (acc_comms a) else None)
                  (acc_dhs a) (Some es) None),
            MkPList (acc_valid a) (opt_list (acc_mis a)), r')).
  (** bootstrap, src/dkg/key_generation.rs 640-658 *)
  Definition c_bootstrap (m : build) (params : Params) (dh_sk : F) (my_index : u32) (coeffs : list F) (ps : list Participant) (r : Rng) :=
    c_new_state_internal m params dh_sk my_index (Some coeffs) ps true true r.
  (** new, src/dkg/key_generation.rs 684-701 *)
  Definition c_dkg_new (m : build) (params : Params) (dh_sk : F) (my_index : u32) (dealers : list Participant) (r : Rng) :=
    c_new_state_internal m params dh_sk my_index None dealers false true r.
  (** reshare, src/dkg/participant.rs 244-281 *)
  Definition c_reshare (m : build) (params : Params) (sk : SigningKey) (signers : list Participant) (r : Rng)
    : counted (result (Participant * bmap EncShare * PartList * Rng)) :=
    let! (dealer, co, dh_sk, r1) := c_new_internal params false (sk_index sk) (Some (sk_key sk)) r in
    match co with
    | None => free Panic
    | Some coeffs =>
        let! (st, lists, r2) := c_new_state_internal m params dh_sk (sk_index sk) (Some coeffs) signers true false r1 in
        free (let* es := their_encrypted_secret_shares st in Ok (dealer, es, lists, r2))
    end.

  (** the inner loop over the commitments: the share is verified against those of its sender until it fails,
      src/dkg/key_generation.rs 953-977 *)
  Fixpoint c_check_share (sender : u32) (d : result SecretShare) (comms : list (u32 * Vss)) : counted bool :=
    match comms with
    | [] => free false
    | (k, c) :: rest =>
        if u32_eqb k sender then
          let+ bad := match d with
                      | Ok s => let+ v := c_share_verify s c in free (negb (is_ok v))
                      | _ => free true
                      end in
          if bad then free true else c_check_share sender d rest
        else c_check_share sender d rest
    end.
  (** the share loop of to_round_two, src/dkg/key_generation.rs 928-984 *)
  Fixpoint c_round_two_loop (m : build) (st : DkgState) (es : list EncShare)
      (shares : bmap SecretShare) (complaints : list Complaint) (r : Rng)
    : counted (result (bmap SecretShare * list Complaint * Rng)) :=
    match es with
    | [] => free (Ok (shares, complaints, r))
    | e :: es' =>
        if is_debug m && negb (u32_eqb (es_receiver e) (ds_index st)) then free Panic
        else
          match bget (es_sender e) (ds_dhs st) with
          | None => free (Err invalid_indices_error)
          | Some pk =>
              let+ shared := mulG pk (ds_dh_sk st) in
              let d := decrypt_share e (enc_point shared) in
              match ds_comms st with
              | None => free Panic
              | Some comms =>
                  let+ bad := c_check_share (es_sender e) d comms in
                  let+ (complaints', r') :=
                    (if bad
                     then let+ (c, r1) := c_complaint_new pk (ds_dh_sk st) shared e r in free (complaints ++ [c], r1)
                     else free (complaints, r)) in
                  let shares' := match d with Ok s => binsert (sh_sender s) s shares | _ => shares end in
                  c_round_two_loop m st es' shares' complaints' r'
              end
          end
    end.
  (** to_round_two, src/dkg/key_generation.rs 903-1000 *)
  Definition c_to_round_two (m : build) (s : RoundOne) (es : list EncShare) (r : Rng)
    : counted (result (RoundTwo * list Complaint * Rng)) :=
    let st := st1 s in
    let st := MkState (ds_params st) (ds_index st) (ds_dh_sk st) (ds_dh_pk st)
                (ds_comms st) (ds_dhs st) None (ds_shares st) in
    if N.ltb (N.of_nat (length es)) (u32v (p_t (ds_params st))) then free (Err MissingShares)
    else
      let! (shares, complaints, r') := c_round_two_loop m st es [] [] r in
      free (let* rem := u32_sub m (p_n (ds_params st)) (u32_of_N (N.of_nat (length complaints))) in
      if u32_ltb rem (p_t (ds_params st)) then Err (ComplaintErr complaints)
      else
        Ok (R2 (MkState (ds_params st) (ds_index st) (ds_dh_sk st) (ds_dh_pk st)
                  (ds_comms st) (ds_dhs st) (ds_enc st) (Some shares)), complaints, r')).

  (** loop of calculate_group_key, src/dkg/key_generation.rs 1068-1080 *)
  Fixpoint c_group_key_loop (idx : list u32) (comms : bmap Vss) (key : G) : counted (result G) :=
    match comms with
    | [] => free (Ok key)
    | (i, c) :: rest =>
        let! co := free (lagrange i idx) in
        match vss_public_key c with
        | None => free Panic
        | Some pk => let+ x := mulG pk co in c_group_key_loop idx rest (key + x)%G
        end
    end.
  (** finish, src/dkg/key_generation.rs 1012-1083 *)
  Definition c_finish (s : RoundTwo) : counted (result (G * SigningKey)) :=
    let! sk := free (calculate_signing_key (st2 s)) in
    let! gk := match ds_comms (st2 s) with
               | None => free (Err InvalidGroupKey)
               | Some comms => c_group_key_loop (bkeys comms) comms Gzero
               end in
    free (Ok (gk, sk)).

  (** one iteration of the complaint loop of blame, src/dkg/key_generation.rs 1118-1169 *)
  Definition c_blame_one (st : DkgState) (c : Complaint) : counted (result u32) :=
    let accused := es_sender (c_share c) in
    let maker := es_receiver (c_share c) in
    if u32_eqb accused u32_zero || u32_ltb (p_n (ds_params st)) accused then free (Ok maker)
    else
      match ds_comms st with
      | None => free Panic
      | Some comms =>
          match bget accused comms with
          | None => free (Ok maker)
          | Some com =>
              let pk_accused := match bget accused (ds_dhs st) with Some pk => pk | None => Gzero end in
              let+ v := c_complaint_verify c pk_accused in
              if negb (is_ok v) then free (Ok maker)
              else
                match decrypt_share (c_share c) (enc_point (c_shared c)) with
                | Ok s => let+ w := c_share_verify s com in free (if is_ok w then Ok maker else Ok accused)
                | _ => free (Ok accused)
                end
          end
      end.
  (** complaint loop of blame, src/dkg/key_generation.rs 1116-1169 *)
  Fixpoint c_blame_loop (st : DkgState) (cs : list Complaint) (pending : list u32) : counted (result (list u32)) :=
    match cs with
    | [] => free (Ok pending)
    | c :: cs' => let! v := c_blame_one st c in c_blame_loop st cs' (pending ++ [v])
    end.
  (** blame, src/dkg/key_generation.rs 1097-1184 *)
  Definition c_blame (s : RoundTwo) (cs : list Complaint) : counted (result (list G * RoundTwo)) :=
    let! pending := c_blame_loop (st2 s) cs [] in
    let pending := dedup_by (fun x => x) (sort_by (fun x => x) pending) in
    free (let* st' := remove_all (st2 s) pending in
    Ok (lookup_all (ds_dhs st') pending, R2 st')).

  (** src/keys.rs 107-124 *)
  Fixpoint c_ivk_verify_loop (x : F) (idx : list u32) (cs : list Vss) (rhs : G) : counted (result G) :=
    match cs with
    | [] => free (Ok rhs)
    | c :: cs' =>
        let+ tmp := c_hiding_loop x (length (vss_points c)) 0 (rev (vss_points c)) Gzero in
        match lagrange (vss_index c) idx with
        | Ok co => let+ y := mulG tmp co in c_ivk_verify_loop x idx cs' (rhs + y)%G
        | Err e => free (Err (Custom (error_to_string e)))
        | Panic => free Panic
        end
    end.
  (** IndividualVerifyingKey::verify, src/keys.rs 95-131 *)
  Definition c_ivk_verify (k : VerifyingKey) (cs : list Vss) : counted (result unit) :=
    let! rhs := c_ivk_verify_loop (of_u32 (vk_index k)) (map vss_index cs) cs Gzero in
    free (if Geqb (vk_share k) rhs then Ok tt else Err ShareVerificationError).

  (** src/keys.rs 164-176 *)
  Fixpoint c_ivk_generate_loop (x : F) (idx : list u32) (cs : list Vss) (share : G) : counted (result G) :=
    match cs with
    | [] => free (Ok share)
    | c :: cs' =>
        let+ tmp := c_hiding_loop x (length (vss_points c)) 0 (rev (vss_points c)) Gzero in
        let! co := free (lagrange (vss_index c) idx) in
        let+ y := mulG tmp co in
        c_ivk_generate_loop x idx cs' (share + y)%G
    end.
  (** generate_from_commitments, src/keys.rs 152-182 *)
  Definition c_ivk_generate (i : u32) (cs : list Vss) : counted (result VerifyingKey) :=
    let! share := c_ivk_generate_loop (of_u32 i) (map vss_index cs) cs Gzero in
    free (Ok (MkVK i share)).

  (** nonce_generate, src/sign/precomputation.rs 24-35 *)
  Definition c_nonce_generate (k : SigningKey) (r : Rng) : counted (F * Rng) :=
    let (b, r') := rand_bytes hash_len r in
    let+ x := hashing (b ++ ser_signing_key k) (h3 (b ++ ser_signing_key k)) in
    free (x, r').
  (** loop of generate_commitment_share_lists, src/sign/precomputation.rs 47-74, 186-191 *)
  Fixpoint c_gen_shares (k : SigningKey) (n : nat) (r : Rng) : counted (list CommitmentShare * Rng) :=
    match n with
    | O => free ([], r)
    | Datatypes.S n' =>
        let+ (d, r1) := c_nonce_generate k r in
        let+ (e, r2) := c_nonce_generate k r1 in
        let+ x := mulG gen d in
        let+ y := mulG gen e in
        let+ (l, r3) := c_gen_shares k n' r2 in
        free (MkCS (MkCom d x) (MkCom e y) :: l, r3)
    end.
  (** generate_commitment_share_lists, src/sign/precomputation.rs 179-206 *)
  Definition c_generate_lists (r : Rng) (k : SigningKey) (n : nat) : counted (PublicList * SecretList * Rng) :=
    let+ (l, r') := c_gen_shares k n r in
    free (MkPubList (sk_index k) (map publish l), MkSecList l, r').

  (** insertion loop of compute_binding_factors, src/sign/signature.rs 189-195 *)
  Fixpoint c_binding_loop (prefix : list byte) (l : list (u32 * G * G)) (acc : bmap F) : counted (bmap F) :=
    match l with
    | [] => free acc
    | (i, _, _) :: l' =>
        let+ x := hashing (prefix ++ u32_le i) (h1 (prefix ++ u32_le i)) in
        c_binding_loop prefix l' (binsert i x acc)
    end.
  (** compute_binding_factors, src/sign/signature.rs 169-198 *)
  Definition c_compute_binding_factors (message : list byte) (signers : list Signer) : counted (result (bmap F)) :=
    let cl := commitment_list signers in
    let+ hm := hashing message (h4 message) in
    let! enc := free (encode_group_commitment_list cl) in
    let+ hc := hashing enc (h5 enc) in
    let+ bf := c_binding_loop (hm ++ hc) cl [] in
    free (Ok bf).
  (** commitment_for_participant, src/sign/signature.rs 210-240 *)
  Definition c_commitment_for_participant (i : u32) (message : list byte) (signers : list Signer) : counted (result G) :=
    let (hiding, binding) := pair_of i signers (Gzero, Gzero) in
    let+ hm := hashing message (h4 message) in
    let! enc := free (encode_group_commitment_list (commitment_list signers)) in
    let+ hc := hashing enc (h5 enc) in
    let+ rho := hashing (hm ++ hc ++ u32_le i) (h1 (hm ++ hc ++ u32_le i)) in
    let+ x := mulG binding rho in
    free (Ok (hiding + x)%G).
  (** compute_group_commitment, src/sign/signature.rs 242-259 *)
  Fixpoint c_group_commitment_loop (signers : list Signer) (bf : bmap F) (acc : G) : counted (result G) :=
    match signers with
    | [] => free (Ok acc)
    | s :: l =>
        let! rho := free (binding_factor_for_participant (sg_index s) bf) in
        let+ x := mulG (snd (sg_com s)) rho in
        c_group_commitment_loop l bf (acc + (fst (sg_com s) + x))%G
    end.
  (** compute_challenge, src/sign/signature.rs 261-278 *)
  Definition c_challenge (R pk : G) (message_hash : list byte) : counted F :=
    hashing (challenge_input R pk message_hash) (compute_challenge R pk message_hash).

  (** sign, src/sign/signature.rs 303-341 *)
  Definition c_sign (m : build) (k : SigningKey) (message_hash : list byte) (group_key : G)
      (l : SecretList) (idx : N) (signers : list Signer) : counted (result PartialSig * SecretList) :=
    match usize_succ m idx with
    | Panic => free (Panic, l)
    | Err e => free (Err e, l)
    | Ok idx1 =>
    if N.ltb (N.of_nat (length (sl_commitments l))) idx1 then free (Err MissingCommitmentShares, l)
    else
      let+ x :=
        (let! bf := c_compute_binding_factors message_hash signers in
         let! rho := free (binding_factor_for_participant (sk_index k) bf) in
         let! R := c_group_commitment_loop signers bf Gzero in
         let! lambda := free (lagrange (sk_index k) (map sg_index signers)) in
         match nthN (sl_commitments l) idx with
         | None => free Panic
         | Some cs =>
             let+ c := c_challenge R group_key message_hash in
             free (Ok (cs, MkPSig (sk_index k) (co_secret (cs_hiding cs) + co_secret (cs_binding cs) * rho + lambda * sk_key k * c)%F))
         end) in
      free (match x with
            | Ok (cs, p) => (Ok p, drop_share l cs)
            | Err e => (Err e, l)
            | Panic => (Panic, l)
            end)
    end.

  (** ThresholdSignature::verify and GroupVerifyingKey::verify_signature, src/sign/signature.rs 693-711, src/keys.rs 247-265 *)
  Definition c_sig_verify (s : ThresholdSig) (group_key : G) (message_hash : list byte) : counted (result unit) :=
    let+ c := c_challenge (ts_R s) group_key message_hash in
    let+ a := mulG gen (ts_z s) in
    let+ b := mulG (- group_key)%G c in
    free (if Geqb (ts_R s) (a + b)%G then Ok tt else Err InvalidSignature).

  (** finalize, src/sign/signature.rs 554-591: the message is hashed at the end *)
  Definition c_finalize (a : AggInitial) : counted (result AggFinal) :=
    match finalize a with
    | Ok f => hashing (ai_message a) (Ok f)
    | Err e => free (Err e)
    | Panic => free Panic
    end.

  (** blaming loop of aggregate, src/sign/signature.rs 646-681 *)
  Fixpoint c_find_bad (st : AggState) (message_hash : list byte) (c : F) (idx : list u32)
      (signers : list Signer) (mis : list u32) : counted (result (list u32)) :=
    match signers with
    | [] => free (Ok mis)
    | s :: l =>
        let i := sg_index s in
        let! lambda := free (lagrange i idx) in
        match bget i (ag_partials st) with
        | None => free Panic
        | Some p =>
        match bget i (ag_keys st) with
        | None => free Panic
        | Some pk =>
            let+ check := mulG gen p in
            let! R_i := c_commitment_for_participant i message_hash (ag_signers st) in
            let+ x := mulG pk (c * lambda)%F in
            let bad := negb (Geqb check (R_i + x)%G) in
            c_find_bad st message_hash c idx l (if bad then mis ++ [i] else mis)
        end end
    end.
  (** aggregate, src/sign/signature.rs 602-684 *)
  Definition c_aggregate (a : AggFinal) : counted (result ThresholdSig) :=
    let st := af_state a in
    let! bf := c_compute_binding_factors (af_hash a) (ag_signers st) in
    let! R := c_group_commitment_loop (ag_signers st) bf Gzero in
    let+ c := c_challenge R (ag_group_key st) (af_hash a) in
    let! z := free (sum_partials (ag_partials st) (ag_signers st) F0) in
    let sig := MkTSig R z in
    let+ v := c_sig_verify sig (ag_group_key st) (af_hash a) in
    if is_ok v then free (Ok sig)
    else
      let! mis := c_find_bad st (af_hash a) c (map sg_index (ag_signers st)) (ag_signers st) [] in
      free (Err (MisbehavingParticipants mis)).
End Calls.
