(** FROST signing as written in RFC 9591 (sections 4.1 to 4.6, 5.1 to 5.4), as functions over the operations of a suite.
    What the library does differently is a parameter, the [profile]. Nothing of the model is used but its data types and the
    raw hash functions of the suite. *)
From Coq Require Import String Strings.Byte NArith Bool List.
From Verif Require Import Base Suite Types.
Import ListNotations.

Section Rfc.
  Context {S : Suite}.

  (** RFC 9591: the labels of the five hash functions, what precedes the hash of the message in the input of a binding
      factor, how identifiers and the secret are written, and how many random bytes go into a nonce *)
  Record profile := MkProfile {
    pf_rho : string; pf_chal : string; pf_nonce : string; pf_msg : string; pf_com : string;
    pf_prefix : G -> list byte; pf_id : u32 -> list byte; pf_secret : u32 -> F -> list byte; pf_random : nat }.
  (** sections 6.1 to 6.5, 4.1, 4.3 and 4.4: group key, identifiers as scalars, the secret alone, 32 bytes *)
  Definition rfc9591 : profile :=
    MkProfile "rho" "chal" "nonce" "msg" "com" enc_point (fun i => enc_scalar (of_u32 i)) (fun _ sk => enc_scalar sk) 32.
  (** other labels, no group key, identifiers as four bytes, least significant first, the secret after its identifier, as
      many random bytes as a hash has *)
  Definition this_library : profile :=
    MkProfile "rho" "challenge" "nonce" "message" "commitment" (fun _ => []) u32_le (fun i sk => u32_le i ++ enc_scalar sk) hash_len.

  Context (pf : profile).

  (** 6.5 *)
  Definition rfc_H1 (m : list byte) : F := inner_h2f (context_string ++ bytes_of_string (pf_rho pf)) m.
  Definition rfc_H2 (m : list byte) : F := inner_h2f (context_string ++ bytes_of_string (pf_chal pf)) m.
  Definition rfc_H3 (m : list byte) : F := inner_h2f (context_string ++ bytes_of_string (pf_nonce pf)) m.
  Definition rfc_H4 (m : list byte) : list byte := inner_digest (context_string ++ bytes_of_string (pf_msg pf) ++ m).
  Definition rfc_H5 (m : list byte) : list byte := inner_digest (context_string ++ bytes_of_string (pf_com pf) ++ m).

  (** 4.1 *)
  Definition rfc_nonce_generate (i : u32) (sk : F) (r : Rng) : F * Rng :=
    let (random_bytes, r') := rand_bytes (pf_random pf) r in (rfc_H3 (random_bytes ++ pf_secret pf i sk), r').
  (** 4.2: the loop over L *)
  Fixpoint rfc_fractions (L : list u32) (x_i : u32) (numerator denominator : F) : F * F :=
    match L with
    | [] => (numerator, denominator)
    | x_j :: L' => if u32_eqb x_j x_i then rfc_fractions L' x_i numerator denominator
                   else rfc_fractions L' x_i (numerator * of_u32 x_j)%F (denominator * (of_u32 x_j - of_u32 x_i))%F
    end.
  (** some identifier is there twice *)
  Fixpoint rfc_repeated (L : list u32) : bool :=
    match L with [] => false | x :: L' => existsb (u32_eqb x) L' || rfc_repeated L' end.
  (** 4.2 *)
  Definition rfc_derive_interpolating_value (L : list u32) (x_i : u32) : option F :=
    if negb (existsb (u32_eqb x_i) L) then None
    else if rfc_repeated L then None
    else let (n, d) := rfc_fractions L x_i F1 F1 in Some (n * Finv d)%F.

  (** 4.3: an entry of the list of commitments: identifier, hiding and binding nonce commitment *)
  Definition entry := (u32 * G * G)%type.
  Definition rfc_encode_group_commitment_list (cl : list entry) : list byte :=
    flat_map (fun '(i, hiding, binding) => pf_id pf i ++ enc_point hiding ++ enc_point binding) cl.
  Definition rfc_participants (cl : list entry) : list u32 := map (fun '(i, _, _) => i) cl.
  (** 4.4, with 4.3's lookup: the factor of one identifier *)
  Definition rfc_binding_factor (gpk : G) (cl : list entry) (msg : list byte) (i : u32) : F :=
    rfc_H1 (pf_prefix pf gpk ++ rfc_H4 msg ++ rfc_H5 (rfc_encode_group_commitment_list cl) ++ pf_id pf i).
  (** 4.5 *)
  Definition rfc_group_commitment (gpk : G) (cl : list entry) (msg : list byte) : G :=
    fold_left (fun c '(i, hiding, binding) => (c + (hiding + binding * rfc_binding_factor gpk cl msg i))%G) cl Gzero.
  (** 4.6 *)
  Definition rfc_challenge (R gpk : G) (msg : list byte) : F := rfc_H2 (enc_point R ++ enc_point gpk ++ msg).
  (** 5.1 *)
  Definition rfc_commit (i : u32) (sk : F) (r : Rng) : F * F * (G * G) * Rng :=
    let (hiding_nonce, r1) := rfc_nonce_generate i sk r in
    let (binding_nonce, r2) := rfc_nonce_generate i sk r1 in
    (hiding_nonce, binding_nonce, ((gen * hiding_nonce)%G, (gen * binding_nonce)%G), r2).
  (** 5.2 *)
  Definition rfc_sign (i : u32) (sk : F) (gpk : G) (hiding_nonce binding_nonce : F) (msg : list byte) (cl : list entry) : option F :=
    match rfc_derive_interpolating_value (rfc_participants cl) i with
    | None => None
    | Some lambda =>
        let rho := rfc_binding_factor gpk cl msg i in
        let c := rfc_challenge (rfc_group_commitment gpk cl msg) gpk msg in
        Some (hiding_nonce + binding_nonce * rho + lambda * sk * c)%F
    end.
  (** 5.3 *)
  Definition rfc_aggregate (gpk : G) (cl : list entry) (msg : list byte) (shares : list F) : G * F :=
    (rfc_group_commitment gpk cl msg, fold_left (fun z z_i => (z + z_i)%F) shares F0).
  (** 5.4: [entry] is the one of the signer *)
  Definition rfc_verify_share (e : entry) (pk_i : G) (z_i : F) (cl : list entry) (gpk : G) (msg : list byte) : bool :=
    let '(i, hiding, binding) := e in
    match rfc_derive_interpolating_value (rfc_participants cl) i with
    | None => false
    | Some lambda =>
        let c := rfc_challenge (rfc_group_commitment gpk cl msg) gpk msg in
        Geqb (gen * z_i)%G ((hiding + binding * rfc_binding_factor gpk cl msg i) + pk_i * (c * lambda)%F)%G
    end.
  (** appendix B *)
  Definition rfc_verify (msg : list byte) (R : G) (z : F) (pk : G) : bool :=
    Geqb (gen * z)%G (R + pk * rfc_challenge R pk msg)%G.
End Rfc.
