(** Model of the text of errors: [Display] for Error, src/error.rs 69-141. The formatting macros are those of the
    Rust core library: unsigned integers in decimal, [{:?}] of a vector in brackets, [{:?}] of a string quoted and
    escaped. Simplified: bytes from 0x80 on (characters outside ASCII) are printed unchanged. The [Debug] text of a
    complaint depends on external formatters and is an argument. *)
From Coq Require Import String Ascii NArith Bool List DecimalString.
From Verif Require Import Base Suite Types.
Import ListNotations.
Local Open Scope string_scope.

(** [{}] of u32 and usize (src/error.rs 85-86, 95-96, 116-117) *)
Definition dec (n : N) : string := NilEmpty.string_of_uint (N.to_uint n).
(** elements of a vector after the opening bracket, [{:?}] at src/error.rs 109, 121, 135 *)
Fixpoint elements {A} (f : A -> string) (l : list A) : string :=
  match l with
  | [] => "]"
  | [x] => f x ++ "]"
  | x :: l' => f x ++ ", " ++ elements f l'
  end.
(** [{:?}] of a vector (src/error.rs 109, 121, 135) *)
Definition debug_vec {A} (f : A -> string) (l : list A) : string := "[" ++ elements f l.
(** [{:?}] of Vec<u32> (src/error.rs 121, 135) *)
Definition debug_indices (l : list u32) : string := debug_vec (fun i => dec (u32v i)) l.

(** hexadecimal digit of [\u{..}] escapes (core library, reached from src/error.rs 139) *)
Definition hex (n : N) : string :=
  match n with
  | 0 => "0" | 1 => "1" | 2 => "2" | 3 => "3" | 4 => "4" | 5 => "5" | 6 => "6" | 7 => "7"
  | 8 => "8" | 9 => "9" | 10 => "a" | 11 => "b" | 12 => "c" | 13 => "d" | 14 => "e" | _ => "f"
  end%N.
(** [escape_debug] of one character inside a string (core library, reached from src/error.rs 139) *)
Definition escape_char (c : ascii) : string :=
  let n := N_of_ascii c in
  (if n =? 0 then "\0" else if n =? 9 then "\t" else if n =? 10 then "\n" else if n =? 13 then "\r"
   else if n =? 34 then "\""" else if n =? 92 then "\\"
   else if n <? 16 then "\u{" ++ hex n ++ "}"
   else if (n <? 32) || (n =? 127) then "\u{" ++ hex (n / 16) ++ hex (n mod 16) ++ "}"
   else String c "")%N.
(** the characters of a string escaped one by one (core library, reached from src/error.rs 139) *)
Fixpoint escape (s : string) : string :=
  match s with "" => "" | String c s' => escape_char c ++ escape s' end.
(** [{:?}] of a String (src/error.rs 139) *)
Definition debug_string (s : string) : string := """" ++ escape s ++ """".

Section Display.
  Context {S : Suite}.

  (** Display for Error, src/error.rs 69-141 *)
  Definition display (debug_complaint : Complaint -> string) (e : Error) : string :=
    match e with
    | SerializationError => "An error happened while serializing."
    | DeserializationError => "An error happened while deserializing."
    | CompressionError => "An error happened while compressing a point."
    | DecompressionError => "An error happened while decompressing a point."
    | DecryptionError => "Could not decrypt encrypted share."
    | EncryptionError => "Could not encrypt secret share."
    | ShareVerificationError => "The secret share is not correct."
    | ComplaintVerificationError => "The complaint is not correct."
    | IndexIsZero => "The indexs of a participant cannot be 0."
    | IndexMismatch a b =>
        "Index mismatch between participant index (" ++ dec (u32v a) ++ ") and the public key index (" ++ dec (u32v b) ++ ")."
    | InvalidGroupKey => "Could not generate a valid group key with the given commitments."
    | TooManySigners len n =>
        "Too many signers (" ++ dec (N.of_nat len) ++ ") given the DKG instance parameters (total participants set to " ++
        dec (u32v n) ++ ")."
    | InvalidProofOfKnowledge => "The NiZK proof of knowledge of the secret key is not correct."
    | InvalidCommitmentLength => "The length of this commitment does not correspond to the threshold parameter."
    | MissingShares => "Some shares are missing."
    | NoEncryptedShares => "Could not retrieve encrypted shares."
    | ComplaintErr l => debug_vec debug_complaint l
    | InvalidMSMParameters => "The provided slices of points and scalars do not match in length."
    | InvalidNumberOfParticipants len n =>
        "The number of participants " ++ dec (N.of_nat len) ++ " does not match Dkg instance parameters " ++ dec (u32v n) ++ "."
    | TooManyInvalidParticipants l => "Too many invalid participants to continue the Dkg: " ++ debug_indices l
    | MissingCommitmentShares => "The participant is missing commitment shares for signing."
    | InvalidBindingFactor => "Could not compute the participant binding factor."
    | InvalidChallenge => "Could not compute the signature challenge."
    | InvalidSignature => "The threshold signature is not correct."
    | MisbehavingParticipants l => "These participants provided invalid partial signatures: " ++ debug_indices l
    | InvalidThresholdParams => "Invalid threshold parameters"
    | Custom s => debug_string s
    end.
End Display.
