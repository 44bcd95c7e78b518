(** The ciphersuite: every operation the library takes from external crates, as a class of
    executable operations, and separately the laws the proofs may use about them. *)
From Coq Require Import String Strings.Byte NArith Bool List Field_theory.
From Verif Require Import Base.
Import ListNotations.

(** src/ciphersuite.rs 19-39 (trait [CipherSuite]: group, hash output, hasher, cipher, context
    string) together with the arkworks, hkdf, aead and rand operations used by the crate. *)
Class Suite := {
  (** scalar field ([Scalar<C>], src/utils.rs 33) *)
  F : Type;
  F0 : F; F1 : F;
  Fadd : F -> F -> F; Fsub : F -> F -> F; Fmul : F -> F -> F;
  Fopp : F -> F;
  (** field inverse for non-zero arguments (value at zero unused, see [Finverse]) *)
  Finv : F -> F;
  Feqb : F -> F -> bool;
  (** [Scalar::from(u32)], e.g. src/utils.rs 61, 67 *)
  of_u32 : u32 -> F;
  (** the group [C::G] (src/ciphersuite.rs 21) *)
  G : Type;
  Gzero : G;
  Gadd : G -> G -> G;
  Gopp : G -> G;
  Gmul : G -> F -> G;
  gen : G;
  Geqb : G -> G -> bool;
  (** compressed canonical (de)serialization of scalars and points; the decoder
      returns the value and the unread rest of the input *)
  enc_scalar : F -> list byte;
  dec_scalar : list byte -> option (F * list byte);
  enc_point : G -> list byte;
  dec_point : list byte -> option (G * list byte);
  (** [context_string()] (src/ciphersuite.rs 39) *)
  context_string : list byte;
  (** [DefaultFieldHasher<InnerHasher>::new(dst).hash_to_field(msg,1)[0]] (src/utils.rs 79-85) *)
  inner_h2f : list byte -> list byte -> F;
  (** [DefaultFieldHasher<Sha256>::new(dst).hash_to_field(msg,1)[0]] (src/dkg/complaint.rs 52-79) *)
  sha256_h2f : list byte -> list byte -> F;
  (** digest of [InnerHasher] over the concatenated updates (src/utils.rs 91-96) *)
  inner_digest : list byte -> list byte;
  (** length of [HashOutput] (src/ciphersuite.rs 24) *)
  hash_len : nat;
  (** HKDF-SHA256 without salt and info, expanded to the cipher's key size
      (src/dkg/secret_share.rs 299-302, 338-341) *)
  hkdf : list byte -> list byte;
  (** AEAD nonce size, encryption (may fail) and decryption (src/dkg/secret_share.rs 307-317, 346-351) *)
  nonce_len : nat;
  aead_enc : list byte -> list byte -> list byte -> option (list byte);
  aead_dec : list byte -> list byte -> list byte -> option (list byte);
  (** random generator ([RngCore + CryptoRng] arguments): [Scalar::rand] and [fill_bytes] *)
  Rng : Type;
  rand_scalar : Rng -> F * Rng;
  rand_bytes : nat -> Rng -> list byte * Rng
}.

Declare Scope F_scope.
Delimit Scope F_scope with F.
Declare Scope G_scope.
Delimit Scope G_scope with G.
Infix "+" := Fadd : F_scope.
Infix "-" := Fsub : F_scope.
Infix "*" := Fmul : F_scope.
Notation "- x" := (Fopp x) : F_scope.
Infix "+" := Gadd : G_scope.
Notation "- x" := (Gopp x) : G_scope.
Infix "*" := Gmul : G_scope.

(** [Field::inverse] (used at src/utils.rs 74-75): [None] on zero. *)
Definition Finverse {S : Suite} (x : F) : option F :=
  if Feqb x F0 then None else Some (Finv x).

(** What the proofs may assume about the external operations. All laws are proved for the
    concrete suite of Toy.v; none is an axiom. *)
Class SuiteLaws (S : Suite) : Prop := {
  F_field : field_theory F0 F1 Fadd Fmul Fsub Fopp (fun x y => Fmul x (Finv y)) Finv (@eq F);
  Feqb_spec : forall x y, Feqb x y = true <-> x = y;
  (** the integers below 2^32 are distinct in the field (characteristic above 2^32) *)
  of_u32_inj : forall i j, of_u32 i = of_u32 j -> i = j;
  of_u32_zero : of_u32 u32_zero = F0;
  (** G is an abelian group and a one-dimensional F-vector space spanned by [gen]:
      a group of prime order with scalar field F (src/ciphersuite.rs 20) *)
  Gadd_comm : forall P Q, Gadd P Q = Gadd Q P;
  Gadd_assoc : forall P Q R, Gadd P (Gadd Q R) = Gadd (Gadd P Q) R;
  Gadd_0_l : forall P, Gadd Gzero P = P;
  Gadd_opp_r : forall P, Gadd P (Gopp P) = Gzero;
  Gmul_1 : forall P, Gmul P F1 = P;
  Gmul_add_l : forall P Q a, Gmul (Gadd P Q) a = Gadd (Gmul P a) (Gmul Q a);
  Gmul_add_r : forall P a b, Gmul P (Fadd a b) = Gadd (Gmul P a) (Gmul P b);
  Gmul_mul : forall P a b, Gmul (Gmul P a) b = Gmul P (Fmul a b);
  gen_span : forall P, exists a, P = Gmul gen a;
  gen_inj : forall a b, Gmul gen a = Gmul gen b -> a = b;
  Geqb_spec : forall P Q, Geqb P Q = true <-> P = Q;
  (** serialization *)
  enc_scalar_dec : forall x r, dec_scalar (enc_scalar x ++ r) = Some (x, r);
  enc_scalar_len : forall x y, length (enc_scalar x) = length (enc_scalar y);
  enc_point_dec : forall P r, dec_point (enc_point P ++ r) = Some (P, r);
  enc_point_len : forall P Q, length (enc_point P) = length (enc_point Q);
  (** hashing *)
  inner_digest_len : forall m, length (inner_digest m) = hash_len;
  (** AEAD: encryption of a scalar-sized plaintext succeeds and decrypts under the same key and nonce *)
  aead_enc_scalar : forall k n x, length n = nonce_len -> exists c, aead_enc k n (enc_scalar x) = Some c;
  aead_dec_enc : forall k n m c, aead_enc k n m = Some c -> aead_dec k n c = Some m;
  (** rng *)
  rand_bytes_len : forall n r, length (fst (rand_bytes n r)) = n
}.
