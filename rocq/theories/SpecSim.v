(** The same suite with other hash functions to the field ("random oracle" programming): everything else is unchanged,
    so are the laws, which say nothing about these two operations. *)
From Coq Require Import String Strings.Byte NArith Bool List.
From Verif Require Import Base Suite.
Import ListNotations.

Definition with_hash (S : Suite) (f g : list byte -> list byte -> F) : Suite := {|
  F := @F S; F0 := @F0 S; F1 := @F1 S; Fadd := @Fadd S; Fsub := @Fsub S; Fmul := @Fmul S; Fopp := @Fopp S; Finv := @Finv S;
  Feqb := @Feqb S; of_u32 := @of_u32 S; G := @G S; Gzero := @Gzero S; Gadd := @Gadd S; Gopp := @Gopp S; Gmul := @Gmul S;
  gen := @gen S; Geqb := @Geqb S; enc_scalar := @enc_scalar S; dec_scalar := @dec_scalar S; enc_point := @enc_point S;
  dec_point := @dec_point S; context_string := @context_string S; inner_h2f := f; sha256_h2f := g;
  inner_digest := @inner_digest S; hash_len := @hash_len S; hkdf := @hkdf S; nonce_len := @nonce_len S;
  aead_enc := @aead_enc S; aead_dec := @aead_dec S; Rng := @Rng S; rand_scalar := @rand_scalar S; rand_bytes := @rand_bytes S |}.

Lemma with_hash_laws (S : Suite) (L : SuiteLaws S) f g : SuiteLaws (with_hash S f g).
Proof. destruct L. constructor; assumption. Qed.

(** two hash functions that differ at most at the listed inputs *)
Definition same_but {S : Suite} (l : list (list byte * list byte)) (f f' : list byte -> list byte -> F) : Prop :=
  forall d m, ~ In (d, m) l -> f d m = f' d m.
(** f with the values v at the inputs *)
Definition input_dec : forall x y : list byte * list byte, {x = y} + {x <> y}.
Proof. decide equality; apply (list_eq_dec Byte.byte_eq_dec). Defined.
Definition programmed {S : Suite} (l : list ((list byte * list byte) * F)) (f : list byte -> list byte -> F) : list byte -> list byte -> F :=
  fun d m => match find (fun x => if input_dec (fst x) (d, m) then true else false) l with Some x => snd x | None => f d m end.
Lemma programmed_same {S : Suite} l f : same_but (map fst l) (programmed l f) f.
Proof.
  intros d m H. unfold programmed. destruct (find _ l) as [x|] eqn:E; [|reflexivity].
  apply find_some in E. destruct E as [E1 E2]. destruct (input_dec (fst x) (d, m)) as [Ex|]; [|discriminate].
  destruct H. rewrite <- Ex. apply in_map, E1.
Qed.
Lemma programmed_at {S : Suite} l f d m v : NoDup (map fst l) -> In ((d, m), v) l -> programmed l f d m = v.
Proof.
  intros Hn Hi. unfold programmed. induction l as [|[k w] l IH]; [contradiction|]. cbn [map fst] in Hn. apply NoDup_cons_iff in Hn. destruct Hn as [H1 H2].
  cbn [find fst]. destruct Hi as [E|Hi].
  - injection E as -> ->. destruct (input_dec (d, m) (d, m)); [reflexivity|contradiction].
  - destruct (input_dec k (d, m)) as [->|]; [|apply IH; assumption]. destruct H1. apply in_map_iff. exists ((d, m), v). auto.
Qed.
