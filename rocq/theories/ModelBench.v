(** The two benchmarks of the repository (benches/dkg.rs, benches/sign.rs) as client programs, for any number of
    participants instead of five. What is timed is returned as a function of the state of the generator at each
    iteration, with its result thrown away as in the closures; [unwrap] of a [Result] is [let*] (both stop the program). *)
From Coq Require Import String Strings.Byte Arith NArith Bool List.
From Verif Require Import Base Suite Types ModelDkg ModelSign ModelDoc.
Import ListNotations.
Open Scope string_scope.

Section Bench.
  Context {S : Suite}.

  (** a closure given to [Bencher::iter], whose result nobody looks at, e.g. benches/dkg.rs 30-32 *)
  Definition timed : Type := string * (Rng -> result unit).
  (** the same, benches/dkg.rs 30-32: the result is dropped *)
  Definition ignored {A} (x : result A) : result unit := let* _ := x in Ok tt.

  (** round two with the complaints ignored, benches/dkg.rs 101-107, 122-128 *)
  Definition bench_round_two (m : build) (x : RoundOne * list EncShare) (r : Rng) : result (RoundTwo * Rng) :=
    let* (s2, _, r') := to_round_two m (fst x) (snd x) r in Ok (s2, r').

  (** the part common to both: dealers, round one, round two, benches/dkg.rs 26-27, 42-47, 72-129, benches/sign.rs 35-117.
      The program asks for the shares of 1, ..., n: of the participants' indices. *)
  Definition bench_rounds (m : build) (n t : u32) (ids : list u32) (r : Rng)
    : result (Params * list (Participant * list F * F) * list (RoundOne * list EncShare) * list RoundTwo * Rng) :=
    let* params := params_new m n t in
    let* (ds, r1) := each (new_dealer params) ids r in
    let ps := map (fun d => fst (fst d)) ds in
    let* (ss, r2) := each (doc_round_one m params ps) ds r1 in
    let* boxes := traverse (doc_box (map snd ss)) ids in
    let calls := combine (map fst ss) boxes in
    let* (s2s, r3) := each (bench_round_two m) calls r2 in
    Ok (params, ds, calls, s2s, r3).

  (** benches/dkg.rs 25-178; participant 1 is the first of the list *)
  Definition bench_dkg (m : build) (n t : u32) (ids : list u32) (r : Rng) : result (list timed) :=
    let* (params, ds, calls, s2s, r1) := bench_rounds m n t ids r in
    let* i1 := unwrap (hd_error ids) in
    let dealers := map (fun d => fst (fst d)) ds in
    let* (p1, coefficient, x1) := unwrap (hd_error ds) in
    let* (st1, box1) := unwrap (hd_error calls) in
    let* (s2, _, r2) := to_round_two m st1 box1 r1 in
    let* first := unwrap (hd_error s2s) in
    let* (_, key1) := finish first in
    let* (zs, r3) := each (new_signer params) ids r2 in
    let* (s1, y1) := unwrap (hd_error zs) in
    Ok [ ("Participant creation (dealer)", fun r => ignored (new_dealer params i1 r));
         ("Participant creation (signer)", fun r => ignored (new_signer params i1 r));
         ("Round One (dealer)", fun r => ignored (bootstrap m params x1 (pt_index p1) coefficient dealers r));
         ("Round Two", fun r => ignored (to_round_two m st1 box1 r));
         ("Finish", fun _ => ignored (finish s2));
         ("Reshare", fun r => ignored (reshare m params key1 (map fst zs) r));
         ("Round One (signer)", fun r => ignored (dkg_new m params y1 (pt_index s1) dealers r)) ].

  (** one inclusion, which has to succeed, benches/sign.rs 159-167: the signer's index, its key and a pair of lists *)
  Fixpoint bench_include (a : AggInitial) (l : list (u32 * (SigningKey * (PublicList * SecretList)))) : result AggInitial :=
    match l with
    | [] => Ok a
    | (i, (key, (pub, _))) :: l' =>
        let* com := unwrap (nth_error (pl_commitments pub) 0) in
        let (o, a') := include_signer a i com (to_public key) in
        let* _ := o in
        bench_include a' l'
    end.

  (** benches/sign.rs 34-212. The first t participants sign, the one after them does not finish. The first of them makes a list
      of nonces before everybody makes one (lines 137-155), so that signer k uses the list made for signer k - 1. *)
  Definition bench_sign (m : build) (n t : u32) (ids : list u32) (message : list byte) (r : Rng) : result (list timed * ThresholdSig) :=
    let* (params, _, _, s2s, r1) := bench_rounds m n t ids r in
    let k := N.to_nat (u32v t) in
    let* outs := traverse finish (firstn k s2s) in
    let* _ := traverse finish (skipn (k + 1) s2s) in
    let* (gk, key1) := unwrap (hd_error outs) in
    let keys := map snd outs in
    let '(pub1, sec1, r2) := generate_commitment_share_lists r1 key1 1 in
    let* (ls, _) := each (fun key r => Ok (generate_commitment_share_lists r key 1)) keys r2 in
    let signing := combine keys ((pub1, sec1) :: ls) in
    let* a := bench_include (agg_new params gk message) (combine ids signing) in
    let signers := ag_signers (ai_state a) in
    let* partials := traverse (fun x => fst (sign m (fst x) (h4 message) gk (snd (snd x)) 0 signers)) signing in
    let* f := finalize (fold_left include_partial_signature partials a) in
    let* sig := aggregate f in
    Ok ([ ("Partial signature creation", fun _ => ignored (fst (sign m key1 (h4 message) gk sec1 0 signers)));
          ("Signature aggregation", fun _ => ignored (aggregate f));
          ("Signature verification", fun _ => ignored (sig_verify sig gk (h4 message))) ], sig).
End Bench.
