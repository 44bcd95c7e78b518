(** C98: nonces over the whole life of a signer. *)
From Coq Require Import String Strings.Byte Arith NArith ZArith Bool List Permutation Sorted Lia Field.
From Verif Require Import Base Suite Spec SpecDkg SpecSign SpecWallet Types ModelDkg ModelSign Algebra BaseLemmas LemmasShare
  LemmasFinish LemmasSign LemmasAgg Toy Demo DemoSign PropsSign PropsHash.
Import ListNotations.

Section Lem.
  Context {S : Suite} {L : SuiteLaws S}.

  Lemma nonces_of_app a b : nonces_of (a ++ b) = nonces_of a ++ nonces_of b.
  Proof. apply flat_map_app. Qed.
  Lemma nonces_of_perm a b : Permutation a b -> Permutation (nonces_of a) (nonces_of b).
  Proof. apply Permutation_flat_map. Qed.

  Lemma draws_fun r bs r' : draws r bs r' -> forall bs' r'', draws r bs' r'' -> length bs = length bs' -> bs = bs' /\ r' = r''.
  Proof.
    induction 1 as [r|r b r1 bs r2 E H IH]; intros bs' r'' H' Hl; inversion H'; subst; try discriminate; [auto|].
    rewrite E in H0. injection H0 as <- <-. injection Hl as Hl. destruct (IH _ _ H1 Hl) as [-> ->]. auto.
  Qed.
  Lemma draws_len r bs r' : draws r bs r' -> forall b, In b bs -> length b = hash_len.
  Proof.
    induction 1 as [r|r b r1 bs r2 E H IH]; intros x; [intros []|]. intros [<-|Hx]; [|apply IH, Hx].
    pose proof (rand_bytes_len hash_len r) as X. rewrite E in X. exact X.
  Qed.
  Lemma paired_nonces k bs l : paired k bs l -> nonces_of l = map (nonce_from k) bs.
  Proof. induction 1 as [|b1 b2 bs c cs H1 H2 H IH]; [reflexivity|]. cbn. rewrite H1, H2, <- IH. reflexivity. Qed.
End Lem.

(** the nonces used and left are exactly those held at the start and those made from the strings drawn, each once *)
Theorem C98_nonces_come_from_their_own_draws :
  forall (S : Suite) (L : SuiteLaws S) (m : build) (r : Rng) (w w' : list (list CommitmentShare)) (us : list Use)
    (ds : list (SigningKey * list byte)),
    lived m r w us ds w' ->
    Permutation (nonces_of (map us_pair us) ++ nonces_of (concat w'))
      (nonces_of (concat w) ++ map (fun x => h3 (nonce_text x)) ds).
Proof.
  intros S L m r w w' us ds H.
  induction H as [r w|r w k n pub sec r1 bs us ds w' HG HD Hl H IH|r wa l wb k h gk idx ss p l1 cs us ds w' Hs Hn H IH
    |r wa l wb k h gk idx ss o l1 us ds w' Hs Ho H IH|r r1 w us ds w' H IH].
  - cbn. rewrite app_nil_r. apply Permutation_refl.
  - destruct (C37_every_nonce_has_its_own_randomness S L r k n pub sec r1 HG) as (bs' & D' & L' & _ & P).
    destruct (draws_fun _ _ _ HD _ _ D' ltac:(lia)) as [-> _]. cbn [concat] in IH. rewrite nonces_of_app in IH.
    rewrite IH, (paired_nonces _ _ _ P), map_app, map_map. rewrite <- !app_assoc.
    rewrite (app_assoc _ (map _ bs')), (app_assoc (map _ bs')). apply Permutation_app_tail.
    apply Permutation_app_comm.
  - destruct (C39_sign_consumes_its_pair _ _ _ _ _ _ _ _ _ _ _ Hs) as (cs' & a & b & E1 & E2 & E3 & E4 & _).
    assert (cs' = cs) by congruence. subst cs' l l1. cbn [map us_pair]. rewrite !concat_app in *. cbn [concat] in *.
    change (cs :: map us_pair us) with ([cs] ++ map us_pair us). rewrite nonces_of_app, <- app_assoc, IH.
    rewrite app_assoc. apply Permutation_app_tail. rewrite <- nonces_of_app. apply nonces_of_perm.
    rewrite <- !app_assoc. cbn [app]. rewrite !(app_assoc (concat wa) a). apply Permutation_middle.
  - apply sign_fail in Hs; [|exact Ho]. injection Hs as ->. exact IH.
  - exact IH.
Qed.
Print Assumptions C98_nonces_come_from_their_own_draws.

(** so if no string is drawn twice for one key and the hash does not collide on what was hashed, no nonce is used twice,
    whatever lists, keys, messages and signers, nor is a used one left in a list *)
Theorem C98_no_nonce_is_used_twice :
  forall (S : Suite) (L : SuiteLaws S) (m : build) (r : Rng) (w' : list (list CommitmentShare)) (us : list Use)
    (ds : list (SigningKey * list byte)),
    lived m r [] us ds w' -> NoDup ds ->
    (forall x y, In x ds -> In y ds -> h3 (nonce_text x) = h3 (nonce_text y) -> nonce_text x = nonce_text y) ->
    NoDup (nonces_of (map us_pair us) ++ nonces_of (concat w')).
Proof.
  intros S L m r w' us ds H Hnd Hinj.
  pose proof (C98_nonces_come_from_their_own_draws S L m r [] w' us ds H) as HP. cbn [concat nonces_of flat_map app] in HP.
  assert (Hlen : forall x, In x ds -> length (snd x) = hash_len).
  { clear -H L. remember (@nil (list CommitmentShare)) as w eqn:Ew. clear Ew.
    induction H as [r w|r w k n pub sec r1 bs us ds w' HG HD Hl H IH|r wa l wb k h gk idx ss p l1 cs us ds w' Hs Hn H IH
      |r wa l wb k h gk idx ss o l1 us ds w' Hs Ho H IH|r r1 w us ds w' H IH]; auto.
    - intros x [].
    - intros x Hx. apply in_app_or in Hx. destruct Hx as [Hx|Hx]; [|apply IH, Hx].
      apply in_map_iff in Hx. destruct Hx as (b & <- & Hb). eapply draws_len; eassumption. }
  eapply Permutation_NoDup; [apply Permutation_sym, HP|]. clear HP H.
  induction ds as [|x ds IH]; cbn [map]; constructor.
  - intros X. apply in_map_iff in X. destruct X as (y & E & Hy). apply Hinj in E; [|right; exact Hy|left; reflexivity].
    destruct x as [k b], y as [k' b']. unfold nonce_text in E. cbn [fst snd] in E.
    destruct (C52_nonce_transcript S L k' k r b' b) as [_ K].
    destruct (K (Hlen (k', b') (or_intror Hy)) (Hlen (k, b) (or_introl eq_refl)) E) as [-> ->].
    apply NoDup_cons_iff in Hnd. apply Hnd, Hy.
  - apply IH.
    + apply NoDup_cons_iff in Hnd. apply Hnd.
    + intros a b Ha Hb. apply Hinj; right; assumption.
    + intros a Ha. apply Hlen. right. exact Ha.
Qed.
Print Assumptions C98_no_nonce_is_used_twice.

(** two lists for two keys of the demo, and a signature with each; the strings drawn *)
Fixpoint strings (n : nat) (r : N) : list (list byte) :=
  match n with O => [] | Datatypes.S n' => let (b, r1) := @rand_bytes Toy hash_len r in b :: strings n' r1 end.
Fixpoint strings_end (n : nat) (r : N) : N :=
  match n with O => r | Datatypes.S n' => let (_, r1) := @rand_bytes Toy hash_len r in strings_end n' r1 end.
Lemma strings_draws n : forall r, @draws Toy r (strings n r) (strings_end n r).
Proof.
  induction n as [|n IH]; intros r; cbn [strings strings_end]; [constructor|].
  destruct (@rand_bytes Toy hash_len r) as [b r1] eqn:E. econstructor; [exact E|apply IH].
Qed.
Lemma strings_length n : forall r, length (strings n r) = n.
Proof. induction n as [|n IH]; intros r; cbn [strings]; [reflexivity|]. destruct (@rand_bytes Toy hash_len r). cbn. f_equal. apply IH. Qed.
Definition w_end (i : Z) : N := let '(_, _, r) := generate_commitment_share_lists (Z.to_N (50 * i)) (skey i) 3 in r.
Definition w_pub (i : Z) : PublicList := let '(p, _, _) := generate_commitment_share_lists (Z.to_N (50 * i)) (skey i) 3 in p.
Definition w_draws : list (SigningKey * list byte) :=
  map (pair (skey 1)) (strings 6 50) ++ map (pair (skey 3)) (strings 6 150) ++ [].
Definition w_ss : list Signer := [ssigner 1 0; ssigner 3 1].
Definition w_use (i : Z) (k : nat) : Use :=
  MkUse (skey i) shash sgroup w_ss (spair i k) (spartial i (N.of_nat k) w_ss).
Lemma w_end_ok i : generate_commitment_share_lists (Z.to_N (50 * i)) (skey i) 3 = (w_pub i, snonces i, w_end i).
Proof. unfold w_pub, snonces, w_end. destruct (generate_commitment_share_lists _ _ _) as [[? ?] ?]. reflexivity. Qed.
Example C98_ex_lived : lived Debug 50%N [] [w_use 1 0; w_use 3 1] w_draws [[spair 3 0; spair 3 2]; [spair 1 1; spair 1 2]].
Proof.
  eapply (lv_lists (S := Toy) _ _ _ (skey 1) 3); [apply (w_end_ok 1)| |apply strings_length|].
  { assert (E : w_end 1 = strings_end 6 50) by vmr. rewrite E. apply strings_draws. }
  apply (lv_other (S := Toy) _ _ 150%N). eapply (lv_lists (S := Toy) _ _ _ (skey 3) 3); [apply (w_end_ok 3)| |apply strings_length|].
  { assert (E : w_end 3 = strings_end 6 150) by vmr. rewrite E. apply strings_draws. }
  assert (E1 : sl_commitments (snonces 1) = [spair 1 0; spair 1 1; spair 1 2]) by vmr.
  assert (E3 : sl_commitments (snonces 3) = [spair 3 0; spair 3 1; spair 3 2]) by vmr. rewrite E1, E3.
  eapply (lv_sign (S := Toy) _ _ [[spair 3 0; spair 3 1; spair 3 2]] _ [] (skey 1) shash sgroup 0%N w_ss _ [spair 1 1; spair 1 2]); [vmr|reflexivity|].
  eapply (lv_sign (S := Toy) _ _ [] _ [[spair 1 1; spair 1 2]] (skey 3) shash sgroup 1%N w_ss _ [spair 3 0; spair 3 2]); [vmr|reflexivity|].
  apply lv_nil.
Qed.
(** hypotheses of the second theorem: all twelve hashes differ *)
Definition w_hash (x : SigningKey * list byte) : u32 := u (Z.to_N (fv (h3 (nonce_text x)))).
Lemma w_hash_nodup : NoDup (map w_hash w_draws).
Proof. nodup. Qed.
Example C98_ex_hypotheses : NoDup w_draws /\
  forall x y, In x w_draws -> In y w_draws -> h3 (nonce_text x) = h3 (nonce_text y) -> nonce_text x = nonce_text y.
Proof.
  split; [exact (NoDup_map_inv w_hash _ w_hash_nodup)|]. intros x y Hx Hy E.
  assert (x = y) as ->; [|reflexivity].
  assert (E' : w_hash x = w_hash y) by (unfold w_hash; rewrite E; reflexivity). clear E.
  revert Hx Hy E'. generalize w_hash_nodup. generalize w_draws. intros l. induction l as [|z l IH]; cbn; intros Hn Hx Hy E'; [contradiction|].
  apply NoDup_cons_iff in Hn. destruct Hn as [Hz Hn]. destruct Hx as [->|Hx], Hy as [->|Hy]; auto.
  - exfalso. apply Hz. rewrite E'. apply in_map, Hy.
  - exfalso. apply Hz. rewrite <- E'. apply in_map, Hx.
Qed.
