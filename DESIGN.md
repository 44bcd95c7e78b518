# Formal model of ice-frost: design

Target: `/repo` (topos-protocol/ice-frost, Rust). Prover: Rocq/Coq 8.16.1, files in `rocq/theories`.

## How the code is modelled

* **Ciphersuite.** `Suite` (Suite.v) is a class (record) of *executable* operations: scalar field, prime-order
  group, byte encodings, the two hash constructions of `utils.rs`, the complaint hash, HKDF, AEAD and the
  random generator (state type, `rand_scalar`, `rand_bytes`). `SuiteLaws` is a separate record
  of the facts about these external crates the proofs may use: field laws, group is a vector space of
  dimension one over the scalar field spanned by the generator (prime order), `u32 -> F` is injective and
  maps 0 to 0 (the field has more than 2^32 elements), encodings are injective, of fixed length and
  decode to what was encoded, AEAD decrypts what it encrypted under the same key and nonce, `rand_bytes n`
  returns n bytes. No hardness or randomness assumption is a law. Every theorem is universally
  quantified over suites with these laws; nothing is an axiom. `Toy.v` builds a concrete suite
  (integers modulo the prime 4294967311) and *proves* the laws for it, so the
  hypotheses are satisfiable, and examples and counterexamples run by `vm_compute`. In that suite the group is the
  field itself. `SafeField.v` and `SafeSuite.v` build a second one, in which it is not: the integers modulo the safe prime
  8589935363 = 2q+1 up to sign, scalars modulo the prime q = 4294967681, multiplication of a point by a scalar being a
  modular power. The laws are proved for it too (the order of the elements by multiplying all of them, the generator
  by counting), and the documented session (key generation, signing, resharing, signing; C107) runs on it.
* **u32** is a type of numbers below 2^32 (record with a boolean proof), so every theorem ranges over
  exactly the Rust values. Bytes are `Coq.Init.Byte.byte`. `usize` lengths are `nat`, except the position
  argument of `sign`, which is a number below 2^64 whose increment can overflow.
* **Panics** are a third outcome: `result A := Ok a | Err e | Panic`. The build mode (debug/release) is a
  parameter where `debug_assert!` or overflow checks matter.
* **BTreeMap<u32,_>** is an association list kept sorted by key with insert/get/remove.
* **Randomness**: every `rng` argument is a state of the suite's generator; functions return the final state.
* **Mutation**: `&mut` arguments become extra results (`sign` returns the nonce list left behind also when it
  fails; `include_signer` returns the aggregator left behind also when it fails).
* **Loops** are folds or structural recursion in the order of the source.

### Modelled (every definition cites file and lines)

| file | source |
|------|--------|
| `Base.v` | u32, usize arithmetic by build mode, results, BTreeMap, sort/dedup |
| `Suite.v` | ciphersuite.rs (h0-h5 with their tags), utils.rs hash_to_field/hash_to_array, HKDF/AEAD calls |
| `Types.v` | all data types of dkg/*, keys.rs, parameters.rs, error.rs (the variants with data) |
| `ModelDkg.v` | utils.rs Lagrange; parameters.rs; keys.rs; dkg/secret_share.rs; dkg/nizkpok.rs; dkg/complaint.rs; dkg/participant.rs (new_dealer, new_signer, reshare); dkg/key_generation.rs (bootstrap, new, to_round_two, blame, finish, group key, verifying keys) |
| `ModelSign.v` | sign/precomputation.rs; sign/signature.rs (binding factors, challenge, sign, aggregator, verification) |
| `ModelCodec.v` | serialization.rs and the derived/hand-written CanonicalSerialize/Deserialize of every type, compressed mode |
| `ModelCompare.v` | PartialEq/Eq/Ord/PartialOrd implementations, serialized_size functions |
| `ModelDisplay.v` | the `Display` text of every error (`error.rs`), with the integer, list and string formats of the Rust core library |
| `ModelDebug.v` | the `Debug` text of every type, derived or hand-written |
| `ModelDoc.v` | the programs of the crate documentation (`src/lib.rs`, `src/dkg/key_generation.rs`) for lists of participants: client code, not library code |
| `ModelIncomplete.v` | the test `signature_from_incomplete_set` (`src/sign/signature.rs`) for lists of participants: client code, not library code |
| `ModelWire.v` | the same programs with every message and every stored value going through `to_bytes`/`from_bytes` |
| `ModelTests.v` | six programs of the repository's tests (`tests/ice_frost.rs`, `src/dkg/key_generation.rs`) for lists of participants: client code |
| `ModelTrace.v` | the functions that handle secrets, instrumented with the operations they perform and the outcomes of their tests |
| `ModelTraceCalls.v` | the calls of the key generation as wholes (bootstrap, new, reshare, blame, finish), instrumented in the same way, with the wiping of what they drop; a state dropped after an error of round two is not recorded |
| `ModelCost.v` | every call with two counters: multiplications of points and bytes hashed by the ciphersuite |
| `ModelBench.v` | the two benchmarks, their timed closures as functions of the generator |
| `ModelUnit.v` | the helper do_keygen of the unit tests and the unit tests built on it, for any numbers |
| `ModelAlloc.v` | the calls that reserve memory for a number given by the caller, with the reservation as a step that may fail |
| `ModelRead.v` | the readers of `ModelCodec.v` with the reservation a `Vec` reader makes for the announced number of elements (assumed of ark-serialize, C138) |
| `ModelModes.v` | `serialize_with_mode`, `deserialize_with_mode`, `check` and sizes for both formats of points, with and without checks (the order of checks in Vec and BTreeMap is that of ark-serialize 0.4) |
| `ModelHash.v` | `hash_to_array` with its length check and the signing calls that use it, for suites of any digest length |
| `ModelErase.v` | Zeroize/Drop implementations, the wiping loop of `finish`, the `Vec` buffer of the nonce list (`remove`, `drop_share`, freeing) |

### Not modelled

Copies of secrets the compiler leaves on the stack or in registers when values are moved, freed memory other than that in
`ModelErase.v` (nodes of maps, intermediate vectors), the time a single library operation takes (`ModelTrace.v` models which operations are performed), the texts of scalars, points and hashes (arguments of the model; the text of a point is taken as a function of the point, arkworks prints the coordinates it is held in), `{:#?}` (non-ASCII characters are taken to be printed unchanged), allocation failure other than in
`ModelAlloc.v` and `ModelRead.v`, arkworks internals (curve arithmetic, MSM algorithm,
affine conversion, subgroup checks beyond "decoding yields a group element"), AES/HKDF/SHA internals,
`no_std`, and those tests that are not in `ModelDoc.v`, `ModelTests.v`, `ModelIncomplete.v`, `ModelBench.v` or `ModelUnit.v`. Newtype wrappers with `Deref`, `From` and `new`
(src/keys.rs) are transparent in the model. `serialize_compressed` into a `Vec` cannot fail, so
its error branches are dropped. The byte format of u32, u64, bool, Option, Vec, BTreeMap and tuples is that of
ark-serialize 0.4 as documented by that crate (not in `/repo`): little-endian integers, one byte tags, u64 length headers.
`hash_to_array` panics if a user-defined suite's `HashOutput` length differs from its hasher's. `ModelHash.v` has the calls
concerned with this check (C120); all other theorems are about suites with equal lengths (law `inner_digest_len`), where h4/h5 are total.

Computational security (unforgeability, AEAD secrecy, hash collision resistance) is not expressible here:
the model has no running time, and probability only as the number of random choices (C139, C142, C143, C145, C146, C147, C148, C149, C150, C151). Only its algebraic part (special soundness, secrecy of
fewer than t shares, unambiguous transcripts, nonce use, disjoint randomness) is stated.

## Specification and proof files

Specifications, independent of the model's helpers: `Spec.v` (sums, polynomial values, Lagrange weights,
interpolation), `SpecDkg.v`, `SpecSign.v`, `SpecCodec.v`, `SpecRobust.v`, `SpecRandom.v`, `SpecEnd.v`, `SpecEpoch.v`, `SpecPanic.v`, `SpecErase.v`, `SpecHist.v`, `SpecAuth.v`, `SpecSim.v`, `SpecLife.v`, `SpecWallet.v`, `SpecDebug.v`, `SpecReveal.v`, `SpecWorld.v`, `SpecHall.v` and `SpecEra.v` (the transition systems of C133 and C134 and their composition, C135), `SpecRfc.v` (RFC 9591, transcribed without access to the network; the text of the RFC is part of the trusted base of C127 only). Proofs: `Algebra.v`
(polynomials, interpolation), `BaseLemmas.v`, `Lemmas*.v`. `Toy.v`, `Demo*.v`: the concrete suite and the runs used by examples; `SafeField.v`, `SafeSuite.v`: the second suite.
`Props*.v`: theorems named after the property ids, each with `Print Assumptions` and an `Example` meeting its hypotheses.

## Trusted base

* Coq's kernel (8.16.1), including its virtual machine (`vm_compute` in examples, witnesses and the primality
  certificate of the toy field).
* `Print Assumptions` of every `C..` theorem answers "Closed under the global context": no axiom is used, not even one of the
  standard library. `coqchk` lists seven axioms `Coq.ssr.ssrunder.Under_rel.*` because `ssreflect` files are loaded
  transitively by the standard library; they are the signature of a standard library module type and no theorem depends on them.
* The reading of the Rust code into `Model*.v`, the laws in `SuiteLaws`, and the specifications `Spec*.v`.
* For C76: `Vec::remove` of the Rust standard library reads the element out, moves the later ones down and does not clear the
  freed cell; a vector dropped wipes (drops) only the elements below its length. For C75: `zeroize` of scalars, points and bytes writes zeros.
* The build adds no axiom, functor, module type, plugin or kernel option.

## Properties

| id | property | modelled and proved by | file | theorems |
|----|----------|------------------------|------|----------|
| C01 | Threshold parameters are accepted exactly when 1 <= t <= n | `params_new`; case analysis | PropsShare | 1 |
| C02 | Outcome of the Lagrange coefficient computation on every input | `lagrange`; sort/dedup lemmas, denominator non-zero by injectivity of `of_u32` | PropsShare | 2 |
| C03 | Lagrange coefficients reconstruct the secret of any short enough polynomial | `lagrange` and polynomial values; interpolation, root counting by induction on the degree | PropsShare | 1 |
| C04 | Secret share evaluation computes the polynomial at the receiver index | `evaluate_polynomial` loop; loop invariant | PropsShare | 1 |
| C05 | Fewer than t shares are consistent with every secret | interpolation through t points, uniqueness by root counting | PropsShare | 2 |
| C06 | Share verification accepts exactly the committed evaluation | `share_verify`, `evaluate_hiding`; discrete-log view of commitments, Horner in the exponent | PropsShare | 2 |
| C07 | Encrypted shares decrypt to the dealt value at the addressed participant | `encrypt_share`, `decrypt_share`; AEAD law, commutation of scalar multiplication | PropsShare | 1 |
| C08 | Proofs of key knowledge made by the library always verify | `nizk_prove`, `nizk_verify`; algebra | PropsShare | 1 |
| C09 | Proof of knowledge verification is special-sound and binds index and key | same; algebra, fixed-length encodings injective; a proof for two statements is a hash collision | PropsExtra, PropsShare | 5 |
| C10 | Complaints built by the library always verify | `complaint_new`, `complaint_verify`; algebra | PropsShare | 1 |
| C11 | Complaint verification is a sound equality-of-discrete-log check | same; two equations have at most one challenge for a wrong key | PropsShare | 4 |
| C12 | Fresh participants are well formed | `new_internal`; unfolding, loops over the generator | PropsShare | 3 |
| C13 | Round one classifies participants exactly | `new_state_internal`; induction over the participant list against a filter specification | PropsRound1 | 4 |
| C14 | Round one panics exactly on a commitment without key proof | same | PropsRound1 | 3 |
| C15 | Dealer shares are produced for every listed participant and are decryptable by them | same; map lemmas | PropsRound1 | 3 |
| C16 | Round two raises a complaint for exactly the bad shares | `to_round_two`; induction over the share list | PropsRound2 | 1 |
| C17 | Round two outcome is exactly determined | same | PropsRound2 | 2 |
| C18 | A round with only honest participants ends in agreement | whole key generation; composition of C12-C17 with C03 | PropsFinish | 3 |
| C19 | finish yields a key matching the public commitments whenever every retained share verified | `finish`; linearity, interpolation | PropsFinish | 2 |
| C20 | Any t signing keys determine the group key | `finish`; interpolation | PropsFinish | 2 |
| C21 | Shares withheld in round two silently desynchronise finish | witness runs, and for all states | PropsFinish | 2 |
| C22 | blame decides every complaint by a fixed table | `blame`; verdict function against a declarative table | PropsBlame | 2 |
| C23 | blame is independent of complaint order and duplication and only removes | `blame`; permutation invariance of sort and dedup | PropsBlame | 2 |
| C24 | A genuine complaint removes the cheating dealer everywhere | `to_round_two` + `blame` | PropsBlame | 1 |
| C25 | A complaint about a correct share backfires on its maker | `blame` | PropsBlame | 2 |
| C26 | Complaints against high indices are lost after a round one exclusion | `blame`; all states and witness run | PropsBlame | 1 |
| C27 | blame can be made to remove an honest dealer | `blame`; constructs the framing complaint for every state | PropsBlame | 1 |
| C28 | Settling complaints in separate blame calls is not equivalent to one call | `blame`; witness | PropsBlame | 2 |
| C29 | In resharing a rejected complaint removes the dealer whose index equals the maker's | `new` + `blame`; witness | PropsBlame | 1 |
| C30 | No threshold check after blame | `blame`, `finish`; all states and witness | PropsBlame | 1 |
| C31 | Participants settling the same complaints stay consistent | `blame`, `finish`; verdicts depend on public data only | PropsBlame | 1 |
| C32 | Resharing preserves the group key | `reshare`, `new`, rounds; interpolation on both levels | PropsReshare | 2 |
| C33 | Resharing can be iterated for ever | induction on the history of resharings | PropsReshare | 4 |
| C34 | Resharing does not bound the degree of a dealer polynomial | witness (refutes a degree bound) | PropsReshare | 2 |
| C35 | Individual verifying key check equals regeneration | `ivk_verify`, `ivk_generate`; loop equality | PropsFinish | 1 |
| C36 | Signature verification is the Schnorr equation, twice the same | both verifiers; algebra | PropsSign | 2 |
| C37 | Precomputed commitment lists are consistent | `generate_commitment_share_lists`; induction | PropsSign | 2 |
| C38 | Signing outcome is exactly determined and failures do not touch the nonce list | `sign`; case analysis of every path | PropsSign | 3 |
| C39 | A successful signature consumes exactly its nonce pair | `sign`, `drop_share` | PropsSign | 1 |
| C40 | No nonce pair is used twice in any signing history | induction on signing histories | PropsSign | 2 |
| C41 | Reusing a nonce pair reveals the signing key | linear algebra (Cramer) | PropsSign | 1 |
| C42 | Honest partial signatures satisfy the per-signer check | `sign` and the check of `aggregate` | PropsSign | 1 |
| C43 | Any t or more honest signers produce a valid signature | `include_signer` .. `aggregate`; sum of checks, interpolation | PropsAgg | 4 |
| C44 | aggregate never returns an invalid signature | `aggregate` | PropsAgg | 2 |
| C45 | A failed aggregation names exactly the bad partial signatures | `aggregate`; blaming loop | PropsAgg | 3 |
| C46 | Aggregator invariants hold along every call history | invariant over call histories | PropsAgg | 2 |
| C47 | remaining_signers and finalize report exactly what is missing | `remaining_signers`, `finalize` | PropsAgg | 2 |
| C48 | A rejected surplus signer poisons the aggregator | `include_signer`; all states after a rejection | PropsAgg | 1 |
| C49 | finalize does not enforce the threshold | `finalize`, `aggregate`; all short sessions | PropsAgg | 3 |
| C50 | Including a signer twice mixes first commitment and last key | `include_signer` | PropsAgg | 1 |
| C51 | Order of inclusion does not matter | permutation of call histories | PropsAgg | 1 |
| C52 | Signing transcripts are unambiguous | transcripts; fixed-length concatenation injective | PropsHash | 6 |
| C53 | Hash domains are separated | tags of the hash functions; prefix arguments | PropsHash | 3 |
| C54 | Serialization round-trips | codec combinators; round trip with remaining input | PropsCodec | 4 |
| C55 | from_bytes is lenient | decoders; witnesses for all values | PropsCodec | 3 |
| C56 | Saving and restoring a DKG session at any point is transparent | simulation: save/restore at any points of a session | PropsCodec | 2 |
| C57 | drop_share removes at most one equal pair | `drop_share`; loop invariant | PropsSign | 1 |
| C58 | The maker of a complaint is not authenticated | `blame` | PropsBlame | 1 |
| C59 | The round is not part of a saved session | decoders of the two rounds | PropsCodec | 2 |
| C60 | Messages have exactly one encoding | decoders; inverse direction of the round trip | PropsCodec | 2 |
| C61 | Participants that follow the protocol agree and hold usable keys whatever the dealers did | `to_round_two`, `blame`, `finish` with arbitrary dealers; public-view argument | PropsRobust | 2 |
| C62 | Same participant list, same view of round one, unless an index is listed twice | `new_state_internal`; permutation argument, witness for duplicates | PropsView | 4 |
| C63 | The index inside a commitment is never checked | `calculate_group_key`, `finish`, `ivk_verify` | PropsView | 2 |
| C64 | A listed participant with index zero blocks the key generation | `new_state_internal`, `finish` | PropsView | 1 |
| C65 | Every secret, proof and encryption has its own randomness | draws of the generator are pairwise disjoint pieces of its stream | PropsRandom | 6 |
| C66 | Equality and ordering | derived and hand-written comparison traits; decision lemmas | PropsCompare | 3 |
| C67 | Announced serialized sizes are exact | hand-written size functions against encoders | PropsCompare | 1 |
| C68 | Key generation and signing succeed from the published list despite misbehaving participants | C62 + C61 + C43 | PropsEnd | 1 |
| C69 | Retrying without the named signers reaches a signature in a bounded number of attempts | C45 over sequences of attempts; measure argument | PropsEnd | 3 |
| C70 | Resharing does not check the dealers' keys | C32 machinery without the assumption on keys; weights are non-zero | PropsAttack | 3 |
| C71 | Partial signatures are not authenticated | C45, uniqueness of the valid response | PropsAttack | 2 |
| C72 | A moving adversary below the threshold learns nothing from shares and keys | dealings as polynomials; re-dealing epoch by epoch, induction on the chain of epochs; link to `finish` through C18 and C32 | PropsEpoch | 4 |
| C73 | Debug and release builds differ only by panics, and only on misuse | every function with a build mode; agreement is preserved by sequencing | PropsPanic | 3 |
| C74 | After round two nothing panics and only an accepted index zero makes finish fail | invariant of states reached through the API | PropsPanic | 2 |
| C75 | Values dropped by the library keep no secret, and finish wipes the received shares | memory content of each type after its Drop, shown equal for equal shapes and shown zero; loop invariant for the shares wiped by `calculate_signing_key` | PropsErase, PropsExtra | 3 |
| C76 | Used nonce pairs are not wiped from the buffer of the list, and the last one reveals the key | model of a `Vec` buffer with cells past its length; refinement of `sign` on the buffer to `sign` on the list; the partial signature is solved for the key | PropsErase | 3 |
| C77 | Storing the nonce list after every call keeps single use; reading back an old copy breaks it | histories with restarts; round trip of C54; C40 for the positive part, C41 for the negative | PropsHist | 3 |
| C78 | Partial signatures made with single-use nonces fit every signing key | `sign` commutes with renaming the pairs of the list; the hiding nonce of each used pair absorbs the difference of the keys | PropsHist | 1 |
| C79 | Encrypted shares are not authenticated: reflecting one removes an honest dealer | invariants of honest runs (C18), exact complaints (C16) and exact verdicts (C22); decryption ignores the names in the message | PropsReflect | 2 |
| C80 | Complaints reveal the maker's own shares, and t of them its secret | exact complaints (C16), invariants of honest runs, decryption of the maker's own ciphertexts, interpolation | PropsLeak | 2 |
| C81 | Key proofs carry no session and no role | `nizk_verify`, `new_state_internal`; what the three entry points keep, from C13/C14 | PropsReplay | 3 |
| C82 | A dealer facing fewer than t receivers need not know its secret | `share_verify`, `to_round_two`; polynomial vanishing at the receivers (C05), complaints (C16) | PropsReplay | 1 |
| C83 | Complaints select the group key among those of the sets of dealers | `to_round_two`, `blame`, `finish`; complaints of C80, convictions of C24, agreement of C61, interpolation with one value changed | PropsSteer | 2 |
| C84 | A signer using another key than the announced one is named, exactly | `sign`, `include_signer`, `include_partial_signature`, `finalize`, `aggregate`; C42, C45, C71 | PropsStale | 1 |
| C85 | Resharing keeps the group key if the caller compares commitments with the old keys | `reshare`, `dkg_new`, `to_round_two`, `blame`, `finish`; view of round one as in C62, agreement of C61, signing of C43 | PropsHandover | 2 |
| C86 | Positions in the secret nonce list shift after each signature | `sign`, `drop_share` and the aggregator; C39, C40, C84 (`one_left`) | PropsShift | 4 |
| C87 | A signer whose session data differ from the aggregator's is named, exactly | `sign`, `compute_binding_factors`, aggregator; `one_left` of C84, weights are symmetric, C52 | PropsSession | 4 |
| C88 | Key proofs, complaints and signatures can be made without a key by choosing one hash value, and answers for two hash functions reveal the key | `with_hash`, `programmed` (SpecSim.v); unfolds `nizk_verify`, `complaint_verify`, `sig_verify`; special soundness of C09 | PropsSim | 5 |
| C89 | A whole signing session can be made from public keys alone by choosing its hash values | the commitments are solved from the aggregator's equation per signer; hash inputs are distinct (`fake_nodup`); completeness of aggregation (C58) | PropsSimSession | 1 |
| C90 | What fewer than t receivers see of a dealer can be made from its public key alone | commitments as in C82, made for the simulated proof of C88; uniqueness of interpolation (`secrecy_unique`) | PropsSimDealer | 1 |
| C91 | One dealer's secret spreads over all group keys | group key as interpolation of first points (`finish_key`), weights are not zero; C18 | PropsSpread | 2 |
| C92 | Parameters outside 1 <= t <= n are refused by key generation and ignored elsewhere | the outcome lemmas of round one (LemmasRound1.v) give each case, the case t = 0 by ns_t0; for the aggregator the state with other parameters runs through the same history (induction on the calls) | PropsParams | 5 |
| C93 | One group key for the whole life of a key | a step gives its epoch by C68 or C85 (blame and finish are functions, so everyone's values coincide); induction on the number of resharings; signing by C43, misbehaving signers by C69 | PropsLife | 4 |
| C94 | Verifying keys of t participants determine all others and the group key, fewer do not | the commitments determine a polynomial in the exponent (dealt_polyfun); uniqueness of interpolation; for fewer keys the other polynomial of C05 in the exponent, its constant term solved for the wanted key | PropsPublic | 4 |
| C95 | The text of an error determines the error | the kind is read off the beginning of the text; decimal digits end at the first other character; no escape sequence is the beginning of another (checked for all pairs of bytes) | PropsDisplay | 3 |
| C96 | The identity element is accepted as a key | `Gzero` is the identity of the suite's group; verification, round one, share encryption and resharing of the model, through C36, C15 and C70 | PropsIdentity | 5 |
| C97 | A signature tells nothing about its signers | aggregate and sessions of the model; uniqueness of the response (C36) and cosigners with chosen nonces | PropsAnon | 2 |
| C98 | No nonce is used twice in the life of a signer | `lived` (SpecWallet.v): any interleaving of the modelled list generation and sign calls; nonces counted as a multiset | PropsWallet | 2 |
| C99 | Binding factors ignore the group key | sign of the model (C38) with one nonce pair twice; linear algebra over the scalar field, the second part constructs the other nonces | PropsTwice | 2 |
| C100 | Debug output and logged errors give secrets away | `ModelDebug.v`: derived and hand-written Debug texts of all types over arbitrary texts of scalars and points; `legible` and `shown` (SpecDebug.v); combined with C95 and C80 | PropsDebug | 3 |
| C101 | Complaints open the accused's shares and, in a resharing, the group secret | `revealed` (SpecReveal.v): interpolation of what published complaints open; C16 for the complaint lists; an explicit assignment of complaints to new signers for the counting bound | PropsReveal | 4 |
| C102 | A key generation with a prescribed group key and signing sessions under it can be made without secrets | composition of C88-C91: one hash function programmed at the inputs of a key proof and of all sessions (`with_hash`, SpecSim.v); the dealer key is solved from the group key by interpolation | PropsSimLife | 1 |
| C103 | What later calls do with a session read from arbitrary bytes, and every panic of aggregate | decoded maps have distinct keys (`de_state_ok`); case analysis of `finish`, `blame`, `to_round_two`, `aggregate` on all states | PropsRestore | 4 |
| C104 | Encodings carry no type | unfolding the codecs of the two types; lengths of point encodings for the refused case | PropsTypes | 4 |
| C105 | A state of the random generator used twice gives secrets away | determinism of the draws of C65, two linear equations in secret and one-time scalar; C41 for the lists | PropsRepeat | 5 |
| C106 | What the value returned by blame says about who was blamed | `C22_blame_outcome` read through the registered keys; one rejected complaint computed exactly; completeness of the key proofs for the reachability of shared keys; a concrete session with a twin identity | PropsReport | 6 |
| C107 | The documented session succeeds for every group and every randomness | each documented step succeeds for every generator state (C12, C18, C32, C33, C35, C43), threaded through the client program by induction over the participants | PropsDoc | 4 |
| C108 | The documented sessions with a misbehaving participant end as documented, but for named coincidences | the steps of C107 with one dishonest dealer: C16 for the swapped key (proof verification decided), C79 for the changed ciphertext (decryption decided), C62 for the common view, C61 for the settlement; a concrete session refutes the variant without the index bound | PropsDocBad | 3 |
| C109 | Everything can be sent: sessions over bytes equal sessions in memory | every returned value and every value read satisfies the real_* predicates of C54 (invariants of the calls, inversion of the decoders), then the programs step by step | PropsWire | 3 |
| C110 | The order in which messages arrive does not matter, unless a sender's message is there twice | C62 for round one, permutation lemmas for the complaint list and the sorted map in round two, C23 for blame; repeated senders refuted by computation | PropsOrder | 3 |
| C111 | The resharing tests hold for every group, value and generator | C107 for the import; for the bad resharing C16, C22 and the view of round one over a list of dealings, then C61 for the settlement and the old sharing for the group key | PropsTests | 2 |
| C112 | Which errors each call returns, and which errors are never returned | inversion of every function; for the converse one concrete call per error over an abstract suite | PropsErrors | 2 |
| C113 | Verifying keys are not computed by the documented formula | C35 and linearity; weights of two dealers by the field laws, of more by summing to one; a commitment to one by a single dealer as counterexample | PropsFormula | 2 |
| C114 | The keys used in a session decide, and keys of different epochs combine only by coincidence | every partial signature passes the check of the key used (C42), so validity is the interpolation of the keys used; the list from the check of the announced key; C93 for the epochs | PropsMix | 3 |
| C115 | An altered complaint is rejected and convicts the receiver it names; the repository's complaint test passes for every group and every tampering | both verification equations by cancellation in the group; blame from C22; the program as in C108 with C79, C61 and C62 | PropsAlter, PropsTestComplaint | 4 |
| C116 | A participant excluded in round one still obtains a working signing key | the accepted entries of any order are those of the dealers, so round one succeeds for any owner of a listed entry (C13); the shares from C15; keys by interpolation of the dealt polynomials; signing from C43 | PropsExcluded | 3 |
| C117 | Resharing by fewer old holders than the old threshold succeeds and changes the group key | C70 for the group key; the completed set recovers the secret, and interpolation is affine in one key with nonzero weight | PropsSubset | 3 |
| C118 | New signers that use different sets of dealers agree on the group key, but their keys do not combine | C32 for both sets; affine in the key of the deviating signer; C114 for the session | PropsSubset | 3 |
| C119 | Complaints can leave one dealer, who then owns the group key | C61 with one follower for the kept dealers; C16 and C22 for the genuine complaints, which are all rejected because the accused index exceeds n and therefore convict their makers | PropsTakeover | 3 |
| C120 | A hash output type of the wrong length stops every signature, a right one is never noticed | case distinction on the length check along each call | PropsLength | 2 |
| C121 | A dealer can send different commitments without anybody noticing until signing | both views are runs of C13/C18 type; the group keys differ by the weighted difference of the first points; keys of the second camp differ from the first camp's by the difference of the commitments; C114 for the session | PropsSplit | 4 |
| C122 | A commitment altered in transit gets its receiver expelled | the altered list passes by C121; C16 for the single complaint; C22 and C61 with one follower for both outcomes | PropsTamper | 2 |
| C123 | Which messages can be re-encoded by others | one-encoding and second-encoding of a value from those of its points, type by type | PropsCanon | 3 |
| C124 | A group that loses one participant in each round still signs, but for named coincidences | round one as C108's flagging, rebuilt as parties with states; every later assertion decided from the dealt polynomials (`second_ok`) | PropsIncomplete | 2 |
| C125 | Which operations run on secrets does not depend on the secrets | each function instrumented with a list of events; values equal to the model's, then the lists of two runs compared by induction; conversely the lists are decoded front to back, so equal lists give equal shapes | PropsTrace, PropsTraceBack | 17 |
| C126 | Memory is reserved for the announced number of participants before the list is looked at | the reservation as a step before the plain call; the length check decides the rest | PropsAlloc | 5 |
| C127 | Signing is that of RFC 9591 but for listed encodings, and is not compatible with it | RFC 9591 (sections 4.1-4.6, 5.1-5.4, appendix B) is transcribed in SpecRfc.v over the raw operations of the suite, with a record of labels and encodings as parameter; the library's functions are shown equal to it for one value of the record. | PropsRfc | 7 |
| C128 | A group may keep members of the old one, and a dealer of another degree is flagged | `honest_heirs` admits members prepared by an earlier `new_dealer`; the hand-over lemma of C107 then applies; `splits_fun` on the one odd dealer. | PropsCommon | 2 |
| C129 | How much work each call does | ModelCost.v is the model once more with a writer of two counters; first components proved equal to the model's functions, second components computed by induction over the lists. | PropsCost | 8 |
| C130 | The benchmarks time successful calls only, and lists of nonces belong to nobody | The key generation of C107 cut at round two, then C12, C13, C18, C32 for the timed calls; the general form of C43 with the lists of C37 made for any key; C76 for the key. | PropsBench | 4 |
| C131 | A removed dealer that does not remove itself is left with a key nobody accepts, unless three values coincide | The scenario of C115, whose lemma now also says that the keys are those of the other dealers' joint polynomial; C18 for the dealer who settles nothing; C35 for the verifying keys; non-zero Lagrange weights for the last claim. | PropsTestKeys | 2 |
| C132 | The helper of the unit tests and the tests built on it succeed for all numbers; the Lagrange test passes because of its list | The two generators of dealers agree on indices that are not zero, so C107 applies to the helper; C43 with the lists of C37 for signing; C46 for the signers; C57; C02 for the coefficients. | PropsUnit | 8 |
| C133 | However the calls of all participants interleave, all who finish agree with the two public boards, nobody gets stuck, and restarts are invisible | transition system over the model's functions; invariant of reachable worlds; C22, C61, C62, C74 lifted to it; round trip of states for restarts | PropsWorld | 7 |
| C134 | Any number of signing sessions run at the same time without spoiling each other: pairs are conserved, answers are never blamed, and a session whose pairs are unused can always be finished | transition system over the model's functions; one invariant (permutation of generated pairs, runs of aggregators, every answer is a sign call); C42/C43 for complete tables, C45 and C47 for blame, C77 for reloading; a progress proof that answers and hands over one seat at a time (a machine finds its pair by what it published, since positions shift after each signature) | PropsHall | 7 |
| C135 | Through a key generation and any number of resharings the group key never changes, and in every generation all concurrent signing sessions with unused pairs can be finished under it | induction over generations: C133 says what the boards determine, the commitments kept are a polynomial over the scalars (law: every point is a multiple of the generator), so the keys obtained recover the secret; the resharing theorem of C133 with the book of the old keys; then C134 | PropsEra | 3 |
| C136 | To which keys and messages a signature belongs, and what two signatures with one commitment give away | group algebra over the verification equation: cancellation of the commitment, span and injectivity of the generator, and field identities for the divisions | PropsOwn | 6 |
| C137 | How long the messages of each round are, and how much a whole key generation sends | closed forms of the length of each encoded type, an invariant over the loop that encrypts the shares, the keys of the map of shares as a permutation of the listed indices, and a sum over the participants | PropsVolume | 5 |
| C138 | What reading bytes from a stranger can cost | a count of consumed bytes for each reader; a relation between the two readers closed under sequencing; least lengths and witnesses of stopping inputs built field by field | PropsRead | 4 |
| C139 | Shares of fewer than t receivers and published partial signatures are equally likely for every secret | interpolation through the receivers, zero and enough further indices as a bijection between vectors of free values and polynomials, with a duplicate-free list of all vectors; C91 for the group key; cancellation for the nonces | PropsLikely | 3 |
| C140 | What is checked when a value is read, in every mode of reading and writing | a reader and a check are related by "checking at the end is the same" (closed under sequences, options, vectors and pairs) or, for maps, by one implication; both formats at once by a mode parameter; the witness is a session listing one participant twice | PropsModes | 7 |
| C141 | When signatures, or one signer's answers, combine to a signature nobody requested | both sides are written as multiples of the generator; the sums over histories are computed by induction with the exact value of each answer, and the one unknown factor is cancelled | PropsCombine | 2 |
| C142 | The named coincidences happen for exactly one choice in q | the zeros of a non-zero linear function of t coefficients are counted by induction on t; that the function is not zero is C05 (shares zero, secret one); the session is C114 | PropsChance | 4 |
| C143 | Resharing refreshes the keys: a mixture of old and new keys combines for exactly one choice in q | as C142, for the coefficients after the shared key; that the function is not zero: a polynomial that is zero at zero, one at one of the new signers and zero at the others; the session is C114 | PropsMixChance | 1 |
| C144 | A whole key generation performs the same operations for all secrets | the calls are run side by side: equal outcomes of the public checks give equal tests (C125 for the functions within), loops by induction over the two lists; honest groups by C18 and C125; the wiped scalars are counted along the loops | PropsTraceCalls | 12 |
| C145 | All the shares that fewer than t participants receive together say nothing about the group key or the keys of others | the polynomials of all honest dealers but one are chosen freely among those with the given shares (products of the counts of C139); for the last one the wanted keys prescribe its values at the further indices and at zero, which C139 counts; the keys are C18 and C32 | PropsJoint | 3 |
| C146 | For an adversary that moves between epochs every group secret is equally likely | counted epoch by epoch: the dealings of corrupted dealers are fixed, those of the others are counted by C139 with the constant term prescribed by the key before; in key generation one dealer outside the coalition compensates for the wanted secret; C72 connects histories of calls with epochs | PropsEpochCount | 2 |
| C147 | A dealer that can get itself removed has two independent tries at the group key | two linear equations in the constant terms of two honest dealers, whose determinant is not zero because the weight of a dealer i changes by the factor d/(d-i) when d is removed; all other coefficients are counted freely; the endings are C18 and C83 | PropsBias | 5 |
| C148 | Dealers that may be removed bias the group key by at most a factor of two each | a weighted sum with one weight not zero takes each value equally often (induction on the dealers); union bound over the sets left; group key after round two, blame and finish by C20 | PropsBound | 4 |
| C149 | Every key has exactly q accepted proofs, and a false complaint exactly one challenge per first message | `nizk_verify`, `complaint_verify`; the nonce is recovered from an accepted proof; one linear equation for the challenge of a false complaint | PropsProofCount | 3 |
| C150 | Partial signatures of all epochs leave every secret equally likely | `sign` with one pair of nonces as one linear equation for the hiding nonce; sum over the dealings counted in C146, product over the signatures | PropsEpochSign | 4 |
| C151 | Each check of a share, verifying key or partial signature accepts exactly one value, and aggregate accepts one list of partial signatures in q | uniqueness of the response for each check; the values stored by `include_partial_signature` (induction on the signers), `aggregate` through the sum of C44, lists with a given sum | PropsGuess | 4 |
| C152 | Messages of a resharing stay valid in every other resharing to the same new signers | dealers of both resharings meet the hypotheses of C32/C70, which never mention a session; outputs are functions of the dealers' polynomials; solving the interpolation for one key gives the equivalence | PropsOldMsg | 3 |
| C153 | A key generation tried again with the same entries is one sharing over all attempts | a choice of one party of each entry is again honest and bootstrapped, so C18 applies to it and its values are those of the first attempt; C101 opens one complaint in its own attempt, interpolation joins them | PropsAttempts | 3 |
| C154 | An entry used in several groups is opened by t receivers over all of them | what a receiver opens is the value of the dealer polynomial (honest delivery of C18 in each group), interpolation over the indices of all groups; a polynomial through fewer points and any secret | PropsGroups | 2 |

## Findings

Deviations between documentation/expectation and the code, each a theorem or a witness in the file of the cited property.

* F1 (C02) the Lagrange helper's documentation says an index absent from the list is an error; it is accepted.
* F2 (C26) `blame` compares indices with n *after* exclusions in round one, so complaints about and by high indices are lost.
* F3 (C27) the DH key in a complaint is not compared with the registered one: anyone can frame an honest dealer.
* F4 (C28, C106) settling complaints in several `blame` calls gives another result than one call; a second call with the same complaints blames the makers of all of them, also of justified ones.
* F5 (C29) in resharing, a rejected complaint removes the *dealer* whose index equals the maker's.
* F6 (C17, C21) round two requires only t shares, so withheld shares silently desynchronise the participants; the receiver index is
  only debug-asserted; shares that failed verification stay in the map until `blame`; `n - complaints` can underflow.
* F7 (C30) the threshold is not rechecked after `blame`.
* F8 (C14, C34) `new`/`bootstrap` panic on a participant with commitments but no key proof; `new` does not check the degree of dealers' polynomials.
* F9 (C48, C50) the signer rejected with TooManySigners stays in the list and blocks the aggregator; a second inclusion keeps the
  first pair but the last key.
* F10 (C49) `finalize` does not enforce the threshold: below it aggregation fails and names nobody; with no signers `aggregate` panics.
* F11 (C55) decoders accept trailing bytes, invalid parameters and several encodings of one state.
* F12 (C15) dealers encrypt shares also for participants found misbehaving.
* F13 (C38) `sign` with position `usize::MAX` panics (overflow or out of bounds).
* F14 (C58) the maker index of a complaint is not authenticated.
* F15 (C59) bytes of a round one session are accepted as a round two session and vice versa.
* F16 (C53) hash inputs of h4/h5 can coincide across suites, since tag and message are concatenated without a length.
* F17 (C66) `Participant`: `partial_cmp` is `None` for participants that `==` calls equal.
* F18 (C62) a list with duplicate indices gives participants with the same list in other orders different views.
* F19 (C63) the index inside a commitment is never compared with the participant's.
* F20 (C64) a listed participant with index zero passes round one and blocks `finish`.
* F21 (C01) the documentation of `ThresholdParameters::new` says it fails for n <= t; n = t is accepted.
* F22 (C70) in resharing the dealers' keys are not compared with anything: one dealer can change the group key silently.
* F23 (C71) partial signatures are not authenticated: a later forged one replaces an honest one, and its signer is blamed.
* F24 (C76) `drop_share` does not wipe the used pair as documented: `Vec::remove` leaves copies in the freed buffer; the last one gives away the signing key.
* F25 (C77) a serialized nonce list can be read back after it was used: the same pair signs again, three times give away the key.
* F26 (C79) sender and receiver of an encrypted share are not authenticated and both directions share one key: a reflected share makes an honest
  receiver complain and everybody remove an honest dealer.
* F27 (C80) a complaint opens the shares of both directions: t complaints of an honest participant, provoked by injected messages, reveal its secret.
* F28 (C81, C82) the context hashed into the key proofs is a constant of the cipher suite: messages of one run pass in every other with the same threshold, the proof of the Diffie-Hellman key passes as proof of the dealt secret and back, and in front of fewer than t receivers a dealer can commit to such a foreign key without being noticed.
* F29 (C83) whoever can provoke complaints (F26) decides, after all commitments are published, which dealers contribute to the group key; the keys of different sets of dealers differ in general.
* F30 (C86) the documentation asks that the position passed to `sign` be that of the announced pair, but the secret list closes up after each signature while the published list does not: after one signature at position 0, position 1 of the secret list is pair 2 of the published list. An honest signer that counts positions in the published list is named as misbehaving from the second session on.
* F31 (C87) `sign` neither sorts the list of signers nor looks for its own nonce pair in it: an honest signer given the right signers in another order, or with its own entry replaced, returns a value for which it is named as misbehaving.
* F32 (C92) the fields of `ThresholdParameters` are public and `from_bytes` does not check them; with t = 0 `new_dealer` and `reshare` panic ("We should always be able to retrieve a public key.") instead of returning `InvalidThresholdParams`, also in release builds. `TooManyInvalidParticipants` is returned with an empty list if t > n.
* F33 (C95) the error of `finalize` reads "These participants provided invalid partial signatures" for participants that sent none or whose key is missing.
* F34 (C96) the identity element is accepted everywhere (Diffie-Hellman keys, commitments, group keys, also by decoders): a resharing can end with the identity as group key, under which everybody can sign everything.
* F35 (C99) binding factors do not depend on the group key (RFC 9591 hashes it in): one nonce pair used for one message and signer list under two group keys reveals the signing key from two partial signatures, where any other reuse needs three (C41).
* F36 (C100) all types holding secrets derive `Debug` and print them in full; the error of a failed second round prints the shared Diffie-Hellman keys, so that a log line can give away an honest participant's secret.
* F37 (C101) complaints open the accused's shares as well: on channels without sender authentication (which the documentation asks for) added messages make honest new signers of a resharing reveal the old signing keys and the group secret while every call returns, if t1*t2 <= n2*(n1-t1).
* F38 (C103) `finish` and `blame` panic on sessions that `from_bytes` accepts: missing shares or commitments, or a commitment without points (the `expect`s of key_generation.rs 1022-1083); stored sessions must be protected against modification.
* F39 (C104) encodings carry no type tag and `from_bytes` ignores trailing bytes: secret signing keys parse as partial signatures, a participant's message parses as its verifying key (with the Diffie-Hellman key in it), and so on; senders must tell the kind of a message by other means.
* F40 (C105) only the signing nonces are derived from the key as well as from the generator; key proofs and complaints use the bare generator output, so two of them made from one generator state (a cloned machine, a restored snapshot) reveal the secret.
* F41 (C106) `blame` is documented to return the indices of the blamed participants but returns registered Diffie-Hellman keys: unregistered
  makers (the new signers of a resharing) are not reported, and two indices with one key cannot be told apart.
* F42 (C108) The documented blaming program (`src/lib.rs` 1079-1226) relies on the cheater's index being at most n: with a larger index, which
  every constructor accepts, the honest victim is convicted and the documented assertion on the returned key fails. The asserts after
  `carol_state.blame` (1216-1217) check Alice's result a second time; Carol's is discarded.
* F43 (C110) If a caller hands to_round_two two messages of one sender, both are checked (a bad one raises a complaint wherever it stands) but the
  share kept is that of the last one that decrypts, bad or not; without settling the complaint the signing key depends on the order.
* F44 (C112) `verify` of a verifying key reports duplicate and zero indices as `Custom` texts while `generate_from_commitments` reports the
  same faults as other errors; seven of the error variants are never returned (`InvalidChallenge` and `InvalidMSMParameters` among them).
* F45 (C113) the documented formula for verifying keys omits the Lagrange coefficients: with two or more dealers it rejects honest keys.
* F46 (C114) a mixture of old and new keys announced truthfully makes `aggregate` fail with an empty list of misbehaving participants; old keys
  of the old threshold keep signing after a resharing (nothing revokes them).
* F47 (C115) whoever relays a valid complaint can alter it (the test doubles the shared key) and thereby have its maker convicted: complaints carry
  no signature of the maker and blame cannot tell a forged complaint from a false one.
* F48 (C116) exclusion in round one does not exclude from the key: dealers encrypt shares for every listed participant and round one runs for a
  participant that is itself flagged, so every flagged participant (and, by C61/C68, every dealer removed by blame) ends with the group key and a
  signing key that works together with any t - 1 others. Whoever relies on exclusion must change the list and start again.
* F49 (C117) the old threshold in a resharing is whatever the caller declares: fewer holders than the true threshold reshare without any error and
  give another group key.
* F50 (C118) new signers that use different (individually sufficient) sets of dealers obtain the same group key but keys that do not combine; signing
  fails without naming anybody. The set of dealers has to be agreed on by other means; comparing group keys is not enough.
* F51 (C119) `blame` may leave any non-empty set of dealers, also one with fewer than t members, and `finish` goes on (F7). With F14 (a complaint
  without proof convicts its nominal maker) a few messages reduce the group key to the secret of a single dealer; with F2 (accused index above n) two
  misbehaving participants reach the same through genuine complaints of the others. Callers have to check how many dealers are left after `blame`.
* F52 (C120) a suite whose `HashOutput` has another length than the digest compiles; signing panics at every attempt. Nothing checks it earlier.
* F53 (C121) the proofs of knowledge bind the first point of a commitment only, and nothing compares the lists the participants received. A dealer that
  sends different commitments (same first point) to different participants, each with fitting shares, is not noticed in the key generation; all group
  keys are equal, but keys of different camps do not sign together and the failure names nobody. Participant lists need a broadcast channel.
* F54 (C122) whoever can alter one entry on its way to one participant has that participant expelled by everybody else, although nobody misbehaved.
* F55 (C123, C60) C60 assumes that points are read from canonical bytes only. That is a property of the curve crate, which is not in /repo and could not
  be checked here. As far as we remember ark-ec 0.4 it reads the point at infinity whatever the x coordinate is, and the 33-byte form of secp256k1 points
  leaves bits of the last byte unchecked. C123 therefore does without the assumption: it relates the encodings of a message to those of its points, both
  ways. Where the assumption fails, others can change the bytes of a message without changing its meaning. Nothing in the library hashes received bytes
  (it re-encodes values), but applications must not identify signatures by their bytes.
* F56 (C124, F2) The test `signature_from_incomplete_set` passes because its convicted dealer is number 4 of 5. Number 5 could not have been convicted:
  after one participant has been flagged n is 4, and a complaint against an index above n convicts the complainant (C26). `C124_incomplete_set_unbounded_refuted`.
* F57 (C126) The first round reserves memory for n participants (`src/dkg/key_generation.rs` 717) before it compares n with the length of the list (722): parameters with a huge n stop the process where InvalidNumberOfParticipants is documented. The fix is to reserve `participants.len()` or to move the reservation below the check.
* F58 (C127) The labels of the hash functions (`src/ciphersuite.rs` 78-116: challenge, message, commitment), the identifiers (`src/sign/signature.rs` 157, 192: four bytes, noted there), the missing group key in the binding factors (C99) and the index in the nonce input differ from RFC 9591. Signatures verify only with the library's label, and signers following the standard are named as misbehaving.
* F59 (C129) When a signature does not verify, `aggregate` (`src/sign/signature.rs` 646-681) hashes the whole list of commitments again for each signer (`commitment_for_participant`, 210-240), although the prefix is the same: the bytes hashed are quadratic in the number of signers, and one bad partial signature is enough to cause it. In a resharing the receivers multiply as often as the dealer's commitment is long, and its length is not checked (F8): no bound in n and t holds.
* F60 (C130) `benches/sign.rs` 137-155 makes a list of nonces for the first signer before the loop that makes one for everybody, so each later signer uses the list made for its predecessor; participant t + 1 is never finished (lines 125-130 start at t + 2). Nothing notices, because `PublicCommitmentShareList::participant_index` is not looked at by any call and `SecretCommitmentShareList` has no owner. A signer that takes over a list made by somebody else gives its key away to the maker with the first signature.
* F61 (C132) The test `invalid_lagrange_interpolation` (`src/utils.rs` 107-145) names four reasons for an error, but its first three blocks all use the list 0..100, which is refused because it contains zero. With a list without zero the index zero (first block) and an index that is not in the list (third block) are accepted (C02): the behaviour these blocks name does not exist, and no test would notice its absence. `do_keygen` makes the signers of the second group with the parameters of the first (`src/dkg/key_generation.rs` 1315), without effect because `new_signer` does not use them.
* F62 (C138) A length header is not bounded. If the reader of `Vec` in ark-serialize reserves memory for the announced number of elements before it reads them (its source is not in the sandbox; this is assumed in `ModelRead.v` only), 8 to 16 bytes stop the process that calls `from_bytes` on a coefficient list, a nonce list, a sharing commitment or an encrypted share, p + 17 bytes for a participant and 2p + 16 for a complaint, whatever follows. These are messages received from other participants. Without such a reservation memory stays within a constant factor of the input (`C138_no_amplification`).
* F63 (C140) A session read without checks and checked afterwards may hide a point outside the group: the entry of a map which a second entry with the same key overwrites is never looked at. from_bytes is not affected. Witness `C140_overwritten_entries_escape_later_checks` (assumes that the reader of `BTreeMap` of ark-serialize 0.4 keeps the last of two entries).
* F64 (C147) The group key can be biased: a dealer that sees everybody's commitments can still have itself removed by sending one bad ciphertext, and so choose between two independent group keys; it gets a key it wants with nearly twice the probability it should.
* F65 (C151) Wrong partial signatures whose errors cancel are not noticed: `aggregate` looks at single partial signatures only if the sum fails, so of the q^(k-1)
  lists of k partial signatures that give a signature all but one contain wrong ones (the signature is valid all the same).
* F66 (C152) Messages of a resharing carry no session: a dealer's message of an earlier epoch is accepted in a later resharing to the same new signers and changes the group key without any report; a full replay gives the keys of the earlier resharing again. New signers should draw a fresh `new_signer` entry for each resharing, or callers compare commitments with present verifying keys (C85).
* F67 (C153) Calling `bootstrap` again on the same entries after a failed attempt deals the same polynomials: the attempts end with the same keys, their messages mix, and complaints of all attempts count together towards opening a dealer's secret. Draw new entries with `new_dealer` for a retry.
* F68 (C154) Nothing binds an entry of `new_dealer` to a group: used in two groups, the threshold counts over both together, so t-1 colluders in each open the dealer's secret. Use an entry in one key generation only.

## Mutation testing

`seeded/LOG.jsonl` records one line per wrong program: the definition edited in a scratch copy, the edit, the claim it should break,
the theorems that no longer prove (found by rebuilding everything and dropping exactly the proofs that fail, so that every theorem is judged by its own
statement), and the theorems tightened as a result.
