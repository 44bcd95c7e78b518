{"id": "C01", "title": "Threshold parameters are accepted exactly when 1 <= t <= n", "statement": "ThresholdParameters::new(n,t) returns Ok exactly when n>=1, t>=1 and t<=n, and the Ok value carries exactly n and t. In every other case it returns InvalidThresholdParams in a release build and panics in a debug build; no other outcome exists.", "quantifier": "every pair of u32 values (n,t), both build modes", "why_tests_cant": "2^64 input pairs and two build modes; the in-tree tests sample a handful.", "anchors": ["src/parameters.rs: ThresholdParameters::new (31-43)"]}
{"id": "C02", "title": "Outcome of the Lagrange coefficient computation on every input", "statement": "For every own index i and index list L: if L has a duplicate the call errs with the duplicate message; otherwise if L contains 0 it errs IndexIsZero; otherwise it returns the unique scalar c with c * prod_{j in L, j<>i}(j-i) = prod_{j in L, j<>i} j. It never panics. Contrary to its documentation it does NOT err when i is absent from L or when i is 0 and absent from L.", "quantifier": "every u32 index and every finite list of u32 indices, over every ciphersuite field of characteristic above 2^32", "why_tests_cant": "Unbounded lists; the in-tree test for the absent-index case uses a list that also contains 0 and therefore passes for the wrong reason.", "anchors": ["src/utils.rs: calculate_lagrange_coefficients (35-77)", "src/utils.rs: test invalid_lagrange_interpolation"]}
{"id": "C03", "title": "Lagrange coefficients reconstruct the secret of any short enough polynomial", "statement": "For every polynomial f with at most |L| coefficients and every list L of distinct non-zero indices in any order, summing coefficient(i,L)*f(i) over L gives f(0), whatever the ciphersuite.", "quantifier": "every polynomial, every admissible index list of any length and order", "why_tests_cant": "Holds for infinitely many sets; tests exercise a few fixed (n,t).", "anchors": ["src/utils.rs: calculate_lagrange_coefficients (42-77)", "src/dkg/secret_share.rs: SecretShare::evaluate_polynomial (66-88)"]}
{"id": "C04", "title": "Secret share evaluation computes the polynomial at the receiver index", "statement": "The share produced for (sender, receiver, coefficients) carries these two indices unchanged and the value sum_k a_k * receiver^k, for coefficient vectors of every length (0 for the empty vector).", "quantifier": "every coefficient vector and index pair", "why_tests_cant": "Horner loop with a special-cased last iteration: boundary errors only show on particular lengths.", "anchors": ["src/dkg/secret_share.rs: SecretShare::evaluate_polynomial (66-88)"]}
{"id": "C05", "title": "Fewer than t shares are consistent with every secret", "statement": "Given the shares f(i) of a t-coefficient polynomial at any fewer-than-t distinct non-zero indices, for every candidate secret s there is a t-coefficient polynomial with constant term s producing exactly the same shares; with exactly t-1 shares that polynomial is unique.", "quantifier": "every polynomial, every set of at most t-1 receiver indices, every candidate secret", "why_tests_cant": "A statement about all polynomials that could explain an observation; not executable.", "anchors": ["src/dkg/secret_share.rs: SecretShare::evaluate_polynomial (66-88)", "src/dkg/participant.rs: new_internal (169-193)"]}
{"id": "C06", "title": "Share verification accepts exactly the committed evaluation", "statement": "A decrypted share verifies against a dealer commitment iff its value is the evaluation at the receiver index of the unique polynomial committed to by the points; hence the honest share always verifies and any altered value, or the same value claimed for a receiver where the polynomial differs, is rejected.", "quantifier": "every commitment vector (also adversarial), every share value and receiver index", "why_tests_cant": "The reject direction ranges over all wrong values.", "anchors": ["src/dkg/secret_share.rs: SecretShare::verify (92-107)", "src/dkg/secret_share.rs: evaluate_hiding (261-275)"]}
{"id": "C07", "title": "Encrypted shares decrypt to the dealt value at the addressed participant", "statement": "For any dealer and receiver Diffie-Hellman key pairs, the share encrypted under the dealer's private and receiver's public key decrypts under the receiver's private and dealer's public key to the identical share (value, sender and receiver index), for every rng.", "quantifier": "every pair of DH keys, share and rng state", "why_tests_cant": "Quantifies over all keys and rng outputs.", "anchors": ["src/dkg/secret_share.rs: encrypt_share (294-326), decrypt_share (334-361)", "src/dkg/key_generation.rs: new_state_internal (832-849), to_round_two (942-951)"]}
{"id": "C08", "title": "Proofs of key knowledge made by the library always verify", "statement": "A NIZK proof produced for (index, secret key, g*secret key) with any rng verifies for that index and public key.", "quantifier": "every index, key and rng state", "why_tests_cant": "Over all keys and nonces.", "anchors": ["src/dkg/nizkpok.rs: prove (42-62), verify (65-90)"]}
{"id": "C09", "title": "Proof of knowledge verification is special-sound and binds index and key", "statement": "verify(index,pk) accepts (s,r) iff s is the challenge hash of (index, pk, g*r - pk*s). The hashed byte string determines index, pk and commitment uniquely. A single proof accepted for two different statements (index, key) exhibits a collision of the hash between two different inputs. Two accepting transcripts for the same pk with equal commitment and different challenges determine the secret key as (r1-r2)/(s1-s2).", "quantifier": "every proof, index, key; every pair of accepting transcripts", "why_tests_cant": "Soundness speaks about all adversarial proofs.", "anchors": ["src/dkg/nizkpok.rs: verify (65-90)"]}
{"id": "C10", "title": "Complaints built by the library always verify", "statement": "A complaint built from the maker's DH private key, the accused's DH public key and their shared key verifies against the accused's public key, for any encrypted share and rng, and carries the encrypted share unchanged and the maker's DH public key.", "quantifier": "every key pair, encrypted share, rng state", "why_tests_cant": "Over all keys and nonces.", "anchors": ["src/dkg/complaint.rs: Complaint::new (40-91), verify (99-139)"]}
{"id": "C11", "title": "Complaint verification is a sound equality-of-discrete-log check", "statement": "If the claimed shared key is not (accused public key)*(discrete log of the claimed maker public key) then for any fixed first message (a1,a2) at most one challenge value admits a response accepted by verify; two accepting transcripts with equal first message and different challenges prove that the shared key is the genuine DH key. The hashed string determines all five points and the encrypted share uniquely.", "quantifier": "every adversarial complaint", "why_tests_cant": "Adversarial proof space is infinite.", "anchors": ["src/dkg/complaint.rs: Complaint::verify (99-139)", "src/dkg/secret_share.rs: serialize_with_mode (161-176)"]}
{"id": "C12", "title": "Fresh participants are well formed", "statement": "new_dealer with index<>0 and t>=1 succeeds for every rng: it returns exactly t coefficients, a commitment of exactly t points g*a_k carrying the participant's index, DH public key g*dh_sk, and both proofs verify. new_signer returns no commitment, no key proof and a verifying DH proof. Index 0 gives IndexIsZero for both.", "quantifier": "every parameter, index and rng state", "why_tests_cant": "All rng outputs and thresholds.", "anchors": ["src/dkg/participant.rs: new_dealer (81-93), new_signer (118-126), new_internal (128-220)"]}
{"id": "C13", "title": "Round one classifies participants exactly", "statement": "When bootstrap / new / reshare does not panic, the valid list is, in input order, exactly the participants passing the required checks (DH proof; and unless dealing in a resharing: key proof against the first commitment point; and in bootstrap: commitment length = t) and the misbehaving list is exactly the indices of the others in input order (None iff empty). Fewer than t valid participants gives TooManyInvalidParticipants with that list, a participant count different from n gives InvalidNumberOfParticipants, otherwise success with n reduced to the number of valid participants and t unchanged.", "quantifier": "every participant list, including adversarial ones, every parameters value, all three entry points", "why_tests_cant": "Ranges over all adversarial participant lists.", "anchors": ["src/dkg/key_generation.rs: new_state_internal (704-886), bootstrap (640-658), new (684-701)"]}
{"id": "C14", "title": "Round one panics exactly on a commitment without key proof", "statement": "bootstrap and new panic (for valid parameters) exactly when the participant count is right and some participant has a verifying DH proof, a non-empty commitment and no proof of secret key; so a single remote message can crash every honest participant.", "quantifier": "every participant list and valid parameters", "why_tests_cant": "Absence of every other panic cannot be tested.", "anchors": ["src/dkg/key_generation.rs: new_state_internal (740-749)", "src/dkg/participant.rs: Participant (31-47)"]}
{"id": "C15", "title": "Dealer shares are produced for every listed participant and are decryptable by them", "statement": "After a successful bootstrap or reshare the map of encrypted shares has exactly the participants' indices as keys (also misbehaving ones), and for distinct indices the entry of a participant with DH private key x decrypts under x and the dealer's DH public key to the dealer's polynomial at that participant's index. After new() the accessor returns NoEncryptedShares.", "quantifier": "every participant list, coefficients, rng", "why_tests_cant": "Over all keys, coefficients and lists.", "anchors": ["src/dkg/key_generation.rs: new_state_internal (829-849), their_encrypted_secret_shares (890-897)", "src/dkg/participant.rs: reshare (244-281)"]}
{"id": "C16", "title": "Round two raises a complaint for exactly the bad shares", "statement": "When to_round_two succeeds, the complaints are, in input order, exactly those built from the input shares whose decryption failed or whose value does not verify against the sender's commitment; every complaint verifies against the accused's DH public key; no complaint is raised for a good share.", "quantifier": "every round one state with commitments, every list of encrypted shares, every rng, both build modes", "why_tests_cant": "Over adversarial ciphertext lists of any length.", "anchors": ["src/dkg/key_generation.rs: to_round_two (903-1000)"]}
{"id": "C17", "title": "Round two outcome is exactly determined", "statement": "to_round_two errs MissingShares iff fewer than t shares are given; otherwise errs with the invalid-indices error iff some share has an unknown sender (and in debug builds panics iff a share addressed to someone else comes first); otherwise errs Complaint(list) iff n minus the number of complaints is below t; otherwise succeeds. In a debug build more complaints than n panics; in a release build the subtraction wraps and the call succeeds although more than n-t shares are bad.", "quantifier": "every state, share list and build mode", "why_tests_cant": "Wraparound boundary needs more than n bad shares; unbounded inputs.", "anchors": ["src/dkg/key_generation.rs: to_round_two (920-1000)"]}
{"id": "C18", "title": "A round with only honest participants ends in agreement", "statement": "For all 1<=t<=n and any n dealers with distinct non-zero indices and any rngs, when everyone runs bootstrap on the full list, hands each participant its encrypted share from every dealer (in any order), runs to_round_two and finish: every call succeeds with no misbehaving participant and no complaint, all participants obtain the same group key, and each participant's public key equals the one anybody computes from the published commitments.", "quantifier": "every n, t, index set, rng, delivery order", "why_tests_cant": "All n,t and all orders; tests fix a few.", "anchors": ["src/dkg/key_generation.rs: bootstrap, to_round_two, finish", "src/keys.rs: generate_from_commitments (152-182), to_public (212-219)"]}
{"id": "C19", "title": "finish yields a key matching the public commitments whenever every retained share verified", "statement": "For any state reached against arbitrary (malicious) dealers: if the senders of the retained shares are exactly the dealers whose commitments are retained and each retained share verifies for the state's own index, then finish returns a signing key whose public key equals generate_from_commitments on the retained commitments and passes IndividualVerifyingKey::verify.", "quantifier": "every round two state, every adversarial commitment set", "why_tests_cant": "Adversarial commitments.", "anchors": ["src/dkg/key_generation.rs: finish (1012-1017), calculate_signing_key (1022-1048)", "src/keys.rs: verify (95-131), generate_from_commitments (152-182)"]}
{"id": "C20", "title": "Any t signing keys determine the group key", "statement": "If the retained commitments all have at most t points, then for any set of at least t distinct participants whose public keys match these commitments, interpolating their signing keys at 0 yields a scalar s with g*s = group key. Conversely the group key returned by finish is the interpolation of the retained dealers' first commitment points.", "quantifier": "every commitment set, every subset of at least t participants", "why_tests_cant": "Exponentially many subsets, all adversarial commitments.", "anchors": ["src/dkg/key_generation.rs: calculate_group_key (1055-1083)"]}
{"id": "C21", "title": "Shares withheld in round two silently desynchronise finish", "statement": "The library requires only t shares in round two, and finish interpolates the signing key over received senders but the group key over all retained commitments. There is an all-honest run in which a participant receives t<n correct shares, every call succeeds without complaint, and its resulting public key differs from the one computed from the commitments. When the dropped dealer is also removed from the commitments (as blame does) the keys agree.", "quantifier": "existence of a run; the agreeing direction ranges over all states", "why_tests_cant": "Tests always deliver all shares.", "anchors": ["src/dkg/key_generation.rs: to_round_two (918-922), calculate_signing_key (1022-1048), calculate_group_key (1055-1083)"]}
{"id": "C22", "title": "blame decides every complaint by a fixed table", "statement": "For each complaint blame removes exactly one index: the maker when the accused index is 0, above n, or has no retained commitment, or the complaint proof does not verify against the accused's registered DH key, or the share decrypts under the revealed key and verifies; the accused otherwise. The set of removed indices over a complaint list is exactly the set of these verdicts with respect to the state before the call.", "quantifier": "every round two state and every list of complaints", "why_tests_cant": "Over all adversarial complaints.", "anchors": ["src/dkg/key_generation.rs: blame (1097-1184)"]}
{"id": "C23", "title": "blame is independent of complaint order and duplication and only removes", "statement": "Two complaint lists with the same elements lead to the same state and the same return value. The new state equals the old one except that exactly the blamed indices are absent from retained commitments and retained shares; the returned keys are the registered DH keys of the blamed indices in increasing index order.", "quantifier": "every state and every two complaint lists with equal element sets", "why_tests_cant": "All permutations.", "anchors": ["src/dkg/key_generation.rs: blame (1171-1183)"]}
{"id": "C24", "title": "A genuine complaint removes the cheating dealer everywhere", "statement": "If an honest participant's to_round_two produced a complaint against dealer j (who passed round one) and another honest participant has the same registered keys and commitments with j<=n, then blame there blames j for it and that complaint does not blame its maker.", "quantifier": "every dealer behaviour, every pair of honest participants with the same public view", "why_tests_cant": "Adversarial dealers.", "anchors": ["src/dkg/key_generation.rs: to_round_two (953-977), blame (1097-1184)"]}
{"id": "C25", "title": "A complaint about a correct share backfires on its maker", "statement": "If the dealt ciphertext decrypts under the genuine DH key to a share that verifies, every complaint on it that reveals the genuine DH key, or whose proof does not verify, is decided against the receiver index named in it.", "quantifier": "every complaint, every state", "why_tests_cant": "Adversarial complaints.", "anchors": ["src/dkg/key_generation.rs: blame (1139-1168)"]}
{"id": "C26", "title": "Complaints against high indices are lost after a round one exclusion", "statement": "blame compares the accused index with the already reduced n. Whenever participants are numbered 1..n and at least one was excluded in round one, a genuine complaint against dealer n (who is still a valid dealer) is decided against its honest maker and dealer n's commitment stays.", "quantifier": "a family of runs for a general statement: every state with reduced n and every genuine complaint against an index above it", "why_tests_cant": "Needs combination of a round one exclusion with a round two complaint.", "anchors": ["src/dkg/key_generation.rs: blame (1122-1125), new_state_internal (851-855)"]}
{"id": "C27", "title": "blame can be made to remove an honest dealer", "statement": "blame never checks that the DH public key in a complaint is the registered key of the maker. For every honest dealer j within range and every fresh key x chosen by anyone, the complaint built from x on j's genuine ciphertext verifies, and j is removed unless that ciphertext happens to decrypt under the unrelated key to the correct share.", "quantifier": "every state, honest dealer, attacker key", "why_tests_cant": "Adversarial choice of key; not an execution a test author thinks of.", "anchors": ["src/dkg/key_generation.rs: blame (1118-1169)", "src/dkg/complaint.rs: Complaint (26-35)"]}
{"id": "C28", "title": "Settling complaints in separate blame calls is not equivalent to one call", "statement": "There are states and genuine complaints a (by P) and b (by Q) against the same cheater such that blame([a,b]) removes only the cheater, but blame([a]) followed by blame([b]) also removes the honest Q. For complaints against distinct retained dealers that do not touch each other's verdict inputs, the two ways agree.", "quantifier": "existence of a state and complaints; positive direction over all states and complaint lists whose accused survive", "why_tests_cant": "Schedule-dependent.", "anchors": ["src/dkg/key_generation.rs: blame (1127-1137)", "src/lib.rs: crate documentation"]}
{"id": "C29", "title": "In resharing a rejected complaint removes the dealer whose index equals the maker's", "statement": "During resharing the maker of a complaint is a new signer but removal is keyed by dealer index: for every round two resharing state, a rejected complaint naming receiver j removes honest dealer j's commitment and share although dealer j is unrelated to the complaint.", "quantifier": "every resharing state and rejected complaint", "why_tests_cant": "Two index namespaces coincide; needs specific overlap.", "anchors": ["src/dkg/key_generation.rs: blame (1097-1184)", "src/dkg/participant.rs: reshare (244-281)"]}
{"id": "C30", "title": "No threshold check after blame", "statement": "blame may remove any number of dealers and finish still succeeds: when all are removed finish returns the zero signing key and the identity group key. More generally finish succeeds for every set of retained dealers with non-zero indices and non-empty commitments.", "quantifier": "every round two state", "why_tests_cant": "Over all states.", "anchors": ["src/dkg/key_generation.rs: blame (1097-1184), finish (1012-1017)"]}
{"id": "C31", "title": "Participants settling the same complaints stay consistent", "statement": "Honest participants who start with the same registered keys, commitments and parameters and call blame with the same complaints (in any order) retain the same commitments and obtain the same group key from finish.", "quantifier": "every pair of states with equal public part, every complaint list", "why_tests_cant": "All complaint lists and orders.", "anchors": ["src/dkg/key_generation.rs: blame (1097-1184), calculate_group_key (1055-1083)"]}
{"id": "C32", "title": "Resharing preserves the group key", "statement": "For any at least t1 old participants holding signing keys of a sharing of a secret s with threshold t1, resharing to any n2 new signers with threshold t2: every reshare, new, to_round_two and finish call succeeds, all new signers obtain group key g*s, and any t2 new keys interpolate to s.", "quantifier": "every t1, t2, n2, every old subset of size at least t1, all index sets and rngs", "why_tests_cant": "All parameter combinations and subsets.", "anchors": ["src/dkg/participant.rs: reshare (244-281)", "src/dkg/key_generation.rs: new (684-701), finish"]}
{"id": "C33", "title": "Resharing can be iterated for ever", "statement": "Along every finite sequence of resharings (changing thresholds, index sets and the subset of dealers each time) starting from a sharing of s, including a single imported key, every epoch's group key is g*s.", "quantifier": "every history of resharings of any length", "why_tests_cant": "Induction over unbounded histories.", "anchors": ["src/dkg/participant.rs: reshare", "src/keys.rs: from_single_key (207-209)"]}
{"id": "C34", "title": "Resharing does not bound the degree of a dealer polynomial", "statement": "new() accepts dealer commitments of any length. There is a resharing in which one dealer deals with a commitment longer than t2: no participant is flagged, no complaint arises, finish succeeds for everyone and yet t2 new signing keys do not interpolate to the group key. In bootstrap every valid participant has exactly t points.", "quantifier": "existence of a run; bootstrap direction over all participant lists", "why_tests_cant": "Adversarial dealer with perfectly consistent shares.", "anchors": ["src/dkg/key_generation.rs: new_state_internal (757-762)"]}
{"id": "C35", "title": "Individual verifying key check equals regeneration", "statement": "IndividualVerifyingKey::verify(commitments) succeeds iff generate_from_commitments for its index succeeds and gives the same share; it errs with ShareVerificationError iff regeneration gives another share, and both err on duplicate or zero commitment indices.", "quantifier": "every key and commitment list", "why_tests_cant": "Two separately written loops must agree on all inputs.", "anchors": ["src/keys.rs: verify (95-131), generate_from_commitments (152-182)"]}
{"id": "C36", "title": "Signature verification is the Schnorr equation, twice the same", "statement": "ThresholdSignature::verify and GroupVerifyingKey::verify_signature return the same result on all inputs, Ok iff g*z = R + PK*c with c the challenge hash of (R, PK, message hash); for fixed R, PK and message hash there is exactly one accepted z; no other outcome than Ok or InvalidSignature.", "quantifier": "every signature, key and message hash", "why_tests_cant": "All inputs, including adversarial.", "anchors": ["src/sign/signature.rs: ThresholdSignature::verify (693-711)", "src/keys.rs: verify_signature (247-265)"]}
{"id": "C37", "title": "Precomputed commitment lists are consistent", "statement": "generate_commitment_share_lists(k) returns k secret pairs and k published pairs in the same order, published_i = (g*hiding_i, g*binding_i), tagged with the signer's index, for every key, rng and k.", "quantifier": "every k, key, rng", "why_tests_cant": "All k and rng states.", "anchors": ["src/sign/precomputation.rs: generate_commitment_share_lists (179-206), NoncePair::new (47-55), From<NoncePair> (58-74)"]}
{"id": "C38", "title": "Signing outcome is exactly determined and failures do not touch the nonce list", "statement": "sign errs MissingCommitmentShares iff the nonce position is out of range; otherwise panics iff the signer list is empty; otherwise errs InvalidBindingFactor iff the own index is not in the list, the duplicate error iff indices repeat, IndexIsZero iff 0 occurs; else succeeds. Unless it succeeds the secret list is unchanged.", "quantifier": "every key, list, position, signer list, message", "why_tests_cant": "All inputs.", "anchors": ["src/sign/signature.rs: sign (303-341)"]}
{"id": "C39", "title": "A successful signature consumes exactly its nonce pair", "statement": "After a successful sign at position k the secret list is the old one with exactly one occurrence of the pair at k removed, all others kept in order; so in a list without repeated pairs the used pair is no longer present.", "quantifier": "every list and position", "why_tests_cant": "Lists with repeated pairs; all positions.", "anchors": ["src/sign/signature.rs: sign (325-335)", "src/sign/precomputation.rs: drop_share (211-227)"]}
{"id": "C40", "title": "No nonce pair is used twice in any signing history", "statement": "Over any sequence of sign calls on one secret list (any messages, signer lists, positions, group keys, successes and failures interleaved) the multiset of pairs used plus the pairs left equals the initial multiset; with distinct pairs no two successful calls use the same pair, and at most k calls succeed on a list of k pairs.", "quantifier": "every history of calls", "why_tests_cant": "Unbounded histories.", "anchors": ["src/sign/signature.rs: sign (303-341)", "src/sign/precomputation.rs: drop_share (211-227)"]}
{"id": "C41", "title": "Reusing a nonce pair reveals the signing key", "statement": "If one pair signs three messages/sets (for instance by restoring an old copy of the list) then the three public partial signatures determine the signing key by solving a linear system whenever its determinant is non-zero.", "quantifier": "every three partial signatures sharing a pair", "why_tests_cant": "Algebraic extraction over all values.", "anchors": ["src/sign/signature.rs: sign (330-332)"]}
{"id": "C42", "title": "Honest partial signatures satisfy the per-signer check", "statement": "A partial signature returned by sign, for a signer list whose entry for this signer is the published pair of the nonce used, satisfies g*z = R_i + PK_i*(c*lambda_i), with PK_i = g*sk_i.", "quantifier": "every signer list, key, message and nonce", "why_tests_cant": "All inputs.", "anchors": ["src/sign/signature.rs: sign (303-341), aggregate (670-678)"]}
{"id": "C43", "title": "Any t or more honest signers produce a valid signature", "statement": "For signing keys that interpolate to the group secret over the chosen signer set, signers included in the aggregator in any order with their published pairs, each signing h4(message) with that list, partial signatures delivered in any order: finalize and aggregate succeed and the signature verifies under the group key for h4(message).", "quantifier": "every signer set of size at least t, every inclusion and delivery order, message, nonce lists", "why_tests_cant": "All subsets and orders.", "anchors": ["src/sign/signature.rs: include_signer (473-503), include_partial_signature (537-541), finalize (554-591), aggregate (602-684)"]}
{"id": "C44", "title": "aggregate never returns an invalid signature", "statement": "Whatever was included in the aggregator, if aggregate returns Ok(sig) then sig verifies under the aggregator's group key for h4 of its message, its R is the group commitment of the included signers and its z the sum of the recorded partial signatures.", "quantifier": "every aggregator state", "why_tests_cant": "Adversarial inputs.", "anchors": ["src/sign/signature.rs: aggregate (602-684)"]}
{"id": "C45", "title": "A failed aggregation names exactly the bad partial signatures", "statement": "If aggregate fails for signers with distinct non-zero indices it returns MisbehavingParticipants with exactly the signers whose partial signature violates g*z = R_i + PK_i*(c*lambda_i), in increasing order; an honest signer is never listed; if the recorded public keys interpolate to the group key the list is non-empty.", "quantifier": "every aggregator state", "why_tests_cant": "Adversarial partial signatures, e.g. errors that cancel.", "anchors": ["src/sign/signature.rs: aggregate (645-683)"]}
{"id": "C46", "title": "Aggregator invariants hold along every call history", "statement": "After any sequence of include_signer and include_partial_signature calls: the signer list is strictly increasing by index without duplicates, every index with a recorded public key is in it, each signer keeps the commitment of its first inclusion, the recorded key is that of the last successful inclusion and the recorded partial signature is the last one given for the index.", "quantifier": "every call history", "why_tests_cant": "Unbounded histories.", "anchors": ["src/sign/signature.rs: include_signer (473-503), include_partial_signature (537-541)"]}
{"id": "C47", "title": "remaining_signers and finalize report exactly what is missing", "statement": "remaining_signers returns exactly the included signers without a partial signature, strictly increasing. finalize succeeds iff no signer is missing a partial signature and none lacks a public key; otherwise it errs with [0 and the missing ones in order, if any] followed by those lacking a key. The finalized aggregator has the same signers, signatures, keys and carries h4(message).", "quantifier": "every reachable aggregator state", "why_tests_cant": "All histories.", "anchors": ["src/sign/signature.rs: remaining_signers (518-534), finalize (554-591)"]}
{"id": "C48", "title": "A rejected surplus signer poisons the aggregator", "statement": "When include_signer returns TooManySigners the surplus signer nevertheless stays in the signer list, so the list has more than n entries, and from then on finalize fails whatever partial signatures are supplied and whatever signers are included afterwards.", "quantifier": "every history after such a rejection", "why_tests_cant": "Needs reasoning about all continuations.", "anchors": ["src/sign/signature.rs: include_signer (483-497)"]}
{"id": "C49", "title": "finalize does not enforce the threshold", "statement": "Contrary to its documentation finalize accepts any number of signers below t. With no signer at all finalize succeeds and aggregate panics. With honest signers fewer than t whose keys do not interpolate to the group secret, aggregate errs with an empty list of misbehaving participants (unless the challenge hashes to zero).", "quantifier": "all aggregators without signers; every honest below-threshold set whose interpolation misses the group key", "why_tests_cant": "Contradicts the documentation; tests only check happy paths.", "anchors": ["src/sign/signature.rs: finalize (543-591), encode_group_commitment_list (150-154), aggregate (645-683)"]}
{"id": "C50", "title": "Including a signer twice mixes first commitment and last key", "statement": "If a signer is included twice with different data the aggregator keeps the first commitment pair and the second public key.", "quantifier": "every aggregator state and pair of inclusions", "why_tests_cant": "State dependent; sort stability and dedup order matter.", "anchors": ["src/sign/signature.rs: include_signer (483-501)"]}
{"id": "C51", "title": "Order of inclusion does not matter", "statement": "For distinct signers within n and distinct partial signature indices, every permutation of the inclusion calls leads to the same aggregator state, hence the same result of finalize and aggregate.", "quantifier": "every permutation of every call list", "why_tests_cant": "Factorially many orders.", "anchors": ["src/sign/signature.rs: include_signer (473-503), include_partial_signature (537-541)"]}
{"id": "C52", "title": "Signing transcripts are unambiguous", "statement": "The byte strings hashed for the challenge and for the commitment list determine the group commitment, group key and message hash, respectively every signer's index and both commitment points and their order, uniquely; binding factor inputs of different signers in a session differ.", "quantifier": "every pair of transcripts", "why_tests_cant": "Injectivity over all inputs.", "anchors": ["src/sign/signature.rs: encode_group_commitment_list (150-167), compute_binding_factors (169-198), compute_challenge (261-278)"]}
{"id": "C53", "title": "Hash domains are separated", "statement": "For every context string the domain tags of the four scalar oracles are pairwise distinct and distinct from the complaint tag; and although the two byte oracles prepend their tag without a separator, the byte strings they hash never coincide for the same context string, and each determines the message. Across two ciphersuites whose context strings are one a proper extension of the other the strings hashed by h4 can coincide for different messages.", "quantifier": "every context string and all messages", "why_tests_cant": "All context strings and messages.", "anchors": ["src/ciphersuite.rs: h0..h5 (56-116)", "src/utils.rs: hash_to_field, hash_to_array (79-99)", "src/dkg/complaint.rs: Complaint Context (52-54)"]}
{"id": "C54", "title": "Serialization round-trips", "statement": "For every public serializable value (parameters, keys, shares, encrypted shares, commitments, proofs, complaints, participants, nonce lists, signatures, DKG states of both rounds) from_bytes(to_bytes(v)) = v, also when followed by further bytes, and distinct values have distinct encodings.", "quantifier": "every value of every serializable type with vector lengths below 2^64", "why_tests_cant": "All values.", "anchors": ["src/serialization.rs: ToBytes, FromBytes (7-25)", "src/dkg/secret_share.rs: EncryptedSecretShare (161-209)", "src/dkg/key_generation.rs: BoxedState (583-605)"]}
{"id": "C55", "title": "from_bytes is lenient", "statement": "from_bytes accepts any trailing garbage after a value; ThresholdParameters::from_bytes accepts parameters that the constructor rejects; a DKG state can be read from several byte strings even without trailing garbage.", "quantifier": "every value and every garbage suffix", "why_tests_cant": "Universal over suffixes; the parameter part by witness.", "anchors": ["src/serialization.rs: FromBytes::from_bytes (22-24)", "src/parameters.rs: ThresholdParameters (13-20)"]}
{"id": "C56", "title": "Saving and restoring a DKG session at any point is transparent", "statement": "For every reachable DKG state, serializing it, restoring it and continuing with any calls gives the same results and states as continuing without interruption, at every point of every history.", "quantifier": "every reachable state, crash point and continuation", "why_tests_cant": "Every crash point in every history.", "anchors": ["src/dkg/key_generation.rs: DistributedKeyGeneration (519-605)"]}
{"id": "C57", "title": "drop_share removes at most one equal pair", "statement": "drop_share removes the last element equal to the given share if there is one and leaves everything else in place, otherwise it changes nothing.", "quantifier": "every list and share", "why_tests_cant": "All lists, including repeated elements.", "anchors": ["src/sign/precomputation.rs: drop_share (211-227)"]}
{"id": "C58", "title": "The maker of a complaint is not authenticated", "statement": "A complaint whose share names sender 0 convicts whatever index its receiver field carries, with no valid proof or key at all. For every round two state and every set of victim indices there are complaints anyone can write that make blame remove exactly these indices from the commitments and shares.", "quantifier": "every round two state and every list of victim indices", "why_tests_cant": "an attack property over all states and victim sets; the tests only submit complaints produced by the library", "anchors": ["src/dkg/key_generation.rs:1097-1184"]}
{"id": "C59", "title": "The round is not part of a saved session", "statement": "The bytes of a round-one session are accepted by from_bytes of a round-two session; finish on the result panics. The bytes of a round-two session are accepted as a round-one session, on which round two runs again exactly as on the original, with other shares.", "quantifier": "every round-one state, every successful round two, every later choice of shares", "why_tests_cant": "All states; the misuse crosses the type-state the API advertises.", "anchors": ["src/dkg/key_generation.rs: DistributedKeyGeneration (519-526)", "src/dkg/round_types.rs: RoundOne, RoundTwo (13-19)", "src/serialization.rs: FromBytes (20-25)"]}
{"id": "C60", "title": "Messages have exactly one encoding", "statement": "If the curve library decodes canonical scalars and points only, then every byte string from which a key, share, encrypted share, commitment, proof, complaint, participant, nonce list, partial or threshold signature is read starts with the canonical encoding of that value (no malleability, apart from ignored trailing bytes).", "quantifier": "every byte string and every message type", "why_tests_cant": "All byte strings.", "anchors": ["src/serialization.rs: FromBytes (20-25)", "src/sign/signature.rs: ThresholdSignature (59-74)", "src/dkg/secret_share.rs: EncryptedSecretShare (183-209)"]}
{"id": "C61", "title": "Participants that follow the protocol agree and hold usable keys whatever the dealers did", "statement": "Take any number of participants with the same view of round one (distinct non-zero dealer indices, non-empty commitments) that each received at least one share of every retained dealer, for whom to_round_two succeeded, and that all settle the same set of complaints containing their own, where none of their own complaints accuses an index above n. Whatever commitments and ciphertexts the dealers sent, blame and finish succeed for all of them, they retain the same dealers (exactly those not convicted), get the same list of removed keys and the same group key, each signing key matches the retained commitments at its index and the verifying key regenerated from them, any t of the keys interpolate to the group key if commitments have at most t points, and any t of them produce a valid signature under it.", "quantifier": "all suites satisfying the laws, all builds, all dealer commitments and ciphertexts, any number of participants, all complaint lists (including forged complaints by others)", "why_tests_cant": "Tests play a handful of scripted misbehaviours with three participants; the claim ranges over every byte string a dealer can send and every set of complaints.", "anchors": ["src/dkg/key_generation.rs to_round_two, blame, finish", "src/keys.rs generate_from_commitments", "src/sign/signature.rs aggregate"]}
{"id": "C62", "title": "Same participant list, same view of round one, unless an index is listed twice", "statement": "Two participants calling bootstrap (or new) with the same list in any order either both succeed or both fail. If no index occurs twice they end with the same parameters, Diffie-Hellman keys, commitments and valid participants; with non-zero indices the retained dealers are exactly the listed participants passing all checks, each with a commitment of exactly t points. If an index is listed twice, participants with the same list in different order can finish without any complaint under different group keys.", "quantifier": "all participant lists and permutations, all own secrets and randomness; existential for the duplicate index attack", "why_tests_cant": "Tests use one fixed order of honest distinct participants.", "anchors": ["src/dkg/key_generation.rs 704-886"]}
{"id": "C63", "title": "The index inside a commitment is never checked", "statement": "Replacing the index field of any published commitments by arbitrary values changes no outcome of bootstrap, new, reshare, to_round_two, blame or finish (apart from the copies of the commitments kept in the state); but IndividualVerifyingKey::verify against the published commitments can then reject the keys of all honest participants.", "quantifier": "all relabellings, all lists, states, shares, complaints; existential for the rejection", "why_tests_cant": "It is a noninterference statement over all inputs; tests never relabel a commitment.", "anchors": ["src/dkg/key_generation.rs 731-781", "src/keys.rs 95-182", "src/dkg/secret_share.rs 241-246"]}
{"id": "C64", "title": "A listed participant with index zero blocks the key generation", "statement": "If a participant with index 0 passes the checks of bootstrap or new, then after every successful to_round_two and every blame call without a complaint made in the name of index 0, finish fails with an index-is-zero error: complaints against index 0 are never upheld and convict their makers.", "quantifier": "all lists containing such a participant, all shares, all complaints not made by index 0", "why_tests_cant": "Participants made by the crate cannot have index 0, so tests never contain one; a peer can send one.", "anchors": ["src/dkg/key_generation.rs 731-781, 1012-1083, 1118-1130", "src/utils.rs calculate_lagrange_coefficients"]}
{"id": "C65", "title": "Every secret, proof and encryption has its own randomness", "statement": "The functions taking a generator consume it in one fixed sequence without reusing any draw: new_dealer uses its 1st scalar as DH key, the 2nd as DH proof nonce, the next t as coefficients and the last as proof nonce of the secret key; new_signer draws two scalars; bootstrap and reshare use one fresh AEAD nonce for each participant in the list it encrypts for; new draws nothing; to_round_two draws one scalar for each complaint. The returned generator state is the one after exactly these draws.", "quantifier": "all generator states, parameters, indices, lists", "why_tests_cant": "Tests run with one OsRng and never look at which draw feeds which value; nonce reuse produces valid looking outputs.", "anchors": ["src/dkg/participant.rs 63-289", "src/dkg/key_generation.rs 632-860, 894-1010", "src/dkg/nizkpok.rs 39-63", "src/dkg/complaint.rs 34-79"]}
{"id": "C66", "title": "Equality and ordering", "statement": "== on encrypted shares, shares, commitments, proofs, complaints, keys, parameters, DKG states, commitment shares and lists, partial and threshold signatures holds exactly for identical values; Signer is compared and totally ordered by index alone; Participant is compared by index alone, and partial_cmp returns None exactly when == holds, so a participant is never Some(Equal) to itself although it is equal to itself (the PartialOrd contract fails).", "quantifier": "all pairs of values", "why_tests_cant": "Comparisons of pairs differing in one chosen field form an infinite family; tests compare a few values, and never two distinct participants with one index.", "anchors": ["src/dkg/participant.rs 291-305", "src/sign/signature.rs 34-55", "src/dkg/secret_share.rs 124-131", "src/sign/precomputation.rs 102-134"]}
{"id": "C67", "title": "Announced serialized sizes are exact", "statement": "For every serializable type, to_bytes returns exactly as many bytes as compressed_size announces, including the hand-written sizes of EncryptedSecretShare and DistributedKeyGeneration.", "quantifier": "all values of all types", "why_tests_cant": "A wrong size only changes the preallocated capacity, so no round trip test notices; callers with fixed buffers do.", "anchors": ["src/dkg/secret_share.rs 178-185", "src/dkg/key_generation.rs 554-594", "src/serialization.rs"]}
{"id": "C68", "title": "Key generation and signing succeed from the published list despite misbehaving participants", "statement": "If the honest participants all run bootstrap on the same published list, pass at least one share of every accepted dealer addressed to themselves to round two and settle the union of all complaints, and none of their own complaints accuses an index above the number of accepted participants (such a complaint is misjudged, C26), then they all finish with one group key and consistent public keys, whatever the remaining participants published, dealt or complained about; and any threshold of them sign successfully under that group key.", "quantifier": "all lists with misbehaving participants, all shares and complaints, all orders, all subsets of honest signers", "why_tests_cant": "The adversary chooses arbitrary proofs, commitments, ciphertexts and complaints; tests play out a few scripted misbehaviours.", "anchors": ["src/dkg/key_generation.rs bootstrap, to_round_two, blame, finish", "src/sign/signature.rs sign, aggregate"]}
{"id": "C69", "title": "Retrying without the named signers reaches a signature in a bounded number of attempts", "statement": "With at least threshold protocol-following signers, every finalize/aggregate attempt either returns a valid signature or an error naming at least one selected signer and no protocol-following one; dropping the named signers and retrying therefore fails at most (selected - following) times, and the next attempt succeeds.", "quantifier": "all signer sets, all pairs and partial signatures arriving from misbehaving signers, all numbers of retries", "why_tests_cant": "Concerns adaptive adversaries over sequences of attempts of any length.", "anchors": ["src/sign/signature.rs include_signer, include_partial_signature, finalize, aggregate"]}
{"id": "C70", "title": "Resharing does not check the dealers' keys", "statement": "Whatever signing keys the old participants pass to reshare, the new participants finish with no misbehaving dealer and no complaint, and hold a sharing of the interpolation of those keys. If all dealers but one use their old keys, the group key is preserved exactly if the remaining one does too, and that dealer can reach any target group key with exactly one key value. Callers must compare the group key themselves.", "quantifier": "all dealer sets, keys, thresholds, orders and randomness", "why_tests_cant": "Tests reshare correct keys only; the claim ranges over all wrong keys and all targets.", "anchors": ["src/dkg/participant.rs reshare", "src/dkg/key_generation.rs new, finish, calculate_group_key"]}
{"id": "C71", "title": "Partial signatures are not authenticated", "statement": "After all signers have sent correct partial signatures, one further message with a different value for the index of a signer makes aggregation fail and name exactly that signer, and sending the correct value again restores the signature. Values for indices outside the signer list never change the outcome.", "quantifier": "all sessions, signers, values", "why_tests_cant": "Ranges over all sessions and all forged values.", "anchors": ["src/sign/signature.rs include_partial_signature, finalize, aggregate"]}
{"id": "C72", "title": "A moving adversary below the threshold learns nothing from shares and keys", "statement": "Let fewer participants than the threshold be corrupted after key generation and after each later resharing, possibly different ones each time. For every candidate secret there are other dealings, a valid key generation and valid resharings of that secret, in which all polynomials dealt by corrupted participants, all shares dealt to them and all keys they hold are the same. Commitments are not part of this view. Keys returned by finish in key generation and in any history of resharings are the keys of such dealings.", "quantifier": "all key generations, all numbers of resharings, all thresholds, all corrupted sets below the threshold in each epoch, all candidate secrets", "why_tests_cant": "A statement about existence of alternative executions for every secret and every corruption pattern.", "anchors": ["src/dkg/secret_share.rs evaluate_polynomial", "src/dkg/participant.rs new_dealer, reshare", "src/dkg/key_generation.rs finish"]}
{"id": "C73", "title": "Debug and release builds differ only by panics, and only on misuse", "statement": "For every call of ThresholdParameters::new, bootstrap, new, reshare, to_round_two and sign, the debug build either panics (leaving the nonce list of sign unchanged) or returns exactly what the release build returns, including the state. Over a whole session the debug outcomes are those of the release build, or an initial part of them followed by a panic. With a threshold of at least one, shares addressed to the caller, at most as many shares as accepted participants, and a nonce position other than the largest usize, both builds return the same; to_round_two then does not panic.", "quantifier": "all inputs of the six functions, all sessions (round two, complaints, restarts in any order)", "why_tests_cant": "Tests run one build at a time, and only on the inputs they contain; the claim relates two builds on every input.", "anchors": ["src/parameters.rs new", "src/dkg/key_generation.rs bootstrap, new, to_round_two", "src/dkg/participant.rs reshare", "src/sign/signature.rs sign"]}
{"id": "C74", "title": "After round two nothing panics and only an accepted index zero makes finish fail", "statement": "For every session started with bootstrap or new, continued with to_round_two and any number of calls of blame with arbitrary complaints: blame always returns Ok, and finish returns keys, or an error in the one case that a participant with index zero was accepted; neither panics. generate_from_commitments and verify of individual keys never panic on any commitments.", "quantifier": "all participants, shares, complaints and builds; all numbers of blame calls", "why_tests_cant": "Absence of panics for all adversarial inputs over call sequences of any length.", "anchors": ["src/dkg/key_generation.rs blame, finish, calculate_signing_key, calculate_group_key", "src/keys.rs verify, generate_from_commitments"]}
{"id": "C75", "title": "Values dropped by the library keep no secret, and finish wipes the received shares", "statement": "After a NoncePair, CommitmentShare, Coefficients, SecretShare, EncryptedSecretShare, Diffie-Hellman private key, signing key or key-generation state is dropped, what its memory holds does not depend on its secrets: two values that differ only in secrets (and have the same lengths and map keys) leave the same content, and every scalar, point and byte left of the secret parts is zero. When finish succeeds every received share has been wiped, and whatever its outcome the memory of the state after the call is independent of the shares and of the Diffie-Hellman secret; the keys returned are those of the unwiped computation.", "quantifier": "all values of the types, all states", "why_tests_cant": "Tests cannot observe freed memory, and independence of the secrets is a statement about pairs of executions.", "anchors": ["src/sign/precomputation.rs Drop/Zeroize of NoncePair, Commitment, CommitmentShare", "src/dkg/secret_share.rs Drop of Coefficients, SecretShare, EncryptedSecretShare", "src/keys.rs Drop of DiffieHellmanPrivateKey, IndividualSigningKey", "src/dkg/key_generation.rs finish, calculate_signing_key"]}
{"id": "C76", "title": "Used nonce pairs are not wiped from the buffer of the list, and the last one reveals the key", "statement": "The documentation of drop_share says that a used pair is wiped from memory. The list removes it with Vec::remove, which shifts the later elements down and leaves the cells past the new length as they were. After k successful signatures the memory freed with the list holds k unwiped pairs of the original list. Once the list is used up, the pair of the last signature is one of them, and with the published partial signature it determines the signing key (if the challenge is nonzero). As a list, the buffer behaves as the plain model: the single-use properties are not affected.", "quantifier": "all lists of nonces, all histories of calls of sign with any keys, messages and signer sets, both builds", "why_tests_cant": "The leftover cells are outside the length of the Vec and invisible to safe code; the claim is about all histories.", "anchors": ["src/sign/precomputation.rs drop_share, generate_commitment_share_lists", "src/sign/signature.rs sign"]}
{"id": "C77", "title": "Storing the nonce list after every call keeps single use; reading back an old copy breaks it", "statement": "If between calls of sign the current secret nonce list is written with to_bytes and read back with from_bytes, any number of times, the history is one of sign calls on the list itself: reading never fails, and no pair is used twice. A copy written before a signature and read back later signs again with the same pair, in every session with acceptable signers; the library does not notice, and three such signatures determine the signing key.", "quantifier": "all lists shorter than 2^64, all histories of calls and restarts, all sessions, both builds", "why_tests_cant": "Histories of unbounded length with interruptions at any point.", "anchors": ["src/sign/precomputation.rs SecretCommitmentShareList, drop_share", "src/sign/signature.rs sign", "src/serialization.rs"]}
{"id": "C78", "title": "Partial signatures made with single-use nonces fit every signing key", "statement": "Take any history of sign calls on a nonce list with distinct binding nonces. For every other choice of signing key (same index) there is a nonce list, with the same binding nonces and the same unused pairs, on which the same calls give exactly the same partial signatures. The scalars published in signatures, without the public group elements, therefore do not determine the key, no matter how many are seen.", "quantifier": "all histories of sign calls (failed ones included), all replacement keys, both builds", "why_tests_cant": "A statement about all keys and all histories; the witness list cannot be observed in a run.", "anchors": ["src/sign/signature.rs sign", "src/sign/precomputation.rs drop_share"]}
{"id": "C79", "title": "Encrypted shares are not authenticated: reflecting one removes an honest dealer", "statement": "In a key generation where everybody is honest, let the network add one message to those a participant q receives in round two, naming dealer p as sender. If it does not decrypt to p's share for q, then q (honestly) raises exactly one complaint, against p, and every participant settling it with blame removes p and reports p's key, although p dealt correctly and the correct share was delivered too. No secret is needed to produce such a message: the share that q itself encrypted for p, sent back to q with the names exchanged, decrypts successfully, because both directions use the same key and the names are not part of the encryption.", "quantifier": "all honest runs with t < n, all pairs of participants (index of the dealer at most n), any position of the extra message, all states of the other participants after round two", "why_tests_cant": "Requires an active network adversary and holds for every run; tests only deliver genuine shares.", "anchors": ["src/dkg/secret_share.rs encrypt_share, decrypt_share", "src/dkg/key_generation.rs to_round_two, blame", "src/dkg/complaint.rs verify"]}
{"id": "C80", "title": "Complaints reveal the maker's own shares, and t of them its secret", "statement": "A complaint publishes the Diffie-Hellman key shared by its maker and the accused. The same key encrypts the shares in both directions, so in a key generation of honest participants every complaint made by q against p lets anybody decrypt the share that q dealt to p. Complaints of q against t dealers give, together with the encrypted shares q sent, the secret coefficient of q. Whoever can add messages to what q receives decides against whom q complains (the call still succeeds while at least t dealers are not accused), so no participant has to misbehave.", "quantifier": "all honest runs, all messages received by q, both outcomes of round two that carry complaints", "why_tests_cant": "Confidentiality of values not involved in the complaint; depends on all messages an adversary may inject.", "anchors": ["src/dkg/complaint.rs Complaint::new", "src/dkg/secret_share.rs encrypt_share, decrypt_share", "src/dkg/key_generation.rs to_round_two"]}
{"id": "C81", "title": "Key proofs carry no session and no role", "statement": "A dealer's round one message is accepted in every other key generation exactly when the threshold is the same, and in every resharing. The proof of a signer's Diffie-Hellman key is accepted as the proof of a dealt secret for the same index, so that a dealer message is made of it without a secret; the proof of the dealt secret is accepted as the proof of a Diffie-Hellman key.", "quantifier": "all sessions, parameters, participants, commitments", "why_tests_cant": "Ranges over all pairs of sessions; tests only run one session at a time.", "anchors": ["src/dkg/nizkpok.rs prove, verify", "src/dkg/key_generation.rs new_state_internal", "src/dkg/participant.rs new_dealer, new_signer"]}
{"id": "C82", "title": "A dealer facing fewer than t receivers need not know its secret", "statement": "For fewer than t receivers there are scalars, depending on the receivers only, with which any point A that has a key proof for the dealer's index is turned into a commitment and shares using known multiples of A and of the generator only: the commitment has A as public key and passes round one, and no receiver raises a complaint against the dealer.", "quantifier": "all thresholds, receiver sets, points, proofs, share polynomials, other messages", "why_tests_cant": "A statement about what a dealer must know, uniform in the committed point.", "anchors": ["src/dkg/nizkpok.rs verify", "src/dkg/secret_share.rs verify", "src/dkg/key_generation.rs to_round_two"]}
{"id": "C83", "title": "Complaints select the group key among those of the sets of dealers", "statement": "In a run of honest participants, messages injected to one participant under the names of chosen dealers (leaving at least t) make everybody who settles the resulting complaints finish with the group key of exactly the other dealers. Removing a dealer leaves the group key unchanged exactly when its secret lies on the polynomial through the secrets of the others.", "quantifier": "all honest runs, injected messages, receivers, sets of dealers", "why_tests_cant": "Ranges over all subsets of dealers and all forged messages, and compares group keys across runs.", "anchors": ["src/dkg/key_generation.rs to_round_two, blame, finish, calculate_group_key"]}
{"id": "C84", "title": "A signer using another key than the announced one is named, exactly", "statement": "In any aggregation whose announced keys interpolate to the group key and whose other partial signatures are right, let one signer follow the protocol with a signing key k while g*x is announced for it (for example its key of the epoch before a resharing). If k differs from x and the challenge is not zero, aggregation fails naming exactly this signer; if k = x or the challenge is zero, it yields a signature.", "quantifier": "all call histories, signer sets, keys, nonce lists, messages, builds", "why_tests_cant": "Tests try single wrong values; that no key other than the announced one can pass, for any set of signers and any nonces, is an algebraic statement.", "anchors": ["src/sign/signature.rs sign, include_signer, aggregate"]}
{"id": "C85", "title": "Resharing keeps the group key if the caller compares commitments with the old keys", "statement": "New signers call new on a published list of dealers, settle the same complaints and finish; none of their own complaints accuses an index above the number of accepted dealers (C26). If every accepted dealer is an old participant whose commitment starts with its old verifying key and has at most t2 points, and t1 accepted dealers are not convicted, then, whatever the dealers published and dealt, all new signers finish with the old group key, any t2 of them hold it, the public keys evaluated from the retained commitments are again such a book of keys, and any t2 sign under the old key. The Participant produced by reshare passes this check exactly if it was given the signing key of the book.", "quantifier": "all old sharings, dealer lists, dealer behaviours, sets of complaints, new signer sets", "why_tests_cant": "Quantifies over arbitrary behaviour of the dealers; complements C34 and C70, which show the library does not check this itself.", "anchors": ["src/dkg/participant.rs reshare, public_key", "src/dkg/key_generation.rs new, to_round_two, blame, finish"]}
{"id": "C86", "title": "Positions in the secret nonce list shift after each signature", "statement": "After any sequence of calls to sign on a list of distinct nonce pairs the list holds the unused pairs in their old order, so a pair published at position j is found at j minus the number of used pairs published before it. A signer that passes the positions 0, 1, 2, ... of its published list uses the pairs 0, 2, 4, ... and gets MissingCommitmentShares with half of the list unused. If the other signers follow the protocol and the pair used is not the announced one, aggregation fails naming exactly this signer, except if both pairs combine to the same nonce, when it succeeds.", "quantifier": "all lists, sequences of signing calls, sessions, keys, messages", "why_tests_cant": "Quantifies over all sequences of sessions; the tests sign once per list at position zero.", "anchors": ["src/sign/signature.rs sign (303-342)", "src/sign/precomputation.rs drop_share (211-227)"]}
{"id": "C87", "title": "A signer whose session data differ from the aggregator's is named, exactly", "statement": "sign accepts any message hash, group key and list of signers naming the caller, also a list in which its own entry is not its nonce pair. If the other partial signatures are right, aggregation fails naming exactly this signer if the value is not the one required in the aggregator's session, and succeeds if it is. A list in another order gives the same weights but another transcript; the difference of the two results is e(b'-b) + w x (c'-c). With another group key the signer is named unless the challenges agree or its key is zero.", "quantifier": "all sessions, signer lists, message hashes, group keys, nonces, keys", "why_tests_cant": "Quantifies over all mismatches between the views of signer and aggregator; tests always pass the aggregator's own list.", "anchors": ["src/sign/signature.rs sign (303-342), aggregate (602-680)"]}
{"id": "C88", "title": "Key proofs, complaints and signatures can be made without a key by choosing one hash value, and answers for two hash functions reveal the key", "statement": "For any public key, any challenge and any response there is a hash function, different from the given one at a single input, for which the verifier accepts: the proof of possession, the complaint (also one with a wrong shared key) and the group signature. A prover knowing the key makes exactly this proof for exactly one value of its random scalar. So a transcript carries no information about the key beyond the public key. Conversely valid signatures, or valid key proofs, with one nonce commitment for two hash functions that disagree there determine the secret key by (z - z') / (c - c').", "quantifier": "all keys, messages, challenges, responses, hash functions", "why_tests_cant": "Quantifies over hash functions, which a test cannot vary, and over all transcripts.", "anchors": ["src/dkg/nizkpok.rs prove and verify", "src/dkg/complaint.rs new and verify", "src/sign/signature.rs verify"]}
{"id": "C89", "title": "A whole signing session can be made from public keys alone by choosing its hash values", "statement": "For any set of signers, public keys, binding commitments, responses, binding factors and challenge there are nonce commitments and a hash function, changed only at the challenge input and at one binding input per signer, such that the group signature verifies, every aggregator given these values accepts, and each honest signer with its real key sends exactly the chosen response for one value of its hiding nonce. So all that signing publishes is independent of the signing keys given the public keys.", "quantifier": "all signer sets, keys, commitments, responses, factors, challenges, messages", "why_tests_cant": "A statement about all hash functions and all sessions.", "anchors": ["src/sign/signature.rs sign (303-342), aggregate (602-680)"]}
{"id": "C90", "title": "What fewer than t receivers see of a dealer can be made from its public key alone", "statement": "For any t-1 distinct receivers with nonzero index there is one vector of scalars with which, for every public key A, any chosen share values and any key proof (s, r), commitments can be computed from A that are accepted in round one (under a hash function changed at one input) and against which each of these receivers accepts its chosen share. They are exactly what a dealer that knows a secret behind A publishes and deals for a polynomial with these values, such a polynomial exists for every such secret, and its proof is (s, r) for one value of its random scalar.", "quantifier": "all thresholds, receivers, keys, share values, proofs", "why_tests_cant": "A secrecy statement over all dealers and all coalitions of t-1 receivers.", "anchors": ["src/dkg/key_generation.rs new_internal", "src/dkg/secret_share.rs evaluate_polynomial, verify"]}
{"id": "C91", "title": "One dealer's secret spreads over all group keys", "statement": "Whatever the other dealers published and whatever complaints were settled, the group key returned by finish is B + w P where P is one dealer's public key, w is not zero and B, w depend on the others only: keys agree exactly if this dealer's keys do. In a key generation by honest participants, for every key and all secrets of the others there is exactly one secret of the remaining dealer with which everybody ends with this key. So one uniformly chosen secret, independent of the others, makes the group key uniform.", "quantifier": "all sessions, dealers, keys, parameters", "why_tests_cant": "Quantifies over all secrets and all group keys.", "anchors": ["src/dkg/key_generation.rs calculate_group_key (1055-1083), finish (1012-1017)"]}
{"id": "C92", "title": "Parameters outside 1 <= t <= n are refused by key generation and ignored elsewhere", "statement": "The fields of ThresholdParameters are public and from_bytes does not check them. Whatever their values, every state returned by bootstrap or new carries parameters the constructor accepts, with the given t and as n the number of valid participants. With other parameters bootstrap and new return a count error, panic on a commitment without key proof, and otherwise return InvalidThresholdParams (panic in a debug build) for t = 0 and TooManyInvalidParticipants for t > n (with the list of flagged participants, which may be empty). With t = 0 new_dealer and reshare panic in every build; new_signer ignores the parameters; the aggregator never looks at t: with the same n the same calls give the same outcomes, signers remaining, finalize and aggregate results.", "quantifier": "all parameters, participant lists, indices, keys, generators and builds; all histories of aggregator calls", "why_tests_cant": "Tests use parameters made by the constructor. Values outside its range reach every entry point, and that no session state ever carries them, and that the aggregator's whole behaviour is independent of t, are statements about all calls and histories.", "anchors": ["src/parameters.rs:14-43", "src/dkg/participant.rs:128-220", "src/dkg/participant.rs:244-281", "src/dkg/key_generation.rs:704-886", "src/sign/signature.rs:440-591"]}
{"id": "C93", "title": "One group key for the whole life of a key", "statement": "Start with any key generation (the followers run bootstrap, to_round_two, blame and finish on the published list; everyone else publishes and sends what they like), then carry out any number of resharings (reshare by the current holders, then new, to_round_two, blame and finish by the new signers). In every resharing the callers check that each accepted dealer commits to its current verifying key (first commitment point equal to the value of the retained commitments at its index) with at most t points, and at least the current threshold of dealers is not convicted; in no step does a follower complain about an index above the number of accepted participants (C26). Then: every step succeeds for everybody following it; the group verifying key after every step equals the first one; every signing key handed out at any epoch matches the verifying key computed from that epoch's commitments; any t (current threshold) of the current holders produce a signature that verifies under the very first group key; and signing attempts with misbehaving signers and t honest ones either give a signature valid under the first key or name only misbehaving signers.", "quantifier": "all ciphersuites, key generations, numbers of resharings, thresholds and committees of each epoch, behaviours of the non-followers, complaints, messages, sets of signers", "why_tests_cant": "The number of epochs, the committees and the misbehaviour in each of them are unbounded; a test replays a handful of generations.", "anchors": ["src/dkg/participant.rs:244-281", "src/dkg/key_generation.rs:640-700", "src/dkg/key_generation.rs:903-1075", "src/dkg/key_generation.rs:1097-1190", "src/sign/signature.rs:554-660"]}
{"id": "C94", "title": "Verifying keys of t participants determine all others and the group key, fewer do not", "statement": "IndividualVerifyingKey::generate_from_commitments with index 0 and the retained commitments, in any order, returns the group key that finish returns (when the index written in each commitment is its dealer's). For commitment lists with at most t points each: two lists giving the same verifying keys at t distinct indices give the same verifying key at every index and the same group key, and the group key is the Lagrange interpolation of any t or more distinct keys that verify accepts. Conversely fewer verifying keys than the commitment of some dealer has points fit every group key: for every point P there is another commitment of this dealer, of the same length, with which all those keys are unchanged and the group key is P.", "quantifier": "all ciphersuites, sessions, commitment lists with distinct non-zero dealer indices, thresholds, sets of indices, group keys", "why_tests_cant": "The uniqueness and the freedom quantify over all commitment lists and all points; a test evaluates single lists.", "anchors": ["src/keys.rs:95-131", "src/keys.rs:152-182", "src/dkg/key_generation.rs:1012-1075"]}
{"id": "C95", "title": "The text of an error determines the error", "statement": "Two errors with the same Display text are the same error with the same numbers, indices and message, or both are Error::Complaint with the same debug output of the complaints. Errors of the interpolation are handed on by finish and IndividualVerifyingKey::verify as Custom with the text of the original error, so that the duplicate-index message is shown quoted and escaped a second time. Finding: the error of finalize reads \"These participants provided invalid partial signatures\" although every participant it names (other than the marker 0) sent no partial signature or has no key on record.", "quantifier": "all errors (all numbers, lists, strings), any Debug output of complaints, all states, key lists and aggregators", "why_tests_cant": "The text is unbounded (lists of indices, arbitrary messages), so distinctness needs an argument about the formats; a test compares a few texts.", "anchors": ["src/error.rs:69-141", "src/dkg/key_generation.rs:1033-1042", "src/keys.rs:117-121", "src/sign/signature.rs:554-591"]}
{"id": "C96", "title": "The identity element is accepted as a key", "statement": "Under the identity element as group key, GroupVerifyingKey::verify_signature accepts a signature (R, z) exactly if R = z times the generator, for every message, so anybody can sign everything; for any other key, a pair accepted for one message is refused for every message with another challenge. No function rejects the identity: round one accepts a dealer whose Diffie-Hellman key, public key and commitments are all the identity (its zero shares verify), the shares an honest dealer makes for a participant with the identity as Diffie-Hellman key open with a key everybody knows, and the new participants of a resharing whose keys interpolate to zero finish without error with the identity as group key.", "quantifier": "all suites, messages, signatures, group keys, parameters, indices, participant lists, generators, resharings", "why_tests_cant": "The claim ranges over all messages and keys, and the identity never occurs in random tests.", "anchors": ["src/keys.rs:247-265", "src/sign/signature.rs:693-714", "src/dkg/key_generation.rs:731-781", "src/dkg/nizkpok.rs:65-90", "src/dkg/key_generation.rs:832-849"]}
{"id": "C97", "title": "A signature tells nothing about its signers", "statement": "Two aggregators for the same message and group key, whatever their signers, parameters, partial signatures and history, that return signatures with the same nonce commitment R return the same signature. Every valid signature can have been made by every set of at least t key holders: there are nonces with which an honest session of exactly these signers, from include_signer to aggregate, returns exactly this signature.", "quantifier": "all suites, messages, sharings of a key, thresholds, valid signatures, sets of at least t holders, delivery orders, finalized aggregators", "why_tests_cant": "It compares all possible sets of signers and needs the existence of nonces, which are never observed.", "anchors": ["src/sign/signature.rs:602-686", "src/sign/signature.rs:303-343", "src/sign/signature.rs:693-714"]}
{"id": "C98", "title": "No nonce is used twice in the life of a signer", "statement": "Over any sequence of calls in which a machine generates nonce lists for any keys, signs with any position of any of its lists (successfully or not) and uses its random generator for other things, the nonces of the pairs used for signatures and of the pairs left in the lists are exactly those held at the start plus h3(random string, key) for each random string drawn, each once. If no string was drawn twice for the same key and h3 has no collision among the inputs hashed, no hiding or binding nonce occurs in two signatures, twice in one signature, or in a signature and in a list that is left.", "quantifier": "all suites, all interleavings of list generation, signing with any lists, keys, messages, group keys and signers, all generators", "why_tests_cant": "It is a statement about unbounded histories over several lists and keys; a test sees a few signatures of one list.", "anchors": ["src/sign/precomputation.rs:24-56", "src/sign/precomputation.rs:179-228", "src/sign/signature.rs:303-343"]}
{"id": "C99", "title": "Binding factors ignore the group key", "statement": "The group key passed to sign enters the challenge only, not the binding factors. So if one nonce pair (for instance from a restored list) is used by one key for the same message and signers under two group keys, the two partial signatures give the signing key by one division: (z1 - z2) / (weight * (c1 - c2)), whenever that weighted difference of challenges is not zero. When instead the two uses have different binding factors (another message or other signers), two partial signatures still fit every signing key: for each key there are nonces with which sign returns exactly the same two results. (RFC 9591 hashes the group key into the binding factors; this library does not.)", "quantifier": "all suites, builds, keys, nonce pairs, lists and positions, messages, group keys, signer lists", "why_tests_cant": "The statement concerns what every pair of outputs reveals and the existence of other keys explaining them; a test checks that signatures verify.", "anchors": ["src/sign/signature.rs:169-198", "src/sign/signature.rs:261-278", "src/sign/signature.rs:303-343"]}
{"id": "C100", "title": "Debug output and logged errors give secrets away", "statement": "Printing a value with {:?} prints its secrets in full: the text of a signing key, a Diffie-Hellman private key, a list of coefficients, a share, a nonce list or a whole key generation session contains the text of each secret scalar in it. If the texts of scalars and points can be told apart, the Debug text of every type (keys, shares, commitments, proofs, complaints, participants, sessions, nonce lists, signatures, aggregators, errors) determines the value, and the {} text of an error determines the error including its complaints. So the log line of an honest participant whose to_round_two failed with complaints opens the shares it dealt to the accused; t of them give its secret.", "quantifier": "all suites, formatters of external types, values, sessions, honest key generations and received shares", "why_tests_cant": "The claim is about every value of every printable type and about what can be inferred from a text.", "anchors": ["src/keys.rs:22-23", "src/keys.rs:186-192", "src/dkg/secret_share.rs:32-54", "src/sign/precomputation.rs:77-149", "src/dkg/key_generation.rs:519-555", "src/error.rs:10-141", "src/dkg/key_generation.rs:985-989"]}
{"id": "C101", "title": "Complaints open the accused's shares and, in a resharing, the group secret", "statement": "A complaint publishes the Diffie-Hellman key between its maker and the accused, which opens what the accused sent to the maker even when the message complained about did not come from the accused. In a key generation, complaints about one honest dealer by t different makers give the dealer's secret. In a resharing, complaints about one old holder by t2 different new signers give that holder's old signing key, and those of t1 holders the group secret. Someone who can only add messages to what the new signers receive chooses whom they complain about, up to n1 - t1 complaints per new signer without any call failing; if t1*t2 <= n2*(n1 - t1) one worthless message per complaint suffices to make all calls return and yet read the group secret off the published complaints, with no participant corrupted. The documentation asks for messages signed by their senders; without that, this is what is lost.", "quantifier": "all suites, builds, honest old holders and new signers, thresholds, message orders, randomness, and all messages that do not open as the genuine ones", "why_tests_cant": "It combines what every complaint list reveals with a counting argument over all committee sizes and all deliveries.", "anchors": ["src/dkg/key_generation.rs:903-1003", "src/dkg/complaint.rs:18-110", "src/dkg/participant.rs:244-290", "src/lib.rs:11-12"]}
{"id": "C102", "title": "A key generation with a prescribed group key and signing sessions under it can be made without secrets", "statement": "Take any group element Y, any t-1 receivers and whatever first commitment points the other dealers chose. There is a public key for one more dealer such that every key generation completing with these first points has group key Y. For it, with freely chosen shares for the receivers and a freely chosen proof, commitments can be computed that are accepted in round one and by these receivers; together with any list of signing sessions (chosen responses, second nonce points, binding factors, challenges and messages) all of it is accepted at once under one hash function changed only at the inputs of that proof and those sessions, provided no input occurs twice: every session's aggregator succeeds, its signature verifies under Y, and the public keys of any t members interpolate to Y. A dealer and signers that know the secrets send exactly these values for matching randomness. So the public values and t-1 receivers' shares of a whole life of a group add nothing to knowing the group key.", "quantifier": "all suites, thresholds, receivers, dealers, group keys, share values, proofs and lists of signing sessions", "why_tests_cant": "A simulation statement over every group key, coalition and sequence of sessions.", "anchors": ["src/dkg/key_generation.rs: new_internal, to_round_two, finish (1012-1017)", "src/dkg/nizkpok.rs: prove, verify", "src/sign/signature.rs: sign, aggregate, verify"]}
{"id": "C103", "title": "What later calls do with a session read from arbitrary bytes, and every panic of aggregate", "statement": "from_bytes accepts any bytes that parse as a session; only the distinctness of the map keys is then guaranteed. On such a session finish panics exactly if there are no shares, or if the shares have no index zero and some retained commitment has no point while no dealer has index zero; it errs (with the index-zero text, InvalidGroupKey or IndexIsZero) exactly if a share has index zero, there are no commitments, or a dealer has index zero; otherwise it returns the interpolation of first points and of shares. blame panics exactly for a nonempty list of complaints on a session without commitments or without shares and never errs. to_round_two on a session without commitments errs MissingShares below t shares and otherwise panics at the first share of a known sender. aggregate panics exactly when no signer was ever included, and with an included index zero returns a valid signature or IndexIsZero.", "quantifier": "all byte strings, states, complaints, share lists and builds; all histories of aggregator calls", "why_tests_cant": "Exactness over every parsable byte string and every state, including those no API call produces.", "anchors": ["src/serialization.rs: from_bytes (20-25)", "src/dkg/key_generation.rs: to_round_two (903-1000), finish (1012-1017), calculate_signing_key (1022-1048), calculate_group_key (1055-1083), blame (1097-1184)", "src/sign/signature.rs: aggregate (602-684)"]}
{"id": "C104", "title": "Encodings carry no type", "statement": "The bytes of an IndividualSigningKey and of a PartialThresholdSignature are the same, and the same bytes parse as both. Bytes of one type are accepted by from_bytes of another, with anything following: a Participant or an announced Signer as IndividualVerifyingKey (the DH key, the hiding commitment), a signature, complaint or complaint proof as GroupVerifyingKey, a key proof, nonce or nonce pair as DiffieHellmanPrivateKey, a (possibly encrypted) share as ThresholdParameters, a nonce pair as single nonce, a list of published nonce pairs as polynomial commitment. The verifying keys so read are the public keys of signing keys made of the sender's DH private key, respectively of its nonce. The reverse of the last is noticed: a nonempty polynomial commitment never parses as a list of nonce pairs (if point decoding is canonical).", "quantifier": "all values, all trailing bytes, all suites", "why_tests_cant": "Acceptance and the exact value read over all values of each type.", "anchors": ["src/serialization.rs: to_bytes, from_bytes (7-25)", "src/keys.rs (22-41, 65-71, 186-192, 229-235)", "src/dkg/participant.rs: Participant (30-47)", "src/sign/signature.rs: Signer, PartialThresholdSignature, ThresholdSignature (25-32, 59-74)", "src/sign/precomputation.rs (77-83, 109-121, 158-166)"]}
{"id": "C105", "title": "A state of the random generator used twice gives secrets away", "statement": "Two dealers created by new_dealer from one generator state have the same DH key and secret; from their published proofs alone anyone computes the DH private key, and the dealt secret if the thresholds are equal, whenever the two challenges (hashes of inputs starting with the two indices) differ. Complaints at the same position of the lists handed out by two calls of to_round_two from one generator state, for one DH key, reveal that key whenever their challenges differ. Two calls of bootstrap from one state for one list encrypt the shares of each receiver under the same nonce. Nonce lists of one key made from one state agree as far as both go, so three signatures at one position reveal the key; with a generator that keeps returning the same bytes all nonces of a list are one scalar and two signatures at any positions reveal the key (up to a zero determinant).", "quantifier": "all suites, parameters, indices, keys, generator states, messages, lists and positions", "why_tests_cant": "An exact extraction formula over all pairs of runs.", "anchors": ["src/dkg/participant.rs: new_internal (128-220)", "src/dkg/nizkpok.rs: prove (42-62)", "src/dkg/complaint.rs: new (40-91)", "src/dkg/key_generation.rs: to_round_two (903-1000)", "src/dkg/secret_share.rs: encrypt_share (294-326)", "src/sign/precomputation.rs: nonce_generate (24-35), generate_commitment_share_lists (179-206)"]}
{"id": "C106", "title": "What the value returned by blame says about who was blamed", "statement": "The documentation says blame returns the indices of the blamed participants; it returns Diffie-Hellman keys. A key is returned exactly if it is registered for some blamed index; if the registered keys are pairwise distinct, the returned list says of every registered index whether it was blamed. A blamed maker without a registered key (in a resharing, every new signer whose index no dealer has) is not reported at all: the call returns what it returns for no complaint. If two indices share a key, blaming either returns the same list while different commitments are removed, and nothing prevents this: whoever knows a Diffie-Hellman secret can register it under any further index with any polynomial and meet every round one condition. Registered keys are never removed and verdicts are not remembered: a second call with the same complaints blames and reports the maker of every one of them, also of those that were justified the first time; if none was justified it returns the same keys again and changes nothing.", "quantifier": "every round two state, complaint list, index, key and polynomial", "why_tests_cant": "All states and complaints; needs colluding or duplicate identities that no test sets up.", "anchors": ["src/dkg/key_generation.rs: blame (1085-1184)", "src/dkg/participant.rs: new_internal (128-220)"]}
{"id": "C107", "title": "The documented session succeeds for every group and every randomness", "statement": "The programs of the crate documentation, with any number of participants instead of three, never return an error, never hit a failing unwrap or assert and never panic: key generation (all complaints empty, all group keys equal), the check of the verifying keys against the commitments taken in another order, precomputation of one commitment share each, signing by any chosen positions of at least threshold size in any order, aggregation and verification, resharing to any other indices and parameters with the group key unchanged, and a second signature by the new group that verifies under the old key.", "quantifier": "every ciphersuite, build, n, t with 1<=t<=n, list of n distinct non-zero indices, the same for the new group, chosen signers, message and generator state", "why_tests_cant": "The doc tests run three participants with one random generator; the claim is for every group size, index set, signer subset and randomness.", "anchors": ["src/lib.rs: doc programs (53-970, 1229-1590)", "src/dkg/key_generation.rs: doc programs (53-478)"]}
{"id": "C108", "title": "The documented sessions with a misbehaving participant end as documented, but for named coincidences", "statement": "The two documented programs about misbehaviour, with any number of participants. If Bob publishes another participant's Diffie-Hellman key, then either his proof of knowledge happens to verify for that key and the program stops at its first assertion, or every other participant reports exactly Bob as misbehaving, continues, and all of them end with one group key and signing keys of which any t recover its secret. If Bob zeroes the nonce of the share for a victim, then either the changed ciphertext happens to decrypt to the correct share (nobody complains and the program stops at its assertion), or the victim makes exactly one complaint and nobody else any, every settlement returns exactly Bob's key, and all but Bob end with one group key and signing keys of which any t recover its secret. The second needs Bob's index to be at most n: with Bob numbered above n the victim is convicted instead and the documented assertion fails.", "quantifier": "every ciphersuite, build, n, t with 1<=t<n, list of n distinct non-zero indices, position of Bob, victim and generator state", "why_tests_cant": "The doc tests run one session of three with one generator; the claim covers all groups, positions and randomness and names every case in which the documented outcome fails.", "anchors": ["src/lib.rs: doc programs on misbehaviour (971-1226)", "src/dkg/key_generation.rs: to_round_two, blame, finish (830-1184)"]}
{"id": "C109", "title": "Everything can be sent: sessions over bytes equal sessions in memory", "statement": "Every value the API hands out (dealers, coefficients, Diffie-Hellman keys, participant lists, round one and round two states, encrypted shares, complaints, group and signing keys, commitment lists before and after signing, partial and threshold signatures) can be written with to_bytes and is read back by from_bytes as the same value, whatever bytes follow; so is every value that from_bytes itself returned, whatever bytes it came from. Hence the documented programs (key generation, check, signing, resharing, signing by the new group; and the session with a garbled share, complaint and blame) have exactly the same outcome, including errors and panics, when all messages and all stored secrets and states go through bytes.", "quantifier": "all cipher suites with nonces and ciphertexts shorter than 2^64, all parameters, indices, generators, messages, participants lists and byte strings, debug and release builds", "why_tests_cant": "the serialization test writes and reads one key generation of three participants; that no reachable value of any size falls outside the codec, and that non-canonical input is passed on unchanged, is a statement about all values", "anchors": ["src/serialization.rs:7-25", "src/dkg/key_generation.rs:519-614", "src/dkg/secret_share.rs:183-209", "src/sign/precomputation.rs:145-166", "src/dkg/key_generation.rs:2410-2640"]}
{"id": "C110", "title": "The order in which messages arrive does not matter, unless a sender's message is there twice", "statement": "Take one participant's session (bootstrap or new with the published participants, to_round_two with the received shares, blame with the published complaints, finish). If it succeeds and participant indices and share senders are distinct, then it also succeeds with the participants in any other order, the shares in any other order, the complaints in any order and multiplicity and other randomness; the state after round two, the blamed keys, the group key and the signing key are the same and the complaints raised say the same (they differ in order and proof only). If a sender's message is there twice this is false: a complaint is raised in both orders, but which of the two values enters the signing key depends on the order.", "quantifier": "all suites, parameters, participants, shares and complaints (arbitrary contents, dishonest or not), permutations, generators, builds", "why_tests_cant": "all tests pass the messages in index order; the claim ranges over all orders and all contents", "anchors": ["src/dkg/key_generation.rs:704-886", "src/dkg/key_generation.rs:903-1000", "src/dkg/key_generation.rs:1097-1180"]}
{"id": "C111", "title": "The resharing tests hold for every group, value and generator", "statement": "Two programs of the repository's test suite, written for any number of participants. (1) The owner of any Schnorr secret key turns it into a one-of-one signing key and reshares it to new signers: the program never fails, the new signers' keys are a threshold sharing of that key (any t recover it, the group key each obtains is its public key), and the signature of the first t of them verifies under the old public key. (2) An old group with at least one member more than its threshold reshares, and one dealer sends one new signer a properly encrypted but arbitrary value: if the value happens to be the one the dealer should have sent, nobody complains and the program stops at its assertion; otherwise the victim makes exactly one complaint, blame returns exactly that dealer's Diffie-Hellman key to everybody including the victim, all finish with the old group key, and any t of the new keys recover the old secret. As everywhere (C26), the dealer's index must not exceed the number of dealers.", "quantifier": "every key, value, threshold, number of dealers and signers, choice of indices, position of the cheater and victim, message and generator", "why_tests_cant": "The tests run 3 dealers, 5 signers, the value 42 and one random seed each, and do not let the victim finish.", "anchors": ["tests/ice_frost.rs: resharing_from_non_frost_key (289-422)", "src/dkg/key_generation.rs: keygen_verify_complaint_during_resharing (2094-2407)", "src/keys.rs: from_single_key (207-209)"]}
{"id": "C112", "title": "Which errors each call returns, and which errors are never returned", "statement": "For every public call the complete list of errors it can return: params new InvalidThresholdParams; new_dealer/new_signer IndexIsZero, for index zero only; bootstrap/new InvalidNumberOfParticipants (lengths differ), TooManyInvalidParticipants and, with threshold zero only, InvalidThresholdParams; reshare IndexIsZero (index zero), InvalidNumberOfParticipants, TooManyInvalidParticipants; their_encrypted_secret_shares NoEncryptedShares; to_round_two MissingShares, Complaint, Custom (unknown sender); blame none; finish on any session that can be read from bytes Custom (text of the zero-index error), IndexIsZero, and InvalidGroupKey only without commitments; check_degree, the proof and complaint checks and signature verification one error each; IndividualVerifyingKey::verify ShareVerificationError or Custom, where generate_from_commitments reports the same two faults as IndexIsZero and another Custom text; sign MissingCommitmentShares, InvalidBindingFactor, Custom (duplicates), IndexIsZero; include_signer IndexMismatch (of differing indices) and TooManySigners; finalize a non-empty MisbehavingParticipants; aggregate MisbehavingParticipants, and IndexIsZero only if a signer zero was included; from_bytes DeserializationError. Over all calls exactly these errors occur, each in every cipher suite; SerializationError, CompressionError, DecompressionError, DecryptionError, EncryptionError, InvalidMSMParameters and InvalidChallenge never do, and Custom carries one of four texts.", "quantifier": "every call with every argument, every session readable from bytes, every aggregator history, every suite satisfying the laws (writing to a vector and encrypting a scalar do not fail)", "why_tests_cant": "Tests show that an error occurs; that no other one can needs all inputs.", "anchors": ["src/error.rs: Error (11-67)", "src/keys.rs: verify (117-121), generate_from_commitments (164-176)", "src/dkg/key_generation.rs: 722-728, 783-787, 893-897, 919-989, 1033-1083", "src/sign/signature.rs: sign (303-341), include_signer (473-503), finalize (554-591), aggregate (602-684)", "src/utils.rs: calculate_lagrange_coefficients (42-77)"]}
{"id": "C113", "title": "Verifying keys are not computed by the documented formula", "statement": "The documentation of IndividualVerifyingKey::verify and generate_from_commitments gives the key of participant i as the plain product over all dealers and coefficients of phi_jk^(i^k). The code weights each dealer by its Lagrange coefficient. For commitments with distinct non-zero indices the two agree (the documented value is generated, is accepted by verify, equals the public key of any signing key that verify accepts) exactly when the sum over the dealers of their committed value at i times (coefficient minus one) is the identity; with one dealer they always agree; for every two dealers, and for every larger set of dealers whose number is not one in the field, every threshold and every index there are commitments for which verify rejects the documented value.", "quantifier": "every list of commitments with distinct non-zero indices, every index, every suite", "why_tests_cant": "Tests use the library's own generation on both sides; the comparison with the documented formula over all commitments is algebraic.", "anchors": ["src/keys.rs: documentation (76-84, 133-141), verify (95-131), generate_from_commitments (152-182)"]}
{"id": "C114", "title": "The keys used in a session decide, and keys of different epochs combine only by coincidence", "statement": "If every signer of a session follows the protocol, signer i with some secret x_i, while the coordinator was given the verifying key of some y_i: aggregation returns a signature valid under the group key exactly when the x_i of the session interpolate to the group secret (or the session's challenge is zero), whatever was announced; otherwise it fails and names exactly the signers with x_i different from y_i, in ascending order. For two signers of any session there are wrong keys whose errors cancel, so that the signature is valid. Consequences for two epochs of one life of a key (key generation, then resharings): as many old keys as the old threshold still sign under the group key after any number of resharings, even if the new verifying keys are announced; a mixture of old and new keys announced truthfully fails without naming anybody unless it happens to interpolate to the secret; with the new verifying keys announced and at least the new threshold of signers it succeeds exactly if the weighted differences sum to zero, and otherwise names exactly signers using a key of the old epoch.", "quantifier": "every call history of the aggregator, all secrets and announced keys, all lives of a key, every suite", "why_tests_cant": "Needs all combinations of keys of all epochs.", "anchors": ["src/sign/signature.rs: sign (303-341), aggregate (602-684)", "src/dkg/participant.rs: reshare (244-320)"]}
{"id": "C115", "title": "An altered complaint is rejected and convicts the receiver it names; the repository's complaint test passes for every group and every tampering", "statement": "Take a complaint that verifies for the accused's key, with nonzero maker key and shared key, and alter one field. With another shared key or maker key it still verifies only if the recomputed challenge is unchanged and zero; with another encrypted share only if the challenge is unchanged; with another value in any of the three proof fields never; for another accused key only if the challenge is unchanged and the response is zero. A complaint that does not verify for the accused's registered key makes blame return exactly the registered key of the receiver named in the (unauthenticated) share and remove exactly that participant's commitment and share. The program of keygen_verify_complaint (a dealer's share for a victim is tampered with by another nonce, another ciphertext, or a value encrypted under another key; everybody else runs round two quietly, the victim makes exactly one complaint, everybody including the dealer blames the dealer and finishes; a third participant then settles the complaint with its shared key doubled and sees the victim's key) for any group with threshold below the size and the dealer's index at most the size: if the tampered share does not open to the right value, every assertion holds and the keys are shares of one secret, unless the doubled complaint verifies, which needs a zero Diffie-Hellman secret or two zero challenges; if it does open to the right value, the program stops at the assertion that there is a complaint.", "quantifier": "every complaint and alteration, every state, every group and threshold below its size, every tampering, every generator, every suite", "why_tests_cant": "The test does three alterations in one group of three; acceptance of a forged complaint is a matter of all field values and hash outputs.", "anchors": ["src/dkg/complaint.rs: verify (99-130)", "src/dkg/key_generation.rs: blame (1097-1184), keygen_verify_complaint (1829-2091)"]}
{"id": "C116", "title": "A participant excluded in round one still obtains a working signing key", "statement": "Let a list of participants be published (distinct nonzero indices, nobody makes round one panic), of which at least t are dealers following the protocol and all others fail a check of round one. A flagged participant that knows the secret of its published Diffie-Hellman key receives an encrypted share from every accepted dealer; if it runs bootstrap itself on the published list (in any order, with any coefficients), the call succeeds although its own index is in the returned list of misbehaving participants; to_round_two with those shares gives no complaint; and finish gives it the group key of the accepted participants and the signing key at its index on the jointly dealt polynomial, for which IndividualVerifyingKey::generate_from_commitments gives the matching verifying key. Any t participants of the published list, flagged or not, hold keys that interpolate to the group secret and sign under the group key. The accepted participants end with that group key.", "quantifier": "every list, every number of flagged participants, every threshold, order, randomness, build and suite", "why_tests_cant": "The repository's tests check that a bad participant is reported, none continues as that participant; the claim is about all flagged sets and what they can compute.", "anchors": ["src/dkg/key_generation.rs: bootstrap (640-668), new_state_internal (704-886), to_round_two (903-), finish (1012-1020)", "src/dkg/secret_share.rs: encrypt_share (294-)", "src/keys.rs: generate_from_commitments (152-)"]}
{"id": "C117", "title": "Resharing by fewer old holders than the old threshold succeeds and changes the group key", "statement": "new() learns the old threshold only from its parameters: a successful run of a new signer needs as many dealers as that declared threshold, no more. If the dealers are fewer than the true threshold and declare a smaller one, all calls succeed without flagged participants and without complaints (C70), and the group key is the old one only for exactly one value of the key of any further holder completing the dealers to a threshold set, a value determined by the other keys. There is a run with a single dealer of a sharing with threshold two in which every new signer finishes and obtains another group key.", "quantifier": "every set of dealers and further holders, every threshold, committee, order and randomness; existence of a run for the last sentence", "why_tests_cant": "Tests reshare with a proper number of dealers; that the group key changes for all but one value of a missing key is a statement over the field.", "anchors": ["src/dkg/key_generation.rs: new (684-702), finish (1012-1020)", "src/dkg/participant.rs: reshare (244-)", "src/parameters.rs"]}
{"id": "C118", "title": "New signers that use different sets of dealers agree on the group key, but their keys do not combine", "statement": "Two sets of at least t1 holders reshare honestly to the same new signers. A new signer that finishes with one set of dealers and signers that finish with the other all obtain the old group key, so comparing group keys shows nothing; but t2 or more of their signing keys including that signer's interpolate to the group secret exactly if its key is the one it would have obtained with the dealers of the others. If it is not, a session in which they sign with these keys and announce their verifying keys truthfully fails with an empty list of misbehaving participants (unless the challenge is zero). There is a run in which this happens.", "quantifier": "every pair of dealer sets, all committees and thresholds, all runs, all call histories of the aggregator; existence of a run for the last sentence", "why_tests_cant": "Tests give all new signers the same dealers.", "anchors": ["src/dkg/key_generation.rs: new (684-702), calculate_signing_key (1022-), calculate_group_key (1055-)", "src/sign/signature.rs: aggregate (602-)"]}
{"id": "C119", "title": "Complaints can leave one dealer, who then owns the group key", "statement": "After a round one and two in which everybody follows the protocol, complaints that need no secret (sender index 0, any maker) let whoever can place them choose the dealers whose secrets count, also a single one d: every call succeeds, every participant ends with the group key gen*a0 where a0 is the secret of d, the signing keys fit together, and d signs alone with a0. The same happens without any forged message: if one listed participant is excluded in round one and an accepted dealer with an index above the number of accepted participants sends all others anything but their shares, then after the others have exchanged their correct complaints every one of them ends with the public key of that dealer as group key, and with a signing key that is the value the dealer sent (zero if it sent nothing that opens). Two misbehaving participants, fewer than the threshold, are enough.", "quantifier": "every ciphersuite, all parameters, all sets of dealers to be kept, all message orders and random values, both build modes", "why_tests_cant": "The result looks like a successful key generation to every participant; tests of blame have at most one complaint and do not look at who is left.", "anchors": ["src/dkg/key_generation.rs: blame (1097-), to_round_two (903-), calculate_group_key (1055-), calculate_signing_key (1022-)"]}
{"id": "C120", "title": "A hash output type of the wrong length stops every signature, a right one is never noticed", "statement": "hash_to_array copies the digest of InnerHasher into HashOutput with copy_from_slice. For a suite in which the two lengths are equal, h4, h5, sign, finalize and aggregate never panic for that reason: with the length check they return exactly what they return without it. For a suite in which they differ, h4 and h5 always panic; sign returns MissingCommitmentShares for a position outside the nonce list and panics otherwise, leaving the nonces in the list; finalize returns the same errors as otherwise and panics exactly where it would succeed; aggregate panics. There is such a suite for which the documented key generation and the precomputation succeed.", "quantifier": "every ciphersuite with digests of one length, every key, message, list, position, aggregator; an instance for the last sentence", "why_tests_cant": "The trait CipherSuite is implemented by users; tests use suites with matching lengths.", "anchors": ["src/utils.rs: hash_to_array (87-99)", "src/ciphersuite.rs: h4, h5 (103-116)", "src/sign/signature.rs: compute_binding_factors (169-198), sign (303-341), finalize (554-591), aggregate (602-684)"]}
{"id": "C121", "title": "A dealer can send different commitments without anybody noticing until signing", "statement": "The proofs of knowledge of a participant cover only the first point of its commitment: with all other points exchanged for others the entry passes the same checks with the same proofs. Participants that receive different entries for one dealer, each with fitting shares, finish without a complaint, and agree on the group key exactly if the two entries carry the same public key (first point). Keys from both camps then fit together exactly if the two commitments give the keys of the second camp the same combined share; for a single key of the second camp, exactly if the two commitments give it the same share. A signing session of both camps in which everybody signs correctly and whose challenge is not zero ends in a signature in that case, and otherwise with MisbehavingParticipants and an empty list.", "quantifier": "every ciphersuite, all parameters, all lists of participants, all pairs of accepted entries of one dealer, all divisions into camps, all message orders and random values, all messages", "why_tests_cant": "Tests hand the same list to every participant; the failure shows up only in a later signing session and names nobody.", "anchors": ["src/dkg/participant.rs: Participant (public_key), proofs of knowledge (src/dkg/nizkpok.rs)", "src/dkg/key_generation.rs: bootstrap (640-), new_state_internal (704-), to_round_two (903-), finish (1012-)", "src/sign/signature.rs: aggregate (602-684)"]}
{"id": "C122", "title": "A commitment altered in transit gets its receiver expelled", "statement": "Let everybody follow the protocol, and let the entry of one dealer p reach one participant q with the points of the commitment after the first replaced. Then q's round one accepts the list and reports nobody. If the altered commitment gives q the share it gets from p, q makes no complaint. Otherwise (t < n) q makes exactly one complaint, against p; blame of every other participant, p included, returns exactly q, and each of them ends with the group key of the dealers without q; blame of q returns p (if p's index is at most n), and q ends with the group key of the dealers without p. Every call succeeds.", "quantifier": "every ciphersuite, all parameters, all groups of honest participants, all replaced points, all list and message orders and random values, both build modes", "why_tests_cant": "Tests have no network between the participants; both sides see successful calls and an expelled participant.", "anchors": ["src/dkg/key_generation.rs: bootstrap (640-), to_round_two (903-), blame (1097-), finish (1012-)", "src/dkg/participant.rs: Participant", "src/dkg/nizkpok.rs"]}
{"id": "C123", "title": "Which messages can be re-encoded by others", "statement": "If the curve library reads scalars from canonical bytes only, then any value of a type with to_bytes/from_bytes (keys, commitments, complaints, participant entries and lists, nonce lists, signers, signatures) all of whose points are read from their canonical bytes only is itself read only from input that begins with its own bytes. Conversely, if a single point in it is also read from other bytes, the value is read from other bytes than those it is written as. For a library that reads the identity, and only the identity, from several strings: a threshold signature can be re-encoded exactly if its R is the identity, and the holder of the key can make valid ones for every message. States of a key generation are excluded.", "quantifier": "every ciphersuite, every value, every input", "why_tests_cant": "Tests decode only what was encoded by the same library.", "anchors": ["src/serialization.rs (7-25)", "src/keys.rs (65-71, 229-235)", "src/dkg/participant.rs (30-47)", "src/dkg/complaint.rs (25-35, 143-151)", "src/sign/signature.rs (25-32, 68-74)", "src/sign/precomputation.rs (77-166)"]}
{"id": "C124", "title": "A group that loses one participant in each round still signs, but for named coincidences", "statement": "The repository's test signature_from_incomplete_set, for any group. One participant publishes its doubled Diffie-Hellman key and another sends shares under a wrong nonce to a set of victims. Either the first one's proof happens to verify for the doubled key, and the run stops at an assertion. Or everybody flags exactly that participant. Then either one of three coincidences happens (a garbled share opens to the right value; the convicted dealer's contribution does not change the secret; the last commitment does not show in the first public key) and the run stops at an assertion; or each victim makes exactly one complaint and nobody else any, every settlement returns exactly the dealer's key, those who remain end with one group key and signing keys of which any t recover its secret, their public keys pass against their commitments in reversed order and fail when the last commitment is left out, they precompute and sign, and the aggregated signature verifies. The convicted dealer, who does not settle the complaints, ends with another group key. It needs the dealer's index to be below n: the highest of n participants numbered 1 to n cannot be convicted once another has been flagged, and the run stops at an assertion.", "quantifier": "every ciphersuite, build, n, t with 1<=t<=n-2, list of n distinct non-zero indices, flagged participant, convicted dealer with index below n, non-empty set of victims, message and generator state", "why_tests_cant": "The test runs five participants numbered 1 to 5 with two fixed misbehaving ones and random draws; the claim covers all groups and names each case in which the run does not end as asserted.", "anchors": ["src/sign/signature.rs: signature_from_incomplete_set (1274-1585)", "src/dkg/key_generation.rs: bootstrap, to_round_two, blame, finish (230-1184)", "src/keys.rs: IndividualVerifyingKey::verify, generate_from_commitments (82-196)"]}
{"id": "C125", "title": "Which operations run on secrets does not depend on the secrets", "statement": "Record, for each call that handles secrets, the calls of the arithmetic, hash, cipher and generator libraries with the lengths they see, the copies and wipes, and the outcome of every test. Creating a participant leaves the same record for all secrets and all draws of the generator: it depends on the threshold, the role, on the index being zero and on whether a secret was given. The dealing loop depends only on the numbers of coefficients and participants, the nonce generation only on the number of pairs, the computation of the signing key only on the dealers' indices. In the second round the record depends, besides public data and lengths, only on which shares open, how many bytes they open to and which of them match their commitments; for accepted shares it depends on senders, receivers and lengths only. Comparing two nonce pairs leaves the same record wherever they differ or not. Signing depends on the signer's index, the signers' indices, the length of the nonce list, the position and the places where the pair at that position is repeated: not on the key, the nonces, the message, the group key or the commitments. The position and repetitions are visible, as the source comment accepts. Conversely the records show all of that: equal records of dealing mean equal numbers of participants and coefficients, equal records of the second round mean that the same shares open, to as many bytes, and that the same ones are refused, and equal records of successful signatures mean that the same position of an equally long list was used.", "quantifier": "every ciphersuite, build, pair of runs with equal public shape and arbitrary different secrets and generator states", "why_tests_cant": "The source claims equality 'in constant-time' and lists what may leak; a test observes values, not which operations are executed, and cannot compare all pairs of secrets.", "anchors": ["src/sign/precomputation.rs: nonce_generate, NoncePair::new, PartialEq, drop_share (24-227)", "src/sign/signature.rs: sign (303-341)", "src/dkg/participant.rs: new_internal (128-220)", "src/dkg/secret_share.rs: evaluate_polynomial, encrypt_share, decrypt_share (66-107, 294-361)", "src/dkg/key_generation.rs: to_round_two, calculate_signing_key (832-849, 903-1048)"]}
{"id": "C126", "title": "Memory is reserved for the announced number of participants before the list is looked at", "statement": "Where memory for n participants can be reserved, bootstrap, new and reshare behave as in the other properties; likewise new_dealer and SignatureAggregator::new for t entries and the nonce generation for the requested number. Where it cannot, the first round stops (capacity panic or abort of the process) although the list passed is short: it stops exactly where, with enough memory, the call would have returned InvalidNumberOfParticipants. A list of the announced length that itself fits into memory is never affected. A resharing with too large an n stops whatever the list, and an aggregator can be made exactly if t entries can be reserved. ThresholdParameters::new accepts every n up to 2^32-1.", "quantifier": "every ciphersuite, build, memory limit, element sizes, parameters, list of participants and generator state", "why_tests_cant": "The tests use groups of at most ten; the failing values of n are those whose memory the test machine does not have, and a failed allocation aborts the test process.", "anchors": ["src/dkg/key_generation.rs: new_state_internal (717-728)", "src/dkg/participant.rs: new_internal, reshare (169-172, 244-281)", "src/sign/signature.rs: SignatureAggregator::new (440-460)", "src/sign/precomputation.rs: generate_commitment_share_lists (179-206)", "src/parameters.rs: new (31-44)"]}
{"id": "C127", "title": "Signing is that of RFC 9591 but for listed encodings, and is not compatible with it", "statement": "With the identifiers, labels and nonce inputs the library uses, sign returns exactly what sign of RFC 9591 (section 5.2) returns for the message hash, and fails where the standard does or if index zero is listed; nonce pairs are those of sections 4.1 and 5.1; aggregate returns what section 5.3 returns, from a list sorted as the standard demands, and on failure names exactly those whose shares section 5.4 refuses. For any choice of labels and encodings, so for the standard's own, a group of at least t signers gets signatures valid under that choice, and the library accepts them exactly if its own label gives the same challenge (or the key is the identity). Signatures of the library are not signatures of the standard, nor the other way round. In a session of the library a signer that follows the standard with all the right data is named as misbehaving, exactly if the two ask for different values.", "quantifier": "every ciphersuite, key, message hash, list of signers, nonces, call history of the aggregator, profile of labels and encodings", "why_tests_cant": "Tests compare the library with itself. Agreement with a separate description of the algorithm on all inputs, and the exact list of differences, is a statement about all inputs and all hash functions.", "anchors": ["src/sign/signature.rs:150-341", "src/sign/signature.rs:610-711", "src/sign/precomputation.rs:24-74", "src/ciphersuite.rs:56-116", "src/keys.rs:247-265"]}
{"id": "C128", "title": "A group may keep members of the old one, and a dealer of another degree is flagged", "statement": "The program of keygen_static_2_out_of_3_with_common_participants succeeds for every honest group and every next group, of any size, threshold and indices, of which any members may be taken over from the old group with their participant and Diffie-Hellman secret and the others made by new_signer: the keys of the next group are a sharing, of its own threshold, of the same secret under the same group key. The program of keygen_2_out_of_3_with_malicious_party_high_degree_commitment_polynomial, for every group, place of the odd dealer and honest participant running the first round: with the same threshold nobody is flagged; with any other, and t < n, the odd dealer alone is flagged and all others are kept in order; with t = n the call fails naming exactly that dealer.", "quantifier": "every ciphersuite, group size, threshold, list of indices, next group, choice of the members kept, randomness", "why_tests_cant": "The tests run one group of three with fixed indices, one or two common members, threshold 2 against 5. That the sharing survives whatever members are kept, and that any other degree (also a lower one) is caught, quantifies over all groups and all thresholds.", "anchors": ["src/dkg/key_generation.rs:1496-1548", "src/dkg/key_generation.rs:1550-1790", "src/dkg/participant.rs:100-126", "src/dkg/participant.rs:222-281"]}
{"id": "C129", "title": "How much work each call does", "statement": "Multiplications of points by scalars (an msm of k terms counting k) and bytes hashed, for every public call. new_dealer makes t + 3 multiplications, new_signer 2; bootstrap at most 1 + 5n, new at most 1 + 4n, reshare at most t + 4 + 3n, exactly that if nobody is flagged; the second round after bootstrap at most t + 4 per share received, exactly t + 1 if there is no complaint; blame 4 and the length of the commitment per complaint; finish one per commitment; a public key from commitments their total length; nonce pairs 2 each; sign one per signer; aggregate one per signer and 2, and 3 more per signer if the signature is bad; verify 2. The hashed bytes are given exactly, linear in the signers for sign and a good aggregate, quadratic for an aggregate that names misbehaving signers. After new (resharing) the second round pays the length of each dealer's commitment, and no bound in terms of n and t holds. The counted calls return what the calls return.", "quantifier": "every ciphersuite, parameters, participants honest or not, shares, complaints, commitments, signers, message hashes", "why_tests_cant": "Tests and benchmarks measure time on a few sizes, with well-formed input. Who can make whom work how much is a statement about all inputs, in particular of misbehaving participants.", "anchors": ["src/dkg/participant.rs:128-281", "src/dkg/key_generation.rs:704-1184", "src/dkg/secret_share.rs:92-107", "src/dkg/secret_share.rs:261-275", "src/dkg/nizkpok.rs:42-90", "src/dkg/complaint.rs:40-139", "src/keys.rs:95-182", "src/sign/precomputation.rs:24-74", "src/sign/signature.rs:150-341", "src/sign/signature.rs:602-711"]}
{"id": "C130", "title": "The benchmarks time successful calls only, and lists of nonces belong to nobody", "statement": "Both benchmark programs, with any number of participants, any threshold between 1 and it and any non-zero distinct indices, run to the end whatever the generator yields: no unwrap fails. Every timed closure (creating a dealer and a signer, round one of a dealer, round two, finish, reshare, round one of a new signer; making a partial signature, aggregating, verifying), whose results nobody looks at, returns Ok at every iteration whatever the generator yields then. In the signing benchmark the lists of nonces are shifted by one against the signers; it succeeds because lists are not tied to a key: any t or more key holders who sign with lists made by anybody for any key obtain a valid signature, provided the announced pairs are those of the lists. Whoever made a list learns the signing key from a single partial signature made with it, unless the challenge is zero.", "quantifier": "for all ciphersuites satisfying the laws, builds, numbers of participants and thresholds, indices, messages, generator states at the start and at every iteration, makers of the lists, positions, signer lists", "why_tests_cant": "Benchmarks discard the timed results, so an error would be timed unnoticed; a run shows one group size and one sequence of random values.", "anchors": ["benches/dkg.rs:25-178", "benches/sign.rs:34-212", "src/sign/precomputation.rs:150-235", "src/sign/signature.rs:270-343"]}
{"id": "C131", "title": "A removed dealer that does not remove itself is left with a key nobody accepts, unless three values coincide", "statement": "The test of the verifying keys after a removal, with any number of participants, any threshold below it, any dealer with an index at most n whose share for any other participant gets any other nonce: when the share still opens to the same value there is no complaint and the test stops at its assertion. Otherwise the victim complains once, everybody else settles the complaint, sees the dealer's key first and finishes with the key at its index of the polynomial shared by the other dealers; the dealer, who settles nothing, finishes too, with the key of the polynomial shared by all, including itself. The assertions of the test hold (other group key, own verifying key rejected against the other dealers' commitments, everybody else's accepted, rejected against one commitment fewer, reproduced from the commitments) exactly when none of three named values coincide; each coincidence needs one particular value of one dealer's polynomial.", "quantifier": "for all ciphersuites satisfying the laws, builds, parameters with 1 <= t < n, distinct non-zero indices, dealers with index at most n, victims, nonces and generator states", "why_tests_cant": "The test runs one group of three with one nonce and random coefficients; it cannot say for which values it would fail, nor what the dealer holds in general.", "anchors": ["src/dkg/key_generation.rs:2617-2753", "src/dkg/key_generation.rs:1132-1230", "src/keys.rs:95-182"]}
{"id": "C132", "title": "The helper of the unit tests and the tests built on it succeed for all numbers; the Lagrange test passes because of its list", "statement": "The helper do_keygen, for any n and t and any second n' and t': impossible numbers give InvalidThresholdParams (a panic with debug assertions), whichever group they are for; possible numbers give a group with these parameters and keys at 1..n of which any t recover the secret of the returned group key, and, when both second numbers are given, a second group with keys at 1..n' of which any t' recover the same secret. The sum over all keys of coefficient times key is then the secret of the group key (the assertion of keygen_3_out_of_5). Any t or more different members of the first group sign any message, and then any t' or more of the second, under the same group key, every intermediate result being Ok and both ways of verifying accepting. Including any key holders in any order and any number of times leaves exactly those included, once each, ascending, each with the first pair of its own list. Dropping the share at any position of a list of n leaves n - 1: one occurrence less of this share. The test of invalid interpolation passes for all indices, because the list contains zero or a repetition: every index, zero and absent ones included, is accepted with the list 1..k. With whatever numbers, positions and keys, each of these tests passes or panics: no error gets out of it.", "quantifier": "for all ciphersuites satisfying the laws, builds, numbers of participants and thresholds below 2^32, choices of signers, orders and repetitions, messages, keys, list lengths, positions, indices and generator states", "why_tests_cant": "The tests run the helper with (1,1), (3,2), (5,3), (10,6) and fixed signers; a passing test with one list does not tell which of its properties was refused.", "anchors": ["src/dkg/key_generation.rs:1200-1389", "src/dkg/key_generation.rs:1461-1494", "src/sign/signature.rs:730-1272", "src/sign/precomputation.rs:315-330", "src/utils.rs:107-145"]}
{"id": "C133", "title": "However the calls of all participants interleave, all who finish agree with the two public boards, nobody gets stuck, and restarts are invisible", "statement": "Key generation (bootstrap) or resharing (new) as a system of any number of library users whose calls interleave in any order, around a public list of participants and a public complaint box. Anything can be published on both boards until somebody uses them, the messages handed to to_round_two are arbitrary, and every user may store and reload its state at any moment. In every reachable situation: (1) all users that called finish have the same group key, the same reported keys and the same remaining commitments, and these are what the boards alone say (accepted participants minus the accused of justified complaints and the makers of the others); (2) a user that got through to_round_two can always settle and finish, and none of its calls fails; (3) reloading gives the state back; (4) the list and the box once used, and obtained keys, never change; (5) users that received a share of every accepted participant hold the signing keys the remaining commitments prescribe, and any t of them sign; (6) in a resharing with vouched-for dealers of which t remain, the group key is the old one.", "quantifier": "all reachable worlds: any number of users, any interleaving, any published participants and complaints, any messages, any restarts; both entry points and both build modes", "why_tests_cant": "The interleavings and the adversarial publications are unbounded, and the agreement relates the states of all users at once.", "anchors": ["src/dkg/key_generation.rs: bootstrap, new, to_round_two, blame, finish", "src/serialization.rs"]}
{"id": "C134", "title": "Any number of signing sessions run at the same time without spoiling each other: pairs are conserved, answers are never blamed, and a session whose pairs are unused can always be finished", "statement": "Any number of machines, each with one signing key and any number of nonce lists, and any number of aggregators, with all calls interleaving in any order: machines generate lists, store and reload them, and sign whatever request reaches them (any hash, group key, signer list and position); anything is passed to include_signer and include_partial_signature. In every situation reached: (1) the pairs generated are exactly those of the successful answers together with those still held, so no published pair is in two answers of a machine (unless it was generated twice), nor both answered and still held; (2) storing and reloading a list is always possible and changes nothing; (3) an aggregator with at least threshold many signers that has the answer and the key of each gives a signature that verifies for its message under the group key; (4) a machine whose answer to the aggregator's own request was handed over is never named in MisbehavingParticipants, whatever was handed over for others and whatever happens in other sessions; (5) an aggregator whose signers are machines of the group with pairs not used for anything else can still be finished, by its own signers answering only; (6) any number of such aggregators can all be finished if no two of them list the same pair of the same signer.", "quantifier": "all interleavings of all calls of any number of machines and aggregators, all requests, all values handed over, all restarts, all signature suites meeting the laws, both build modes", "why_tests_cant": "Tests run one session at a time; the interleavings, the foreign requests and the values handed over are unbounded.", "anchors": ["src/sign/signature.rs: sign, SignatureAggregator::new, include_signer, include_partial_signature, finalize, aggregate", "src/sign/precomputation.rs: generate_commitment_share_lists, drop_share", "src/serialization.rs"]}
{"id": "C135", "title": "Through a key generation and any number of resharings the group key never changes, and in every generation all concurrent signing sessions with unused pairs can be finished under it", "statement": "A key generation in which calls interleave in any order among any number of honest and dishonest participants (C133), followed by any number of such resharings. In each resharing every accepted dealer's commitment starts with the verifying key it has from the generation before and is not longer than the new threshold, and at least as many dealers as the old threshold are not removed because of complaints. The signers of each generation are users who finished, were handed at least one share of every accepted participant and only shares addressed to themselves, and hold distinct non-zero indices. Then (1) the keys obtained in any execution are shares, with the threshold, of the discrete logarithm of the group key returned; (2) the group key returned in every generation is that of the key generation; (3) whatever the signers of a generation and their coordinators did (C134), all aggregators with at least threshold many signers, the right keys and pairs used for nothing else can be brought to signatures that verify under the group key of the key generation, all at once if no two list the same pair.", "quantifier": "all numbers of generations, all interleavings within each key generation, resharing and signing, all dishonest messages within the stated conditions, all thresholds, all signature suites meeting the laws, both build modes", "why_tests_cant": "The number of generations, the interleavings and the dishonest messages are unbounded.", "anchors": ["src/dkg/key_generation.rs: DistributedKeyGeneration::bootstrap, new, to_round_two, blame, finish", "src/dkg/participant.rs: Participant::reshare", "src/sign/signature.rs: sign, SignatureAggregator"]}
{"id": "C136", "title": "To which keys and messages a signature belongs, and what two signatures with one commitment give away", "statement": "A signature accepted under one group key for one message hash is accepted under another key for another hash exactly when each key times its own challenge is the same point; under the same key, exactly when the key is the identity or the challenges are equal. So who knows the secret of a second key under which a signature passes knows the secret of the first, unless its challenge is zero, and a signature cannot be moved to a key shifted by a known amount unless the challenge stays the same. Two accepted signatures with one commitment and different challenges reveal the secret of the group key by a division, and under two keys they tie the two secrets together.", "quantifier": "every ciphersuite satisfying the laws, all group keys, signatures, message hashes and shifts", "why_tests_cant": "Tests check that a signature passes under its own key; that it passes under no other key or message but for an exact condition is a statement about all keys and messages.", "anchors": ["src/keys.rs:247", "src/sign/signature.rs:261", "src/sign/signature.rs:693"]}
{"id": "C137", "title": "How long the messages of each round are, and how much a whole key generation sends", "statement": "With s bytes for a scalar, p for a point and a cipher that adds a fixed tag, a dealer's first message has 18+(t+1)p+4s bytes (also in a resharing), that of a new signer 6+p+2s, each encrypted share 24+nonce+s+tag, one for each listed participant, each complaint 4p+s more than the share it is about, and there are at most as many complaints as shares received. A published list of n nonce pairs has 12+2np bytes; keys, partial signatures (4+s) and signatures (p+s) have the same length whatever the number of participants and the threshold. A bootstrap with n participants sends n(18+(t+1)p+4s) + n^2(24+nonce+s+tag) bytes.", "quantifier": "every ciphersuite satisfying the laws with a cipher adding a fixed number of bytes, all parameters, indices, lists of participants with distinct indices, and generator states", "why_tests_cant": "Tests serialize single values of one suite; the closed forms hold for every suite and every n and t.", "anchors": ["src/dkg/participant.rs:30", "src/dkg/secret_share.rs:45", "src/dkg/secret_share.rs:161", "src/dkg/complaint.rs:25", "src/sign/precomputation.rs:158", "src/serialization.rs:7"]}
{"id": "C138", "title": "What reading bytes from a stranger can cost", "statement": "Every type read by from_bytes takes, written again, exactly as many bytes as were consumed (a session at most as many), so an accepted input is never amplified. If a vector is reserved for its announced length before its elements are read, from_bytes either stops the process or answers as without the reservation, and accepted inputs never stop a process with room for as many elements as the input has bytes. But with finite memory a prefix of 8 bytes (coefficients, secret nonces, participant lists), 12 (sharing commitments, public nonces), 16 (encrypted shares), p+17 (participants), 2p+16 (complaints) or s+p+37 (sessions) stops it whatever follows, and no shorter input does. Coefficients, nonce lists and sharing commitments stop it exactly if the announced number of elements times the size of one exceeds what can be reserved.", "quantifier": "every ciphersuite whose scalars and points are read from a fixed number of bytes, every finite memory, every input", "why_tests_cant": "Tests read back what they wrote; they never read hostile lengths, and the claim is about every byte string.", "anchors": ["src/serialization.rs:21", "src/dkg/secret_share.rs:187", "src/dkg/secret_share.rs:240", "src/dkg/participant.rs:30", "src/dkg/complaint.rs:25", "src/dkg/key_generation.rs:519", "src/sign/precomputation.rs:145"]}
{"id": "C139", "title": "Shares of fewer than t receivers and published partial signatures are equally likely for every secret", "statement": "Over a field with q elements, exactly q^(t-1-k) of the coefficient vectors of length t with a given secret deal given values to k < t given receivers, for every secret and all values: with uniform coefficients these shares are uniform and independent of the secret. Given the other dealers' secrets and the k shares, exactly q^(t-1-k) coefficient vectors of one dealer make everybody end with a given group key, the same number for every key. And each signing key is compatible with exactly one value of each hiding nonce, given a request, its partial signature and the binding nonce (C78 has the existence), so partial signatures do not make one key likelier than another.", "quantifier": "every finite ciphersuite field, all thresholds up to 2^32-1, all sets of fewer than t receivers, all values, secrets and group keys, all signing histories", "why_tests_cant": "These are counts over all polynomials of a cryptographic field; a test sees single samples.", "anchors": ["src/dkg/participant.rs:180", "src/dkg/secret_share.rs:66", "src/dkg/key_generation.rs:1055", "src/sign/signature.rs:303"]}
{"id": "C140", "title": "What is checked when a value is read, in every mode of reading and writing", "statement": "Let some values of the point type lie outside the group. from_bytes never returns a value containing such a point, for any type, sessions included. With the serialization traits the caller chooses the format of points (compressed or not) and whether they are checked. In both formats: check() of every type, the hand-written ones of EncryptedSecretShare and BoxedState included, accepts a value exactly if all its points are in the group; for every message, reading with checks is the same as reading without checks and calling check() at the end; what is written is read back without checks always, with checks exactly if check() accepts it; the announced sizes are exact. For saved sessions reading with checks implies the other, and they agree on what the library writes, but not in general: a key outside the group which a second entry for the same participant overwrites is refused by reading with checks and not seen by a check made afterwards.", "quantifier": "every byte string, value, format, set of group elements among the points", "why_tests_cant": "All byte strings and values; the tests only use the compressed format with checks, on valid points.", "anchors": ["src/serialization.rs:20", "src/dkg/secret_share.rs:149", "src/dkg/secret_share.rs:188", "src/dkg/key_generation.rs:577", "src/dkg/key_generation.rs:597"]}
{"id": "C141", "title": "When signatures, or one signer's answers, combine to a signature nobody requested", "statement": "Accepted signatures under one group key, multiplied by any factors, added up and shifted by any known nonce, form an accepted signature for another message hash exactly when the key is the identity or the challenge of the sum equals the same combination of the challenges. The same for partial signatures: let a signer answer any number of sign calls, for any messages, lists of signers and group keys. Whoever knows the other keys of a set with this signer can combine the answers with any factors, and obtains an accepted signature under the key of the set for a message never requested exactly when the signer's weight times the new challenge equals the combination of its weights times the challenges of the answered requests, or its key is zero. So forging by combining answers is exactly solving this one equation between hash values; with a weak hash it is done in the example.", "quantifier": "every ciphersuite satisfying the laws, all histories of sign calls, all factors, shifts, messages, sets and keys", "why_tests_cant": "The statement is about every combination of every history of answers; a test tries one combination, which fails except by a coincidence of hash values that a test cannot produce for a real hash.", "anchors": ["src/sign/signature.rs:303", "src/sign/signature.rs:693", "src/keys.rs:247"]}
{"id": "C142", "title": "The named coincidences happen for exactly one choice in q", "statement": "Over a field with q elements: a polynomial with t coefficients takes a given value at a given place for exactly q^(t-1) of the q^t coefficient vectors (the coincidences of C131 are of this kind). Fewer than t of its values interpolate to its value at zero for exactly q^(t-1) vectors. Likewise for the keys of a key generation by honest participants: whatever all other dealers chose, the keys of any given set of fewer than t participants interpolate to the group secret for exactly q^(t-1) of the vectors of one dealer, and a signing session of exactly these participants returns a signature exactly for these vectors, or if its challenge is zero: a group cannot sign below its threshold but with probability 1/q. Every group key accepts exactly q signatures for each message hash, exactly one for each first half, and (unless the key is the identity) a pair fixed before its challenge is known passes for exactly one of q challenges.", "quantifier": "every ciphersuite over a finite field, all thresholds, parameters, index sets below the threshold, choices of the other dealers, sessions, group keys, messages", "why_tests_cant": "The statement counts over all coefficient vectors; a test runs one vector and cannot tell a probability of 1/q from one of zero or from one that depends on the other dealers.", "anchors": ["src/dkg/key_generation.rs:1012", "src/dkg/secret_share.rs:66", "src/sign/signature.rs:602", "src/keys.rs:247"]}
{"id": "C143", "title": "Resharing refreshes the keys: a mixture of old and new keys combines for exactly one choice in q", "statement": "Holders of a key reshare it honestly to new signers with threshold t2. Take at least one and fewer than t2 of the new keys together with any given other keys under other indices (keys of an earlier epoch, keys obtained with another set of dealers, invented ones). Over a field with q elements, whatever the other dealers chose, these keys interpolate to a given value for exactly q^(t2-2) of the q^(t2-1) vectors of random coefficients of any one dealer. A signing session of signers who use exactly these keys ends with a signature under the group key of that value exactly for these choices, or if its challenge is zero. With the shared secret as the value this counts the coincidences named in C114 and C118.", "quantifier": "every ciphersuite with a finite field, all thresholds, dealers and their coefficients, all sets of new signers below the new threshold, all other keys, all runs and all call histories of the aggregator", "why_tests_cant": "The claim counts the random choices of a dealer for which stale and fresh keys are compatible; with a field of 2^252 elements no test meets such a choice, and a test that sees one failing session says nothing about the number of the others.", "anchors": ["src/dkg/participant.rs: reshare (244-281)", "src/dkg/key_generation.rs: new (684-701), finish", "src/sign/signature.rs: sign (303-341), aggregate (602-684)", "src/dkg/participant.rs: reshare (244-320)"]}
{"id": "C144", "title": "A whole key generation performs the same operations for all secrets", "statement": "Record the operations on secrets (multiplications, inversions, hashing, encryption, copying, wiping, draws) and the outcomes of the tests of whole calls. The record of bootstrap and new depends on the parameters, the own index, the number of coefficients and on which published participants pass the checks; that of reshare also not on the signing key; that of blame on whose shares are held and on the verdicts; that of finish on whose shares and commitments are held and which commitments are empty. A whole session from round one to the keys leaves the same record for other secrets, keys, coefficients, draws and ciphertexts of the same lengths, as long as the same participants pass, the same shares open and match and the same complaints are upheld; in two honest groups with the same indices whoever sits at an index leaves the same record. A successful reshare wipes exactly n + t + 2 scalars (every share it computed, every coefficient, both copies of its Diffie-Hellman secret), a successful finish exactly two per share held and one Diffie-Hellman secret. When they fail at least t + 1 scalars (reshare) and each share held and the Diffie-Hellman secret (finish) are wiped all the same, and blame wipes exactly the shares it removes.", "quantifier": "every ciphersuite, all parameters, secrets, coefficients, published participants, shares, complaints and random streams", "why_tests_cant": "Timing tests compare a few secrets on one machine and see noise; that no secret influences which operations are performed in a session of several calls, and that nothing is left unwiped whatever the inputs, is a statement about all pairs of executions.", "anchors": ["src/dkg/key_generation.rs: bootstrap (640-658), new (684-701), new_state_internal (704-886)", "src/dkg/participant.rs: reshare (244-281)", "src/dkg/key_generation.rs: finish, calculate_signing_key (1012-1048), blame (1097-1184)", "src/dkg/secret_share.rs: Drop (37-41, 58-62)"]}
{"id": "C145", "title": "All the shares that fewer than t participants receive together say nothing about the group key or the keys of others", "statement": "Over a field with q elements, let k < t participants put together all shares they received from all honest dealers of a key generation (other dealers' polynomials being given, following the protocol). Of the choices of coefficients of all honest dealers, exactly q^((t-k)h) lead to these shares (h honest dealers), and of those exactly one in q^(1+l) ends with a given group key and given signing keys of l further participants, l < t-k: the same number for every group key and all keys. In a resharing with given shared keys exactly q^((t-1-k)h) choices lead to the shares received by k new signers, and exactly one in q^l of those to given keys of l further new signers (l < t-k): new keys are independent of the old ones. So with uniform coefficients fewer than t participants learn nothing from shares about the group secret, and nothing about others' keys as long as fewer than t keys are involved. (The published commitments fix the polynomials in principle; hiding from them is the discrete logarithm assumption, which is not modelled.)", "quantifier": "every ciphersuite over a finite field, all thresholds, sets of honest and other dealers, receivers, share values, group keys and signing keys, all runs of the participants concerned", "why_tests_cant": "The claim counts all random choices of all dealers that are consistent with what a coalition saw; a test makes one choice and cannot tell whether the others exist, let alone that they are equally many for every key.", "anchors": ["src/dkg/participant.rs: new_dealer (81-94), new_internal, reshare (244-281)", "src/dkg/secret_share.rs: evaluate_polynomial (66-88)", "src/dkg/key_generation.rs: to_round_two (903-1000), finish (1012-1017), calculate_signing_key (1022-1048)"]}
{"id": "C146", "title": "For an adversary that moves between epochs every group secret is equally likely", "statement": "Key generation is followed by any number of resharings, and in every epoch other participants are corrupted, always fewer than the threshold of that epoch. The adversary sees everything the corrupted participants deal, every share dealt to them and every key they hold. For every group secret, the number of histories of dealings (the coefficients of all dealers of all epochs, each reshared key being the one its holder got before) that have this secret and look the same to the adversary is the same power of the field size, whose exponent is the number of coefficients that stay free. So with uniform coefficients the shares and keys seen over all epochs leave every group secret equally likely. Key generation by parties that follow the protocol and resharings through the API are such histories: the keys and group keys they return are those of the dealings. (The published commitments, which fix the secret up to a discrete logarithm, are not part of this view.)", "quantifier": "every ciphersuite over a finite field, every number of epochs, all thresholds, dealers, coefficients, coalitions below the threshold in each epoch, and all group secrets", "why_tests_cant": "The claim compares the numbers of all histories consistent with a view, for each possible secret, over unboundedly many epochs; a test runs one history with one secret.", "anchors": ["src/dkg/participant.rs: new_dealer (81-94), reshare (244-281)", "src/dkg/secret_share.rs: evaluate_polynomial (66-88)", "src/dkg/key_generation.rs: to_round_two (903-1000), finish (1012-1017), calculate_signing_key (1022-1048)"]}
{"id": "C147", "title": "A dealer that can get itself removed has two independent tries at the group key", "statement": "A dealer that follows the protocol can decide at the very end, knowing everybody's commitments and shares, whether to send some participant one more ciphertext that does not decrypt to its share. If it does, the complaint removes it and everybody ends with the group key of the other dealers; if not, with that of all. With at least two honest dealers the two group secrets are independent: over the choices of the honest dealers every pair of values occurs the same number of times, q^(t h - 2). So of p wanted secrets one is reached by exactly (p q + (q-p) p) q^(t h - 2) of the q^(t h) choices instead of p q q^(t h - 2): the probability nearly doubles, from p/q to p/q + (1 - p/q) p/q, so the group key is not uniformly distributed if a dealer deviates. Two honest dealers are needed (with one, the second secret is a function of the first), and removing two dealers need not give a further independent try: if their indices add up to those of two honest dealers the secrets with and without both determine each other.", "quantifier": "every ciphersuite over a finite field, all thresholds, index sets with at least two honest dealers, coefficients of the other dealers, sets of wanted secrets, all participants and orders of delivery", "why_tests_cant": "The claim is about the distribution of the group key over all choices of the honest dealers, for every strategy set; a test sees one key and cannot see a bias.", "anchors": ["src/dkg/key_generation.rs: to_round_two (903-1000), blame (1097-1184), calculate_group_key (1055-1083)", "src/utils.rs: calculate_lagrange_coefficients (42-77)"]}
{"id": "C148", "title": "Dealers that may be removed bias the group key by at most a factor of two each", "statement": "However shares, complaints and their settlement go, the group key a participant obtains is that of the set of dealers left. For each set that contains at least one honest dealer every group secret is reached by the same number q^(t h - 1) of the q^(t h) choices of the h honest dealers (field with q elements), so no fixed set is biased. If the set is chosen at the end, knowing everything, among k such sets, at most k p q^(t h - 1) choices can end with one of p wanted secrets. In particular r other dealers with given polynomials, any combination of which may get removed, multiply the probability p/q of a wanted key by at most 2^r as long as the honest dealers stay (C147: one dealer nearly reaches the factor 2). The secrets of the other dealers are given here: that they cannot be chosen depending on the honest ones is the discrete logarithm assumption and the key proofs, not modelled.", "quantifier": "every ciphersuite over a finite field, all thresholds, sets of honest and other dealers, first points of the other dealers' commitments, sets of wanted secrets, all shares received, complaints and generator states", "why_tests_cant": "A bound on how many of all choices of the dealers lead to a wanted key, over all ways to deliver shares and settle complaints; a test sees one choice and one settlement.", "anchors": ["src/dkg/key_generation.rs: to_round_two, blame, finish, calculate_group_key"]}
{"id": "C149", "title": "Every key has exactly q accepted proofs, and a false complaint exactly one challenge per first message", "statement": "Over a field with q elements and for the hash function as it is: every public key and index has exactly q accepted proofs of key knowledge, and they are exactly the proofs the library makes with the secret key, one for each value of the random scalar; so with a uniform scalar a proof is uniformly distributed over a set that is determined by the public key, and tells nothing else. The same for complaints with the genuine shared key: q accepted proofs for each encrypted share, one for each random scalar. With a wrong shared key every first message has an answer for exactly one of the q challenges; the complaint is refused for all answers if the hash has another value, and accepted for exactly one answer if it has this value.", "quantifier": "every ciphersuite over a finite field, all keys, indices, encrypted shares, claimed shared keys and first messages", "why_tests_cant": "Counts all accepted proofs of a key; a test verifies a few.", "anchors": ["src/dkg/nizkpok.rs: prove, verify (42-90)", "src/dkg/complaint.rs: new, verify (40-139)"]}
{"id": "C150", "title": "Partial signatures of all epochs leave every secret equally likely", "statement": "Over a field with q elements: an adversary corrupts participants in every epoch (key generation and any number of resharings), always fewer than the threshold and possibly others each time, and also sees any list of partial signatures, made with keys of any epochs, each with its own pair of nonces. The number of choices of all dealers of all epochs and of all nonces that give exactly what it sees is the same for every group secret: the number without signatures (C146) times q for each signature. Whatever sign returns with a key of an epoch is such a partial signature, for any position of any list of nonces. The published nonce commitments are not counted as seen: they are group elements that determine the nonces.", "quantifier": "every ciphersuite over a finite field, all numbers of epochs, thresholds, dealers, sets corrupted in each epoch, lists of signatures, messages, signer lists, and every group secret", "why_tests_cant": "Counts all dealings and nonces that explain a view; a test runs one.", "anchors": ["src/sign/signature.rs: sign (303-341)", "src/dkg/key_generation.rs: new, reshare, finish", "src/sign/precomputation.rs: CommitmentShare (110-119)"]}
{"id": "C151", "title": "Each check of a share, verifying key or partial signature accepts exactly one value, and aggregate accepts one list of partial signatures in q", "statement": "Over a field with q elements: for each commitment, sender and receiver exactly one share value is accepted, and for each index and list of commitments with distinct non-zero indices exactly one verifying key. For an aggregator with k > 0 signers and a public key for each of them, exactly q^(k-1) of the q^k lists of partial signatures give a signature, and whatever the others send there is exactly one value of a signer for which a signature comes out. Exactly one list passes the check of every signer; it is accepted if the public keys belong to the group key, and then the other q^(k-1) - 1 accepted lists contain wrong partial signatures that cancel, for which nobody is named.", "quantifier": "every ciphersuite over a finite field, all keys, messages, commitments, indices and aggregators reached by any history of calls", "why_tests_cant": "Counts over all values; a test tries a few wrong ones.", "anchors": ["src/sign/signature.rs: aggregate (593-690), include_partial_signature (537-541), finalize (554-591)", "src/dkg/secret_share.rs: SecretShare::verify", "src/keys.rs: IndividualVerifyingKey::verify"]}
{"id": "C152", "title": "Messages of a resharing stay valid in every other resharing to the same new signers", "statement": "Nothing in the messages of a resharing says to which resharing they belong. If the same new signers (same participant entries and Diffie-Hellman secrets) take part in several resharings, then (1) messages of resharings of one sharing may be mixed, one for each dealer, and the new signers end without report or complaint with a sharing of the same secret; (2) the same messages once more give every new signer the group key and the signing key they gave before, whatever the declared old threshold, the order of messages and the randomness, so a replayed resharing refreshes nothing; (3) if the message of one dealer is replaced by that dealer's message of a resharing of an earlier epoch, no call fails, nobody is reported and nobody complains, and the new signers hold a sharing of a secret that is the old one exactly if the earlier key of this dealer is its present one. A caller that compares the commitments with the present verifying keys (C85) refuses the message in exactly the other case.", "quantifier": "all suites, builds, sets of honest new signers, honest dealers of both resharings, thresholds, orders of entries and shares, randomness, and all books of present verifying keys", "why_tests_cant": "the tests run one resharing after another with fresh new signers, never bring messages of two together, and could not show that no mixture is noticed", "anchors": ["src/dkg/participant.rs: reshare (244-281)", "src/dkg/key_generation.rs: new (684-701), to_round_two (903-1010), finish (1012-1090)"]}
{"id": "C153", "title": "A key generation tried again with the same entries is one sharing over all attempts", "statement": "If a key generation is tried again by calling bootstrap once more on the same participant entries, coefficients and Diffie-Hellman secrets (only the randomness of the call is new), the attempts are not separate. (1) A participant in the state of any attempt, given for each dealer the share from any attempt, ends round two without complaint and finishes with exactly the group key and signing key it gets in the first attempt, so a repeated attempt gives no new key. (2) Complaints add up over attempts: complaints about one dealer by t different participants, each made in any of the attempts, open that dealer's secret, even if no attempt had t of them; complaints by fewer than t participants over all attempts together open shares that fit every secret of the dealer. A retry after complaints needs new entries from new_dealer.", "quantifier": "all suites, builds, parameters, honest participants, numbers of attempts, choices of an attempt for each dealer and each complaint, orders of entries and shares, randomness, and shares that provoked the complaints", "why_tests_cant": "no test calls bootstrap twice on the same entries; that every mixture of attempts is accepted, and that complaints spread over attempts always suffice, quantifies over all executions", "anchors": ["src/dkg/key_generation.rs: bootstrap (640-658), to_round_two (903-1010), finish (1012-1090)", "src/dkg/participant.rs: new_dealer", "src/dkg/secret_share.rs: decrypt_share"]}
{"id": "C154", "title": "An entry used in several groups is opened by t receivers over all of them", "statement": "new_dealer makes a participant entry, coefficients and a Diffie-Hellman secret that are not bound to a group, and bootstrap accepts them in key generations of different groups. If one entry is used in several key generations, every participant of each group opens the share sent to it there, and any t participants with different indices, spread over the groups in any way, get the dealer's secret from their shares, even if each group has fewer than t of them. Participants with fewer than t different indices over all groups together hold shares that fit every secret of the dealer, however many groups there are and even if an index occurs in several groups.", "quantifier": "all suites, builds, numbers of groups, parameters and sizes of each group, honest participants, choices of receivers, orders of entries, randomness and secrets", "why_tests_cant": "the tests use each entry in one group; that every spread of t receivers suffices and that no smaller one says anything about the secret quantifies over all groups and all polynomials", "anchors": ["src/dkg/participant.rs: new_dealer", "src/dkg/key_generation.rs: bootstrap (640-658), new_state_internal (704-886)", "src/dkg/secret_share.rs: encrypt_share (294-326), decrypt_share (334-361)"]}
