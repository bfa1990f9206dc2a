{"id": "C01", "title": "add_mod_q is addition modulo Q", "statement": "For any two exponents a, b that are in range (0 <= a, b <= Q), add_mod_q(a, b) returns exactly (a + b) mod Q, a value strictly below Q; the list form returns the sum of the whole list mod Q (independent of order) and throws only for the empty list.", "quantifier": "every pair of 256-bit exponents in range; every non-empty list of them; both shipped parameter sets", "why_tests_cant": "2^512 input pairs; the carry and all-ones corner cases are hit with negligible probability by random tests", "anchors": ["src/electionguard/group.cpp: add_mod_q", "src/electionguard/utils.hpp: isMax"]}
{"id": "C02", "title": "sub_mod_q, sub_from_q and a_plus_bc_mod_q compute in Z_Q", "statement": "For in-range exponents sub_mod_q(a,b) = (a-b) mod Q; for arbitrary 256-bit a,b,c a_plus_bc_mod_q(a,b,c) = (a+b*c) mod Q; sub_from_q(a) is an additive inverse of a modulo Q.", "quantifier": "all operands", "why_tests_cant": "the borrow/carry branches depend on rare operand relations among 2^512 pairs", "anchors": ["src/electionguard/group.cpp: sub_mod_q, a_plus_bc_mod_q, sub_from_q"]}
{"id": "C03", "title": "Exponent arithmetic is correct for every 256-bit operand", "statement": "add_mod_q and sub_mod_q return the residue of the mathematical sum/difference for every value an exponent object can hold, including the values in (Q, 2^256) that unchecked construction and hashing admit.", "quantifier": "all 256-bit operands, in range or not", "why_tests_cant": "only operands in the 189-wide window above Q (or their sums) expose the difference", "anchors": ["src/electionguard/group.cpp: add_mod_q, sub_mod_q", "src/electionguard/hash.cpp: hash_elems"]}
{"id": "C04", "title": "mul_mod_p is multiplication modulo P", "statement": "mul_mod_p(a,b) = a*b mod P for every pair of 4096-bit values, and the list form returns the product of the list mod P, independent of the order of the list, with the empty product equal to 1.", "quantifier": "all 4096-bit operands, all lists and all their permutations", "why_tests_cant": "infinite lists / 2^8192 operand pairs", "anchors": ["src/electionguard/group.cpp: mul_mod_p"]}
{"id": "C05", "title": "pow_mod_p with an exponent in Z_Q is modular exponentiation", "statement": "pow_mod_p(b, e) = b^e mod P for every base and every 256-bit exponent e (including 0), whether or not the base is flagged fixed-base, i.e. the precomputed-table path and the generic path return the same value.", "quantifier": "every base, every 256-bit exponent, both code paths", "why_tests_cant": "the table path multiplies up to 32 of 8192 precomputed powers; no test enumerates exponents", "anchors": ["src/electionguard/group.cpp: pow_mod_p(ElementModP, ElementModQ), g_pow_p", "src/electionguard/lookup_table.hpp: LookupTable"]}
{"id": "C06", "title": "pow_mod_p with a 4096-bit exponent is modular exponentiation", "statement": "pow_mod_p(b, e) = b^e mod P for every 4096-bit exponent e.", "quantifier": "every base, every 4096-bit exponent", "why_tests_cant": "tests use small exponents only", "anchors": ["src/electionguard/group.cpp: pow_mod_p(ElementModP, ElementModP)"]}
{"id": "C07", "title": "add_mod_p and mod_p reduce modulo P without touching memory they do not own", "statement": "add_mod_p(a,b) = (a+b) mod P and mod_p(a) = a mod P for all in-range operands, with no out-of-bounds access.", "quantifier": "all in-range operands", "why_tests_cant": "the out-of-bounds read happens only when the 4096-bit sum carries and is silent", "anchors": ["src/electionguard/group.cpp: add_mod_p, mod_p, rand_p"]}
{"id": "C08", "title": "Checked construction admits exactly the field elements", "statement": "Constructing an element of Z_P or Z_Q with checking on, from limbs, bytes, hex or an integer, succeeds only for values below the modulus and throws out_of_range otherwise; the stored value equals the value denoted by the input.", "quantifier": "all inputs of every length", "why_tests_cant": "boundary value equal to the modulus and odd-length inputs are single points in huge spaces", "anchors": ["src/electionguard/group.cpp: ElementModP::Impl::Impl, ElementModQ::Impl::Impl, bytes_to_p, bytes_to_q, fromHex, fromUint64"]}
{"id": "C09", "title": "Hex and byte encodings of elements round-trip", "statement": "fromHex(toHex(x)) == x and the byte form round-trips, for every element x of Z_P and Z_Q; toHex is injective.", "quantifier": "every element", "why_tests_cant": "2^4096 elements; leading-zero stripping makes behaviour depend on the value", "anchors": ["src/electionguard/group.cpp: toHex, fromHex, toBytes", "src/electionguard/convert.hpp: bytes_to_hex, sanitize_hex_string, hex_to_bytes"]}
{"id": "C10", "title": "Comparison operators agree with the integers", "statement": "==, != and < on elements agree with equality and order of the integers they denote, and isInBounds(x) holds exactly for 0 < x < modulus.", "quantifier": "all pairs of elements", "why_tests_cant": "limb-wise comparison from low to high limb must be right for all limb patterns", "anchors": ["src/electionguard/group.cpp: operator==, operator<, isInBounds", "src/karamel/Hacl_Bignum256.c: Hacl_Bignum256_lt_mask"]}
{"id": "C11", "title": "Multi-limb addition, subtraction and multiplication are exact", "statement": "The bundled bignum add/sub return exactly a+b / a-b modulo 2^(64 n) together with the exact carry/borrow, and mul/sqr (schoolbook and Karatsuba) return the exact double-length product, for every operand.", "quantifier": "every limb array of every length the library uses", "why_tests_cant": "carry chains across 64 limbs; sampled tests cannot reach all carry patterns", "anchors": ["src/karamel/Hacl_Bignum.c: bn_mul_u64, bn_karatsuba_mul_uint64, bn_karatsuba_sqr_uint64", "src/karamel/Hacl_Bignum4096.c: Hacl_Bignum4096_add, Hacl_Bignum4096_sub, Hacl_Bignum4096_mul", "src/karamel/Hacl_Bignum256.c"]}
{"id": "C12", "title": "Montgomery reduction and modular reduction are exact", "statement": "For every odd modulus n > 1 and every double-length a, the bundled mod operation writes a mod n; the precomputed context constants satisfy mu*n = -1 mod 2^64 and r2 = 2^(128 len) mod n.", "quantifier": "all odd moduli and all double-length inputs", "why_tests_cant": "the final conditional subtraction depends on one bit of carry", "anchors": ["src/karamel/Hacl_Bignum4096.c: bn_slow_precomp, reduction, areduction, precompr2", "src/karamel/Hacl_Bignum.c: Hacl_Bignum_ModInvLimb_mod_inv_uint64"]}
{"id": "C13", "title": "Windowed modular exponentiation is exact", "statement": "For odd n > 1, a < n and b < 2^bBits, both the constant-time and the variable-time exponentiation write a^b mod n, and the modular inverse routine writes an inverse of a whenever a^(n-1) = 1 mod n.", "quantifier": "all moduli, bases, exponents and exponent bit lengths", "why_tests_cant": "4-bit window extraction across limb boundaries depends on every bit position", "anchors": ["src/karamel/Hacl_Bignum4096.c: exp_consttime_precomp, exp_vartime_precomp, Hacl_Bignum4096_mod_inv_prime_vartime"]}
{"id": "C14", "title": "The shipped group constants form an order-Q subgroup", "statement": "In both parameter sets P = Q*R + 1, G generates a subgroup of exponent Q (G^Q = 1 mod P, G != 1), the stored offsets are 2^256 - Q and 2^4096 - P, and Q is prime.", "quantifier": "the two parameter sets; consequences for all exponents", "why_tests_cant": "every protocol theorem rests on it; a unit test of one power does not establish primality", "anchors": ["include/electionguard/constants.h"]}
{"id": "C15", "title": "Decryption inverts encryption", "statement": "For every key pair with secret s in [2, Q) and every non-zero nonce r < Q, decrypting elgamalEncrypt(m, r, K) with s returns m for m = 0 and m = 1.", "quantifier": "all secrets, nonces and both plaintexts", "why_tests_cant": "2^512 key/nonce pairs", "anchors": ["src/electionguard/elgamal.cpp: elgamalEncrypt, ElGamalCiphertext::decrypt, ElGamalKeyPair::fromSecret"]}
{"id": "C16", "title": "Encryption never silently changes the plaintext", "statement": "elgamalEncrypt(m, r, K) either encrypts g^m or reports an error, for every 64-bit m.", "quantifier": "all 64-bit plaintexts", "why_tests_cant": "tests only pass 0 and 1", "anchors": ["src/electionguard/elgamal.cpp: elgamalEncrypt"]}
{"id": "C17", "title": "Accumulation is homomorphic and order independent", "statement": "elgamalAdd of ciphertexts of m_1..m_n under one key with nonces r_1..r_n is the ciphertext (g^(sum r), g^(sum m) K^(sum r)); it does not depend on the order of the list and throws only on the empty list.", "quantifier": "every non-empty list of ciphertexts, every permutation", "why_tests_cant": "unbounded list lengths and permutations", "anchors": ["src/electionguard/elgamal.cpp: elgamalAdd"]}
{"id": "C18", "title": "Tally correctness", "statement": "For any number of ballots, multiplying the ciphertexts of one selection over all ballots and decrypting the product yields g^(number of votes for the selection), and the number is recovered uniquely when it is below Q.", "quantifier": "all ballot counts, votes, nonces", "why_tests_cant": "unbounded number of ballots", "anchors": ["src/electionguard/elgamal.cpp: elgamalAdd, decrypt", "src/electionguard/ballot.cpp: elgamalAccumulate"]}
{"id": "C19", "title": "Decryption never reports a vote for a malformed ciphertext", "statement": "Decrypting a ciphertext whose pad is not a field element reports failure rather than the legitimate result 0.", "quantifier": "all pad/data pairs", "why_tests_cant": "needs adversarial inputs", "anchors": ["src/electionguard/elgamal.cpp: ElGamalCiphertext::decrypt"]}
{"id": "C20", "title": "Precomputed encryption equals ordinary encryption", "statement": "Encrypting with a precomputed triple (r, g^r, K^r) returns exactly the ciphertext elgamalEncrypt returns for nonce r, for every plaintext.", "quantifier": "all triples and plaintexts", "why_tests_cant": "equality for all nonces", "anchors": ["src/electionguard/elgamal.cpp: elgamalEncrypt_with_precomputed", "src/electionguard/precompute_buffers.cpp: Triple"]}
{"id": "C21", "title": "Invalid key material is rejected", "statement": "Key pairs are refused exactly for secrets below 2 and encryption is refused exactly for nonce 0; copying a key pair leaves the source usable.", "quantifier": "all secrets and nonces; all copies", "why_tests_cant": "boundary values and aliasing", "anchors": ["src/electionguard/elgamal.cpp: ElGamalKeyPair::fromSecret, ElGamalKeyPair::ElGamalKeyPair"]}
{"id": "C22", "title": "Hashed ElGamal decryption inverts encryption", "statement": "For every message that fits the padded size (or with truncation, for every message), decrypting the hashed ElGamal ciphertext with the matching secret returns the (truncated) message, for every nonce and key.", "quantifier": "all messages, padding sizes, nonces and keys", "why_tests_cant": "length-dependent padding and block loops", "anchors": ["src/electionguard/elgamal.cpp: hashedElgamalEncrypt, HashedElGamalCiphertext::decrypt"]}
{"id": "C23", "title": "Hashed ElGamal rejects modified ciphertexts", "statement": "Decryption either throws or the MAC over pad and data verified: a ciphertext whose pad or data differ from the one produced is accepted only if the MAC function collides; ciphertexts of illegal length are always refused.", "quantifier": "all ciphertext byte strings", "why_tests_cant": "adversarial inputs of any length", "anchors": ["src/electionguard/elgamal.cpp: HashedElGamalCiphertext::decrypt", "src/electionguard/hmac.cpp: get_hmac"]}
{"id": "C24", "title": "Hash outputs are canonical exponents", "statement": "hash_elems returns a value in [0, Q) that depends only on the sequence of hashed items, for every sequence of supported items, nested to any depth.", "quantifier": "all item sequences", "why_tests_cant": "unbounded nesting; digest values above Q", "anchors": ["src/electionguard/hash.cpp: hash_elems"]}
{"id": "C25", "title": "Hash inputs are encoded unambiguously", "statement": "Two different sequences of items never present the same byte string to the underlying hash function.", "quantifier": "all pairs of item sequences", "why_tests_cant": "ambiguity is a property of pairs of inputs", "anchors": ["src/electionguard/hash.cpp: hash_elems, hash_inner_vector"]}
{"id": "C26", "title": "Derived nonces are addressable and independent of access history", "statement": "Nonces::get(i) returns the same value whatever was requested before; next() enumerates get(0), get(1), ... in order from a fresh object; a range request get(start, count) returns exactly count values equal to the individual ones.", "quantifier": "all seeds, headers, indices and call histories", "why_tests_cant": "histories are unbounded; index wrap-around at 2^64", "anchors": ["src/electionguard/nonces.cpp: Nonces"]}
{"id": "C27", "title": "Honest disjunctive proofs verify", "statement": "A disjunctive Chaum-Pedersen proof made for an encryption of 0 or 1 with its nonce verifies against that ciphertext, key and base hash, in the seeded, random and precomputed variants.", "quantifier": "all keys, nonces, seeds, random choices and hash functions", "why_tests_cant": "algebraic identity over all exponents", "anchors": ["src/electionguard/chaum_pedersen.cpp: DisjunctiveChaumPedersenProof::make_zero, make_one, isValid"]}
{"id": "C28", "title": "Honest constant proofs verify", "statement": "A constant Chaum-Pedersen proof made for a ciphertext that encrypts L with its nonce verifies for L.", "quantifier": "all keys, nonces, seeds, constants L and hash functions", "why_tests_cant": "algebraic identity over all exponents", "anchors": ["src/electionguard/chaum_pedersen.cpp: ConstantChaumPedersenProof::make, isValid"]}
{"id": "C29", "title": "Disjunctive proofs are specially sound", "statement": "From two accepting disjunctive transcripts for the same ciphertext and commitments but different challenges one can compute x with pad = g^x and data = K^x or g*K^x, so the ciphertext encrypts 0 or 1.", "quantifier": "all accepting pairs of transcripts", "why_tests_cant": "statement about adversarial provers", "anchors": ["src/electionguard/chaum_pedersen.cpp: DisjunctiveChaumPedersenProof::isValid"]}
{"id": "C30", "title": "Constant proofs are specially sound", "statement": "From two accepting constant transcripts for the same ciphertext and commitment but different challenges one can compute x with pad = g^x and data = g^L*K^x.", "quantifier": "all accepting pairs of transcripts", "why_tests_cant": "statement about adversarial provers", "anchors": ["src/electionguard/chaum_pedersen.cpp: ConstantChaumPedersenProof::isValid"]}
{"id": "C31", "title": "Proof verification binds every component", "statement": "isValid returns true only if every commitment is a valid residue, every scalar is in bounds, the challenge is the hash of the header, ciphertext and commitments (split as c0 + c1 for disjunctive proofs), and all verification equations hold.", "quantifier": "all proofs, ciphertexts, keys and headers", "why_tests_cant": "acceptance must be excluded for every tampered input", "anchors": ["src/electionguard/chaum_pedersen.cpp: isValid"]}
{"id": "C32", "title": "Copying a proof preserves it", "statement": "clone() of a proof, ciphertext or element is equal to the original in every observable field and verifies exactly when the original does.", "quantifier": "all proofs", "why_tests_cant": "field-by-field copies; tests check only some fields", "anchors": ["src/electionguard/chaum_pedersen.cpp: DisjunctiveChaumPedersenProof::clone", "src/electionguard/group.cpp: clone"]}
{"id": "C33", "title": "Proof challenges are zero knowledge for an honest verifier", "statement": "For a fixed statement and challenge, honest transcripts of the disjunctive proof of 0 and of 1, and simulated ones, range over exactly the same set with the same multiplicity as the randomness varies.", "quantifier": "all ciphertexts, nonces, challenges and randomness", "why_tests_cant": "distribution equality over 2^768 random choices", "anchors": ["src/electionguard/chaum_pedersen.cpp: make_zero, make_one"]}
{"id": "C34", "title": "Plaintext selections and contests are classified exactly", "statement": "PlaintextBallotSelection::isValid accepts exactly matching ids with a vote of 0 or 1; PlaintextBallotContest::isValid reports id mismatch, too many selections, overvote and success exactly under the documented conditions, for all vote values.", "quantifier": "all contests, selections and 64-bit vote values", "why_tests_cant": "vote sums may wrap at 2^64", "anchors": ["src/electionguard/ballot.cpp: PlaintextBallotSelection::isValid, PlaintextBallotContest::isValid"]}
{"id": "C35", "title": "Every encrypted contest encrypts exactly the allowed number of votes", "statement": "If encryptContest returns a contest, its selections plus placeholders encrypt a vector of 0/1 values that sums to the number elected; real selections carry the voter's votes, unless the contest was overvoted, in which case they all encrypt 0.", "quantifier": "all descriptions, plaintext contests, seeds", "why_tests_cant": "all vote patterns and contest sizes", "anchors": ["src/electionguard/encrypt.cpp: encryptContest"]}
{"id": "C36", "title": "Encrypted contests carry valid proofs", "statement": "Every selection and every contest produced by the encryption functions passes its own validity check (proofs verify, hashes match), for every input on which encryption succeeds without verification being requested.", "quantifier": "all manifests, ballots, nonces", "why_tests_cant": "needs completeness of both proof systems for all values", "anchors": ["src/electionguard/encrypt.cpp: encryptSelection, encryptContest", "src/electionguard/ballot.cpp: isValidEncryption"]}
{"id": "C37", "title": "No vote is dropped or invented when a ballot is completed", "statement": "Filling missing values keeps every vote of the voter for selections of the ballot style, adds 0 for the others in manifest order, and reports an error for votes that do not belong to the style.", "quantifier": "all manifests and plaintext ballots", "why_tests_cant": "arbitrary mixtures of known, unknown and duplicate ids", "anchors": ["src/electionguard/encrypt.cpp: emplaceMissingValues"]}
{"id": "C38", "title": "Ballot codes form a hash chain", "statement": "For every sequence of encryption requests on one mediator, the n-th successful ballot's seed is the previous successful ballot's code (the device hash for the first), its code is hash(seed, timestamp, ballot hash), and a failed request leaves the chain unchanged.", "quantifier": "all histories of successful and failed requests", "why_tests_cant": "unbounded histories with failures at any point", "anchors": ["src/electionguard/encrypt.cpp: EncryptionMediator::encrypt, compactEncrypt", "src/electionguard/ballot_code.cpp: getHashForDevice, getRotatingTrackerHash"]}
{"id": "C39", "title": "Ballot encryption is reproducible from its nonce", "statement": "Without precomputed values, encrypting the same ballot with the same manifest, context, code seed, nonce and timestamp gives the same encrypted ballot and code, and expanding a compact encrypted ballot reproduces it.", "quantifier": "all ballots, seeds, nonces, timestamps", "why_tests_cant": "determinism quantifies over all executions", "anchors": ["src/electionguard/encrypt.cpp: encryptBallot, encryptCompactBallot", "src/electionguard/ballot_compact.cpp: expandCompactCiphertextBallot"]}
{"id": "C40", "title": "Compact plaintext ballots expand to the completed ballot", "statement": "Compressing a plaintext ballot that lists exactly the contests and selections of its style and expanding it again gives the same votes and write-ins in the same places; a short compact ballot is rejected.", "quantifier": "all manifests and ballots", "why_tests_cant": "flattening arithmetic over arbitrary shapes", "anchors": ["src/electionguard/ballot_compact.cpp: compressPlaintextBallot, expandCompactPlaintextBallot"]}
{"id": "C41", "title": "A ballot passes validation only if every proof in it verifies", "statement": "CiphertextBallot::isValidEncryption returns true only if every selection proof and contest proof of the ballot is valid for the given keys and hashes.", "quantifier": "all ciphertext ballots", "why_tests_cant": "adversarial ballots with repeated identifiers", "anchors": ["src/electionguard/ballot.cpp: CiphertextBallot::isValidEncryption"]}
{"id": "C42", "title": "Ballot hashes are recomputable and order independent", "statement": "For a ballot produced by make, recomputing crypto_hash_with(manifestHash) gives the stored crypto hash, whatever the order in which contests and selections were supplied.", "quantifier": "all ballots and all orders of contests", "why_tests_cant": "order of insertion vs. sequence order", "anchors": ["src/electionguard/ballot.cpp: CiphertextBallot::make, crypto_hash_with, CiphertextBallotContest::make"]}
{"id": "C43", "title": "Contest encryption aggregates are consistent", "statement": "The accumulated ciphertext of a contest equals the product of its selections' ciphertexts and is the encryption of the sum of the votes under the aggregate nonce.", "quantifier": "all selections lists", "why_tests_cant": "unbounded number of selections", "anchors": ["src/electionguard/ballot.cpp: CiphertextBallotContest::make, aggregateNonce, elgamalAccumulate"]}
{"id": "C44", "title": "Manifest validation guarantees referential integrity", "statement": "If Manifest::isValid() is true then ids are non-empty and unique per kind, contest sequence orders are unique, and every geopolitical unit, party and district reference resolves.", "quantifier": "all manifests", "why_tests_cant": "set-cardinality checks over arbitrary lists", "anchors": ["src/electionguard/manifest.cpp: Manifest::isValid, ContestDescription::isValid"]}
{"id": "C45", "title": "Ballot styles select exactly the right contests", "statement": "getContestsFor(style) returns each contest whose district belongs to the style exactly once, in sequence order, and throws for unknown or empty styles.", "quantifier": "all manifests and style ids", "why_tests_cant": "arbitrary lists of units with repetitions", "anchors": ["src/electionguard/manifest.cpp: InternalManifest::getContestsFor, getBallotStyle"]}
{"id": "C46", "title": "Placeholders are fresh and sufficient", "statement": "Each contest of the internal manifest receives exactly numberElected placeholders with pairwise distinct ids and sequence orders above every real selection's.", "quantifier": "all contests, numbers elected and sequence orders", "why_tests_cant": "sequence numbers use fixed-width arithmetic", "anchors": ["src/electionguard/manifest.cpp: generateContestsWithPlaceholders, generatePlaceholderSelectionFrom"]}
{"id": "C47", "title": "The manifest hash commits to the manifest", "statement": "Manifests that differ in contests, selections, parties, candidates, styles or dates have different hashes unless the hash function collides.", "quantifier": "all pairs of manifests", "why_tests_cant": "commitment is a property of pairs", "anchors": ["src/electionguard/manifest.cpp: crypto_hash"]}
{"id": "C48", "title": "Precomputed values are handed out at most once and in order", "statement": "Over every interleaving of populating, consuming, stopping and emptying the precompute buffers, each precomputed triple/quadruple is returned at most once, in the order it was produced; consumption from empty buffers returns nothing.", "quantifier": "all interleavings of operations", "why_tests_cant": "schedules are unbounded", "anchors": ["src/electionguard/precompute_buffers.cpp: PrecomputeBuffer"]}
{"id": "C49", "title": "The precompute buffer respects its configured size and stops when told", "statement": "populate() stops once the configured maximum is reached or a stop was requested and never exceeds the maximum.", "quantifier": "all configurations and interleavings with stop requests", "why_tests_cant": "depends on schedule", "anchors": ["src/electionguard/precompute_buffers.cpp: populate"]}
{"id": "C50", "title": "Precomputed values are internally consistent", "statement": "Every triple in the buffers has the form (e, g^e, K^e) and every quadruple (e1, e2, g^e1, g^e2*K^e1) for the key of the buffer.", "quantifier": "all populate executions and random draws", "why_tests_cant": "holds for all random exponents", "anchors": ["src/electionguard/precompute_buffers.cpp: createPrecomputedTriple, Quadruple::Quadruple"]}
{"id": "C51", "title": "The concurrent queue is a FIFO queue", "statement": "Under every interleaving of pushes and pops by any number of threads, the queue returns each pushed item at most once, in push order, and loses none.", "quantifier": "all interleavings", "why_tests_cant": "schedules", "anchors": ["src/electionguard/async.hpp: AsyncQueue"]}
{"id": "C52", "title": "Waiting for asynchronous tasks collects every result exactly once", "statement": "wait_all returns every task's result exactly once whatever the order of completion, in the order of the tasks, throws what a task threw, and returns once every task is complete.", "quantifier": "all task lists, outcomes and completion orders", "why_tests_cant": "completion order is decided by the scheduler", "anchors": ["src/electionguard/async.hpp: wait_all, isReady"]}
{"id": "C53", "title": "The lookup-table cache is safe under concurrency and never returns a table of another base", "statement": "For every history of requests the table used for a base was computed for that base.", "quantifier": "all histories of requests", "why_tests_cant": "histories and interleavings", "anchors": ["src/electionguard/lookup_table.hpp: LookupTableContext"]}
{"id": "C54", "title": "Serialised ballots without nonces reveal no nonce", "statement": "Serialising a ciphertext ballot without nonces yields a document that contains none of its nonces, for every ballot.", "quantifier": "all ballots", "why_tests_cant": "absence over all field paths", "anchors": ["src/electionguard/serialize.hpp: CiphertextBallotSerializer"]}
{"id": "C55", "title": "Serialised objects round-trip", "statement": "Reading back a serialised plaintext ballot, ciphertext ballot (with nonces), context, device or compact ballot returns an equal object.", "quantifier": "all objects", "why_tests_cant": "optional fields, empty lists and zero values", "anchors": ["src/electionguard/serialize.hpp"]}
{"id": "C56", "title": "Hashed ElGamal ciphertexts survive serialisation", "statement": "The byte strings of a hashed ElGamal ciphertext are the same after serialising and reading back.", "quantifier": "all byte strings", "why_tests_cant": "fails only for leading zero bytes (1 in 256)", "anchors": ["src/electionguard/serialize.hpp: HashedElGamalCiphertext codec", "src/electionguard/convert.hpp: bytes_to_hex"]}
{"id": "C57", "title": "Contexts bind the election parameters", "statement": "The crypto base hash is hash(P,Q,G,n,quorum,manifestHash), the extended base hash is hash(base, commitmentHash), for every way of making a context, and the mediator refuses a context made for a different manifest.", "quantifier": "all contexts and manifests", "why_tests_cant": "several overloads must agree for all inputs", "anchors": ["src/electionguard/election.cpp: CiphertextElectionContext::make", "src/electionguard/encrypt.cpp: EncryptionMediator"]}
{"id": "C58", "title": "Random exponents cover the whole range", "statement": "rand_q can return every value of [0, Q) and returns only such values.", "quantifier": "all outputs of the random source", "why_tests_cant": "surjectivity cannot be sampled", "anchors": ["src/electionguard/group.cpp: rand_q", "src/electionguard/random.hpp"]}
{"id": "C59", "title": "The internal manifest carries every contest unchanged", "statement": "Each contest of a manifest reaches the internal manifest with the same id, district, order, variation, seats, allowed votes, titles, primary parties and selections, so that its hash is unchanged.", "quantifier": "all manifests", "why_tests_cant": "depends on which optional fields are present", "anchors": ["src/electionguard/manifest.cpp: ContestDescription::Impl::clone, generateContestsWithPlaceholders"]}
{"id": "C60", "title": "An accepted contest holds at most numberElected votes", "statement": "If an encrypted contest passes isValidEncryption, the sum of the votes it encrypts is the number of seats of its contest in the manifest.", "quantifier": "all encrypted contests, manifests and keys", "why_tests_cant": "a check that is missing cannot be seen by running valid ballots", "anchors": ["src/electionguard/ballot.cpp: CiphertextBallotContest::isValidEncryption", "src/electionguard/chaum_pedersen.cpp: ConstantChaumPedersenProof::isValid"]}
{"id": "C61", "title": "Overvotes and write-ins survive in the extended data", "statement": "The extended data of an encrypted contest decrypts, with the election's secret key, to the first 510 bytes of a JSON text listing exactly the write-ins of the contest and, for an overvote, the marked options.", "quantifier": "all ballots and manifests", "why_tests_cant": "ranges over all combinations of marks and texts", "anchors": ["src/electionguard/encrypt.cpp: getOvervoteAndWriteIns, encryptContest"]}
{"id": "C62", "title": "Every well-formed ballot can be encrypted", "statement": "Encryption without verification succeeds for every ballot of a known style whose votes are 0 or 1 (or form an overvote of less than 2^64), and never for a ballot of an unknown style or with other votes.", "quantifier": "all ballots, nonces, random values", "why_tests_cant": "totality over all inputs", "anchors": ["src/electionguard/encrypt.cpp: encryptBallot, encryptContest, encryptSelection"]}
{"id": "C63", "title": "The thread pool runs every submitted task exactly once", "statement": "Tasks start in the order of submission, none is run twice, and when the pool is destroyed every task submitted before has been run; destruction comes to an end.", "quantifier": "all task lists, numbers of workers and interleavings", "why_tests_cant": "a lost or repeated task depends on the schedule", "anchors": ["src/electionguard/async.hpp: ThreadPool, Scheduler"]}
{"id": "C64", "title": "The semaphore admits at most its count and loses no wake-up", "statement": "At most n threads are between lock() and unlock() of a semaphore of count n, and as long as those that enter also leave, nobody waits for ever.", "quantifier": "all counts, numbers of threads and interleavings", "why_tests_cant": "lost wake-ups depend on the schedule", "anchors": ["src/electionguard/async.hpp: AsyncSemaphore"]}
{"id": "C65", "title": "Every hash follows the published field list", "statement": "Manifests and their parts, ciphertexts, contexts, devices, ballot codes, proof challenges, nonces and session keys are hashed as a fixed list of typed fields joined by the delimiter; an encrypted ballot's nonces, description hashes, selection, contest and ballot hashes and its code follow from the master nonce and the manifest by those formats, so an independent implementation computes the same values.", "quantifier": "all objects, ballots and hash functions", "why_tests_cant": "a swapped or forgotten field gives another valid-looking hash on every input", "anchors": ["src/electionguard/hash.cpp: hash_elems", "src/electionguard/manifest.cpp: crypto_hash", "src/electionguard/ballot.cpp: makeHash", "src/electionguard/nonces.cpp", "src/electionguard/elgamal.cpp: crypto_hash", "src/electionguard/ballot_code.cpp"]}
{"id": "C66", "title": "Ballot hashes and codes commit to the encrypted ballot", "statement": "If the hash function does not collide on the strings hashed for two consistent ballots, equal ballot codes mean the same ballot id, manifest, seed, timestamp, contests, selections and ciphertexts, and the extended data.", "quantifier": "all pairs of ballots", "why_tests_cant": "ranges over all pairs", "anchors": ["src/electionguard/ballot.cpp: CiphertextBallot::make, makeHash", "src/electionguard/ballot_code.cpp: BallotCode::getBallotCode"]}
{"id": "C67", "title": "Manifests survive serialisation", "statement": "A manifest that is written and read again is the same manifest and has the same hash; so is an internal manifest.", "quantifier": "all manifests", "why_tests_cant": "optional texts, orders, dates and default values must all be restored", "anchors": ["src/electionguard/serialize.hpp: Manifest::fromJson, InternalManifest::fromJson"]}
{"id": "C68", "title": "Hashing is SHA-256, however the bytes arrive", "statement": "The digest obtained by feeding byte strings to the hash state in any number and sizes of updates, or in one call, is the SHA-256 (FIPS 180-4) of their concatenation; no update reads or writes outside the buffers; the hash of a list of items, nested to any depth, is that digest of its encoding reduced modulo Q.", "quantifier": "all byte strings and all ways of cutting them; all nested item lists", "why_tests_cant": "block boundaries, buffer states and lengths are unbounded", "anchors": ["src/karamel/Hacl_Hash.c: update_256, pad_256, Hacl_Hash_SHA2_update_last_256, Hacl_Hash_SHA2_hash_256", "src/karamel/Hacl_Streaming_SHA2.c: Hacl_Streaming_SHA2_update_256, Hacl_Streaming_SHA2_finish_256", "src/electionguard/hash.cpp: hash_open, push_hash_update, hash_close"]}
{"id": "C69", "title": "Message authentication codes are HMAC-SHA-256", "statement": "get_hmac returns the HMAC (RFC 2104) with SHA-256 of the counter, the message and the length under the key, for keys and messages of every length.", "quantifier": "all keys, messages, lengths and counters", "why_tests_cant": "keys longer than a block, empty data and block boundaries are separate code paths", "anchors": ["src/karamel/Hacl_HMAC.c: Hacl_HMAC_compute_sha2_256", "src/electionguard/hmac.cpp: get_hmac"]}
{"id": "C70", "title": "Random bytes are the output of a standard generator", "statement": "Random::getBytes returns exactly the requested number of bytes, those of the HMAC_DRBG of SP 800-90A seeded with the operating system's entropy, nonce and the time; it throws when the operating system fails; a generator refuses after 1024 requests without reseeding.", "quantifier": "all sizes, entropy, nonces, clock texts, and all sequences of generate and reseed calls", "why_tests_cant": "the output is random, so a test cannot compare it; partial last blocks and empty additional input are separate paths", "anchors": ["src/karamel/Hacl_HMAC_DRBG.c: Hacl_HMAC_DRBG_instantiate, Hacl_HMAC_DRBG_reseed, Hacl_HMAC_DRBG_generate", "src/electionguard/random.hpp: getBytes"]}
{"id": "C71", "title": "The C interface's lists are sequences", "statement": "Whatever calls a C client makes on any number of lists, append adds at the end, delete_last removes there, counts and elements are those of the sequence, positions past the end are reported, freed lists leave no memory, and nothing undefined happens while handles are live.", "quantifier": "all histories of calls on all lists, all strings, all failures of allocation", "why_tests_cant": "memory errors and leaks depend on the whole history of links, frees and failed allocations", "anchors": ["src/electionguard/facades/collections.c: eg_linked_list_new, eg_linked_list_free, eg_linked_list_append, eg_linked_list_delete_last, eg_linked_list_get_element_at, eg_linked_list_get_value_at"]}
{"id": "C72", "title": "A C client that follows the headers neither corrupts nor leaks memory", "statement": "Every function the C headers declare can be called, and a client that uses each handle as the headers say (its type, who frees it, what stays a reference, what is given up) meets no undefined behaviour, whatever calls fail; when it has freed everything it owns, nothing is left allocated.", "quantifier": "all histories of calls of the 344 declared functions, all failures", "why_tests_cant": "ownership errors show only in particular histories, long after the call that caused them", "anchors": ["src/electionguard/facades/*.cpp", "src/electionguard/facades/collections.c", "include/electionguard/*.h"]}
{"id": "C73", "title": "Dates of a manifest are kept and understood", "statement": "A manifest's start and end are written as the UTC date and time of the instant, to the second; reading such a text, or one with an offset from UTC, gives that instant, and a text that is no such date is refused.", "quantifier": "all instants a time point can hold, all dates of the years 0 to 9999, all offsets", "why_tests_cant": "leap years, centuries, dates before 1970 and offsets are unbounded combinations", "anchors": ["src/electionguard/convert.cpp: timePointToIsoString, timePointFromIsoString", "src/electionguard/serialize.hpp: Manifest::fromJson"]}
{"id": "C74", "title": "Windows builds compute the same numbers", "statement": "Arithmetic modulo P on Windows, where the facade hands the arrays to the 32-bit bignum library, gives the same limbs as the 64-bit library elsewhere: sums, differences, products, remainders, powers, Montgomery forms, table powers and residue tests, and hence the mathematical values.", "quantifier": "all arrays, moduli, exponents and bit counts", "why_tests_cant": "carries, windows and reductions fall on other boundaries with 32-bit words", "anchors": ["src/electionguard/facades/Hacl_Bignum4096.cpp", "src/karamel/Hacl_Bignum4096_32.c", "src/karamel/Hacl_GenericField32.c", "src/karamel/Hacl_Bignum.c: bn_karatsuba_mul_uint32"]}
{"id": "C75", "title": "The checked exponentiation refuses exponents longer than announced", "statement": "Bignum4096::modExp returns false, on every platform, when the exponent array denotes a number of more bits than the count passed with it; otherwise, for an odd modulus above 1 and a base below it, it returns true and the power.", "quantifier": "all moduli, bases, exponents and bit counts", "why_tests_cant": "the check covers only some words of the array, and which ones depends on the platform", "anchors": ["src/electionguard/facades/Hacl_Bignum4096.cpp: modExp", "src/karamel/Hacl_Bignum4096.c: exp_check", "src/karamel/Hacl_Bignum4096_32.c: exp_check"]}
{"id": "C76", "title": "Group elements behave as values", "statement": "Whatever is constructed, copied, cloned, assigned, compared, raised to powers, spelled in hexadecimal or stored into through get() and ref(), in any order, every answer is the one plain numbers would give; in particular equal elements are spelled alike, and a power depends on the numbers only.", "quantifier": "all histories of operations on any number of elements", "why_tests_cant": "a text kept in an element, and tables of powers found by that text, make answers depend on what was done before, to this element and to others", "anchors": ["src/electionguard/group.cpp: ElementModP::toHex, clone, operator=", "src/electionguard/group.cpp: ElementModQ::clone, operator=", "src/electionguard/group.cpp: pow_mod_p", "include/electionguard/group.hpp: ElementModP::get, ref"]}
{"id": "C77", "title": "Destroyed elements leave nothing of their value in memory", "statement": "After an element is destroyed or assigned over, the memory it occupied holds no part of its number, and no text of it is left.", "quantifier": "all values and histories", "why_tests_cant": "freed memory is not observable through the API; a test sees only that the element is gone", "anchors": ["src/electionguard/group.cpp: ElementModP::Impl::~Impl, ElementModQ::Impl::~Impl", "src/karamel/Lib_Memzero0.c: Lib_Memzero0_memzero"]}
{"id": "C78", "title": "One element may be read by several threads", "statement": "Any number of threads may call const functions of one element (the generator and the election key are shared by all of them) without a data race, and each gets the right text.", "quantifier": "all numbers of threads, all schedules", "why_tests_cant": "depends on the schedule of the first use of the element", "anchors": ["src/electionguard/group.cpp: ElementModP::toHex", "src/electionguard/group.cpp: pow_mod_p", "src/electionguard/precompute_buffers.cpp"]}
{"id": "C79", "title": "Copies, clones and assignments give equal objects", "statement": "A copy or clone of any object of the library equals it and leaves it as it was; after an assignment the target equals the source; no such operation fails, or fails half done.", "quantifier": "all objects of the 25 copyable classes, all programs of copies, clones and assignments on any number of them", "why_tests_cant": "each class has its own copy code with its own forgotten or emptied field, seen only on objects that use the field", "anchors": ["src/electionguard/manifest.cpp: copy constructors, operator=", "src/electionguard/ballot.cpp: Impl::clone", "src/electionguard/elgamal.cpp: ElGamalKeyPair", "src/electionguard/chaum_pedersen.cpp: clone", "src/electionguard/precompute_buffers.cpp: Triple, Quadruple, TwoTriplesAndAQuadruple"]}
{"id": "C80", "title": "A submitted ballot carries no nonces", "statement": "SubmittedBallot::from turns an encrypted ballot into one with the same contents, the state asked for and, as its header says, all nonces removed, so that votes cannot be read from it without the secret key.", "quantifier": "all encrypted ballots and states", "why_tests_cant": "what an object still holds is not visible in its written form", "anchors": ["include/electionguard/ballot.hpp: SubmittedBallot", "src/electionguard/ballot.cpp: SubmittedBallot::from, CiphertextBallot::Impl::clone"]}
{"id": "C81", "title": "A published ballot verifies and holds the voter's votes", "statement": "Every ballot that is encrypted, submitted, written to a document and read by an auditor verifies there, decrypts to the voter's votes contest by contest, is in the state it was submitted in and holds no nonces; and whatever ballot is published, good or bad, the auditor's verdict is the verdict on the original.", "quantifier": "all ballots, manifests, keys, seeds, states and faithful JSON codecs; for the verdict all ballots at all", "why_tests_cant": "joins encryption, self-check, copies, documents and verification; each alone holds under conditions the others must provide", "anchors": ["src/electionguard/encrypt.cpp: encryptBallot", "src/electionguard/ballot.cpp: SubmittedBallot::from, CiphertextBallot::isValidEncryption", "src/electionguard/serialize.hpp: SubmittedBallot"]}
{"id": "C82", "title": "Contexts keep their configuration and extended data across the C interface", "statement": "A context made through any of the C constructors holds the arguments, the two hashes of the specification, the configuration given (or overvotes allowed and 1000000 ballots) and, for each key of the list of extended data, its last value; the list is left alone. Reading extended data back gives a new list with exactly these entries and disturbs no other list. A failure is reported and gives no context.", "quantifier": "every history of calls on lists before and after, every list, key, hash, configuration, every order in which the map iterates, every pattern of failed allocations", "why_tests_cant": "tests make one context from a list of one or two entries and never fail an allocation; which entries survive depends on the list, on repeated keys and on zero bytes", "anchors": ["src/electionguard/facades/election.cpp: eg_ciphertext_election_context_make*, eg_ciphertext_election_context_get_extended_data", "src/electionguard/election.cpp: CiphertextElectionContext::make", "include/electionguard/election.h"]}
{"id": "C83", "title": "Election dates pass the C interface unchanged", "statement": "The start and end dates given in milliseconds when a manifest is made through the C interface are the instants in its documents, and are what the date functions of the interface give back, before and after a document.", "quantifier": "every pair of 64-bit dates, every clock resolution of the supported C++ libraries", "why_tests_cant": "whether the units agree shows only when a date is given and read back, for which there is no test; overflow of the clock needs extreme dates", "anchors": ["src/electionguard/facades/manifest.cpp: eg_election_manifest_new, eg_election_manifest_new_with_contact, eg_election_manifest_get_start_date, eg_election_manifest_get_end_date", "bindings/netstandard/ElectionGuard/ElectionGuard.Encryption/Manifest.cs: StartDate, EndDate"]}
{"id": "C84", "title": "Texts, byte arrays and documents pass the C interface unchanged", "statement": "A text or byte array handed out by the C interface has the size reported and is what the library holds; given back, it is read as the same. Ballots of voters made by C calls hold the texts and votes given and come back from their documents.", "quantifier": "every text and byte array, every ballot of any number of contests and selections, every size claimed", "why_tests_cant": "zero bytes, sizes that do not match and failed allocations are unbounded in number and do not occur in tests", "anchors": ["src/electionguard/convert.hpp: dynamicCopy", "src/electionguard/facades/ballot.cpp: eg_plaintext_ballot_*, eg_extended_data_new", "src/electionguard/facades/election.cpp: eg_ciphertext_election_context_to_json, eg_ciphertext_election_context_from_json"]}
{"id": "C85", "title": "The count of the published ballots is the count of the votes", "statement": "For every option of every contest, the product of the ciphertexts for it on the published cast ballots decrypts to the number of votes that the voters gave it on cast ballots, overvoted contests counting for none, and to nothing else; spoiled ballots do not count; the order of the ballots does not matter; the accumulations of a contest add up to its seats times its ballots; and the library's decryption gives the count.", "quantifier": "all manifests, all numbers of ballots with all votes and states, all keys, seeds, nonces and orders", "why_tests_cant": "joins ballot styles, encryption, submission, documents, addition and decryption over any number of ballots; a vote lost or counted twice on one path shows in no single ballot's test", "anchors": ["src/electionguard/encrypt.cpp: encryptBallot, encryptContest", "src/electionguard/manifest.cpp: InternalManifest::getContests", "src/electionguard/elgamal.cpp: elgamalAdd, ElGamalCiphertext::decrypt", "src/electionguard/ballot.cpp: SubmittedBallot::from"]}
{"id": "C86", "title": "A mediator shared by threads chains its ballots", "statement": "Threads that encrypt through one mediator, whose functions are const, get the answers of some sequential order of their requests: no call is undefined, every ballot's seed is the device's hash or the code of the ballot before it, and a ballot missing from the record leaves a visible gap.", "quantifier": "any number of threads with any requests, failing ones included, and every schedule", "why_tests_cant": "depends on the schedule; the tests use one thread", "anchors": ["src/electionguard/encrypt.cpp: EncryptionMediator::encrypt, EncryptionMediator::compactEncrypt", "include/electionguard/encrypt.hpp: EncryptionMediator", "docs/Design_and_Architecture.md: thread safety"]}
{"id": "C87", "title": "The status of an encryption call tells why it failed", "statement": "The C functions that encrypt selections, contests and ballots answer SUCCESS with a result exactly for input that can be encrypted, INVALID_ARGUMENT without one for other input, and RUNTIME_ERROR only when proofs are checked and fail; no input of the client's makes them crash or report lack of memory, and every status has its own text.", "quantifier": "every ballot, contest and selection with any votes, every manifest, nonce, seed and environment, proofs checked or not, direct calls and calls through a mediator", "why_tests_cant": "which exception leaves the library depends on the votes of every contest and the order of the checks; tests look at a few statuses only", "anchors": ["src/electionguard/facades/encrypt.cpp: eg_encrypt_selection, eg_encrypt_contest, eg_encrypt_ballot, eg_encrypt_compact_ballot, eg_encryption_mediator_*", "src/electionguard/encrypt.cpp: encryptBallot, encryptCompactBallot, emplaceMissingValues", "include/electionguard/status.h: eg_electionguard_get_status"]}
{"id": "C88", "title": "No secret exponent is used twice", "statement": "When nothing is precomputed, every power of the generator by which a vote, the extended data of a contest or the commitment of a contest's proof is hidden stands at one place of one ballot only: no two places of a ballot, and no two ballots of an election with different ids or master nonces, share one. Two encryptions with the same id and nonce share them all.", "quantifier": "every manifest, every number of ballots with any votes, ids, master nonces, keys and random numbers, every hash function without collisions among the listed strings", "why_tests_cant": "a shared exponent shows the difference of two votes to everybody; it may occur between any two of all the places of all the ballots, and depends on the injectivity of every string hashed on the way", "anchors": ["src/electionguard/encrypt.cpp: encryptSelection, encryptContest, encryptContests, encryptBallot", "src/electionguard/nonces.cpp: Nonces::get, Nonces::next", "src/electionguard/hash.cpp: hash_elems", "src/electionguard/ballot.cpp: CiphertextBallot::nonceSeed", "src/electionguard/chaum_pedersen.cpp: ConstantChaumPedersenProof::make"]}
