import json
R=[]
def p(title, statement, quantifier, why, anchors):
    R.append(dict(id="C%02d"%(len(R)+1), title=title, statement=statement, quantifier=quantifier, why_tests_cant=why, anchors=anchors))
g="src/electionguard/group.cpp"; eg="src/electionguard/"
# ---- group arithmetic
p("add_mod_q is addition modulo Q",
  "For any two exponents a, b that are in range (0 <= a, b <= Q), add_mod_q(a, b) returns exactly (a + b) mod Q, a value strictly below Q; the list form returns the sum of the whole list mod Q (independent of order) and throws only for the empty list.",
  "every pair of 256-bit exponents in range; every non-empty list of them; both shipped parameter sets",
  "2^512 input pairs; the carry and all-ones corner cases are hit with negligible probability by random tests",
  [g+": add_mod_q", eg+"utils.hpp: isMax"])
p("sub_mod_q, sub_from_q and a_plus_bc_mod_q compute in Z_Q",
  "For in-range exponents sub_mod_q(a,b) = (a-b) mod Q; for arbitrary 256-bit a,b,c a_plus_bc_mod_q(a,b,c) = (a+b*c) mod Q; sub_from_q(a) is an additive inverse of a modulo Q.",
  "all operands", "the borrow/carry branches depend on rare operand relations among 2^512 pairs",
  [g+": sub_mod_q, a_plus_bc_mod_q, sub_from_q"])
p("Exponent arithmetic is correct for every 256-bit operand",
  "add_mod_q and sub_mod_q return the residue of the mathematical sum/difference for every value an exponent object can hold, including the values in (Q, 2^256) that unchecked construction and hashing admit.",
  "all 256-bit operands, in range or not", "only operands in the 189-wide window above Q (or their sums) expose the difference",
  [g+": add_mod_q, sub_mod_q", eg+"hash.cpp: hash_elems"])
p("mul_mod_p is multiplication modulo P",
  "mul_mod_p(a,b) = a*b mod P for every pair of 4096-bit values, and the list form returns the product of the list mod P, independent of the order of the list, with the empty product equal to 1.",
  "all 4096-bit operands, all lists and all their permutations", "infinite lists / 2^8192 operand pairs",
  [g+": mul_mod_p"])
p("pow_mod_p with an exponent in Z_Q is modular exponentiation",
  "pow_mod_p(b, e) = b^e mod P for every base and every 256-bit exponent e (including 0), whether or not the base is flagged fixed-base, i.e. the precomputed-table path and the generic path return the same value.",
  "every base, every 256-bit exponent, both code paths", "the table path multiplies up to 32 of 8192 precomputed powers; no test enumerates exponents",
  [g+": pow_mod_p(ElementModP, ElementModQ), g_pow_p", eg+"lookup_table.hpp: LookupTable"])
p("pow_mod_p with a 4096-bit exponent is modular exponentiation",
  "pow_mod_p(b, e) = b^e mod P for every 4096-bit exponent e.",
  "every base, every 4096-bit exponent", "tests use small exponents only", [g+": pow_mod_p(ElementModP, ElementModP)"])
p("add_mod_p and mod_p reduce modulo P without touching memory they do not own",
  "add_mod_p(a,b) = (a+b) mod P and mod_p(a) = a mod P for all in-range operands, with no out-of-bounds access.",
  "all in-range operands", "the out-of-bounds read happens only when the 4096-bit sum carries and is silent",
  [g+": add_mod_p, mod_p, rand_p"])
p("Checked construction admits exactly the field elements",
  "Constructing an element of Z_P or Z_Q with checking on, from limbs, bytes, hex or an integer, succeeds only for values below the modulus and throws out_of_range otherwise; the stored value equals the value denoted by the input.",
  "all inputs of every length", "boundary value equal to the modulus and odd-length inputs are single points in huge spaces",
  [g+": ElementModP::Impl::Impl, ElementModQ::Impl::Impl, bytes_to_p, bytes_to_q, fromHex, fromUint64"])
p("Hex and byte encodings of elements round-trip",
  "fromHex(toHex(x)) == x and the byte form round-trips, for every element x of Z_P and Z_Q; toHex is injective.",
  "every element", "2^4096 elements; leading-zero stripping makes behaviour depend on the value",
  [g+": toHex, fromHex, toBytes", eg+"convert.hpp: bytes_to_hex, sanitize_hex_string, hex_to_bytes"])
p("Comparison operators agree with the integers",
  "==, != and < on elements agree with equality and order of the integers they denote, and isInBounds(x) holds exactly for 0 < x < modulus.",
  "all pairs of elements", "limb-wise comparison from low to high limb must be right for all limb patterns",
  [g+": operator==, operator<, isInBounds", "src/karamel/Hacl_Bignum256.c: Hacl_Bignum256_lt_mask"])
p("Multi-limb addition, subtraction and multiplication are exact",
  "The bundled bignum add/sub return exactly a+b / a-b modulo 2^(64 n) together with the exact carry/borrow, and mul/sqr (schoolbook and Karatsuba) return the exact double-length product, for every operand.",
  "every limb array of every length the library uses", "carry chains across 64 limbs; sampled tests cannot reach all carry patterns",
  ["src/karamel/Hacl_Bignum.c: bn_mul_u64, bn_karatsuba_mul_uint64, bn_karatsuba_sqr_uint64", "src/karamel/Hacl_Bignum4096.c: Hacl_Bignum4096_add, Hacl_Bignum4096_sub, Hacl_Bignum4096_mul", "src/karamel/Hacl_Bignum256.c"])
p("Montgomery reduction and modular reduction are exact",
  "For every odd modulus n > 1 and every double-length a, the bundled mod operation writes a mod n; the precomputed context constants satisfy mu*n = -1 mod 2^64 and r2 = 2^(128 len) mod n.",
  "all odd moduli and all double-length inputs", "the final conditional subtraction depends on one bit of carry",
  ["src/karamel/Hacl_Bignum4096.c: bn_slow_precomp, reduction, areduction, precompr2", "src/karamel/Hacl_Bignum.c: Hacl_Bignum_ModInvLimb_mod_inv_uint64"])
p("Windowed modular exponentiation is exact",
  "For odd n > 1, a < n and b < 2^bBits, both the constant-time and the variable-time exponentiation write a^b mod n, and the modular inverse routine writes an inverse of a whenever a^(n-1) = 1 mod n.",
  "all moduli, bases, exponents and exponent bit lengths", "4-bit window extraction across limb boundaries depends on every bit position",
  ["src/karamel/Hacl_Bignum4096.c: exp_consttime_precomp, exp_vartime_precomp, Hacl_Bignum4096_mod_inv_prime_vartime"])
p("The shipped group constants form an order-Q subgroup",
  "In both parameter sets P = Q*R + 1, G generates a subgroup of exponent Q (G^Q = 1 mod P, G != 1), the stored offsets are 2^256 - Q and 2^4096 - P, and Q is prime.",
  "the two parameter sets; consequences for all exponents", "every protocol theorem rests on it; a unit test of one power does not establish primality",
  ["include/electionguard/constants.h"])
# ---- elgamal
p("Decryption inverts encryption",
  "For every key pair with secret s in [2, Q) and every non-zero nonce r < Q, decrypting elgamalEncrypt(m, r, K) with s returns m for m = 0 and m = 1.",
  "all secrets, nonces and both plaintexts", "2^512 key/nonce pairs", [eg+"elgamal.cpp: elgamalEncrypt, ElGamalCiphertext::decrypt, ElGamalKeyPair::fromSecret"])
p("Encryption never silently changes the plaintext",
  "elgamalEncrypt(m, r, K) either encrypts g^m or reports an error, for every 64-bit m.",
  "all 64-bit plaintexts", "tests only pass 0 and 1", [eg+"elgamal.cpp: elgamalEncrypt"])
p("Accumulation is homomorphic and order independent",
  "elgamalAdd of ciphertexts of m_1..m_n under one key with nonces r_1..r_n is the ciphertext (g^(sum r), g^(sum m) K^(sum r)); it does not depend on the order of the list and throws only on the empty list.",
  "every non-empty list of ciphertexts, every permutation", "unbounded list lengths and permutations", [eg+"elgamal.cpp: elgamalAdd"])
p("Tally correctness",
  "For any number of ballots, multiplying the ciphertexts of one selection over all ballots and decrypting the product yields g^(number of votes for the selection), and the number is recovered uniquely when it is below Q.",
  "all ballot counts, votes, nonces", "unbounded number of ballots", [eg+"elgamal.cpp: elgamalAdd, decrypt", eg+"ballot.cpp: elgamalAccumulate"])
p("Decryption never reports a vote for a malformed ciphertext",
  "Decrypting a ciphertext whose pad is not a field element reports failure rather than the legitimate result 0.",
  "all pad/data pairs", "needs adversarial inputs", [eg+"elgamal.cpp: ElGamalCiphertext::decrypt"])
p("Precomputed encryption equals ordinary encryption",
  "Encrypting with a precomputed triple (r, g^r, K^r) returns exactly the ciphertext elgamalEncrypt returns for nonce r, for every plaintext.",
  "all triples and plaintexts", "equality for all nonces", [eg+"elgamal.cpp: elgamalEncrypt_with_precomputed", eg+"precompute_buffers.cpp: Triple"])
p("Invalid key material is rejected",
  "Key pairs are refused exactly for secrets below 2 and encryption is refused exactly for nonce 0; copying a key pair leaves the source usable.",
  "all secrets and nonces; all copies", "boundary values and aliasing", [eg+"elgamal.cpp: ElGamalKeyPair::fromSecret, ElGamalKeyPair::ElGamalKeyPair"])
p("Hashed ElGamal decryption inverts encryption",
  "For every message that fits the padded size (or with truncation, for every message), decrypting the hashed ElGamal ciphertext with the matching secret returns the (truncated) message, for every nonce and key.",
  "all messages, padding sizes, nonces and keys", "length-dependent padding and block loops", [eg+"elgamal.cpp: hashedElgamalEncrypt, HashedElGamalCiphertext::decrypt"])
p("Hashed ElGamal rejects modified ciphertexts",
  "Decryption either throws or the MAC over pad and data verified: a ciphertext whose pad or data differ from the one produced is accepted only if the MAC function collides; ciphertexts of illegal length are always refused.",
  "all ciphertext byte strings", "adversarial inputs of any length", [eg+"elgamal.cpp: HashedElGamalCiphertext::decrypt", eg+"hmac.cpp: get_hmac"])
# ---- hash, nonces
p("Hash outputs are canonical exponents",
  "hash_elems returns a value in [0, Q) that depends only on the sequence of hashed items, for every sequence of supported items, nested to any depth.",
  "all item sequences", "unbounded nesting; digest values above Q", [eg+"hash.cpp: hash_elems"])
p("Hash inputs are encoded unambiguously",
  "Two different sequences of items never present the same byte string to the underlying hash function.",
  "all pairs of item sequences", "ambiguity is a property of pairs of inputs", [eg+"hash.cpp: hash_elems, hash_inner_vector"])
p("Derived nonces are addressable and independent of access history",
  "Nonces::get(i) returns the same value whatever was requested before; next() enumerates get(0), get(1), ... in order from a fresh object; a range request get(start, count) returns exactly count values equal to the individual ones.",
  "all seeds, headers, indices and call histories", "histories are unbounded; index wrap-around at 2^64", [eg+"nonces.cpp: Nonces"])
# ---- proofs
p("Honest disjunctive proofs verify",
  "A disjunctive Chaum-Pedersen proof made for an encryption of 0 or 1 with its nonce verifies against that ciphertext, key and base hash, in the seeded, random and precomputed variants.",
  "all keys, nonces, seeds, random choices and hash functions", "algebraic identity over all exponents", [eg+"chaum_pedersen.cpp: DisjunctiveChaumPedersenProof::make_zero, make_one, isValid"])
p("Honest constant proofs verify",
  "A constant Chaum-Pedersen proof made for a ciphertext that encrypts L with its nonce verifies for L.",
  "all keys, nonces, seeds, constants L and hash functions", "algebraic identity over all exponents", [eg+"chaum_pedersen.cpp: ConstantChaumPedersenProof::make, isValid"])
p("Disjunctive proofs are specially sound",
  "From two accepting disjunctive transcripts for the same ciphertext and commitments but different challenges one can compute x with pad = g^x and data = K^x or g*K^x, so the ciphertext encrypts 0 or 1.",
  "all accepting pairs of transcripts", "statement about adversarial provers", [eg+"chaum_pedersen.cpp: DisjunctiveChaumPedersenProof::isValid"])
p("Constant proofs are specially sound",
  "From two accepting constant transcripts for the same ciphertext and commitment but different challenges one can compute x with pad = g^x and data = g^L*K^x.",
  "all accepting pairs of transcripts", "statement about adversarial provers", [eg+"chaum_pedersen.cpp: ConstantChaumPedersenProof::isValid"])
p("Proof verification binds every component",
  "isValid returns true only if every commitment is a valid residue, every scalar is in bounds, the challenge is the hash of the header, ciphertext and commitments (split as c0 + c1 for disjunctive proofs), and all verification equations hold.",
  "all proofs, ciphertexts, keys and headers", "acceptance must be excluded for every tampered input", [eg+"chaum_pedersen.cpp: isValid"])
p("Copying a proof preserves it",
  "clone() of a proof, ciphertext or element is equal to the original in every observable field and verifies exactly when the original does.",
  "all proofs", "field-by-field copies; tests check only some fields", [eg+"chaum_pedersen.cpp: DisjunctiveChaumPedersenProof::clone", g+": clone"])
p("Proof challenges are zero knowledge for an honest verifier",
  "For a fixed statement and challenge, honest transcripts of the disjunctive proof of 0 and of 1, and simulated ones, range over exactly the same set with the same multiplicity as the randomness varies.",
  "all ciphertexts, nonces, challenges and randomness", "distribution equality over 2^768 random choices", [eg+"chaum_pedersen.cpp: make_zero, make_one"])
# ---- ballots
p("Plaintext selections and contests are classified exactly",
  "PlaintextBallotSelection::isValid accepts exactly matching ids with a vote of 0 or 1; PlaintextBallotContest::isValid reports id mismatch, too many selections, overvote and success exactly under the documented conditions, for all vote values.",
  "all contests, selections and 64-bit vote values", "vote sums may wrap at 2^64", [eg+"ballot.cpp: PlaintextBallotSelection::isValid, PlaintextBallotContest::isValid"])
p("Every encrypted contest encrypts exactly the allowed number of votes",
  "If encryptContest returns a contest, its selections plus placeholders encrypt a vector of 0/1 values that sums to the number elected; real selections carry the voter's votes, unless the contest was overvoted, in which case they all encrypt 0.",
  "all descriptions, plaintext contests, seeds", "all vote patterns and contest sizes", [eg+"encrypt.cpp: encryptContest"])
p("Encrypted contests carry valid proofs",
  "Every selection and every contest produced by the encryption functions passes its own validity check (proofs verify, hashes match), for every input on which encryption succeeds without verification being requested.",
  "all manifests, ballots, nonces", "needs completeness of both proof systems for all values", [eg+"encrypt.cpp: encryptSelection, encryptContest", eg+"ballot.cpp: isValidEncryption"])
p("No vote is dropped or invented when a ballot is completed",
  "Filling missing values keeps every vote of the voter for selections of the ballot style, adds 0 for the others in manifest order, and reports an error for votes that do not belong to the style.",
  "all manifests and plaintext ballots", "arbitrary mixtures of known, unknown and duplicate ids", [eg+"encrypt.cpp: emplaceMissingValues"])
p("Ballot codes form a hash chain",
  "For every sequence of encryption requests on one mediator, the n-th successful ballot's seed is the previous successful ballot's code (the device hash for the first), its code is hash(seed, timestamp, ballot hash), and a failed request leaves the chain unchanged.",
  "all histories of successful and failed requests", "unbounded histories with failures at any point", [eg+"encrypt.cpp: EncryptionMediator::encrypt, compactEncrypt", eg+"ballot_code.cpp: getHashForDevice, getRotatingTrackerHash"])
p("Ballot encryption is reproducible from its nonce",
  "Without precomputed values, encrypting the same ballot with the same manifest, context, code seed, nonce and timestamp gives the same encrypted ballot and code, and expanding a compact encrypted ballot reproduces it.",
  "all ballots, seeds, nonces, timestamps", "determinism quantifies over all executions", [eg+"encrypt.cpp: encryptBallot, encryptCompactBallot", eg+"ballot_compact.cpp: expandCompactCiphertextBallot"])
p("Compact plaintext ballots expand to the completed ballot",
  "Compressing a plaintext ballot that lists exactly the contests and selections of its style and expanding it again gives the same votes and write-ins in the same places; a short compact ballot is rejected.",
  "all manifests and ballots", "flattening arithmetic over arbitrary shapes", [eg+"ballot_compact.cpp: compressPlaintextBallot, expandCompactPlaintextBallot"])
p("A ballot passes validation only if every proof in it verifies",
  "CiphertextBallot::isValidEncryption returns true only if every selection proof and contest proof of the ballot is valid for the given keys and hashes.",
  "all ciphertext ballots", "adversarial ballots with repeated identifiers", [eg+"ballot.cpp: CiphertextBallot::isValidEncryption"])
p("Ballot hashes are recomputable and order independent",
  "For a ballot produced by make, recomputing crypto_hash_with(manifestHash) gives the stored crypto hash, whatever the order in which contests and selections were supplied.",
  "all ballots and all orders of contests", "order of insertion vs. sequence order", [eg+"ballot.cpp: CiphertextBallot::make, crypto_hash_with, CiphertextBallotContest::make"])
p("Contest encryption aggregates are consistent",
  "The accumulated ciphertext of a contest equals the product of its selections' ciphertexts and is the encryption of the sum of the votes under the aggregate nonce.",
  "all selections lists", "unbounded number of selections", [eg+"ballot.cpp: CiphertextBallotContest::make, aggregateNonce, elgamalAccumulate"])
# ---- manifest
p("Manifest validation guarantees referential integrity",
  "If Manifest::isValid() is true then ids are non-empty and unique per kind, contest sequence orders are unique, and every geopolitical unit, party and district reference resolves.",
  "all manifests", "set-cardinality checks over arbitrary lists", [eg+"manifest.cpp: Manifest::isValid, ContestDescription::isValid"])
p("Ballot styles select exactly the right contests",
  "getContestsFor(style) returns each contest whose district belongs to the style exactly once, in sequence order, and throws for unknown or empty styles.",
  "all manifests and style ids", "arbitrary lists of units with repetitions", [eg+"manifest.cpp: InternalManifest::getContestsFor, getBallotStyle"])
p("Placeholders are fresh and sufficient",
  "Each contest of the internal manifest receives exactly numberElected placeholders with pairwise distinct ids and sequence orders above every real selection's.",
  "all contests, numbers elected and sequence orders", "sequence numbers use fixed-width arithmetic", [eg+"manifest.cpp: generateContestsWithPlaceholders, generatePlaceholderSelectionFrom"])
p("The manifest hash commits to the manifest",
  "Manifests that differ in contests, selections, parties, candidates, styles or dates have different hashes unless the hash function collides.",
  "all pairs of manifests", "commitment is a property of pairs", [eg+"manifest.cpp: crypto_hash"])
# ---- precompute & concurrency
p("Precomputed values are handed out at most once and in order",
  "Over every interleaving of populating, consuming, stopping and emptying the precompute buffers, each precomputed triple/quadruple is returned at most once, in the order it was produced; consumption from empty buffers returns nothing.",
  "all interleavings of operations", "schedules are unbounded", [eg+"precompute_buffers.cpp: PrecomputeBuffer"])
p("The precompute buffer respects its configured size and stops when told",
  "populate() stops once the configured maximum is reached or a stop was requested and never exceeds the maximum.",
  "all configurations and interleavings with stop requests", "depends on schedule", [eg+"precompute_buffers.cpp: populate"])
p("Precomputed values are internally consistent",
  "Every triple in the buffers has the form (e, g^e, K^e) and every quadruple (e1, e2, g^e1, g^e2*K^e1) for the key of the buffer.",
  "all populate executions and random draws", "holds for all random exponents", [eg+"precompute_buffers.cpp: createPrecomputedTriple, Quadruple::Quadruple"])
p("The concurrent queue is a FIFO queue",
  "Under every interleaving of pushes and pops by any number of threads, the queue returns each pushed item at most once, in push order, and loses none.",
  "all interleavings", "schedules", [eg+"async.hpp: AsyncQueue"])
p("Waiting for asynchronous tasks collects every result exactly once",
  "wait_all returns every task's result exactly once whatever the order of completion, in the order of the tasks, throws what a task threw, and returns once every task is complete.",
  "all task lists, outcomes and completion orders", "completion order is decided by the scheduler", [eg+"async.hpp: wait_all, isReady"])
p("The lookup-table cache is safe under concurrency and never returns a table of another base",
  "For every history of requests the table used for a base was computed for that base.",
  "all histories of requests", "histories and interleavings", [eg+"lookup_table.hpp: LookupTableContext"])
# ---- serialisation
p("Serialised ballots without nonces reveal no nonce",
  "Serialising a ciphertext ballot without nonces yields a document that contains none of its nonces, for every ballot.",
  "all ballots", "absence over all field paths", [eg+"serialize.hpp: CiphertextBallotSerializer"])
p("Serialised objects round-trip",
  "Reading back a serialised plaintext ballot, ciphertext ballot (with nonces), context, device or compact ballot returns an equal object.",
  "all objects", "optional fields, empty lists and zero values", [eg+"serialize.hpp"])
p("Hashed ElGamal ciphertexts survive serialisation",
  "The byte strings of a hashed ElGamal ciphertext are the same after serialising and reading back.",
  "all byte strings", "fails only for leading zero bytes (1 in 256)", [eg+"serialize.hpp: HashedElGamalCiphertext codec", eg+"convert.hpp: bytes_to_hex"])
p("Contexts bind the election parameters",
  "The crypto base hash is hash(P,Q,G,n,quorum,manifestHash), the extended base hash is hash(base, commitmentHash), for every way of making a context, and the mediator refuses a context made for a different manifest.",
  "all contexts and manifests", "several overloads must agree for all inputs", [eg+"election.cpp: CiphertextElectionContext::make", eg+"encrypt.cpp: EncryptionMediator"])
p("Random exponents cover the whole range",
  "rand_q can return every value of [0, Q) and returns only such values.",
  "all outputs of the random source", "surjectivity cannot be sampled", [g+": rand_q", eg+"random.hpp"])
# ---- appended while modelling
p("The internal manifest carries every contest unchanged",
  "Each contest of a manifest reaches the internal manifest with the same id, district, order, variation, seats, allowed votes, titles, primary parties and selections, so that its hash is unchanged.",
  "all manifests", "depends on which optional fields are present", [eg+"manifest.cpp: ContestDescription::Impl::clone, generateContestsWithPlaceholders"])
p("An accepted contest holds at most numberElected votes",
  "If an encrypted contest passes isValidEncryption, the sum of the votes it encrypts is the number of seats of its contest in the manifest.",
  "all encrypted contests, manifests and keys", "a check that is missing cannot be seen by running valid ballots", [eg+"ballot.cpp: CiphertextBallotContest::isValidEncryption", eg+"chaum_pedersen.cpp: ConstantChaumPedersenProof::isValid"])
p("Overvotes and write-ins survive in the extended data",
  "The extended data of an encrypted contest decrypts, with the election's secret key, to the first 510 bytes of a JSON text listing exactly the write-ins of the contest and, for an overvote, the marked options.",
  "all ballots and manifests", "ranges over all combinations of marks and texts", [eg+"encrypt.cpp: getOvervoteAndWriteIns, encryptContest"])
p("Every well-formed ballot can be encrypted",
  "Encryption without verification succeeds for every ballot of a known style whose votes are 0 or 1 (or form an overvote of less than 2^64), and never for a ballot of an unknown style or with other votes.",
  "all ballots, nonces, random values", "totality over all inputs", [eg+"encrypt.cpp: encryptBallot, encryptContest, encryptSelection"])
p("The thread pool runs every submitted task exactly once",
  "Tasks start in the order of submission, none is run twice, and when the pool is destroyed every task submitted before has been run; destruction comes to an end.",
  "all task lists, numbers of workers and interleavings", "a lost or repeated task depends on the schedule", [eg+"async.hpp: ThreadPool, Scheduler"])
p("The semaphore admits at most its count and loses no wake-up",
  "At most n threads are between lock() and unlock() of a semaphore of count n, and as long as those that enter also leave, nobody waits for ever.",
  "all counts, numbers of threads and interleavings", "lost wake-ups depend on the schedule", [eg+"async.hpp: AsyncSemaphore"])
p("Every hash follows the published field list",
  "Manifests and their parts, ciphertexts, contexts, devices, ballot codes, proof challenges, nonces and session keys are hashed as a fixed list of typed fields joined by the delimiter; an encrypted ballot's nonces, description hashes, selection, contest and ballot hashes and its code follow from the master nonce and the manifest by those formats, so an independent implementation computes the same values.",
  "all objects, ballots and hash functions", "a swapped or forgotten field gives another valid-looking hash on every input", [eg+"hash.cpp: hash_elems", eg+"manifest.cpp: crypto_hash", eg+"ballot.cpp: makeHash", eg+"nonces.cpp", eg+"elgamal.cpp: crypto_hash", eg+"ballot_code.cpp"])
p("Ballot hashes and codes commit to the encrypted ballot",
  "If the hash function does not collide on the strings hashed for two consistent ballots, equal ballot codes mean the same ballot id, manifest, seed, timestamp, contests, selections and ciphertexts, and the extended data.",
  "all pairs of ballots", "ranges over all pairs", [eg+"ballot.cpp: CiphertextBallot::make, makeHash", eg+"ballot_code.cpp: BallotCode::getBallotCode"])
p("Manifests survive serialisation",
  "A manifest that is written and read again is the same manifest and has the same hash; so is an internal manifest.",
  "all manifests", "optional texts, orders, dates and default values must all be restored", [eg+"serialize.hpp: Manifest::fromJson, InternalManifest::fromJson"])
p("Hashing is SHA-256, however the bytes arrive",
  "The digest obtained by feeding byte strings to the hash state in any number and sizes of updates, or in one call, is the SHA-256 (FIPS 180-4) of their concatenation; no update reads or writes outside the buffers; the hash of a list of items, nested to any depth, is that digest of its encoding reduced modulo Q.",
  "all byte strings and all ways of cutting them; all nested item lists", "block boundaries, buffer states and lengths are unbounded", ["src/karamel/Hacl_Hash.c: update_256, pad_256, Hacl_Hash_SHA2_update_last_256, Hacl_Hash_SHA2_hash_256", "src/karamel/Hacl_Streaming_SHA2.c: Hacl_Streaming_SHA2_update_256, Hacl_Streaming_SHA2_finish_256", eg+"hash.cpp: hash_open, push_hash_update, hash_close"])
p("Message authentication codes are HMAC-SHA-256",
  "get_hmac returns the HMAC (RFC 2104) with SHA-256 of the counter, the message and the length under the key, for keys and messages of every length.",
  "all keys, messages, lengths and counters", "keys longer than a block, empty data and block boundaries are separate code paths", ["src/karamel/Hacl_HMAC.c: Hacl_HMAC_compute_sha2_256", eg+"hmac.cpp: get_hmac"])
p("Random bytes are the output of a standard generator",
  "Random::getBytes returns exactly the requested number of bytes, those of the HMAC_DRBG of SP 800-90A seeded with the operating system's entropy, nonce and the time; it throws when the operating system fails; a generator refuses after 1024 requests without reseeding.",
  "all sizes, entropy, nonces, clock texts, and all sequences of generate and reseed calls", "the output is random, so a test cannot compare it; partial last blocks and empty additional input are separate paths", ["src/karamel/Hacl_HMAC_DRBG.c: Hacl_HMAC_DRBG_instantiate, Hacl_HMAC_DRBG_reseed, Hacl_HMAC_DRBG_generate", eg+"random.hpp: getBytes"])
p("The C interface's lists are sequences",
  "Whatever calls a C client makes on any number of lists, append adds at the end, delete_last removes there, counts and elements are those of the sequence, positions past the end are reported, freed lists leave no memory, and nothing undefined happens while handles are live.",
  "all histories of calls on all lists, all strings, all failures of allocation", "memory errors and leaks depend on the whole history of links, frees and failed allocations", [eg+"facades/collections.c: eg_linked_list_new, eg_linked_list_free, eg_linked_list_append, eg_linked_list_delete_last, eg_linked_list_get_element_at, eg_linked_list_get_value_at"])
p("A C client that follows the headers neither corrupts nor leaks memory",
  "Every function the C headers declare can be called, and a client that uses each handle as the headers say (its type, who frees it, what stays a reference, what is given up) meets no undefined behaviour, whatever calls fail; when it has freed everything it owns, nothing is left allocated.",
  "all histories of calls of the 344 declared functions, all failures", "ownership errors show only in particular histories, long after the call that caused them", [eg+"facades/*.cpp", eg+"facades/collections.c", "include/electionguard/*.h"])
p("Dates of a manifest are kept and understood",
  "A manifest's start and end are written as the UTC date and time of the instant, to the second; reading such a text, or one with an offset from UTC, gives that instant, and a text that is no such date is refused.",
  "all instants a time point can hold, all dates of the years 0 to 9999, all offsets", "leap years, centuries, dates before 1970 and offsets are unbounded combinations", [eg+"convert.cpp: timePointToIsoString, timePointFromIsoString", eg+"serialize.hpp: Manifest::fromJson"])
p("Windows builds compute the same numbers",
  "Arithmetic modulo P on Windows, where the facade hands the arrays to the 32-bit bignum library, gives the same limbs as the 64-bit library elsewhere: sums, differences, products, remainders, powers, Montgomery forms, table powers and residue tests, and hence the mathematical values.",
  "all arrays, moduli, exponents and bit counts", "carries, windows and reductions fall on other boundaries with 32-bit words", [eg+"facades/Hacl_Bignum4096.cpp", "src/karamel/Hacl_Bignum4096_32.c", "src/karamel/Hacl_GenericField32.c", "src/karamel/Hacl_Bignum.c: bn_karatsuba_mul_uint32"])
p("The checked exponentiation refuses exponents longer than announced",
  "Bignum4096::modExp returns false, on every platform, when the exponent array denotes a number of more bits than the count passed with it; otherwise, for an odd modulus above 1 and a base below it, it returns true and the power.",
  "all moduli, bases, exponents and bit counts", "the check covers only some words of the array, and which ones depends on the platform", [eg+"facades/Hacl_Bignum4096.cpp: modExp", "src/karamel/Hacl_Bignum4096.c: exp_check", "src/karamel/Hacl_Bignum4096_32.c: exp_check"])
p("Group elements behave as values",
  "Whatever is constructed, copied, cloned, assigned, compared, raised to powers, spelled in hexadecimal or stored into through get() and ref(), in any order, every answer is the one plain numbers would give; in particular equal elements are spelled alike, and a power depends on the numbers only.",
  "all histories of operations on any number of elements", "a text kept in an element, and tables of powers found by that text, make answers depend on what was done before, to this element and to others", [g+": ElementModP::toHex, clone, operator=", g+": ElementModQ::clone, operator=", g+": pow_mod_p", "include/electionguard/group.hpp: ElementModP::get, ref"])
p("Destroyed elements leave nothing of their value in memory",
  "After an element is destroyed or assigned over, the memory it occupied holds no part of its number, and no text of it is left.",
  "all values and histories", "freed memory is not observable through the API; a test sees only that the element is gone", [g+": ElementModP::Impl::~Impl, ElementModQ::Impl::~Impl", "src/karamel/Lib_Memzero0.c: Lib_Memzero0_memzero"])
p("One element may be read by several threads",
  "Any number of threads may call const functions of one element (the generator and the election key are shared by all of them) without a data race, and each gets the right text.",
  "all numbers of threads, all schedules", "depends on the schedule of the first use of the element", [g+": ElementModP::toHex", g+": pow_mod_p", eg+"precompute_buffers.cpp"])
p("Copies, clones and assignments give equal objects",
  "A copy or clone of any object of the library equals it and leaves it as it was; after an assignment the target equals the source; no such operation fails, or fails half done.",
  "all objects of the 25 copyable classes, all programs of copies, clones and assignments on any number of them", "each class has its own copy code with its own forgotten or emptied field, seen only on objects that use the field", [eg+"manifest.cpp: copy constructors, operator=", eg+"ballot.cpp: Impl::clone", eg+"elgamal.cpp: ElGamalKeyPair", eg+"chaum_pedersen.cpp: clone", eg+"precompute_buffers.cpp: Triple, Quadruple, TwoTriplesAndAQuadruple"])
p("A submitted ballot carries no nonces",
  "SubmittedBallot::from turns an encrypted ballot into one with the same contents, the state asked for and, as its header says, all nonces removed, so that votes cannot be read from it without the secret key.",
  "all encrypted ballots and states", "what an object still holds is not visible in its written form", ["include/electionguard/ballot.hpp: SubmittedBallot", eg+"ballot.cpp: SubmittedBallot::from, CiphertextBallot::Impl::clone"])
p("A published ballot verifies and holds the voter's votes",
  "Every ballot that is encrypted, submitted, written to a document and read by an auditor verifies there, decrypts to the voter's votes contest by contest, is in the state it was submitted in and holds no nonces; and whatever ballot is published, good or bad, the auditor's verdict is the verdict on the original.",
  "all ballots, manifests, keys, seeds, states and faithful JSON codecs; for the verdict all ballots at all", "joins encryption, self-check, copies, documents and verification; each alone holds under conditions the others must provide", [eg+"encrypt.cpp: encryptBallot", eg+"ballot.cpp: SubmittedBallot::from, CiphertextBallot::isValidEncryption", eg+"serialize.hpp: SubmittedBallot"])
p("Contexts keep their configuration and extended data across the C interface",
  "A context made through any of the C constructors holds the arguments, the two hashes of the specification, the configuration given (or overvotes allowed and 1000000 ballots) and, for each key of the list of extended data, its last value; the list is left alone. Reading extended data back gives a new list with exactly these entries and disturbs no other list. A failure is reported and gives no context.",
  "every history of calls on lists before and after, every list, key, hash, configuration, every order in which the map iterates, every pattern of failed allocations",
  "tests make one context from a list of one or two entries and never fail an allocation; which entries survive depends on the list, on repeated keys and on zero bytes",
  [eg+"facades/election.cpp: eg_ciphertext_election_context_make*, eg_ciphertext_election_context_get_extended_data", eg+"election.cpp: CiphertextElectionContext::make", "include/electionguard/election.h"])
p("Election dates pass the C interface unchanged",
  "The start and end dates given in milliseconds when a manifest is made through the C interface are the instants in its documents, and are what the date functions of the interface give back, before and after a document.",
  "every pair of 64-bit dates, every clock resolution of the supported C++ libraries",
  "whether the units agree shows only when a date is given and read back, for which there is no test; overflow of the clock needs extreme dates",
  [eg+"facades/manifest.cpp: eg_election_manifest_new, eg_election_manifest_new_with_contact, eg_election_manifest_get_start_date, eg_election_manifest_get_end_date", "bindings/netstandard/ElectionGuard/ElectionGuard.Encryption/Manifest.cs: StartDate, EndDate"])
p("Texts, byte arrays and documents pass the C interface unchanged",
  "A text or byte array handed out by the C interface has the size reported and is what the library holds; given back, it is read as the same. Ballots of voters made by C calls hold the texts and votes given and come back from their documents.",
  "every text and byte array, every ballot of any number of contests and selections, every size claimed",
  "zero bytes, sizes that do not match and failed allocations are unbounded in number and do not occur in tests",
  [eg+"convert.hpp: dynamicCopy", eg+"facades/ballot.cpp: eg_plaintext_ballot_*, eg_extended_data_new", eg+"facades/election.cpp: eg_ciphertext_election_context_to_json, eg_ciphertext_election_context_from_json"])
p("The count of the published ballots is the count of the votes",
  "For every option of every contest, the product of the ciphertexts for it on the published cast ballots decrypts to the number of votes that the voters gave it on cast ballots, overvoted contests counting for none, and to nothing else; spoiled ballots do not count; the order of the ballots does not matter; the accumulations of a contest add up to its seats times its ballots; and the library's decryption gives the count.",
  "all manifests, all numbers of ballots with all votes and states, all keys, seeds, nonces and orders",
  "joins ballot styles, encryption, submission, documents, addition and decryption over any number of ballots; a vote lost or counted twice on one path shows in no single ballot's test",
  [eg+"encrypt.cpp: encryptBallot, encryptContest", eg+"manifest.cpp: InternalManifest::getContests", eg+"elgamal.cpp: elgamalAdd, ElGamalCiphertext::decrypt", eg+"ballot.cpp: SubmittedBallot::from"])
p("A mediator shared by threads chains its ballots",
  "Threads that encrypt through one mediator, whose functions are const, get the answers of some sequential order of their requests: no call is undefined, every ballot's seed is the device's hash or the code of the ballot before it, and a ballot missing from the record leaves a visible gap.",
  "any number of threads with any requests, failing ones included, and every schedule",
  "depends on the schedule; the tests use one thread",
  [eg+"encrypt.cpp: EncryptionMediator::encrypt, EncryptionMediator::compactEncrypt", "include/electionguard/encrypt.hpp: EncryptionMediator", "docs/Design_and_Architecture.md: thread safety"])
p("The status of an encryption call tells why it failed",
  "The C functions that encrypt selections, contests and ballots answer SUCCESS with a result exactly for input that can be encrypted, INVALID_ARGUMENT without one for other input, and RUNTIME_ERROR only when proofs are checked and fail; no input of the client's makes them crash or report lack of memory, and every status has its own text.",
  "every ballot, contest and selection with any votes, every manifest, nonce, seed and environment, proofs checked or not, direct calls and calls through a mediator",
  "which exception leaves the library depends on the votes of every contest and the order of the checks; tests look at a few statuses only",
  [eg+"facades/encrypt.cpp: eg_encrypt_selection, eg_encrypt_contest, eg_encrypt_ballot, eg_encrypt_compact_ballot, eg_encryption_mediator_*", eg+"encrypt.cpp: encryptBallot, encryptCompactBallot, emplaceMissingValues", "include/electionguard/status.h: eg_electionguard_get_status"])
p("No secret exponent is used twice",
  "When nothing is precomputed, every power of the generator by which a vote, the extended data of a contest or the commitment of a contest's proof is hidden stands at one place of one ballot only: no two places of a ballot, and no two ballots of an election with different ids or master nonces, share one. Two encryptions with the same id and nonce share them all.",
  "every manifest, every number of ballots with any votes, ids, master nonces, keys and random numbers, every hash function without collisions among the listed strings",
  "a shared exponent shows the difference of two votes to everybody; it may occur between any two of all the places of all the ballots, and depends on the injectivity of every string hashed on the way",
  [eg+"encrypt.cpp: encryptSelection, encryptContest, encryptContests, encryptBallot", eg+"nonces.cpp: Nonces::get, Nonces::next", eg+"hash.cpp: hash_elems", eg+"ballot.cpp: CiphertextBallot::nonceSeed", eg+"chaum_pedersen.cpp: ConstantChaumPedersenProof::make"])
if __name__=="__main__":
    with open("/verif/properties.jsonl","w") as f:
        for r in R: f.write(json.dumps(r)+"\n")
    print(len(R))
