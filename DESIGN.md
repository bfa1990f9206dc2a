# Formal model of electionguard-cpp in Rocq (Coq 8.16.1)

## 1. Layout

All Coq sources are in `rocq/theories` (logical root `Verif`).

* `*Model.v`: transcription of the code, function by function. Every definition cites the file
  and lines in `/repo`; simplifications are stated in the same comment. No proofs.
* `*Spec.v`: specifications that do not use the model's functions (mathematical functions on
  `Z`, relations between objects, step-free descriptions of queues, formats of hashed strings).
* `*Proofs*.v`: lemmas.
* `Prop*.v`: the theorems `Cnn_...`, each with a concrete case (`Example Cnn_case...`) meeting
  its hypotheses, and `Print Assumptions` for every theorem.

| Layer | Content | Source | Files |
|---|---|---|---|
| A | 64-bit limb arithmetic: add, sub, mul, Karatsuba, Montgomery, exponentiation, byte conversion | `src/karamel/Hacl_Bignum*.c`, `facades/Hacl_Bignum*.cpp` | `Limb*.v`, `MontProofs`, `ExpProofs`, `PropLimb` |
| A' | the same on 32-bit words, for Windows builds | `Hacl_Bignum4096_32.c`, `Hacl_GenericField32.c`, `facades/Hacl_Bignum4096.cpp` | `Limb32*.v`, `Mont32Proofs`, `Exp32Proofs`, `WinModel`, `PropWin` |
| B | group arithmetic on integers with 2^256 / 2^4096 wrap-around; the same functions on limb arrays, proved to refine the integer model | `group.cpp`, `constants.h`, `lookup_table.hpp`, `convert.hpp` | `GroupModel`, `CodecModel`, `LookupModel`, `ConstModel`, `GroupLimbModel`, `PropGroup`, `PropLimb` |
| C | hash encoding, nonces, HMAC framing | `hash.cpp`, `nonces.cpp`, `hmac.cpp` | `HashModel`, `HashSpec`, `FormatSpec`, `PropHash`, `PropFormat` |
| C' | SHA-256, streaming interface, HMAC | `Hacl_Hash.c`, `Hacl_Streaming_SHA2.c`, `Hacl_HMAC.c`, their callers in `hash.cpp`, `hmac.cpp` | `Sha2Model`, `Sha2Spec` (FIPS 180-4, RFC 2104; constants computed from the primes), `PropSha` |
| D | ElGamal, hashed ElGamal, Chaum-Pedersen proofs | `elgamal.cpp`, `chaum_pedersen.cpp` | `ElgamalModel`, `ChaumModel`, `ProofSpec`, `ZkSpec`, `PropElgamal`, `PropChaum` |
| E | manifest, ballots, encryption, compact ballots, mediator, contexts | `manifest.cpp`, `ballot.cpp`, `encrypt.cpp`, `ballot_compact.cpp`, `ballot_code.cpp`, `election.cpp` | `ManifestModel`, `BallotModel`, `EncryptModel`, `ContextModel`, `PropManifest`, `PropEncrypt`, `PropBallot` |
| F | precompute buffers, table cache, queue, wait_all, thread pool, semaphore as interleaving step systems | `precompute_buffers.cpp`, `lookup_table.hpp`, `async.hpp` | `ThreadModel`, `PrecomputeModel`, `QueueModel`, `AsyncModel`, `PropPrecompute`, `PropAsync` |
| H | the C interface: lists of strings; handles and ownership | `facades/collections.c`, `facades/*.cpp`, `include/electionguard/*.h` | `CollModel`, `PropList`, `CApiModel`, `CApiSpec`, `CApiTable`, `CHeaderTable`, `PropCApi` |
| I | group elements as objects: cached text, copies, destruction, threads | `group.cpp`, `Lib_Memzero0.c` | `ElementModel`, `ElementSpec`, `PropElement` |
| J | copies, clones and assignments of all other classes | `manifest.cpp`, `ballot.cpp`, `elgamal.cpp`, `chaum_pedersen.cpp`, `precompute_buffers.cpp` | `CopyModel`, `CopySpec`, `PropCopy` |
| K | encryption to publication, end to end | the parts above | `AuditSpec`, `AuditProofs`, `PropAudit`, `CountSpec`, `CountProofs`, `PropCount` |
| L | values at the C interface | facades/election.cpp, ballot.cpp, manifest.cpp (dates), convert.hpp:268-293 | `FacadeModel`, `FacadeSpec`, `FacadeProofs`, `PropFacade` |
| M | a mediator shared by threads | encrypt.cpp:102-185 | `MediatorModel`, `MediatorSpec`, `MediatorProofs`, `PropMediator` |
| G | serialisation to and from JSON values, dates | `serialize.hpp`, `convert.cpp` | `DateModel`, `PropDate`, `JsonModel`, `SerializeModel`, `SerializeSpec`, `PropSerialize` |

Conventions. A call returns `Ok v`, `Throw e` (class of the C++ exception) or `UB` (undefined
behaviour: out-of-bounds access, null dereference, bad iterator). Group parameters are a record
`P Q R G` with the stored offsets; theorems hold for all records satisfying `valid_params`
(`prime_params` where `Q` must be prime). Both shipped sets satisfy them (`C14_constants`).

## 2. Per property

"Full" means the statement of `properties.jsonl` is proved as it stands. Otherwise the statement
is false of the code, and the row says where; the witness is the theorem named `_refuted` and the
strongest true version is proved next to it (`_partial`, or an exact characterisation).

| Property | Modelled | How proved | Result |
|---|---|---|---|
| C01 | `add_mod_q`, list form; limb version with carry and offset branches | case analysis on the carry; permutation invariance by induction | full |
| C02 | `sub_mod_q`, `a_plus_bc_mod_q`, `sub_from_q`, limb versions | as C01; product through C11/C12 | full |
| C03 | the same for all 256-bit operands | exact values; witnesses | false: `add_mod_q` and `sub_mod_q` are wrong when the sum or difference of big operands carries twice, and for 2^256-1 |
| C04 | `mul_mod_p`, list form, limb version | fold induction | full |
| C05 | generic exponentiation, fixed-base tables in Montgomery form, limb version | table invariant, base-256 digits | full |
| C06 | `pow_mod_p` with 4096-bit exponent | exponent mod 2^512 exactly | false: only 512 bits of the exponent are used |
| C07 | array lengths explicit | exact domain of UB | false: `add_mod_p` reads out of bounds if the sum reaches 2^4096-1; `mod_p` always |
| C08 | checked constructors from limbs, bytes, hex, integers | exact acceptance set | false: the modulus itself is accepted; too long vectors |
| C09 | hex and byte codecs | digit induction | false for zero (`fromHex` throws); otherwise full |
| C10 | comparisons, `isInBounds`, `isValidResidue` | limb masks | full |
| C11 | HACL add, sub, mul, sqr, Karatsuba, comparison, bytes, for every length | induction over limbs with carry invariant | full |
| C12 | Montgomery context, reduction, `mod`, `mod_precomp` | Montgomery argument over limbs | full |
| C13 | both window algorithms, modular inverse | window digits; Fermat | full |
| C14 | both constant sets | primitive integers (`Big63`), Pocklington certificate for `Q`, `G^Q = 1` | full |
| C15 | `elgamalEncrypt`, `decrypt`, discrete-log loop | exponent laws | full |
| C16 | `elgamalEncrypt` for every 64-bit plaintext | exact value | false: plaintexts above 1 are encrypted as 0 |
| C17, C18 | `elgamalAdd`, tallies of any number of ballots | list induction, injectivity of `g^x` below `Q` | full |
| C19 | `decrypt` of arbitrary pairs | exact result | false: pads of `P` or more give 0 |
| C20 | precomputed encryption | equality with ordinary encryption | full |
| C21 | key pairs | exact refusals | false: copying a key pair moves from the source |
| C22 | hashed ElGamal encryption and decryption | padding inverse, xor involution | false for the empty unpadded message; otherwise full |
| C23 | decryption of arbitrary data | acceptance implies MAC equality; collision extraction | full |
| C24 | `hash_elems` | range and extensionality | full |
| C25 | the hashed byte string | injectivity for delimiter-free items of equal kinds | false: delimiter in strings, `null` alias, untyped numbers |
| C26 | nonces object as state machine | induction over histories | false for ranges whose end reaches 2^64 |
| C27, C28 | making and checking proofs | algebra in the exponent | true exactly if no scalar of the proof is zero; the unconditional claim is refuted |
| C29, C30 | transcripts | extraction with inverse modulo `Q` | full |
| C31 | `isValid` of both proofs | equivalence with an independent specification | full |
| C32 | `clone` | exact result | false: disjunctive `clone` duplicates one commitment |
| C33 | transcript distributions | bijection of randomness | full |
| C34 | `isValid` of selections and contests | exact answers | false if the 64-bit total wraps |
| C35 | `encryptContest`, `encryptBallot` | induction over selections | full |
| C36 | self-check of encrypted parts | equivalence with non-zero scalars | as C27 |
| C37 | completing a ballot | order and content | false: unknown votes are dropped silently; unknown style is UB |
| C38 | mediator with any request list | history induction | full |
| C39 | encryption as a function of nonce, seed and time | determinism; compact expansion | hashes, ciphertexts, codes full; proofs are random; false with precomputed values |
| C40 | compact ballots | index invariant | full |
| C41 | `isValidEncryption` of ballots | equivalence for distinct names | false: a name clash hides an invalid proof |
| C42 | `crypto_hash_with` | sorting lemmas | false for contests given out of order |
| C43 | accumulation | product induction | full |
| C44 | `Manifest::isValid` | equivalence with `wf_manifest` | false for party references of styles and candidates |
| C45 | `getContestsFor` | membership, sortedness | false for styles with repeated units |
| C46 | placeholders | counting | false at sequence 2^32-1 and for clashing ids |
| C47 | `crypto_hash` of manifests | equivalence for delimiter-free texts | false: candidates, primary parties, sub-second dates, `null` |
| C48-C50 | buffers as step system, any threads | trace invariants | FIFO/no-reuse/consistency full for SC interleavings; data races, size overrun by one per call and foreign keys are findings |
| C51 | queue | linearisation invariant | full |
| C52 | `wait_all` | invariant over completion orders | false: result order is completion order; invalid future polled for ever |
| C53 | table cache | invariant | right table for indivisible map operations; race and count 0 are findings |
| C54 | documents without nonces | no member at any depth; noninterference; readers see zero | full |
| C55 | all readers and writers | round trip on JSON values through any faithful codec | false for compact ballots, zero elements, zero nonces; exact otherwise |
| C56 | hashed ciphertext documents | exact set | false for leading zero bytes |
| C57 | context constructors, mediator check | exact | false for zero through hex; public key not bound |
| C58 | `rand_q` | exact image | false: bits 2-5 and 7 always clear |
| C59 | internal manifest | exact fields | false: allowed votes and primary parties lost |
| C60 | contest check vs manifest | exact constant | false: never compared |
| C61 | extended data | exact JSON text | false for marks above 1 |
| C62 | encryption total | exact success set | full |
| C63, C64 | thread pool, semaphore | step invariants, progress measures | false for nested submissions / no workers / count 0 |
| C65 | every hashed format, ballot from master nonce | equality with `FormatSpec` | full |
| C66 | ballot hash and code | injectivity up to collisions | false for extended data and style |
| C67 | manifest documents | exact restored manifest, hash kept if settled | false in four named cases; titled internal manifests unreadable |
| C68 | SHA-256 code, streaming state, `hash_elems` on top | invariant of the streaming state; equality with FIPS 180-4 | false for strings of 2^32 bytes and more |
| C69 | HMAC code, `get_hmac` | equality with RFC 2104 | UB for an empty key or message |
| C70 | HMAC_DRBG code, `Random::getBytes` | simulation of the SP 800-90A machine over every sequence of calls | full |
| C71 | linked lists of `collections.c` over a heap | memory invariant, refinement of sequences, leak freedom | false when `strdup` fails: success is reported |
| C72 | every function of the C interface as its effect on the objects behind handles; the headers as rules for clients | simulation: the heap is what the client's book says, over every history | false for 11 undefined and 31 misdescribed functions, each with a witness; exact list proved |
| C73 | `convert.cpp` dates over a model of gmtime, put_time and date::parse | calendar by counting days; round trip; exact result of reading | false: texts that are not dates are read as 1970, out-of-range dates overflow |
| C74 | the 32-bit bignum library and the `_WIN32` parts of the facade, on the halves of the limbs | limb-for-limb equality with the 64-bit model, through the integers and, for unreduced Montgomery operands, the exact quotient | little-endian layout assumed |
| C75 | facade `Bignum4096::modExp`, both builds | exact acceptance condition and result of each build | false: high words of the exponent are not looked at, and builds differ in how many |
| C76 | `ElementModP/Q` as objects: number, cached text, fixed-base flag, table cache, lifetime | simulation by plain numbers over every history keeping a named discipline | false: stale text after a store, poisoned table cache, checked `clone` |
| C77 | destructors, `Lib_Memzero0_memzero`, byte image of the limbs | exact memory left after every history; secret key determined up to 2^32 tries | false: length in limbs taken as bytes, text not cleared |
| C78 | `toHex` as three steps per thread, any number of threads | invariants over all interleavings | false: the text is written without a lock; race free once taken |
| C79 | copy constructors, `clone`, `operator=` of 25 classes, programs over any number of objects | exact condition per class; equality with an ideal machine over every program meeting it, step by step exact | false for seven kinds of objects, each with a witness |
| C80 | `SubmittedBallot::from` | copies of encrypted ballots are complete; nonces open the ciphertexts | false: every nonce is kept |
| C81 | encryption, `SubmittedBallot::from`, documents and verification together | C35, C36, C80 and C55 joined; written ballots satisfy the conditions of reading | only if no published hash or scalar is zero; the verdict part for all ballots |
| C82 | the six C constructors of contexts and the function giving extended data back, on `CollModel`'s memory | induction over the list read and the list written, with C71's invariant; context hashes as in `FormatSpec` | five parts false, each refuted; the rest proved over every history |
| C83 | dates from `uint64_t` milliseconds to clock ticks and back, for three clocks | arithmetic of the conversions; documents by C67 and C73 | given in milliseconds, read back in seconds |
| C84 | `dynamicCopy`, `string(char *)`, byte arrays, documents, voters' ballots through C | induction over the text; documents by C55 | exact but for zero bytes and failed allocations |
| C85 | count of the published ballots: C81's path, `elgamalAdd`, `decrypt` | per ballot by C81 and C45, sums by induction over the ballots; uniqueness below q by the order of g | false where a style repeats a unit; the library's decrypt stops at 1 |
| C86 | `EncryptionMediator::encrypt`, `compactEncrypt` step by step, any number of threads, seeds as objects that are deleted | invariant over schedules: serial with a lock, grown tree without | false without a lock; with one the answers are sequential and chained |
| C87 | `eg_encrypt_*`, `eg_encryption_mediator_*` with their catch clauses, `eg_electionguard_get_status` | every exception of the encryption traced to the votes that cause it; the checked run compared with the unchecked one | exact for known styles; false for compact ballots of unknown styles, other manifests' contexts, unreduced seeds, bare styles, unknown codes |
| C88 | the nonces of `encryptBallot` down to selections, extended data and contest proofs (existing model); `NonceSpec` lists the strings hashed | each place's exponent derived from the run; the strings compared item by item up to the ballot's seed; powers compared by the order of G | exact between ballots; within a ballot false for styles listing a district twice |

## 3. Trusted base

1. Coq's kernel (`coqc` 8.16.1, including its `vm_compute` machine; `coqchk` rechecks every module).
2. The model: that the definitions of `*Model.v` describe the C++ code they cite. Nothing is
   extracted or executed against the code.
3. The specifications in `*Spec.v` and the statements of the theorems.
4. For C72, the tables `CApiTable.v` (344 definitions) and `CHeaderTable.v` (344 declarations and what
   their comments say), written by `tools/capi.py` from the text of `/repo` and compared by eye.
   Where a header is silent, a handle returned is taken as the caller's (unless named `*_ref`) and a
   handle passed as lent.

### Axioms

`Print Assumptions` reports "Closed under the global context" for every theorem of every
`Prop*.v` file except two. `C14_constants` and `C14_generator_order` use the primitive 63-bit
integers of the standard library:
`PrimInt63.{int, add, sub, mul, eqb, ltb, leb, land, lor, lsl, lsr}` and their specifications
`Uint63.{add_spec, sub_spec, mul_spec, eqb_refl, eqb_correct, ltb_spec, leb_spec, land_spec, lor_spec,
lsl_spec, lsr_spec, of_to_Z}`. No axiom is added by this development. `coqchk` prints the axioms of
every loaded library, used or not, hence a longer list.

### Parameters standing for what is not modelled

They are ordinary arguments of the functions and theorems, so each theorem holds for every choice.

| Parameter | Stands for |
|---|---|
| `sha` | SHA-256 of the bytes collected by `hash_elems` (a value below 2^256 is not assumed: reduced). C68 proves that the code is `hash_elems` with `sha := sha_num`, FIPS 180-4 |
| `hmac` | HMAC-SHA-256; C69 proves the code is `get_hmac` with `hmac := hmac_num`, RFC 2104 |
| random draws | output of the random source, as argument of each call |
| `fmt`, `scan` | `put_time` and `date::parse` of dates; C67 assumes `scan (fmt t) = t` for the manifest's dates, and C73 proves it for `DateModel`'s functions (written from the documentation of these libraries, which are not in `/repo`) |
| clock | timestamps given as arguments |
| `dump`, `parse` | nlohmann::json text/BSON/MessagePack; `faithful` says parse reads what dump wrote |
| `jdump` | `json::dump` of a single value |

### Not modelled

* C functions other than those of C71, C82-C84 and C87, as to the values they pass on (all handles are modelled, C72;
  their arguments and getters were compared with the C++ calls by reading), language bindings, logging, memory management inside the C++ library, copy elision; `std::bad_alloc` except where a theorem names it.
* 32-bit bignum variants other than `Hacl_Bignum4096_32.c` (used by no function of the library); that reading
  64-bit limbs through a `uint32_t *` is not defined by the C++ standard.
* The operating system's random source and the clock (arguments of `random_bytes`); the erasing and
  freeing of seeds in `Random::cleanup`.
* Copies of `SubmittedBallot`, `CiphertextElectionContext`, `EncryptionDevice`, `EncryptionMediator`, the
  compact ballots, `Manifest` and `InternalManifest`: declared, not defined, so no program with them links.
  Objects emptied by a move.
* Side channels: constant-time claims are not stated.
* Weak memory: concurrency is sequentially consistent interleaving; races the C++ memory model
  calls undefined are reported by separate theorems (C48, C53, C78).
* nlohmann::json failures on invalid UTF-8 or BSON integers above 2^63.
* Stack limits, hashed messages of 2^61 bytes and more.

## 4. Findings in the code

Proved of the model (theorem in parentheses).

1. `mod_p` and `rand_p` read past the end of a 64-limb array on every call, `add_mod_p` when the sum
   reaches 2^4096-1 (C07).
2. `pow_mod_p` with an `ElementModP` exponent ignores all but 512 bits (C06).
3. `add_mod_q`/`sub_mod_q` are wrong for unreduced exponents, which `hash_elems` digests read
   without reduction would be (C03).
4. Checked constructors accept the modulus; `fromHex` refuses zero, so zero elements cannot be
   deserialised (C08, C09, C55).
5. `rand_q` never sets bits 2-5 and 7 (C58).
6. `elgamalEncrypt` encrypts every plaintext above 1 as 0 (C16).
7. `decrypt` reports 0 for pads that are not residues (C19).
8. Copying an `ElGamalKeyPair` empties its source (C21).
9. Strings with the delimiter, empty strings and `null` give equal hash inputs (C25, C47).
10. `DisjunctiveChaumPedersenProof::clone` copies `proof_one_pad` into `proof_one_data` (C32).
11. An honest proof with a zero challenge or response is refused (C27, C28, C36).
12. An overvote total that wraps 2^64 passes `isValid` (C34).
13. Votes for unknown contests or options are dropped without error; unknown styles are UB (C37).
14. `isValidEncryption` of a ballot collects results in a map, so a repeated id masks an invalid
    proof (C41).
15. `CiphertextBallot::make` hashes contests in the given order, recomputation in sequence order (C42).
16. Manifest hash omits candidates, primary party ids and fractions of seconds (C47).
17. The contest check never compares the proof's constant with the seats, so a two-vote contest
    passes (C60).
18. The internal manifest loses allowed votes (contests without title) and primary parties (C59).
19. `populate` puts before it compares, races with the getters, and buffers are not tied to a key
    (C48-C50).
20. `wait_all` returns results in completion order (C52); the thread pool loses nested submissions
    (C63); a semaphore of count 0, which `hardware_concurrency` may return, blocks all table users
    (C53, C64); the table map is not protected by it (C53).
21. Contest hash and ballot code commit neither to the extended data nor to the style (C66).
22. Compact ballots never survive serialisation (write-ins gain quotes); leading zero bytes of
    hashed ciphertexts are lost; a ballot read without nonces and written with them is unreadable
    (C55, C56).
23. A manifest's hash can change by writing and reading it; an internal manifest with a titled contest
    cannot be read (C67).
24. A hashed string of 2^32 bytes or more is cut to its length modulo 2^32 (C68); `get_hmac` with an empty
    key or an empty unpadded message calls `front()` of an empty vector (C69).
25. `eg_linked_list_append` reports success with a null key or value when `strdup` fails (C71).
26. Eleven functions of the C headers have no C definition, because the definition has other parameters
    and `extern "C"` wraps only the header, or is missing: `eg_ciphertext_ballot_contest_get_proof`,
    `_crypto_hash_with`, `_aggregate_nonce`, `_elgamal_accumulate`, `eg_ciphertext_ballot_get_timestamp`,
    `eg_encrypt_contest`, three contest description constructors, two extended data functions (C72).
27. Handles cast to another class: contact information's email and phone lines, name and hash
    (facades/manifest.cpp:356, 378, 395, 409), candidate and text hashes (964, 246), placeholders (1579) (C72).
28. Undocumented ownership: nonces given to `eg_encrypt_*` are deleted (facades/encrypt.cpp:342, 404);
    constructors empty the objects passed to them; the mediator keeps references; four ElGamal and two list
    getters return interior pointers; `get_address_line_at_index` leaks; `eg_linked_list_delete_last`
    frees strings handed out (C72).
29. 221 of 333 functions dereference a null handle; those that free accept it (C72).
30. `timePointFromIsoString` never reports failure: 29 February 2023, `…T08:00:00.250Z` or any other text
    becomes 1970-01-01; the end of 9999 overflows 64 bits of nanoseconds (C73).
31. `Bignum4096::modExp` (static; called by tests and benchmarks) looks only at the words of the exponent
    that hold the announced bits, so longer exponents are accepted and truncated; an exponent of 2^40 announced
    with 10 bits is refused by Linux builds and accepted, as 0, by Windows builds (C75).
32. The hexadecimal text an `ElementModP` caches (group.cpp:226-239) survives stores through the pointer of
    `get()`/`ref()`; it is the key of the cache of tables (lookup_table.hpp), so after such a store a power of
    *another* element holding the old number is a power of the new one. `ElementModQ::clone` (414-417)
    throws for exponents above Q that unchecked constructors admit; `ElementModP::clone` does not (C76).
33. `~Impl` of both classes passes `MAX_P_LEN`/`MAX_Q_LEN`, counts of 64-bit words, to `Lib_Memzero0_memzero`,
    which takes bytes (group.cpp:137, 296; src/karamel/Lib_Memzero0.c:31): 28 of 32 bytes of a secret
    exponent and 448 of 512 bytes of an element stay in freed memory (C77).
34. `ElementModP::toHex() const` writes the cached text without synchronization: the generator and the
    election key are shared by the precompute thread and encryption (C78).
35. Copies that differ: `Party` without a name gets an empty one (manifest.cpp:732-740), contests lose their primary
    parties, and without texts their votes allowed, in copies and in moves of the class with placeholders
    (1324-1328); assigning such a contest takes the placeholders and keeps the contest (1392-1399);
    copying an `ElGamalKeyPair` moves the keys out of the source (elgamal.cpp:41-44), which is `const`;
    `DisjunctiveChaumPedersenProof::clone` repeats a commitment; copying an encrypted ballot without nonces
    (such as one made by `make` without them) dereferences null; an assignment of a `Quadruple` whose
    second exponent is above Q throws after the first member (C79).
36. `SubmittedBallot::from`, documented "with all nonces removed" (ballot.hpp:808, 836), keeps them all; with
    them and the public key each vote is read by one comparison. Its written forms leave them out (C54, C80).
37. A ballot encrypted with the code seed zero is returned, verifies, is submitted and written, and cannot be read back
    (C81): zero elements are refused by the readers (C55) but by no earlier step.

38. `eg_ciphertext_election_context_make_from_hex_with_extended_data` reads the extended data and makes the context
    without it (facades/election.cpp:330-331); `eg_ciphertext_election_context_get_extended_data` ignores the
    status of `eg_linked_list_append` (167), so entries are missing after a failed allocation and success is
    returned; an element without a key, as append leaves it (finding 25), is undefined in the three
    functions that read lists; a quorum above the number of guardians is accepted, though election.h:112
    requires less (C82). Every failure, an invalid hexadecimal text too, is reported as a failed allocation.
39. Dates: `eg_election_manifest_new` takes milliseconds (facades/manifest.cpp:1638), `eg_election_manifest_get_start_date`
    and `_get_end_date` return seconds (1798, 1810). The .NET binding takes both for milliseconds
    (Manifest.cs:2075, 2281), so an election in 2021 is shown in January 1970 (C83).
40. Texts with a zero byte are cut by `dynamicCopy` while the size covers all of them; the result of its
    `malloc` is not checked; the length given to `eg_extended_data_new` is stored whatever the value (C84).
    The C interface cannot make a selection with a write-in.
41. A ballot style that lists a unit twice passes `Manifest::isValid` (C45), `InternalManifest::getContestsFor`
    (manifest.cpp:1936-1959) then gives its contests twice, `encryptBallot` encrypts them twice, the ballot
    verifies, and every vote in them counts twice in a homomorphic tally (C85). `ElGamalCiphertext::decrypt`
    gives 2^64-1 for every tally above 1.
42. `EncryptionMediator::encrypt` and `compactEncrypt` are const but replace the seed behind the mediator without
    a lock (encrypt.cpp:147-158, 172-183). Two threads may give two ballots the same seed, after which either can
    be left out of the record unnoticed, or read a seed that the other has deleted (C86).
43. `eg_encrypt_compact_ballot` and the mediator's compact function crash on a ballot of an unknown style, which
    `eg_encrypt_ballot` answers with INVALID_ARGUMENT (C87).
44. `eg_encryption_mediator_new` reports a context of another manifest as BAD_ALLOC (facades/encrypt.cpp:128-131),
    `eg_encrypt_compact_ballot` a code seed or nonce above Q; a style without districts is a RUNTIME_ERROR (C87).
45. `eg_electionguard_get_status` looks up the text of UNKNOWN for codes it does not know and drops it for want of a
    `return` (status.h:39); the array is then read past its end (C87).
46. A style that lists a district twice makes a ballot that shows every power of the contest twice (C88, cf. 41); the
    same id and master nonce in two encryptions show all of them twice, whatever the votes (C88_reuse), so a voter's
    vote must never be encrypted again under an old nonce after a change.

## 5. Mutation testing

`tools/mutate.py` applies one realistic bug at a time to a scratch copy of the model and rebuilds.
`seeded/LOG.jsonl` records the definition, the edit, the claim it breaks, the lemmas and theorems that
failed and what was tightened when a mutant survived.
