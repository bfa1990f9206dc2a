"""Writes /verif/MANIFEST.json: theorem names are collected from rocq/theories/Prop*.v
by their property prefix; statuses and notes are given here."""
import glob, json, os, re
root = os.path.dirname(os.path.dirname(os.path.abspath(__file__)))
PARTIAL = {  # property -> note (what is missing or false)
 "C03": "False of the code as stated (witnesses in the _refuted theorems); proved whenever there is no carry/borrow and the sum is not 2^256-1.",
 "C06": "False of the code: only the low 512 bits of the exponent are used; proved for exponents below 2^512 and the exact value for all others.",
 "C07": "False of the code: add_mod_p reads out of bounds when the sum reaches 2^4096-1, mod_p always; proved for the remaining sums.",
 "C08": "False at the modulus itself (accepted) and for over-long limb vectors; exact acceptance set proved for limbs, integers, bytes and hex strings of non-zero value.",
 "C09": "False for hex of zero (fromHex throws); proved for all other values, bytes round trip and injectivity proved without exception.",
 "C55": "False of the code for compact ballots (no compressed ballot survives), for ballots holding a zero element and for ballots read without nonces and written with them. Proved: exactly which ciphertext and submitted ballots and contexts can be read back and what is restored; plaintext ballots and devices without exception.",
 "C56": "False of the code: leading zero bytes are lost (witness, and no ciphertext whose MAC begins with a zero byte decrypts after reading). Proved: exactly the others survive.",
 "C67": "False of the code: the hash changes for contests out of sequence order, for zero allowed votes, for parties without name and for empty contact entries; an internal manifest with a titled contest cannot be read. Proved: what is restored for every manifest, and that the hash is kept otherwise; dates through an arbitrary pair of formatting and parsing functions that restore them (C73_manifest: those of the code do).",
 "C16": "False for plaintexts above 1 (encrypted as 0); faithful for 0 and 1.",
 "C19": "False for pads of P or more (reported as 0); proved sound for pads in the subgroup.",
 "C21": "Rejection of secrets and nonces proved; 'copy leaves the source usable' is false of the code.",
 "C22": "Proved for padded messages and non-empty unpadded ones; false for the empty unpadded message.",
 "C25": "False in general (delimiter injection, null aliases, untyped encoding); injectivity proved for delimiter-free items of equal kinds.",
 "C26": "Proved except for ranges whose end reaches 2^64 (refuted).",
 "C27": "Proved with the exact side condition that no scalar of the proof is zero; the unconditional claim is refuted for every hash function.",
 "C28": "Proved with the exact side condition that challenge and response are non-zero; refuted without it.",
 "C32": "False for the disjunctive proof (clone duplicates one commitment); exact result of clone proved.",
 "C58": "False of the code: bits 2-5 and 7 are always clear; exact image proved.",
 "C44": "Exact characterisation of isValid proved; candidate references of selections and party references of styles are not checked (refuted).",
 "C45": "Set, order and exceptions proved for all styles; 'exactly once' needs a style without repeated units (refuted otherwise, though such a manifest validates).",
 "C46": "Count proved for all contests; freshness needs sequence orders below 2^32-1, and a real selection can carry a placeholder's id (both refuted).",
 "C47": "Exact equivalence proved for delimiter-free manifests; candidates, primary parties, sub-second dates and the text \"null\" are not committed to (refuted).",
 "C59": "False of the code: votesAllowed is lost without a title and primary parties always; the preserved fields are proved.",
 "C34": "Exact answers proved while the votes add up to less than 2^64, and the exact modular answer for all others; an overvote whose total wraps is accepted (refuted).",
 "C36": "Proved with the exact side condition that no challenge or response of the proofs is zero; the random source must give values below Q.",
 "C37": "Completion, definedness and idempotence proved; votes for unknown contests or options are dropped without an error and an unknown style is undefined behaviour (both refuted).",
 "C39": "Hashes, codes, ciphertexts reproducible without precomputed values (the random proofs are not compared); with precomputed values false (refuted).",
 "C66": "Equivalence proved for ids without the delimiter, up to the empty/null text alias; the extended data ciphertext and the style are not committed to (refuted on an accepted ballot).",
 "C41": "Equivalence proved when the collected names are distinct; a name clash hides an invalid proof (refuted).",
 "C42": "Selections: any order. Ballots: proved for contests given in ascending order (so for every encrypted ballot); false for a ballot made in another order (refuted).",
 "C57": "Hashes and mediator check proved; hexadecimal overloads refuse zero and the public key is not bound (both refuted).",
 "C60": "False of the code: the constant is never compared with the manifest (refuted); proved that it is the constant of the contest's own proof.",
 "C48": "Order, no reuse, misses and progress proved for every interleaving of sequentially consistent steps; populate, stop_populate and the two size getters race with the locked calls (refuted for the code, proved absent for the other calls).",
 "C49": "Bound of max-1 plus the number of populate calls, exact fill, stopping and return proved; the configured size itself is exceeded because populate puts before it compares (refuted).",
 "C50": "Proved when all calls of populate use one key; the buffers are not tied to a key, so values of another key can be handed out (refuted).",
 "C52": "Every result once, exceptions and return proved; the order is that of completion, not of the tasks, and an invalid future is polled for ever (both refuted).",
 "C53": "Right table and progress proved with indivisible map operations; the code does not make them so, the semaphore excludes nobody (race refuted), and a count of 0 blocks every call.",
 "C63": "Proved for tasks that submit no tasks and at least one worker; a nested submission is lost and a pool without workers never ends (both refuted).",
 "C64": "Proved for every count; with count 0, which hardware_concurrency may return, nobody ever passes (refuted).",
 "C68": "Proved for strings below 2^32 bytes and totals below 2^61; a longer string is cut to its length modulo 2^32, so different strings collide (refuted).",
 "C69": "Proved for non-empty keys and data below 2^32 bytes; the empty key and the empty message are undefined behaviour (refuted).",
 "C71": "Proved for every history and every allocation failure, with the exact content; append reports success although a string could not be copied, leaving a null key or value (refuted).",
 "C72": "False of the code: 11 declared functions do not exist for C and 31 do not do what the header says with their handles (a history going wrong is given for each). Proved for every history of the other functions, and with 23 corrected header rules for all but 8.",
 "C73": "Writing, round trip and reading proved (against the Gregorian calendar defined by counting days); false of the code: impossible dates, fractions of a second and any other text are read as 1970 without an error, and dates a time point cannot hold overflow.",
 "C75": "False of the code on every platform: words of the exponent beyond those that hold the bit count are ignored (refuted with a witness for both builds), and Windows ignores more of them than other builds. Proved: exactly what each build accepts and returns, and that both keep to the claim when the ignored words are zero.",
 "C76": "False of the code: the cached hexadecimal text survives a store through get(), and as the key of the table cache makes powers of other elements wrong (exact wrong result proved); ElementModQ::clone throws for admitted values above Q. Proved for every history without those two, named, uses.",
 "C77": "False of the code: the destructors pass a number of limbs as a number of bytes, so only the low 32 (512) bits are cleared, and the text is not cleared. Proved: exactly what is left after every history, and that a secret key is determined by it, the public key and 2^32 tries.",
 "C78": "False of the code: toHex writes its cache without synchronization (refuted). Proved race free, for any threads and schedule, when the text was taken before; and the right text for every thread were accesses atomic.",
 "C79": "False of the code: parties without a name, contests (primary parties, votes allowed, missing subtitle), assigned contests with placeholders, key pairs (source emptied), encrypted ballots without nonces (undefined), cloned disjunctive proofs and interrupted assignments of precomputed values. Proved: exactly which objects and pairs behave, for every class, and equality with the ideal over every program of such operations.",
 "C80": "False of the code: no nonce is removed, for any ballot (proved), and the votes are read from the submitted ballot without the secret key (proved); a ballot whose nonces were removed cannot be submitted. Proved: all other contents and the state are right.",
 "C81": "Proved from the vote to the auditor's object for every ballot none of whose published hashes and scalars is zero; the verdict part for all ballots. False otherwise: a ballot made with the code seed zero verifies and cannot be read back (refuted).",
 "C82": "False of the code: the constructor from hexadecimal texts with extended data drops the data; failed allocations while data is read back are reported as success; lists holding a missing string crash; keys are cut at zero bytes; a quorum above the number of guardians is accepted (each refuted). Proved for the other constructors over every history of lists, and for reading back when allocations succeed.",
 "C83": "False of the code: dates are given in milliseconds and read back in seconds (refuted for every date but 1970-01-01T00:00:00). Proved: the manifest holds the right instant or the clock overflows, documents show it, and seconds are what is read back, before and after a document.",
 "C84": "False of the code for texts with a zero byte, for failed allocations of texts and for the length of extended data (refuted). Proved for all other texts, all byte arrays, documents without zero bytes and ballots of voters.",
 "C85": "False of the code where a ballot style lists a unit twice, which validation accepts: the contest is encrypted twice and its votes count twice (refuted); and ElGamalCiphertext::decrypt gives counts above 1 as 2^64-1 (C85_decrypt). Proved for all other manifests and ballots whose proofs hold no zero scalar: the sums decrypt to the counts and to nothing else.",
 "C86": "False of the code without a lock of the caller's: two ballots may get one seed, so that one of them can be left out unnoticed, and a seed may be read after its deletion (refuted). Proved with a lock, for calls that do not overlap and for one thread; without a lock seeds are still the device's hash or codes of earlier ballots.",
 "C87": "Proved exactly for selections, contests and ballots whose style is known, directly and through a mediator, with and without the check of proofs; for compact ballots with a seed and nonce that are elements. False elsewhere (refuted): a compact ballot of an unknown style crashes, a context of another manifest or an unreduced seed is reported as lack of memory, a style without districts as RUNTIME_ERROR, and the text of a number that is no status is read outside of the array.",
 "C88": "Between ballots proved for all manifests. Within a ballot proved when sequence orders differ, which a valid manifest ensures unless a style lists a district twice or orders reach 2^32-1; a style that lists a district twice shows every power of the contest twice (refuted). Commitments of the selections' own proofs, whose exponents are drawn at random, and precomputed values (C53) are not covered.",
 "C61": "Proved with the exact content; an overvote with a mark above 1 does not list that option (refuted).",
}
NOTE = {"C40": "Marks of placeholder selections and surplus votes, which the statement does not cover, are lost."}
exec(open(os.path.join(root, 'tools', 'manifest_notes.py')).read()) if os.path.exists(os.path.join(root, 'tools', 'manifest_notes.py')) else None
thms = {}
for f in sorted(glob.glob(os.path.join(root, 'rocq/theories/Prop*.v'))):
    for m in re.finditer(r'^Theorem (C\d\d\d?)_(\w+)', open(f).read(), re.M):
        thms.setdefault(m.group(1), []).append(m.group(1) + '_' + m.group(2))
claims = []
for line in open(os.path.join(root, 'properties.jsonl')):
    p = json.loads(line)['id']
    if p not in thms:
        continue
    claims.append({"property": p, "status": "partial" if p in PARTIAL else "proved",
                   "theorems": thms[p], "note": PARTIAL.get(p, NOTE.get(p, ""))})
json.dump({"claims": claims}, open(os.path.join(root, 'MANIFEST.json'), 'w'), indent=1)
print(len(claims), 'claims;', sum(len(c['theorems']) for c in claims), 'theorems; missing',
      [json.loads(l)['id'] for l in open(os.path.join(root, 'properties.jsonl')) if json.loads(l)['id'] not in thms])
