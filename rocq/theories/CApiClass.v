(** The classes behind the opaque handle types of the C interface, one per
    [*_free] function of src/electionguard/facades/*.cpp, the linked list of
    collections.c, and the three plain C results: [Text] is a char array from
    malloc (convert.hpp:268-285), [ByteBuffer] a uint8_t array from new[]
    (convert.hpp:288-294), [Words] the limbs inside an element (group.cpp:83, 159).
    Written by tools/capi.py. *)
Inductive class :=
| ExtendedData
| Text
| PlaintextBallotSelection
| CiphertextBallotSelection
| ElementModQ
| ElGamalCiphertext
| DisjunctiveChaumPedersenProof
| ElementModP
| PlaintextBallotContest
| CiphertextBallotContest
| ConstantChaumPedersenProof
| PlaintextBallot
| ByteBuffer
| CiphertextBallot
| SubmittedBallot
| CompactPlaintextBallot
| CompactCiphertextBallot
| ContextConfiguration
| CiphertextElectionContext
| LinkedList
| ElGamalKeyPair
| EncryptionDevice
| InternalManifest
| EncryptionMediator
| SelectionDescription
| ContestDescriptionWithPlaceholders
| Words
| AnnotatedString
| Language
| InternationalizedText
| ContactInformation
| GeopoliticalUnit
| BallotStyle
| Party
| Candidate
| ContestDescription
| Manifest.
Scheme Equality for class.
