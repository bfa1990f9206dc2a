-Q theories Verif
theories/Base.v
theories/GroupModel.v
theories/GroupSpec.v
theories/GroupProofs.v
theories/CodecModel.v
theories/HashModel.v
theories/Algebra.v
theories/ElgamalModel.v
theories/ElgamalProofs.v
theories/ChaumModel.v
theories/ChaumProofs.v
theories/SoundProofs.v
theories/ZkSpec.v
theories/ZkProofs.v
theories/CodecProofs.v
theories/HashProofs.v
theories/HashedProofs.v
theories/TestParams.v
theories/LookupModel.v
theories/LookupProofs.v
theories/ElgamalSpec.v
theories/TallyProofs.v
theories/ConstModel.v
theories/Big63.v
theories/PrimeCert.v
theories/StdCert.v
theories/StdParams.v
theories/GroupExtra.v
theories/ProofSpec.v
theories/ProofSpecProofs.v
theories/PropGroup.v
theories/PropElgamal.v
theories/PropChaum.v
theories/PropHash.v
theories/SortModel.v
theories/SortProofs.v
theories/BallotModel.v
theories/JsonModel.v
theories/ManifestModel.v
theories/ManifestSpec.v
theories/EncryptModel.v
theories/ManifestProofs.v
theories/ManifestCommit.v
theories/PropManifest.v
theories/EncryptSpec.v
theories/EncryptProofs.v
theories/BallotProofs.v
theories/BallotProofs2.v
theories/BallotProofs3.v
theories/BallotProofs4.v
theories/BallotProofs5.v
theories/DataSpec.v
theories/DataProofs.v
theories/PropEncrypt.v
theories/ContextModel.v
theories/PropBallot.v
theories/ThreadModel.v
theories/FifoSpec.v
theories/PrecomputeModel.v
theories/PrecomputeProofs.v
theories/PropPrecompute.v
theories/QueueModel.v
theories/QueueProofs.v
theories/AsyncModel.v
theories/AsyncProofs.v
theories/PropAsync.v
theories/LimbModel.v
theories/LimbSpec.v
theories/LimbWord.v
theories/LimbProofs.v
theories/LimbKara.v
theories/MontProofs.v
theories/ExpProofs.v
theories/LimbBytes.v
theories/GroupLimbModel.v
theories/GroupLimbProofs.v
theories/PropLimb.v
theories/HashSpec.v
theories/HashSpecProofs.v
theories/FormatSpec.v
theories/FormatProofs.v
theories/NonceTree.v
theories/CommitSpec.v
theories/CommitProofs.v
theories/PropFormat.v
theories/SerializeModel.v
theories/SerializeSpec.v
theories/SerializeProofs.v
theories/SerializeProofs2.v
theories/SerializeProofs3.v
theories/PropSerialize.v
theories/Sha2Model.v
theories/Sha2Spec.v
theories/Sha2Proofs.v
theories/Sha2Proofs2.v
theories/Sha2Hash.v
theories/PropSha.v
theories/DrbgModel.v
theories/DrbgSpec.v
theories/DrbgProofs.v
theories/PropRandom.v
theories/CollModel.v
theories/CollSpec.v
theories/CollProofs.v
theories/PropList.v
theories/CApiClass.v
theories/CApiNames.v
theories/CApiModel.v
theories/CApiSpec.v
theories/CHeaderTable.v
theories/CApiTable.v
theories/CApiProofs.v
theories/PropCApi.v
theories/DateModel.v
theories/DateSpec.v
theories/DateProofs.v
theories/PropDate.v
theories/LimbExtra.v
theories/Limb32Model.v
theories/Limb32Spec.v
theories/Limb32Word.v
theories/Limb32Proofs.v
theories/Limb32Kara.v
theories/Mont32Proofs.v
theories/Exp32Proofs.v
theories/Limb32Extra.v
theories/WinModel.v
theories/WinProofs.v
theories/PropWin.v
theories/ElementModel.v
theories/ElementSpec.v
theories/ElementProofs.v
theories/PropElement.v
theories/CopyModel.v
theories/CopySpec.v
theories/CopyProofs.v
theories/PropCopy.v
theories/AuditSpec.v
theories/AuditProofs.v
theories/PropAudit.v
theories/FacadeModel.v
theories/FacadeSpec.v
theories/FacadeProofs.v
theories/PropFacade.v
theories/CountSpec.v
theories/CountProofs.v
theories/PropCount.v
theories/MediatorModel.v
theories/MediatorSpec.v
theories/MediatorProofs.v
theories/PropMediator.v
theories/StatusModel.v
theories/StatusSpec.v
theories/StatusProofs.v
theories/PropStatus.v
theories/NonceSpec.v
theories/NonceProofs.v
theories/PropNonce.v
