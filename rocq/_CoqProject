-Q theories Verif
theories/Base.v
theories/Io.v
theories/IoProofs.v
theories/Spec.v
theories/SpecWire.v
theories/SpecCodecs.v
theories/Codec.v
theories/Model_encoding.v
theories/EncodingProofs.v
theories/Blake2b.v
theories/Model_common.v
theories/Model_v1.v
theories/Model_policy.v
theories/Model_v2.v
theories/CodecTac.v
theories/CommonProofs.v
theories/V1Proofs.v
theories/PolicyProofs.v
theories/V2Proofs.v
theories/V2TxnProofs.v
theories/Model_currency.v
theories/Model_consensus.v
theories/Model_merkle.v
theories/Model_ids.v
theories/Model_text.v
theories/Model_networks.v
theories/SpecConsensus.v
theories/ConsensusProofs.v
theories/ConsensusFnProofs.v
theories/SubsidyTotal.v
theories/SpecText.v
theories/CurrencyProofs.v
theories/TextProofs.v
theories/SpecMerkle.v
theories/SpecTrace.v
theories/MerkleProofs.v
theories/RangeProofs.v
theories/SpecRound.v
theories/RoundProofs.v
theories/SpecSector.v
theories/SectorProofs.v
theories/TableProofs.v
theories/Samples.v
theories/WireProofs.v
theories/StateWriter.v
theories/P_wire.v
theories/SpecUtf8.v
theories/SpecBasic.v
theories/BasicProofs.v
theories/P_basic.v
theories/TextMore.v
theories/CurrencyTotal.v
theories/TextTotal.v
theories/P_text.v
theories/SpecPolicy.v
theories/AddressProofs.v
theories/AddressMore.v
theories/CommitProofs.v
theories/CommitKeys.v
theories/SpecTree.v
theories/TreeProofs.v
theories/P_address.v
theories/P_consensus.v
theories/SpecIds.v
theories/IdsProofs.v
theories/SigHashProofs.v
theories/SigMore.v
theories/SigExact.v
theories/SpecCover.v
theories/CoverProofs.v
theories/P_ids.v
theories/SpecFormat.v
theories/FormatProofs.v
theories/P_format.v
theories/Model_json.v
theories/Model_jsontypes.v
theories/SpecBase64.v
theories/Base64Proofs.v
theories/Base64Spec.v
theories/TimeProofs.v
theories/SpecJson.v
theories/JsonProofs.v
theories/JsonLeafProofs.v
theories/JsonTypeProofs.v
theories/JsonStateProofs.v
theories/JsonMore.v
theories/EpochProofs.v
theories/JsonExamples.v
theories/P_json.v
theories/Prime.v
theories/Fp.v
theories/SpecCurve.v
theories/EdwardsGeneric.v
theories/CurveProofs.v
theories/Sha2.v
theories/Model_ed25519.v
theories/Model_signing.v
theories/SpecSign.v
theories/Ed25519Proofs.v
theories/SigningProofs.v
theories/Bip39Words.v
theories/Model_seed.v
theories/SpecSeed.v
theories/SeedProofs.v
theories/P_keys.v
theories/VectorsSeed.v
theories/SpecLayout.v
theories/LayoutProofs.v
theories/LayoutTxn.v
theories/P_layout.v
theories/SpecDoc.v
theories/DocTime.v
theories/DocProofs.v
theories/SpecAccept.v
theories/AcceptProofs.v
theories/AcceptMore.v
theories/DocExamples.v
theories/P_doc.v
theories/SpecNetworks.v
theories/NetworkProofs.v
theories/P_networks.v
theories/Model_derive.v
theories/Model_derivetypes.v
theories/SpecDerive.v
theories/DeriveProofs.v
theories/DeriveLib.v
theories/P_derive.v
theories/Model_jsontext.v
theories/SpecJsonText.v
theories/JsonTextLex.v
theories/JsonTextProofs.v
theories/JsonTextPrint.v
theories/JsonTextUtf8.v
theories/JsonTextLib.v
theories/JsonTextMore.v
theories/JsonTextExamples.v
theories/SpecIndent.v
theories/IndentProofs.v
theories/Model_skip.v
theories/SpecSkip.v
theories/SkipProofs.v
theories/SkipMore.v
theories/SkipGrammar.v
theories/SkipMember.v
theories/SkipStrict.v
theories/SkipExact.v
theories/P_jsontext.v
theories/P_skip.v
theories/SpecConstruct.v
theories/ConstructProofs.v
theories/P_construct.v
theories/Model_convert.v
theories/ConvertProofs.v
theories/P_convert.v
theories/SpecMemory.v
theories/MemoryProofs.v
theories/P_memory.v
theories/SpecGrammar.v
theories/GrammarProofs.v
theories/P_grammar.v
theories/Model_binary.v
theories/SpecBinary.v
theories/BinaryProofs.v
theories/BinaryMore.v
theories/BinaryNames.v
theories/BinaryReading.v
theories/P_binary.v
theories/SpecFrame.v
theories/FrameProofs.v
theories/P_frame.v
theories/Model_secret.v
theories/SpecSecret.v
theories/SecretProofs.v
theories/P_secret.v
theories/SpecWork.v
theories/WorkProofs.v
theories/P_work.v
theories/SpecStack.v
theories/Model_stack.v
theories/StackProofs.v
theories/P_stack.v
theories/SpecReject.v
theories/RejectProofs.v
theories/RejectCurrency.v
theories/P_reject.v
theories/Model_zoned.v
theories/SpecZoned.v
theories/ZonedProofs.v
theories/P_zoned.v
theories/SpecPurpose.v
theories/PurposeProofs.v
theories/P_purpose.v
theories/SpecFate.v
theories/FateProofs.v
theories/P_fate.v
theories/SpecSend.v
theories/NestProofs.v
theories/SendProofs.v
theories/P_send.v
