-Q theories Verif

theories/Base.v
theories/BaseFacts.v
theories/Hex.v
theories/HexFacts.v
theories/Ident.v
theories/BuildId.v
theories/IdentFacts.v
theories/SpecIdent.v
theories/Props_Ident.v
theories/Utf8.v
theories/Cbor.v
theories/CborFacts.v
theories/Crypto.v
theories/Value.v
theories/Types.v
theories/MapFacts.v
theories/ValueFacts.v
theories/Serde.v
theories/SpecSerde.v
theories/SerdeFacts.v
theories/ReserFacts.v
theories/Json.v
theories/SpecJson.v
theories/JsonFacts.v
theories/JsonTx.v
theories/Prost.v
theories/Store.v
theories/Validate.v
theories/ValidateFacts.v
theories/Toy.v
theories/Scene.v
theories/Props_Serde.v
theories/SpecStore.v
theories/StoreFacts.v
theories/Props_Store.v
theories/SpecHist.v
theories/HistFacts.v
theories/SpecValid.v
theories/ValidFacts.v
theories/ValidFacts2.v
theories/ValidFacts3.v
theories/Props_Keygen.v
theories/SpecVote.v
theories/VoteFacts.v
theories/Props_Vote.v
theories/SpecMix.v
theories/MixFacts.v
theories/Props_Mix.v
theories/SpecDecrypt.v
theories/DecryptFacts.v
theories/PanicFacts.v
theories/Props_Decrypt.v
theories/Exonum.v
theories/Api.v
theories/Audit.v
theories/Sawtooth.v
theories/SpecLedger.v
theories/LedgerFacts.v
theories/ApiFacts.v
theories/Props_Ledger.v
theories/Props_Sawtooth.v
theories/SpecAudit.v
theories/AuditFacts.v
theories/Props_Audit.v
theories/Trustee.v
theories/Tasks.v
theories/SpecTasks.v
theories/TasksFacts.v
theories/TasksFacts2.v
theories/TasksFacts3.v
theories/ToyT.v
theories/Props_Tasks.v
theories/Service.v
theories/SpecService.v
theories/ServiceFacts.v
theories/Props_Service.v
theories/SpecProst.v
theories/ProstFacts.v
theories/Encrypt.v
theories/Props_Prost.v
theories/Props_Keys.v
theories/Tally.v
theories/SpecTally.v
theories/TallyFacts.v
theories/Props_Tally.v
theories/SpecAgree.v
theories/AgreeFacts.v
theories/Props_Agree.v
theories/RsaFacts.v
theories/Authn.v
theories/SpecAuthn.v
theories/Props_Authn.v
theories/Lagrange.v
theories/SpecThreshold.v
theories/ThresholdFacts.v
theories/ToyE.v
theories/Props_Threshold.v
theories/SpecIntegrity.v
theories/IntegrityFacts.v
theories/Props_Integrity.v
theories/Cli.v
theories/SpecCli.v
theories/TransportFacts.v
theories/CliFacts.v
theories/Props_Cli.v
theories/SpecRun.v
theories/RunFacts.v
theories/Props_Run.v
theories/SpecOutcome.v
theories/OutcomeFacts.v
theories/Props_Outcome.v
theories/SpecNet.v
theories/NetFacts.v
theories/SpecDesk.v
theories/Props_Desk.v
theories/Props_Net.v
theories/Rest.v
theories/RestFacts.v
theories/NormFacts.v
theories/Props_Json.v
theories/Results.v
theories/SpecResults.v
theories/Props_Results.v
theories/SpecWire.v
theories/WireFacts.v
theories/SpecDoc.v
theories/DocFacts.v
theories/Props_Wire.v
theories/SpecBound.v
theories/Props_Bound.v
theories/Setup.v
theories/SpecSetup.v
theories/Props_Setup.v
theories/SpecSpoiled.v
theories/SpoilFacts.v
theories/Props_Spoiled.v
theories/SpecStuck.v
theories/Props_Stuck.v
theories/SpecBuilds.v
theories/Props_Builds.v
theories/SpecBlock.v
theories/Props_Block.v
theories/SpecFresh.v
theories/Props_Fresh.v
theories/SpecSeat.v
theories/Props_Seat.v
theories/SpecOrder.v
theories/Props_Order.v
theories/SpecSilence.v
theories/Props_Silence.v
theories/SpecRest.v
theories/Props_Rest2.v
theories/Report.v
theories/SpecReport.v
theories/Props_Report.v
theories/Recorded.v
theories/SpecRecorded.v
theories/Props_Recorded.v
theories/SpecWhite.v
theories/Props_White.v
theories/Args.v
theories/SpecArgs.v
theories/Props_Args.v
