-Q theories Verif
theories/Base.v
theories/Proton.v
theories/TypeNames.v
theories/SpecTypes.v
theories/TypeNamesProofs.v
theories/MakePrimProofs.v
theories/MakePrimExactProofs.v
theories/SpecNames.v
theories/NamesProofs.v
theories/PropTypeNames.v
theories/CordaFile.v
theories/SpecFile.v
theories/CordaFileProofs.v
theories/PropFile.v
theories/Ordering.v
theories/SpecOrdering.v
theories/OrderingProofs.v
theories/Schema.v
theories/SpecSchema.v
theories/SchemaProofs.v
theories/PropOrdering.v
theories/SpecCursor.v
theories/ProtonProofs.v
theories/Descriptors.v
theories/SpecDescriptors.v
theories/DescriptorsProofs.v
theories/PropDescriptors.v
theories/Factory.v
theories/SpecFactory.v
theories/FactoryProofs.v
theories/PropFactory.v
theories/Readers.v
theories/SpecReaders.v
theories/Blob.v
theories/ReadersProofs.v
theories/SpecSamples.v
theories/InspectProofs.v
theories/RawProofs.v
theories/PropReaders.v
theories/Writer.v
theories/SpecWriter.v
theories/WriterProofs.v
theories/PropWriter.v
theories/Deserialise.v
theories/SpecDeserialise.v
theories/DeserialiseProofs.v
theories/PropDeserialise.v
theories/SpecWriteRead.v
theories/WriteReadProofs.v
theories/ManyProofs.v
theories/PropWriteRead.v
theories/SchemaDump.v
theories/SchemaDumpProofs.v
theories/SpecSchemaDump.v
theories/RawSchemaProofs.v
theories/SpecJson.v
theories/JsonProofs.v
theories/SpecAvro.v
theories/AvroProofs.v
theories/AvroJsonProofs.v
theories/PropSchemaDump.v
theories/SpecHistory.v
theories/HistoryProofs.v
theories/PropHistory.v
theories/Tools.v
theories/SpecTools.v
theories/ToolsProofs.v
theories/PropTools.v
theories/SpecAccept.v
theories/AcceptProofs.v
theories/PropAccept.v
theories/SpecBlind.v
theories/BlindProofs.v
theories/PropBlind.v
theories/SpecDisplay.v
theories/SpecInstalled.v
theories/DisplayProofs.v
theories/ContentsProofs.v
theories/PropDisplay.v
theories/SpecReadBack.v
theories/ReadBackProofs.v
theories/PropReadBack.v
theories/SpecRaw.v
theories/RawShowProofs.v
theories/PropRaw.v
theories/Serialisers.v
theories/SpecSerialisers.v
theories/SerialisersProofs.v
theories/PropSerialisers.v
theories/Programs.v
theories/SpecPrograms.v
theories/ProgramsProofs.v
theories/ProgramChecks.v
theories/HiddenProofs.v
theories/DecideProofs.v
theories/WriterTests.v
theories/SpecWriterTests.v
theories/WriterTestsProofs.v
theories/PropPrograms.v
theories/SpecFrame.v
theories/FrameProofs.v
theories/FrameObjects.v
theories/PropFrame.v
theories/ReaderTests.v
theories/SpecReaderTests.v
theories/ReaderTestsProofs.v
theories/PropReaderTests.v
theories/SpecSupply.v
theories/SupplyProofs.v
theories/PropSupply.v
theories/ShownProofs.v
theories/PropShown.v
theories/Print.v
theories/SpecPrint.v
theories/PrintProofs.v
theories/PropPrint.v
theories/SpecCrash.v
theories/CrashProofs.v
theories/PropCrash.v
theories/Script.v
theories/SpecScript.v
theories/ScriptProofs.v
theories/ScriptWireProofs.v
theories/PropScript.v
theories/Amqp.v
theories/SpecAmqp.v
theories/AmqpProofs.v
theories/AmqpFileProofs.v
theories/PropAmqp.v
theories/Memory.v
theories/SpecMemory.v
theories/MemoryProofs.v
theories/PropMemory.v
theories/Numbers.v
theories/SpecNumbers.v
theories/NumbersProofs.v
theories/PropNumbers.v
theories/TestFiles.v
theories/Conformance.v
theories/ReadScript.v
theories/SpecReadScript.v
theories/ReadScriptProofs.v
theories/PropReadScript.v
theories/SpecParse.v
theories/ParseProofs.v
theories/PropParse.v
theories/PropNames.v
theories/SpecFate.v
theories/PrepareProofs.v
theories/FateProofs.v
theories/FateBlobProofs.v
theories/PropFate.v
theories/SpecSession.v
theories/SessionProofs.v
theories/PropSession.v
theories/SpecSchemaFate.v
theories/SchemaFateProofs.v
theories/PropSchemaFate.v
theories/Output.v
theories/SpecOutput.v
theories/OutputProofs.v
theories/PropOutput.v
theories/OutputSchema.v
theories/SpecSchemaOutput.v
theories/SchemaOutputProofs.v
theories/PropSchemaOutput.v
theories/SpecApart.v
theories/ApartProofs.v
theories/PropApart.v
theories/Copies.v
theories/SpecCopies.v
theories/CopiesProofs.v
theories/CopiesExact.v
theories/CopiesReadProofs.v
theories/PropCopies.v
theories/SpecIdentity.v
theories/IdentityProofs.v
theories/PropIdentity.v
theories/OutputWriter.v
theories/SpecOutputWriter.v
theories/OutputWriterProofs.v
theories/PropOutputWriter.v
theories/OutputReader.v
theories/SpecOutputReader.v
theories/OutputReaderProofs.v
theories/PropOutputReader.v
theories/SpecToolJson.v
theories/ToolJsonProofs.v
theories/PropToolJson.v
theories/OutputShow.v
theories/SpecOutputShow.v
theories/OutputShowProofs.v
theories/OutputShowBlobProofs.v
theories/OutputShowHideProofs.v
theories/PropOutputShow.v
theories/OutputParse.v
theories/SpecOutputParse.v
theories/OutputParseProofs.v
theories/OutputParseBlobProofs.v
theories/OutputParseShownProofs.v
theories/PropOutputParse.v
theories/OutputMake.v
theories/SpecOutputMake.v
theories/OutputMakeProofs.v
theories/PropOutputMake.v
theories/OutputProcess.v
theories/SpecOutputProcess.v
theories/OutputProcessProofs.v
theories/OutputProcessBlobProofs.v
theories/PropOutputProcess.v
theories/SpecOutputAll.v
theories/OutputAllProofs.v
theories/PropOutputAll.v
