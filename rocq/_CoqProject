-Q theories Verif
theories/Base.v
theories/BaseFacts.v
theories/Crc32.v
theories/Utf8.v
theories/ZString.v
theories/ZDate.v
theories/Headers.v
theories/ExtraField.v
theories/Entry.v
theories/IO.v
theories/Locator.v
theories/Reader.v
theories/EntryReader.v
theories/StreamReader.v
theories/Writer.v
theories/SpecFormat.v
theories/HeadersFacts.v
theories/ExtraFieldFacts.v
theories/SpecCrc.v
theories/CrcFacts.v
theories/SpecUtf8.v
theories/Utf8Facts.v
theories/ZDateFacts.v
theories/EntryFacts.v
theories/LeafProofs.v
theories/Properties_Leaf.v
theories/IOFacts.v
theories/LocatorFacts.v
theories/ReaderFacts.v
theories/SpecArchive.v
theories/OpenFacts.v
theories/TameFacts.v
theories/LfhFacts.v
theories/EntryReaderFacts.v
theories/SpecRead.v
theories/EntryProofs.v
theories/Samples.v
theories/ReadProofs.v
theories/Properties_Read.v
theories/SpecWrite.v
theories/WriterFacts.v
theories/WholeFacts.v
theories/StreamFacts.v
theories/WriteProofs.v
theories/RecordFacts.v
theories/HistFacts.v
theories/CloseFacts.v
theories/RoundTrip.v
theories/TextFacts.v
theories/ArchiveProofs.v
theories/OutcomeFacts.v
theories/RepeatFacts.v
theories/WriteSamples.v
theories/ManyFiles.v
theories/FarFiles.v
theories/Zip64Proofs.v
theories/Properties_Write.v
theories/Properties_Archive.v
theories/SpecStream.v
theories/StreamProofs.v
theories/StreamWalk.v
theories/Properties_Stream.v
theories/CutProofs.v
theories/SpecCopy.v
theories/CopyProofs.v
theories/Properties_Further.v
theories/SpecFront.v
theories/FrontProofs.v
theories/Properties_Front.v
theories/FsReader.v
theories/Builders.v
theories/SpecOutcome.v
theories/StreamOutcome.v
theories/SpecBuild.v
theories/BuildProofs.v
theories/FsProofs.v
theories/BehindProofs.v
theories/Properties_More.v
theories/SpecOrdinary.v
theories/OrdinaryProofs.v
theories/AllWork.v
theories/Properties_Ordinary.v
theories/SpecSize.v
theories/SizeProofs.v
theories/SpecSizeAny.v
theories/SizeAnyProofs.v
theories/Properties_Size.v
theories/InnerMut.v
theories/SpecRecut.v
theories/RecutProofs.v
theories/Properties_Recut.v
theories/StreamPolls.v
theories/SpecPolls.v
theories/PollProofs.v
theories/Properties_Polls.v
theories/Features.v
theories/SpecFeatures.v
theories/FeatureProofs.v
theories/Properties_Features.v
theories/SpecWork.v
theories/WorkProofs.v
theories/Properties_Work.v
theories/ReaderPolls.v
theories/SpecReadPolls.v
theories/ReadPollProofs.v
theories/Properties_ReadPolls.v
theories/Extract.v
theories/SpecExtract.v
theories/ExtractProofs.v
theories/Properties_Extract.v
theories/Inflate.v
theories/InflateFacts.v
theories/Fixtures.v
theories/Conformance.v
theories/SpecBack.v
theories/BackProofs.v
theories/Properties_Back.v
theories/SpecStrict.v
theories/StrictProofs.v
theories/Properties_Strict.v
theories/SpecAccept.v
theories/AcceptProofs.v
theories/AcceptFront.v
theories/InflateEnds.v
theories/Properties_Accept.v
theories/SpecExact.v
theories/ExactProofs.v
theories/ExactTop.v
theories/Properties_Exact.v
theories/SpecThrough.v
theories/ThroughProofs.v
theories/FaultWalkProofs.v
theories/Properties_Through.v
theories/Compress.v
theories/SpecCompress.v
theories/CompressProofs.v
theories/Multipart.v
theories/SpecMultipart.v
theories/MultipartProofs.v
theories/Properties_Examples.v
theories/SpecSettle.v
theories/SettleProofs.v
theories/Properties_Settle.v
theories/SpecImage.v
theories/ImageProofs.v
theories/Properties_Image.v
theories/GiveUp.v
theories/SpecGiveUp.v
theories/GiveUpProofs.v
theories/Properties_GiveUp.v
theories/SpecTrouble.v
theories/TroubleProofs.v
theories/Properties_Trouble.v
theories/SpecSession.v
theories/SessionProofs.v
theories/Properties_Session.v
theories/Seeks.v
theories/SpecSeeks.v
theories/SeekProofs.v
theories/Properties_Seeks.v
theories/RecognizeProofs.v
theories/Properties_Recognize.v
theories/SpecSalvage.v
theories/SalvageProofs.v
theories/Properties_Salvage.v
theories/Messages.v
theories/MessageProofs.v
theories/Properties_Messages.v
theories/SpecPad.v
theories/PadProofs.v
theories/Properties_Pad.v
theories/SpecLocality.v
theories/LocalityProofs.v
theories/Properties_Locality.v
theories/DetectProofs.v
theories/Properties_Detect.v
theories/SpecRefuse.v
theories/RefuseProofs.v
theories/Properties_Refuse.v
theories/SpecLabour.v
theories/LabourProofs.v
theories/Properties_Labour.v
theories/SpecTold.v
theories/ToldProofs.v
theories/Properties_Told.v
theories/Vectored.v
theories/VectoredProofs.v
theories/Properties_Vectored.v
theories/SpecApart.v
theories/ApartProofs.v
theories/Properties_Apart.v
theories/SpecHanded.v
theories/HandedProofs.v
theories/Properties_Handed.v
theories/SpecSpells.v
theories/SpecDirectory.v
theories/SpellsProofs.v
theories/CommentlessProofs.v
theories/CompressBack.v
theories/FormProofs.v
theories/Properties_Commentless.v
theories/SpecRepack.v
theories/SeenProofs.v
theories/RepackProofs.v
theories/Properties_Repack.v
theories/SpecLax.v
theories/LaxProofs.v
theories/Properties_Lax.v
theories/SpecInterop.v
theories/EndProofs.v
theories/InteropProofs.v
theories/Properties_Interop.v
theories/SpecAgree.v
theories/AgreeProofs.v
theories/Properties_Agree.v
theories/RepackAny.v
theories/Properties_RepackAny.v
theories/SpecContract.v
theories/ContractProofs.v
theories/Properties_Contract.v
theories/EncoderPolls.v
theories/SpecEncoder.v
theories/ChainFacts.v
theories/EncoderProofs.v
theories/EncoderSamples.v
theories/Properties_Encoder.v
theories/DecoderPolls.v
theories/SpecDecoder.v
theories/DecoderProofs.v
theories/DecoderSamples.v
theories/Properties_Decoder.v
theories/DecoderWalk.v
theories/SpecWalk.v
theories/DecoderWalkProofs.v
theories/Properties_Walk.v
theories/WayProofs.v
theories/Properties_Way.v
theories/AwaitedWrites.v
theories/SpecLively.v
theories/LivelyProofs.v
theories/LivelySamples.v
theories/Properties_Lively.v
theories/SpecAwake.v
theories/AwakeProofs.v
theories/AwakeSamples.v
theories/AwakeRound.v
theories/Properties_Awake.v
theories/PolledImage.v
theories/Properties_PolledImage.v
theories/SpecBlame.v
theories/BlameProofs.v
theories/Properties_Blame.v
theories/SpecMade.v
theories/MadeProofs.v
theories/Properties_Made.v
theories/SpecEndure.v
theories/EndureProofs.v
theories/MadeRead.v
theories/Properties_Endure.v
theories/SpecRemains.v
theories/InflateGrows.v
theories/RemainsProofs.v
theories/Properties_Remains.v
theories/DecoderSeeks.v
theories/SpecHarsh.v
theories/HarshProofs.v
theories/Properties_Harsh.v
theories/Piped.v
theories/SpecPiped.v
theories/PipedProofs.v
theories/Properties_Piped.v
theories/Relay.v
theories/SpecRelay.v
theories/RelayProofs.v
theories/Properties_Relay.v
theories/SpecRescue.v
theories/RescueProofs.v
theories/Properties_Rescue.v
theories/SpecHands.v
theories/HandsProofs.v
theories/Properties_Hands.v
theories/Merge.v
theories/SpecMerge.v
theories/MergeProofs.v
theories/Properties_Merge.v
theories/Careful.v
theories/SpecCareful.v
theories/CarefulProofs.v
theories/Properties_Careful.v
