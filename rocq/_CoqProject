-Q theories Verif

theories/Base.v
theories/Utf8.v
theories/Canon.v
theories/BodyHash.v
theories/Parse.v
theories/Header.v
theories/QP.v
theories/Base64.v
theories/TagList.v
theories/Domain.v
theories/Signature.v
theories/KeyRecord.v
theories/Crypto.v
theories/Format.v
theories/Sign.v
theories/Verify.v
theories/Sample.v
theories/Tests.v
theories/Concrete.v
theories/Vectors.v
theories/VectorsMore.v
theories/Lib.v
theories/SpecCanon.v
theories/CanonProofs.v
theories/CanonShape.v
theories/HeaderCanonProofs.v
theories/PropCanon.v
theories/SpecHash.v
theories/BodyHashProofs.v
theories/PropHash.v
theories/SpecText.v
theories/Utf8Proofs.v
theories/QPProofs.v
theories/QPDecode.v
theories/Base64Proofs.v
theories/QPShape.v
theories/PropText.v
theories/SpecHeader.v
theories/HeaderProofs.v
theories/PropHeader.v
theories/SpecTag.v
theories/TagListProofs.v
theories/PropTag.v
theories/SpecDomain.v
theories/DomainProofs.v
theories/PropDomain.v
theories/SpecSig.v
theories/SigProofs.v
theories/PropSig.v
theories/SpecRecord.v
theories/RecordProofs.v
theories/PropRecord.v
theories/SpecFormat.v
theories/FormatProofs.v
theories/SpecSign.v
theories/SignProofs.v
theories/PropSign.v
theories/SpecOutput.v
theories/SpecWidth.v
theories/OutputProofs.v
theories/OutputParse.v
theories/OutputExact.v
theories/IndentExact.v
theories/OriginalProofs.v
theories/WidthProofs.v
theories/WidthExact.v
theories/PropOutput.v
theories/PropReadBack.v
theories/PropWidth.v
theories/SpecVerify.v
theories/VerifyProofs.v
theories/VerifyKeys.v
theories/VerifyRun.v
theories/VerifyFacts.v
theories/PropVerify.v
theories/PolicyProofs.v
theories/PropPolicy.v
theories/OutputChars.v
theories/SpecEnd.v
theories/EndProofs.v
theories/PropEnd.v
theories/TamperText.v
theories/TamperProofs.v
theories/PropTamper.v
theories/DefaultProofs.v
theories/PropDefault.v
theories/SpecTransit.v
theories/TransitProofs.v
theories/PropTransit.v
theories/RequestProofs.v
theories/PropRequests.v
theories/Names.v
theories/SpecNames.v
theories/NamesProofs.v
theories/PropNames.v
theories/Hickory.v
theories/SpecHickory.v
theories/HickoryProofs.v
theories/PropHickory.v
theories/Pem.v
theories/SpecPem.v
theories/PemProofs.v
theories/PropPem.v
theories/Report.v
theories/SpecReport.v
theories/ReportProofs.v
theories/PropReport.v
theories/SpecMessage.v
theories/MessageProofs.v
theories/PropMessage.v
theories/SpecLoose.v
theories/LooseProofs.v
theories/PropLoose.v
theories/Programs.v
theories/SpecPrograms.v
theories/ProgramsProofs.v
theories/PropPrograms.v
theories/SpecCopied.v
theories/CopiedProofs.v
theories/PropCopied.v
theories/Debug.v
theories/SpecDebug.v
theories/DebugProofs.v
theories/DebugTrees.v
theories/DebugUnique.v
theories/DebugParsed.v
theories/PropDebug.v
theories/SpecShow.v
theories/ShowProofs.v
theories/PropShow.v
theories/SpecDkim.v
theories/DkimProofs.v
theories/PropDkim.v
theories/SpecCause.v
theories/CauseProofs.v
theories/PropCause.v
theories/SpecRsa.v
theories/NumberProofs.v
theories/ConcreteProofs.v
theories/RsaProofs.v
theories/PrimeProofs.v
theories/SampleRsa.v
theories/PropRsa.v
theories/PocklingtonProofs.v
theories/P25519Proofs.v
theories/FieldProofs.v
theories/EdwardsProofs.v
theories/Ed25519Proofs.v
theories/EdOrderProofs.v
theories/EdSignProofs.v
theories/SpecEd.v
theories/EdSpecProofs.v
theories/EdKeyProofs.v
theories/EdEndProofs.v
theories/SampleEd.v
theories/PropEd.v
theories/Dev.v
theories/DevProofs.v
theories/DevRunProofs.v
theories/PropDev.v
theories/SpecReal.v
theories/RealProofs.v
theories/PropReal.v
theories/SpecSha.v
theories/ShaWordProofs.v
theories/ShaConstProofs.v
theories/ShaProofs.v
theories/ShaRunProofs.v
theories/ShaEndProofs.v
theories/PropSha.v
theories/Usize.v
theories/UsizeProofs.v
theories/UsizeFold.v
theories/PropUsize.v
theories/SpecUnique.v
theories/OrderProofs.v
theories/UniqueProofs.v
theories/EdAnyProofs.v
theories/UniqueEnd.v
theories/UniqueSample.v
theories/PropUnique.v
theories/Cursor.v
theories/CursorProofs.v
theories/PropCursor.v
theories/SpecAuthor.v
theories/AuthorProofs.v
theories/PropAuthor.v
theories/SpecChange.v
theories/ChangeProofs.v
theories/FinalProofs.v
theories/PropChange.v
theories/PropFinal.v
theories/SizeProofs.v
theories/PropSize.v
theories/SpecInterop.v
theories/InteropProofs.v
theories/PropInterop.v
theories/SpecLater.v
theories/LaterProofs.v
theories/PropLater.v
theories/SpecReceived.v
theories/ReceivedProofs.v
theories/PropReceived.v
theories/SpecReceivedAny.v
theories/ReceivedAny.v
theories/PropReceivedAny.v
theories/SpecProgramsAny.v
theories/ProgramsAny.v
theories/PropProgramsAny.v
theories/SpecAnyRequest.v
theories/AnyRequest.v
theories/PropAnyRequest.v
theories/SpecBuild.v
theories/BuildProofs.v
theories/PropBuild.v
theories/SpecSettle.v
theories/SettleProofs.v
theories/PropSettle.v
theories/SpecStop.v
theories/StopProofs.v
theories/PropStop.v
theories/SpecFold.v
theories/FoldProofs.v
theories/PropFold.v
theories/SpecAlike.v
theories/AlikeProofs.v
theories/PropAlike.v
theories/SpecResign.v
theories/ResignProofs.v
theories/PropResign.v
theories/SpecRestyle.v
theories/RestyleProofs.v
theories/PropRestyle.v
theories/SpecLimit.v
theories/LimitProofs.v
theories/PropLimit.v
theories/PropConvert.v
theories/Guards.v
