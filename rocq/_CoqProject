-Q theories Verif
theories/Base.v
theories/Float64.v
theories/Float64Proofs.v
theories/Duration.v
theories/DurationSpec.v
theories/DurationProofs.v
theories/DurationParse.v
theories/DurationRoundTrip.v
theories/PropertiesDuration.v
theories/Time.v
theories/TimeSpec.v
theories/TimeProofs.v
theories/PropertiesTime.v
theories/Heap.v
theories/HeapSpec.v
theories/HeapProofs.v
theories/HeapClone.v
theories/HeapPeriod.v
theories/PropertiesHeap.v
theories/Helpers.v
theories/PropertiesHelpers.v
theories/Utf8.v
theories/NameTables.v
theories/Lexer.v
theories/LexerProofs.v
theories/LexerLocal.v
theories/Escape.v
theories/EscapeSpec.v
theories/EscapeProofs.v
theories/CdataProofs.v
theories/PropertiesEscape.v
theories/Decoder.v
theories/DecoderSpec.v
theories/DecoderProofs.v
theories/PropertiesDecoder.v
theories/ByteDecoder.v
theories/ByteRuns.v
theories/ByteLoud.v
theories/ByteSim.v
theories/ByteToken.v
theories/BytePlace.v
theories/ByteScope.v
theories/ByteLoose.v
theories/ByteEnd.v
theories/PropertiesPosition.v
theories/TokenReader.v
theories/PropertiesTokenReader.v
theories/ByteNear.v
theories/PropertiesOptions.v
theories/PropertiesLenient.v
theories/Printer.v
theories/Writer.v
theories/WriterProofs.v
theories/Pool.v
theories/PropertiesWriter.v
theories/PrinterProofs.v
theories/NameProofs.v
theories/EncoderSpec.v
theories/EncoderProofs.v
theories/DirectiveProofs.v
theories/PropertiesEncoder.v
theories/TagText.v
theories/NsSpec.v
theories/NsProofs.v
theories/NsHistory.v
theories/PropertiesNamespace.v
theories/GoType.v
theories/Schema.v
theories/TypeInfo.v
theories/Simple.v
theories/Marshal.v
theories/Unmarshal.v
theories/TypeInfoSpec.v
theories/TypeInfoProofs.v
theories/TagSpec.v
theories/TagProofs.v
theories/PropertiesTypeInfo.v
theories/Cache.v
theories/PropertiesCache.v
theories/Io.v
theories/PropertiesDocument.v
theories/ValueSpec.v
theories/PropertiesSchema.v
theories/UnmarshalProofs.v
theories/RawContent.v
theories/PropertiesUnmarshal.v
theories/MarshalProofs.v
theories/ReadNames.v
theories/PropertiesMarshal.v
theories/NsTags.v
theories/Plan.v
theories/PlanText.v
theories/Lens.v
theories/Load.v
theories/RoundTripSpec.v
theories/LeafProofs.v
theories/RoundTripCheck.v
theories/RoundTripParts.v
theories/RoundTripExact.v
theories/RoundTripAttrs.v
theories/RoundTripBody.v
theories/RoundTripMain.v
theories/RoundTripRoot.v
theories/Once.v
theories/RoundTripTest.v
theories/PropertiesRoundTrip.v
theories/PropertiesRaw.v
theories/Stable.v
theories/PropertiesStable.v
theories/PropertiesSignal.v
theories/Settled.v
theories/PropertiesSettled.v
theories/PropertiesOnce.v
theories/Build.v
theories/PropertiesBuild.v
theories/PropertiesNumbers.v
theories/Methods.v
theories/PropertiesElement.v
theories/PropertiesMethods.v
theories/PropertiesBytes.v
theories/Memory.v
theories/PropertiesCopy.v
theories/ReadText.v
theories/PropertiesReadText.v
theories/Objects.v
theories/ObjectsProofs.v
theories/PropertiesObjects.v
theories/TextMethod.v
theories/PropertiesEvents.v
theories/DateSpec.v
theories/PropertiesDate.v
theories/Rounded.v
theories/PropertiesRounded.v
theories/Exported.v
theories/PropertiesExported.v
theories/Hidden.v
theories/PropertiesHidden.v
theories/IoText.v
theories/PropertiesIoText.v
theories/Stream.v
theories/PropertiesStream.v
theories/Infoset.v
theories/PropertiesInfoset.v
theories/AttrOrder.v
theories/PropertiesAttrOrder.v
theories/Tree.v
theories/Siblings.v
theories/PropertiesSiblings.v
theories/PropertiesWriteErrors.v
theories/PropertiesErrorText.v
theories/PropertiesUnknown.v
theories/PropertiesLocal.v
theories/PropertiesElements.v
theories/PropertiesSingle.v
theories/PropertiesCharData.v
theories/PropertiesShape.v
