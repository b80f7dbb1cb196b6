-Q theories Verif
theories/Prelude.v
theories/Tables.v
theories/UnicodeModel.v
theories/UnicodeSpec.v
theories/UnicodeProofs.v
theories/UnicodeProperties.v
theories/BitsModel.v
theories/WhitespaceModel.v
theories/BitsProofs.v
theories/WhitespaceSpec.v
theories/WhitespaceProofs.v
theories/BitsProperties.v
theories/ReadModel.v
theories/SpecsModel.v
theories/IntModel.v
theories/IntSpec.v
theories/IntProofs.v
theories/IntProperties.v
theories/ArgsModel.v
theories/ArgsProofs.v
theories/ArgsProperties.v
theories/ReadProofs.v
theories/FormatModel.v
theories/FormatProofs.v
theories/SpecsInvProofs.v
theories/VscanModel.v
theories/VscanProofs.v
theories/FormatSpec.v
theories/FormatSpecProofs.v
theories/VscanSpec.v
theories/VscanSpecProofs.v
theories/IntTotalProofs.v
theories/WidthModel.v
theories/WidthSpec.v
theories/WidthProofs.v
theories/ArgReaderModel.v
theories/CheckerProofs.v
theories/VscanProperties.v
theories/ArgReaderProofs.v
theories/IntAsciiProofs.v
theories/ArgReaderProperties.v
theories/StringModel.v
theories/StringSpec.v
theories/StringProofs.v
theories/ArgSafeProofs.v
theories/StringSafeProofs.v
theories/StringProperties.v
theories/ScalarModel.v
theories/ScalarSpec.v
theories/ScalarProofs.v
theories/ScalarProperties.v
theories/GrammarSpec.v
theories/GrammarProofs.v
theories/GrammarProperties.v
theories/BufferModel.v
theories/BufferSpec.v
theories/BufferProofs.v
theories/BufferProperties.v
theories/IstreamModel.v
theories/IstreamSpec.v
theories/IstreamProperties.v
theories/ChronoModel.v
theories/ChronoSpec.v
theories/ChronoParseProofs.v
theories/ChronoInvProofs.v
theories/ChronoMarkProofs.v
theories/ChronoRuleProofs.v
theories/ChronoRoundProofs.v
theories/ChronoTextProofs.v
theories/ChronoDateProofs.v
theories/ChronoTripProofs.v
theories/ChronoSoundProofs.v
theories/ChronoProperties.v
theories/ChronoFractionProperties.v
theories/ChronoOverModel.v
theories/ChronoFieldProofs.v
theories/ChronoOverProofs.v
theories/ChronoYearProofs.v
theories/ChronoOverProperties.v
theories/ChronoLocaleSpec.v
theories/ChronoLocaleProofs.v
theories/ChronoLocaleProperties.v
theories/EndSpec.v
theories/EndProofs.v
theories/EndProperties.v
theories/ProgressSpec.v
theories/ProgressProofs.v
theories/ProgressProperties.v
theories/ChronoPointModel.v
theories/ChronoPointSpec.v
theories/ChronoPointProofs.v
theories/ChronoPointProperties.v
theories/RangesModel.v
theories/RangesSpec.v
theories/RangesProofs.v
theories/RangesIntProofs.v
theories/RangesCollectProofs.v
theories/RangesProperties.v
theories/SegmentModel.v
theories/SegmentSpec.v
theories/SegmentProofs.v
theories/SegmentRunProofs.v
theories/SegmentProperties.v
theories/SegmentCharProperties.v
theories/FileCallModel.v
theories/FileCallSpec.v
theories/FileCallProofs.v
theories/FileCallProperties.v
theories/FloatModel.v
theories/FloatSpec.v
theories/FloatProofs.v
theories/FloatInstance.v
theories/FloatProperties.v
theories/FloatFieldProperties.v
theories/FloatTotal.v
theories/FloatLocaleSpec.v
theories/FloatLocaleProofs.v
theories/FloatLocaleProperties.v
theories/BuiltinProperties.v
theories/RegexModel.v
theories/RegexSpec.v
theories/RegexProperties.v
theories/LoopModel.v
theories/LoopSpec.v
theories/LoopProofs.v
theories/LoopProperties.v
theories/LocaleModel.v
theories/LocaleSpec.v
theories/LocaleProofs.v
theories/LocaleProperties.v
theories/ScanIntProperties.v
theories/DiscardModel.v
theories/DiscardProofs.v
theories/DiscardProperties.v
theories/ValueMapProofs.v
theories/WrapperModel.v
theories/WrapperProofs.v
theories/WrapperProperties.v
theories/InitialModel.v
theories/InitialProofs.v
theories/InitialProperties.v
theories/CheckedProofs.v
theories/CheckedProperties.v
theories/AcceptedProofs.v
theories/AcceptedProperties.v
theories/EncodingProofs.v
theories/EncodingLoopProofs.v
theories/EncodingReadProofs.v
theories/EncodingFloatProofs.v
theories/EncodingProperties.v
theories/FollowSpec.v
theories/FollowProofs.v
theories/FollowIntProofs.v
theories/FollowFloatProofs.v
theories/FollowLoopProofs.v
theories/FollowProperties.v
theories/ExpectedModel.v
theories/ExpectedSpec.v
theories/ExpectedProofs.v
theories/ExpectedProperties.v
theories/WiderSpec.v
theories/WiderProofs.v
theories/WiderProperties.v
theories/PrintedSpec.v
theories/PrintedTextProofs.v
theories/PrintedRangeProofs.v
theories/PrintedProofs.v
theories/PrintedProperties.v
theories/DocTypesSpec.v
theories/DocTypesProofs.v
theories/DocTypesRun.v
theories/DocTypesProperties.v
theories/NumberedSpec.v
theories/NumberedProofs.v
theories/NumberedProperties.v
theories/RespaceSpec.v
theories/RespaceProofs.v
theories/RespaceProperties.v
theories/AnySourceProperties.v
theories/TwoStepsProperties.v
theories/NestedModel.v
theories/NestedProperties.v
theories/NumberedAnyProperties.v
theories/CaseSpec.v
theories/CaseProofs.v
theories/CaseFloatProofs.v
theories/CaseProperties.v
theories/FillProofs.v
theories/LockstepProofs.v
theories/CaseFormatProperties.v
theories/EncodingRangeProperties.v
theories/RespaceFormatProperties.v
theories/FollowRangeProofs.v
theories/FollowRangeProperties.v
theories/SynonymSpec.v
theories/SynonymProperties.v
theories/FieldTypesProperties.v
