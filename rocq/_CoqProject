-Q theories Verif
theories/Py.v
theories/Bytes.v
theories/Utf8.v
theories/Keccak.v
theories/KeccakSpec.v
theories/KeccakProofs.v
theories/Address.v
theories/Decimals.v
theories/UnicodeWord.v
theories/Grammar.v
theories/Encoding.v
theories/Decoding.v
theories/Registry.v
theories/ExceptionSpec.v
theories/RaisingSpec.v
theories/Codec.v
theories/Histories.v
theories/Vectors.v
theories/VectorsExtra.v
theories/Tac.v
theories/BytesProofs.v
theories/Spec.v
theories/ReadSpec.v
theories/DecimalsProofs.v
theories/EncLeafProofs.v
theories/Utf8Proofs.v
theories/AddressProofs.v
theories/EncodeProofs.v
theories/AcceptProofs.v
theories/EncOkProofs.v
theories/DecLeafProofs.v
theories/DecodeProofs.v
theories/ReaderProofs.v
theories/DecodeFacts.v
theories/DecodeFacts2.v
theories/GrammarSpec.v
theories/GrammarProofs.v
theories/NormalizeProofs.v
theories/CacheProofs.v
theories/LookupProofs.v
theories/TypeSpec.v
theories/TypeProofs.v
theories/ApiProofs.v
theories/HistoryProofs.v
theories/ArgsProofs.v
theories/EncodeApi.v
theories/DecodeApi.v
theories/ReadProofs.v
theories/PackedProofs.v
theories/HeapProofs.v
theories/TypeCases.v
theories/RegistrySpec.v
theories/RegistryProofs.v
theories/Objects.v
theories/ObjectProofs.v
theories/RegistryLaws.v
theories/Threads.v
theories/ThreadProofs.v
theories/ThreadLaws.v
theories/CustomSpec.v
theories/CustomProofs.v
theories/Samples.v
theories/RegistryCases.v
theories/PropertiesRegistry.v
theories/EncodeCases.v
theories/PropertiesEncode.v
theories/DecodeCases.v
theories/TypeSamples.v
theories/PropertiesTypes.v
theories/PropertiesDecode.v
theories/PropertiesRoundTrip.v
theories/NumericSpec.v
theories/NumericProofs.v
theories/PropertiesNumeric.v
theories/Strategies.v
theories/StrategySpec.v
theories/StrategyProofs.v
theories/PropertiesStrategies.v
theories/Construct.v
theories/ConstructSpec.v
theories/ConstructProofs.v
theories/ConstructSides.v
theories/PropertiesConstruct.v
theories/Handlers.v
theories/HandlersSpec.v
theories/HandlersProofs.v
theories/HandlersApi.v
theories/PropertiesStrings.v
theories/Limits.v
theories/LimitsSpec.v
theories/LimitsProofs.v
theories/LimitsCases.v
theories/PropertiesLimits.v
theories/AbiTypes.v
theories/AbiTypesSpec.v
theories/AbiTypesProofs.v
theories/PropertiesAbiTypes.v
theories/LawsSpec.v
theories/LawsProofs.v
theories/LawsProofs2.v
theories/LawsReads.v
theories/PropertiesLaws.v
theories/TruncProofs.v
theories/Cost.v
theories/CostSpec.v
theories/CostProofs.v
theories/PropertiesCost.v
theories/SizeSpec.v
theories/SizeProofs.v
theories/PropertiesPayload.v
theories/FromTypeSpec.v
theories/FromTypeProofs.v
theories/Stream.v
theories/StreamSpec.v
theories/StreamProofs.v
theories/HeadTailProofs.v
theories/Abbr.v
theories/AbbrProofs.v
theories/PropertiesParts.v
theories/Peg.v
theories/PegProofs.v
theories/ScanProofs.v
theories/PegSpec.v
theories/PointerProofs.v
theories/PropertiesParse.v
theories/RaisingProofs.v
theories/PropertiesRaising.v
theories/LengthSpec.v
theories/LengthProofs.v
theories/OrderSpec.v
theories/OrderProofs.v
theories/OrderCases.v
theories/PropertiesLengths.v
theories/Complaints.v
theories/ComplaintSpec.v
theories/ComplaintProofs.v
theories/PropertiesErrors.v
theories/Objections.v
theories/ObjectionSpec.v
theories/ObjectionProofs.v
theories/PropertiesObjections.v
theories/Interrupts.v
theories/InterruptSpec.v
theories/InterruptProofs.v
theories/InterruptCases.v
theories/PropertiesInterrupts.v
theories/Notices.v
theories/NoticeSpec.v
theories/NoticeProofs.v
theories/NoticeLaws.v
theories/PropertiesNotices.v
theories/Memo.v
theories/MemoSpec.v
theories/MemoProofs.v
theories/MemoLaws.v
theories/PropertiesMemo.v
theories/AlterSpec.v
theories/AlterProofs.v
theories/AlterCases.v
theories/PropertiesAlter.v
theories/CodersSpec.v
theories/CodersProofs.v
theories/CodersCases.v
theories/PropertiesCoders.v
theories/DrawnSpec.v
theories/DrawnProofs.v
theories/DrawnCases.v
theories/PropertiesDrawn.v
theories/Padding.v
theories/PaddingProofs.v
theories/PropertiesPadding.v
theories/Matchers.v
theories/MatchersSpec.v
theories/MatchersProofs.v
theories/PropertiesMatchers.v
theories/Depth.v
theories/DepthSpec.v
theories/DepthProofs.v
theories/PropertiesDepth.v
theories/FunctionSpec.v
theories/FunctionProofs.v
theories/PropertiesFunctions.v
theories/Texts.v
theories/TextSpec.v
theories/TextProofs.v
theories/PropertiesTexts.v
theories/StrategyUseSpec.v
theories/StrategyUseProofs.v
theories/PropertiesStrategyRegistry.v
theories/InstanceSpec.v
theories/InstanceProofs.v
theories/PropertiesInstances.v
theories/SuppliedSpec.v
theories/SuppliedProofs.v
theories/PropertiesSupplied.v
theories/ComplaintTexts.v
theories/ComplaintTextProofs.v
theories/PropertiesErrorTexts.v
theories/ObjectionTexts.v
theories/ObjectionTextSpec.v
theories/ObjectionTextProofs.v
theories/PropertiesRefusalTexts.v
theories/Faults.v
theories/FaultSpec.v
theories/FaultProofs.v
theories/FaultOrder.v
theories/PropertiesFaults.v
