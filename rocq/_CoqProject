-Q theories Verif
theories/GoBase.v
theories/Strutils.v
theories/SplitPattern.v
theories/NormString.v
theories/Vocab.v
theories/Json.v
theories/MergeMap.v
theories/Heap.v
theories/Bpe.v
theories/WordPiece.v
theories/Encodings.v
theories/PreTokString.v
theories/Normalizers.v
theories/PreTokenizers.v
theories/SpecText.v
theories/SpecNorm.v
theories/Utf8Facts.v
theories/SliceFacts.v
theories/StrutilsFacts.v
theories/PatternFacts.v
theories/NormFacts.v
theories/NormEdits.v
theories/NormInv.v
theories/NormReplace.v
theories/NormSlice.v
theories/SpecSplit.v
theories/NormSplit.v
theories/NormOA.v
theories/SpecHist.v
theories/HistFacts.v
theories/SplitExact.v
theories/RangeFacts.v
theories/SpecVocab.v
theories/VocabFacts.v
theories/HeapFacts.v
theories/SpecBpe.v
theories/BpeWord.v
theories/BpeLoop.v
theories/BpeFacts.v
theories/BpeTok.v
theories/SpecWordPiece.v
theories/WordPieceFacts.v
theories/SpecPts.v
theories/PtsFacts.v
theories/SpecPretok.v
theories/PretokFacts.v
theories/ByteFacts.v
theories/LostFacts.v
theories/Regex.v
theories/RegexFacts.v
theories/SpecGpt2.v
theories/Gpt2Facts.v
theories/SpecNormalizers.v
theories/Lit.v
theories/ModelTests.v
theories/PropsPatterns.v
theories/PropsNorm.v
theories/PropsRange.v
theories/PropsVocab.v
theories/PropsBpe.v
theories/PropsWordPiece.v
theories/PropsPts.v
theories/PropsPretok.v
theories/NormalizersFacts.v
theories/PropsNormalizers.v
theories/SpecEnd.v
theories/EndFacts.v
theories/PropsEnd.v
theories/SpecInvalid.v
theories/InvalidFacts.v
theories/InvalidPatterns.v
theories/MendFacts.v
theories/InvalidAppend.v
theories/PropsInvalid.v
theories/SpecPipe.v
theories/PipeFacts.v
theories/PropsPipe.v
theories/SpecExact.v
theories/ExactFacts.v
theories/ExactBpe.v
theories/ExactWordPiece.v
theories/ExactBert.v
theories/PropsExact.v
theories/StableFacts.v
theories/PropsStable.v
theories/TwiceFacts.v
theories/PropsTwice.v
theories/MetaFacts.v
theories/PropsMeta.v
theories/SpecJoin.v
theories/JoinFacts.v
theories/PropsJoin.v
theories/SettledFacts.v
theories/PropsSettled.v
theories/SpecRename.v
theories/RenameFacts.v
theories/PropsRename.v
theories/SpecCommute.v
theories/SpecStages.v
theories/LibFacts.v
theories/CommuteFacts.v
theories/PropsCommute.v
theories/OrderFacts.v
theories/PropsStages.v
theories/StepFacts.v
theories/SpecAgree.v
theories/AgreeFacts.v
theories/PropsAgree.v
theories/TileFacts.v
theories/SpecJson.v
theories/JsonFacts.v
theories/JsonVocab.v
theories/PropsJson.v
theories/Defaults.v
theories/SpecDocs.v
theories/DefaultFacts.v
theories/PropsDefaults.v
theories/SpecAlgebra.v
theories/AlgebraFacts.v
theories/PropsAlgebra.v
theories/SpecDecode.v
theories/DecodeFacts.v
theories/ShownFacts.v
theories/PropsDecode.v
theories/Pointers.v
theories/SpecPointers.v
theories/PointerFacts.v
theories/PropsPointers.v
theories/SpecLoose.v
theories/LooseFacts.v
theories/PropsLoose.v
theories/SpecLookups.v
theories/LookupFacts.v
theories/LookupExact.v
theories/PropsLookups.v
theories/SpecUtf8.v
theories/CodecFacts.v
theories/PropsCodec.v
theories/PropsGpt2.v
theories/SpecShift.v
theories/ShiftFacts.v
theories/PropsShift.v
theories/SpecDrop.v
theories/DropFacts.v
theories/DropDet.v
theories/PropsDrop.v
theories/SpecProg.v
theories/ProgFacts.v
theories/PropsProg.v
theories/PropsChain.v
theories/SpecBytes.v
theories/BytesFacts.v
theories/PropsBytes.v
theories/SpecRead.v
theories/ReadFacts.v
theories/PropsRead.v
theories/SpecTrain.v
theories/TrainFacts.v
theories/ReachFacts.v
theories/PropsTrain.v
theories/PropsReach.v
theories/TermFacts.v
theories/PropsTerms.v
theories/SpecAgain.v
theories/AgainFacts.v
theories/PropsAgain.v
theories/SpecDraws.v
theories/DrawsFacts.v
theories/PropsDraws.v
theories/Machine.v
theories/SpecMachine.v
theories/MachineFacts.v
theories/PropsMachine.v
theories/SpecZero.v
theories/ZeroFacts.v
theories/PropsZero.v
theories/Recover.v
theories/SpecRecover.v
theories/RecoverFacts.v
theories/PropsRecover.v
theories/SpecRef.v
theories/RefFacts.v
theories/CaseFacts.v
theories/RefBert.v
theories/CaseText.v
theories/PropsRef.v
theories/BertText.v
theories/PropsBertRef.v
theories/Files.v
theories/SpecFiles.v
theories/FilesFacts.v
theories/PropsFile.v
theories/Floats.v
theories/SpecFloats.v
theories/FloatsFacts.v
theories/PropsFloat.v
theories/Capacity.v
theories/CapacityFacts.v
theories/PropsCapacity.v
theories/Arrays.v
theories/SpecArrays.v
theories/ArraysFacts.v
theories/PropsArrays.v
theories/Concurrent.v
theories/SpecConcurrent.v
theories/ConcurrentFacts.v
theories/PropsConcurrent.v
theories/Nil.v
theories/NilFacts.v
theories/PropsNil.v
theories/Callbacks.v
theories/SpecCallbacks.v
theories/CallbackFacts.v
theories/PropsCallbacks.v
