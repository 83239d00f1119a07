-Q theories Verif
theories/Base.v
theories/Unicode.v
theories/Common.v
theories/Utils.v
theories/PostProcessor.v
theories/Decoder.v
theories/Normalizer.v
theories/PreTokenizer.v
theories/WordPiece.v
theories/Bpe.v
theories/AddedVocab.v
theories/Tokenizer.v
theories/BaseFacts.v
theories/Spec.v
theories/EncFacts.v
theories/UtilsProofs.v
theories/PadProofs.v
theories/Sample.v
theories/PropsUtils.v
theories/PostSpec.v
theories/PostProofs.v
theories/UnicodeProofs.v
theories/DecSpec.v
theories/DecProofs.v
theories/WpSpec.v
theories/WpProofs.v
theories/PropsPost.v
theories/PropsDecoder.v
theories/PropsWordPiece.v
theories/BpeSpec.v
theories/BpeProofs.v
theories/BpeWord.v
theories/Env.v
theories/PropsBpe.v
theories/NormSpec.v
theories/NormProofs.v
theories/PropsNorm.v
theories/PreSpec.v
theories/PreProofs.v
theories/PropsPre.v
theories/AvSpec.v
theories/AvProofs.v
theories/PropsAdded.v
theories/ExtractProofs.v
theories/TzSpec.v
theories/TzProofs.v
theories/Jni.v
theories/PropsEncode.v
theories/EmptySpec.v
theories/PropsEmpty.v
theories/HistSpec.v
theories/HistProofs.v
theories/PropsHistory.v
theories/Config.v
theories/EscSpec.v
theories/EscProofs.v
theories/ConfigSpec.v
theories/ConfigProofs.v
theories/PropsConfig.v
theories/OffSpec.v
theories/OffProofs.v
theories/PropsApi.v
theories/PropsOffsets.v
theories/PropsPipeline.v
theories/RuntimeProofs.v
theories/PropsRuntime.v
theories/RoundSpec.v
theories/RoundProofs.v
theories/PropsRound.v
theories/Concurrent.v
theories/ConcProofs.v
theories/PropsConcurrent.v
theories/RefSpec.v
theories/RefProofs.v
theories/PropsReference.v
theories/TextProofs.v
theories/PropsText.v
theories/LenSpec.v
theories/PropsLength.v
theories/PropsFrame.v
theories/UnkSpec.v
theories/PropsUnknown.v
theories/PropsStream.v
theories/MixSpec.v
theories/MixProofs.v
theories/PropsMixed.v
theories/PropsPieces.v
theories/ByteSpec.v
theories/PropsByteBpe.v
theories/PropsLifetime.v
theories/FlagSpec.v
theories/PropsFlag.v
theories/OrderSpec.v
theories/PropsOrder.v
theories/BpeRefSpec.v
theories/PropsBpeText.v
theories/CutSpec.v
theories/PropsCut.v
theories/IntChecked.v
theories/IntSpec.v
theories/PropsInt.v
theories/OutSpec.v
theories/OutProofs.v
theories/PropsOutcome.v
theories/PropsFinish.v
theories/PortSpec.v
theories/PropsPortable.v
theories/PropsCache.v
theories/AccentSpec.v
theories/PropsAccent.v
theories/BertSpec.v
theories/PropsBertOffsets.v
theories/LlamaSpec.v
theories/PropsLlama.v
theories/AsciiSpec.v
theories/PropsAscii.v
theories/DecodableSpec.v
theories/PropsDecodable.v
theories/FullSpec.v
theories/PropsFull.v
theories/DropSpec.v
theories/PropsDeleted.v
theories/PropsWitness.v
theories/StripSpec.v
theories/PropsStrip.v
theories/PropsBertConfig.v
theories/NullSpec.v
theories/PropsNull.v
theories/SpellSpec.v
theories/PropsSpelling.v
theories/Run.v
theories/RunSpec.v
theories/PropsRun.v
theories/MergeSpec.v
theories/PropsMerges.v
theories/TokenSpec.v
theories/PropsToken.v
theories/UtfSpec.v
theories/PropsUtf.v
theories/MadeSpec.v
theories/PropsMade.v
theories/Mask.v
theories/MaskSpec.v
theories/PropsMask.v
theories/PartsSpec.v
theories/PropsParts.v
theories/PrefixSpec.v
theories/PropsPrefix.v
theories/RepairSpec.v
theories/PropsRepair.v
theories/RelevSpec.v
theories/PropsRelevant.v
theories/GrowSpec.v
theories/PropsGrow.v
theories/RespellSpec.v
theories/PropsRespell.v
theories/BpeAgree.v
theories/BpeGrowSpec.v
theories/ComesProofs.v
theories/PropsBpeGrow.v
theories/ByteDecSpec.v
theories/PropsByteDec.v
theories/Android.v
theories/AndroidSpec.v
theories/PropsAndroid.v
theories/PropsActivity.v
theories/CountSpec.v
theories/PropsCount.v
theories/BatchSpec.v
theories/PropsBatch.v
theories/FormSpec.v
theories/PropsForm.v
theories/UncasedSpec.v
theories/PropsUncased.v
theories/EraseSpec.v
theories/PropsErase.v
theories/WholeSpec.v
theories/PropsWhole.v
theories/TotalSpec.v
theories/PropsTotal.v
theories/TextsSpec.v
theories/PropsTexts.v
theories/Cost.v
theories/PropsCost.v
theories/LaidSpec.v
theories/PropsLaid.v
theories/PropsLaidAt.v
theories/BoundSpec.v
theories/PropsBound.v
theories/PropsBoundAt.v
theories/PropsBoundRows.v
theories/EverySpec.v
theories/PropsEvery.v
theories/StretchSpec.v
theories/PropsStretch.v
theories/RepoTests.v
theories/RenumSpec.v
theories/PropsRenum.v
theories/Threads.v
theories/PropsThreads.v
theories/NormIntChecked.v
theories/NormIntSpec.v
theories/PropsNormInt.v
theories/AddIntChecked.v
theories/AddIntSpec.v
theories/PropsAddInt.v
theories/TokIntChecked.v
theories/TokIntSpec.v
theories/PropsTokInt.v
