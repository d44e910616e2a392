-Q theories Verif
theories/Base.v
theories/BaseFacts.v
theories/Utf8.v
theories/Utf8Facts.v
theories/Stream.v
theories/StreamFacts.v
theories/F32.v
theories/ChunkIO.v
theories/Subword.v
theories/Vocab.v
theories/Storage.v
theories/Embeddings.v
theories/Similarity.v
theories/TextIO.v
theories/FastText.v
theories/FastTextSpec.v
theories/FastTextFacts.v
theories/FastTextThms.v
theories/FastTextReal.v
theories/FileSpec.v
theories/ChunkFacts.v
theories/VocabFacts.v
theories/StorageFacts.v
theories/FileFacts.v
theories/ReadFacts.v
theories/Grammar.v
theories/BlindFacts.v
theories/GrammarFacts.v
theories/FileExactSpec.v
theories/FileExact.v
theories/PanicFacts.v
theories/FileThms.v
theories/WrapThms.v
theories/VocabSpec.v
theories/SubwordFacts.v
theories/IndexerFacts.v
theories/LookupFacts.v
theories/LookupExactSpec.v
theories/LookupExact.v
theories/HashSpec.v
theories/HashThms.v
theories/Equality.v
theories/EqualitySpec.v
theories/EqualityThms.v
theories/EmbSpec.v
theories/MatrixFacts.v
theories/EmbFacts.v
theories/BatchFacts.v
theories/EmbExact.v
theories/IterThms.v
theories/Endian.v
theories/EndianFacts.v
theories/ExplicitFacts.v
theories/ExplicitExact.v
theories/QuantFacts.v
theories/SimSpec.v
theories/F32Facts.v
theories/SimFacts.v
theories/SimExact.v
theories/TextSpec.v
theories/TextFacts.v
theories/BrokenFacts.v
theories/TextThms.v
theories/BinaryThms.v
theories/LossyFacts.v
theories/TextAccept.v
theories/FloretThms.v
theories/RealOps.v
theories/EmbReal.v
theories/TextReal.v
theories/SimReal.v
theories/Conformance.v
theories/TestData.v
theories/F32Text.v
theories/F32TextFacts.v
theories/F32TextSpec.v
theories/F32Nearest.v
theories/F32Shortest.v
theories/NumberThms.v
theories/F32RoundSpec.v
theories/F32Round.v
theories/F32Ops.v
theories/F32RoundThms.v
theories/SimRound.v
theories/EmbRound.v
theories/RankSpec.v
theories/DotRound.v
theories/QuantRound.v
theories/SumSpec.v
theories/SumRound.v
theories/TripSpec.v
theories/TripRound.v
theories/FtRound.v
theories/FtTrip.v
theories/ConformanceData.v
theories/ConformanceTests.v
theories/TextExactSpec.v
theories/TextExact.v
theories/FastTextExactSpec.v
theories/FastTextExact.v
theories/PanicExact.v
theories/P_Grammar.v
theories/P_File.v
theories/P_Vocab.v
theories/P_Host.v
theories/FaultThms.v
theories/SinkThms.v
theories/ConvertThms.v
theories/StoreThms.v
theories/RewriteThms.v
theories/SurviveThms.v
theories/ProgramThms.v
theories/ReorderThms.v
theories/IoDevice.v
theories/DeviceThms.v
theories/IoSink.v
theories/DrainThms.v
theories/Shaky.v
theories/ShakyThms.v
theories/LayoutThms.v
theories/P_Emb.v
theories/P_Explicit.v
theories/P_Quant.v
theories/StdHeap.v
theories/HeapThms.v
theories/Width.v
theories/WidthThms.v
theories/WidthUse.v
theories/Memory.v
theories/MemoryThms.v
theories/MemoryGreedy.v
theories/P_Sim.v
theories/WhiteSpace.v
theories/LossyExact.v
theories/P_Text.v
theories/P_TextExact.v
theories/P_FastText.v
theories/P_Number.v
theories/P_Round.v
theories/P_Rank.v
theories/P_Trip.v
theories/P_Fault.v
theories/P_Device.v
theories/P_Shaky.v
theories/P_Convert.v
theories/P_Width.v
theories/P_Memory.v
theories/FastTextMeta.v
theories/FastTextMetaThms.v
theories/P_Meta.v
theories/AnyDot.v
theories/AnyDotSpec.v
theories/AnyDotFacts.v
theories/AnyDotRound.v
theories/WidthUseThms.v
theories/P_WidthUse.v
theories/P_AnyDot.v
theories/Work.v
theories/WorkThms.v
theories/P_Work.v
theories/WidthWrite.v
theories/WidthWriteThms.v
theories/P_WidthWrite.v
theories/Hints.v
theories/HintsThms.v
theories/P_Hints.v
theories/Markers.v
theories/Messages.v
theories/MessageSpec.v
theories/MessageThms.v
theories/CutTexts.v
theories/MessageWrong.v
theories/CompatMessages.v
theories/CompatErasure.v
theories/CompatTexts.v
theories/CompatLines.v
theories/CompatCut.v
theories/CompatFastText.v
theories/CompatRefuted.v
theories/CompatDevice.v
theories/P_Message.v
theories/P_MessageOther.v
theories/WriteMessages.v
theories/WriteSpec.v
theories/WriteErasure.v
theories/WriteTexts.v
theories/WriteOther.v
theories/WriteRefuted.v
theories/WriteLayout.v
theories/P_MessageWrite.v
theories/TruncOther.v
theories/P_Truncate.v
theories/AppendOther.v
theories/StartAnywhere.v
theories/StartAligned.v
theories/StartWrite.v
theories/P_Append.v
theories/P_Start.v
