-Q theories Verif
theories/Base/Codec.v
theories/Base/Iter.v
theories/Base/LeFacts.v
theories/Base/Prelude.v
theories/Model/BasicDecompress.v
theories/Model/Bitpacked.v
theories/Model/Bloom.v
theories/Model/BloomValues.v
theories/Model/Builds.v
theories/Model/Cancel.v
theories/Model/ColumnMeta.v
theories/Model/ColumnWrite.v
theories/Model/Compression.v
theories/Model/DeltaBitpacked.v
theories/Model/DeltaByteArray.v
theories/Model/Deserialize.v
theories/Model/Equality.v
theories/Model/Estimates.v
theories/Model/Faults.v
theories/Model/FileWrite.v
theories/Model/HybridRle.v
theories/Model/Indexes.v
theories/Model/Intervals.v
theories/Model/Io.v
theories/Model/JoinRead.v
theories/Model/Levels.v
theories/Model/Message.v
theories/Model/Metadata.v
theories/Model/Native.v
theories/Model/Page.v
theories/Model/PageMeta.v
theories/Model/PageRead.v
theories/Model/PageWrite.v
theories/Model/Plain.v
theories/Model/Resume.v
theories/Model/Routes.v
theories/Model/Schema.v
theories/Model/Statistics.v
theories/Model/Thrift.v
theories/Model/Types.v
theories/Model/Uleb128.v
theories/Model/WriterEnd.v
theories/Proofs/AcceptProofs.v
theories/Proofs/AnyPagesProofs.v
theories/Proofs/BitmapProofs.v
theories/Proofs/BitpackRoomProofs.v
theories/Proofs/BitpackedProofs.v
theories/Proofs/BitsFacts.v
theories/Proofs/BloomProofs.v
theories/Proofs/BuffersProofs.v
theories/Proofs/BuildsProofs.v
theories/Proofs/CancelProofs.v
theories/Proofs/ColumnMetaProofs.v
theories/Proofs/ColumnWriteProofs.v
theories/Proofs/CompressionProofs.v
theories/Proofs/CopyProofs.v
theories/Proofs/CrashProofs.v
theories/Proofs/DeltaAnyProofs.v
theories/Proofs/DeltaDecProofs.v
theories/Proofs/DeltaEncProofs.v
theories/Proofs/DeltaStringProofs.v
theories/Proofs/DeltaStringsAnyProofs.v
theories/Proofs/EndToEndProofs.v
theories/Proofs/EndsProofs.v
theories/Proofs/EqualityProofs.v
theories/Proofs/ErrorsProofs.v
theories/Proofs/EstimatesProofs.v
theories/Proofs/FaultsProofs.v
theories/Proofs/FileWriteProofs.v
theories/Proofs/FilteredProofs.v
theories/Proofs/ForeignIndexProofs.v
theories/Proofs/ForeignProofs.v
theories/Proofs/ForeignSearchProofs.v
theories/Proofs/ForeignSkipProofs.v
theories/Proofs/ForeignValuesProofs.v
theories/Proofs/FramesProofs.v
theories/Proofs/HintsProofs.v
theories/Proofs/HybridAnyProofs.v
theories/Proofs/HybridBrokenProofs.v
theories/Proofs/HybridEncProofs.v
theories/Proofs/HybridRleProofs.v
theories/Proofs/IndexAnyProofs.v
theories/Proofs/IndexProofs.v
theories/Proofs/IndexReadProofs.v
theories/Proofs/IntervalsProofs.v
theories/Proofs/JoinReadProofs.v
theories/Proofs/LaidProofs.v
theories/Proofs/LevelsAnyProofs.v
theories/Proofs/LevelsProofs.v
theories/Proofs/MessageCutProofs.v
theories/Proofs/MessageProofs.v
theories/Proofs/MessageTextProofs.v
theories/Proofs/MessageTrapProofs.v
theories/Proofs/MetadataProofs.v
theories/Proofs/NestedProofs.v
theories/Proofs/NumbersProofs.v
theories/Proofs/OpeningProofs.v
theories/Proofs/OversizedProofs.v
theories/Proofs/OversizedRleProofs.v
theories/Proofs/PageIoProofs.v
theories/Proofs/PageMetaProofs.v
theories/Proofs/PageProofs.v
theories/Proofs/PageReadProofs.v
theories/Proofs/PlainProofs.v
theories/Proofs/PruneProofs.v
theories/Proofs/ResumeProofs.v
theories/Proofs/RoutesProofs.v
theories/Proofs/RunsProofs.v
theories/Proofs/SchemaProofs.v
theories/Proofs/SelectedProofs.v
theories/Proofs/ShapesProofs.v
theories/Proofs/SkipProofs.v
theories/Proofs/SliceProofs.v
theories/Proofs/StatsExactProofs.v
theories/Proofs/StatsProofs.v
theories/Proofs/StreamsProofs.v
theories/Proofs/ThriftCodec.v
theories/Proofs/TroubledProofs.v
theories/Proofs/TypesFacts.v
theories/Proofs/UlebProofs.v
theories/Proofs/UniqueProofs.v
theories/Proofs/ValuesProofs.v
theories/Proofs/WideProofs.v
theories/Proofs/WritableProofs.v
theories/Proofs/WriterEndProofs.v
theories/Props/Accept.v
theories/Props/Annotations.v
theories/Props/AnyPages.v
theories/Props/Bitpack.v
theories/Props/BitpackRoom.v
theories/Props/Bloom.v
theories/Props/BloomValues.v
theories/Props/Bridge.v
theories/Props/BridgeExact.v
theories/Props/Buffers.v
theories/Props/Builds.v
theories/Props/Cancel.v
theories/Props/ColumnMeta.v
theories/Props/ColumnWrite.v
theories/Props/CompressAny.v
theories/Props/CompressBytes.v
theories/Props/Compression.v
theories/Props/Conformance.v
theories/Props/Contains.v
theories/Props/Copy.v
theories/Props/Crash.v
theories/Props/Delta.v
theories/Props/DeltaAny.v
theories/Props/DeltaStrings.v
theories/Props/DeltaStringsAny.v
theories/Props/Deserialize.v
theories/Props/Elements.v
theories/Props/EndToEnd.v
theories/Props/Ends.v
theories/Props/Equality.v
theories/Props/Errors.v
theories/Props/Estimates.v
theories/Props/Faults.v
theories/Props/FileWrite.v
theories/Props/Foreign.v
theories/Props/ForeignFile.v
theories/Props/ForeignIndex.v
theories/Props/ForeignQuery.v
theories/Props/ForeignScan.v
theories/Props/ForeignSearch.v
theories/Props/ForeignSkip.v
theories/Props/ForeignValues.v
theories/Props/Frames.v
theories/Props/Hints.v
theories/Props/HybridRle.v
theories/Props/Indexes.v
theories/Props/Intervals.v
theories/Props/JoinRead.v
theories/Props/Leb.v
theories/Props/Levels.v
theories/Props/LevelsAny.v
theories/Props/Message.v
theories/Props/Metadata.v
theories/Props/Nested.v
theories/Props/Numbers.v
theories/Props/OpenExact.v
theories/Props/Opening.v
theories/Props/Oversized.v
theories/Props/Page.v
theories/Props/PageIo.v
theories/Props/PageMeta.v
theories/Props/Plain.v
theories/Props/Prune.v
theories/Props/Resume.v
theories/Props/Routes.v
theories/Props/Runs.v
theories/Props/Schema.v
theories/Props/Search.v
theories/Props/Select.v
theories/Props/Selected.v
theories/Props/Shapes.v
theories/Props/Skip.v
theories/Props/Statistics.v
theories/Props/StatsExact.v
theories/Props/Unique.v
theories/Props/Wide.v
theories/Props/Writable.v
theories/Props/WriterEnd.v
theories/Spec/AcceptSpec.v
theories/Spec/AnnotationsSpec.v
theories/Spec/AnyPagesSpec.v
theories/Spec/BitpackRoomSpec.v
theories/Spec/Bits.v
theories/Spec/BloomSpec.v
theories/Spec/BloomValuesSpec.v
theories/Spec/BuildsSpec.v
theories/Spec/CancelSpec.v
theories/Spec/ChunkSpec.v
theories/Spec/ColumnMetaSpec.v
theories/Spec/CompressionLevelsSpec.v
theories/Spec/CompressionSpec.v
theories/Spec/ContainsSpec.v
theories/Spec/CopySpec.v
theories/Spec/DeltaAnySpec.v
theories/Spec/DeltaSpec.v
theories/Spec/ElementsSpec.v
theories/Spec/EndsSpec.v
theories/Spec/EqualitySpec.v
theories/Spec/ErrorsSpec.v
theories/Spec/EstimatesSpec.v
theories/Spec/FaultsSpec.v
theories/Spec/FileSpec.v
theories/Spec/ForeignIndexSpec.v
theories/Spec/ForeignQuerySpec.v
theories/Spec/ForeignScanSpec.v
theories/Spec/ForeignSearchSpec.v
theories/Spec/ForeignSkipSpec.v
theories/Spec/ForeignSpec.v
theories/Spec/ForeignValuesSpec.v
theories/Spec/FramesSpec.v
theories/Spec/HintsSpec.v
theories/Spec/IndexSpec.v
theories/Spec/JoinReadSpec.v
theories/Spec/LevelsSpec.v
theories/Spec/MessageSpec.v
theories/Spec/MetadataSpec.v
theories/Spec/NestedSpec.v
theories/Spec/NumbersSpec.v
theories/Spec/OpeningSpec.v
theories/Spec/OversizedSpec.v
theories/Spec/PageMetaSpec.v
theories/Spec/PageSpec.v
theories/Spec/PagesSpec.v
theories/Spec/PlainSpec.v
theories/Spec/PruneSpec.v
theories/Spec/ResumeSpec.v
theories/Spec/RleSpec.v
theories/Spec/RoutesSpec.v
theories/Spec/RowsSpec.v
theories/Spec/RunsSpec.v
theories/Spec/SchemaSpec.v
theories/Spec/SearchSpec.v
theories/Spec/SelectSpec.v
theories/Spec/SelectedSpec.v
theories/Spec/ShapesSpec.v
theories/Spec/SkipSpec.v
theories/Spec/StatsExactSpec.v
theories/Spec/StatsSpec.v
theories/Spec/StreamsSpec.v
theories/Spec/StringsSpec.v
theories/Spec/UlebSpec.v
theories/Spec/ValuesSpec.v
theories/Spec/WideSpec.v
theories/Spec/WritableSpec.v
theories/Spec/WriterEndSpec.v
