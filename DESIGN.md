# A Rocq (Coq 8.16.1) model of parquet2 and its theorems

## Layout

* `rocq/theories/Base/`   – result type, bytes, fixed-width integers, list facts. No project code.
* `rocq/theories/Model/`  – one file per source module of /repo; every definition cites file and lines.
* `rocq/theories/Spec/`   – small specifications written from the Parquet format or the English property,
  not from the code.
* `rocq/theories/Proofs/` – lemmas.
* `rocq/theories/Props/`  – one file per group of properties: the theorems (mostly `exact lemma.`),
  `Print Assumptions` beneath each, and an `Example` beside each that meets its hypotheses.

## Conventions of the model

* A Rust call that can fail or panic returns `res A := Ok a | Err e | Panic`. `Err` is `Result::Err` (the
  error kind is kept where the property mentions it), `Panic` covers slice-index panics, `unwrap`,
  `assert!`, `unreachable!`, arithmetic overflow with overflow checks on.
* Bytes are `N` with the invariant `< 256` (`bytes_ok`), unsigned machine words are `N`, signed ones `Z`.
  Truncating casts and wrapping arithmetic are written as explicit `mod`.
* `&mut Vec<u8>` / `Write` sinks: the function returns the bytes it appends, or the new buffer.
* Iterators are state machines: `next : state -> res (option item * state)`; draining one is a
  structurally recursive function with a fuel argument, and theorems show that the stated fuel suffices.
* Code whose meaning depends on overflow checks takes a `mode := Checked | Wrapping` argument
  (debug / release builds).
* External crates (thrift compact protocol, compression codecs, xxhash) are functions passed as arguments.
  Theorems state as hypotheses the laws they need (e.g. `decompress (compress x) = x`); each such
  law is satisfiable, shown by an `Example` with a concrete instance. They are never axioms.
* When the full English statement is false of the code, the theorem `…_refuted` exhibits a witness, and a
  second theorem states the exact condition under which it does hold.

## Plan per property

Status and exact theorem names are also in `MANIFEST.json`. "refute" means: the English statement is false of the code, `…_refuted` shows a reachable witness and the other theorems give the exact condition.

| id | property | model | how it is proved | theorems |
|----|----|----|----|----|
| C01 (proved) | ULEB128 round trip | Uleb128.v | induction on the number of 7-bit groups; arbitrary input by induction over the bytes against `Spec/UlebSpec.v` | `Props/Leb.v`: `uleb128_container_exact`, `uleb128_roundtrip` |
| C02 (proved) | ZigZag ULEB128 round trip | Uleb128.v | induction on the number of 7-bit groups; arbitrary input by induction over the bytes against `Spec/UlebSpec.v` | `Props/Leb.v`: `zigzag_leb128_roundtrip` |
| C03 (proved) | ULEB128 decoding of arbitrary bytes | Uleb128.v | induction on the number of 7-bit groups; arbitrary input by induction over the bytes against `Spec/UlebSpec.v` | `Props/Leb.v`: `uleb128_decode_any` |
| C04 (proved) | Bit-packing follows the LSB-first layout of the format | Bitpacked.v | bit-level specification `Spec/Bits.v` (bit i of the stream); bit extensionality, all widths at once; decoder invariant over the state machine; C70 refute | `Props/Bitpack.v`: `bitpacked_pack_exact`, `bitpacked_block_layout`, `bitpacked_unpack_fields` |
| C05 (proved) | Bit-packed encode/decode round trip | Bitpacked.v | bit-level specification `Spec/Bits.v` (bit i of the stream); bit extensionality, all widths at once; decoder invariant over the state machine; C70 refute | `Props/Bitpack.v`: `bitpacked_roundtrip` |
| C06 (proved) | Bit-packed decoder on arbitrary bytes | Bitpacked.v | bit-level specification `Spec/Bits.v` (bit i of the stream); bit extensionality, all widths at once; decoder invariant over the state machine; C70 refute | `Props/Bitpack.v`: `bitpacked_decoder_error_iff`, `bitpacked_decoder_any`, `bitpacked_decoder_too_wide_panics`, `bitpacked_decoder_wrap_refuted` |
| C07 (proved) | Hybrid RLE/bit-packed round trip | HybridRle.v | grammar of runs in `Spec/RleSpec.v`; induction over runs; arbitrary bytes by an invariant of the decoder; C11 refute, exact condition for opening | `Props/HybridRle.v`: `hybrid_rle_roundtrip` |
| C08 (proved) | Hybrid RLE decoder accepts every conforming stream | HybridRle.v | grammar of runs in `Spec/RleSpec.v`; induction over runs; arbitrary bytes by an invariant of the decoder; C11 refute, exact condition for opening | `Props/HybridRle.v`: `hybrid_rle_decodes_conforming` |
| C09 (proved) | Hybrid RLE decoder yields exactly the requested number of items | HybridRle.v | grammar of runs in `Spec/RleSpec.v`; induction over runs; arbitrary bytes by an invariant of the decoder; C11 refute, exact condition for opening | `Props/HybridRle.v`: `hybrid_rle_exact_count`, `hybrid_rle_missing_values_are_zero`, `hybrid_rle_zero_width` |
| C10 (proved) | Boolean bitmaps round trip | HybridRle.v | grammar of runs in `Spec/RleSpec.v`; induction over runs; arbitrary bytes by an invariant of the decoder; C11 refute, exact condition for opening | `Props/HybridRle.v`: `bitmap_layout`, `bitmap_iterates_bits`, `bitmap_roundtrip`, `hybrid_bool_roundtrip` |
| C11 (partial) | Hybrid RLE decoding of corrupt bytes does not panic | HybridRle.v | grammar of runs in `Spec/RleSpec.v`; induction over runs; arbitrary bytes by an invariant of the decoder; C11 refute, exact condition for opening | `Props/HybridRle.v`: `hybrid_rle_corrupt_panics_refuted`, `hybrid_rle_open_panics_iff`, `hybrid_rle_missing_values_are_zero`, `hybrid_rle_broken_exactly`, `hybrid_rle_any_bytes` |
| C12 (proved) | DELTA_BINARY_PACKED round trip | DeltaBitpacked.v (with overflow mode) | `Spec/DeltaSpec.v` describes the stream; invariant of the decoder state against the remaining stream; encoder shown to write such a stream; C13 refute plus iff | `Props/Delta.v`: `delta_roundtrip`, `delta_roundtrip_checked` |
| C13 (partial) | Delta encoding does not panic on large differences | DeltaBitpacked.v (with overflow mode) | `Spec/DeltaSpec.v` describes the stream; invariant of the decoder state against the remaining stream; encoder shown to write such a stream; C13 refute plus iff | `Props/Delta.v`: `delta_encode_checked_panics_refuted`, `delta_encode_checked_iff` |
| C14 (proved) | DELTA_BINARY_PACKED decoder accepts every conforming stream | DeltaBitpacked.v (with overflow mode) | `Spec/DeltaSpec.v` describes the stream; invariant of the decoder state against the remaining stream; encoder shown to write such a stream; C13 refute plus iff | `Props/Delta.v`: `delta_decodes_conforming` |
| C15 (proved) | DELTA_LENGTH_BYTE_ARRAY round trip | DeltaByteArray.v | composition with C12/C14 over `Spec/StringsSpec.v` and `Spec/StreamsSpec.v`; C17 refute plus iff | `Props/DeltaStrings.v`: `delta_length_roundtrip` |
| C16 (proved) | DELTA_BYTE_ARRAY round trip when no string is a strict prefix of its predecessor | DeltaByteArray.v | composition with C12/C14 over `Spec/StringsSpec.v` and `Spec/StreamsSpec.v`; C17 refute plus iff | `Props/DeltaStrings.v`: `delta_byte_array_roundtrip` |
| C17 (partial) | DELTA_BYTE_ARRAY encoding works for every sequence | DeltaByteArray.v | composition with C12/C14 over `Spec/StringsSpec.v` and `Spec/StreamsSpec.v`; C17 refute plus iff | `Props/DeltaStrings.v`: `delta_byte_array_panics_refuted`, `delta_byte_array_panics_iff` |
| C18 (proved) | PLAIN byte array iteration | Plain.v, Native.v | induction over the list; little-endian specification; C21 refute | `Props/Plain.v`: `plain_byte_array_roundtrip`, `plain_byte_array_any` |
| C19 (proved) | Native values round trip bit-exactly | Plain.v, Native.v | induction over the list; little-endian specification; C21 refute | `Props/Plain.v`: `native_roundtrip`, `native_little_endian`, `native_decode_exact` |
| C20 (proved) | Plain page of native values decodes chunk by chunk | Plain.v, Native.v | induction over the list; little-endian specification; C21 refute | `Props/Plain.v`: `native_page_opens_iff`, `native_page_values`, `native_page_roundtrip` |
| C21 (partial) | Fixed-length byte array iteration | Plain.v, Native.v | induction over the list; little-endian specification; C21 refute | `Props/Plain.v`: `fixed_len_tail_refuted`, `fixed_len_items`, `fixed_len_zero_panics` |
| C22 (proved) | Row intervals of pages partition the row group | Intervals.v | set-of-rows specification (`Spec/RowsSpec.v`); induction over pages and intervals; C71 refute plus exact condition | `Props/Intervals.v`: `page_row_intervals_exact`, `page_row_intervals_partition` |
| C23 (proved) | Page selection returns exactly the requested rows | Intervals.v | set-of-rows specification (`Spec/RowsSpec.v`); induction over pages and intervals; C71 refute plus exact condition | `Props/Intervals.v`: `select_pages_exact`, `select_pages_all_rows` |
| C24 (proved) | Row intervals of selected pages | Intervals.v | set-of-rows specification (`Spec/RowsSpec.v`); induction over pages and intervals; C71 refute plus exact condition | `Props/Intervals.v`: `compute_rows_exact` |
| C25 (proved) | Sliced iteration returns exactly the selected items | Deserialize.v | state machines against "expand then select" specifications; induction over runs and intervals; C28, C29 refute | `Props/Deserialize.v`: `sliced_iteration`, `sliced_iteration_empty_interval` |
| C26 (proved) | Filtered definition-level runs select exactly the requested rows | Deserialize.v | state machines against "expand then select" specifications; induction over runs and intervals; C28, C29 refute | `Props/Deserialize.v`: `filtered_levels_select` |
| C27 (proved) | Definition-level runs are cut at the page's row count | Deserialize.v | state machines against "expand then select" specifications; induction over runs and intervals; C28, C29 refute | `Props/Deserialize.v`: `level_runs_exact`, `level_runs_bounded` |
| C28 (partial) | Boolean definition-level iterator yields every level | Deserialize.v | state machines against "expand then select" specifications; induction over runs and intervals; C28, C29 refute | `Props/Deserialize.v`: `bool_levels_refuted`, `bool_levels_first_run`, `bool_levels_written` |
| C29 (partial) | Optional values pair validity with values | Deserialize.v | state machines against "expand then select" specifications; induction over runs and intervals; C28, C29 refute | `Props/Deserialize.v`: `optional_values`, `native_optional_page`, `native_required_page`, `binary_optional_page`, `binary_required_page`, `boolean_optional_page`, `optional_page_two_runs_refuted`, `native_page_in_runs`, `binary_page_in_runs`, `boolean_page_in_runs`, `fixed_page_in_runs`, `dictionary_page_in_runs` |
| C30 (proved) | Dictionary pages decode to the indexed dictionary entries | Deserialize.v | state machines against "expand then select" specifications; induction over runs and intervals; C28, C29 refute | `Props/Deserialize.v`: `dict_indices_decode`, `dict_indices_roundtrip`, `dict_indices_bad_width`, `dict_indices_no_width_panics`, `dictionary_pages`, `dictionary_optional_pages` |
| C31 (proved) | Bloom filters have no false negatives | Bloom.v | bit-level reasoning in one block; induction over the history of insertions; C73 refute plus iff | `Props/Bloom.v`: `bloom_no_false_negatives`, `bloom_lookup_exact`, `bloom_insert_exact` |
| C32 (proved) | Bloom filter insertions only add bits, commute and are idempotent | Bloom.v | bit-level reasoning in one block; induction over the history of insertions; C73 refute plus iff | `Props/Bloom.v`: `bloom_monotone`, `bloom_order_irrelevant`, `bloom_insert_local`, `bloom_insert_exact` |
| C33 (partial) | Byte-string comparison used for statistics is a total order | Statistics.v, Native.v | order specifications in `Spec/StatsSpec.v`; fold induction over pages; the false ones refuted with exact conditions | `Props/Plain.v`: `ord_binary_refuted`, `ord_binary_exact`, `ord_binary_same_length` |
| C34 (proved) | Statistics survive serialization | Statistics.v, Native.v | order specifications in `Spec/StatsSpec.v`; fold induction over pages; the false ones refuted with exact conditions | `Props/Statistics.v`: `statistics_roundtrip`, `statistics_rejects_widths`, `statistics_read_faithful` |
| C35 (proved) | Column-chunk statistics bound every page (integers and booleans) | Statistics.v, Native.v | order specifications in `Spec/StatsSpec.v`; fold induction over pages; the false ones refuted with exact conditions | `Props/Statistics.v`: `chunk_statistics_int64`, `chunk_statistics_int32`, `chunk_statistics_boolean` |
| C36 (partial) | Column-chunk statistics bound every page (byte arrays) | Statistics.v, Native.v | order specifications in `Spec/StatsSpec.v`; fold induction over pages; the false ones refuted with exact conditions | `Props/Statistics.v`: `chunk_statistics_binary_refuted`, `chunk_statistics_binary`, `chunk_statistics_fixed`; `Props/StatsExact.v`: `chunk_statistics_binary_any` |
| C37 (partial) | Column-chunk statistics are only claimed when known for all pages | Statistics.v, Native.v | order specifications in `Spec/StatsSpec.v`; fold induction over pages; the false ones refuted with exact conditions | `Props/Statistics.v`: `chunk_statistics_unknown_refuted`, `chunk_statistics_ignores_unknown`, `chunk_null_count_complete` |
| C38 (proved) | Splitting a v1 page buffer | Page.v | direct, for arbitrary buffers; C39 refute | `Props/Page.v`: `split_v1_exact`, `split_assembled` |
| C39 (partial) | Splitting a v2 page buffer | Page.v | direct, for arbitrary buffers; C39 refute | `Props/Page.v`: `split_v2_overlong_refuted`, `split_v2_exact`, `split_assembled` |
| C40 (partial) | Page compression round trip | Compression.v, codecs a parameter | round trip; induction over histories of pages sharing one buffer; refutations with exact conditions | `Props/CompressBytes.v`: `compress_bytes_outcome`, `compress_bytes_round_trip`; `Props/CompressAny.v`: `compress_into_any_buffer`, `flagged_page_exactly`; `Props/Compression.v`: `page_compression_roundtrip`, `v2_levels_in_front`, `page_compression_succeeds`, `page_compression_flag_refuted`, `page_compression_dirty_buffer_refuted` |
| C41 (partial) | Buffer reuse never leaks into pages | Compression.v, codecs a parameter | round trip; induction over histories of pages sharing one buffer; refutations with exact conditions | `Props/Compression.v`: `decompressor_matches_fresh`, `compressor_matches_fresh`, `decompress_ignores_buffer`, `compressed_pages_fill`, `buffer_leak_refuted`, `snappy_leaks_iff`, `lz4_raw_leaks_iff` |
| C42 (proved) | Page write/read round trip | PageWrite.v, PageRead.v, thrift a parameter | round trip; induction over pages and over the reader's steps; C43, C44 refute | `Props/PageIo.v`: `page_refused`, `page_written`, `page_writable`, `page_round_trip` |
| C43 (partial) | Dictionary pages keep their sorted flag | PageWrite.v, PageRead.v, thrift a parameter | round trip; induction over pages and over the reader's steps; C43, C44 refute | `Props/PageIo.v`: `dict_sorted_flag_refuted`, `dict_sorted_flag_exact`; `Props/Foreign.v`: `foreign_chunk_read` |
| C44 (partial) | The page reader returns all pages of a chunk and nothing else | PageWrite.v, PageRead.v, thrift a parameter | round trip; induction over pages and over the reader's steps; C43, C44 refute | `Props/PageIo.v`: `reader_returns_needed_pages`, `reader_returns_all_pages`, `reader_returns_all_pages_refuted` |
| C45 (proved) | The page reader respects the size limit | PageWrite.v, PageRead.v, thrift a parameter | round trip; induction over pages and over the reader's steps; C43, C44 refute | `Props/PageIo.v`: `reader_respects_limit`, `reader_reports_bad_sizes`, `reader_never_panics` |
| C46 (proved) | Column chunk metadata describes the bytes written | ColumnWrite.v, FileWrite.v, Io.v | invariant over histories of writer calls (`Spec/FileSpec.v`); C50, C51 refute | `Props/ColumnWrite.v`: `chunk_written`, `mixed_codecs_rejected`, `chunk_page_error`, `chunk_writable` |
| C47 (proved) | A written file locates every column chunk | ColumnWrite.v, FileWrite.v, Io.v | invariant over histories of writer calls (`Spec/FileSpec.v`); C50, C51 refute | `Props/FileWrite.v`: `file_locates_chunks` |
| C48 (partial) | Metadata of a written file is read back | FileWrite.v, Metadata.v | written footer read back; arbitrary bytes by case analysis of the parser; partial parts named `_partial` | `Props/FileWrite.v`: `written_file_opens`, `missing_columns_refuted`, `extra_columns_dropped` |
| C49 (partial) | Footer parsing of arbitrary bytes | FileWrite.v, Metadata.v | written footer read back; arbitrary bytes by case analysis of the parser; partial parts named `_partial` | `Props/Metadata.v`: `open_rejects`, `open_exact`, `open_total_partial`, `open_total_checked_partial`, `open_total_refuted`; `Props/OpenExact.v`: `open_panics_exactly`, `schema_columns_panic` |
| C50 (partial) | A file cannot be ended twice or written to after the end | ColumnWrite.v, FileWrite.v, Io.v | invariant over histories of writer calls (`Spec/FileSpec.v`); C50, C51 refute | `Props/FileWrite.v`: `second_end_rejected`, `write_after_end_refuted` |
| C51 (partial) | A failed row-group write does not corrupt later row groups | ColumnWrite.v, FileWrite.v, Io.v | invariant over histories of writer calls (`Spec/FileSpec.v`); C50, C51 refute | `Props/FileWrite.v`: `failed_write_refuted`, `file_locates_chunks`; `Props/Crash.v`: `failed_writes_exactly` |
| C52 (proved) | Offset index describes the data pages | Indexes.v, PageRead.v, FileWrite.v | offsets from the writer's invariant; index reader against file contents; refutations for columns scattered over the file and for one panic | `Props/Indexes.v`: `offset_index_written`, `file_page_locations` |
| C53 (proved) | Reading with page indexes returns the same pages | Indexes.v, PageRead.v, FileWrite.v | offsets from the writer's invariant; index reader against file contents; refutations for columns scattered over the file and for one panic | `Props/Indexes.v`: `file_indexed_read`; `Props/PageIo.v`: `indexed_reader_returns_selected`, `indexed_reader_same_content` |
| C54 (proved) | Column index has one entry per data page | Indexes.v, PageRead.v, FileWrite.v | offsets from the writer's invariant; index reader against file contents; refutations for columns scattered over the file and for one panic | `Props/Indexes.v`: `column_index_written`, `file_column_indexes` |
| C55 (partial) | Asynchronous writer and reader behave as the synchronous ones | PageRead.v, FileWrite.v (asynchronous variants) | simulation step by step between the two variants; refute where they differ | `Props/PageIo.v`: `stream_matches_reader`, `stream_matches_reader_pages`, `stream_same_errors`, `stream_matches_reader_refuted`; `Props/FileWrite.v`: `async_writer_matches`, `async_second_end_refuted` |
| C56 (proved) | Schemas survive serialization | Schema.v, Types.v | structural induction on schema trees against `Spec/SchemaSpec.v`; fuel bound for arbitrary elements; refutations | `Props/Schema.v`: `schema_round_trip`; `Props/Elements.v`: `schema_stored` |
| C57 (partial) | Schemas with empty groups survive serialization | Schema.v, Types.v | structural induction on schema trees against `Spec/SchemaSpec.v`; fuel bound for arbitrary elements; refutations | `Props/Schema.v`: `empty_groups_refuted`, `empty_groups_exact` |
| C58 (proved) | Leaf columns carry the right paths and levels | Schema.v, Types.v | structural induction on schema trees against `Spec/SchemaSpec.v`; fuel bound for arbitrary elements; refutations | `Props/Schema.v`: `schema_columns`; `Props/OpenExact.v`: `schema_columns_panic` |
| C59 (partial) | Primitive fields only carry annotations valid for their physical type | Schema.v, Types.v | structural induction on schema trees against `Spec/SchemaSpec.v`; fuel bound for arbitrary elements; refutations | `Props/Schema.v`: `annotations_partial`, `annotations_total`, `annotations_refuted`, `fixed_decimal_exact`, `read_schemas_valid_partial`; `Props/Annotations.v`: `annotations_exactly`, `annotations_accepted_moderate`, `read_schemas_valid_any` |
| C60 (partial) | Type annotations survive conversion | Types.v | case analysis and integer reasoning; refute for integer widths | `Props/Bridge.v`: `repetition_bridge`, `compression_bridge`, `encoding_bridge`, `page_type_bridge`, `boundary_order_bridge`, `group_converted_bridge`, `group_logical_bridge`, `enums_total`, `options_bridge`, `levels_bridge`, `physical_roundtrip`, `converted_roundtrip`, `logical_roundtrip`, `physical_roundtrip_refuted`, `physical_reads`, `converted_reads`, `integer_width_refuted`, `logical_reads_partial`; `Props/BridgeExact.v`: `logical_reads_exactly`, `physical_roundtrip_exactly`, `converted_roundtrip_exactly`, `logical_roundtrip_exactly` |
| C61 (proved) | Textual schemas parse to the schema they denote | Message.v, Unicode tables a parameter | language of texts defined in `Spec/MessageSpec.v` apart from the parser; induction over tokens and fields; refutations with exact conditions | `Props/Message.v`: `text_has_one_reading`, `message_parses`, `message_expressible` |
| C62 (partial) | Malformed textual schemas are rejected | Message.v, Unicode tables a parameter | language of texts defined in `Spec/MessageSpec.v` apart from the parser; induction over tokens and fields; refutations with exact conditions | `Props/Message.v`: `malformed_rejected_refuted`, `cut_message_exactly`, `cut_message_schema`, `continued_message_accepted` |
| C63 (partial) | File metadata survives conversion | FileWrite.v, Metadata.v | written footer read back; arbitrary bytes by case analysis of the parser; partial parts named `_partial` | `Props/Metadata.v`: `metadata_kept_partial`, `metadata_round_trip`, `metadata_orders_refuted`; `Props/Accept.v`: `metadata_accepted_exactly` |
| C64 (proved) | Row-group filtering | Metadata.v | induction over lists; C65 refute for the pre-reading variant | `Props/Metadata.v`: `filter_row_groups_exact`, `filter_row_groups_in` |
| C65 (partial) | Column iteration visits the columns of a field in order | Metadata.v | induction over lists; C65 refute for the pre-reading variant | `Props/Metadata.v`: `field_columns_exact`, `columns_in_order`, `field_columns_in_order`, `preread_columns_reversed_exact`, `preread_columns_refuted`; `Props/Accept.v`: `column_bytes_read`, `field_bytes_read`, `cut_column_refuted` |
| C66 (partial) | Hadoop-framed LZ4 pages decompress | Compression.v, codecs a parameter | round trip; induction over histories of pages sharing one buffer; refutations with exact conditions | `Props/Compression.v`: `hadoop_frames_decompress`, `hadoop_single_frame`, `hadoop_frames_rejected`, `hadoop_frames_refuted`; `Props/Frames.v`: `lz4_any_bytes`, `frames_unique` |
| C67 (proved) | Level bit width | Native.v | arithmetic | `Props/Plain.v`: `level_bit_width` |
| C68 (proved) | Write, read and decode end to end | all of the above composed | composition of C40, C47, C48, C44, C30 with value layouts in `Spec/ValuesSpec.v` | `Props/EndToEnd.v`: `file_pages_roundtrip` |
| C69 (partial) | Row counts agree between metadata levels | FileWrite.v, Metadata.v | written footer read back; arbitrary bytes by case analysis of the parser; partial parts named `_partial` | `Props/FileWrite.v`: `row_counts_agree`, `new_page_rows`, `page_rows_exact`, `uneven_columns_refuted`, `selected_rows_refuted` |
| C70 (partial) | Bit-packing saturates values that do not fit | Bitpacked.v | bit-level specification `Spec/Bits.v` (bit i of the stream); bit extensionality, all widths at once; decoder invariant over the state machine; C70 refute | `Props/Bitpack.v`: `bitpacked_saturates_refuted`, `bitpacked_oversized_keeps_prefix`; `Props/Oversized.v`: `bitpacked_oversized_exact`, `bitpacked_oversized_back`, `bitpacked_back_iff`, `hybrid_oversized_back` |
| C71 (partial) | Row selections of pages contain no empty interval | Intervals.v | set-of-rows specification (`Spec/RowsSpec.v`); induction over pages and intervals; C71 refute plus exact condition | `Props/Intervals.v`: `select_pages_empty_interval_refuted`, `select_pages_non_empty`; `Props/Select.v`: `selection_pieces`, `empty_selection_exactly`, `endless_interval_panics` |
| C72 (proved) | Bloom filters are read back | Bloom.v | bit-level reasoning in one block; induction over the history of insertions; C73 refute plus iff | `Props/Bloom.v`: `bloom_read_back`, `bloom_read_exact` |
| C73 (partial) | Bloom filters that were read can be queried | Bloom.v | bit-level reasoning in one block; induction over the history of insertions; C73 refute plus iff | `Props/Bloom.v`: `bloom_truncated_refuted`, `bloom_panics_iff` |
| C74 (partial) | Column-chunk statistics bound every page (floating point) | Statistics.v, Native.v | order specifications in `Spec/StatsSpec.v`; fold induction over pages; the false ones refuted with exact conditions | `Props/Statistics.v`: `chunk_statistics_nan_refuted`, `chunk_statistics_double`, `chunk_statistics_float`; `Props/Numbers.v`: `float_compare_numeric`; `Props/StatsExact.v`: `chunk_statistics_double_any`, `chunk_statistics_float_any` |
| C75 (partial) | Column-chunk statistics bound every page (unsigned integers) | Statistics.v, Native.v | order specifications in `Spec/StatsSpec.v`; fold induction over pages; the false ones refuted with exact conditions | `Props/Statistics.v`: `chunk_statistics_unsigned_refuted`, `chunk_statistics_unsigned`; `Props/StatsExact.v`: `chunk_statistics_unsigned32_any`, `chunk_statistics_unsigned64_any` |
| C76 (partial) | Statistics of every physical type can be reduced | Statistics.v, Native.v | order specifications in `Spec/StatsSpec.v`; fold induction over pages; the false ones refuted with exact conditions | `Props/Statistics.v`: `chunk_statistics_int96_refuted`, `chunk_statistics_mixed`, `chunk_statistics_none` |
| C77 (partial) | Schema containment | Schema.v, Types.v | structural induction on schema trees against `Spec/SchemaSpec.v`; fuel bound for arbitrary elements; refutations | `Props/Schema.v`: `contains_exactly`, `contains_itself`, `contains_fewer_fields`, `contains_itself_refuted`; `Props/Contains.v`: `contains_any`, `contains_itself_exactly` |
| C78 (proved) | Schema elements from a file never make the parser panic or loop | Schema.v, Types.v | structural induction on schema trees against `Spec/SchemaSpec.v`; fuel bound for arbitrary elements; refutations | `Props/Schema.v`: `parse_schema_total` |
| C79 (proved) | Sort orders of columns | FileWrite.v, Metadata.v | written footer read back; arbitrary bytes by case analysis of the parser; partial parts named `_partial` | `Props/Metadata.v`: `sort_order_agrees`, `sort_order_physical`, `column_orders_exact`; `Props/Accept.v`: `sort_order_table` |
| C80 (partial) | Indexes of any columns | Indexes.v, PageRead.v, FileWrite.v | offsets from the writer's invariant; index reader against file contents; refutations for columns scattered over the file and for one panic | `Props/Indexes.v`: `file_page_locations`, `file_column_indexes`, `scattered_columns_refuted`, `columns_read_as_adjacent`, `columns_adjacent_exact`, `locations_use_first_place` |
| C81 (partial) | Missing indexes give an empty result | Indexes.v, PageRead.v, FileWrite.v | offsets from the writer's invariant; index reader against file contents; refutations for columns scattered over the file and for one panic | `Props/Indexes.v`: `no_column_indexes`, `no_page_locations`, `some_column_indexes` |
| C82 (partial) | Index readers do not panic | Indexes.v, PageRead.v, FileWrite.v | offsets from the writer's invariant; index reader against file contents; refutations for columns scattered over the file and for one panic | `Props/Indexes.v`: `page_locations_no_panic`, `column_indexes_no_panic`, `column_indexes_no_panic_refuted`, `column_indexes_panics_iff` |
| C83 (partial) | Parsing a textual schema never panics | Message.v, Unicode tables a parameter | language of texts defined in `Spec/MessageSpec.v` apart from the parser; induction over tokens and fields; refutations with exact conditions | `Props/Message.v`: `message_no_panic_partial`, `message_no_panic_refuted`, `misannotated_message_panics` |
| C84 (proved) | A row group's summary describes its chunks | FileWrite.v, Metadata.v | written footer read back; arbitrary bytes by case analysis of the parser; partial parts named `_partial` | `Props/Metadata.v`: `converted_groups_summarised`; `Props/FileWrite.v`: `written_groups_summarised` |
| C85 (proved) | Values stored in the pages of a column come back as the same values | all of the above composed | composition of C40, C47, C48, C44, C30 with value layouts in `Spec/ValuesSpec.v` | `Props/EndToEnd.v`: `file_values_roundtrip`; `Props/Unique.v`: `decoding_unique`, `stored_cells_only` |
| C86 (partial) | Encoded streams conform to the format | DeltaBitpacked.v, DeltaByteArray.v, HybridRle.v | the encoders' output is shown to satisfy the format's grammar; refute for `encode_u32`, with an iff | `Props/Conformance.v`: `encoded_integers_conform`, `encoded_strings_conform`, `encoded_incremental_conform`, `encoded_booleans_conform`, `encoded_numbers_conform_refuted`, `encoded_numbers_conform_iff` |
| C87 (proved) | String decoders accept every conforming stream | DeltaByteArray.v | composition with C12/C14 over `Spec/StringsSpec.v` and `Spec/StreamsSpec.v`; C17 refute plus iff | `Props/Conformance.v`: `delta_length_decodes_conforming`, `delta_byte_array_decodes_conforming` |
| C88 (partial) | An interrupted write leaves a prefix of the file and is reported, and the remains are not taken for a complete file | Io.v, FileWrite.v | for every writer the bytes written do not depend on the sink; composition through bind; induction over calls | `Props/Crash.v`: `interrupted_write_prefix`, `interrupted_write_rejected_partial`, `interrupted_write_opened_exactly`, `interrupted_write_rejected_refuted` |
| C89 (partial) | Buffers lent to reusing iterators come back | Compression.v, PageRead.v | invariant over the calls on who holds which buffer; refutation and exact state after an error | `Props/Buffers.v`: `compressor_hands_back`, `decompressor_hands_back`, `reader_hands_back`, `buffer_lost_refuted` |
| C90 (partial) | A failed step leaves no page | Compression.v, PageRead.v | invariant over the calls on who holds which buffer; refutation and exact state after an error | `Props/Buffers.v`: `stale_page_refuted`, `failed_advance_exactly`, `failed_compression_exactly` |
| C91 (partial) | Delta decoding of arbitrary bytes does not panic | Model/DeltaBitpacked.v | Spec/DeltaAnySpec.v reads any bytes as a whole (varints cut by the end, widths beyond 64, missing miniblocks and blocks, overflow); an invariant relates each decoder state to what the specification says is ahead, by induction over blocks, miniblocks and values. Refuted with witnesses. | `Props/DeltaAny.v`: `delta_decoder_panics_refuted`, `delta_decoder_any`, `delta_after_error_refuted` |
| C92 (partial) | Delta-encoded strings of arbitrary bytes do not panic | Model/DeltaByteArray.v | lifts C91's classification through the two string decoders by induction over the items returned, tracking the 32-bit sum of lengths. Refuted with witnesses. | `Props/DeltaStringsAny.v`: `delta_strings_panic_refuted`, `delta_length_any`, `delta_byte_array_any` |
| C93 (partial) | Opening a data page for decoding | Model/Deserialize.v, Page.v, HybridRle.v | Spec/OpeningSpec.v tells from the encoding code, the column, the presence of a dictionary and the two sections whether a page opens; case analysis against the four try_new functions, with the first run of the levels and of the indices characterized on arbitrary bytes. Refuted with witnesses. | `Props/Opening.v`: `nested_nulls_lost_refuted`, `opening_panics_refuted`, `page_opens_exactly`, `unsplit_page_not_opened` |
| C94 (partial) | Numbers are ordered by their values | Model/Native.v | Spec/NumbersSpec.v gives the number a bit pattern stands for and the instant of a timestamp; magnitudes are shown to be strictly increasing in the bit pattern, and the 64-bit operations are followed through wraps. Refuted with witnesses. | `Props/Numbers.v`: `native_order_refuted`, `native_order_exact`, `float_compare_numeric` |
| C95 (partial) | INT96 timestamps convert to nanoseconds since 1970 | Model/Native.v | Spec/NumbersSpec.v gives the number a bit pattern stands for and the instant of a timestamp; magnitudes are shown to be strictly increasing in the bit pattern, and the 64-bit operations are followed through wraps. Refuted with witnesses. | `Props/Numbers.v`: `int96_range_refuted`, `int96_exact`, `int96_in_range` |
| C96 (proved) | Chunks of other writers are read | Model/PageRead.v | Spec/ForeignSpec.v says which headers describe a page; induction over the stored pages, skipping those the filter rejects | `Props/Foreign.v`: `foreign_chunk_read` |
| C97 (partial) | Metadata sidecars can be opened | Model/FileWrite.v, Metadata.v | the bytes written are computed and opened with the theorem on framed files (C49); refuted for 2 GiB and more | `Props/Accept.v`: `sidecar_readable`, `sidecar_large_refuted` |
| C98 (partial) | Column indexes describe every page | Model/Indexes.v | the zipped lists are characterized position by position; case analysis over the column types. Refuted with witnesses. | `Props/Shapes.v`: `index_shape_refuted`, `any_index_exact` |
| C99 (proved) | Pages read from arbitrary bytes | Model/PageRead.v, Model/Io.v | Induction over the steps of the page iterator for an arbitrary source and an arbitrary header decoder; each step is inverted into a page located in front of the rest, the end, or one of the listed complaints. | `Props/AnyPages.v`: `chunk_any_bytes` |
| C100 (partial) | Pages located through an index have the size their header says | Model/PageRead.v | Refuted by a file whose index names a shorter length than the page header; the exact outcome of every step is proved by inverting the reader's cases for any bytes and any places. | `Props/AnyPages.v`: `indexed_size_refuted`, `indexed_any_places`, `indexed_before_start_panics` |
| C101 (partial) | Announced numbers of items | Model/Deserialize.v, Model/Plain.v | The announced numbers are compared with the items left in every state of the iteration (the yields relation); the first step counts a whole run, later steps leave the run iterator alone. | `Props/Hints.v`: `level_hints_refuted`, `level_hints_exact`, `optional_hints_exact`, `string_hints_exact`, `dictionary_len_exact`, `dictionary_len_refuted` |
| C102 (partial) | Every iteration over values, levels and pages ends | Model/DeltaBitpacked.v, Model/HybridRle.v, Model/Plain.v, Model/Deserialize.v, Model/PageRead.v | For each iterator a measure that every item lowers by one, errors included; the adapters inherit the bound of the iterator inside. The page reader is refuted by a chunk that is cut off. | `Props/Ends.v`: `delta_iteration_ends`, `string_iteration_ends`, `fixed_iteration_ends`, `level_iteration_ends`, `adapter_iteration_ends`, `page_iteration_ends`, `reader_iteration_ends_refuted`, `reader_iteration_exact` |
| C103 (proved) | The kind of an error tells what is wrong | all reading models | A compositional predicate on results (fails_as) that passes through bind, with one lemma for each function of the model, by induction for the recursive ones; the page readers and the openers of pages by cases. | `Props/Errors.v`: `schema_errors`, `opening_errors`, `value_errors`, `page_errors`, `page_opening_errors`, `decompression_errors`, `compression_errors`, `level_errors` |
| C104 (partial) | Statistics and indexes can be compared | Model/Equality.v (with Model/Statistics.v and Model/Indexes.v) | A specification of 'says the same' by cases, with float bounds compared as numbers; the comparison of each component decides its relation, and the relations are partial equivalences. | `Props/Equality.v`: `equality_refuted`, `statistics_equality_exact`, `index_equality_exact`, `equality_panics`, `equality_relation`, `read_equality` |
| C105 (partial) | Merging page statistics always has an outcome | Model/Statistics.v | By cases on the type of the first statistics; the fold of null counts by induction with the running sum. | `Props/Equality.v`: `merging_refuted`, `merging_outcome` |
| C106 (proved) | Definition levels can be read from any bytes | Model/Deserialize.v, Model/HybridRle.v | Every byte string is readable or broken at one bit (Spec/RleSpec.v); induction over either derivation follows the run iterator, and the boolean iterator is its first step. | `Props/LevelsAny.v`: `level_bytes_classified`, `level_runs_readable`, `level_runs_broken` |
| C107 (proved) | The writer accepts exactly the row groups that can be written | PageWrite.v, ColumnWrite.v, FileWrite.v | Spec/WritableSpec.v says which row groups can be written, without the writer; the writer on an unlimited sink is evaluated in both directions by induction over pages and columns, with merging_outcome (C105) for the statistics; error and panic classes are invariants of the writer monad. | `Props/Writable.v`: `write_accepted_exactly`, `write_errors`, `start_errors`, `write_never_panics` |
| C108 (partial) | A file whose row groups were accepted can be ended | FileWrite.v, Indexes.v | The history invariant (C47) gives, for every column, the specifications of its pages; both index loops are evaluated exactly by induction over groups and columns; the end of the file then only adds lengths. | `Props/Writable.v`: `ending_refuted`, `end_accepted_exactly`, `end_errors` |
| C109 (partial) | Bit-packing into an output of any size | Model/Bitpacked.v | Induction over the blocks zipped with the chunks of the output, with the number of whole chunks of the output as the bound on the blocks packed; the value of the output in little-endian gives its bit stream. | `Props/BitpackRoom.v`: `packing_outcome`, `packing_room`, `packing_all_refuted` |
| C110 (partial) | Column chunks and row groups answer from the metadata they were read with | Model/ColumnMeta.v, Metadata.v | Reading the metadata establishes that each chunk carries its metadata with a codec and sizes that convert, and that its path starts with a top-level field (induction over the schema tree); the accessors are then evaluated. | `Props/ColumnMeta.v`: `opened_columns_answer`, `built_columns_answer`, `row_group_size_exact`, `row_group_size_refuted`, `opened_field_columns`, `empty_path_panics` |
| C111 (partial) | Column chunk metadata stored with serde can be loaded back | Model/ColumnMeta.v | The write into a sink without room is evaluated for any codec with the read-back law; the encoding is not empty. | `Props/ColumnMeta.v`: `serde_chunk_refuted` |
| C112 (partial) | Run-length encoded numbers at any bit width | Model/HybridRle.v, Bitpacked.v | Spec/WideSpec.v describes what bytes hold at such a width, run by run; induction over the length of the input shows that every byte string is described, and an invariant over the iterator state, for the run in progress and the bytes behind it, gives the outcome of any number of calls. | `Props/Wide.v`: `wide_any_bytes`, `wide_exactly`, `wide_values_refuted`, `number_widths`, `number_widths_refuted` |
| C113 (partial) | What pages say about themselves | Model/PageMeta.v, Model/PageRead.v | the header checked by the reader is the header of the page; case analysis on the numbers; a counterexample file for the indexed reader | `Props/PageMeta.v`: `page_answers`, `read_page_answers`, `selected_page_answers`, `indexed_page_answers_refuted` |
| C114 (partial) | What encoders write for iterators with inexact estimates | Model/Estimates.v (iterators with an upper bound after every call of next) | a too high estimate encodes the items followed by stale buffer contents, shown by induction over the blocks; the decoder stops before them; concrete lawful iterators refute it for integers | `Props/Estimates.v`: `estimated_numbers`, `estimated_booleans`, `estimated_integers_exact`, `estimated_integers_announced`, `estimated_integers_refuted`, `estimated_integers_endless_refuted`, `no_estimate` |
| C115 (proved) | What a writer gives back | Model/WriterEnd.v, Model/FileWrite.v | induction over the sequence of calls with the invariant: no metadata and no successful end, or finished with the metadata of the one end that succeeded | `Props/WriterEnd.v`: `writer_gives_back`, `metadata_after_any_end_refuted` |
| C116 (proved) | Compression in every build | Model/Builds.v | case analysis over the features; refinement to the model with all codecs when the codec is there, so that its theorems apply | `Props/Builds.v`: `bytes_compress_in_any_build`, `bytes_decompress_in_any_build`, `builds_exchange_pages`, `page_compression_refused`, `pages_read_in_any_build` |
| C117 (partial) | A bloom filter finds every value that was put in it | Model/BloomValues.v, Model/Bloom.v, Model/Native.v | every value has exactly one encoding of the format and the code hashes it; the rest follows from C31, C32 and C72 | `Props/BloomValues.v`: `values_hashed_by_encoding`, `bloom_finds_values`, `bloom_equal_values_refuted` |
| C118 (partial) | Dropped asynchronous calls | Model/Cancel.v, Model/FileWrite.v | a dropped call is the call on a destination that takes n bytes; induction over the history with the invariant that every recorded chunk is behind by the bytes not counted when it was written, using that what a call writes does not depend on what the destination holds | `Props/Cancel.v`: `dropped_call_prefix`, `dropped_write_counts`, `streamed_exactly`, `dropped_then_written_refuted`, `dropped_unstarted_harmless` |
| C119 (proved) | Columns read at the same time | Model/JoinRead.v, Model/Metadata.v | an operational model of the futures with a schedule of polls and answers; invariant: what a future has and what it can still take together are the bytes of its chunk; a measure that every step decreases | `Props/JoinRead.v`: `joined_reads_agree`, `joined_reads_errors`, `joined_reads_end` |
| C120 (partial) | A column chunk can be read in several goes | Model/Resume.v, Model/PageRead.v | Simulation: two readers over the same bytes whose difference between total and count is the same take the same steps; the count of a reader that has returned pages is the sum of their values. For chunks, induction over the calls with the invariant of C44. | `Props/Resume.v`: `reading_resumes`, `reading_resumes_somehow`, `chunk_reading_resumes`, `reading_resumes_refuted` |
| C121 (proved) | Decompressing any iterator of pages | Model/BasicDecompress.v, Model/Compression.v | Induction over the calls; decompression into any buffer equals decompression into a new one for pages that fill theirs. | `Props/Selected.v`: `basic_decompressor_matches_fresh`, `decompressors_agree`, `basic_decompressor_uncompressed` |
| C122 (proved) | Selected rows come back as their cells | Model/PageRead.v, Model/Indexes.v, Model/Intervals.v, Model/BasicDecompress.v, Model/Deserialize.v | Composition of the indexed read (C53), the exact selection (C23, C71), decompression (C121), decoding of stored cells (C85) and iteration over slices (C25); picking rows page by page is picking them from the concatenation. | `Props/Selected.v`: `file_selected_values`; `Props/Unique.v`: `selected_decoding_unique` |
| C123 (proved) | Columns of any nesting come back from a written file | Model/Page.v, Model/Deserialize.v, Model/HybridRle.v, Model/Plain.v, Model/FileWrite.v, Model/PageRead.v | composition of the page round trip of C68 with the exact decoders of levels (C07-C11, C27) and values; uniqueness from the iterators being functions of their state | `Props/Nested.v`: `file_nested_roundtrip`, `nested_decoding_unique` |
| C124 (proved) | Every way to a column's pages gives the same pages | Model/Routes.v, Model/PageRead.v, Model/FileWrite.v, Model/Metadata.v, Model/Compression.v | a reader at the start of a chunk gives its pages whatever follows; the stream agrees with the reader (C55) and the asynchronous end with the synchronous one; all four ways are such readers | `Props/Routes.v`: `every_route_gives_pages`, `asynchronous_nested_roundtrip`, `every_route_starts_alike`, `column_bytes_suffice` |
| C125 (proved) | Skipping pages by their bounds loses no row | Model/Indexes.v, Model/Intervals.v, Model/PageRead.v, Model/FileWrite.v | the index of a written file tells the bounds of each page (C54), page locations divide the rows as the pages do, so kept pages give disjoint intervals of exactly their rows; then C122 | `Props/Prune.v`: `index_keeps_wanted_rows`, `pruned_rows_come_back` |
| C126 (partial) | Pages marked as null pages hold only nulls | Model/Indexes.v, Model/FileWrite.v | a written page with untold bounds as witness; exact condition from the stored index (C54) | `Props/Prune.v`: `null_marks_refuted`, `null_marks_exact` |
| C127 (partial) | Skipping row groups by a column's statistics loses no row | Statistics, PageWrite, ColumnWrite, FileWrite, ColumnMeta, Metadata | the invariant of the writer carries the merged statistics of each chunk; the reduction theorems of C35/C36/C74 for each kind of values; round trip of statistics; exactness of the filter; a refutation on a written file | `Props/Skip.v`: `chunk_bounds_true`, `kept_row_groups_have_all_wanted`, `skipped_row_group_refuted` |
| C128 (partial) | A failing source is reported and never changes what is read | Faults, PageRead, Metadata, Indexes, Bloom | the reading functions once more over a source with a list of failures, one entry for each request; every request either fails or does what it does without failures, and this is kept by sequencing (a simulation); induction over the calls of the iterators; a refutation and the safe case for going on | `Props/Faults.v`: `read_metadata_honest`, `read_metadata_with_size_honest`, `read_column_honest`, `read_columns_honest`, `read_columns_indexes_honest`, `read_pages_locations_honest`, `bloom_read_honest`, `get_page_iterator_honest`, `pages_before_failure`, `page_reader_reports_failure`, `stream_reports_failure`, `indexed_reader_reports_failure`, `going_on_after_failure_refuted`, `header_failure_can_be_retried` |
| C129 (proved) | Compression levels reach the codec and never change what is read | Levels.v, Compression.v, FileWrite.v | case analysis; the encoders restricted to valid levels are undone for all options, so C40 and C68 apply | `Props/Levels.v`: `level_reaches_codec`, `any_level_roundtrip`, `mixed_levels_roundtrip` |
| C130 (proved) | A search that skips row groups and pages finds what reading everything finds | Statistics, Metadata, Indexes, Intervals, PageRead, FileWrite | composition of C122, C125 and C127; the rows of the kept pages are the concatenation of these pages, and the other pages have no hit | `Props/Search.v`: `search_equals_scan` |
| C131 (proved) | Pages laid out by any writer are read exactly by following the runs of their levels | Model/Deserialize.v, Model/HybridRle.v | a specification of pages in any runs and of a reader that follows runs; induction over runs with the number of stored values moved past as invariant, over C26 and C27; uniqueness because iterators are functions | `Props/Runs.v`: `any_layout_read`, `own_layout_read` |
| C132 (proved) | A column written by any writer is read exactly, from the bytes of the file to its cells | Model/Metadata.v (get_page_iterator), Model/PageRead.v, Model/Compression.v, Model/Deserialize.v | composition: the seek lands on the chunk, the reader returns the stored pages (induction over pages), each is decompressed to its body whatever the buffer, and each body is followed by runs; pages that are left out hold no cells | `Props/ForeignValues.v`: `foreign_column_read`; `Props/Runs.v`: `any_layout_read`; `Props/Foreign.v`: `foreign_chunk_read` |
| C133 (proved) | Whole files of any writer are read exactly, for columns of any nesting | Model/Metadata.v, Model/PageRead.v, Model/Compression.v, Model/Page.v, Model/Deserialize.v | composition: the footer is framed, its metadata is accepted, chunks and leaves are paired by position; then as C132 with the decoding of nested pages, and uniqueness because iterators are functions | `Props/ForeignFile.v`: `foreign_file_read`, `foreign_nested_column_read`, `foreign_file_opened`; `Props/Nested.v`: `nested_decoding_unique` |
| C134 (proved) | Rows selected through the offset index of any writer's column come back as their cells | Model/Indexes.v, Model/Intervals.v, Model/PageRead.v, Model/BasicDecompress.v, Model/Deserialize.v | induction over the listed pages: the selection of each page, the bytes at its location, the pages passed over; composition with C23, C121 and C131 | `Props/ForeignIndex.v`: `foreign_selected_read`; `Props/Runs.v`: `any_layout_read`; `Props/Intervals.v`: `select_pages_exact` |
| C135 (proved) | A search with the column index of any writer never misses a wanted row | Model/Indexes.v, Model/Intervals.v, Model/PageRead.v | induction over the entries of the index; induction over the listed pages for the rows that are kept; composition with C134 | `Props/ForeignSearch.v`: `foreign_search`; `Props/ForeignIndex.v`: `foreign_selected_read`; `Props/Intervals.v`: `compute_rows_exact` |
| C136 (partial) | Pages can be copied from one file to another without decompressing them | Model/PageRead.v, Model/PageMeta.v, Model/FileWrite.v, Model/Metadata.v, Model/Compression.v, Model/Deserialize.v | composition: what the reader of a foreign chunk returns (C96), what the writer stores for it (C47), and C133 for the new file; refusal through the exact condition of C107 | `Props/Copy.v`: `copied_pages_refused`, `copied_column_read` |
| C137 (proved) | Skipping row groups of any writer's file by their statistics loses no wanted value | Statistics, ColumnMeta, Metadata, PageRead, Compression | decoding of the statistics of each physical type from the bytes of the bounds; then induction over the row groups of the file: a row group that the test leaves out has no wanted value, and one that is kept is read by C132 | `Props/ForeignSkip.v`: `foreign_statistics`, `foreign_skip`, `foreign_skip_nested` |
| C138 (proved) | A search in any writer's file that skips row groups and pages finds what reading everything finds | Statistics, ColumnMeta, Metadata, Indexes, Intervals, PageRead, BasicDecompress | induction over the row groups of the file: a row group that the test leaves out has no wanted value by C137, and in one that is kept C135 gives the cells of the pages that pass, which contain all wanted ones in order | `Props/ForeignScan.v`: `foreign_search_equals_scan` |
| C139 (proved) | A query on one column returns the right cells of another column, for files of any writer | Statistics, ColumnMeta, Metadata, Indexes, Intervals, PageRead, BasicDecompress, Deserialize | C135 for both columns with the same intervals; picking the same rows from two lists of equal length commutes with pairing them; then induction over the row groups as C138 | `Props/ForeignQuery.v`: `foreign_query` |

## Trusted base

* Coq 8.16.1's kernel (and `coqchk`, which re-checks every compiled file). `vm_compute` is used in `Example`s on literals and for a
  few closed side conditions; it is part of the kernel.
* Axioms: none of our own, none used. `Print Assumptions` beneath every theorem in `Props/` prints "Closed under the global context".
  `coqchk` lists seven constants of the module `Coq.ssr.ssrunder.Under_rel` (`Under_rel`, `Under_rel_from_rel`, `Under_relE`,
  `under_rel_done`, `Over_rel`, `over_rel`, `over_rel_done`): they are opaque fields of a sealed module of Coq's own standard library,
  loaded because `Lia`/`Zify` load `ssreflect`'s files; no theorem depends on them.
* Only Coq's standard library is used (`NArith`, `ZArith`, `List`, `Bool`, `Arith`, `Lia`, `Zify*`, `Sorting`, `Permutation`, `String`).
* The model itself: that each definition in `Model/` says what the cited Rust lines do. Reading the citation beside the definition is the check.
* The specifications in `Spec/` and the statements in `Props/`.

## What is modelled

| model file | source modules |
|----|----|
| `Uleb128.v` | encoding/uleb128.rs, encoding/zigzag_leb128.rs |
| `Bitpacked.v` | encoding/bitpacked/{pack,unpack,encode,decode,mod}.rs for u8/u16/u32/u64 |
| `HybridRle.v` | encoding/hybrid_rle/{mod,encoder,decoder,bitmap}.rs |
| `DeltaBitpacked.v` | encoding/delta_bitpacked/{encoder,decoder}.rs |
| `DeltaByteArray.v` | encoding/delta_length_byte_array, encoding/delta_byte_array |
| `Plain.v`, `Native.v` | encoding/plain_byte_array.rs, encoding/mod.rs, types.rs, read/levels.rs |
| `Types.v` | parquet_bridge.rs, schema/types/{basic_type,converted_type,physical_type,parquet_type}.rs, error.rs, metadata/column_descriptor.rs |
| `Intervals.v` | indexes/intervals.rs |
| `Deserialize.v` | deserialize/{hybrid_rle,filtered_rle,utils,native,binary,fixed_len,boolean}.rs |
| `Bloom.v` | bloom_filter/*.rs |
| `Statistics.v` | statistics/*.rs, write/statistics.rs |
| `Page.v`, `PageWrite.v`, `PageRead.v` | page/mod.rs, write/page.rs, read/page/{reader,indexed_reader,stream,mod}.rs |
| `Compression.v` | compression.rs, write/compression.rs, read/compression.rs |
| `Thrift.v`, `Io.v` | the thrift structures used, readers and writers as byte strings with a position |
| `ColumnWrite.v`, `FileWrite.v` | write/{column_chunk,row_group,file,stream,mod}.rs |
| `Indexes.v` | indexes/index.rs, read/indexes, write/indexes |
| `Metadata.v` | metadata/*.rs, read/{metadata,mod,stream}.rs, read/column/{mod,stream}.rs, lib.rs |
| `Schema.v` | schema/types/spec.rs, schema/io_thrift, metadata/schema_descriptor.rs |
| `Message.v` | schema/io_message/from_message.rs |
| `BasicDecompress.v` | read/compression.rs: the decompressor over any page iterator |
| `Builds.v` | compression.rs, read/compression.rs, write/compression.rs in builds with any set of codec features |
| `BloomValues.v` | bloom_filter/hash.rs |
| `PageMeta.v` | page/mod.rs: what pages answer about themselves |
| `ColumnMeta.v` | metadata/column_chunk_metadata.rs: what chunks answer about themselves, and their serde form |
| `Equality.v` | `==` of statistics and indexes: statistics/*.rs, indexes/index.rs and the types in them |
| `Estimates.v` | encoding/{hybrid_rle,delta_bitpacked} encoders for iterators whose size hint is not exact |
| `Resume.v` | read/page/reader.rs: `into_inner` |
| `Routes.v` | read/page/reader.rs, read/page/stream.rs: the other ways to a column's pages |
| `WriterEnd.v` | write/{file,stream,mod}.rs: what a writer gives back |
| `Cancel.v` | write/stream.rs: calls of the asynchronous writer that are dropped |
| `Faults.v` | read/{metadata,stream,column/mod,indexes/read}.rs, read/page/*.rs, bloom_filter/read.rs: reading from a source that fails at some requests |
| `Levels.v` | compression.rs, parquet_bridge.rs: the level that reaches a codec's encoder |
| `JoinRead.v` | read/row_group.rs: columns read at the same time, under any schedule |

## What is not modelled, or only as a parameter

* The thrift compact protocol (crate `parquet-format-safe`): a record of encoders and decoders with the law that decoding an encoding
  followed by anything returns the value and the number of bytes consumed. A lawful instance is built in Coq and used in the examples.
* The compression codecs (snappy, gzip, brotli, lz4, zstd): functions with the law that decompressing what was compressed returns it.
  The Hadoop framing of LZ4, done by this crate, is modelled.
* xxhash (bloom filters): a function from bytes to 64 bits. Rust's Unicode tables (textual schemas): a record that agrees with ASCII on ASCII.
* The crate `streaming_decompression` behind `BasicDecompressor`: which buffer it hands to the decompression of a page is left open (the model takes any), and
  what it does with the page (pass it to the decompression, pass on errors of the iterator) is taken from its documentation. `into_inner` is not modelled.
* `write/dyn_iter.rs` (boxing of iterators), the texts of errors (kinds are kept), `Debug`/`Display`.
* Scheduling of asynchronous code: an asynchronous function is the sequence of its steps; `.await` adds none. Two exceptions
  are modelled: dropped calls of the asynchronous writer (`Cancel.v`, C118) and any schedule of the futures that read columns at the same time (`JoinRead.v`, C119).
* I/O: files are byte strings and reads past the end find nothing; I/O errors appear as a writer that accepts only some number of bytes
  (see `Io.v`) and as a source with a list of failures, one entry for each request of the crate (`Faults.v`, C128). Short and interrupted reads
  are no failures: the standard library goes on by itself. `flush` never fails. Byte offsets are unbounded except where the code narrows them.
* Allocation failure and stack depth.
* Floating point: values of float columns are their bits with IEEE-754 comparison defined on them; `f64::log10` in the check of decimal precision is modelled
  exactly, not with rounding.
* Feature flags: the build with all codecs and with the `async` and `bloom_filter` features on. `Builds.v` (C116) has compression in the builds with any set of
  codec features, and `ColumnMeta.v` (C111) the serde form of chunk metadata (`serde_types`); derived serde forms of other types are not modelled.

## Wrong programs

`seeded/LOG.jsonl` has one line per deliberate bug put into a copy of the model: the definition, the edit, the claim it breaks, the theorems that stopped
proving, and the theorems added or tightened when nothing did.
