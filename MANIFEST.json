{
 "claims": [
  {
   "property": "C01",
   "status": "proved",
   "theorems": [
    "uleb128_container_exact",
    "uleb128_roundtrip"
   ],
   "note": "For all u64 values; trailing bytes are arbitrary."
  },
  {
   "property": "C02",
   "status": "proved",
   "theorems": [
    "zigzag_leb128_roundtrip"
   ],
   "note": "For all i64 values."
  },
  {
   "property": "C03",
   "status": "proved",
   "theorems": [
    "uleb128_decode_any"
   ],
   "note": "Exact value, length and panic condition for every byte string."
  },
  {
   "property": "C04",
   "status": "proved",
   "theorems": [
    "bitpacked_pack_exact",
    "bitpacked_block_layout",
    "bitpacked_unpack_fields"
   ],
   "note": "Every word size, bit width and block."
  },
  {
   "property": "C05",
   "status": "proved",
   "theorems": [
    "bitpacked_roundtrip"
   ],
   "note": "Every list of values that fit the width."
  },
  {
   "property": "C06",
   "status": "proved",
   "theorems": [
    "bitpacked_decoder_error_iff",
    "bitpacked_decoder_any",
    "bitpacked_decoder_too_wide_panics",
    "bitpacked_decoder_wrap_refuted"
   ],
   "note": "Exact outcome on arbitrary bytes. The refuted theorem shows that without the no-overflow condition on length*width a release build accepts a too-short buffer."
  },
  {
   "property": "C07",
   "status": "proved",
   "theorems": [
    "hybrid_rle_roundtrip"
   ],
   "note": "Every width 0..32, every list; both overflow modes."
  },
  {
   "property": "C08",
   "status": "proved",
   "theorems": [
    "hybrid_rle_decodes_conforming"
   ],
   "note": "Independent grammar of runs in Spec/RleSpec.v; varints need not be minimal; empty runs allowed."
  },
  {
   "property": "C09",
   "status": "proved",
   "theorems": [
    "hybrid_rle_exact_count",
    "hybrid_rle_missing_values_are_zero",
    "hybrid_rle_zero_width"
   ],
   "note": "Arbitrary bytes and widths."
  },
  {
   "property": "C10",
   "status": "proved",
   "theorems": [
    "bitmap_layout",
    "bitmap_iterates_bits",
    "bitmap_roundtrip",
    "hybrid_bool_roundtrip"
   ],
   "note": "Every offset and length inside the bitmap."
  },
  {
   "property": "C11",
   "status": "partial",
   "theorems": [
    "hybrid_rle_corrupt_panics_refuted",
    "hybrid_rle_open_panics_iff",
    "hybrid_rle_missing_values_are_zero",
    "hybrid_rle_broken_exactly",
    "hybrid_rle_any_bytes"
   ],
   "note": "False of the code: a truncated RLE value panics (witness). Proved instead: the exact panic condition for opening a stream, and, with overflow checks, a complete classification of all byte sequences: each is readable (and then any number of values decodes without panic) or broken, with the exact values returned before the panic."
  },
  {
   "property": "C12",
   "status": "proved",
   "theorems": [
    "delta_roundtrip",
    "delta_roundtrip_checked"
   ],
   "note": "Every list of i64 values (fewer than 2^64 of them, encoded in less than 2^61 bytes); trailing bytes arbitrary; consumed byte count exact."
  },
  {
   "property": "C13",
   "status": "partial",
   "theorems": [
    "delta_encode_checked_panics_refuted",
    "delta_encode_checked_iff"
   ],
   "note": "False of the code: two integers suffice for a panic when overflow checks are on (witness). The exact condition under which it does not panic is proved."
  },
  {
   "property": "C14",
   "status": "proved",
   "theorems": [
    "delta_decodes_conforming"
   ],
   "note": "Independent grammar in Spec/DeltaSpec.v: any miniblock count and size, any varint lengths, arbitrary trailing bytes."
  },
  {
   "property": "C15",
   "status": "proved",
   "theorems": [
    "delta_length_roundtrip"
   ],
   "note": "Both overflow modes; arbitrary trailing bytes."
  },
  {
   "property": "C16",
   "status": "proved",
   "theorems": [
    "delta_byte_array_roundtrip"
   ],
   "note": "Both overflow modes; the strings are rebuilt by an independent specification function."
  },
  {
   "property": "C17",
   "status": "partial",
   "theorems": [
    "delta_byte_array_panics_refuted",
    "delta_byte_array_panics_iff"
   ],
   "note": "False of the code: Hello, Hel panics. The exact panic condition is proved for every sequence."
  },
  {
   "property": "C18",
   "status": "proved",
   "theorems": [
    "plain_byte_array_roundtrip",
    "plain_byte_array_any"
   ],
   "note": "Strings below 4 GiB; arbitrary bytes described by the inductive relation plain_pieces."
  },
  {
   "property": "C19",
   "status": "proved",
   "theorems": [
    "native_roundtrip",
    "native_little_endian",
    "native_decode_exact"
   ],
   "note": "Floats are their bit patterns, so NaN payloads are covered."
  },
  {
   "property": "C20",
   "status": "proved",
   "theorems": [
    "native_page_opens_iff",
    "native_page_values",
    "native_page_roundtrip"
   ],
   "note": "Each native type."
  },
  {
   "property": "C21",
   "status": "partial",
   "theorems": [
    "fixed_len_tail_refuted",
    "fixed_len_items",
    "fixed_len_zero_panics"
   ],
   "note": "False of the code: a tail shorter than one item is dropped instead of reported (witness). The items returned are proved for every input, and item size zero panics."
  },
  {
   "property": "C22",
   "status": "proved",
   "theorems": [
    "page_row_intervals_exact",
    "page_row_intervals_partition"
   ],
   "note": "Exact condition for success; consecutive, disjoint, covering."
  },
  {
   "property": "C23",
   "status": "proved",
   "theorems": [
    "select_pages_exact",
    "select_pages_all_rows"
   ],
   "note": "Any sorted disjoint intervals."
  },
  {
   "property": "C24",
   "status": "proved",
   "theorems": [
    "compute_rows_exact"
   ],
   "note": "Every selection and page list."
  },
  {
   "property": "C25",
   "status": "proved",
   "theorems": [
    "sliced_iteration",
    "sliced_iteration_empty_interval"
   ],
   "note": "Over any underlying iterator; also shows why empty intervals must be excluded."
  },
  {
   "property": "C26",
   "status": "proved",
   "theorems": [
    "filtered_levels_select"
   ],
   "note": "Over any underlying run iterator. A reader that follows the runs and the skip counts gets, for every selected row, null or exactly that row's stored value; the reported length is exact."
  },
  {
   "property": "C27",
   "status": "proved",
   "theorems": [
    "level_runs_exact",
    "level_runs_bounded"
   ],
   "note": "Any conforming stream; the bound holds for arbitrary bytes."
  },
  {
   "property": "C28",
   "status": "partial",
   "theorems": [
    "bool_levels_refuted",
    "bool_levels_first_run",
    "bool_levels_written"
   ],
   "note": "False of the code: iteration stops at the end of the first run (witness). Proved: it yields exactly the first run, hence all levels of streams written by the crate."
  },
  {
   "property": "C29",
   "status": "partial",
   "theorems": [
    "optional_values",
    "native_optional_page",
    "native_required_page",
    "binary_optional_page",
    "binary_required_page",
    "boolean_optional_page",
    "optional_page_two_runs_refuted",
    "native_page_in_runs",
    "binary_page_in_runs",
    "boolean_page_in_runs",
    "fixed_page_in_runs",
    "dictionary_page_in_runs"
   ],
   "note": "The adapter is proved over any iterators; whole pages when the levels form one run (as the crate writes them). With several runs whole pages lose values (witness), because of C28; exactly, for native, binary, fixed-length and boolean pages, and pages of dictionary positions, whose levels are any conforming sequence of runs: the items of the first run come out right and nothing after them."
  },
  {
   "property": "C30",
   "status": "proved",
   "theorems": [
    "dict_indices_decode",
    "dict_indices_roundtrip",
    "dict_indices_bad_width",
    "dict_indices_no_width_panics",
    "dictionary_pages",
    "dictionary_optional_pages"
   ],
   "note": "v1 and v2 pages; also: a page without the width byte panics."
  },
  {
   "property": "C31",
   "status": "proved",
   "theorems": [
    "bloom_no_false_negatives",
    "bloom_lookup_exact",
    "bloom_insert_exact"
   ],
   "note": "Any content, size and history; release builds without limit, debug builds up to 2^32 blocks (the multiplication overflows beyond). The exact bits are those of the Parquet specification (Spec/BloomSpec.v)."
  },
  {
   "property": "C32",
   "status": "proved",
   "theorems": [
    "bloom_monotone",
    "bloom_order_irrelevant",
    "bloom_insert_local",
    "bloom_insert_exact"
   ],
   "note": "Order and repetition do not matter."
  },
  {
   "property": "C33",
   "status": "partial",
   "theorems": [
    "ord_binary_refuted",
    "ord_binary_exact",
    "ord_binary_same_length"
   ],
   "note": "False of the code: a non-empty string compares equal to its extensions (witness). The exact relation is proved, and that it is the lexicographic order on strings of equal length."
  },
  {
   "property": "C34",
   "status": "proved",
   "theorems": [
    "statistics_roundtrip",
    "statistics_rejects_widths",
    "statistics_read_faithful"
   ],
   "note": "All physical types; arbitrary thrift statistics."
  },
  {
   "property": "C35",
   "status": "proved",
   "theorems": [
    "chunk_statistics_int64",
    "chunk_statistics_int32",
    "chunk_statistics_boolean"
   ],
   "note": "Null counts non-negative with a sum below 2^63."
  },
  {
   "property": "C36",
   "status": "partial",
   "theorems": [
    "chunk_statistics_binary_refuted",
    "chunk_statistics_binary",
    "chunk_statistics_fixed",
    "chunk_statistics_binary_any"
   ],
   "note": "False of the code for byte arrays when one bound is a strict prefix of another (witness); proved without such prefixes and for all fixed-length columns; chunk_statistics_binary_any says what is computed for all byte strings."
  },
  {
   "property": "C37",
   "status": "partial",
   "theorems": [
    "chunk_statistics_unknown_refuted",
    "chunk_statistics_ignores_unknown",
    "chunk_null_count_complete"
   ],
   "note": "False of the code: unknown pages are ignored (witness); proved that they are ignored in every history, and that the claim holds when all pages are known."
  },
  {
   "property": "C38",
   "status": "proved",
   "theorems": [
    "split_v1_exact",
    "split_assembled"
   ],
   "note": "Exact in both directions; never panics."
  },
  {
   "property": "C39",
   "status": "partial",
   "theorems": [
    "split_v2_overlong_refuted",
    "split_v2_exact",
    "split_assembled"
   ],
   "note": "False of the code: lengths beyond the buffer panic (witness). The exact behaviour is proved for every header and buffer."
  },
  {
   "property": "C40",
   "status": "partial",
   "theorems": [
    "compress_bytes_outcome",
    "compress_bytes_round_trip",
    "compress_into_any_buffer",
    "flagged_page_exactly",
    "page_compression_roundtrip",
    "v2_levels_in_front",
    "page_compression_succeeds",
    "page_compression_flag_refuted",
    "page_compression_dirty_buffer_refuted"
   ],
   "note": "Proved for every page, codec satisfying the inverse law, decompression buffer and capacity, when compressing into an empty buffer a page that does not carry is_compressed = false. False otherwise: compress keeps a v2 header saying is_compressed = false although it compresses the values, and the free function compress appends to a non-empty buffer; both refuted by concrete pages."
  },
  {
   "property": "C41",
   "status": "partial",
   "theorems": [
    "decompressor_matches_fresh",
    "compressor_matches_fresh",
    "decompress_ignores_buffer",
    "compressed_pages_fill",
    "buffer_leak_refuted",
    "snappy_leaks_iff",
    "lz4_raw_leaks_iff"
   ],
   "note": "The reusing compressor matches fresh buffers unconditionally. The reusing decompressor matches fresh buffers for every page whose content fills its declared size, which covers every page the crate compresses, every uncompressed page and every streaming codec. False in general: with snappy or LZ4 a page declaring more bytes than its block holds is returned with bytes of the previous buffer (buffer_leak_refuted); for these codecs the condition is exact (iff)."
  },
  {
   "property": "C42",
   "status": "proved",
   "theorems": [
    "page_refused",
    "page_written",
    "page_writable",
    "page_round_trip"
   ],
   "note": "The thrift protocol is a parameter: the page's header must be read back within the reader's limit. page_writable says exactly which pages can be written."
  },
  {
   "property": "C43",
   "status": "partial",
   "theorems": [
    "dict_sorted_flag_refuted",
    "dict_sorted_flag_exact",
    "foreign_chunk_read"
   ],
   "note": "False: the writer never stores the flag. Exact: it is read back as false whatever it was. The reader does keep the flag of pages that have it (foreign_chunk_read)."
  },
  {
   "property": "C44",
   "status": "partial",
   "theorems": [
    "reader_returns_needed_pages",
    "reader_returns_all_pages",
    "reader_returns_all_pages_refuted"
   ],
   "note": "As stated it is false for chunks that end with pages without values (these are not returned). Exact theorem: the pages needed to reach the declared number of values; all pages when the last one has values."
  },
  {
   "property": "C45",
   "status": "proved",
   "theorems": [
    "reader_respects_limit",
    "reader_reports_bad_sizes",
    "reader_never_panics"
   ],
   "note": "For every source, header and limit. I/O errors of the source and allocation failures are not modelled."
  },
  {
   "property": "C46",
   "status": "proved",
   "theorems": [
    "chunk_written",
    "mixed_codecs_rejected",
    "chunk_page_error",
    "chunk_writable"
   ],
   "note": "describes (Spec/ChunkSpec.v) spells out every field; an empty chunk has offset 0. chunk_writable shows which chunks can be written."
  },
  {
   "property": "C47",
   "status": "proved",
   "theorems": [
    "file_locates_chunks"
   ],
   "note": "For every history of row groups written, including attempts that failed without writing anything; file below 2^63 bytes."
  },
  {
   "property": "C48",
   "status": "partial",
   "theorems": [
    "written_file_opens",
    "missing_columns_refuted",
    "extra_columns_dropped"
   ],
   "note": "For every storable schema and every history whose row groups have a column for each column of the schema. Refuted without that: a row group with too few columns is accepted and the file cannot be opened."
  },
  {
   "property": "C49",
   "status": "partial",
   "theorems": [
    "open_rejects",
    "open_exact",
    "open_total_partial",
    "open_total_checked_partial",
    "open_total_refuted",
    "open_panics_exactly",
    "schema_columns_panic"
   ],
   "note": "Exactly the badly framed files are rejected by the frame check; otherwise exactly the declared bytes are decoded. No panic with wrapping arithmetic, even with a wrong claimed size; with checked arithmetic a schema nested deeper than 32767 optional groups panics (refuted), all others do not (open_panics_exactly). Stack depth is not modelled."
  },
  {
   "property": "C50",
   "status": "partial",
   "theorems": [
    "second_end_rejected",
    "write_after_end_refuted"
   ],
   "note": "A second end is rejected after any later calls. Refuted for writes: a row group can be written after the end, which makes the file unreadable."
  },
  {
   "property": "C51",
   "status": "partial",
   "theorems": [
    "failed_write_refuted",
    "failed_writes_exactly",
    "file_locates_chunks"
   ],
   "note": "Refuted: a write that fails after writing something shifts later row groups. failed_writes_exactly is the exact behaviour for every sequence of successful and failed writes: each later row group is behind its recorded place by exactly the bytes left by failed writes before it, and opening the file does not notice."
  },
  {
   "property": "C52",
   "status": "proved",
   "theorems": [
    "offset_index_written",
    "file_page_locations"
   ],
   "note": "Entries, order, byte ranges with headers and running row counts, with the exact condition for the index to exist (pages below 2 GiB that know their rows; an error otherwise); and the locations read from any written and opened file, for any adjacent columns."
  },
  {
   "property": "C53",
   "status": "proved",
   "theorems": [
    "file_indexed_read",
    "indexed_reader_returns_selected",
    "indexed_reader_same_content"
   ],
   "note": "For every written and opened file, every column with an optional dictionary page and any data pages, and any row selection: the locations are read from the file, pages are selected by rows, and the indexed reader returns the dictionary page and the pages with selected rows. A dictionary page is not returned if there are no data pages."
  },
  {
   "property": "C54",
   "status": "proved",
   "theorems": [
    "column_index_written",
    "file_column_indexes"
   ],
   "note": "With the exact condition (statistics with a null count, and a maximum if there is a minimum), an error otherwise, and the index read back from the stored struct; and the indexes read from any written and opened file."
  },
  {
   "property": "C55",
   "status": "partial",
   "theorems": [
    "stream_matches_reader",
    "stream_matches_reader_pages",
    "stream_same_errors",
    "stream_matches_reader_refuted",
    "async_writer_matches",
    "async_second_end_refuted"
   ],
   "note": "The stream returns what the reader returns as long as the reader meets no error (refuted beyond). The asynchronous writer agrees with the synchronous one for every history up to and including the first successful end; after it they differ (refuted: the asynchronous one accepts a second end)."
  },
  {
   "property": "C56",
   "status": "proved",
   "theorems": [
    "schema_round_trip",
    "schema_stored"
   ],
   "note": "schema_stored says which elements are stored (depth first, child counts, no repetition on the root). Conditions are those of the format: numbers fit their 32-bit fields, primitive fields are accepted ones."
  },
  {
   "property": "C57",
   "status": "partial",
   "theorems": [
    "empty_groups_refuted",
    "empty_groups_exact"
   ],
   "note": "False: an empty group is written with zero children and read as a primitive field without a type. Exactly the schemas with an empty group (or no fields) fail."
  },
  {
   "property": "C58",
   "status": "proved",
   "theorems": [
    "schema_columns",
    "schema_columns_panic"
   ],
   "note": "For schemas in which no path has more than 32767 optional or repeated nodes (levels are i16)."
  },
  {
   "property": "C59",
   "status": "partial",
   "theorems": [
    "annotations_partial",
    "annotations_total",
    "annotations_refuted",
    "fixed_decimal_exact",
    "read_schemas_valid_partial",
    "annotations_exactly",
    "annotations_accepted_moderate",
    "read_schemas_valid_any"
   ],
   "note": "Decimals on fixed-length arrays of 129 bytes or more are accepted with any precision (the f64 bound is infinite), so the iff holds up to 128 bytes; annotations_exactly gives the condition for all lengths, and read_schemas_valid_any says it of every field that is read."
  },
  {
   "property": "C60",
   "status": "partial",
   "theorems": [
    "repetition_bridge",
    "compression_bridge",
    "encoding_bridge",
    "page_type_bridge",
    "boundary_order_bridge",
    "group_converted_bridge",
    "group_logical_bridge",
    "enums_total",
    "options_bridge",
    "levels_bridge",
    "physical_roundtrip",
    "converted_roundtrip",
    "logical_roundtrip",
    "physical_roundtrip_refuted",
    "physical_reads",
    "converted_reads",
    "integer_width_refuted",
    "logical_reads_partial",
    "logical_reads_exactly",
    "physical_roundtrip_exactly",
    "converted_roundtrip_exactly",
    "logical_roundtrip_exactly"
   ],
   "note": "Every enum. False in two places, with witnesses: sizes of 2^31 and more are truncated, and unknown integer bit widths are read as 32 bits instead of being rejected. The _exactly theorems give the exact conditions."
  },
  {
   "property": "C61",
   "status": "proved",
   "theorems": [
    "text_has_one_reading",
    "message_parses",
    "message_expressible"
   ],
   "note": "The language (layout of tokens, keywords in any case, numbers, annotations, ids, nested groups) is defined in Spec/MessageSpec.v apart from the parser. message_expressible says exactly which schemas have a text. Rust's Unicode tables (whitespace, upper and lower case) are a parameter that agrees with ASCII on ASCII. Names are lists of characters."
  },
  {
   "property": "C62",
   "status": "partial",
   "theorems": [
    "malformed_rejected_refuted",
    "cut_message_exactly",
    "cut_message_schema",
    "continued_message_accepted"
   ],
   "note": "The property is false of the code: a text that stops after '{', '}' or ';' is accepted (cut_message_exactly is the exact condition for every text that is cut off, cut_message_schema says what it parses to), and whatever follows the closing brace is ignored (continued_message_accepted)."
  },
  {
   "property": "C63",
   "status": "partial",
   "theorems": [
    "metadata_kept_partial",
    "metadata_round_trip",
    "metadata_orders_refuted",
    "metadata_accepted_exactly"
   ],
   "note": "Everything but the column orders survives; column orders are dropped (refuted). metadata_accepted_exactly tells, for any thrift metadata whose schema is accepted, whether it is accepted and what is made of it."
  },
  {
   "property": "C64",
   "status": "proved",
   "theorems": [
    "filter_row_groups_exact",
    "filter_row_groups_in"
   ],
   "note": ""
  },
  {
   "property": "C65",
   "status": "partial",
   "theorems": [
    "field_columns_exact",
    "columns_in_order",
    "field_columns_in_order",
    "preread_columns_reversed_exact",
    "preread_columns_refuted",
    "column_bytes_read",
    "field_bytes_read",
    "cut_column_refuted"
   ],
   "note": "Reading from a source is in order; pre-read columns are visited in reverse (refuted, exact behaviour proved). Reading a field gives the bytes of its chunks; a chunk that is cut off by the end of the file is returned short without an error (cut_column_refuted)."
  },
  {
   "property": "C66",
   "status": "partial",
   "theorems": [
    "hadoop_frames_decompress",
    "hadoop_single_frame",
    "hadoop_frames_rejected",
    "hadoop_frames_refuted",
    "lz4_any_bytes",
    "frames_unique"
   ],
   "note": "Proved when what follows each frame is longer than that frame's block (in particular for a single frame). False in general: otherwise the frame loop stops early and rejects the buffer; refuted by two frames."
  },
  {
   "property": "C67",
   "status": "proved",
   "theorems": [
    "level_bit_width"
   ],
   "note": "Levels 0..32767, the non-negative i16 values."
  },
  {
   "property": "C68",
   "status": "proved",
   "theorems": [
    "file_pages_roundtrip"
   ],
   "note": "Compressor, file writer, metadata reader, page reader and reusing decompressor composed; thrift and codecs are parameters with inverse laws. The dictionary's is_sorted flag is not stored: it is read as false."
  },
  {
   "property": "C69",
   "status": "partial",
   "theorems": [
    "row_counts_agree",
    "new_page_rows",
    "page_rows_exact",
    "uneven_columns_refuted",
    "selected_rows_refuted"
   ],
   "note": "The file's rows are the sum over its row groups, and a row group's rows are those of its first column, for any pages: a page counts with the last interval of rows it carries, which is all its rows exactly if the other intervals are empty (so for pages as their constructors make them). Refuted for the other columns and for pages with several selected intervals."
  },
  {
   "property": "C70",
   "status": "partial",
   "theorems": [
    "bitpacked_saturates_refuted",
    "bitpacked_oversized_keeps_prefix",
    "bitpacked_oversized_exact",
    "bitpacked_oversized_back",
    "bitpacked_back_iff",
    "hybrid_oversized_back"
   ],
   "note": "False of the code: a witness shows that an oversized value changes its successor. Proved instead, for all values, widths and buffers with room: exactly what is stored for each value (its low bits, mixed with what the value before it spills into it and with what a dirty buffer held), what comes back from the bit-packed and the hybrid decoder, that values come back exactly if all fit, and that values up to and including the first oversized one are cut to their low bits."
  },
  {
   "property": "C71",
   "status": "partial",
   "theorems": [
    "select_pages_empty_interval_refuted",
    "select_pages_non_empty",
    "selection_pieces",
    "empty_selection_exactly",
    "endless_interval_panics"
   ],
   "note": "False of the code: a page without rows inside a requested interval is selected with an empty interval (witness). True when no page is empty; empty_selection_exactly is the exact condition, for intervals in any order, and selection_pieces says what is selected."
  },
  {
   "property": "C72",
   "status": "proved",
   "theorems": [
    "bloom_read_back",
    "bloom_read_exact"
   ],
   "note": "For any thrift codec of the header satisfying the inverse law."
  },
  {
   "property": "C73",
   "status": "partial",
   "theorems": [
    "bloom_truncated_refuted",
    "bloom_panics_iff"
   ],
   "note": "False of the code: truncated and missing filters give short bitsets, which panic on lookup (witness). Exact panic condition proved."
  },
  {
   "property": "C74",
   "status": "partial",
   "theorems": [
    "chunk_statistics_nan_refuted",
    "chunk_statistics_double",
    "chunk_statistics_float",
    "float_compare_numeric",
    "chunk_statistics_double_any",
    "chunk_statistics_float_any"
   ],
   "note": "False with NaN bounds (witness); proved without NaNs for both widths; the _any theorems say what is computed for all bounds, NaNs included."
  },
  {
   "property": "C75",
   "status": "partial",
   "theorems": [
    "chunk_statistics_unsigned_refuted",
    "chunk_statistics_unsigned",
    "chunk_statistics_unsigned32_any",
    "chunk_statistics_unsigned64_any"
   ],
   "note": "False of the code (witness); proved when all bounds are below 2^31; the _any theorems say what is computed for all bounds."
  },
  {
   "property": "C76",
   "status": "partial",
   "theorems": [
    "chunk_statistics_int96_refuted",
    "chunk_statistics_mixed",
    "chunk_statistics_none"
   ],
   "note": "False of the code: INT96 panics. The other cases are covered by C35, C36 and C74."
  },
  {
   "property": "C77",
   "status": "partial",
   "theorems": [
    "contains_exactly",
    "contains_itself",
    "contains_fewer_fields",
    "contains_itself_refuted",
    "contains_any",
    "contains_itself_exactly"
   ],
   "note": "False for schemas with two fields of the same name in one group, exact otherwise; contains_any is the exact condition for all schemas."
  },
  {
   "property": "C78",
   "status": "proved",
   "theorems": [
    "parse_schema_total"
   ],
   "note": ""
  },
  {
   "property": "C79",
   "status": "proved",
   "theorems": [
    "sort_order_agrees",
    "sort_order_physical",
    "column_orders_exact",
    "sort_order_table"
   ],
   "note": ""
  },
  {
   "property": "C80",
   "status": "partial",
   "theorems": [
    "file_page_locations",
    "file_column_indexes",
    "scattered_columns_refuted",
    "columns_read_as_adjacent",
    "columns_adjacent_exact",
    "locations_use_first_place"
   ],
   "note": "Proved for columns whose indexes are stored one behind the other, in particular adjacent columns of one row group. Refuted for others: with the first column of two row groups, the second result is that of another column, without an error. Exact for every list of columns: indexes are read as if each one was right behind the one before it; page locations depend on nothing but the place of the first, the number of columns and the sum of the sizes."
  },
  {
   "property": "C81",
   "status": "partial",
   "theorems": [
    "no_column_indexes",
    "no_page_locations",
    "some_column_indexes"
   ],
   "note": "Proved for column indexes. For page locations the documented empty result is refuted: it is an error whenever there is a column."
  },
  {
   "property": "C82",
   "status": "partial",
   "theorems": [
    "page_locations_no_panic",
    "column_indexes_no_panic",
    "column_indexes_no_panic_refuted",
    "column_indexes_panics_iff"
   ],
   "note": "Page locations: proved. Column indexes: refuted for cut off files and for Boolean columns with an empty bound; the exact condition for a panic is proved for every file and metadata."
  },
  {
   "property": "C83",
   "status": "partial",
   "theorems": [
    "message_no_panic_partial",
    "message_no_panic_refuted",
    "misannotated_message_panics"
   ],
   "note": "False as stated: (MAP) or (LIST) on a primitive field reaches unreachable!(). Proved for every text: a panic needs a repetition, a physical type with its length, a token for the name, and (MAP or (LIST, one after the other; and every text that is well formed up to a primitive field annotated so, at any depth, panics whatever follows. Missing: the exact condition for texts that are malformed earlier in a way the parser overlooks. Depth of the call stack is not modelled."
  },
  {
   "property": "C84",
   "status": "proved",
   "theorems": [
    "converted_groups_summarised",
    "written_groups_summarised"
   ],
   "note": ""
  },
  {
   "property": "C85",
   "status": "proved",
   "theorems": [
    "file_values_roundtrip",
    "decoding_unique",
    "stored_cells_only"
   ],
   "note": "The layout of cells in pages (levels, plain bytes, positions, dictionary) is specified in Spec/ValuesSpec.v apart from the code. Columns of maximum definition level 0 or 1 and no repetition. Thrift and codecs are parameters with inverse laws."
  },
  {
   "property": "C86",
   "status": "partial",
   "theorems": [
    "encoded_integers_conform",
    "encoded_strings_conform",
    "encoded_incremental_conform",
    "encoded_booleans_conform",
    "encoded_numbers_conform_refuted",
    "encoded_numbers_conform_iff"
   ],
   "note": "Proved for the delta encoders and booleans. False for encode_u32: the last group of eight is cut to whole bytes of the values it holds; encoded_numbers_conform_iff is the exact condition."
  },
  {
   "property": "C87",
   "status": "proved",
   "theorems": [
    "delta_length_decodes_conforming",
    "delta_byte_array_decodes_conforming"
   ],
   "note": "With overflow checks on, for streams whose deltas add up within 64 bits. Lengths are below 2^31 in total."
  },
  {
   "property": "C88",
   "status": "partial",
   "theorems": [
    "interrupted_write_prefix",
    "interrupted_write_rejected_partial",
    "interrupted_write_opened_exactly",
    "interrupted_write_rejected_refuted"
   ],
   "note": "The prefix and the report are proved for every crash point. That the remains are rejected is false if the file being written has the four bytes PAR1 inside a page (the page of the counterexample holds a small file); proved: the remains are rejected unless writing stopped exactly behind these four bytes; and, exactly, they are opened if and only if they end in metadata that is accepted, its length and these bytes, and as that metadata (interrupted_write_opened_exactly). The destination fails with one error and then takes nothing; buffering below the Write trait is not modelled."
  },
  {
   "property": "C89",
   "status": "partial",
   "theorems": [
    "compressor_hands_back",
    "decompressor_hands_back",
    "reader_hands_back",
    "buffer_lost_refuted"
   ],
   "note": "The compressor's part is proved for all calls. Decompressor: exact contents of both buffers for every sequence of pages and every iterator that keeps its buffer; false as stated, because a page stored without compression makes the decompressor drop the buffer lent to it (refuted). Buffers are their contents here; their capacities are not modelled."
  },
  {
   "property": "C90",
   "status": "partial",
   "theorems": [
    "stale_page_refuted",
    "failed_advance_exactly",
    "failed_compression_exactly"
   ],
   "note": "False: the page before is still there, without its bytes or with those of another buffer. The exact result of get() after any failed call is proved."
  },
  {
   "property": "C91",
   "status": "partial",
   "theorems": [
    "delta_decoder_panics_refuted",
    "delta_decoder_any",
    "delta_after_error_refuted"
   ],
   "note": "False as stated: three kinds of buffers panic (delta_decoder_panics_refuted), and so does calling the iterator again after an error (delta_after_error_refuted). delta_decoder_any gives the exact behaviour for all bytes: which cannot be opened (error or panic), which values are returned, and whether the iterator then ends, errs or panics; without overflow checks for miniblocks of fewer than 2^56 values."
  },
  {
   "property": "C92",
   "status": "partial",
   "theorems": [
    "delta_strings_panic_refuted",
    "delta_length_any",
    "delta_byte_array_any"
   ],
   "note": "False as stated: lengths beyond the end of the page or negative ones make the request for the strings panic, and a sum of lengths beyond 32 bits panics with overflow checks (delta_strings_panic_refuted). The other two theorems give the exact behaviour for all bytes and all points at which the strings are asked for (same restriction as C91 without overflow checks)."
  },
  {
   "property": "C93",
   "status": "partial",
   "theorems": [
    "nested_nulls_lost_refuted",
    "opening_panics_refuted",
    "page_opens_exactly",
    "unsplit_page_not_opened"
   ],
   "note": "False as stated: nullability is decided by the leaf's own repetition, so a required leaf in an optional group is opened as one without nulls (nested_nulls_lost_refuted), and four kinds of pages panic (opening_panics_refuted). page_opens_exactly gives the result for every page that splits, unsplit_page_not_opened for the others."
  },
  {
   "property": "C94",
   "status": "partial",
   "theorems": [
    "native_order_refuted",
    "native_order_exact",
    "float_compare_numeric"
   ],
   "note": "False for NaNs (equal to everything, so equality is not transitive) and for INT96 timestamps beyond the range of 64-bit nanoseconds. native_order_exact gives the order of all other pairs and of NaNs."
  },
  {
   "property": "C95",
   "status": "partial",
   "theorems": [
    "int96_range_refuted",
    "int96_exact",
    "int96_in_range"
   ],
   "note": "False beyond the range of 64-bit nanoseconds (from 2262-04-12 on, for instance); exact result for all values, and the instant for those in range."
  },
  {
   "property": "C96",
   "status": "proved",
   "theorems": [
    "foreign_chunk_read"
   ],
   "note": "For pages whose declared counts are 32-bit and whose encodings are known."
  },
  {
   "property": "C97",
   "status": "partial",
   "theorems": [
    "sidecar_readable",
    "sidecar_large_refuted"
   ],
   "note": "True for metadata below 2 GiB; from there to 4 GiB it is written without an error, with a wrong length, and cannot be opened (sidecar_large_refuted)."
  },
  {
   "property": "C98",
   "status": "partial",
   "theorems": [
    "index_shape_refuted",
    "any_index_exact"
   ],
   "note": "False: lists of different lengths are cut to the shortest, and boolean bounds of no bytes panic. any_index_exact gives the result for every stored index."
  },
  {
   "property": "C99",
   "status": "proved",
   "theorems": [
    "chunk_any_bytes"
   ],
   "note": "for any source, header decoder and limit: the pages up to the first error are located one after another, and the outcome is classified; no panic for sources below 2^32-1 bytes"
  },
  {
   "property": "C100",
   "status": "partial",
   "theorems": [
    "indexed_size_refuted",
    "indexed_any_places",
    "indexed_before_start_panics"
   ],
   "note": "the full statement is false: neither the size nor the encoding in the header is compared with what the index says; what is returned for any file and any places is proved instead, including the panic of checked arithmetic for a first place before the column's start"
  },
  {
   "property": "C101",
   "status": "partial",
   "theorems": [
    "level_hints_refuted",
    "level_hints_exact",
    "optional_hints_exact",
    "string_hints_exact",
    "dictionary_len_exact",
    "dictionary_len_refuted"
   ],
   "note": "false for boolean levels and optional values after the first item, with the exact announced number proved for any bytes; plain byte arrays announce right exactly when the given number is right. The other iterators' announcements are part of the yields invariants of C05, C07, C12, C20, C21, C25"
  },
  {
   "property": "C102",
   "status": "partial",
   "theorems": [
    "delta_iteration_ends",
    "string_iteration_ends",
    "fixed_iteration_ends",
    "level_iteration_ends",
    "adapter_iteration_ends",
    "page_iteration_ends",
    "reader_iteration_ends_refuted",
    "reader_iteration_exact"
   ],
   "note": "Proved with an explicit bound for all iterators, the asynchronous page stream included, except the synchronous page reader: on a chunk that ends before the announced number of values it returns an error for ever (reader_iteration_ends_refuted). reader_iteration_exact: it gives at most one page for each byte, and when it is stuck."
  },
  {
   "property": "C103",
   "status": "proved",
   "theorems": [
    "schema_errors",
    "opening_errors",
    "value_errors",
    "page_errors",
    "page_opening_errors",
    "decompression_errors",
    "compression_errors",
    "level_errors"
   ],
   "note": "The thrift decoder and the codecs are parameters; the hypothesis thrift_malformed says that the decoder's errors are turned into OutOfSpec, as error.rs does. decompression_errors also gives the exact condition for a panic of decompressing. Errors of writers are in C42 (page_refused), C50 and C51."
  },
  {
   "property": "C104",
   "status": "partial",
   "theorems": [
    "equality_refuted",
    "statistics_equality_exact",
    "index_equality_exact",
    "equality_panics",
    "equality_relation",
    "read_equality"
   ],
   "note": "The full property is refuted by NaNs (not equal to themselves, although dyn Index implements Eq), by the two zeros (equal, stored differently) and by fixed-length statistics made by hand with another column type (panic). Exact: equal iff they say the same, symmetric, transitive, reflexive iff no NaN, panics characterized; everything read from a file can be compared."
  },
  {
   "property": "C105",
   "status": "partial",
   "theorems": [
    "merging_refuted",
    "merging_outcome"
   ],
   "note": "Refuted: INT96 statistics panic (todo!() in the code) and null counts may overflow. merging_outcome classifies every list of page statistics in both overflow modes."
  },
  {
   "property": "C106",
   "status": "proved",
   "theorems": [
    "level_bytes_classified",
    "level_runs_readable",
    "level_runs_broken"
   ],
   "note": "Every byte string falls in one of the two cases; the boolean iterator gives the first run only (see C28)."
  },
  {
   "property": "C107",
   "status": "proved",
   "theorems": [
    "write_accepted_exactly",
    "write_errors",
    "start_errors",
    "write_never_panics"
   ],
   "note": "On a sink that does not fail a row group is accepted exactly if it can be written (columns produced, pages within the limits, readable statistics, one codec, statistics that merge, rows told by the first column); on any sink errors are OutOfSpec or the producer's; no panic unless one of the three named conditions. The null counts are 64-bit and the rows of a column counted with 64 bits (hypotheses counts_64, rows_64)."
  },
  {
   "property": "C108",
   "status": "partial",
   "theorems": [
    "ending_refuted",
    "end_accepted_exactly",
    "end_errors"
   ],
   "note": "Accepted row groups do not always make a file that can be ended (ending_refuted: a second column whose rows are not told; a page without statistics when column indexes are written). Proved instead: for every history the end succeeds exactly if all row groups can be indexed, metadata of 2 GiB or more apart, and is OutOfSpec otherwise; the errors of ending on any sink."
  },
  {
   "property": "C109",
   "status": "partial",
   "theorems": [
    "packing_outcome",
    "packing_room",
    "packing_all_refuted"
   ],
   "note": "The exact outcome for every output length. That every value is packed or the call fails is false (packing_all_refuted): with a number of values that is a multiple of the block, a short output drops the values that have no room; packing_room says which remain."
  },
  {
   "property": "C110",
   "status": "partial",
   "theorems": [
    "opened_columns_answer",
    "built_columns_answer",
    "row_group_size_exact",
    "row_group_size_refuted",
    "opened_field_columns",
    "empty_path_panics"
   ],
   "note": "All queries are characterized exactly. The stored total size of a row group is not always the sum of its columns' sizes (row_group_size_refuted: a sum of 2^63 or more wraps to a negative field); row_group_size_exact gives the sum in memory, with the panic or wrap at 2^64."
  },
  {
   "property": "C111",
   "status": "partial",
   "theorems": [
    "serde_chunk_refuted"
   ],
   "note": "False for every chunk: the serializer writes into a cursor over an empty slice, so it always fails (serde_chunk_refuted, first half); the reader alone loads what the thrift codec writes (second half)."
  },
  {
   "property": "C112",
   "status": "partial",
   "theorems": [
    "wide_any_bytes",
    "wide_exactly",
    "wide_values_refuted",
    "number_widths",
    "number_widths_refuted"
   ],
   "note": "False beyond 32 bits (wide_values_refuted: repeated values keep four bytes; number_widths_refuted: 256 bits are taken as 0 and the values are lost). Proved instead: the exact outcome of the encoder for every number of bits, and the exact outcome of the decoder for every width above 32 and every byte string (builds with overflow checks; without them for bytes whose bit-packed runs announce less than 2^64 bytes). Widths 1 to 32 are C07 to C11, width 0 is C09."
  },
  {
   "property": "C113",
   "status": "partial",
   "theorems": [
    "page_answers",
    "read_page_answers",
    "selected_page_answers",
    "indexed_page_answers_refuted"
   ],
   "note": "Exact for every page (page_answers); pages from readers and streams never panic (read_page_answers); compressed size and selections (selected_page_answers); false of pages read through the page index (indexed_page_answers_refuted)."
  },
  {
   "property": "C114",
   "status": "partial",
   "theorems": [
    "estimated_numbers",
    "estimated_booleans",
    "estimated_integers_exact",
    "estimated_integers_announced",
    "estimated_integers_refuted",
    "estimated_integers_endless_refuted",
    "no_estimate"
   ],
   "note": "That what an encoder is given comes back holds for numbers (estimated_numbers); it is false for booleans and integers from iterators with inexact but lawful estimates (panic, wrong values, no end). The exact condition is proved for booleans (estimated_booleans); for integers, exact estimates suffice and a first estimate that differs from the number of items never comes back. Iterators whose estimate is below what they return break the contract of size_hint and are not covered."
  },
  {
   "property": "C115",
   "status": "proved",
   "theorems": [
    "writer_gives_back",
    "metadata_after_any_end_refuted"
   ],
   "note": "For every history without a panic. metadata_after_any_end_refuted shows that the documentation (\"Some iff end has been called\") is wrong for ends that fail."
  },
  {
   "property": "C116",
   "status": "proved",
   "theorems": [
    "bytes_compress_in_any_build",
    "bytes_decompress_in_any_build",
    "builds_exchange_pages",
    "page_compression_refused",
    "pages_read_in_any_build"
   ],
   "note": "The codec crates are parameters; the exchange assumes that their decoders invert their encoders, and that both builds have crates that agree. With the features lz4 and lz4_flex together the crate does not compile (Model/Builds.v: compiles)."
  },
  {
   "property": "C117",
   "status": "partial",
   "theorems": [
    "values_hashed_by_encoding",
    "bloom_finds_values",
    "bloom_equal_values_refuted"
   ],
   "note": "Proved for values with the same bytes, for every hash function. Values that compare as equal but have different bytes (the two zeros of a float, two spellings of one INT96 instant) are not found: bloom_equal_values_refuted. The hash function xxh64 is a parameter."
  },
  {
   "property": "C118",
   "status": "partial",
   "theorems": [
    "dropped_call_prefix",
    "dropped_write_counts",
    "streamed_exactly",
    "dropped_then_written_refuted",
    "dropped_unstarted_harmless"
   ],
   "note": "That a writer can be used after a dropped call is false (dropped_then_written_refuted); what happens is characterized exactly for every history (streamed_exactly, dropped_call_prefix, dropped_write_counts), and drops before the first byte are harmless. Dropping is modelled as the end of the call at the byte where it waits."
  },
  {
   "property": "C119",
   "status": "proved",
   "theorems": [
    "joined_reads_agree",
    "joined_reads_errors",
    "joined_reads_end"
   ],
   "note": "For every schedule. The join of the futures crate is modelled as: it polls in any order, returns all results when all are ready, and an error of any future that has one. A reader of a file answers with at least one byte where there are bytes."
  },
  {
   "property": "C120",
   "status": "partial",
   "theorems": [
    "reading_resumes",
    "reading_resumes_somehow",
    "chunk_reading_resumes",
    "reading_resumes_refuted"
   ],
   "note": "Proved for any bytes below 4 GiB (so that counts cannot overflow) when the filter takes every page, and for well-formed chunks of any size with any filter, counting the pages passed over. Refuted where a filter is used and only the returned pages are counted: the new reader runs on into the next column chunk."
  },
  {
   "property": "C121",
   "status": "proved",
   "theorems": [
    "basic_decompressor_matches_fresh",
    "decompressors_agree",
    "basic_decompressor_uncompressed"
   ],
   "note": "For pages whose blocks decode to as many bytes as announced (page_fills, as in C41); nothing is asked of uncompressed pages. The buffer management is the business of the crate streaming_decompression, so the theorems are about every content and capacity of the buffer at each call; into_inner is not modelled."
  },
  {
   "property": "C122",
   "status": "proved",
   "theorems": [
    "file_selected_values",
    "selected_decoding_unique"
   ],
   "note": "For flat columns whose data pages say that their rows are their cells (at least one each), with at most one dictionary page in front, as in C85 and C53. An empty interval in the selection is excluded (C71)."
  },
  {
   "property": "C123",
   "status": "proved",
   "theorems": [
    "file_nested_roundtrip",
    "nested_decoding_unique"
   ],
   "note": "Levels and values of every page are read with the crate's own decoders; Spec/NestedSpec.v says how the format stores entries and how levels and values make entries again; levels and dictionary positions may be in runs of any kind."
  },
  {
   "property": "C124",
   "status": "proved",
   "theorems": [
    "every_route_gives_pages",
    "asynchronous_nested_roundtrip",
    "every_route_starts_alike",
    "column_bytes_suffice"
   ],
   "note": "For written files the page filter accepts every page. Reading the bytes of columns asynchronously is C119."
  },
  {
   "property": "C125",
   "status": "proved",
   "theorems": [
    "index_keeps_wanted_rows",
    "pruned_rows_come_back"
   ],
   "note": "The meaning of bounds is a parameter (any order, any treatment of missing bounds), as are the test and the wanted values; the hypothesis is that a page's statistics are true in that meaning. Flat columns, as in C122. In index_keeps_wanted_rows the column with the index may hold any pages."
  },
  {
   "property": "C126",
   "status": "partial",
   "theorems": [
    "null_marks_refuted",
    "null_marks_exact"
   ],
   "note": "False: a page with a value whose statistics tell no minimum is marked as a null page. null_marks_exact: the marks are right for pages whose statistics have a minimum exactly if the page has a value."
  },
  {
   "property": "C127",
   "status": "partial",
   "theorems": [
    "chunk_bounds_true",
    "kept_row_groups_have_all_wanted",
    "skipped_row_group_refuted"
   ],
   "note": "False if a page has no statistics: the chunk claims the bounds of the others and the row group is skipped (skipped_row_group_refuted, a whole file). Proved for all files whose data pages all have true statistics, for every type but INT96 (merging panics, C76), when no bound is a NaN (C74) and no byte-array minimum or maximum of a page is a strict prefix of another (C36)."
  },
  {
   "property": "C128",
   "status": "partial",
   "theorems": [
    "read_metadata_honest",
    "read_metadata_with_size_honest",
    "read_column_honest",
    "read_columns_honest",
    "read_columns_indexes_honest",
    "read_pages_locations_honest",
    "bloom_read_honest",
    "get_page_iterator_honest",
    "pages_before_failure",
    "page_reader_reports_failure",
    "stream_reports_failure",
    "indexed_reader_reports_failure",
    "going_on_after_failure_refuted",
    "header_failure_can_be_retried"
   ],
   "note": "False only for the last sentence: a page reader asked again after a failure inside a page takes the page's bytes for a page header and can return a page that is none of the column's (going_on_after_failure_refuted); it is safe after a failure before the first byte of a header (header_failure_can_be_retried). All else is proved for every sequence of failures."
  },
  {
   "property": "C129",
   "status": "proved",
   "theorems": [
    "level_reaches_codec",
    "any_level_roundtrip",
    "mixed_levels_roundtrip"
   ],
   "note": "Without a level, brotli gets 1, gzip 6 and zstd 0 (which asks zstd for its own default). The encoders of the other crates are arguments; their decoders are assumed to undo them at the levels in range only."
  },
  {
   "property": "C130",
   "status": "proved",
   "theorems": [
    "search_equals_scan"
   ],
   "note": "For column types with an order: no INT96 column, no bound that is a NaN, no byte-string bound that is a prefix of another one (merging the statistics of pages goes wrong there, C74, C76, C127); and for flat columns, as C122."
  },
  {
   "property": "C131",
   "status": "proved",
   "theorems": [
    "any_layout_read",
    "own_layout_read"
   ],
   "note": "Exact in both directions: the cells read are these and no others. Flat columns (maximum repetition level 0, definition level 0 or 1); a page has fewer than 2^31 cells and its values take fewer than 2^61 bytes. The reader that follows runs is specified in Spec/RunsSpec.v; it aborts if a value is missing, so the theorem also says that none is. Row selections are sorted, disjoint, non-empty and inside the page, as select_pages makes them (C22, C71). The crate's boolean iterator over the same runs does not read several runs (C28)."
  },
  {
   "property": "C132",
   "status": "proved",
   "theorems": [
    "foreign_column_read",
    "any_layout_read",
    "foreign_chunk_read"
   ],
   "note": "Composes C96 (chunks of any writer), decompression into any buffer and C131 (following runs). Columns that are flat: maximum repetition level 0 and maximum definition level 0 or 1; plain or dictionary encoding. LZ4 frames under the condition of C66 (what follows a frame is longer than its block). Trailing pages without cells may be left out. page_fills (C41) no longer asks anything of version 2 pages whose header says that their values are not compressed."
  },
  {
   "property": "C133",
   "status": "proved",
   "theorems": [
    "foreign_file_read",
    "foreign_nested_column_read",
    "foreign_file_opened",
    "nested_decoding_unique"
   ],
   "note": "Plain and dictionary encodings; levels in the hybrid encoding, which is the only one the crate reads. The metadata is the value that the thrift decoder gives for the footer (hypothesis reads_back; C56 and the wire codec show it for footers the crate writes). Which metadata is acceptable is C63. LZ4 frames under the condition of C66."
  },
  {
   "property": "C134",
   "status": "proved",
   "theorems": [
    "foreign_selected_read",
    "any_layout_read",
    "select_pages_exact"
   ],
   "note": "Flat columns with plain or dictionary encoding. Pages have at least one row: pages without rows can be given an empty selection (C71). That the dictionary ends where the first data page begins, and that a column without a dictionary begins with its first data page, is what the reader takes for granted; it is part of the hypotheses (begins_at)."
  },
  {
   "property": "C135",
   "status": "proved",
   "theorems": [
    "foreign_search",
    "foreign_selected_read",
    "compute_rows_exact"
   ],
   "note": "The column with the index may have any encoding of its pages, as only their rows and the truth of the bounds matter. The column that is read is flat, plain or dictionary-encoded (C134). Searches are any function from the bounds of a page to whether it is kept; truth of bounds and soundness of the search are hypotheses, for any meaning of being within bounds."
  },
  {
   "property": "C136",
   "status": "partial",
   "theorems": [
    "copied_pages_refused",
    "copied_column_read"
   ],
   "note": "False as stated: pages that a reader returns do not tell how many rows they have, and a row group whose first column is made of them is refused (copied_pages_refused, for every chunk with a data page; with an unlimited sink and null counts and rows within 64 bits). Proved instead: after somebody tells the rows of each data page with select_rows, the column of the new file gives the same entries (copied_column_read, any nesting). That the pages are written is a hypothesis there; C107 says exactly when they are. The mark of sorted dictionaries is lost (C43)."
  },
  {
   "property": "C137",
   "status": "proved",
   "theorems": [
    "foreign_statistics",
    "foreign_skip",
    "foreign_skip_nested"
   ],
   "note": "foreign_statistics is the decoding of the statistics of one chunk, for every physical type; foreign_skip is the search over the whole file, from its bytes to the cells, for flat columns, and foreign_skip_nested to the entries of columns of any nesting. What it means for bounds to be true is any relation between bounds and values that the test respects, so orders of any writer are covered."
  },
  {
   "property": "C138",
   "status": "proved",
   "theorems": [
    "foreign_search_equals_scan"
   ],
   "note": "For flat columns with both indexes in every row group, from the bytes of the file to the cells. What it means for bounds to be true is any relation between bounds and values that the test respects. The search reads the column it tests; reading another column of the same row group is C135."
  },
  {
   "property": "C139",
   "status": "proved",
   "theorems": [
    "foreign_query"
   ],
   "note": "For flat columns with offset indexes, and a column index on the column that is searched, in every row group; from the bytes of the file to pairs of cells."
  }
 ]
}