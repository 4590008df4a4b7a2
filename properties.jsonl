{"id": "C01", "title": "ULEB128 round trip", "statement": "Writing any unsigned 64-bit integer with the ULEB128 encoder and decoding the bytes returns the same integer and reports exactly the number of bytes written as consumed, whatever bytes follow it in the buffer; at most ten bytes are written and no shorter ULEB128 representation exists.", "quantifier": "every value in 0..2^64 and every byte string that follows the encoding", "why_tests_cant": "2^64 values times arbitrary trailing bytes cannot be enumerated; the carry over byte ten only shows on values above 2^63.", "anchors": ["src/encoding/uleb128.rs: encode, decode"]}
{"id": "C02", "title": "ZigZag ULEB128 round trip", "statement": "Writing any signed 64-bit integer with the zigzag encoder and decoding the bytes returns the same integer and the number of bytes written, whatever bytes follow.", "quantifier": "every value in -2^63..2^63 and every byte string that follows", "why_tests_cant": "The sign/shift bit trick must be right on all 2^64 values, including i64::MIN.", "anchors": ["src/encoding/zigzag_leb128.rs: encode, decode", "src/encoding/uleb128.rs"]}
{"id": "C03", "title": "ULEB128 decoding of arbitrary bytes", "statement": "On any byte string the ULEB128 decoder either returns the little-endian base-128 value of the leading group (never consuming more bytes than exist, at most ten), or panics, and it panics exactly when nine continuation bytes are followed by a byte larger than one.", "quantifier": "every byte string, well-formed or not", "why_tests_cant": "Adversarial inputs form an infinite set; fuzzing only samples it.", "anchors": ["src/encoding/uleb128.rs: decode"]}
{"id": "C04", "title": "Bit-packing follows the LSB-first layout of the format", "statement": "For every integer width (8, 16, 32, 64) and every bit width not above it, packing one block of values that fit produces the byte string whose bit number i*w+j (least significant bit first) is bit j of value i, and unpacking reads exactly those bits back.", "quantifier": "every integer width, every bit width, every block of values", "why_tests_cant": "There are up to 65 widths per integer type and 2^(64*64) blocks; off-by-one errors hide at word-straddling positions.", "anchors": ["src/encoding/bitpacked/pack.rs", "src/encoding/bitpacked/unpack.rs"]}
{"id": "C05", "title": "Bit-packed encode/decode round trip", "statement": "Bit-packing any sequence of values that fit the bit width and decoding that many values from the result returns the same sequence, for any sequence length (not only multiples of the block).", "quantifier": "every integer type, every bit width from 1 to the integer width, every finite sequence of fitting values", "why_tests_cant": "All lengths modulo the block size and all widths have to work together; tests pick a handful.", "anchors": ["src/encoding/bitpacked/encode.rs: encode, encode_pack", "src/encoding/bitpacked/decode.rs: Decoder"]}
{"id": "C06", "title": "Bit-packed decoder on arbitrary bytes", "statement": "Constructing a bit-packed decoder fails with an error exactly when the bit width is zero or the buffer has fewer bits than the requested values need; otherwise (for a bit width not above the integer width) it yields exactly the requested number of values, the i-th being bits [i*w, (i+1)*w) of the buffer, and its size hint is exact at every point.", "quantifier": "every byte string, every bit width, every requested length", "why_tests_cant": "The claim covers every buffer length against every request, including partial last blocks.", "anchors": ["src/encoding/bitpacked/decode.rs: Decoder::try_new, next, size_hint"]}
{"id": "C07", "title": "Hybrid RLE/bit-packed round trip", "statement": "Encoding any sequence of unsigned 32-bit values that fit the bit width with the hybrid RLE encoder and decoding as many values with the hybrid decoder returns the same sequence.", "quantifier": "every bit width from 0 to 32, every finite sequence of fitting values", "why_tests_cant": "Sequence lengths around multiples of 8 and 32 interact with every bit width; only a proof covers all combinations.", "anchors": ["src/encoding/hybrid_rle/encoder.rs: encode_u32, bitpacked_encode_u32", "src/encoding/hybrid_rle/mod.rs: HybridRleDecoder"]}
{"id": "C08", "title": "Hybrid RLE decoder accepts every conforming stream", "statement": "Given the bytes of any concatenation of RLE runs and bit-packed runs laid out as the Parquet format prescribes, the hybrid decoder yields the concatenation of the runs' values, cut at the number of values requested.", "quantifier": "every bit width from 1 to 32, every list of runs of any lengths and values, every requested count not above the total", "why_tests_cant": "Streams from other writers mix runs arbitrarily; tests in the repository only use a few fixed streams.", "anchors": ["src/encoding/hybrid_rle/decoder.rs: Decoder::next", "src/encoding/hybrid_rle/mod.rs: HybridRleDecoder, read_next"]}
{"id": "C09", "title": "Hybrid RLE decoder yields exactly the requested number of items", "statement": "Whatever bytes it is given, iterating the hybrid RLE decoder to the end without a panic yields exactly the requested number of items, and the size hint equals the number of items still to come at every point; values missing from the buffer read as zero.", "quantifier": "every byte string, bit width and requested count", "why_tests_cant": "Short and corrupt buffers are unbounded in number, and the size hint has to be right after every call.", "anchors": ["src/encoding/hybrid_rle/mod.rs: HybridRleDecoder::try_new, next, size_hint"]}
{"id": "C10", "title": "Boolean bitmaps round trip", "statement": "Encoding any sequence of booleans as a bitmap and iterating over it returns the sequence; through the hybrid RLE boolean encoder and decoder the same holds. The bitmap occupies ceil(n/8) bytes, LSB first.", "quantifier": "every finite boolean sequence, and every start offset and length inside a bitmap", "why_tests_cant": "Lengths and offsets modulo 8 have to be right for every size.", "anchors": ["src/encoding/hybrid_rle/bitmap.rs: encode_bool, BitmapIter", "src/encoding/hybrid_rle/encoder.rs: encode_bool"]}
{"id": "C11", "title": "Hybrid RLE decoding of corrupt bytes does not panic", "statement": "Decoding a hybrid RLE stream from untrusted bytes reports an error or yields values but never panics.", "quantifier": "every byte string and bit width", "why_tests_cant": "Requires all byte strings; a fuzzer can miss the single truncated position.", "anchors": ["src/encoding/hybrid_rle/decoder.rs: Decoder::next", "src/encoding/uleb128.rs: decode"]}
{"id": "C12", "title": "DELTA_BINARY_PACKED round trip", "statement": "Encoding any sequence of signed 64-bit integers with the delta encoder (release-mode wrapping arithmetic) and decoding returns the same sequence; the decoder reports as consumed exactly the bytes the encoder wrote, whatever bytes follow.", "quantifier": "every finite sequence of 64-bit integers, including extreme values whose differences overflow, and every trailing byte string", "why_tests_cant": "Overflowing differences, partial blocks and stale buffer contents combine over unbounded sequences.", "anchors": ["src/encoding/delta_bitpacked/encoder.rs: encode, write_miniblock", "src/encoding/delta_bitpacked/decoder.rs: Decoder, Block"]}
{"id": "C13", "title": "Delta encoding does not panic on large differences", "statement": "With overflow checks on (debug builds) the delta encoder does not panic on any input sequence.", "quantifier": "every finite sequence of 64-bit integers", "why_tests_cant": "The failing inputs need differences beyond 2^63, which test data rarely has.", "anchors": ["src/encoding/delta_bitpacked/encoder.rs: encode"]}
{"id": "C14", "title": "DELTA_BINARY_PACKED decoder accepts every conforming stream", "statement": "For any block size that is a multiple of 128, any number of miniblocks per block whose size is a multiple of 8, any per-miniblock bit widths up to 64 and any values, decoding the stream laid out as the Parquet format prescribes yields the values, with wrapping 64-bit addition.", "quantifier": "every block geometry, every choice of bit widths, every value sequence", "why_tests_cant": "Other writers use other block geometries than this crate's encoder; the space is unbounded.", "anchors": ["src/encoding/delta_bitpacked/decoder.rs: Decoder::try_new, load_delta, Block::try_new, advance_miniblock, next"]}
{"id": "C15", "title": "DELTA_LENGTH_BYTE_ARRAY round trip", "statement": "Encoding any sequence of byte strings with the delta-length encoder and decoding gives back every length in order and a values area that is the concatenation of the strings, so cutting it by the lengths returns the original strings.", "quantifier": "every finite sequence of byte strings whose total length fits in 31 bits", "why_tests_cant": "Unbounded sequences and lengths; the values area offset depends on the delta header size.", "anchors": ["src/encoding/delta_length_byte_array/encoder.rs: encode", "src/encoding/delta_length_byte_array/decoder.rs: Decoder"]}
{"id": "C16", "title": "DELTA_BYTE_ARRAY round trip when no string is a strict prefix of its predecessor", "statement": "Encoding any sequence of byte strings in which no string is a strict prefix of the string before it, and decoding prefix lengths, suffix lengths and suffixes, rebuilds the original strings.", "quantifier": "every finite sequence of byte strings satisfying the condition, total length below 2^31", "why_tests_cant": "Prefix sharing between neighbours is a relation on unbounded sequences.", "anchors": ["src/encoding/delta_byte_array/encoder.rs: encode", "src/encoding/delta_byte_array/decoder.rs: Decoder"]}
{"id": "C17", "title": "DELTA_BYTE_ARRAY encoding works for every sequence", "statement": "The delta byte array encoder encodes every sequence of byte strings without panicking.", "quantifier": "every finite sequence of byte strings", "why_tests_cant": "Fails only when a string is a strict prefix of the one before; the tests have no such pair.", "anchors": ["src/encoding/delta_byte_array/encoder.rs: encode"]}
{"id": "C18", "title": "PLAIN byte array iteration", "statement": "For the PLAIN encoding of any sequence of byte strings the byte array iterator returns exactly the sequence; on arbitrary bytes it never panics, every returned string together with its four length bytes is a consecutive piece of the buffer, and the iteration ends after at most len/4 items.", "quantifier": "every sequence of byte strings (each shorter than 2^32), and every byte string as malformed input", "why_tests_cant": "Corrupt length prefixes are unbounded.", "anchors": ["src/encoding/plain_byte_array.rs: BinaryIter"]}
{"id": "C19", "title": "Native values round trip bit-exactly", "statement": "Every 32/64-bit integer, float, double and 96-bit value is written as its little-endian bytes and decoding those bytes gives back the same bit pattern; decoding panics exactly when the slice has the wrong length.", "quantifier": "every bit pattern of every native type (NaN payloads included)", "why_tests_cant": "2^96 bit patterns.", "anchors": ["src/types.rs: NativeType, decode"]}
{"id": "C20", "title": "Plain page of native values decodes chunk by chunk", "statement": "Opening a PLAIN page of a native type fails with an error exactly when the values area is not a multiple of the value size; otherwise it yields, in order, exactly the values whose little-endian encodings make up the area.", "quantifier": "every values area and every native width", "why_tests_cant": "All lengths and contents.", "anchors": ["src/deserialize/native.rs: native_cast, NativePageState", "src/types.rs: decode"]}
{"id": "C21", "title": "Fixed-length byte array iteration", "statement": "Iterating a fixed-length byte array page of item size n yields the consecutive n-byte pieces of the values area in order and fails at construction when the area is not a multiple of n.", "quantifier": "every values area and item size", "why_tests_cant": "All sizes and contents.", "anchors": ["src/deserialize/fixed_len.rs: FixexBinaryIter"]}
{"id": "C22", "title": "Row intervals of pages partition the row group", "statement": "For page locations with non-decreasing first-row indexes the computed page row intervals are consecutive, disjoint, start where the first page starts, and cover all rows up to the row-group size; inputs with a negative or decreasing index are errors, not wrong intervals.", "quantifier": "every list of page locations and every row count", "why_tests_cant": "Page lists are unbounded; boundary cases (empty pages, last page) matter.", "anchors": ["src/indexes/intervals.rs: compute_page_row_intervals"]}
{"id": "C23", "title": "Page selection returns exactly the requested rows", "statement": "Given sorted disjoint row intervals, selecting pages returns one entry per page location in order, with the page's byte range, and the selected rows of the pages, shifted by the page's first row, are exactly the rows of the intervals (no row lost, none added, none twice).", "quantifier": "every list of page locations accepted by the index, every sorted list of disjoint row intervals, every row count", "why_tests_cant": "Interval/page overlaps come in unboundedly many arrangements.", "anchors": ["src/indexes/intervals.rs: select_pages, is_in"]}
{"id": "C24", "title": "Row intervals of selected pages", "statement": "Combining a per-page selection with the page intervals returns exactly the rows of the selected pages.", "quantifier": "every selection vector and page interval list", "why_tests_cant": "Unbounded lists.", "anchors": ["src/indexes/intervals.rs: compute_rows"]}
{"id": "C25", "title": "Sliced iteration returns exactly the selected items", "statement": "Filtering an iterator by sorted, disjoint, non-empty row intervals yields exactly the items at the selected positions, in order, and the size hint is exact.", "quantifier": "every item sequence and every sorted list of disjoint non-empty intervals within it", "why_tests_cant": "Unbounded sequences and interval lists.", "anchors": ["src/deserialize/utils.rs: SliceFilteredIter"]}
{"id": "C26", "title": "Filtered definition-level runs select exactly the requested rows", "statement": "Filtering a sequence of definition-level runs by sorted, disjoint, non-empty intervals yields runs whose expansion is exactly the levels at the selected rows, and the number of set (defined) items reported as skipped equals the number of defined levels at the skipped rows before each emitted run.", "quantifier": "every run sequence, every sorted list of disjoint non-empty intervals inside it", "why_tests_cant": "Runs and intervals overlap in unboundedly many ways; the skip counts drive which values are dropped.", "anchors": ["src/deserialize/filtered_rle.rs: FilteredHybridBitmapIter"]}
{"id": "C27", "title": "Definition-level runs are cut at the page's row count", "statement": "Iterating the definition-level runs of a page never yields more levels than the page declares, and yields exactly the levels of the encoded stream up to that count.", "quantifier": "every run list and every declared count", "why_tests_cant": "Bit-packed runs are padded to multiples of eight by writers, so the cut position varies over all lengths.", "anchors": ["src/deserialize/hybrid_rle.rs: HybridRleIter"]}
{"id": "C28", "title": "Boolean definition-level iterator yields every level", "statement": "Iterating the boolean definition levels of a page yields all its levels, run after run.", "quantifier": "every list of runs", "why_tests_cant": "The failure needs two or more runs; single-run tests pass.", "anchors": ["src/deserialize/hybrid_rle.rs: HybridRleBooleanIter::next"]}
{"id": "C29", "title": "Optional values pair validity with values", "statement": "Reading an optional page yields one item per definition level, None for undefined levels, and the k-th defined level gets the k-th stored value.", "quantifier": "every validity sequence and every value sequence", "why_tests_cant": "Unbounded interleavings of nulls and values.", "anchors": ["src/deserialize/utils.rs: OptionalValues"]}
{"id": "C30", "title": "Dictionary pages decode to the indexed dictionary entries", "statement": "Decoding a dictionary-encoded page yields the dictionary indices stored in the page, in order, and as many as the page declares; a bit width above 32 is an error.", "quantifier": "every index sequence and bit width", "why_tests_cant": "All widths and lengths.", "anchors": ["src/deserialize/utils.rs: dict_indices_decoder", "src/encoding/hybrid_rle/mod.rs"]}
{"id": "C31", "title": "Bloom filters have no false negatives", "statement": "After any sequence of insertions into a split-block bloom filter of any size (a positive multiple of 32 bytes), every inserted hash is reported as present, whatever the filter contained before.", "quantifier": "every bitset size, every initial content, every insertion history, every 64-bit hash", "why_tests_cant": "2^64 hashes and unbounded histories.", "anchors": ["src/bloom_filter/split_block.rs: insert, is_in_set, hash_to_block_index, new_mask"]}
{"id": "C32", "title": "Bloom filter insertions only add bits, commute and are idempotent", "statement": "Inserting a hash never clears a bit and never changes the length of the bitset or any byte outside one 32-byte block; the final bitset does not depend on the order or repetition of insertions.", "quantifier": "every bitset, every pair and permutation of insertions", "why_tests_cant": "Histories are unbounded.", "anchors": ["src/bloom_filter/split_block.rs: insert"]}
{"id": "C33", "title": "Byte-string comparison used for statistics is a total order", "statement": "The binary comparison used to compare byte-array statistics is the lexicographic order, so equal means equal strings.", "quantifier": "every pair of byte strings", "why_tests_cant": "Fails only on strict prefixes.", "anchors": ["src/types.rs: ord_binary"]}
{"id": "C34", "title": "Statistics survive serialization", "statement": "Serializing typed statistics to the thrift form and deserializing them with the same primitive type returns the same statistics, for every physical type, and deserialization rejects every min/max of the wrong byte length instead of misreading it.", "quantifier": "every statistics value of every physical type; every thrift statistics", "why_tests_cant": "All value widths, all optional-field combinations.", "anchors": ["src/statistics/mod.rs: serialize_statistics, deserialize_statistics", "src/statistics/primitive.rs", "src/statistics/binary.rs", "src/statistics/boolean.rs", "src/statistics/fixed_len_binary.rs"]}
{"id": "C35", "title": "Column-chunk statistics bound every page (integers and booleans)", "statement": "When every page of a column chunk carries statistics with min and max, the chunk's min is at most, and its max at least, the min and max of every page, both are attained by some page, and the null count is the sum of the page null counts.", "quantifier": "every number of pages and every page statistics of integer or boolean type", "why_tests_cant": "Unbounded page lists.", "anchors": ["src/write/statistics.rs: reduce, reduce_primitive, reduce_boolean, reduce_single"]}
{"id": "C36", "title": "Column-chunk statistics bound every page (byte arrays)", "statement": "The chunk's byte-array min is at most and its max at least the min/max of every page in unsigned lexicographic order.", "quantifier": "every number of pages and all byte-array bounds", "why_tests_cant": "Fails only when one bound is a strict prefix of another.", "anchors": ["src/write/statistics.rs: reduce_binary, ord_binary"]}
{"id": "C37", "title": "Column-chunk statistics are only claimed when known for all pages", "statement": "The null count and bounds of the chunk cover all pages, also pages without statistics.", "quantifier": "every mix of pages with and without statistics", "why_tests_cant": "Mixed histories are unbounded; the effect is a wrong row-group skip at query time.", "anchors": ["src/write/statistics.rs: reduce, reduce_single"]}
{"id": "C38", "title": "Splitting a v1 page buffer", "statement": "Splitting a v1 page buffer never panics; it errors exactly when a declared level length exceeds the buffer, and otherwise the repetition levels, definition levels and values with their four-byte length prefixes concatenate to the buffer; a buffer assembled from levels and values splits into exactly those parts.", "quantifier": "every buffer, every combination of has-repetition and has-definition levels", "why_tests_cant": "Arbitrary untrusted buffers.", "anchors": ["src/page/mod.rs: split_buffer_v1, split_buffer", "src/encoding/mod.rs: get_length"]}
{"id": "C39", "title": "Splitting a v2 page buffer", "statement": "Splitting a v2 page buffer by its header lengths returns the three consecutive pieces; for lengths beyond the buffer it reports an error.", "quantifier": "every buffer and every pair of header lengths", "why_tests_cant": "Arbitrary untrusted headers.", "anchors": ["src/page/mod.rs: split_buffer_v2, split_buffer"]}
{"id": "C40", "title": "Page compression round trip", "statement": "Compressing a data page (v1 or v2) or dictionary page with any codec whose decompressor inverts its compressor, and decompressing it, returns a page with the same header, buffer and metadata; in v2 pages the level bytes stay uncompressed in front.", "quantifier": "every page, every codec satisfying the inverse law, every previous content of the reused buffers", "why_tests_cant": "All page contents and all scratch-buffer states.", "anchors": ["src/write/compression.rs: compress, compress_data, compress_dict", "src/read/compression.rs: decompress, decompress_v1, decompress_v2"]}
{"id": "C41", "title": "Buffer reuse never leaks into pages", "statement": "Reading a sequence of pages through the buffer-reusing decompressor yields the same pages as decompressing each page with fresh buffers, for any initial buffers and any mix of compressed and uncompressed pages; the same holds for the reusing compressor.", "quantifier": "every page sequence, every initial scratch content", "why_tests_cant": "State carried over unbounded page histories.", "anchors": ["src/read/compression.rs: Decompressor, decompress_reuse, decompress_buffer", "src/write/compression.rs: Compressor"]}
{"id": "C42", "title": "Page write/read round trip", "statement": "Reading back a page that was written returns the same page: same header, same bytes, same sizes and counts.", "quantifier": "every data page and dictionary page within the format's size limits", "why_tests_cant": "All contents, sizes and header combinations.", "anchors": ["src/write/page.rs: write_page, assemble_data_page_header, assemble_dict_page_header", "src/read/page/reader.rs: build_page, finish_page"]}
{"id": "C43", "title": "Dictionary pages keep their sorted flag", "statement": "A dictionary page written as sorted is read back as sorted.", "quantifier": "every dictionary page", "why_tests_cant": "Only a page with the flag set shows the loss.", "anchors": ["src/write/page.rs: assemble_dict_page_header", "src/read/page/reader.rs: finish_page"]}
{"id": "C44", "title": "The page reader returns all pages of a chunk and nothing else", "statement": "Iterating a column chunk written by the crate yields exactly its pages, in order, then ends, leaving the source at the end of the chunk; with a page filter it yields exactly the data pages the filter accepts and all dictionary pages.", "quantifier": "every list of pages, every filter", "why_tests_cant": "Unbounded page lists and arbitrary filters.", "anchors": ["src/read/page/reader.rs: PageReader::next, next_page, build_page"]}
{"id": "C45", "title": "The page reader respects the size limit", "statement": "The page reader never returns a page larger than the configured maximum: such a page is reported as an error, and a truncated source is an error too.", "quantifier": "every source, header and limit", "why_tests_cant": "Arbitrary untrusted input.", "anchors": ["src/read/page/reader.rs: build_page"]}
{"id": "C46", "title": "Column chunk metadata describes the bytes written", "statement": "The column chunk metadata produced by the writer has total compressed size equal to the bytes of its pages including headers, total uncompressed size likewise, value count equal to the sum over data pages, start offset equal to the first byte written, the single codec of its pages, and the sorted set of encodings used; mixed codecs are rejected.", "quantifier": "every page list", "why_tests_cant": "Unbounded lists of pages.", "anchors": ["src/write/column_chunk.rs: write_column_chunk, build_column_chunk"]}
{"id": "C47", "title": "A written file locates every column chunk", "statement": "After any sequence of successful row-group writes and a successful end, the file starts and ends with PAR1, and for every row group and column the byte range recorded in the metadata is exactly the bytes of the pages written for it; the ranges are disjoint and in order.", "quantifier": "every schema, every history of row-group writes, every page content", "why_tests_cant": "Offsets accumulate over unbounded histories.", "anchors": ["src/write/file.rs: FileWriter", "src/write/row_group.rs: write_row_group", "src/metadata/column_chunk_metadata.rs: byte_range"]}
{"id": "C48", "title": "Metadata of a written file is read back", "statement": "Reading the metadata of a file produced by the writer returns the metadata that was written, whether the footer is smaller or larger than the 64 KiB the reader fetches first.", "quantifier": "every metadata and file content, every footer size below 2^31", "why_tests_cant": "Footer sizes on both sides of and at the 64 KiB boundary, unbounded contents.", "anchors": ["src/write/file.rs: end_file, start_file", "src/read/metadata.rs: read_metadata, read_metadata_with_size"]}
{"id": "C49", "title": "Footer parsing of arbitrary bytes", "statement": "Opening arbitrary bytes as a Parquet file never panics or reads outside the file: it is an error when shorter than 12 bytes, when it does not end in PAR1, when the declared length is negative or exceeds the file.", "quantifier": "every byte string", "why_tests_cant": "Arbitrary untrusted files.", "anchors": ["src/read/metadata.rs: read_metadata, read_metadata_with_size, metadata_len"]}
{"id": "C50", "title": "A file cannot be ended twice or written to after the end", "statement": "After a successful end, a second end is an error that writes nothing, and a further row-group write is an error that writes nothing.", "quantifier": "every history of writer calls", "why_tests_cant": "Requires all call sequences, for the synchronous and the asynchronous writer.", "anchors": ["src/write/file.rs: FileWriter::write, end", "src/write/stream.rs: FileStreamer::write, end"]}
{"id": "C51", "title": "A failed row-group write does not corrupt later row groups", "statement": "If writing a row group fails, row groups written afterwards are still located correctly by the metadata.", "quantifier": "every history in which some writes fail part-way", "why_tests_cant": "Failure points are unbounded.", "anchors": ["src/write/file.rs: FileWriter::write", "src/write/row_group.rs: write_row_group"]}
{"id": "C52", "title": "Offset index describes the data pages", "statement": "The offset index written for a column has one entry per data page in order, its offsets and sizes are exactly the byte range of the page including its header, and first-row indexes are the running row counts.", "quantifier": "every page list", "why_tests_cant": "Unbounded lists.", "anchors": ["src/write/indexes/serialize.rs: serialize_offset_index"]}
{"id": "C53", "title": "Reading with page indexes returns the same pages", "statement": "Reading a column of a written file through the offset index returns the dictionary page (if any) and exactly the data pages with a non-empty row selection, with the same content as the sequential reader.", "quantifier": "every page list and every row selection", "why_tests_cant": "Unbounded lists and selections.", "anchors": ["src/read/page/indexed_reader.rs: IndexedPageReader", "src/indexes/intervals.rs: select_pages"]}
{"id": "C54", "title": "Column index has one entry per data page", "statement": "The column index has, for each data page in order, its null count, min and max, and marks as null pages exactly the pages without a min; pages without statistics or null count are an error.", "quantifier": "every page list", "why_tests_cant": "Unbounded lists.", "anchors": ["src/write/indexes/serialize.rs: serialize_column_index", "src/indexes/index.rs"]}
{"id": "C55", "title": "Asynchronous writer and reader behave as the synchronous ones", "statement": "For the same calls, the asynchronous file writer produces the same bytes as the synchronous one, and the asynchronous page stream yields the same pages as the synchronous page reader when no filtered page exceeds the size limit.", "quantifier": "every history and every source", "why_tests_cant": "Two independent code paths over unbounded inputs.", "anchors": ["src/write/stream.rs: FileStreamer", "src/read/page/stream.rs: _get_page_stream"]}
{"id": "C56", "title": "Schemas survive serialization", "statement": "Flattening a schema into thrift schema elements and parsing it back returns the same schema, for every schema whose groups are non-empty.", "quantifier": "every schema tree of any depth and width, with all type annotations", "why_tests_cant": "Trees are unbounded.", "anchors": ["src/schema/io_thrift/to_thrift.rs: to_thrift", "src/schema/io_thrift/from_thrift.rs: try_from_thrift"]}
{"id": "C57", "title": "Schemas with empty groups survive serialization", "statement": "Also schemas containing a group without fields, including the empty root schema, are read back after being written.", "quantifier": "every schema tree", "why_tests_cant": "The failing case is an unusual schema no test has.", "anchors": ["src/schema/io_thrift/from_thrift.rs: from_thrift_helper"]}
{"id": "C58", "title": "Leaf columns carry the right paths and levels", "statement": "The columns of a schema are its leaves in depth-first order; each carries the names from its top-level field down, a definition level equal to the number of optional or repeated nodes on that path and a repetition level equal to the number of repeated nodes.", "quantifier": "every schema tree", "why_tests_cant": "Trees are unbounded.", "anchors": ["src/metadata/schema_descriptor.rs: SchemaDescriptor::new, build_tree"]}
{"id": "C59", "title": "Primitive fields only carry annotations valid for their physical type", "statement": "A primitive field is accepted exactly when its converted and logical types are allowed for its physical type; in particular every field of a schema read from a file is valid.", "quantifier": "every combination of physical, converted and logical type and every decimal precision and scale", "why_tests_cant": "Unbounded precision, scale and lengths.", "anchors": ["src/schema/types/spec.rs: check_converted_invariants, check_logical_invariants", "src/schema/types/parquet_type.rs: try_from_primitive"]}
{"id": "C60", "title": "Type annotations survive conversion", "statement": "Converting every enum (repetition, compression codec, encoding, page type, boundary order, converted type, logical type, physical type) to its thrift value and back is the identity, and values outside the known ranges are errors.", "quantifier": "every enum value, every decimal precision/scale and fixed length below 2^31, every thrift integer", "why_tests_cant": "Parameterised variants range over 2^31 values.", "anchors": ["src/parquet_bridge.rs", "src/schema/types/converted_type.rs", "src/schema/types/physical_type.rs"]}
{"id": "C61", "title": "Textual schemas parse to the schema they denote", "statement": "Parsing the textual form of any schema (in the message language) returns that schema.", "quantifier": "every schema tree expressible in the language, any amount of whitespace", "why_tests_cant": "Trees and layouts are unbounded.", "anchors": ["src/schema/io_message/from_message.rs: from_message, Tokenizer, Parser"]}
{"id": "C62", "title": "Malformed textual schemas are rejected", "statement": "Text that stops before the closing brace or continues after it is rejected.", "quantifier": "every text", "why_tests_cant": "Every truncation point has to be rejected.", "anchors": ["src/schema/io_message/from_message.rs: parse_child_types, Tokenizer::backtrack"]}
{"id": "C63", "title": "File metadata survives conversion", "statement": "Converting file metadata to thrift and back keeps version, row count, row groups, schema, key-value metadata, creator and column orders.", "quantifier": "every metadata value", "why_tests_cant": "Unbounded row groups and columns.", "anchors": ["src/metadata/file_metadata.rs: try_from_thrift, into_thrift", "src/metadata/row_metadata.rs", "src/metadata/column_chunk_metadata.rs"]}
{"id": "C64", "title": "Row-group filtering", "statement": "Filtering row groups keeps exactly the row groups accepted by the predicate (called with the group's position), in order, and changes nothing else.", "quantifier": "every metadata and predicate", "why_tests_cant": "Arbitrary predicates.", "anchors": ["src/read/mod.rs: filter_row_groups"]}
{"id": "C65", "title": "Column iteration visits the columns of a field in order", "statement": "Iterating the column chunks of a field visits each of its columns exactly once in schema order, both when reading from a source and when iterating pre-read columns.", "quantifier": "every list of columns", "why_tests_cant": "Unbounded column lists.", "anchors": ["src/read/column/mod.rs: ColumnIterator, ReadColumnIterator", "src/read/mod.rs: get_field_columns"]}
{"id": "C66", "title": "Hadoop-framed LZ4 pages decompress", "statement": "Any concatenation of Hadoop LZ4 frames decompresses to the concatenation of the frames' contents.", "quantifier": "every list of frames, with any LZ4 block codec satisfying the inverse law", "why_tests_cant": "Frame size relations over unbounded frame lists.", "anchors": ["src/compression.rs: try_decompress_hadoop"]}
{"id": "C67", "title": "Level bit width", "statement": "The bit width computed for a maximum level is the smallest width in which every level from zero to the maximum fits.", "quantifier": "every non-negative 16-bit level", "why_tests_cant": "All 2^15 maxima and all levels below each.", "anchors": ["src/read/levels.rs: get_bit_width"]}
{"id": "C68", "title": "Write, read and decode end to end", "statement": "Writing columns of pages to a file with a lawful codec, reading the metadata, iterating the pages of any column and decompressing them yields the pages that were written, in order and with the descriptor of the column; only pages without values that follow the last page with values are left out.", "quantifier": "every schema, every history of row groups, every page content", "why_tests_cant": "The composition of all layers over unbounded data.", "anchors": ["src/write/file.rs", "src/read/metadata.rs", "src/read/mod.rs: get_page_iterator", "src/read/compression.rs"]}
{"id": "C69", "title": "Row counts agree between metadata levels", "statement": "The file's row count is the sum of its row groups' row counts, and a row group's row count is the sum of the rows of the data pages of each of its columns.", "quantifier": "every history of row-group writes", "why_tests_cant": "Inconsistent columns are only visible for particular histories.", "anchors": ["src/write/row_group.rs: compute_num_rows", "src/write/file.rs: end"]}
{"id": "C70", "title": "Bit-packing saturates values that do not fit", "statement": "Bit-packing a value that does not fit in the chosen bit width stores the largest value that fits and leaves the other values unchanged.", "quantifier": "every list of values, including oversized ones, and every bit width", "why_tests_cant": "All positions of oversized values relative to word boundaries.", "anchors": ["src/encoding/bitpacked/encode.rs: encode", "src/encoding/bitpacked/pack.rs: pack"]}
{"id": "C71", "title": "Row selections of pages contain no empty interval", "statement": "The row intervals selected inside a page are never empty, so that a reader of the page can skip to each of them and take at least one row.", "quantifier": "every list of page locations, row count and list of row intervals", "why_tests_cant": "An empty selection arises only for particular alignments of pages without rows and requested intervals.", "anchors": ["src/indexes/intervals.rs: is_in, select_pages", "src/deserialize/utils.rs: SliceFilteredIter"]}
{"id": "C72", "title": "Bloom filters are read back", "statement": "Reading the bloom filter of a column whose header and bitset are stored at the offset recorded in the metadata returns exactly that bitset; without a recorded offset the result is empty.", "quantifier": "every file content, every offset, every bitset", "why_tests_cant": "Any surrounding bytes and any size.", "anchors": ["src/bloom_filter/read.rs: read"]}
{"id": "C73", "title": "Bloom filters that were read can be queried", "statement": "A truncated bloom filter is reported as an error, and looking up a hash in any bitset returned by reading a filter does not panic.", "quantifier": "every file content and every hash", "why_tests_cant": "Depends on the relation of the declared size to the source.", "anchors": ["src/bloom_filter/read.rs: read", "src/bloom_filter/split_block.rs: is_in_set"]}
{"id": "C74", "title": "Column-chunk statistics bound every page (floating point)", "statement": "The chunk's floating-point minimum is at most and its maximum at least every page's, in numeric order, also when some page bound is a NaN.", "quantifier": "every number of pages and every bit pattern of the bounds", "why_tests_cant": "2^64 bit patterns per bound and unbounded page lists.", "anchors": ["src/write/statistics.rs: reduce_primitive"]}
{"id": "C75", "title": "Column-chunk statistics bound every page (unsigned integers)", "statement": "For columns of unsigned integers the chunk's bounds contain every page's bounds in the unsigned order that readers use for such columns.", "quantifier": "every number of pages and every bound", "why_tests_cant": "Fails only when bounds lie on both sides of 2^31.", "anchors": ["src/write/statistics.rs: reduce_primitive", "src/metadata/sort.rs: get_sort_order"]}
{"id": "C76", "title": "Statistics of every physical type can be reduced", "statement": "Reducing page statistics to chunk statistics succeeds for every physical type; pages of different types are an error.", "quantifier": "every list of page statistics", "why_tests_cant": "All types and mixtures.", "anchors": ["src/write/statistics.rs: reduce"]}
{"id": "C77", "title": "Schema containment", "statement": "Checking whether a schema contains another accepts exactly the schemas that select fields of it: each primitive field with the same name, repetition, id and physical type, each group field by field; in particular a schema contains itself and every schema with fewer of its fields.", "quantifier": "every pair of schema trees of any depth and width", "why_tests_cant": "Unbounded trees; the answer depends on name lookups at every level.", "anchors": ["src/schema/types/parquet_type.rs: check_contains"]}
{"id": "C78", "title": "Schema elements from a file never make the parser panic or loop", "statement": "Whatever list of schema elements a file holds, parsing it terminates and returns a schema or an error.", "quantifier": "every list of schema elements, with any child counts including negative and huge ones", "why_tests_cant": "Arbitrary file contents.", "anchors": ["src/schema/io_thrift/from_thrift.rs: try_from_thrift, from_thrift_helper"]}
{"id": "C79", "title": "Sort orders of columns", "statement": "Whether a column's statistics compare as signed or unsigned depends only on its type: a logical type and the equivalent legacy annotation give the same order, annotations that do not change the meaning of the values keep the order of the physical type, and a column without a declared order has the undefined (legacy, signed) order.", "quantifier": "every type, every annotation, every file metadata", "why_tests_cant": "the combinations of annotations and physical types are many and tests cover a few files", "anchors": ["src/metadata/sort.rs: get_sort_order", "src/metadata/column_order.rs", "src/metadata/file_metadata.rs: column_order, parse_column_orders"]}
{"id": "C80", "title": "Indexes of any columns", "statement": "Reading the page locations or the column indexes of any list of columns of a written file returns, in order, those of exactly these columns.", "quantifier": "every written file and every list of its columns", "why_tests_cant": "Which bytes are read depends on the whole list of columns and on the layout of the file.", "anchors": ["src/read/indexes/read.rs: read_pages_locations, read_columns_indexes"]}
{"id": "C81", "title": "Missing indexes give an empty result", "statement": "Where a file has no column indexes or no offset indexes, the functions that read them return an empty list; where only some of the columns have them, they return an error.", "quantifier": "every list of columns", "why_tests_cant": "Quantified over all column metadata.", "anchors": ["src/read/indexes/read.rs: prepare_read"]}
{"id": "C82", "title": "Index readers do not panic", "statement": "Reading page locations or column indexes never panics, whatever the file and its metadata.", "quantifier": "every file and every metadata", "why_tests_cant": "Adversarial inputs.", "anchors": ["src/read/indexes/read.rs", "src/indexes/index.rs"]}
{"id": "C83", "title": "Parsing a textual schema never panics", "statement": "Parsing any text as a schema returns a schema or an error and terminates.", "quantifier": "every text, every nesting depth, every point at which the text stops", "why_tests_cant": "The parser steps back in its token list, recurses on groups and ends in unreachable branches; only a proof covers every text.", "anchors": ["src/schema/io_message/from_message.rs: Tokenizer::backtrack, parse_logical_type, parse_child_types"]}
{"id": "C84", "title": "A row group's summary describes its chunks", "statement": "Each row group stored in a file's metadata, whether by the file writer or by converting metadata that was read, names as its file offset the position where its first chunk begins (its dictionary page if one is recorded, else its first data page), as its compressed size the sum of the sizes of its chunks, and (file writer) as its uncompressed size the sum of the chunks' uncompressed sizes and as its ordinal its position, absent beyond 32767.", "quantifier": "every history of writer calls and every metadata whose chunks are located; every number of row groups and columns", "why_tests_cant": "The summaries are sums over all columns and depend on which chunk is first and whether it records a dictionary page.", "anchors": ["src/write/row_group.rs: write_row_group, ColumnOffsetsMetadata", "src/metadata/row_metadata.rs: RowGroupMetaData::into_thrift"]}
{"id": "C85", "title": "Values stored in the pages of a column come back as the same values", "statement": "For a column of fixed-size numbers, booleans, byte strings or fixed-length byte strings, required or optional, whose cells are laid out in data pages as the format says (plain, or as positions into a dictionary page; v1 or v2 pages), compressing the pages, writing them to a file, opening the file, reading the column's pages, decompressing and decoding them yields exactly the same cells (nulls included) in order", "quantifier": "every such column, every split of the cells into pages, every mix of page versions and storage, every lawful codec and every schema and row-group layout the writer accepts", "why_tests_cant": "the claim composes compressor, writer, footer, reader, decompressor, level decoder and value decoder over unboundedly many cells, pages and layouts", "anchors": ["src/write/file.rs FileWriter", "src/write/compression.rs Compressor", "src/read/page/reader.rs PageReader", "src/read/compression.rs Decompressor", "src/deserialize"]}
{"id": "C86", "title": "Encoded streams conform to the format", "statement": "Whatever the encoders return, for 64-bit integers (delta), byte strings (delta length), incrementally encoded byte strings (delta byte array), booleans and small unsigned numbers (RLE/bit-packing hybrid), is a stream of those values laid out exactly as the Parquet format prescribes, so that any other conforming reader recovers them", "quantifier": "every list of values in range, every bit width from 1 to 32 and both overflow modes", "why_tests_cant": "round-trip tests pass through this crate's own lenient decoder and cannot see a layout other readers reject; it must hold for every length and width", "anchors": ["src/encoding/delta_bitpacked/encoder.rs encode", "src/encoding/delta_length_byte_array/encoder.rs encode", "src/encoding/delta_byte_array/encoder.rs encode", "src/encoding/hybrid_rle/encoder.rs encode_u32, encode_bool"]}
{"id": "C87", "title": "String decoders accept every conforming stream", "statement": "Every DELTA_LENGTH_BYTE_ARRAY and every DELTA_BYTE_ARRAY stream that conforms to the format, including those this crate's encoders never produce (several miniblocks per block, strings that are a strict prefix of their predecessor), decodes to its lengths, prefix lengths and bytes, whatever bytes follow the stream", "quantifier": "every list of strings (or prefixes and suffixes), every conforming layout and both overflow modes", "why_tests_cant": "tests decode what the crate itself encoded or a handful of files; the layouts allowed by the format are unboundedly many", "anchors": ["src/encoding/delta_length_byte_array/decoder.rs Decoder", "src/encoding/delta_byte_array/decoder.rs Decoder"]}
{"id": "C88", "title": "An interrupted write leaves a prefix of the file and is reported, and the remains are not taken for a complete file", "statement": "If the destination fails after any number of bytes, then what it holds is exactly that many first bytes of what an uninterrupted sequence of the same calls writes, the call during which it failed returns an error (all calls before it return what they return without the failure), and what is left cannot be opened as a file.", "quantifier": "all formats of thrift values, schemas, writer options, sequences of write and end calls on the blocking and the asynchronous writer, and all numbers of bytes after which the destination fails", "why_tests_cant": "A crash can happen at any byte of any file; tests stop a handful of writes at a handful of positions.", "anchors": ["src/write/file.rs: FileWriter::write, FileWriter::end", "src/write/stream.rs: FileStreamer", "src/read/metadata.rs: read_metadata"]}
{"id": "C89", "title": "Buffers lent to reusing iterators come back", "statement": "A caller lends buffers to the compressor and the decompressor so that allocations are reused. After the last page (or at any time, for the compressor) they are handed back: the compressor's buffer empty, the page buffer and the decompression buffer of the decompressor in this order, never one in the place of the other.", "quantifier": "every page iterator, every sequence of pages compressed or not, every initial buffer and number of calls", "why_tests_cant": "the buffers travel between reader, page and decompressor in a cycle that depends on the whole sequence of pages; a test sees one sequence", "anchors": ["src/read/compression.rs: Decompressor::into_buffers, advance", "src/write/compression.rs: Compressor::into_inner, advance", "src/read/page/reader.rs: swap_buffer"]}
{"id": "C90", "title": "A failed step leaves no page", "statement": "After advance() of the compressor or the decompressor returned an error, get() returns no page; in particular it never returns a page whose bytes are not the bytes of that page.", "quantifier": "every state of the iterator and every error, of the page source or of the codec", "why_tests_cant": "the state after an error depends on what was read before it, and unit tests stop at the first error", "anchors": ["src/read/compression.rs: Decompressor::advance, get", "src/write/compression.rs: Compressor::advance, get"]}
{"id": "C91", "title": "Delta decoding of arbitrary bytes does not panic", "statement": "Given any sequence of bytes, opening a DELTA_BINARY_PACKED decoder and iterating it either returns the values the bytes hold or an error; it never panics, and calling it again after an error does not panic either.", "quantifier": "every sequence of bytes; every build mode (with and without overflow checks); every number of calls", "why_tests_cant": "a corrupt page can hold any bytes; tests feed a few well-formed streams", "anchors": ["src/encoding/delta_bitpacked/decoder.rs: Decoder::try_new, Decoder::next, Block, FallibleIterator"]}
{"id": "C92", "title": "Delta-encoded strings of arbitrary bytes do not panic", "statement": "Given any sequence of bytes, the decoders of DELTA_LENGTH_BYTE_ARRAY and DELTA_BYTE_ARRAY return the lengths the bytes hold or an error, and once the lengths were consumed hand out the bytes of the strings or an error; they never panic.", "quantifier": "every sequence of bytes; every build mode; every point at which the strings are asked for", "why_tests_cant": "a corrupt page can announce any lengths, including negative ones and ones beyond the page's end", "anchors": ["src/encoding/delta_length_byte_array/decoder.rs: Decoder::try_new, next, values, into_values", "src/encoding/delta_byte_array/decoder.rs: Decoder::try_new, next, into_lengths"]}
{"id": "C93", "title": "Opening a data page for decoding", "statement": "Opening the values of any data page, seen as numbers, byte strings, fixed-length byte strings or booleans, either opens it with the nulls and the dictionary the page has, or returns an error; it never panics, and a page of a column with nulls is opened as one with nulls.", "quantifier": "every page that splits into levels and values, every column, every presence of a dictionary and each of the four views; every build mode", "why_tests_cant": "which case is taken depends on encoding code, column type, repetition, presence of a dictionary and the first bytes of two sections at once; tests open a few written pages", "anchors": ["src/deserialize/native.rs: NativePageValuesDecoder, try_new", "src/deserialize/binary.rs: BinaryPageState::try_new", "src/deserialize/fixed_len.rs: FixedLenBinaryPageState::try_new", "src/deserialize/boolean.rs: BooleanPageState::try_new", "src/deserialize/utils.rs: is_optional"]}
{"id": "C94", "title": "Numbers are ordered by their values", "statement": "The ordering of native values (used to compute bounds) is the order of the numbers they stand for: integers and floats numerically, INT96 timestamps by time.", "quantifier": "every pair of 32- and 64-bit integers, floats, doubles and INT96 timestamps", "why_tests_cant": "there are 2^64 and more bit patterns, with NaNs, infinities, signed zeros, subnormal numbers and wrapped timestamps among them", "anchors": ["src/types.rs: NativeType::ord, int96_to_i64_ns"]}
{"id": "C95", "title": "INT96 timestamps convert to nanoseconds since 1970", "statement": "An INT96 timestamp, a Julian day and the nanoseconds within it, converts to the nanoseconds between 1970-01-01 and that time.", "quantifier": "every INT96 value and build mode", "why_tests_cant": "the conversion mixes the calendar's epoch with 64-bit arithmetic that can overflow; tests try a few dates", "anchors": ["src/types.rs: int96_to_i64_ns"]}
{"id": "C96", "title": "Chunks of other writers are read", "statement": "The page reader returns the pages of any well-formed column chunk as they were stored, in order, whichever optional parts of the headers their writer used (checksums, the sorted flag of dictionaries, headers of another version), up to the page with the last value and without the data pages a filter rejects.", "quantifier": "every list of stored pages with every header that describes them, every filter and total, everything behind the chunk", "why_tests_cant": "tests read pages the crate wrote itself, or a few files; writers differ in which optional fields they set", "anchors": ["src/read/page/reader.rs: PageReader::next, build_page, finish_page, get_page_header"]}
{"id": "C97", "title": "Metadata sidecars can be opened", "statement": "A metadata sidecar written from file metadata begins with the magic bytes, has the length that is returned, and opens to that metadata.", "quantifier": "every file metadata and destination", "why_tests_cant": "the length of the metadata is cast between signed and unsigned integers of different sizes; a test writes one small file", "anchors": ["src/write/file.rs: write_metadata_sidecar, end_file", "src/read/metadata.rs: read_metadata"]}
{"id": "C98", "title": "Column indexes describe every page", "statement": "A stored column index is read to one entry per page, with the page's null count and, unless it has only nulls, its bounds; an index that cannot be read so is refused with an error.", "quantifier": "every stored column index (lists of any lengths, bounds of any sizes, any boundary order) and every column type", "why_tests_cant": "the lists of an index are independent and of any length in a corrupt or foreign file; tests read well-formed ones", "anchors": ["src/indexes/index.rs: NativeIndex::try_new, ByteIndex::try_new, FixedLenByteIndex::try_new, BooleanIndex::try_new", "src/read/indexes/deserialize.rs: deserialize"]}
{"id": "C99", "title": "Pages read from arbitrary bytes", "statement": "Whatever bytes a column chunk holds, reading its pages yields, up to the first error, pages that lie one after another in those bytes: each a page header directly followed by exactly the number of bytes that header declares, within the size limit. Reading ends when the announced values reach the chunk's declared total, otherwise it reports an error; it never panics.", "quantifier": "every source below 2^32-1 bytes, every header decoder, size limit, declared total and sequence of pages", "why_tests_cant": "files are produced by other writers and may be damaged anywhere; tests sample a few corruptions", "anchors": ["src/read/page/reader.rs: build_page, next_page, finish_page, get_page_header"]}
{"id": "C100", "title": "Pages located through an index have the size their header says", "statement": "Reading the pages at places given by an offset index returns pages whose payload has the size, and whose encodings are those, their page header declares, or an error, for any file and any places.", "quantifier": "every file content, every list of places and every column start", "why_tests_cant": "the index and the page headers are separate bytes of a foreign file; any combination may occur", "anchors": ["src/read/page/indexed_reader.rs: read_page, read_dict_page, IndexedPageReader::next"]}
{"id": "C101", "title": "Announced numbers of items", "statement": "At every moment of reading a page's definition levels, optional values or plain byte arrays, the number of items announced by size_hint bounds the number of items still to come, as callers that allocate by it rely on.", "quantifier": "every encoded page, every declared number of values and every number of items already taken", "why_tests_cant": "the relation must hold in every intermediate state for every content; tests check the initial number only", "anchors": ["src/deserialize/hybrid_rle.rs: HybridRleBooleanIter::size_hint", "src/deserialize/utils.rs: OptionalValues::size_hint", "src/encoding/plain_byte_array.rs: BinaryIter::size_hint"]}
{"id": "C102", "title": "Every iteration over values, levels and pages ends", "statement": "Whatever the bytes are, and whether or not errors occur on the way, calling next() on an iterator over delta integers, byte strings, fixed-size values, level runs, boolean levels, optional or sliced or filtered values and pages selected through an index gives only finitely many items, at most a number known beforehand (announced count, bytes available, or pages asked for), so that loops over them end. The same for the page reader of a column chunk.", "quantifier": "all byte sequences and states of the iterators, all numbers of calls of next() including calls after errors, both overflow modes", "why_tests_cant": "A non-terminating loop shows only on particular malformed inputs; a test that ends proves nothing about the others", "anchors": ["src/encoding/delta_bitpacked/decoder.rs Decoder", "src/encoding/hybrid_rle/mod.rs HybridRleDecoder", "src/encoding/plain_byte_array.rs BinaryIter", "src/deserialize/filtered_rle.rs FilteredHybridRleDecoderIter", "src/read/page/reader.rs PageReader::next", "src/read/page/stream.rs get_page_stream", "src/read/page/indexed_reader.rs IndexedPageReader"]}
{"id": "C103", "title": "The kind of an error tells what is wrong", "statement": "An error (as opposed to a panic) returned while parsing a textual schema, opening a file, reading its metadata, indexes or statistics, choosing rows, or decoding values always has the kind OutOfSpec. A page reader returns this kind, or WouldOverAllocate, and the latter only if a page header announces more bytes than the limit given. Opening a page returns FeatureNotSupported exactly for encodings without a decoder, decompressing one only for LZO, compressing one only for LZO and the deprecated LZ4. InvalidParameter is returned exactly for a compression level out of range, for opening a page as fixed-length strings if the column is none, and for opening a page of booleans that are not plain.", "quantifier": "all texts, byte sequences, thrift structures, pages, limits, codecs and both overflow modes; thrift decoders whose errors are converted as the library does", "why_tests_cant": "A test checks the kinds of the errors it provokes, and there are more than a hundred places that make an error", "anchors": ["src/error.rs Error", "src/schema/io_message/from_message.rs from_message", "src/read/metadata.rs read_metadata", "src/read/page/reader.rs PageReader::next", "src/read/page/indexed_reader.rs IndexedPageReader::next", "src/deserialize/native.rs NativePageState::try_new", "src/compression.rs decompress", "src/parquet_bridge.rs ZstdLevel::try_new"]}
{"id": "C104", "title": "Statistics and indexes can be compared", "statement": "Comparing two statistics, or two column indexes, with == is an equivalence that never panics: two are equal exactly if they are about the same column type, have the same counts and the same bounds (and for indexes the same order and pages), and equal ones are stored with the same bytes.", "quantifier": "all pairs and triples of statistics and column indexes, of every physical type, with any bounds, including those read from any file", "why_tests_cant": "Equality across eight dynamic types and all bounds, NaNs and zeros included; tests compare a few that were written by the same test.", "anchors": ["src/statistics/mod.rs: impl PartialEq for &dyn Statistics", "src/indexes/index.rs: equal, impl Eq for dyn Index", "src/statistics/mod.rs: serialize_statistics"]}
{"id": "C105", "title": "Merging page statistics always has an outcome", "statement": "Merging the statistics of the pages of a column gives statistics of the same type, nothing if no page has any, and an error if they are of different types; it never panics.", "quantifier": "all lists of optional page statistics of every physical type, any null counts, both overflow modes", "why_tests_cant": "The panics depend on running sums and on the dynamic type of every element; tests merge two or three small statistics.", "anchors": ["src/write/statistics.rs: reduce"]}
{"id": "C106", "title": "Definition levels can be read from any bytes", "statement": "Reading the runs of definition levels of an optional column from any bytes, with any declared count, gives the levels of the complete runs up to that count and then ends; the only bytes that make it panic are those with a run header of more than 64 bits before the declared count is reached, and the levels before that header still come out. The boolean level iterator gives the levels of the first run and panics only when the first header is such a one.", "quantifier": "every byte string, every declared count, both build profiles", "why_tests_cant": "Tests feed well-formed level streams; corrupt pages can hold any bytes, cut at any place.", "anchors": ["src/deserialize/hybrid_rle.rs: HybridRleIter, HybridRleBooleanIter", "src/encoding/hybrid_rle/decoder.rs: Decoder"]}
{"id": "C107", "title": "The writer accepts exactly the row groups that can be written", "statement": "On a sink that does not fail, a file writer in any state accepts a row group exactly if: every column of it that the schema has is produced without an error; all its pages fit the format's 32-bit sizes and counts; the statistics of its pages can be read; no page has an empty list of selected rows; the pages of a column share one codec; their statistics are about one type of values, not INT96, with null counts that can be added up; and every data page of the first column tells its rows. On any sink, the only errors are the sink's or out-of-specification ones and the producer's own; nothing panics unless a page has an empty list of selected rows, statistics about INT96 values, or null counts that overflow.", "quantifier": "every writer state, every row group (any columns, pages, statistics, producer errors), every sink, both overflow modes", "why_tests_cant": "the set of accepted row groups is infinite and the conditions interact across pages and columns; tests write a few well-formed groups", "anchors": ["src/write/file.rs: FileWriter::write, start", "src/write/row_group.rs: write_row_group, compute_num_rows", "src/write/column_chunk.rs: write_column_chunk, build_column_chunk", "src/write/page.rs: write_page", "src/write/statistics.rs: reduce"]}
{"id": "C108", "title": "A file whose row groups were accepted can be ended", "statement": "After any history of calls on a sink that does not fail, ending a file succeeds exactly if every data page of every column tells its rows and has less than 2 GiB with its header and, when column indexes are written, has statistics with a null count and not a minimum without a maximum; otherwise it is refused as out of specification after all the row groups are written (metadata of 2 GiB or more apart). On any sink, ending fails only with an out-of-specification error, or, for a file already ended, an invalid-parameter one.", "quantifier": "every history of writes, every row groups, both kinds of files (with and without column indexes), every sink", "why_tests_cant": "whether the end succeeds depends on all pages of all columns written before; a refused end loses the whole file", "anchors": ["src/write/file.rs: FileWriter::end, end_file", "src/write/indexes/serialize.rs: serialize_column_index, serialize_offset_index", "src/write/indexes/write.rs"]}
{"id": "C109", "title": "Bit-packing into an output of any size", "statement": "The bit-packing encoder panics exactly when the width is zero, when the width exceeds the integer type and there is a block to write, or when the values do not fill their last block and the output is too short and not a whole number of blocks; otherwise it returns the output at its original length and never an error. When it returns, the output holds the leading values that have room, in full and in order, followed by zeros: values without room are dropped silently.", "quantifier": "every integer type size, width, list of values and output length", "why_tests_cant": "the outcome depends on the remainders of two divisions and on which chunk is cut short; tests use outputs of the right size", "anchors": ["src/encoding/bitpacked/encode.rs: encode"]}
{"id": "C110", "title": "Column chunks and row groups answer from the metadata they were read with", "statement": "Every column chunk of a file whose metadata was read answers its queries (path, values, sizes, page offsets, statistics, encodings, codec, byte range) with the stored fields and never panics; a chunk built by hand from metadata that is missing panics on exactly the queries that need it. The compressed size of a row group is the sum of the sizes of its columns, and the columns of a field are exactly those below the top-level field of that name.", "quantifier": "every file metadata that opens, every row group, column chunk and field name; every chunk built by hand", "why_tests_cant": "The queries panic on absent metadata, and the sum can exceed 64 bits or the signed field it is stored in; tests query a few well-formed files only.", "anchors": ["src/metadata/column_chunk_metadata.rs: ColumnChunkMetaData", "src/metadata/row_metadata.rs: RowGroupMetaData::compressed_size", "src/read/mod.rs: get_field_columns"]}
{"id": "C111", "title": "Column chunk metadata stored with serde can be loaded back", "statement": "With the serde feature, serializing the metadata of a column chunk and deserializing it gives it back.", "quantifier": "every column chunk metadata and every thrift codec that reads back what it writes", "why_tests_cant": "The serializer writes thrift bytes into a cursor over a fixed slice; whether any value fits is a question about all values.", "anchors": ["src/metadata/column_chunk_metadata.rs: serialize_column_chunk, deserialize_column_chunk"]}
{"id": "C112", "title": "Run-length encoded numbers at any bit width", "statement": "Numbers written in the RLE/bit-packing hybrid with a stated number of bits come back when read with that number, whatever it is, or the call fails; and reading any bytes with any width gives a determined result.", "quantifier": "all number sequences, all numbers of bits given to the encoder, all widths up to 255 stored in a page (above 32), all byte strings and all numbers of values expected", "why_tests_cant": "The width is a byte read from the page (dictionary indices) or an argument; unit tests use widths up to 32 only.", "anchors": ["src/encoding/hybrid_rle/encoder.rs: encode_u32", "src/encoding/hybrid_rle/decoder.rs: Decoder::next", "src/encoding/hybrid_rle/mod.rs: HybridRleDecoder"]}
{"id": "C113", "title": "What pages say about themselves", "statement": "A data page answers with the encodings of its values and levels that its header names, with the announced number of values, and with the header's statistics; none of these questions panics for a page that a page reader or page stream returned, and decompression does not change the answers. Pages fetched through the page index are returned without a look at their encodings, and asking for an unknown encoding panics.", "quantifier": "every page header, every page returned by a reader or stream from any bytes, every codec and buffer", "why_tests_cant": "the encodings are thirty-two-bit numbers in files from elsewhere; tests use the named ones", "anchors": ["src/page/mod.rs: DataPage::encoding, definition_level_encoding, repetition_level_encoding, statistics, num_values", "src/parquet_bridge.rs: DataPageHeaderExt", "src/read/page/indexed_reader.rs: IndexedPageReader"]}
{"id": "C114", "title": "What encoders write for iterators with inexact estimates", "statement": "encode_u32 writes numbers that come back from any iterator whose size_hint upper bound is not below what it returns (for instance a filter); encode_bool panics for such an iterator exactly when the items do not reach the last full byte of the estimate, and otherwise the booleans come back; the delta encoder equals the one for exact iterators when the bound stays exact, always announces the first upper bound as the number of values (so other iterators do not come back: the odd numbers of 0..=4 are read as 1,3,5,7,9), and does not return for an iterator whose bound stays positive; without an upper bound all three panic.", "quantifier": "every iterator (items and upper bound after each call), every width, both overflow modes", "why_tests_cant": "the encoders take any iterator and use size_hint().1.unwrap(); tests pass slices, whose estimates are exact", "anchors": ["src/encoding/hybrid_rle/encoder.rs encode_u32, encode_bool", "src/encoding/hybrid_rle/bitmap.rs encode_bool", "src/encoding/delta_bitpacked/encoder.rs encode"]}
{"id": "C115", "title": "What a writer gives back", "statement": "A file writer's schema() and options() are always those it was made with. metadata() is Some exactly if a call of end succeeded, and is then, whatever calls follow, the metadata of that end: its version (1 or 2), created-by, schema and key-value pairs are those given, it has one row group per write that had succeeded, and its encoding, its length and PAR1 are what the file ended with at that moment; later calls can only append. into_inner_and_metadata gives the sink and this metadata, and panics exactly if there is none.", "quantifier": "every schema, options, creator, sink (also one that fails at any byte) and every sequence of calls of write and end with any results short of a panic", "why_tests_cant": "a test follows one sequence of calls; failed ends, writes after the end and repeated ends in any order are what the state kept by the writer has to survive", "anchors": ["src/write/file.rs: FileWriter::options, schema, metadata, into_inner, into_inner_and_metadata", "src/write/stream.rs: FileStreamer::into_inner", "src/write/mod.rs: WriteOptions, Version"]}
{"id": "C116", "title": "Compression in every build", "statement": "For every set of codec features: compress only appends to the output and keeps what was in it, also when it fails. A codec the build lacks is refused with FeatureNotActive and nothing is written, in compress, in decompress and for pages (unless a V2 page is stored uncompressed, which every build reads). With the codec, a build does what the default build does: pages written by any build with a codec are read back by every build that has it.", "quantifier": "every set of features, every codec and level, all bytes, pages, buffers and outcomes of the codec crates", "why_tests_cant": "each test run is one build; the cfg attributes make 2^6 programs, of which two must agree to exchange files", "anchors": ["src/compression.rs: compress, decompress, inner_compress", "src/read/compression.rs: decompress", "src/write/compression.rs: compress", "Cargo.toml: features"]}
{"id": "C117", "title": "A bloom filter finds every value that was put in it", "statement": "Putting the hashes of values into a bloom filter and asking for the hash of a value finds every value that was put in, of any type and in any order, also after the filter was stored in a file and read from there; a value is hashed as its bytes in the plain encoding, so that other implementations find it too and it makes no difference if it is given as a value or as these bytes.", "quantifier": "every hash function, every filter of at least 32 bytes, every sequence of integers, floats, 96-bit values and byte strings, every value asked for", "why_tests_cant": "tests insert a few integers; a value whose bytes are taken in another order or width would only be missed by other readers, or when asked for as bytes", "anchors": ["src/bloom_filter/hash.rs: hash_native, hash_byte", "src/bloom_filter/split_block.rs: insert, is_in_set", "src/bloom_filter/read.rs: read", "src/types.rs: NativeType::to_le_bytes"]}
{"id": "C118", "title": "Dropped asynchronous calls", "statement": "When the future of an asynchronous write or end is dropped after the destination has accepted any number of its bytes, exactly these bytes are in the destination and no row group is recorded. Whatever calls follow, if an end succeeds, each written row group is behind the place its metadata has by exactly the bytes that were written but not counted before it, its offset indexes by those not counted at the end, and the returned size is too small by the latter; nothing reports this. Writes dropped before a byte was accepted do no harm.", "quantifier": "every history of an asynchronous file writer: writes and ends that succeed, fail or are dropped at any byte, with any row groups", "why_tests_cant": "a future may be dropped at any of the points where it waits, so the number of histories is unbounded, and the damage shows only when other columns are read", "anchors": ["src/write/stream.rs: FileStreamer::write, FileStreamer::end, FileStreamer::start", "src/write/row_group.rs: write_row_group_async", "src/write/column_chunk.rs: write_column_chunk_async"]}
{"id": "C119", "title": "Columns read at the same time", "statement": "Reading the columns of a field asynchronously, all at once, returns what reading them one after the other returns: the same columns in the same order with the same bytes, however the readers interleave, wait and split what they return. An error that is returned is one with which a reader failed, a column never gets bytes of another, the reading ends after a bounded number of steps, and it never gets stuck.", "quantifier": "every file, every list of columns and field name, every order in which the futures are polled and every sequence of answers of the readers", "why_tests_cant": "the interleavings and the sizes of the pieces are chosen by the executor and the readers; no test controls them", "anchors": ["src/read/column/stream.rs: read_column_async, read_columns_async", "src/read/mod.rs: get_field_columns", "src/read/column/mod.rs: read_columns"]}
{"id": "C120", "title": "A column chunk can be read in several goes", "statement": "A page reader can be stopped after any page and taken apart; a new reader over the source it hands back, made for the number of values that have not come yet, returns on every later call exactly what the first would have returned: the same pages, the same errors, the same end. With a page filter the values of the pages that were passed over count as well.", "quantifier": "all page sources (any bytes, or chunks of any size), all totals, codecs, limits and filters, and all points at which the reading is interrupted", "why_tests_cant": "The interruption can be after any page of any chunk, and what the old reader would have done next has to be compared with what the new one does for ever after; a test tries a few files and a few stopping points.", "anchors": ["src/read/page/reader.rs: PageReader::into_inner, PageReader::new_with_page_meta, next, build_page"]}
{"id": "C121", "title": "Decompressing any iterator of pages", "statement": "A decompressor that is put on any iterator of compressed pages (one that cannot exchange buffers, such as the reader of selected pages) returns on each call what decompressing that page alone, into a new buffer, returns, errors of the iterator and of the decompression included and in their places; after the last item it returns the end for ever. It cannot be told apart from the decompressor that exchanges buffers with the page reader. Pages that are not compressed come out as they are.", "quantifier": "all iterators, all sequences of pages and errors, all codecs, all contents and capacities of the buffers, all numbers of calls", "why_tests_cant": "A buffer that is reused can leak bytes of earlier pages into later ones only for particular sequences of page sizes and codecs; tests try one or two.", "anchors": ["src/read/compression.rs: BasicDecompressor::new, advance, get, is_compressed, buffer_mut", "src/read/compression.rs: decompress"]}
{"id": "C122", "title": "Selected rows come back as their cells", "statement": "Cells are stored in the pages of a flat column (plain or through a dictionary, with or without nulls, of any physical type), compressed and written to a file. Somebody opens the file, reads the page locations, selects pages for some rows, reads only the selected pages, decompresses them and follows each page's iterators for the rows selected in it. Over all pages they get exactly the cells of the rows they asked for, in order; rows beyond the end give nothing.", "quantifier": "all schemas, files, columns, pages, codecs that invert, values, nulls and all sorted, disjoint, non-empty row selections", "why_tests_cant": "The result depends on how the intervals of the selection lie relative to the page boundaries of a whole file; a test fixes one selection and one file.", "anchors": ["src/read/indexes/read.rs: read_pages_locations", "src/indexes/intervals.rs: select_pages, compute_page_row_intervals", "src/read/page/indexed_reader.rs: IndexedPageReader::new, next", "src/read/compression.rs: BasicDecompressor", "src/deserialize/utils.rs: SliceFilteredIter", "src/deserialize/*.rs: try_new"]}
{"id": "C123", "title": "Columns of any nesting come back from a written file", "statement": "Take any column, of any nesting (any largest repetition and definition level), of numbers, byte strings, fixed-length byte strings or booleans. Store its entries (repetition level, definition level, and a value exactly when the definition level is the largest) in pages of version 1 or 2 as the format says: levels in the hybrid of RLE and bit-packing as the crate's encoder or any conforming encoder writes them, values plain or as positions in a dictionary. Compress the pages, write them as a column of a file, open the file and iterate over the column's pages: each page splits into its levels and its values, both kinds of levels decode, the page opens, and putting levels and values together gives exactly the entries stored. No page can be read as two different lists of entries.", "quantifier": "all columns, nestings, entries, pages, level encodings, compressions, row groups, files, buffers and builds", "why_tests_cant": "Tests write a handful of nested arrays with levels of one or two bits; the claim is about every nesting, every split into runs and every value.", "anchors": ["/repo/src/deserialize/utils.rs: DefLevelsDecoder::try_new, dict_indices_decoder", "/repo/src/page/mod.rs: split_buffer", "/repo/src/encoding/hybrid_rle/mod.rs: HybridRleDecoder::try_new", "/repo/src/read/levels.rs: get_bit_width", "/repo/src/deserialize/native.rs: NativePageState::try_new", "/repo/src/deserialize/binary.rs: BinaryPageState::try_new", "/repo/src/deserialize/fixed_len.rs: FixedLenBinaryPageState::try_new", "/repo/src/deserialize/boolean.rs: BooleanPageState::try_new"]}
{"id": "C124", "title": "Every way to a column's pages gives the same pages", "statement": "A column is compressed and written to a file by the synchronous or the asynchronous writer, and its last page has values. Somebody who opens the file gets the written pages, with the column's descriptor, in order and nothing else, whichever way they take: the page iterator with a decompressor that reuses buffers, the asynchronous page stream with each page decompressed into any buffer, the asynchronous stream over only the column's bytes, or a page reader over only the column's bytes. In particular the entries of a column of any nesting come back when a file is written and read asynchronously. For files of any writer all four ways start with the same metadata and at the same byte, and whenever reading only the column's bytes meets no error, reading in the file gives the same pages.", "quantifier": "all files, schemas, row groups, columns, pages, compressions, buffers, limits and builds", "why_tests_cant": "Tests take one way each on small files; that four code paths agree for every column cannot be settled by examples.", "anchors": ["/repo/src/read/page/stream.rs: get_page_stream, get_page_stream_from_column_start, get_page_stream_with_page_meta", "/repo/src/read/page/reader.rs: PageReader::new, PageReader::new_with_page_meta, PageMetaData", "/repo/src/read/mod.rs: get_page_iterator", "/repo/src/read/column/mod.rs: read_columns", "/repo/src/write/stream.rs: FileStreamer"]}
{"id": "C125", "title": "Skipping pages by their bounds loses no row", "statement": "In a file written with indexes and opened, somebody looks for rows by the value in one column: they read that column's index and page locations, keep the pages whose bounds pass a test that passes whenever a wanted value can lie within the bounds, turn the kept pages into row intervals, and read the pages of any column of the row group for these intervals. If the statistics of the pages are true, they get exactly the cells of the rows of the kept pages, in order, and among them the cell of every row that they look for.", "quantifier": "all schemas, row groups, codecs, value kinds of both columns, divisions of either column into pages, statistics, tests and wanted values", "why_tests_cant": "a test fixes pages and predicates; a row lost at a page boundary only shows for some division of the two columns into pages", "anchors": ["src/read/indexes/read.rs: read_columns_indexes, read_pages_locations", "src/indexes/intervals.rs: compute_rows, select_pages", "src/read/page/indexed_reader.rs", "src/indexes/index.rs"]}
{"id": "C126", "title": "Pages marked as null pages hold only nulls", "statement": "The column index that is written marks as null pages exactly the pages without any value.", "quantifier": "all sequences of written data pages with statistics", "why_tests_cant": "a test would have to know pages whose statistics have no bounds though they hold values", "anchors": ["src/write/indexes/serialize.rs: serialize_column_index"]}
{"id": "C127", "title": "Skipping row groups by a column's statistics loses no row", "statement": "For a file that was written by the writer and opened again, the statistics that `ColumnChunkMetaData::statistics` returns for a column chunk bound every value stored in the chunk, their null count is the number of its nulls, and consequently `filter_row_groups` with a test on these bounds that accepts every range in which a wanted value can lie keeps each row group that holds a wanted value.", "quantifier": "every schema, file, row group, column of every physical type, every set of pages with statistics, every test on bounds and every predicate on row groups", "why_tests_cant": "the merging of page statistics, their serialization, the metadata and the filter are each tested on a few values; a lost row needs a particular order of page bounds or a page without statistics.", "anchors": ["src/write/column_chunk.rs: build_column_chunk", "src/write/statistics.rs: reduce", "src/statistics/mod.rs", "src/metadata/column_chunk_metadata.rs: statistics", "src/read/mod.rs: filter_row_groups"]}
{"id": "C128", "title": "A failing source is reported and never changes what is read", "statement": "Whatever reads and seeks of the source fail, once or for ever and after any number of bytes, read_metadata, read_metadata_with_size, read_column, read_columns, read_columns_indexes, read_pages_locations, bloom_filter::read and get_page_iterator return exactly what they return for a source with the same bytes that does not fail, or an error. A page reader and a page stream over such a source give the same pages in the same order up to the first error, and cannot end early without one; the stream ends after it. An indexed page reader gives each page or an error in its place, also after errors. A page reader asked again after an error still returns only pages of the column.", "quantifier": "all byte contents and positions of the source, all sequences of failures (which request fails, after how many bytes), all metadata, column lists, filters, limits, overflow modes, all laws-abiding thrift decoders", "why_tests_cant": "The failures of a source are an arbitrary sequence of faults at arbitrary bytes; tests use sources that never fail.", "anchors": ["src/read/metadata.rs: read_metadata, read_metadata_with_size", "src/read/column/mod.rs: read_column, read_columns", "src/read/indexes/read.rs: read_columns_indexes, read_pages_locations", "src/bloom_filter/read.rs: read", "src/read/mod.rs: get_page_iterator", "src/read/page/reader.rs: PageReader", "src/read/page/stream.rs: _get_page_stream", "src/read/page/indexed_reader.rs: IndexedPageReader"]}
{"id": "C129", "title": "Compression levels reach the codec and never change what is read", "statement": "Options with a compression level can only be made with a level in the range of the codec. Compressing with them gives the codec's encoder exactly the level that was asked for, or the default level if none was asked for, and never one that the codec may not be given. The level is not part of what is written about a page: pages compressed at any levels, also at different levels in one column chunk, are written to a file as pages of one codec and come back unchanged.", "quantifier": "every codec with levels, every options value that can be made, every page, every list of pages each with its own options, every file", "why_tests_cant": "tests compress a few buffers at two or three levels; that no combination of levels in a chunk changes the result is a statement about all of them", "anchors": ["src/parquet_bridge.rs: CompressionLevel, BrotliLevel, GzipLevel, ZstdLevel, CompressionOptions", "src/compression.rs: compress", "src/write/compression.rs: compress"]}
{"id": "C130", "title": "A search that skips row groups and pages finds what reading everything finds", "statement": "In a file written with indexes, a flat column has data pages with true statistics, and no bound among them is a NaN or a byte string that is a prefix of another bound. Somebody looks for the values of this column that meet a condition. They skip the row groups whose statistics cannot hold such a value, then the pages whose bounds in the column index cannot, and read only what is left. The values they find are exactly those that the condition takes from all cells of the column, in the same order and as often; a row group that was skipped has none.", "quantifier": "every file, row group, column type with an order, encoding and codec, every condition on values and every test of bounds that never rejects bounds with a value that meets the condition", "why_tests_cant": "a test runs one query on one file; the statement is that no query on any file loses or repeats a value", "anchors": ["src/metadata/column_chunk_metadata.rs: statistics", "src/read/mod.rs: filter_row_groups", "src/read/indexes/read.rs: read_columns_indexes, read_pages_locations", "src/indexes/intervals.rs: compute_rows, select_pages", "src/read/page/indexed_reader.rs: IndexedPageReader"]}
{"id": "C131", "title": "Pages laid out by any writer are read exactly by following the runs of their levels", "statement": "A flat column's page may have been written by any writer that follows the format, so its definition levels and its dictionary positions may be divided into run-length and bit-packed runs in any way. Somebody who opens such a page (native, byte-array, fixed-length or boolean; plain or dictionary-encoded; required or optional; version 1 or 2), asks for the runs of its levels and takes one stored value for each set level gets exactly the cells of the page. Somebody who asks for some rows only and follows the filtered runs, skipping the stored values that a skip announces, gets exactly the cells of these rows, is never told to skip a value that is not there, and never runs out of values. Pages made by the library's own encoders are among these pages, so both ways of reading them agree.", "quantifier": "every page of a flat column that conforms to the format, every division of levels and positions into runs, every sorted selection of non-empty row ranges of the page, every build mode", "why_tests_cant": "the number of ways to divide levels into runs, and of ways a selection can cut them, is unbounded; tests use the layout of one writer, a single run", "anchors": ["src/deserialize/hybrid_rle.rs: HybridRleIter", "src/deserialize/filtered_rle.rs: FilteredHybridBitmapIter", "src/deserialize/utils.rs: DefLevelsDecoder, SliceFilteredIter", "src/deserialize/native.rs, binary.rs, fixed_len.rs, boolean.rs: try_new", "src/encoding/hybrid_rle/mod.rs: HybridRleDecoder"]}
{"id": "C132", "title": "A column written by any writer is read exactly, from the bytes of the file to its cells", "statement": "If a column's metadata says where its chunk lies in a file, how many values it has and which codec was used, and the chunk consists of pages laid out as the format allows (any valid page headers, any codec output the decoder inverts, Hadoop-framed LZ4, version 2 pages that say their values are not compressed, levels and dictionary positions in any division into runs), then opening the column's page iterator, decompressing its pages with any buffers and following the runs of each page gives exactly the column's cells, in order, or exactly the cells of the rows that were asked for.", "quantifier": "every column type, dictionary, list of pages, header contents, codec, division into runs, selection of rows, buffers and their capacities, position in the file, and both arithmetic modes", "why_tests_cant": "the freedom other writers have in headers, runs, compression and page division multiplies; a test fixes one file", "anchors": ["src/read/mod.rs:get_page_iterator", "src/read/page/reader.rs:PageReader", "src/read/compression.rs:Decompressor", "src/deserialize/native.rs:NativePageState", "src/deserialize/utils.rs", "src/deserialize/hybrid_rle.rs:HybridDecoderBitmapIter"]}
{"id": "C133", "title": "Whole files of any writer are read exactly, for columns of any nesting", "statement": "Take any file that ends in metadata the crate can accept, whoever wrote it: headers may have fields the crate never writes, dictionary positions and levels may be divided into runs of any kind, bodies may be compressed in any way the codec's decoder undoes, data pages of version 2 may be left uncompressed, there may be other bytes between the chunks. Opening the file gives, at each place, the chunk and the column of the schema at that place; iterating its pages and decompressing them succeeds; and the levels and values of each page make exactly the entries (repetition level, definition level, value) that the page holds, and no others.", "quantifier": "all files with acceptable metadata, all row groups and columns of any nesting of the native, byte array, fixed-length and boolean kinds, all pages of both versions and their run layouts, all codecs, all buffer capacities, both overflow modes", "why_tests_cant": "Files of other writers differ in ways that no set of fixtures can enumerate: every division of a page into runs, of a column into pages and of a file into chunks is a different input.", "anchors": ["src/read/metadata.rs: read_metadata", "src/read/page/reader.rs: PageReader", "src/read/compression.rs: Decompressor", "src/deserialize/hybrid_rle.rs: HybridDecoderBitmapIter", "src/page/mod.rs: split_buffer"]}
{"id": "C134", "title": "Rows selected through the offset index of any writer's column come back as their cells", "statement": "Take a column chunk written by any writer, with an offset index that gives the place, the size and the first row of each data page (the pages may lie anywhere in the file) and maybe a dictionary before the first of them; pages may be laid out in runs of any kind and compressed in any way the codec's decoder undoes. Reading the offset index, selecting pages for any sorted, disjoint intervals of rows, reading only the pages that have selected rows, decompressing them and following the filtered runs of each gives, over all pages, exactly the cells of the rows that were asked for, in order; rows beyond the end are ignored.", "quantifier": "all files, flat columns and offset indexes of any writer, all divisions into pages and runs, all codecs, all sorted disjoint selections of rows, all buffers, both overflow modes", "why_tests_cant": "Selections, page boundaries, run boundaries and codecs interact: a test fixes one file and a few selections, and the fixtures come from one writer.", "anchors": ["src/read/indexes/read.rs: read_pages_locations", "src/indexes/intervals.rs: select_pages", "src/read/page/indexed_reader.rs: IndexedPageReader", "src/deserialize/filtered_rle.rs: FilteredHybridRleDecoderIter", "src/read/compression.rs: BasicDecompressor"]}
{"id": "C135", "title": "A search with the column index of any writer never misses a wanted row", "statement": "Take a column chunk written by any writer with an offset index and a column index whose minimum and maximum of each page are true of the values of that page (pages of nulls may have any bytes in their place, and null counts may be missing). Somebody reads both indexes, keeps the pages whose bounds do not exclude the values they look for, computes the intervals of rows of those pages, and reads these rows from any flat column of the same row group, from any writer, through its own offset index. The bounds they find are those the index has; they get exactly the cells of the rows of the pages that were kept, in order; and among these is the cell of every row whose value in the first column is one that they look for.", "quantifier": "all files, column indexes and offset indexes of any writer, all kinds of values, all searches that are sound for the bounds, all divisions of both columns into pages and runs, all codecs and buffers, both overflow modes", "why_tests_cant": "A missed row shows only when bounds, page boundaries of two columns, and the search fall together in a certain way; tests fix one file and one search, and the index of one writer.", "anchors": ["src/read/indexes/read.rs: read_columns_indexes", "src/indexes/index.rs: NativeIndex::try_new", "src/indexes/intervals.rs: compute_rows", "src/indexes/intervals.rs: select_pages", "src/read/page/indexed_reader.rs: IndexedPageReader"]}
{"id": "C136", "title": "Pages can be copied from one file to another without decompressing them", "statement": "Iterate the compressed pages of a column of any writer's file and write them, as they come, as a column of a new file whose column has the same type and levels. The writer takes them, and reading the column of the new file gives the same levels and values, in order, as the column they were taken from.", "quantifier": "all files and columns of any nesting of any writer, all divisions into pages and runs, all codecs, all positions of the column in the new file, all histories of the writer, all buffers, both overflow modes", "why_tests_cant": "Copying composes a reader of foreign bytes, a writer and a second reader; tests write pages that the crate itself made, whose fields are filled in differently from those of pages that were read.", "anchors": ["src/read/page/reader.rs: PageReader", "src/page/mod.rs: CompressedDataPage::select_rows", "src/write/file.rs: FileWriter::write", "src/write/row_group.rs: compute_num_rows", "src/write/page.rs: write_page", "src/read/compression.rs: Decompressor"]}
{"id": "C137", "title": "Skipping row groups of any writer's file by their statistics loses no wanted value", "statement": "Open a file that any writer made. Its row groups may have statistics for a column, whose bounds are true of the values of that chunk (one bound or both may be missing, the deprecated bounds may have any bytes), or statistics with bounds of a wrong length, or none. `ColumnChunkMetaData::statistics` returns the bounds as they were stored, or an error for a bound of a wrong length, and does not panic. Somebody looks for values in this column: `filter_row_groups` with a test that lets pass all bounds within which a wanted value can lie, and all row groups without usable statistics, leaves row groups whose columns can be read, and the wanted values found in them are exactly those of all row groups, in order and as often.", "quantifier": "all files that end in metadata the crate accepts, all physical types, any number of row groups, any layout of their pages in runs, any codec output the decoder undoes, all bounds and all tests on them, all overflow modes and buffers", "why_tests_cant": "Tests look at files of the crate's own writer or at a few sample files; statistics of others leave out bounds, keep deprecated ones or are broken, and a lost row shows only where the right value meets the right bound.", "anchors": ["src/read/mod.rs: filter_row_groups", "src/metadata/column_chunk_metadata.rs: statistics", "src/statistics/mod.rs: deserialize_statistics", "src/statistics/primitive.rs: read", "src/statistics/boolean.rs: read", "src/statistics/fixed_len_binary.rs: read", "src/statistics/binary.rs: read"]}
{"id": "C138", "title": "A search in any writer's file that skips row groups and pages finds what reading everything finds", "statement": "A file of any writer is opened. A flat column has, in each row group, an offset index and a column index whose bounds are true of the pages, and statistics that are true, missing, or have a bound of a wrong length. Somebody looks for the values that meet a condition. They leave out row groups by the statistics, keep the pages whose bounds in the column index can hold such a value, and read only the rows of these pages. The values they find are exactly those that the condition takes from all cells of the column, in the same order and as often.", "quantifier": "every file with readable metadata, number of row groups, column type, encoding of levels and values, codec, every condition on values, every test of bounds and of row groups that never rejects a possible match, and both overflow modes", "why_tests_cant": "files of other writers come in unlimited layouts; a lost match in one of them shows up as a missing row in a query result, which no test notices", "anchors": ["src/read/metadata.rs: read_metadata", "src/read/mod.rs: filter_row_groups", "src/metadata/column_chunk_metadata.rs: statistics", "src/read/indexes/read.rs: read_columns_indexes, read_pages_locations", "src/indexes/intervals.rs: compute_rows, select_pages", "src/read/page/indexed_reader.rs: IndexedPageReader"]}
{"id": "C139", "title": "A query on one column returns the right cells of another column, for files of any writer", "statement": "A file of any writer is opened. Somebody asks for the rows whose cell in one flat column meets a condition, together with their cells in another flat column. They leave out row groups by the statistics of the first column, keep the pages of the first column whose bounds in the column index can hold such a value, compute the intervals of rows of these pages, and read these intervals from both columns, whose pages may begin at different rows. The same number of cells comes from both. Side by side, the rows that meet the condition are exactly those of the whole file, in the same order and as often, each with its own cell of the other column.", "quantifier": "every file with readable metadata, number of row groups, pair of column types, encodings, codecs and page boundaries of both columns, every condition on values, every test that never rejects a possible match, and both overflow modes", "why_tests_cant": "a row that is paired with the cell of a neighbouring row gives a plausible answer; it needs page boundaries that differ between the columns, in combinations without limit", "anchors": ["src/read/mod.rs: filter_row_groups", "src/metadata/column_chunk_metadata.rs: statistics", "src/read/indexes/read.rs: read_columns_indexes, read_pages_locations", "src/indexes/intervals.rs: compute_rows, select_pages", "src/read/page/indexed_reader.rs: IndexedPageReader", "src/deserialize/filtered_rle.rs: FilteredHybridRleDecoderIter", "src/deserialize/utils.rs: SliceFilteredIter"]}
