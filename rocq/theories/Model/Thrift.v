(** The thrift structs of the Parquet format as the crate sees them (crate parquet-format-safe, not part of
    /repo; fields from parquet.thrift of the Parquet format and from their uses in /repo). Integers are [Z],
    enumerations their thrift number, strings and binaries lists of bytes. The encryption fields, which the
    crate only ever passes on, are opaque optional byte strings. *)
From Verif Require Import Base.Prelude Model.Types.

(** Used in statistics/mod.rs:98-134 and write/statistics.rs. *)
Record t_statistics := mk_tstats {
  ts_max : option (list N);
  ts_min : option (list N);
  ts_null_count : option Z;
  ts_distinct_count : option Z;
  ts_max_value : option (list N);
  ts_min_value : option (list N)
}.

(** Used in page/mod.rs:3-5 and write/page.rs:100-198. *)
Record t_data_header := mk_tdh {
  dh_num_values : Z;
  dh_encoding : Z;
  dh_def_encoding : Z;
  dh_rep_encoding : Z;
  dh_statistics : option t_statistics
}.
(** write/page.rs:166-168 and read/page/reader.rs:298-304. *)
Record t_data_header_v2 := mk_tdh2 {
  dh2_num_values : Z;
  dh2_num_nulls : Z;
  dh2_num_rows : Z;
  dh2_encoding : Z;
  dh2_def_length : Z;
  dh2_rep_length : Z;
  dh2_is_compressed : option bool;
  dh2_statistics : option t_statistics
}.
(** write/page.rs:191-195 and read/page/reader.rs:236-248. *)
Record t_dict_header := mk_tdict {
  dict_num_values : Z;
  dict_encoding : Z;
  dict_is_sorted : option bool
}.
(** write/page.rs:148-160 and 184-197. *)
Record t_page_header := mk_tph {
  ph_type : Z;
  ph_uncompressed_size : Z;
  ph_compressed_size : Z;
  ph_crc : option Z;
  ph_data : option t_data_header;
  ph_index : option unit;
  ph_dict : option t_dict_header;
  ph_data_v2 : option t_data_header_v2
}.

(** indexes/intervals.rs:38-52, write/indexes/serialize.rs:60-82. *)
Record t_page_location := mk_loc {
  loc_offset : Z;
  loc_size : Z;
  loc_first_row : Z
}.
(** write/indexes/serialize.rs:51-57. *)
Record t_column_index := mk_tci {
  ci_null_pages : list bool;
  ci_min_values : list (list N);
  ci_max_values : list (list N);
  ci_boundary_order : Z;
  ci_null_counts : option (list Z)
}.

(** Used in metadata/column_chunk_metadata.rs, write/column_chunk.rs:118-213. *)
Record t_key_value := mk_kv { kv_key : list N; kv_value : option (list N) }.
(** write/column_chunk.rs:198 (the field, always [None]). *)
Record t_encoding_stats := mk_es { es_page_type : Z; es_encoding : Z; es_count : Z }.
(** write/column_chunk.rs:185-200. *)
Record t_column_meta := mk_tcm {
  cm_type : Z;
  cm_encodings : list Z;
  cm_path : list (list N);
  cm_codec : Z;
  cm_num_values : Z;
  cm_uncompressed_size : Z;
  cm_compressed_size : Z;
  cm_key_value : option (list t_key_value);
  cm_data_page_offset : Z;
  cm_index_page_offset : option Z;
  cm_dictionary_page_offset : option Z;
  cm_statistics : option t_statistics;
  cm_encoding_stats : option (list t_encoding_stats);
  cm_bloom_filter_offset : option Z
}.
(** write/column_chunk.rs:202-212. *)
Record t_column_chunk := mk_tcc {
  cc_file_path : option (list N);
  cc_file_offset : Z;
  cc_meta : option t_column_meta;
  cc_offset_index_offset : option Z;
  cc_offset_index_length : option Z;
  cc_column_index_offset : option Z;
  cc_column_index_length : option Z;
  cc_crypto : option (list N);
  cc_encrypted : option (list N)
}.
(** write/row_group.rs:199 (the field, always [None]). *)
Record t_sorting_column := mk_tsort { so_column : Z; so_descending : bool; so_nulls_first : bool }.
(** write/row_group.rs:195-203. *)
Record t_row_group := mk_trg {
  rg_columns : list t_column_chunk;
  rg_total_byte_size : Z;
  rg_num_rows : Z;
  rg_sorting : option (list t_sorting_column);
  rg_file_offset : option Z;
  rg_compressed_size : option Z;
  rg_ordinal : option Z
}.

(** schema/io_thrift/to_thrift.rs:26-73. *)
Record t_schema_element := mk_tse {
  se_type : option Z;
  se_type_length : option Z;
  se_repetition : option Z;
  se_name : list N;
  se_num_children : option Z;
  se_converted : option Z;
  se_scale : option Z;
  se_precision : option Z;
  se_field_id : option Z;
  se_logical : option t_logical
}.

(** metadata/file_metadata.rs:116-124. The union [ColumnOrder] has one known member. *)
Inductive t_column_order := TTypeOrder.
(** metadata/file_metadata.rs:63-104. *)
Record t_file_meta := mk_tfm {
  fm_version : Z;
  fm_schema : list t_schema_element;
  fm_num_rows : Z;
  fm_row_groups : list t_row_group;
  fm_key_value : option (list t_key_value);
  fm_created_by : option (list N);
  fm_column_orders : option (list t_column_order);
  fm_encryption : option (list N);
  fm_footer_key : option (list N)
}.
