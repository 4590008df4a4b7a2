(** Model of /repo/src/metadata (metadata/column_chunk_metadata.rs, metadata/row_metadata.rs, metadata/file_metadata.rs, metadata/column_order.rs, metadata/sort.rs),
    /repo/src/read/metadata.rs, /repo/src/read/mod.rs and /repo/src/read/column/mod.rs.

    A seekable source is the list of all its bytes; sources that fail are in Model/Faults.v. *)
From Verif Require Import Base.Prelude Model.Types Model.Thrift Model.Intervals Model.Page Model.Io Model.Schema Model.PageRead.
Open Scope N_scope.

(** metadata/column_chunk_metadata.rs:29-40 [ColumnChunkMetaData]. *)
Record column_md := mk_cmd { cmd_chunk : t_column_chunk; cmd_descr : column_descriptor }.
(** metadata/column_chunk_metadata.rs:99-101 [metadata]: panics without metadata. *)
Definition cmd_meta (c : column_md) : res t_column_meta :=
  match cc_meta (cmd_chunk c) with Some m => Ok m | None => Panic end.

(** metadata/column_chunk_metadata.rs:181-203 [try_from_thrift]. *)
Definition column_from_thrift (d : column_descriptor) (c : t_column_chunk) : res column_md :=
  match cc_meta c with
  | None => Err OutOfSpec
  | Some meta =>
      let* _ := try_usize (cm_compressed_size meta) in
      let* _ := match cm_dictionary_page_offset meta with
                | Some offset => let* _ := try_usize offset in Ok tt
                | None => Ok tt
                end in
      let* _ := try_usize (cm_data_page_offset meta) in
      let* _ := compression_of_thrift (cm_codec meta) in
      Ok (mk_cmd c d)
  end.

(** metadata/column_chunk_metadata.rs:169-178 [byte_range]. *)
Definition byte_range (c : column_md) : res (N * N) :=
  let* meta := cmd_meta c in
  let start := match cm_dictionary_page_offset meta with Some o => as_usize o | None => as_usize (cm_data_page_offset meta) end in
  Ok (start, as_usize (cm_compressed_size meta)).
(** metadata/column_chunk_metadata.rs:129-131 [compression]: an unknown codec panics. *)
Definition cmd_compression (c : column_md) : res compression :=
  let* meta := cmd_meta c in
  match compression_of_thrift (cm_codec meta) with Ok x => Ok x | _ => Panic end.

(** write/row_group.rs:23-57 [ColumnOffsetsMetadata]: [from_column_chunk] (29-41) then [calc_row_group_file_offset] (52-56),
    with [from_column_chunk_metadata] (43-50) the same on a chunk that has metadata. *)
Definition chunk_file_offset (c : t_column_chunk) : option Z :=
  match cc_meta c with
  | None => None
  | Some meta =>
      match cm_dictionary_page_offset meta with
      | Some o => if (0 <? o)%Z then Some o else Some (cm_data_page_offset meta)
      | None => Some (cm_data_page_offset meta)
      end
  end.

(** metadata/row_metadata.rs:14-18 [RowGroupMetaData]. *)
Record row_group_md := mk_rgm { rgm_columns : list column_md; rgm_num_rows : N; rgm_total_byte_size : N }.

(** metadata/row_metadata.rs:54: a sum of [usize] (the order of the additions does not matter: in checked mode it
    fails exactly if the whole sum is too big). *)
Fixpoint usum (m : mode) (l : list N) : res N :=
  match l with [] => Ok 0 | x :: r => let* s := usum m r in uadd m 64 x s end.
(** metadata/row_metadata.rs:50-55 [compressed_size]. *)
Definition rgm_compressed_size (m : mode) (g : row_group_md) : res N :=
  let* sizes := collect_res (map (fun c => let* meta := cmd_meta c in Ok (as_usize (cm_compressed_size meta))) (rgm_columns g)) in
  usum m sizes.

(** metadata/row_metadata.rs:58-81 [try_from_thrift]. *)
Definition row_group_from_thrift (s : schema_descriptor) (g : t_row_group) : res row_group_md :=
  if negb (length (sd_leaves s) =? length (rg_columns g))%nat then Err OutOfSpec
  else
    let* size := try_usize (rg_total_byte_size g) in
    let* rows := try_usize (rg_num_rows g) in
    let* columns := collect_res (map (fun x => column_from_thrift (snd x) (fst x)) (combine (rg_columns g) (sd_leaves s))) in
    Ok (mk_rgm columns rows size).

(** metadata/row_metadata.rs:84-104 [into_thrift]; a column without metadata panics. *)
Definition row_group_into_thrift (m : mode) (g : row_group_md) : res t_row_group :=
  let* file_offset := match rgm_columns g with
                      | [] => Ok None
                      | c :: _ => let* _ := cmd_meta c in Ok (chunk_file_offset (cmd_chunk c))
                      end in
  let* size := rgm_compressed_size m g in
  Ok (mk_trg (map cmd_chunk (rgm_columns g)) (as_i64 (rgm_total_byte_size g)) (as_i64 (rgm_num_rows g)) None file_offset
        (Some (as_i64 size)) None).

(** metadata/sort.rs:18-25 [SortOrder]. *)
Inductive sort_order := SSigned | SUnsigned | SUndefined.
(** metadata/sort.rs:42-60. *)
Definition logical_sort_order (l : primitive_logical) : sort_order :=
  match l with
  | LString | LEnum | LJson | LBson => SUnsigned
  | LInteger IInt8 | LInteger IInt16 | LInteger IInt32 | LInteger IInt64 => SSigned
  | LInteger _ => SUnsigned
  | LDecimal _ _ | LDate | LTime _ _ | LTimestamp _ _ => SSigned
  | LUnknown => SUndefined
  | LUuid => SUnsigned
  end.
(** metadata/sort.rs:62-75. *)
Definition converted_sort_order (c : primitive_converted) : sort_order :=
  match c with
  | CUtf8 | CJson | CBson | CEnum => SUnsigned
  | CInt8 | CInt16 | CInt32 | CInt64 => SSigned
  | CUint8 | CUint16 | CUint32 | CUint64 => SUnsigned
  | CDecimal _ _ | CDate | CTimeMillis | CTimeMicros | CTimestampMillis | CTimestampMicros => SSigned
  | CInterval => SUndefined
  end.
(** metadata/sort.rs:77-94. *)
Definition physical_sort_order (p : physical_type) : sort_order :=
  match p with
  | Boolean => SUnsigned
  | Int32 | Int64 => SSigned
  | Int96 => SUndefined
  | Float | Double => SSigned
  | ByteArray | FixedLenByteArray _ => SUnsigned
  end.
(** metadata/sort.rs:28-40 [get_sort_order]. *)
Definition get_sort_order (l : option primitive_logical) (c : option primitive_converted) (p : physical_type) : sort_order :=
  match l with
  | Some l => logical_sort_order l
  | None => match c with Some c => converted_sort_order c | None => physical_sort_order p end
  end.
(** metadata/column_order.rs:12-19 [ColumnOrder]. *)
Inductive column_order := TypeDefined (s : sort_order) | UndefinedOrder.
(** metadata/column_order.rs:23-28 [sort_order]. *)
Definition order_sort (o : column_order) : sort_order := match o with TypeDefined s => s | UndefinedOrder => SSigned end.

(** metadata/file_metadata.rs:12-41 [FileMetaData]. *)
Record file_md := mk_fmd {
  fmd_version : Z;
  fmd_num_rows : N;
  fmd_created_by : option (list N);
  fmd_row_groups : list row_group_md;
  fmd_key_value : option (list t_key_value);
  fmd_schema : schema_descriptor;
  fmd_column_orders : option (list column_order)
}.

(** metadata/file_metadata.rs:108-127 [parse_column_orders]. *)
Definition parse_column_orders (orders : list t_column_order) (s : schema_descriptor) : list column_order :=
  map (fun x => let p := d_primitive (cd_descriptor (fst x)) in
                TypeDefined (get_sort_order (pt_logical p) (pt_converted p) (pt_physical p)))
    (combine (sd_leaves s) orders).

(** metadata/file_metadata.rs:55-60 [column_order]: an index beyond the list panics. *)
Definition file_column_order (f : file_md) (i : nat) : res column_order :=
  match fmd_column_orders f with
  | None => Ok UndefinedOrder
  | Some l => match nth_error l i with Some o => Ok o | None => Panic end
  end.

(** metadata/file_metadata.rs:63-85 [try_from_thrift]. *)
Definition file_from_thrift (m : mode) (t : t_file_meta) : res file_md :=
  let* schema := sd_try_from_thrift m (fm_schema t) in
  let* groups := collect_res (map (row_group_from_thrift schema) (fm_row_groups t)) in
  let orders := option_map (fun o => parse_column_orders o schema) (fm_column_orders t) in
  let* rows := try_usize (fm_num_rows t) in
  Ok (mk_fmd (fm_version t) rows (fm_created_by t) groups (fm_key_value t) schema orders).
(** metadata/file_metadata.rs:88-104 [into_thrift]. *)
Definition file_into_thrift (m : mode) (f : file_md) : res t_file_meta :=
  let* groups := collect_res (map (row_group_into_thrift m) (fmd_row_groups f)) in
  Ok (mk_tfm (fmd_version f) (sd_into_thrift (fmd_schema f)) (as_i64 (fmd_num_rows f)) groups (fmd_key_value f)
        (fmd_created_by f) None None None).

(** lib.rs:29 [PARQUET_MAGIC]. *)
Definition magic : list N := [80; 65; 82; 49].
(** lib.rs:28 [FOOTER_SIZE]. *)
Definition footer_size : N := 8.
(** lib.rs:32 [DEFAULT_FOOTER_READ_SIZE]. *)
Definition default_footer_read_size : N := 65536.

(** read/metadata.rs:16-18 [metadata_len]: a slice out of bounds panics. *)
Definition metadata_len (buffer : list N) (len : nat) : res Z :=
  if (8 <=? len)%nat && (len - 4 <=? length buffer)%nat
  then Ok (to_signed 32 (le (firstn 4 (skipn (len - 8) buffer))))
  else Panic.

(** read/metadata.rs:54-60 and 84-88. [Seek::seek(SeekFrom::End(-n))]: an error before the start of the source; then [take(n).read_to_end]. *)
Definition seek_end_read (file : list N) (n : N) : res (list N) :=
  if nlen file <? n then Err OutOfSpec else Ok (read_end file n).

(** read/metadata.rs:100-105 [deserialize_metadata]. *)
Definition deserialize_metadata (T : thrift t_file_meta) (m : mode) (bytes : list N) (max : N) : res file_md :=
  let* (meta, _) := t_dec T max bytes in
  file_from_thrift m meta.

(** read/metadata.rs:42-97 [read_metadata_with_size]; [buffer.len() * 2 + 1024] does not overflow for a buffer in memory,
    and the allocation of the second buffer is not modelled. *)
Definition read_metadata_with_size (T : thrift t_file_meta) (m : mode) (file : list N) (file_size : N) : res file_md :=
  if file_size <? 12 then Err OutOfSpec
  else
    let end_len := N.min default_footer_read_size file_size in
    let* buffer := seek_end_read file end_len in
    let* tail := slice_from (N.to_nat end_len - 4) buffer in
    if negb (bytes_eqb tail magic) then Err OutOfSpec
    else
      let* len := metadata_len buffer (N.to_nat end_len) in
      let* len := try_usize len in
      let footer_len := footer_size + len in
      if file_size <? footer_len then Err OutOfSpec
      else
        let* bytes :=
          if footer_len <? nlen buffer then slice_from (N.to_nat (nlen buffer - footer_len)) buffer
          else seek_end_read file footer_len in
        deserialize_metadata T m bytes (nlen bytes * 2 + 1024).

(** read/metadata.rs:35-39 [read_metadata]; read/stream.rs:26-87, its asynchronous version, is the same sequence of steps. *)
Definition read_metadata (T : thrift t_file_meta) (m : mode) (file : list N) : res file_md :=
  read_metadata_with_size T m file (nlen file).

(** read/mod.rs:36-41. *)
Fixpoint filter_from (predicate : row_group_md -> nat -> bool) (i : nat) (l : list row_group_md) : list row_group_md :=
  match l with
  | [] => []
  | g :: r => if predicate g i then g :: filter_from predicate (S i) r else filter_from predicate (S i) r
  end.
(** read/mod.rs:32-45 [filter_row_groups]. *)
Definition filter_row_groups (f : file_md) (predicate : row_group_md -> nat -> bool) : file_md :=
  mk_fmd (fmd_version f) (fmd_num_rows f) (fmd_created_by f) (filter_from predicate 0 (fmd_row_groups f)) (fmd_key_value f)
    (fmd_schema f) (fmd_column_orders f).

(** read/mod.rs:48-66 [get_page_iterator] with read/page/reader.rs:40-58 [PageMetaData::from]. Seeking beyond the
    end is not an error. *)
Definition get_page_iterator (c : column_md) (file : list N) (filter : option (descriptor -> page_header -> bool))
  (scratch : list N) (max : N) : res page_reader :=
  let filter := match filter with Some f => f | None => fun _ _ => true end in
  let* (start, _) := byte_range c in
  let* meta := cmd_meta c in
  let* codec := cmd_compression c in
  Ok (pr_new (skipn (N.to_nat start) file) (cm_num_values meta) codec (cd_descriptor (cmd_descr c)) filter scratch max).

(** read/mod.rs:70-77 [get_field_columns]; a column with an empty path panics. *)
Fixpoint get_field_columns (columns : list column_md) (name : list N) : res (list column_md) :=
  match columns with
  | [] => Ok []
  | c :: r =>
      match cd_path (cmd_descr c) with
      | [] => Panic
      | n :: _ => let* l := get_field_columns r name in Ok (if bytes_eqb n name then c :: l else l)
      end
  end.

(** read/column/mod.rs:57-64 [ColumnIterator]. The reader is the whole file: what the page reader
    of the current column did to its position does not matter, as the next one seeks. *)
Record column_iterator := mk_ci {
  ci_columns : list column_md;   (* the next column is the last one *)
  ci_filter : option (descriptor -> page_header -> bool);
  ci_current : option (page_reader * column_md);
  ci_scratch : list N;
  ci_max : N
}.
(** read/column/mod.rs:69-85 [new]. *)
Definition ci_new (columns : list column_md) (filter : option (descriptor -> page_header -> bool)) (scratch : list N) (max : N) :=
  mk_ci (rev columns) filter None scratch max.
(** read/column/mod.rs:98-101 and 153-159: [Vec::pop], the last element. *)
Definition pop {A} (l : list A) : option (A * list A) :=
  match rev l with [] => None | x :: r => Some (x, rev r) end.
(** read/column/mod.rs:92-119 [advance]. *)
Definition ci_advance (file : list N) (it : column_iterator) : res (column_iterator + list N) :=
  let scratch := match ci_current it with Some (r, _) => pr_scratch r | None => ci_scratch it end in
  match pop (ci_columns it) with
  | None => Ok (inr scratch)
  | Some (c, rest) =>
      let* r := get_page_iterator c file (ci_filter it) scratch (ci_max it) in
      Ok (inl (mk_ci rest (ci_filter it) (Some (r, c)) [] (ci_max it)))
  end.
(** read/column/mod.rs:121-123: what [get] hands out can be changed by its user. *)
Definition ci_put (it : column_iterator) (i : page_reader * column_md) : column_iterator :=
  mk_ci (ci_columns it) (ci_filter it) (Some i) (ci_scratch it) (ci_max it).
(** read/column/mod.rs:22-36 [get_column_iterator]. *)
Definition get_column_iterator (columns : list column_md) (name : list N) (filter : option (descriptor -> page_header -> bool))
  (scratch : list N) (max : N) : res column_iterator :=
  let* columns := get_field_columns columns name in
  Ok (ci_new columns filter scratch max).

(** read/column/mod.rs:128-132 [ReadColumnIterator] (the field is only carried along). *)
Record read_column_iterator := mk_rci {
  rci_chunks : list (list (compressed_page + error) * column_md);
  rci_current : option (list (compressed_page + error) * column_md)
}.
(** read/column/mod.rs:136-145 [new]. *)
Definition rci_new chunks := mk_rci chunks None.
(** read/column/mod.rs:152-165 [advance]. *)
Definition rci_advance (it : read_column_iterator) : res (read_column_iterator + list N) :=
  match pop (rci_chunks it) with
  | None => Ok (inr [])
  | Some (c, rest) => Ok (inl (mk_rci rest (Some c)))
  end.
(** read/column/mod.rs:167-169 [get]. *)
Definition rci_put (it : read_column_iterator) (i : list (compressed_page + error) * column_md) : read_column_iterator :=
  mk_rci (rci_chunks it) (Some i).

(** read/column/mod.rs:190-201 [read_column]: reads what there is; the asynchronous versions in
    read/column/stream.rs do the same (the futures are joined in order). *)
Definition read_column (file : list N) (c : column_md) : res (list N) :=
  let* (start, length) := byte_range c in
  Ok (read_at file start length).
(** read/column/mod.rs:178-186 [read_columns]. *)
Definition read_columns (file : list N) (columns : list column_md) (name : list N) : res (list (column_md * list N)) :=
  let* l := get_field_columns columns name in
  collect_res (map (fun c => let* b := read_column file c in Ok (c, b)) l).
