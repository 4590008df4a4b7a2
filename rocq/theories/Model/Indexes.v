(** Model of /repo/src/write/indexes/serialize.rs and write/indexes/write.rs, /repo/src/indexes/index.rs and /repo/src/read/indexes/. *)
From Verif Require Import Base.Prelude Model.Types Model.Native Model.Thrift Model.Intervals Model.Page Model.Io Model.Statistics Model.PageWrite
  Model.Schema Model.PageRead Model.Metadata.
Open Scope N_scope.

(** write/indexes/serialize.rs:21-50: what one data page contributes: null page, min, max, null count. *)
Definition index_entry (s : page_spec) : res (bool * list N * list N * Z) :=
  match ps_statistics s with
  | None => Err OutOfSpec
  | Some stats =>
      let* stats := serialize_statistics stats in
      match ts_null_count stats with
      | None => Err OutOfSpec
      | Some nulls =>
          match ts_min_value stats with
          | Some min =>
              match ts_max_value stats with
              | Some max => Ok (false, min, max, nulls)
              | None => Err OutOfSpec
              end
          | None => Ok (true, [0], [0], nulls)
          end
      end
  end.
(** write/indexes/serialize.rs:12-58 [serialize_column_index]. *)
Definition serialize_column_index (pages : list page_spec) : res t_column_index :=
  let* entries := collect_res (map index_entry (filter is_data_page pages)) in
  Ok (mk_tci (map (fun e => fst (fst (fst e))) entries) (map (fun e => snd (fst (fst e))) entries)
        (map (fun e => snd (fst e)) entries) (boundary_order_to_thrift Unordered) (Some (map snd entries))).

(** write/indexes/serialize.rs:61-79: [usize::try_into] for [i64] and [i32], [i64] row indexes. *)
Fixpoint page_locations (m : mode) (first_row : Z) (pages : list page_spec) : res (list t_page_location) :=
  match pages with
  | [] => Ok []
  | s :: r =>
      let* offset := if ps_offset s <? 2 ^ 63 then Ok (Z.of_N (ps_offset s)) else Err OutOfSpec in
      let* size := try_i32 (ps_bytes_written s) in
      match ps_num_rows s with
      | None => Err OutOfSpec
      | Some rows =>
          let* next := sadd m 64 first_row (as_i64 rows) in
          let* l := page_locations m next r in
          Ok (mk_loc offset size first_row :: l)
      end
  end.
(** write/indexes/serialize.rs:60-82 [serialize_offset_index]. *)
Definition serialize_offset_index (m : mode) (pages : list page_spec) : res (list t_page_location) :=
  page_locations m 0 (filter is_data_page pages).

(** write/indexes/write.rs:17-21 [write_column_index]; its asynchronous version, 25-32, is the same steps. *)
Definition write_column_index (T : thrift t_column_index) (pages : list page_spec) : writer N :=
  do* index := wres (serialize_column_index pages) in write_struct T index.
(** write/indexes/write.rs:34-38 [write_offset_index]; 42-49 is asynchronous. *)
Definition write_offset_index (T : thrift (list t_page_location)) (m : mode) (pages : list page_spec) : writer N :=
  do* index := wres (serialize_offset_index m pages) in write_struct T index.

(** indexes/index.rs:128-135 [PageIndex]. *)
Record page_index (A : Type) := mk_pi { pi_min : option A; pi_max : option A; pi_null_count : option Z }.
Arguments mk_pi {A}. Arguments pi_min {A}. Arguments pi_max {A}. Arguments pi_null_count {A}.
(** indexes/index.rs:74-81 [NativeIndex], 149-155 [ByteIndex], 209-215 [FixedLenByteIndex], 269-273 [BooleanIndex]. *)
Inductive index :=
| IBool (pages : list (page_index bool)) (order : boundary_order)
| INative (t : native) (p : primitive_type) (pages : list (page_index (carrier t))) (order : boundary_order)
| IBytes (p : primitive_type) (pages : list (page_index (list N))) (order : boundary_order)
| IFixed (p : primitive_type) (pages : list (page_index (list N))) (order : boundary_order).

(** indexes/index.rs:96-101, 169-174, 229-234 and 284-289: the zipped lists, one page at a time. *)
Fixpoint zip_index (mins maxs : list (list N)) (nulls : list bool) (counts : list (option Z)) : list (list N * list N * bool * option Z) :=
  match mins, maxs, nulls, counts with
  | a :: mins, b :: maxs, c :: nulls, d :: counts => (a, b, c, d) :: zip_index mins maxs nulls counts
  | _, _, _, _ => []
  end.
(** indexes/index.rs:89-116, 162-187, 222-247 and 277-304. *)
Definition index_pages {A} (value : list N -> res A) (i : t_column_index) : res (list (page_index A)) :=
  let counts := match ci_null_counts i with
                | Some l => map Some l
                | None => repeat None (length (ci_min_values i))
                end in
  collect_res (map (fun x =>
      let '(min, max, is_null, count) := x in
      if (is_null : bool) then Ok (mk_pi None None count)
      else
        let* min := value min in
        let* max := value max in
        Ok (mk_pi (Some min) (Some max) count))
    (zip_index (ci_min_values i) (ci_max_values i) (ci_null_pages i) counts)).
(** indexes/index.rs:106-108. The bounds: an array of the right size (an error otherwise), the first byte (a panic if there is none), or the bytes. *)
Definition native_bound (t : native) (b : list N) : res (carrier t) :=
  if (length b =? native_size t)%nat then Ok (native_from_le t b) else Err OutOfSpec.
(** indexes/index.rs:294-295. *)
Definition bool_bound (b : list N) : res bool := match b with x :: _ => Ok (x =? 1) | [] => Panic end.
(** read/indexes/deserialize.rs:13-26 with indexes/index.rs:85-123, 158-194, 218-254 and 276-310 [try_new]. *)
Definition index_from_thrift (i : t_column_index) (p : primitive_type) : res index :=
  let native t :=
    let* pages := index_pages (native_bound t) i in
    let* order := boundary_order_of_thrift (ci_boundary_order i) in
    Ok (INative t p pages order) in
  match pt_physical p with
  | Boolean =>
      let* pages := index_pages bool_bound i in
      let* order := boundary_order_of_thrift (ci_boundary_order i) in
      Ok (IBool pages order)
  | Int32 => native NI32
  | Int64 => native NI64
  | Int96 => native NI96
  | Float => native NF32
  | Double => native NF64
  | ByteArray =>
      let* pages := index_pages Ok i in
      let* order := boundary_order_of_thrift (ci_boundary_order i) in
      Ok (IBytes p pages order)
  | FixedLenByteArray _ =>
      let* pages := index_pages Ok i in
      let* order := boundary_order_of_thrift (ci_boundary_order i) in
      Ok (IFixed p pages order)
  end.

(** read/indexes/deserialize.rs:8-28 [deserialize]. *)
Definition deserialize_index (T : thrift t_column_index) (data : list N) (p : primitive_type) : res index :=
  let* (i, _) := t_dec T (nlen data * 2 + 1024) data in
  index_from_thrift i p.

(** read/indexes/read.rs:13-48 [prepare_read]. *)
Definition prepare_read (chunks : list column_md) (offset length : t_column_chunk -> option Z) : res (N * list N) :=
  match chunks with
  | [] => Ok (0, [])
  | c :: _ =>
      match offset (cmd_chunk c) with
      | None => Ok (0, [])
      | Some o =>
          let* o := try_usize o in
          let* lengths := collect_res (map (fun c => match length (cmd_chunk c) with None => Err OutOfSpec | Some n => try_usize n end) chunks) in
          Ok (o, lengths)
      end
  end.

(** read/indexes/read.rs:58-78 [deserialize_column_indexes]: the slices are taken one by one as the chunks are decoded; a slice
    beyond the data panics. *)
Fixpoint deserialize_indexes (T : thrift t_column_index) (chunks : list column_md) (data : list N) (lengths : list N) : res (list index) :=
  match chunks, lengths with
  | c :: chunks, n :: lengths =>
      if nlen data <? n then Panic
      else
        let* i := deserialize_index T (firstn (N.to_nat n) data) (d_primitive (cd_descriptor (cmd_descr c))) in
        let* r := deserialize_indexes T chunks (skipn (N.to_nat n) data) lengths in
        Ok (i :: r)
  | _, _ => Ok []
  end.
(** read/indexes/read.rs:88 and 123. *)
Definition total (l : list N) : N := fold_right N.add 0 l.
(** read/indexes/read.rs:82-97 [read_columns_indexes]. *)
Definition read_columns_indexes (T : thrift t_column_index) (file : list N) (chunks : list column_md) : res (list index) :=
  let* (offset, lengths) := prepare_read chunks cc_column_index_offset cc_column_index_length in
  deserialize_indexes T chunks (read_at file offset (total lengths)) lengths.

(** read/indexes/read.rs:99-113 [deserialize_page_locations]: the structs one after the other, all with the limit of the whole. *)
Fixpoint decode_locations (T : thrift (list t_page_location)) (max : N) (n : nat) (data : list N) : res (list (list t_page_location)) :=
  match n with
  | O => Ok []
  | S n =>
      let* (l, data) := t_dec T max data in
      let* r := decode_locations T max n data in
      Ok (l :: r)
  end.
(** read/indexes/read.rs:117-132 [read_pages_locations]. *)
Definition read_pages_locations (T : thrift (list t_page_location)) (file : list N) (chunks : list column_md) : res (list (list t_page_location)) :=
  let* (offset, lengths) := prepare_read chunks cc_offset_index_offset cc_offset_index_length in
  let data := read_at file offset (total lengths) in
  decode_locations T (nlen data * 2 + 1024) (length chunks) data.

(** read/page/indexed_reader.rs:96-125 [IndexedPageReader::new] with read/page/reader.rs:49-58 [PageMetaData::from]. *)
Definition indexed_reader_new (file : list N) (c : column_md) (pages : list filtered_page) : res indexed_reader :=
  let* (start, _) := byte_range c in
  let* _ := cmd_meta c in
  let* codec := cmd_compression c in
  Ok (ir_new file start codec (cd_descriptor (cmd_descr c)) pages).
