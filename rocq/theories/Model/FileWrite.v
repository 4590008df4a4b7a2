(** Model of /repo/src/write/row_group.rs, /repo/src/write/file.rs and /repo/src/write/stream.rs.

    Byte offsets and the sums of sizes in bytes are not wrapped: they stay far below [2^63] in any execution. The columns of a row
    group are the list of what the iterator given returns: the pages of a column, or the error it fails with. [flush] does not fail. *)
From Verif Require Import Base.Prelude Model.Types Model.Thrift Model.Intervals Model.Page Model.Io Model.Statistics Model.PageWrite Model.ColumnWrite
  Model.Schema Model.PageRead Model.Metadata Model.Indexes.
Open Scope N_scope.

(** write/page.rs:202-203, write/column_chunk.rs:55-60, write/file.rs:27-28, write/indexes/write.rs:19-20 and 36-37. The thrift protocol for the structs that are written. *)
Record formats := mk_formats {
  f_header : thrift t_page_header;
  f_column : thrift t_column_meta;
  f_file : thrift t_file_meta;
  f_offsets : thrift (list t_page_location);
  f_index : thrift t_column_index
}.

(** write/mod.rs:26-27: the inner iterator of [RowGroupIter]. *)
Definition pages_iter : Type := list (compressed_page + error).
(** write/mod.rs:26-27 [RowGroupIter]. *)
Definition row_group_iter : Type := list (pages_iter + error).

(** write/row_group.rs:63-73. *)
Fixpoint sum_rows (m : mode) (acc : Z) (specs : list page_spec) : res Z :=
  match specs with
  | [] => Ok acc
  | s :: r =>
      match ps_num_rows s with
      | None => Err OutOfSpec
      | Some n => let* acc := sadd m 64 acc (as_i64 n) in sum_rows m acc r
      end
  end.
(** write/row_group.rs:59-76 [compute_num_rows]. *)
Definition compute_num_rows (m : mode) (columns : list (t_column_chunk * list page_spec)) : res Z :=
  match columns with
  | [] => Ok 0%Z
  | (_, specs) :: _ => sum_rows m 0 (filter is_data_page specs)
  end.

(** write/row_group.rs:94-104: the descriptors and the columns side by side, until either ends; the offset after the last. *)
Fixpoint write_columns (F : formats) (m : mode) (offset : N) (descriptors : list column_descriptor) (columns : row_group_iter)
  : writer (list (t_column_chunk * list page_spec) * N) :=
  match descriptors, columns with
  | d :: descriptors, inl pages :: columns =>
      do* r := write_column_chunk (f_header F) (f_column F) m offset d pages in
      let '(chunk, specs, size) := r in
      do* r := write_columns F m (offset + size) descriptors columns in
      let (l, offset) := r : _ * N in
      wret ((chunk, specs) :: l, offset)
  | _ :: _, inr e :: _ => wres (Err e)
  | _, _ => wret ([], offset)
  end.

(** write/row_group.rs:119 and 123. The unwrap of 119-126: a chunk written always has metadata. *)
Definition chunk_meta (c : t_column_chunk) : res t_column_meta := match cc_meta c with Some meta => Ok meta | None => Panic end.
(** write/row_group.rs:78-141 [write_row_group]; the asynchronous version (145-) is the same sequence of steps. *)
Definition write_row_group (F : formats) (m : mode) (offset : N) (descriptors : list column_descriptor) (columns : row_group_iter) (ordinal : nat)
  : writer (t_row_group * list (list page_spec) * N) :=
  do* r := write_columns F m offset descriptors columns in
  let (l, last) := r : _ * N in
  do* num_rows := wres (compute_num_rows m l) in
  let file_offset := match l with [] => None | (c, _) :: _ => chunk_file_offset c end in
  do* metas := wres (collect_res (map (fun x => chunk_meta (fst x)) l)) in
  let ordinal := if (Z.of_nat ordinal <? 2 ^ 15)%Z then Some (Z.of_nat ordinal) else None in
  wret (mk_trg (map fst l) (zsum (map cm_uncompressed_size metas)) num_rows None file_offset (Some (zsum (map cm_compressed_size metas))) ordinal,
        map snd l, last - offset).

(** write/mod.rs:47-51 [State]. *)
Inductive wstate := WInitialised | WStarted | WFinished.
(** write/file.rs:46-59 [FileWriter]; write/stream.rs:47-58. *)
Record file_writer := mk_fw {
  fw_sink : sink;
  fw_schema : schema_descriptor;
  fw_statistics : bool;
  fw_version : Z;
  fw_created_by : option (list N);
  fw_offset : N;
  fw_groups : list t_row_group;
  fw_specs : list (list (list page_spec));
  fw_state : wstate;
  fw_metadata : option t_file_meta
}.
(** write/file.rs:100-117 [new]; write/stream.rs:75-91. *)
Definition fw_new (s : sink) (schema : schema_descriptor) (statistics : bool) (version : Z) (created_by : option (list N)) : file_writer :=
  mk_fw s schema statistics version created_by 0 [] [] WInitialised None.
(** write/file.rs:127, 149 and 228: no function of its own; the sink after a call that failed. *)
Definition set_sink (w : file_writer) (s : sink) : file_writer :=
  mk_fw s (fw_schema w) (fw_statistics w) (fw_version w) (fw_created_by w) (fw_offset w) (fw_groups w) (fw_specs w) (fw_state w) (fw_metadata w).
(** write/file.rs:185-189 and 207-210: no function of its own; what the loops of [end] have updated. *)
Definition set_progress (w : file_writer) (s : sink) (offset : N) (groups : list t_row_group) : file_writer :=
  mk_fw s (fw_schema w) (fw_statistics w) (fw_version w) (fw_created_by w) offset groups (fw_specs w) (fw_state w) (fw_metadata w).

(** write/file.rs:20-23 [start_file], 125-135 [start]; write/stream.rs:18-21, 99-109. *)
Definition fw_start (w : file_writer) : file_writer * res unit :=
  if fw_offset w =? 0 then
    match write_all magic (fw_sink w) with
    | (s, Ok _) =>
        (mk_fw s (fw_schema w) (fw_statistics w) (fw_version w) (fw_created_by w) 4 (fw_groups w) (fw_specs w) WStarted (fw_metadata w), Ok tt)
    | (s, Err e) => (set_sink w s, Err e)
    | (s, Panic) => (set_sink w s, Panic)
    end
  else (w, Err InvalidParameter).
(** write/file.rs:145-147 and 165-167. *)
Definition fw_maybe_start (w : file_writer) : file_writer * res unit :=
  if fw_offset w =? 0 then fw_start w else (w, Ok tt).

(** write/file.rs:140-160 [write]; write/stream.rs:112-134. *)
Definition fw_write (F : formats) (m : mode) (w : file_writer) (columns : row_group_iter) : file_writer * res unit :=
  match fw_maybe_start w with
  | (w, Ok _) =>
      match write_row_group F m (fw_offset w) (sd_leaves (fw_schema w)) columns (length (fw_groups w)) (fw_sink w) with
      | (s, Ok (group, specs, size)) =>
          (mk_fw s (fw_schema w) (fw_statistics w) (fw_version w) (fw_created_by w) (fw_offset w + size) (fw_groups w ++ [group])
             (fw_specs w ++ [specs]) (fw_state w) (fw_metadata w), Ok tt)
      | (s, Err e) => (set_sink w s, Err e)
      | (s, Panic) => (set_sink w s, Panic)
      end
  | (w, r) => (w, r)
  end.

(** write/file.rs:186-189: the loops over the columns and the row groups that write an index for each column; each column has its
    offset set before the index is written and its length after. What they did before they failed stays. *)
Definition set_column_index (c : t_column_chunk) (offset length : option Z) : t_column_chunk :=
  mk_tcc (cc_file_path c) (cc_file_offset c) (cc_meta c) (cc_offset_index_offset c) (cc_offset_index_length c) offset length (cc_crypto c) (cc_encrypted c).
(** write/file.rs:208-210. *)
Definition set_offset_index (c : t_column_chunk) (offset length : option Z) : t_column_chunk :=
  mk_tcc (cc_file_path c) (cc_file_offset c) (cc_meta c) offset length (cc_column_index_offset c) (cc_column_index_length c) (cc_crypto c) (cc_encrypted c).
Section Loops.
  Variable write : list page_spec -> writer N.
  Variable set : t_column_chunk -> option Z -> option Z -> t_column_chunk.
  Variable old_length : t_column_chunk -> option Z.
  (** write/file.rs:183-192 and 202-212. *)
  Fixpoint index_columns (s : sink) (offset : N) (columns : list t_column_chunk) (pages : list (list page_spec))
    : sink * N * list t_column_chunk * res unit :=
    match columns, pages with
    | c :: columns, p :: pages =>
        match write p s with
        | (s, Ok n) =>
            let '(s, last, l, r) := index_columns s (offset + n) columns pages in
            (s, last, set c (Some (as_i64 offset)) (Some (as_i32 n)) :: l, r)
        | (s, Err e) => (s, offset, set c (Some (as_i64 offset)) (old_length c) :: columns, Err e)
        | (s, Panic) => (s, offset, set c (Some (as_i64 offset)) (old_length c) :: columns, Panic)
        end
    | _, _ => (s, offset, columns, Ok tt)
    end.
  (** write/file.rs:183 and 202: [group.columns.iter_mut()]. *)
  Definition set_columns (g : t_row_group) (columns : list t_column_chunk) : t_row_group :=
    mk_trg columns (rg_total_byte_size g) (rg_num_rows g) (rg_sorting g) (rg_file_offset g) (rg_compressed_size g) (rg_ordinal g).
  (** write/file.rs:179-194 and 198-214. *)
  Fixpoint index_groups (s : sink) (offset : N) (groups : list t_row_group) (pages : list (list (list page_spec)))
    : sink * N * list t_row_group * res unit :=
    match groups, pages with
    | g :: groups, p :: pages =>
        let '(s, offset, columns, r) := index_columns s offset (rg_columns g) p in
        let g := set_columns g columns in
        match r with
        | Ok _ => let '(s, offset, l, r) := index_groups s offset groups pages in (s, offset, g :: l, r)
        | Err e => (s, offset, g :: groups, Err e)
        | Panic => (s, offset, g :: groups, Panic)
        end
    | _, _ => (s, offset, groups, Ok tt)
    end.
End Loops.
(** write/file.rs:177-195. *)
Definition column_indexes (F : formats) := index_groups (write_column_index (f_index F)) set_column_index cc_column_index_length.
(** write/file.rs:197-214. *)
Definition offset_indexes (F : formats) (m : mode) := index_groups (write_offset_index (f_offsets F) m) set_offset_index cc_offset_index_length.

(** write/file.rs:25-41 [end_file]; write/stream.rs:23-42: the length as [i32], back to [u64] for the result. *)
Definition end_file (T : thrift t_file_meta) (m : mode) (meta : t_file_meta) : writer N :=
  do* n := write_struct T meta in
  let len := as_i32 n in
  do* _ := write_all (to_le 4 (of_signed 32 len) ++ magic) in
  wres (uadd m 64 (as_usize len) footer_size).

(** write/file.rs:68-75 [write_metadata_sidecar]. *)
Definition write_metadata_sidecar (T : thrift t_file_meta) (m : mode) (meta : t_file_meta) : writer N :=
  do* _ := write_all magic in
  do* len := end_file T m meta in
  wres (uadd m 64 4 len).

(** write/file.rs:175: the rows of all row groups, as [i64]. *)
Fixpoint total_rows (m : mode) (acc : Z) (groups : list t_row_group) : res Z :=
  match groups with [] => Ok acc | g :: r => let* acc := sadd m 64 acc (rg_num_rows g) in total_rows m acc r end.

(** write/file.rs:177-214: the part of [end] that writes both kinds of indexes. *)
Definition fw_indexes (F : formats) (m : mode) (w : file_writer) : file_writer * res unit :=
  let '(s, offset, groups, r) :=
    if fw_statistics w then column_indexes F (fw_sink w) (fw_offset w) (fw_groups w) (fw_specs w)
    else (fw_sink w, fw_offset w, fw_groups w, Ok tt) in
  match r with
  | Ok _ => let '(s, offset, groups, r) := offset_indexes F m s offset groups (fw_specs w) in (set_progress w s offset groups, r)
  | Err e => (set_progress w s offset groups, Err e)
  | Panic => (set_progress w s offset groups, Panic)
  end.
(** write/file.rs:216-226. *)
Definition fw_thrift (w : file_writer) (rows : Z) (key_value : option (list t_key_value)) : t_file_meta :=
  mk_tfm (fw_version w) (sd_into_thrift (fw_schema w)) rows (fw_groups w) key_value (fw_created_by w) None None None.
(** write/file.rs:164-232 [end]. *)
Definition fw_end (F : formats) (m : mode) (w : file_writer) (key_value : option (list t_key_value)) : file_writer * res N :=
  match fw_maybe_start w with
  | (w, Ok _) =>
      match fw_state w with
      | WStarted =>
          match total_rows m 0 (fw_groups w) with
          | Ok rows =>
              match fw_indexes F m w with
              | (w, Ok _) =>
                  let meta := fw_thrift w rows key_value in
                  match end_file (f_file F) m meta (fw_sink w) with
                  | (s, Ok len) =>
                      (mk_fw s (fw_schema w) (fw_statistics w) (fw_version w) (fw_created_by w) (fw_offset w) (fw_groups w) (fw_specs w)
                         WFinished (Some meta), uadd m 64 (fw_offset w) len)
                  | (s, Err e) => (set_sink w s, Err e)
                  | (s, Panic) => (set_sink w s, Panic)
                  end
              | (w, Err e) => (w, Err e)
              | (w, Panic) => (w, Panic)
              end
          | Err e => (w, Err e)
          | Panic => (w, Panic)
          end
      | _ => (w, Err InvalidParameter)
      end
  | (w, Err e) => (w, Err e)
  | (w, Panic) => (w, Panic)
  end.

(** write/stream.rs:138-188 [end] of the asynchronous writer: it neither marks the file as finished nor keeps the metadata. Its [write] is
    the same sequence of steps as [fw_write]. *)
Definition fs_end (F : formats) (m : mode) (w : file_writer) (key_value : option (list t_key_value)) : file_writer * res N :=
  match fw_maybe_start w with
  | (w, Ok _) =>
      match fw_state w with
      | WStarted =>
          match total_rows m 0 (fw_groups w) with
          | Ok rows =>
              match fw_indexes F m w with
              | (w, Ok _) =>
                  match end_file (f_file F) m (fw_thrift w rows key_value) (fw_sink w) with
                  | (s, Ok len) => (set_sink w s, uadd m 64 (fw_offset w) len)
                  | (s, Err e) => (set_sink w s, Err e)
                  | (s, Panic) => (set_sink w s, Panic)
                  end
              | (w, Err e) => (w, Err e)
              | (w, Panic) => (w, Panic)
              end
          | Err e => (w, Err e)
          | Panic => (w, Panic)
          end
      | _ => (w, Err InvalidParameter)
      end
  | (w, Err e) => (w, Err e)
  | (w, Panic) => (w, Panic)
  end.

(** write/file.rs:140 and 164: a use of a writer: calls one after the other, each with its result. *)
Inductive call := CWrite (columns : row_group_iter) | CEnd (key_value : option (list t_key_value)).
(** write/file.rs:140 and 164. *)
Definition fw_call (F : formats) (m : mode) (w : file_writer) (c : call) : file_writer * res N :=
  match c with
  | CWrite columns => let (w, r) := fw_write F m w columns in (w, let* _ := r in Ok 0)
  | CEnd kv => fw_end F m w kv
  end.
(** write/stream.rs:112 and 138. *)
Definition fs_call (F : formats) (m : mode) (w : file_writer) (c : call) : file_writer * res N :=
  match c with
  | CWrite columns => let (w, r) := fw_write F m w columns in (w, let* _ := r in Ok 0)
  | CEnd kv => fs_end F m w kv
  end.
(** write/file.rs:140-232: the caller. *)
Fixpoint calls (step : file_writer -> call -> file_writer * res N) (w : file_writer) (l : list call) : file_writer * list (res N) :=
  match l with
  | [] => (w, [])
  | c :: r => let (w, x) := step w c in let (w, xs) := calls step w r in (w, x :: xs)
  end.
