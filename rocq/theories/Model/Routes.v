(** Model of the other ways to the pages of a column: read/page/reader.rs [PageMetaData] and [PageReader::new], read/page/stream.rs.
    A reader that can only read (and not seek) is the list of the bytes that it gives. *)
From Verif Require Import Base.Prelude Model.Types Model.Thrift Model.Page Model.PageRead Model.Schema Model.Metadata.
Open Scope N_scope.

(** read/page/reader.rs:20-31 [PageMetaData]. *)
Record page_meta := mk_pm { pm_start : N; pm_num_values : Z; pm_compression : compression; pm_descriptor : descriptor }.
(** read/page/reader.rs:49-58 [From<&ColumnChunkMetaData>]. *)
Definition page_meta_of (c : column_md) : res page_meta :=
  let* (start, _) := byte_range c in
  let* meta := cmd_meta c in
  let* codec := cmd_compression c in
  Ok (mk_pm start (cm_num_values meta) codec (cd_descriptor (cmd_descr c))).
(** read/page/reader.rs:108-125 [new_with_page_meta]. *)
Definition pr_new_with_page_meta (source : list N) (pm : page_meta) (filter : descriptor -> page_header -> bool) (scratch : list N) (max : N) : page_reader :=
  pr_new source (pm_num_values pm) (pm_compression pm) (pm_descriptor pm) filter scratch max.
(** read/page/reader.rs:95-103 [new]. *)
Definition pr_of_column (source : list N) (c : column_md) (filter : descriptor -> page_header -> bool) (scratch : list N) (max : N) : res page_reader :=
  let* pm := page_meta_of c in
  Ok (pr_new_with_page_meta source pm filter scratch max).
(** read/page/stream.rs:54-73 [get_page_stream_with_page_meta] and 75-84: the stream before it is polled. Seeking beyond the end is not an error. *)
Definition get_page_stream_with_page_meta (pm : page_meta) (file : list N) (filter : descriptor -> page_header -> bool) (scratch : list N) (max : N) : res (option page_reader) :=
  Ok (Some (pr_new_with_page_meta (skipn (N.to_nat (pm_start pm)) file) pm filter scratch max)).
(** read/page/stream.rs:17-32 [get_page_stream]. *)
Definition get_page_stream (c : column_md) (file : list N) (filter : descriptor -> page_header -> bool) (scratch : list N) (max : N) : res (option page_reader) :=
  let* pm := page_meta_of c in
  get_page_stream_with_page_meta pm file filter scratch max.
(** read/page/stream.rs:35-52 [get_page_stream_from_column_start]. *)
Definition get_page_stream_from_column_start (c : column_md) (source : list N) (filter : descriptor -> page_header -> bool) (scratch : list N) (max : N) : res (option page_reader) :=
  let* pm := page_meta_of c in
  Ok (Some (pr_new_with_page_meta source pm filter scratch max)).
