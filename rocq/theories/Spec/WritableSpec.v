(** Which row groups a file writer takes, and which files can be ended. *)
From Verif Require Import Base.Prelude Model.Types Model.Thrift Model.Intervals Model.Page Model.Io Model.Statistics Model.PageWrite Model.ColumnWrite
  Model.Schema Model.FileWrite Spec.PagesSpec Spec.ChunkSpec Spec.StatsSpec Spec.EqualitySpec Spec.FileSpec.
Open Scope N_scope.

(** The statistics of a page, if it has some that can be read. *)
Definition page_statistics (p : compressed_page) : option statistics :=
  match p with CData d => match cdp_statistics d with Ok x => x | _ => None end | CDict _ => None end.

(** A page that can be written: its sizes and its count are 32-bit, its statistics (if it has some) can be read, and the rows selected of it (if
    they are told) are not an empty list of intervals. *)
Definition page_writable (p : compressed_page) : Prop :=
  within_limits p /\
  match p with CData d => (exists x, cdp_statistics d = Ok x) /\ cdp_selected d <> Some [] | CDict _ => True end.

(** Statistics that can be merged: there are none, or they are about values of one type, which is not INT96, and (with overflow checks) adding up
    their null counts stays within 64 bits. *)
Definition mergeable (m : mode) (l : list statistics) : Prop :=
  l = [] \/ exists t, t <> Int96 /\ Forall (fun s => statistics_about s = t) l /\ (m = Checked -> ~ count_overflows (map nulls_told l)).

(** A column that can be written: pages only (the producer does not fail), each can be written, all are compressed with one codec, and their
    statistics can be merged. *)
Definition column_writable (m : mode) (column : pages_iter + error) : Prop :=
  exists l, column = inl (map inl l) /\ Forall page_writable l /\ (exists c, same_codec c l) /\ mergeable m (known (map page_statistics l)).

(** The rows of all data pages are told. *)
Definition rows_told (l : list compressed_page) : Prop := Forall (fun p => match p with CData d => cdp_selected d <> None | CDict _ => True end) l.

(** A row group that can be written: the columns (as many as the schema has) can be, and the first tells its rows. *)
Definition group_writable (m : mode) (s : schema_descriptor) (g : row_group_iter) : Prop :=
  Forall (column_writable m) (schema_columns s g) /\ match schema_columns s g with c :: _ => rows_told (pages_of_column c) | [] => True end.

(** The null counts are 64-bit integers, as their type in the code says. *)
Definition counts_64 (g : row_group_iter) : Prop :=
  Forall (fun c => Forall (fun p => forall s z, page_statistics p = Some s -> nulls_told s = Some z -> in_s 64 z = true) (pages_of_column c)) g.

(** A data page that can be in a column index: it has statistics with a null count, and with a maximum if there is a minimum. *)
Definition page_indexable (p : compressed_page) : Prop :=
  match p with
  | CData d => exists s, cdp_statistics d = Ok (Some s) /\ nulls_told s <> None /\ (fst (stats_bounds s) <> None -> snd (stats_bounds s) <> None)
  | CDict _ => True
  end.
(** A row group that can be indexed: every data page of it can be in the offset index of its column and, if asked for, in the column index. *)
Definition group_indexable (T : thrift t_page_header) (statistics : bool) (s : schema_descriptor) (g : row_group_iter) : Prop :=
  Forall (fun c => Forall (fun p => locatable T p /\ (statistics = true -> page_indexable p)) (pages_of_column c)) (schema_columns s g).
(** The rows each column tells, page by page, are counted with 64 bits. *)
Definition rows_64 (s : schema_descriptor) (g : row_group_iter) : Prop := Forall (fun c => chunk_rows (pages_of_column c) < 2 ^ 63) (schema_columns s g).

(** The producer of a row group fails with [e], in place of a column or of a page. *)
Definition produced (e : error) (g : row_group_iter) : Prop := In (inr e) g \/ exists pages, In (inl pages) g /\ In (inr e) pages.
(** Nothing about a row group can make the writer panic: no page has an empty list of selected rows, no statistics are about INT96 values, and
    (with overflow checks) the null counts of a column can be added up. *)
Definition group_harmless (m : mode) (s : schema_descriptor) (g : row_group_iter) : Prop :=
  Forall (fun c => Forall (fun p => match p with CData d => cdp_selected d <> Some [] | CDict _ => True end) (pages_of_column c) /\
                   Forall (fun x => statistics_about x <> Int96) (known (map page_statistics (pages_of_column c))) /\
                   (m = Checked -> ~ count_overflows (map nulls_told (known (map page_statistics (pages_of_column c)))))) (schema_columns s g).
