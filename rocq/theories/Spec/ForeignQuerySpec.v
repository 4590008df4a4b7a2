(** A query over two columns of any writer's file: one is searched, both are read. *)
From Verif Require Import Base.Prelude Model.Types Model.Thrift Model.Intervals Model.Page Model.Io Model.Compression Model.BasicDecompress Model.Metadata Model.PageRead Model.Indexes Model.FileWrite
  Spec.PagesSpec Spec.FileSpec Spec.ForeignSpec Spec.ValuesSpec Spec.PruneSpec Spec.ForeignValuesSpec Spec.ForeignIndexSpec Spec.ForeignSearchSpec Spec.ForeignSkipSpec Spec.ForeignScanSpec.
Open Scope N_scope.

(** Column [j] of the row group holds these cells, one in each row, in pages that an offset index lists. *)
Definition group_listed (k : kind) (F : formats) (C : codecs) (file : list N) (j : nat) (leaf : column_descriptor) (g : t_row_group) (cells : list (option (value k))) : Prop :=
  exists chunk codec dictionary pages dict cellss locs,
    nth_error (rg_columns g) j = Some chunk /\
    indexed_column (f_header F) (f_offsets F) file (mk_cmd chunk leaf) codec dictionary pages cellss locs /\
    Forall (header_readable (f_header F)) pages /\
    (forall x, dictionary = Some x -> header_readable (f_header F) x /\ is_data (snd x) = false /\ page_holds k C codec (cd_descriptor leaf) dict (snd x) []) /\
    Forall2 (page_holds k C codec (cd_descriptor leaf) dict) (map snd pages) cellss /\
    cells = concat cellss /\ rg_num_rows g = Z.of_N (nlen cells).

(** What somebody gets who reads the rows in the intervals from column [j]: its page locations, the pages that are selected, decompressed with any buffers, and of these the selected rows. *)
Definition rows_read (k : kind) (F : formats) (C : codecs) (m : mode) (intervals : list interval) (file : list N) (j : nat) (rg : row_group_md) (found : list (option (value k))) : Prop :=
  exists c locs sel r dict pages selected,
    nth_error (rgm_columns rg) j = Some c /\ read_pages_locations (f_offsets F) file [c] = Ok [locs] /\
    select_pages m intervals locs (rgm_num_rows rg) = Ok sel /\ indexed_reader_new file c sel = Ok r /\
    (forall buffers, length buffers = S (length pages) -> bd_run C m (ir_next (f_header F) m) buffers r = Ok (map (fun p => inl (Some p)) pages ++ [inl None])) /\
    Forall2 (selection_reads k m dict) pages selected /\ found = concat selected.
(** What somebody gets who computes the intervals with the column index of column [j] and a test, and reads them from column [j] and column [j']: the cells side by side. *)
Definition group_queried (k k' : kind) (F : formats) (C : codecs) (m : mode) (keep : option (value k) * option (value k) -> bool) (file : list N) (j j' : nat)
    (rg : row_group_md) (rows : list (option (value k) * option (value k'))) : Prop :=
  exists c ix bounds locs intervals found found',
    nth_error (rgm_columns rg) j = Some c /\
    read_columns_indexes (f_index F) file [c] = Ok [ix] /\ bounds_found k ix bounds /\
    read_pages_locations (f_offsets F) file [c] = Ok [locs] /\ compute_rows (map keep bounds) locs (rgm_num_rows rg) = Ok intervals /\
    rows_read k F C m intervals file j rg found /\ rows_read k' F C m intervals file j' rg found' /\
    length found = length found' /\ rows = combine found found'.
