(** Row groups of any writer with statistics and both indexes, and a search in them. *)
From Verif Require Import Base.Prelude Model.Types Model.Thrift Model.Intervals Model.Page Model.Io Model.Compression Model.BasicDecompress Model.Metadata Model.PageRead Model.Indexes Model.FileWrite
  Spec.PagesSpec Spec.ForeignSpec Spec.ValuesSpec Spec.PruneSpec Spec.ForeignValuesSpec Spec.ForeignIndexSpec Spec.ForeignSearchSpec Spec.ForeignSkipSpec Spec.FileSpec.
Open Scope N_scope.

(** Column [j] of the row group, whose column in the schema is [leaf], holds these cells, one in each row, in pages that an offset index lists. It has a column index whose bounds are
    true of the values of the pages. If it has statistics, their bounds are true of all its values, or have a wrong length. *)
Definition group_indexed (k : kind) (F : formats) (C : codecs) (file : list N) (j : nat) (leaf : column_descriptor)
    (truth : option (value k) * option (value k) -> value k -> Prop) (g : t_row_group) (cells : list (option (value k))) : Prop :=
  exists chunk meta codec dictionary pages dict cellss locs bounds,
    nth_error (rg_columns g) j = Some chunk /\ cc_meta chunk = Some meta /\
    (forall s, cm_statistics meta = Some s -> broken_statistics k s \/ exists b, statistics_say k s b /\ forall v, In (Some v) cells -> truth b v) /\
    indexed_column (f_header F) (f_offsets F) file (mk_cmd chunk leaf) codec dictionary pages cellss locs /\
    column_index_of k (f_index F) file (mk_cmd chunk leaf) bounds /\
    Forall2 (fun b cells => forall v, In (Some v) cells -> truth b v) bounds cellss /\
    Forall (header_readable (f_header F)) pages /\
    (forall x, dictionary = Some x -> header_readable (f_header F) x /\ is_data (snd x) = false /\ page_holds k C codec (cd_descriptor leaf) dict (snd x) []) /\
    Forall2 (page_holds k C codec (cd_descriptor leaf) dict) (map snd pages) cellss /\
    cells = concat cellss /\ rg_num_rows g = Z.of_N (nlen cells) /\ nlen cells < 2 ^ 63.

(** What somebody gets who reads the column index and the page locations of column [j], keeps the pages whose bounds pass the test, computes the intervals of rows of these pages, selects
    with them, and reads the rows of the pages that come, decompressed with any buffers: these cells. *)
Definition group_searched (k : kind) (F : formats) (C : codecs) (m : mode) (keep : option (value k) * option (value k) -> bool) (file : list N) (j : nat)
    (rg : row_group_md) (found : list (option (value k))) : Prop :=
  exists c ix bounds locs intervals sel r dict pages selected,
    nth_error (rgm_columns rg) j = Some c /\
    read_columns_indexes (f_index F) file [c] = Ok [ix] /\ bounds_found k ix bounds /\
    read_pages_locations (f_offsets F) file [c] = Ok [locs] /\ compute_rows (map keep bounds) locs (rgm_num_rows rg) = Ok intervals /\
    select_pages m intervals locs (rgm_num_rows rg) = Ok sel /\ indexed_reader_new file c sel = Ok r /\
    (forall buffers, length buffers = S (length pages) -> bd_run C m (ir_next (f_header F) m) buffers r = Ok (map (fun p => inl (Some p)) pages ++ [inl None])) /\
    Forall2 (selection_reads k m dict) pages selected /\ found = concat selected.
