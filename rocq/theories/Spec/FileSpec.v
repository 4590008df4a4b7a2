(** What the properties of written files and of page indexes mean, apart from how the crate writes them. *)
From Coq Require Import Sorting.Sorted.
From Verif Require Import Base.Prelude Model.Types Model.Native Model.Thrift Model.Intervals Model.Page Model.Io Model.Statistics Model.PageWrite Model.Schema Model.PageRead
  Model.Metadata Model.Indexes Model.FileWrite Spec.RowsSpec Spec.StatsSpec Spec.PagesSpec Spec.ChunkSpec Spec.MetadataSpec.
Open Scope N_scope.

(** [file] holds [bytes] from the position [start] on. *)
Definition holds (file : list N) (start : N) (bytes : list N) : Prop := exists pre post, file = pre ++ bytes ++ post /\ nlen pre = start.

(** The four bytes that end a file ("PAR1") are in it at its start and at its end only. *)
Definition magic_only_at_ends (file : list N) : Prop :=
  forall pre post, file = pre ++ [80; 65; 82; 49] ++ post -> pre = [] \/ post = [].

(** ** Histories *)

(** A call that failed did not write anything of the row group: the sink is as it was, but for the four bytes every file starts with. *)
Definition wrote_nothing (w w' : file_writer) : Prop :=
  sk_data (fw_sink w') = sk_data (fw_sink w) \/ sk_data (fw_sink w) = [] /\ sk_data (fw_sink w') = [80; 65; 82; 49].
(** From [w] to [w'] by writing the row groups [gs], with attempts between them that failed and wrote nothing. *)
Inductive history (F : formats) (m : mode) : file_writer -> list row_group_iter -> file_writer -> Prop :=
| history_nil w : history F m w [] w
| history_ok w g w1 gs w' : fw_write F m w g = (w1, Ok tt) -> history F m w1 gs w' -> history F m w (g :: gs) w'
| history_failed w g w1 e gs w' : fw_write F m w g = (w1, Err e) -> wrote_nothing w w1 -> history F m w1 gs w' -> history F m w gs w'.

(** ** Where the chunks are *)

(** The chunk written for the column [d] with the given pages: the range of bytes that the metadata has for it holds the pages, and the
    metadata describes them. *)
Definition chunk_at (F : formats) (file : list N) (x : column_descriptor * (pages_iter + error)) (c : t_column_chunk) : Prop :=
  exists pages meta, snd x = inl (map inl pages) /\ cc_meta c = Some meta /\
    holds file (chunk_start meta) (chunk_bytes (f_header F) pages) /\ chunk_length meta = nlen (chunk_bytes (f_header F) pages) /\
    exists start, describes (f_header F) start (fst x) pages meta.
(** The same, but the pages are [k] bytes behind the place that the metadata says. *)
Definition chunk_behind (F : formats) (file : list N) (k : N) (x : column_descriptor * (pages_iter + error)) (c : t_column_chunk) : Prop :=
  exists pages meta, snd x = inl (map inl pages) /\ cc_meta c = Some meta /\
    (pages <> [] -> holds file (chunk_start meta + k) (chunk_bytes (f_header F) pages)) /\ chunk_length meta = nlen (chunk_bytes (f_header F) pages) /\
    exists start, describes (f_header F) start (fst x) pages meta.

(** From [w] to [w'] by any calls that write row groups, of which those in the list succeeded and the others failed. Each that succeeded is
    listed with the number of bytes that the failed ones before it left in the file; [k] and [k'] are these numbers at both ends. *)
Definition left_behind (w w' : file_writer) : N :=
  nlen (sk_data (fw_sink w')) - nlen (match sk_data (fw_sink w) with [] => [80; 65; 82; 49] | d => d end).
Inductive troubled (F : formats) (m : mode) : file_writer -> N -> list (row_group_iter * N) -> file_writer -> N -> Prop :=
| troubled_nil w k : troubled F m w k [] w k
| troubled_ok w k g w1 l w' k' : fw_write F m w g = (w1, Ok tt) -> troubled F m w1 k l w' k' -> troubled F m w k ((g, k) :: l) w' k'
| troubled_failed w k g w1 e l w' k' : fw_write F m w g = (w1, Err e) -> troubled F m w1 (k + left_behind w w1) l w' k' -> troubled F m w k l w' k'.

(** The ranges of the chunks that are not empty, in the order of the metadata. *)
Definition ranges (l : list t_row_group) : list (N * N) :=
  filter (fun r => 0 <? snd r)
    (flat_map (fun g => flat_map (fun c => match cc_meta c with Some meta => [(chunk_start meta, chunk_length meta)] | None => [] end)
                          (rg_columns g)) l).
Definition before (a b : N * N) : Prop := fst a + snd a <= fst b.

(** ** Rows *)

(** The rows that the writer takes a page to have: the length of the last interval of rows it carries. A page as its constructor makes it
    carries one interval, of all its rows, or none if it does not know their number. *)
Definition page_rows (p : compressed_page) : N :=
  match p with
  | CData d => match cdp_selected d with Some ivs => iv_length (last ivs (mk_iv 0 0)) | None => 0 end
  | CDict _ => 0
  end.
(** The rows that a page really carries. *)
Definition carried_rows (p : compressed_page) : nat :=
  match p with
  | CData d => match cdp_selected d with Some ivs => length (rows_of ivs) | None => 0 end
  | CDict _ => 0
  end.
Definition chunk_rows (l : list compressed_page) : N := fold_right (fun p n => page_rows p + n) 0 l.
Definition is_data (p : compressed_page) : bool := match p with CData _ => true | CDict _ => false end.
(** The columns of a row group that belong to the schema; the rows of the first of them; the rows of a file, by its row groups. *)
Definition schema_columns (s : schema_descriptor) (g : row_group_iter) : row_group_iter := firstn (length (sd_leaves s)) g.
Definition pages_of_column (c : pages_iter + error) : list compressed_page :=
  match c with inl l => flat_map (fun x => match x with inl p => [p] | inr _ => [] end) l | inr _ => [] end.
Definition group_rows (s : schema_descriptor) (g : row_group_iter) : N :=
  match schema_columns s g with c :: _ => chunk_rows (pages_of_column c) | [] => 0 end.
Definition file_rows (s : schema_descriptor) (gs : list row_group_iter) : N := fold_right (fun g n => group_rows s g + n) 0 gs.

(** The row group [g] read is the row group [rg] written, with the columns of the schema. *)
Definition same_row_group (s : schema_descriptor) (rg : t_row_group) (g : row_group_md) : Prop :=
  map cmd_chunk (rgm_columns g) = rg_columns rg /\ map cmd_descr (rgm_columns g) = sd_leaves s /\
  Z.of_N (rgm_num_rows g) = rg_num_rows rg /\ Z.of_N (rgm_total_byte_size g) = rg_total_byte_size rg.

(** [file] was written from scratch with the row groups [gs], and [md] is what opening it gives. The metadata has less than 2 GiB and is
    read back by the thrift reader. *)
Definition written_and_opened (F : formats) (m : mode) (schema : schema_descriptor) (stats : bool) (gs : list row_group_iter) (kv : option (list t_key_value))
  (file : list N) (md : file_md) : Prop :=
  exists s version created_by w w' size meta, sk_data s = [] /\ history F m (fw_new s schema stats version created_by) gs w /\
    fw_end F m w kv = (w', Ok size) /\ file = sk_data (fw_sink w') /\ nlen file < 2 ^ 63 /\ fw_metadata w' = Some meta /\
    nlen (t_enc (f_file F) meta) < 2 ^ 31 /\ reads_back (f_file F) (2 * (nlen (t_enc (f_file F) meta) + 8) + 1024) meta /\
    read_metadata (f_file F) m file = Ok md.
(** Row groups as they should be given to the writer: a column for each column of the schema, and a number of rows that can be stored. *)
Definition complete_groups (schema : schema_descriptor) (gs : list row_group_iter) : Prop :=
  Forall (fun g => (length (sd_leaves schema) <= length g)%nat) gs /\ file_rows schema gs < 2 ^ 63.

(** ** Indexes *)

(** One entry for each data page, in order: where it starts, how many bytes it has with its header, and the rows before it. *)
Fixpoint locations (T : thrift t_page_header) (start : N) (row : N) (l : list compressed_page) : list t_page_location :=
  match l with
  | [] => []
  | p :: r =>
      let n := nlen (page_bytes T p) in
      if is_data p then mk_loc (Z.of_N start) (Z.of_N n) (Z.of_N row) :: locations T (start + n) (row + page_rows p) r
      else locations T (start + n) row r
  end.

(** What the index of a column says of a page with the given statistics: nothing but the null count if there is no minimum. *)
Definition entry_of {A} (s : stats_of A) : page_index A :=
  match st_min s with
  | Some _ => mk_pi (st_min s) (st_max s) (st_null_count s)
  | None => mk_pi None None (st_null_count s)
  end.
(** The index of a column of the type [p] whose data pages have the given statistics. *)
Definition index_of (p : primitive_type) (l : list statistics) (i : index) : Prop :=
  match i with
  | IBool pages o => exists s, l = map SBool s /\ pages = map entry_of s /\ o = Unordered /\ pt_physical p = Boolean
  | INative t p' pages o => p' = p /\ exists s, l = map (SNative t p) s /\ pages = map entry_of s /\ o = Unordered /\ native_physical t = pt_physical p
  | IBytes p' pages o => p' = p /\ exists s, l = map (SBinary p) s /\ pages = map entry_of s /\ o = Unordered /\ pt_physical p = ByteArray
  | IFixed p' pages o => p' = p /\ exists s n, l = map (SFixed p) s /\ pages = map entry_of s /\ o = Unordered /\ pt_physical p = FixedLenByteArray n
  end.

(** [n] adjacent elements, after the first [k]. *)
Definition slice {A} (k n : nat) (l : list A) : list A := firstn n (skipn k l).
(** A page that can be in an offset index: with its header it has less than 2 GiB, and its rows are known. *)
Definition locatable (T : thrift t_page_header) (p : compressed_page) : Prop :=
  match p with CData d => nlen (page_bytes T p) < 2 ^ 31 /\ cdp_selected d <> None | CDict _ => True end.
(** The locations that belong to a chunk with the given pages. *)
Definition chunk_locations (F : formats) (column : pages_iter + error) (c : t_column_chunk) : list t_page_location :=
  match cc_meta c with Some meta => locations (f_header F) (chunk_start meta) 0 (pages_of_column column) | None => [] end.
(** The statistics of the data pages of a column, and an index that says the same. *)
Definition data_pages (l : list compressed_page) : list compressed_data_page :=
  flat_map (fun p => match p with CData d => [d] | CDict _ => [] end) l.
Definition column_indexed (x : column_descriptor * (pages_iter + error)) (i : index) : Prop :=
  exists stats, Forall2 (fun d s => cdp_statistics d = Ok (Some s)) (data_pages (pages_of_column (snd x))) stats /\
    index_of (d_primitive (cd_descriptor (fst x))) stats i.

(** The struct stored for a column whose data pages have the given statistics: for each the minimum and the maximum in bytes (one zero byte
    for both if there is no minimum, and the page is marked) and the null count. *)
Definition stats_bounds (s : statistics) : option (list N) * option (list N) :=
  match s with
  | SBool s => (option_map bool_bytes (st_min s), option_map bool_bytes (st_max s))
  | SNative t _ s => (option_map (native_to_le t) (st_min s), option_map (native_to_le t) (st_max s))
  | SBinary _ s | SFixed _ s => (st_min s, st_max s)
  end.
Definition or_zero (o : option (list N)) : list N := match o with Some b => b | None => [0] end.
Definition index_struct (l : list statistics) : t_column_index :=
  mk_tci (map (fun s => match fst (stats_bounds s) with Some _ => false | None => true end) l)
    (map (fun s => or_zero (fst (stats_bounds s))) l)
    (map (fun s => match stats_bounds s with (Some _, o) => or_zero o | (None, _) => [0] end) l)
    0 (Some (map (fun s => match stats_null_count s with Some n => n | None => 0%Z end) l)).
(** Statistics that can be in an index: with a null count, and with a maximum if there is a minimum. *)
Definition indexable (s : statistics) : Prop :=
  stats_null_count s <> None /\ (fst (stats_bounds s) <> None -> snd (stats_bounds s) <> None).

(** A data page of a column of the type [p], whose statistics (if it has any) have bounds made of bytes. *)
Definition page_of_type (p : primitive_type) (d : compressed_data_page) : Prop :=
  d_primitive (cdp_descriptor d) = p /\
  match header_statistics (cdp_header d) with Some v => all_opt bytes_ok (ts_max_value v) /\ all_opt bytes_ok (ts_min_value v) | None => True end.
