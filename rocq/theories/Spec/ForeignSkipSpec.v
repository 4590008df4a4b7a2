(** Statistics of column chunks of any writer, and what the row groups of a file hold. *)
From Verif Require Import Base.Prelude Model.Types Model.Native Model.Thrift Model.Page Model.Io Model.Compression Model.Metadata Model.PageRead Model.FileWrite
  Spec.PagesSpec Spec.ForeignSpec Spec.ValuesSpec Spec.NestedSpec Spec.ForeignValuesSpec Spec.ForeignSearchSpec.
Open Scope N_scope.

(** The bytes are those of the bound, or there is neither. Bounds of a fixed-length column have that length. *)
Definition bound_stored (k : kind) (x : option (value k)) (bytes : option (list N)) : Prop :=
  match x, bytes with
  | Some v, Some b => bound_bytes k v b /\ match k with KFixed size => nlen b = size | _ => True end
  | None, None => True
  | _, _ => False
  end.
(** The statistics have these bounds, of which one or both may be missing. The deprecated bounds [ts_min] and [ts_max] may have any bytes, as may the counts. *)
Definition statistics_say (k : kind) (s : t_statistics) (b : option (value k) * option (value k)) : Prop :=
  bound_stored k (fst b) (ts_min_value s) /\ bound_stored k (snd b) (ts_max_value s).

(** The length that the bytes of a bound must have, if there is one. *)
Definition bound_size (k : kind) : option N :=
  match k with KNative t => Some (N.of_nat (native_size t)) | KBinary => None | KFixed size => Some size | KBoolean => Some 1 end.
(** Statistics with a bound of another length. *)
Definition broken_statistics (k : kind) (s : t_statistics) : Prop :=
  exists size b, bound_size k = Some size /\ (ts_min_value s = Some b \/ ts_max_value s = Some b) /\ nlen b <> size.

(** Column [j] of the row group, whose column in the schema is [leaf], holds these cells; if it has statistics, their bounds are true of all its values, or have a wrong length. *)
Definition group_holds (k : kind) (F : formats) (C : codecs) (max : N) (file : list N) (j : nat) (leaf : column_descriptor)
    (truth : option (value k) * option (value k) -> value k -> Prop) (g : t_row_group) (cells : list (option (value k))) : Prop :=
  exists chunk meta codec l dict cellss,
    nth_error (rg_columns g) j = Some chunk /\ cc_meta chunk = Some meta /\
    (forall s, cm_statistics meta = Some s -> broken_statistics k s \/ exists b, statistics_say k s b /\ forall v, In (Some v) cells -> truth b v) /\
    located (f_header F) file (mk_cmd chunk leaf) codec l /\ Forall (readable (f_header F) max) l /\ (values_of (map snd l) < 2 ^ 63)%Z /\
    Forall2 (page_holds k C codec (cd_descriptor leaf) dict) (map snd l) cellss /\ cells = concat cellss.

(** What somebody gets who opens column [j] of the row group, decompresses its pages with any buffers, and reads them to the end: these cells. *)
Definition group_reads (k : kind) (T : thrift t_page_header) (C : codecs) (m : mode) (scratch : list N) (max : N) (file : list N) (j : nat)
    (rg : row_group_md) (cells : list (option (value k))) : Prop :=
  exists c r dict pages cellss,
    nth_error (rgm_columns rg) j = Some c /\ get_page_iterator c file None scratch max = Ok r /\
    (forall caps buffer, length caps = S (length pages) ->
       dec_run C m (pr_iter T m) caps (dec_new r buffer) = Ok (map (fun p => inl (Some p)) pages ++ [inl None])) /\
    Forall2 (page_reads k m dict) pages cellss /\ cells = concat cellss.

(** As [group_holds], for columns of any nesting. *)
Definition group_holds_nested (k : kind) (F : formats) (C : codecs) (max : N) (file : list N) (j : nat) (leaf : column_descriptor)
    (truth : option (value k) * option (value k) -> value k -> Prop) (g : t_row_group) (entries : list (entry (value k))) : Prop :=
  exists chunk meta codec l dict entriess,
    nth_error (rg_columns g) j = Some chunk /\ cc_meta chunk = Some meta /\
    (forall s, cm_statistics meta = Some s -> broken_statistics k s \/ exists b, statistics_say k s b /\ forall e v, In e entries -> en_value e = Some v -> truth b v) /\
    located (f_header F) file (mk_cmd chunk leaf) codec l /\ Forall (readable (f_header F) max) l /\ (values_of (map snd l) < 2 ^ 63)%Z /\
    Forall2 (page_holds_nested k C codec (cd_descriptor leaf) dict) (map snd l) entriess /\ entries = concat entriess.
(** As [group_reads], for columns of any nesting: the entries of each page are the only ones that its iterators give. *)
Definition group_reads_nested (k : kind) (T : thrift t_page_header) (C : codecs) (m : mode) (scratch : list N) (max : N) (file : list N) (j : nat)
    (rg : row_group_md) (entries : list (entry (value k))) : Prop :=
  exists c r dict pages entriess,
    nth_error (rgm_columns rg) j = Some c /\ get_page_iterator c file None scratch max = Ok r /\
    (forall caps buffer, length caps = S (length pages) ->
       dec_run C m (pr_iter T m) caps (dec_new r buffer) = Ok (map (fun p => inl (Some p)) pages ++ [inl None])) /\
    Forall2 (fun p entries => forall got, decodes_nested k m dict p got <-> got = entries) pages entriess /\ entries = concat entriess.
