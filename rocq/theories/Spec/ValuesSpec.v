(** Columns of values: how the cells of a flat column are stored in pages (from the Parquet format), and what somebody who follows the
    iterators of a page gets. *)
From Verif Require Import Base.Prelude Base.Iter Model.Types Model.Native Model.Thrift Model.HybridRle Model.Plain Model.Page Model.Deserialize
  Spec.Bits Spec.RleSpec Spec.PlainSpec Spec.PageSpec.
Open Scope N_scope.

(** Positions in a dictionary, of [w] bits, as a sequence of runs of any kind and length, of which [positions] are the first. The crate's own encoder leaves out the end
    of its last group of eight. *)
Definition positions_laid (w : nat) (positions bytes : list N) : Prop :=
  (w <= 32)%nat /\ Forall (fits w) positions /\
  ((nlen bytes < 2 ^ 61 /\ exists runs extra, conforming w runs bytes /\ flat_map run_values runs = positions ++ extra) \/ encode_u32 positions (N.of_nat w) = Ok bytes).

(** The types of values. *)
Inductive kind := KNative (t : native) | KBinary | KFixed (size : N) | KBoolean.
Definition value (k : kind) : Type := match k with KNative t => carrier t | KBinary | KFixed _ => list N | KBoolean => bool end.

(** The PLAIN encoding of values. Booleans are packed, eight in a byte, and the last byte is filled with zeros. *)
Definition plain_bytes (k : kind) : list (value k) -> list N -> Prop :=
  match k as k return list (value k) -> list N -> Prop with
  | KNative t => fun vs bytes => Forall (native_ok t) vs /\ bytes = concat (map (native_to_le t) vs)
  | KBinary => fun vs bytes => Forall (fun s => nlen s < 2 ^ 32) vs /\ bytes = plain_strings vs
  | KFixed size => fun vs bytes => 0 < size /\ Forall (fun s => nlen s = size) vs /\ bytes = concat vs
  | KBoolean => fun vs bytes => exists fill, (fill < 8)%nat /\ bit_stream bytes = vs ++ repeat false fill
  end.

(** A cell is a value or null. Only the values are stored, after a level for each cell that says whether it has one. *)
Definition present {A} (cells : list (option A)) : list A :=
  flat_map (fun c => match c with Some v => [v] | None => [] end) cells.
Definition levels_of {A} (cells : list (option A)) : list bool := map (fun c => match c with Some _ => true | None => false end) cells.

(** The page [p], of version 1 or 2, of a column with descriptor [d] has these cells and stores [values] for those that are not null.
    A column is required (it has no nulls and no levels) or optional (levels are written by the crate's encoder of booleans). *)
Definition cells_page {A} (d : descriptor) (cells : list (option A)) (values : list N) (p : data_page) : Prop :=
  dp_descriptor p = d /\ d_max_rep d = 0%Z /\ dp_num_values p = nlen cells /\ nlen cells < 2 ^ 31 /\
  exists def, page_parts p [] def values /\
    match fi_repetition (pt_info (d_primitive d)) with
    | Optional => d_max_def d = 1%Z /\ encode_bool (levels_of cells) = Ok def
    | Required => d_max_def d = 0%Z /\ def = [] /\ ~ In None cells
    | Repeated => False
    end.

(** [stores k d dict p cells]: the page [p] of a column whose dictionary has the entries [dict] (if it has one) holds [cells]: as plain
    values; or, in dictionary encoding, as the width and the encoded positions of the entries; or it is the dictionary and holds none. *)
Inductive stores (k : kind) (d : descriptor) (dict : option (list (value k))) : page -> list (option (value k)) -> Prop :=
| stores_plain p cells bytes :
    dp_encoding p = Ok EPlain -> plain_bytes k (present cells) bytes -> cells_page d cells bytes p ->
    stores k d dict (PData p) cells
| stores_positions p cells entries positions w bytes :
    k <> KBoolean -> dict = Some entries -> (dp_encoding p = Ok EPlainDictionary \/ dp_encoding p = Ok ERleDictionary) ->
    map (fun i => nth_error entries (N.to_nat i)) positions = map Some (present cells) ->
    (w <= 32)%nat -> Forall (fits w) positions -> encode_u32 positions (N.of_nat w) = Ok bytes ->
    cells_page d cells (N.of_nat w :: bytes) p ->
    stores k d dict (PData p) cells
| stores_dictionary p entries :
    dict = Some entries -> plain_bytes k entries (di_buffer p) -> di_num_values p = nlen entries ->
    stores k d dict (PDict p) [].
(** The type of the column is the type of the values. *)
Definition column_of (k : kind) (d : descriptor) : Prop :=
  pt_physical (d_primitive d) = match k with KNative t => native_physical t | KBinary => ByteArray | KFixed size => FixedLenByteArray size | KBoolean => Boolean end.

(** What somebody gets who follows the iterators of a page state: [next] is the iterator over plain values, [entries] the dictionary.
    [item] is how that iterator returns a value. *)
Definition followed {V A I} (m : mode) (next : V -> res (option I * V)) (item : A -> I) (st : page_state V (list A)) (cells : list (option A)) : Prop :=
  match st with
  | PsRequired it => exists vs, cells = map Some vs /\ yields next (fun _ _ => True) it (map item vs)
  | PsOptional (DBitmap levels) it =>
      yields (ov_next (bl_next (ri_next m)) next) (fun _ _ => True) (bl_new levels, it) (map (fun c => inl (option_map item c)) cells)
  | PsRequiredDictionary dy =>
      exists positions, cells = map (fun i => nth_error (dy_dict dy) (N.to_nat i)) positions /\ ~ In None cells /\
        yields (hr_next m) (fun _ _ => True) (dy_indexes dy) positions
  | PsOptionalDictionary (DBitmap levels) dy =>
      exists positions, yields (ov_next (bl_next (ri_next m)) (hr_next m)) (fun _ _ => True) (bl_new levels, dy_indexes dy) (map inl positions) /\
        Forall2 (fun c p => match p with None => c = None | Some i => c = nth_error (dy_dict dy) (N.to_nat i) /\ c <> None end) cells positions
  | _ => False
  end.
(** The same for pages of booleans; a required page hands out its bytes and the number of values. *)
Definition followed_boolean (m : mode) (st : boolean_state) (cells : list (option bool)) : Prop :=
  match st with
  | BsRequired bytes n => cells = map Some (firstn (N.to_nat n) (bit_stream bytes)) /\ (N.to_nat n <= length (bit_stream bytes))%nat
  | BsOptional (DBitmap levels) it =>
      yields (ov_next (bl_next (ri_next m)) bm_next) (fun _ _ => True) (bl_new levels, it) (map inl cells)
  | _ => False
  end.

(** [decodes k m dict p cells]: the page [p] can be opened, with the dictionary [dict], and gives [cells]; or it is that dictionary. *)
Definition decodes (k : kind) (m : mode) (dict : option (list (value k))) (p : page) (cells : list (option (value k))) : Prop :=
  match p with
  | PDict q => cells = [] /\ exists entries, dict = Some entries /\ plain_bytes k entries (di_buffer q) /\ di_num_values q = nlen entries
  | PData q =>
      match k as k return option (list (value k)) -> list (option (value k)) -> Prop with
      | KNative t => fun dict cells => exists st, native_try_new m t q dict = Ok st /\ followed m (cast_next t) (fun v => v) st cells
      | KBinary => fun dict cells => exists st, binary_try_new m q dict = Ok st /\ followed m bi_next inl st cells
      | KFixed size => fun dict cells => exists st, fixed_try_new m q dict = Ok st /\ followed m fl_next (fun v => v) st cells
      | KBoolean => fun _ cells => exists st, boolean_try_new m q = Ok st /\ followed_boolean m st cells
      end dict cells
  end.
