(** Columns of any nesting: how the entries of a column are stored in pages (from the Parquet format), and what somebody who follows the iterators
    of a page gets. *)
From Verif Require Import Base.Prelude Base.Iter Model.Types Model.Native Model.Thrift Model.HybridRle Model.Plain Model.Page Model.Deserialize
  Spec.Bits Spec.UlebSpec Spec.RleSpec Spec.LevelsSpec Spec.PlainSpec Spec.PageSpec Spec.ValuesSpec.
Open Scope N_scope.

(** An entry of a column: its repetition level, its definition level, and a value exactly if the definition level is the column's largest. *)
Record entry (A : Type) := mk_entry { en_rep : N; en_def : N; en_value : option A }.
Arguments mk_entry {A}. Arguments en_rep {A}. Arguments en_def {A}. Arguments en_value {A}.
Definition entry_ok {A} (d : descriptor) (e : entry A) : Prop :=
  (Z.of_N (en_rep e) <= d_max_rep d)%Z /\ (Z.of_N (en_def e) <= d_max_def d)%Z /\ (en_value e <> None <-> Z.of_N (en_def e) = d_max_def d).

(** The bits that levels up to [max] need. *)
Definition bits_for (max : Z) : nat := N.to_nat (N.size (Z.to_N max)).
(** [bytes] are the levels [levels], in the hybrid of RLE and bit-packing: written by the crate's encoder, or any runs that conform to the format, the last of
    which may hold more than there are levels. Levels that can only be zero are not stored. *)
Definition level_bytes (max : Z) (levels bytes : list N) : Prop :=
  if (max =? 0)%Z then bytes = []
  else encode_u32 levels (N.of_nat (bits_for max)) = Ok bytes \/
       exists runs padding, conforming (bits_for max) runs bytes /\ flat_map run_values runs = levels ++ padding.

(** The page [p], of version 1 or 2, of a column with descriptor [d] has these entries and stores [values] for those that have a value. *)
Definition nested_page {A} (d : descriptor) (entries : list (entry A)) (values : list N) (p : data_page) : Prop :=
  dp_descriptor p = d /\ (0 <= d_max_rep d < 2 ^ 15)%Z /\ (0 <= d_max_def d < 2 ^ 15)%Z /\ Forall (entry_ok d) entries /\
  dp_num_values p = nlen entries /\ nlen entries < 2 ^ 31 /\
  exists rep def, page_parts p rep def values /\ level_bytes (d_max_rep d) (map en_rep entries) rep /\ level_bytes (d_max_def d) (map en_def entries) def.
Definition stored_values {A} (entries : list (entry A)) : list A := present (map en_value entries).

(** As [stores] in Spec/ValuesSpec.v, for columns of any nesting. *)
Inductive stores_nested (k : kind) (d : descriptor) (dict : option (list (value k))) : page -> list (entry (value k)) -> Prop :=
| nested_plain p entries bytes :
    dp_encoding p = Ok EPlain -> plain_bytes k (stored_values entries) bytes -> nested_page d entries bytes p ->
    stores_nested k d dict (PData p) entries
| nested_positions p entries words positions w bytes :
    k <> KBoolean -> dict = Some words -> (dp_encoding p = Ok EPlainDictionary \/ dp_encoding p = Ok ERleDictionary) ->
    map (fun i => nth_error words (N.to_nat i)) positions = map Some (stored_values entries) ->
    positions_laid w positions bytes ->
    nested_page d entries (N.of_nat w :: bytes) p ->
    stores_nested k d dict (PData p) entries
| nested_dictionary p words :
    dict = Some words -> plain_bytes k words (di_buffer p) -> di_num_values p = nlen words ->
    stores_nested k d dict (PDict p) [].

(** The levels that the crate's decoder gives for [bytes]. *)
Definition levels_read (m : mode) (bytes : list N) (max : Z) (n : N) (levels : list N) : Prop :=
  exists s, hr_try_new m bytes (N.to_nat (get_bit_width max)) n = Ok s /\ yields (hr_next m) (fun _ _ => True) s levels.
(** What a page state's definition levels say: as levels, or as runs of bits where the largest is 1. *)
Definition levels_handed (m : mode) (max : Z) (v : def_levels) (defs : list N) : Prop :=
  match v with
  | DLevels s top => Z.of_N top = max /\ yields (hr_next m) (fun _ _ => True) s defs
  | DBitmap ri => max = 1%Z /\ exists runs, yields (ri_next m) (fun _ _ => True) ri (map inl runs) /\ concat (map run_levels runs) = map (N.eqb 1) defs
  end.
(** The iterators of a page state give the values [vs]; positions in the dictionary may be followed by others, which no entry uses. *)
Definition handed_out {V A I} (m : mode) (max : Z) (defs : list N) (next : V -> res (option I * V)) (item : A -> I) (st : page_state V (list A)) (vs : list A) : Prop :=
  match st with
  | PsRequired it => yields next (fun _ _ => True) it (map item vs)
  | PsOptional v it => levels_handed m max v defs /\ yields next (fun _ _ => True) it (map item vs)
  | PsRequiredDictionary dy =>
      exists positions unused, yields (hr_next m) (fun _ _ => True) (dy_indexes dy) (positions ++ unused) /\
        map (fun i => nth_error (dy_dict dy) (N.to_nat i)) positions = map Some vs
  | PsOptionalDictionary v dy =>
      levels_handed m max v defs /\
      exists positions unused, yields (hr_next m) (fun _ _ => True) (dy_indexes dy) (positions ++ unused) /\
        map (fun i => nth_error (dy_dict dy) (N.to_nat i)) positions = map Some vs
  end.
(** The same for booleans: the bits, which may be followed by others. *)
Definition handed_out_boolean (m : mode) (max : Z) (defs : list N) (st : boolean_state) (vs : list bool) : Prop :=
  match st with
  | BsRequired bytes _ => exists unused, bit_stream bytes = vs ++ unused
  | BsOptional v it => levels_handed m max v defs /\ exists unused, yields bm_next (fun _ _ => True) it (vs ++ unused)
  end.

(** Putting entries together: an entry with the largest definition level takes the next value. *)
Fixpoint assemble {A} (max : Z) (levels : list (N * N)) (vs : list A) : list (entry A) :=
  match levels with
  | [] => []
  | (r, d) :: rest =>
      if (Z.of_N d =? max)%Z then mk_entry r d (nth_error vs 0) :: assemble max rest (skipn 1 vs) else mk_entry r d None :: assemble max rest vs
  end.

(** [decodes_nested k m dict p entries]: the page can be split into levels and values, both kinds of levels decode, the page can be opened with the
    dictionary [dict], and levels and values together make [entries], with a value for each entry that has one; or it is that dictionary. *)
Definition decodes_nested (k : kind) (m : mode) (dict : option (list (value k))) (p : page) (entries : list (entry (value k))) : Prop :=
  match p with
  | PDict q => entries = [] /\ exists words, dict = Some words /\ plain_bytes k words (di_buffer q) /\ di_num_values q = nlen words
  | PData q =>
      let d := dp_descriptor q in
      exists rep def values reps defs vs, split_buffer m q = Ok (rep, def, values) /\
      levels_read m rep (d_max_rep d) (dp_num_values q) reps /\ levels_read m def (d_max_def d) (dp_num_values q) defs /\
      length reps = length defs /\ entries = assemble (d_max_def d) (combine reps defs) vs /\ Forall (entry_ok d) entries /\
      match k as k return option (list (value k)) -> list (value k) -> Prop with
      | KNative t => fun dict vs => exists st, native_try_new m t q dict = Ok st /\ handed_out m (d_max_def d) defs (cast_next t) (fun v => v) st vs
      | KBinary => fun dict vs => exists st, binary_try_new m q dict = Ok st /\ handed_out m (d_max_def d) defs bi_next inl st vs
      | KFixed size => fun dict vs => exists st, fixed_try_new m q dict = Ok st /\ handed_out m (d_max_def d) defs fl_next (fun v => v) st vs
      | KBoolean => fun _ vs => exists st, boolean_try_new m q = Ok st /\ handed_out_boolean m (d_max_def d) defs st vs
      end dict vs
  end.
