(** Pages laid out by any writer that follows the Parquet format, and what somebody gets who follows the runs of levels of a page. *)
From Verif Require Import Base.Prelude Base.Iter Model.Types Model.Native Model.Thrift Model.Intervals Model.HybridRle Model.Plain Model.Page Model.Deserialize
  Spec.Bits Spec.RleSpec Spec.RowsSpec Spec.LevelsSpec Spec.PlainSpec Spec.PageSpec Spec.ValuesSpec Spec.SelectedSpec.
Open Scope N_scope.

(** [levels] are the first of the levels that [def] holds as a sequence of runs, of any kind and length. *)
Definition levels_laid (levels : list bool) (def : list N) : Prop :=
  exists runs extra, conforming 1 runs def /\ map (N.eqb 1) (flat_map run_values runs) = levels ++ extra.
(** As [cells_page] in Spec/ValuesSpec.v, for levels in any runs. *)
Definition cells_laid {A} (d : descriptor) (cells : list (option A)) (values : list N) (p : data_page) : Prop :=
  dp_descriptor p = d /\ d_max_rep d = 0%Z /\ dp_num_values p = nlen cells /\ nlen cells < 2 ^ 31 /\ nlen values < 2 ^ 61 /\
  exists def, page_parts p [] def values /\
    match fi_repetition (pt_info (d_primitive d)) with
    | Optional => d_max_def d = 1%Z /\ levels_laid (levels_of cells) def
    | Required => d_max_def d = 0%Z /\ def = [] /\ ~ In None cells
    | Repeated => False
    end.
(** [holds k d dict p cells]: the data page [p] of a column whose dictionary has the entries [dict] (if it has one) holds [cells]: as plain values, or as
    the width and the positions of dictionary entries. *)
Inductive holds (k : kind) (d : descriptor) (dict : option (list (value k))) (p : data_page) (cells : list (option (value k))) : Prop :=
| holds_plain bytes :
    dp_encoding p = Ok EPlain -> plain_bytes k (present cells) bytes -> cells_laid d cells bytes p -> holds k d dict p cells
| holds_positions entries positions w bytes :
    k <> KBoolean -> dict = Some entries -> (dp_encoding p = Ok EPlainDictionary \/ dp_encoding p = Ok ERleDictionary) ->
    map (fun i => nth_error entries (N.to_nat i)) positions = map Some (present cells) ->
    positions_laid w positions bytes -> cells_laid d cells (N.of_nat w :: bytes) p ->
    holds k d dict p cells.

(** A reader that follows levels: it takes a value for each set level and none for the others. *)
Fixpoint take_levels {V I} (next : V -> res (option I * V)) (levels : list bool) (s : V) : res (list (option I) * V) :=
  match levels with
  | [] => Ok ([], s)
  | false :: r => let* (l, s) := take_levels next r s in Ok (None :: l, s)
  | true :: r =>
      let* (o, s) := next s in
      match o with
      | None => Panic                                       (* a value is missing *)
      | Some x => let* (l, s) := take_levels next r s in Ok (Some x :: l, s)
      end
  end.
Fixpoint skip_values {V I} (next : V -> res (option I * V)) (k : nat) (s : V) : res V :=
  match k with
  | O => Ok s
  | S k => let* (o, s) := next s in match o with None => Panic | Some _ => skip_values next k s end
  end.
(** It follows runs of levels, or the filtered runs, which also tell it to skip values. *)
Fixpoint follow_runs {V I} (next : V -> res (option I * V)) (runs : list level_run) (s : V) : res (list (option I)) :=
  match runs with
  | [] => Ok []
  | r :: runs => let* (l, s) := take_levels next (run_levels r) s in let* rest := follow_runs next runs s in Ok (l ++ rest)
  end.
Fixpoint follow_filtered {V I} (next : V -> res (option I * V)) (runs : list filtered_run) (s : V) : res (list (option I)) :=
  match runs with
  | [] => Ok []
  | FSkipped k :: runs => let* s := skip_values next (N.to_nat k) s in follow_filtered next runs s
  | r :: runs => let* (l, s) := take_levels next (filtered_levels r) s in let* rest := follow_filtered next runs s in Ok (l ++ rest)
  end.

(** Somebody reads all the rows of a page or only some of them. *)
Inductive wanted := All | Rows (rows : list interval).
(** The values of a required page, and the values and nulls of an optional page, read in this way. *)
Definition required_gives {V I} (w : wanted) (m : mode) (next : V -> res (option I * V)) (it : V) (items : list I) : Prop :=
  match w with
  | All => yields next (fun _ _ => True) it items
  | Rows rows => sliced m next rows it items
  end.
Definition optional_gives {V I} (w : wanted) (m : mode) (next : V -> res (option I * V)) (levels : runs_iter) (it : V) (items : list (option I)) : Prop :=
  match w with
  | All => exists runs, yields (ri_next m) (fun _ _ => True) levels (map inl runs) /\ follow_runs next runs it = Ok items
  | Rows rows => exists fh runs, fh_new m levels rows = Ok fh /\ yields (fh_next m (ri_next m)) (fun _ _ => True) fh (map inl runs) /\
                   follow_filtered next runs it = Ok items
  end.
(** What somebody gets who opens a page and reads it in this way; [next] is the iterator over plain values, [item] how it returns a value. *)
Definition gives {V A I} (w : wanted) (m : mode) (next : V -> res (option I * V)) (item : A -> I) (st : page_state V (list A)) (cells : list (option A)) : Prop :=
  match st with
  | PsRequired it => exists vs, cells = map Some vs /\ required_gives w m next it (map item vs)
  | PsOptional (DBitmap levels) it => optional_gives w m next levels it (map (option_map item) cells)
  | PsRequiredDictionary dy =>
      exists positions, cells = map (fun i => nth_error (dy_dict dy) (N.to_nat i)) positions /\ ~ In None cells /\
        required_gives w m (hr_next m) (dy_indexes dy) positions
  | PsOptionalDictionary (DBitmap levels) dy =>
      exists positions, optional_gives w m (hr_next m) levels (dy_indexes dy) positions /\
        Forall2 (fun c p => match p with None => c = None | Some i => c = nth_error (dy_dict dy) (N.to_nat i) /\ c <> None end) cells positions
  | _ => False
  end.
Definition gives_boolean (w : wanted) (m : mode) (st : boolean_state) (cells : list (option bool)) : Prop :=
  match st with
  | BsRequired bytes n => exists bits vs, bm_new bytes 0 n = Ok bits /\ cells = map Some vs /\ required_gives w m bm_next bits vs
  | BsOptional (DBitmap levels) it => optional_gives w m bm_next levels it cells
  | _ => False
  end.
Definition reads (w : wanted) (k : kind) (m : mode) (dict : option (list (value k))) (p : data_page) (cells : list (option (value k))) : Prop :=
  match k as k return option (list (value k)) -> list (option (value k)) -> Prop with
  | KNative t => fun dict cells => exists st, native_try_new m t p dict = Ok st /\ gives w m (cast_next t) (fun v => v) st cells
  | KBinary => fun dict cells => exists st, binary_try_new m p dict = Ok st /\ gives w m bi_next inl st cells
  | KFixed size => fun dict cells => exists st, fixed_try_new m p dict = Ok st /\ gives w m fl_next (fun v => v) st cells
  | KBoolean => fun _ cells => exists st, boolean_try_new m p = Ok st /\ gives_boolean w m st cells
  end dict cells.
(** The rows that are wanted, and whether a page of [n] rows has them. *)
Definition wanted_rows {A} (w : wanted) (cells : list A) : list A := match w with All => cells | Rows rows => pick cells (rows_of rows) end.
Definition has_rows (n : nat) (w : wanted) : Prop :=
  match w with
  | All => True
  | Rows rows => sorted_disjoint rows /\ Forall non_empty rows /\ Forall (fun i => (N.to_nat (iv_start i) + N.to_nat (iv_length i) <= n)%nat) rows
  end.
