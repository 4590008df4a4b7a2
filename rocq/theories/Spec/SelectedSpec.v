(** Iterators over compressed pages, and what somebody gets who asks for some rows of a page. *)
From Verif Require Import Base.Prelude Base.Iter Model.Types Model.Native Model.Thrift Model.Intervals Model.HybridRle Model.Plain Model.Page Model.Deserialize
  Spec.Bits Spec.PlainSpec Spec.PageSpec Spec.ValuesSpec.
Open Scope N_scope.

(** [R s l]: the iterator in state [s] will return the items [l] and then nothing more. *)
Definition hands_out {S A} (next : S -> res (option A * S)) (R : S -> list A -> Prop) : Prop :=
  (forall s, R s [] -> exists s', next s = Ok (None, s') /\ R s' []) /\
  (forall s x l, R s (x :: l) -> exists s', next s = Ok (Some x, s') /\ R s' l).

(** The iterator [s], restricted to the rows [rows] with the crate's adapter, returns [items] and then ends. *)
Definition sliced {S A} (m : mode) (next : S -> res (option A * S)) (rows : list interval) (s : S) (items : list A) : Prop :=
  exists sl, sl_new m s rows = Ok sl /\ yields (sl_next m next) (fun _ _ => True) sl items.

(** What somebody gets who follows the iterators of a page state, restricted to [rows]; see [followed] in Spec/ValuesSpec.v. *)
Definition followed_selected {V A I} (m : mode) (rows : list interval) (next : V -> res (option I * V)) (item : A -> I) (st : page_state V (list A))
  (cells : list (option A)) : Prop :=
  match st with
  | PsRequired it => exists vs, cells = map Some vs /\ sliced m next rows it (map item vs)
  | PsOptional (DBitmap levels) it =>
      sliced m (ov_next (bl_next (ri_next m)) next) rows (bl_new levels, it) (map (fun c => inl (option_map item c)) cells)
  | PsRequiredDictionary dy =>
      exists positions, cells = map (fun i => nth_error (dy_dict dy) (N.to_nat i)) positions /\ ~ In None cells /\
        sliced m (hr_next m) rows (dy_indexes dy) positions
  | PsOptionalDictionary (DBitmap levels) dy =>
      exists positions, sliced m (ov_next (bl_next (ri_next m)) (hr_next m)) rows (bl_new levels, dy_indexes dy) (map inl positions) /\
        Forall2 (fun c p => match p with None => c = None | Some i => c = nth_error (dy_dict dy) (N.to_nat i) /\ c <> None end) cells positions
  | _ => False
  end.
(** The same for pages of booleans. *)
Definition followed_boolean_selected (m : mode) (rows : list interval) (st : boolean_state) (cells : list (option bool)) : Prop :=
  match st with
  | BsRequired bytes n => exists bits vs, bm_new bytes 0 n = Ok bits /\ cells = map Some vs /\ sliced m bm_next rows bits vs
  | BsOptional (DBitmap levels) it => sliced m (ov_next (bl_next (ri_next m)) bm_next) rows (bl_new levels, it) (map inl cells)
  | _ => False
  end.

(** [decodes_selected k m dict p cells]: the page [p] names rows and can be opened, with the dictionary [dict]; following its iterators for these rows
    gives [cells]. Or it is that dictionary. *)
Definition decodes_selected (k : kind) (m : mode) (dict : option (list (value k))) (p : page) (cells : list (option (value k))) : Prop :=
  match p with
  | PDict q => cells = [] /\ exists entries, dict = Some entries /\ plain_bytes k entries (di_buffer q) /\ di_num_values q = nlen entries
  | PData q =>
      exists rows, dp_selected q = Some rows /\
      match k as k return option (list (value k)) -> list (option (value k)) -> Prop with
      | KNative t => fun dict cells => exists st, native_try_new m t q dict = Ok st /\ followed_selected m rows (cast_next t) (fun v => v) st cells
      | KBinary => fun dict cells => exists st, binary_try_new m q dict = Ok st /\ followed_selected m rows bi_next inl st cells
      | KFixed size => fun dict cells => exists st, fixed_try_new m q dict = Ok st /\ followed_selected m rows fl_next (fun v => v) st cells
      | KBoolean => fun _ cells => exists st, boolean_try_new m q = Ok st /\ followed_boolean_selected m rows st cells
      end dict cells
  end.

(** A data page of a flat column says that its rows are its cells, of which it has at least one. *)
Definition counts_rows {A} (p : page) (cells : list (option A)) : Prop :=
  match p with PData q => dp_selected q = Some [mk_iv 0 (nlen cells)] /\ cells <> [] | PDict _ => False end.
