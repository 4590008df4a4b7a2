(** Bounds of pages, and the rows of the pages that are kept. *)
From Verif Require Import Base.Prelude Model.Types Model.Native Model.Thrift Model.Statistics Model.Compression Model.Page Model.PageWrite Model.Indexes Spec.ValuesSpec Spec.FileSpec.
Open Scope N_scope.

(** The bounds that an index may tell for a page with the statistics [s]: none if there is no minimum. *)
Definition told {A} (s : stats_of A) : option A * option A :=
  match st_min s with Some _ => (st_min s, st_max s) | None => (None, None) end.
(** The statistics [s] of a page of values of the kind [k] tell the bounds [b]. *)
Definition bounds_told (k : kind) (s : statistics) (b : option (value k) * option (value k)) : Prop :=
  match k as k return option (value k) * option (value k) -> Prop with
  | KNative t => fun b => exists p x, s = SNative t p x /\ b = told x
  | KBinary => fun b => exists p x, s = SBinary p x /\ b = told x
  | KFixed _ => fun b => exists p x, s = SFixed p x /\ b = told x
  | KBoolean => fun b => exists x, s = SBool x /\ b = told x
  end b.
(** The bounds of each page that somebody finds in the index [i] of a column of values of the kind [k]. *)
Definition bounds_found (k : kind) (i : index) (l : list (option (value k) * option (value k))) : Prop :=
  match k as k return list (option (value k) * option (value k)) -> Prop with
  | KNative t => fun l => exists p pages o, i = INative t p pages o /\ l = map (fun e => (pi_min e, pi_max e)) pages
  | KBinary => fun l => exists p pages o, i = IBytes p pages o /\ l = map (fun e => (pi_min e, pi_max e)) pages
  | KFixed _ => fun l => exists p pages o, i = IFixed p pages o /\ l = map (fun e => (pi_min e, pi_max e)) pages
  | KBoolean => fun l => exists pages o, i = IBool pages o /\ l = map (fun e => (pi_min e, pi_max e)) pages
  end l.

(** A data page with these cells, at least one: it says how many rows it has, and its statistics are true, where [truth b v] is what it means for a value [v]
    to be within the bounds [b]. *)
Definition truly_described (k : kind) (truth : option (value k) * option (value k) -> value k -> Prop) (p : compressed_page) (cells : list (option (value k))) : Prop :=
  cells <> [] /\ page_rows p = nlen cells /\
  exists d s b, p = CData d /\ cdp_statistics d = Ok (Some s) /\ bounds_told k s b /\ forall v, In (Some v) cells -> truth b v.

(** The rows of the pages with a flag, where the pages have [counts] rows and the first row is [start]. *)
Fixpoint rows_kept (start : nat) (flags : list bool) (counts : list nat) : list nat :=
  match flags, counts with
  | f :: flags, n :: counts => (if f then seq start n else []) ++ rows_kept (start + n) flags counts
  | _, _ => []
  end.

(** All cells are nulls. *)
Definition only_nulls {A} (cells : list (option A)) : bool := forallb (fun c => match c with None => true | Some _ => false end) cells.
