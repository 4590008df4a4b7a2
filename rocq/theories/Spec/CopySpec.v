(** Pages that are copied from one file to another. *)
From Verif Require Import Base.Prelude Model.Types Model.Thrift Model.Intervals Model.Page Model.Io Model.PageMeta.
Open Scope N_scope.

(** [rows_set p q]: [q] is the page [p], after somebody told which rows it has, if it is a data page. *)
Definition rows_set (p q : compressed_page) : Prop :=
  match p with CData x => exists rows, q = CData (cdp_select_rows x rows) | CDict _ => q = p end.
