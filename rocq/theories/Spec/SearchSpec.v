(** Looking for values. *)
From Verif Require Import Base.Prelude Model.PageWrite Model.Compression Model.Page Spec.FileSpec.
Open Scope N_scope.

(** The page is not empty and says how many rows it has. *)
Definition says_rows {A} (p : compressed_page) (cells : list (option A)) : Prop := cells <> [] /\ page_rows p = nlen cells.
(** The cell holds a value that is looked for. *)
Definition hit {A} (wanted : A -> bool) (c : option A) : bool := match c with Some v => wanted v | None => false end.
