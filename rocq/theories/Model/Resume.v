(** Model of taking a page reader apart and going on with what is left: /repo/src/read/page/reader.rs:128-131. *)
From Verif Require Import Base.Prelude Model.Page Model.PageRead.
Open Scope N_scope.

(** read/page/reader.rs:128-131 [into_inner]: the source where the reader stands, and its buffer. *)
Definition pr_into_inner (r : page_reader) : list N * list N := (pr_source r, pr_scratch r).
