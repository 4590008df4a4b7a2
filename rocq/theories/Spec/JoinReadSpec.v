(** Reading columns at the same time, apart from how the futures are run. *)
From Verif Require Import Base.Prelude Model.Types Model.Io Model.Metadata Model.JoinRead.
Open Scope N_scope.

(** From the call to the state [ts], by the given schedule. *)
Definition reached (file : list N) (columns : list column_md) (name : list N) (schedule : list (nat * answer)) (ts : joined) : Prop :=
  exists fields, get_field_columns columns name = Ok fields /\ join_run file (join_start fields) schedule = Some ts.
(** Nothing that was asked of the outside world failed. *)
Definition no_failure (schedule : list (nat * answer)) : Prop := forall i e, ~ In (i, Failed e) schedule.
(** The steps that all futures together can take at most: opening, seeking, one for each byte and one to see the end. *)
Definition most_steps (fields : list column_md) : N :=
  fold_right (fun c n => match byte_range c with Ok (_, length) => length + 3 | _ => 1 end + n) 0 fields.
