(** What callers may expect of the number of items that an iterator announces. *)
From Verif Require Import Base.Prelude.
Open Scope N_scope.

(** [Iterator::size_hint]: a lower bound and perhaps an upper bound for the number of items to come, of which there are [left]. *)
Definition hint_holds (hint : N * option N) (left : nat) : Prop :=
  fst hint <= N.of_nat left /\ match snd hint with Some upper => N.of_nat left <= upper | None => True end.
(** An exact hint. *)
Definition exactly (n : N) : N * option N := (n, Some n).
