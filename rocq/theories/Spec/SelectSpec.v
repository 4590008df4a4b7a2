(** What is selected inside a page, interval by interval. *)
From Verif Require Import Base.Prelude Model.Intervals.
Open Scope N_scope.

(** The first row of the interval lies before the end of the other one, and the other way round. *)
Definition meet (a b : interval) : Prop := iv_start a < iv_start b + iv_length b /\ iv_start b < iv_start a + iv_length a.
(** The piece [piece], counted from the first row of [page], is the common part of [page] and [wanted]. *)
Definition common_part (page wanted piece : interval) : Prop :=
  iv_start page + iv_start piece = N.max (iv_start page) (iv_start wanted) /\
  iv_start page + iv_start piece + iv_length piece = N.min (iv_start page + iv_length page) (iv_start wanted + iv_length wanted).
(** [pieces] are the common parts of the page with those of the intervals that meet it, in their order. *)
Inductive pieces_of (page : interval) : list interval -> list interval -> Prop :=
| pieces_none : pieces_of page [] []
| pieces_meet i piece l pieces : meet page i -> common_part page i piece -> pieces_of page l pieces -> pieces_of page (i :: l) (piece :: pieces)
| pieces_miss i l pieces : ~ meet page i -> pieces_of page l pieces -> pieces_of page (i :: l) pieces.
(** The one is empty and lies strictly inside the other: behind its first row and not behind its last one. *)
Definition empty_inside (a b : interval) : Prop := iv_length a = 0 /\ iv_start b < iv_start a < iv_start b + iv_length b.
