(** Iterators and their estimates. *)
From Verif Require Import Base.Prelude Model.Estimates.

(** An estimate is what the standard library asks for: never less than the number of items that are left. *)
Definition lawful {A} (it : estimated A) : Prop :=
  forall calls n, es_upper it calls = Some n -> (length (es_items it) - calls <= n)%nat.
(** An exact estimate. *)
Definition exact {A} (it : estimated A) : Prop :=
  forall calls, es_upper it calls = Some (length (es_items it) - calls)%nat.
