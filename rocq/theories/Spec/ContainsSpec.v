(** Schema containment when names repeat. *)
From Verif Require Import Base.Prelude Model.Types Model.Schema.
Open Scope N_scope.

(** The schema [sub] selects from [self], where of several fields with one name in a group only the last one counts. *)
Inductive contained_last : parquet_type -> parquet_type -> Prop :=
| contained_last_primitive p q : pt_info p = pt_info q -> pt_physical p = pt_physical q -> contained_last (Primitive q) (Primitive p)
| contained_last_group i l c fields i' l' c' others :
    (forall f, In f others -> exists before g after, fields = before ++ g :: after /\ type_name g = type_name f /\
       (forall h, In h after -> type_name h <> type_name f) /\ contained_last f g) ->
    contained_last (Group i' l' c' others) (Group i l c fields).
