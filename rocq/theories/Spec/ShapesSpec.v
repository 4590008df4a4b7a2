(** What a stored column index says of the pages of a column. *)
From Verif Require Import Base.Prelude Model.Types Model.Thrift Model.Native Model.Schema Model.Indexes.
Open Scope N_scope.

(** Pages behind the end of the shortest of the lists are not described. *)
Definition pages_described (i : t_column_index) : nat :=
  let n := Nat.min (length (ci_min_values i)) (Nat.min (length (ci_max_values i)) (length (ci_null_pages i))) in
  match ci_null_counts i with Some l => Nat.min n (length l) | None => n end.

(** What is said of page [k]: how many nulls it has, if the index tells; and the bounds of its values, unless it has only nulls. *)
Definition described {A} (value : list N -> A) (i : t_column_index) (k : nat) (x : page_index A) : Prop :=
  exists mn mx all_null, nth_error (ci_min_values i) k = Some mn /\ nth_error (ci_max_values i) k = Some mx /\ nth_error (ci_null_pages i) k = Some all_null /\
    pi_null_count x = match ci_null_counts i with Some l => nth_error l k | None => None end /\
    pi_min x = (if (all_null : bool) then None else Some (value mn)) /\ pi_max x = (if (all_null : bool) then None else Some (value mx)).
Definition faithful {A} (value : list N -> A) (i : t_column_index) (pages : list (page_index A)) : Prop :=
  length pages = pages_described i /\ forall k x, nth_error pages k = Some x -> described value i k x.

(** The bytes of a bound have the size of the type; booleans have at least one byte. *)
Definition number_type (p : physical_type) : option native :=
  match p with Int32 => Some NI32 | Int64 => Some NI64 | Int96 => Some NI96 | Float => Some NF32 | Double => Some NF64 | _ => None end.
Definition bound_ok (p : physical_type) (b : list N) : Prop :=
  match number_type p with Some t => length b = native_size t | None => p = Boolean -> b <> [] end.
Definition bounds_ok (p : physical_type) (i : t_column_index) : Prop :=
  forall k mn mx, (k < pages_described i)%nat -> nth_error (ci_null_pages i) k = Some false ->
    nth_error (ci_min_values i) k = Some mn -> nth_error (ci_max_values i) k = Some mx -> bound_ok p mn /\ bound_ok p mx.

Definition index_says (i : t_column_index) (p : primitive_type) (x : index) : Prop :=
  match x with
  | IBool pages o => pt_physical p = Boolean /\ faithful (fun b => hd 0 b =? 1) i pages /\ boundary_order_to_thrift o = ci_boundary_order i
  | INative t p' pages o => number_type (pt_physical p) = Some t /\ p' = p /\ faithful (native_from_le t) i pages /\ boundary_order_to_thrift o = ci_boundary_order i
  | IBytes p' pages o => pt_physical p = ByteArray /\ p' = p /\ faithful (fun b => b) i pages /\ boundary_order_to_thrift o = ci_boundary_order i
  | IFixed p' pages o => (exists n, pt_physical p = FixedLenByteArray n) /\ p' = p /\ faithful (fun b => b) i pages /\ boundary_order_to_thrift o = ci_boundary_order i
  end.
