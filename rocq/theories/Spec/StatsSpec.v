(** What statistics of several pages together should say. *)
From Verif Require Import Base.Prelude Model.Types Model.Native Model.Statistics Spec.PlainSpec.

(** The known ones among optional values. *)
Definition known {A} (l : list (option A)) : list A :=
  flat_map (fun o => match o with Some a => [a] | None => [] end) l.

(** [o] is an extreme element of [l] for [le] (the least one when [le] is an order, the greatest one when it
    is the reverse order); there is none exactly when [l] is empty. *)
Definition extreme {A} (le : A -> A -> Prop) (l : list A) (o : option A) : Prop :=
  match o with
  | None => l = []
  | Some v => In v l /\ Forall (le v) l
  end.

(** The sum of the known counts, if any is known. *)
Definition sum_Z (l : list Z) : Z := fold_right Z.add 0%Z l.
Definition known_sum (l : list (option Z)) : option Z :=
  match known l with [] => None | k => Some (sum_Z k) end.

(** The order on booleans: false before true. *)
Definition bool_le (a b : bool) : Prop := a = true -> b = true.

(** Statistics that can belong to a column of the given primitive type. *)
Definition all_opt {A} (P : A -> Prop) (o : option A) : Prop := match o with Some a => P a | None => True end.
Definition stats_of_type (p : primitive_type) (s : statistics) : Prop :=
  match s with
  | SBool _ => pt_physical p = Boolean
  | SNative t p' s => p' = p /\ native_physical t = pt_physical p /\
      all_opt (native_ok t) (st_min s) /\ all_opt (native_ok t) (st_max s)
  | SBinary p' _ => p' = p /\ pt_physical p = ByteArray
  | SFixed p' s => p' = p /\ exists n, pt_physical p = FixedLenByteArray n /\
      all_opt (fun v => nlen v = n) (st_min s) /\ all_opt (fun v => nlen v = n) (st_max s)
  end.
