(** Which annotations the crate accepts, for fixed lengths of any size. *)
From Verif Require Import Base.Prelude Model.Types Model.Schema Spec.SchemaSpec.
Open Scope N_scope.

(** As [decimal_on], but for fixed-length arrays: the length is taken as a signed number of 32 bits, has to be between 1 and [2^28 - 1], and from 129
    on any number of digits is taken to fit. *)
Definition decimal_accepted (precision scale : N) (t : physical_type) : Prop :=
  match t with
  | FixedLenByteArray n => 1 <= precision /\ scale <= precision /\ (1 <= as_i32 n < 2 ^ 28)%Z /\
      ((129 <= as_i32 n)%Z \/ 10 ^ precision <= 2 ^ (8 * Z.to_N (as_i32 n) - 1))
  | _ => decimal_on precision scale t
  end.
Definition converted_accepted (c : primitive_converted) (t : physical_type) : Prop :=
  match c with CDecimal p s => decimal_accepted p s t | _ => converted_on c t end.
Definition logical_accepted (l : primitive_logical) (t : physical_type) : Prop :=
  match l with LDecimal p s => decimal_accepted p s t | _ => logical_on l t end.
Definition annotations_accepted (t : physical_type) (c : option primitive_converted) (l : option primitive_logical) : Prop :=
  on_some (fun c => converted_accepted c t) c /\ on_some (fun l => logical_accepted l t) l.
