(** Column indexes of any writer. *)
From Verif Require Import Base.Prelude Model.Types Model.Native Model.Thrift Model.Page Model.Io Model.Metadata Spec.PlainSpec Spec.ValuesSpec.
Open Scope N_scope.

(** The bytes of a bound. *)
Definition bound_bytes (k : kind) : value k -> list N -> Prop :=
  match k as k return value k -> list N -> Prop with
  | KNative t => fun v b => native_ok t v /\ b = native_to_le t v
  | KBinary => fun v b => b = v
  | KFixed _ => fun v b => b = v
  | KBoolean => fun v b => b = [if v then 1 else 0]
  end.
(** The index has an entry for each page, where [to v b] means that [b] are the bytes of the bound [v]. A page that is marked as null page has no bounds, whatever
    bytes there are in their place. *)
Inductive entries_say {A} (to : A -> list N -> Prop) : list bool -> list (list N) -> list (list N) -> list (option A * option A) -> Prop :=
| say_nil : entries_say to [] [] [] []
| say_null lo hi nulls los his bounds : entries_say to nulls los his bounds -> entries_say to (true :: nulls) (lo :: los) (hi :: his) ((None, None) :: bounds)
| say_bounds x y lo hi nulls los his bounds : to x lo -> to y hi -> entries_say to nulls los his bounds ->
    entries_say to (false :: nulls) (lo :: los) (hi :: his) ((Some x, Some y) :: bounds).
(** The metadata of the column says where its column index is, and this has these bounds for the pages. *)
Definition column_index_of (k : kind) (IX : thrift t_column_index) (file : list N) (c : column_md) (bounds : list (option (value k) * option (value k))) : Prop :=
  exists i before after,
    cc_column_index_offset (cmd_chunk c) = Some (Z.of_N (nlen before)) /\ cc_column_index_length (cmd_chunk c) = Some (Z.of_N (nlen (t_enc IX i))) /\
    file = before ++ t_enc IX i ++ after /\ reads_back IX (nlen (t_enc IX i) * 2 + 1024) i /\
    (0 <= ci_boundary_order i <= 2)%Z /\ (forall l, ci_null_counts i = Some l -> length l = length bounds) /\
    entries_say (bound_bytes k) (ci_null_pages i) (ci_min_values i) (ci_max_values i) bounds.
