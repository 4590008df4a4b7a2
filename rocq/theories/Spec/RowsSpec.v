(** Rows, row intervals and how pages divide the rows of a row group. *)
From Verif Require Import Base.Prelude Model.Intervals Model.Thrift.

(** The rows of an interval and of a sequence of intervals, in order, with repetitions. *)
Definition rows (i : interval) : list nat := seq (N.to_nat (iv_start i)) (N.to_nat (iv_length i)).
Definition rows_of (l : list interval) : list nat := concat (map rows l).

(** Sorted by start, no overlap. *)
Fixpoint sorted_disjoint_from (p : nat) (l : list interval) : Prop :=
  match l with
  | [] => True
  | i :: r => (p <= N.to_nat (iv_start i))%nat /\
              sorted_disjoint_from (N.to_nat (iv_start i) + N.to_nat (iv_length i)) r
  end.
Definition sorted_disjoint (l : list interval) : Prop := sorted_disjoint_from 0 l.

Definition non_empty (i : interval) : Prop := (0 < iv_length i)%N.

(** Machine-size intervals: start plus length fits in 64 bits. *)
Definition iv_ok (i : interval) : Prop := (iv_start i + iv_length i < 2 ^ 64)%N.

(** Page locations whose first rows start non-negative, never decrease and end within [num_rows]. *)
Fixpoint first_rows_ok (p : Z) (l : list t_page_location) (num_rows : N) : Prop :=
  match l with
  | [] => (p <= Z.of_N num_rows)%Z
  | a :: r => (p <= loc_first_row a)%Z /\ first_rows_ok (loc_first_row a) r num_rows
  end.

(** Each page starts at its first row and ends where the next one starts; the last ends at [num_rows]. *)
Fixpoint pages_of (l : list t_page_location) (num_rows : N) : list (Z * Z) :=
  match l with
  | [] => []
  | a :: r =>
      (loc_first_row a, match r with [] => Z.of_N num_rows | b :: _ => loc_first_row b end) :: pages_of r num_rows
  end.
Definition iv_bounds (i : interval) : Z * Z := (Z.of_N (iv_start i), Z.of_N (iv_start i) + Z.of_N (iv_length i))%Z.
(** First rows that are 64-bit signed integers, as in the file. *)
Definition locs_ok (l : list t_page_location) : Prop :=
  Forall (fun x => - 2 ^ 63 <= loc_first_row x < 2 ^ 63)%Z l.
