(** Definition levels of optional columns, selections of rows, and how a reader uses runs of levels. *)
From Verif Require Import Base.Prelude Spec.Bits Model.Intervals Model.Deserialize.

(** The items at the given positions of a list. *)
Definition pick {A} (l : list A) (positions : list nat) : list A :=
  flat_map (fun r => match nth_error l r with Some a => [a] | None => [] end) positions.

(** The levels a run stands for: the first bits of a bitmap, or one level repeated. *)
Definition run_levels (r : level_run) : list bool :=
  match r with
  | RBitmap bytes n => firstn (N.to_nat n) (bit_stream bytes)
  | RRepeated b n => repeat b (N.to_nat n)
  end.
(** A bitmap has at least as many bits as the run has items; lengths are 64-bit. *)
Definition run_ok (r : level_run) : Prop :=
  (run_len r < 2 ^ 64)%N /\
  match r with RBitmap bytes n => (N.to_nat n <= 8 * length bytes)%nat | RRepeated _ _ => True end.

Fixpoint count_true (l : list bool) : nat :=
  match l with [] => 0 | b :: r => (if b then 1 else 0) + count_true r end.

(** Only non-null values are stored. A reader that has used [c] stored values gives each set level the next
    stored value (by its position in the stored values) and each unset level a null. *)
Fixpoint assign (c : nat) (levels : list bool) : list (option nat) :=
  match levels with
  | [] => []
  | true :: r => Some c :: assign (S c) r
  | false :: r => None :: assign c r
  end.

(** The same over filtered runs; a skip moves past stored values without using them. *)
Definition filtered_levels (r : filtered_run) : list bool :=
  match r with
  | FBitmap bytes offset n => firstn (N.to_nat n) (skipn (N.to_nat offset) (bit_stream bytes))
  | FRepeated b n => repeat b (N.to_nat n)
  | FSkipped _ => []
  end.
Fixpoint assign_filtered (c : nat) (runs : list filtered_run) : list (option nat) :=
  match runs with
  | [] => []
  | FSkipped k :: r => assign_filtered (c + N.to_nat k) r
  | x :: r => assign c (filtered_levels x) ++ assign_filtered (c + count_true (filtered_levels x)) r
  end.

(** How many stored values a reader of filtered runs has moved past: those it was told to skip and those it used. *)
Fixpoint moved_past (runs : list filtered_run) : nat :=
  match runs with
  | [] => 0
  | FSkipped k :: r => N.to_nat k + moved_past r
  | x :: r => count_true (filtered_levels x) + moved_past r
  end.

(** Optional values: the next value for each set level, null otherwise. *)
Fixpoint pair_values {A} (levels : list bool) (values : list A) : list (option A) :=
  match levels with
  | [] => []
  | false :: r => None :: pair_values r values
  | true :: r =>
      match values with
      | [] => None :: pair_values r []
      | v :: vs => Some v :: pair_values r vs
      end
  end.
