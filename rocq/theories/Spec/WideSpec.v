(** What the hybrid decoder does with widths above 32 bits (up to 255 in a file). *)
From Verif Require Import Base.Prelude Spec.Bits Spec.UlebSpec Spec.RleSpec.
Open Scope N_scope.

(** [wide m w p vals data]: [data] holds the values [vals] at width [w]. [p = None]: all of it is read, and zeros are returned behind
    the last value. [p = Some k]: the decoder panics on the run behind the first [k]. Of the value of a run of repeated values only
    the four lowest bytes count. Bit-packed runs cannot be read unless they are empty. *)
Inductive wide (m : mode) (w : nat) : option nat -> list N -> list N -> Prop :=
| wd_nil : wide m w None [] []
| wd_header v h : varint v h -> wide m w None [] h
| wd_cut h : h <> [] -> (length h <= 9)%nat -> Forall (fun b => 128 <= b < 256) h -> wide m w None [] h
| wd_long init last rest :
    length init = 9%nat -> Forall (fun b => 128 <= b < 256) init -> 1 < last < 256 -> bytes_ok rest ->
    wide m w (Some 0%nat) [] (init ++ last :: rest)
| wd_short count h body :
    varint (2 * count) h -> bytes_ok body -> body <> [] -> (length body < ceil8 w)%nat -> wide m w (Some 0%nat) [] (h ++ body)
| wd_packed groups h body :
    varint (2 * groups + 1) h -> groups <> 0 -> (groups * N.of_nat w < 2 ^ 64 \/ m = Checked) -> bytes_ok body -> body <> [] ->
    wide m w (Some 0%nat) [] (h ++ body)
| wd_no_groups p h rest vals :
    varint 1 h -> rest <> [] -> wide m w p vals rest -> wide m w (option_map S p) vals (h ++ rest)
| wd_rle p count h body rest vals :
    varint (2 * N.of_nat count) h -> bytes_ok body -> length body = ceil8 w -> wide m w p vals rest ->
    wide m w (option_map S p) (repeat (le (firstn 4 body)) count ++ vals) (h ++ body ++ rest).

(** The values a decoder told to expect [n] gives before it stops or panics. *)
Definition wide_values (p : option nat) (vals : list N) (n : nat) : list N :=
  match p with None => firstn n (vals ++ repeat 0 n) | Some _ => firstn n vals end.
