(** The RLE/bit-packing hybrid of the Parquet format, written from the format's grammar:
      run            := rle-run | bit-packed-run
      bit-packed-run := varint(groups << 1 | 1) bit-packed-values     (8 * groups values)
      rle-run        := varint(count << 1) repeated-value             (value in ceil(w/8) bytes) *)
From Verif Require Import Base.Prelude Spec.Bits Spec.UlebSpec.
Open Scope N_scope.

(** [h] is a varint for [v]: continuation bytes, then a byte below 128. Not necessarily minimal. *)
Definition varint (v : N) (h : list N) : Prop :=
  v < 2 ^ 64 /\ (length h <= 10)%nat /\ base128 h = v /\
  exists init last, h = init ++ [last] /\ Forall (fun b => 128 <= b < 256) init /\ last < 128.

Inductive run :=
| RleRun (count : nat) (value : N)
| PackedRun (values : list N).

Definition run_values (r : run) : list N :=
  match r with
  | RleRun count v => repeat v count
  | PackedRun vs => vs
  end.

(** [conforming w runs bytes]: [bytes] is a layout of [runs] at bit width [w]. *)
Inductive conforming (w : nat) : list run -> list N -> Prop :=
| conf_nil : conforming w [] []
| conf_rle count v h body rest runs :
    varint (2 * N.of_nat count) h ->
    fits w v -> bytes_ok body -> length body = ceil8 w -> le body = v ->
    conforming w runs rest ->
    conforming w (RleRun count v :: runs) (h ++ body ++ rest)
| conf_packed groups vs h body rest runs :
    varint (2 * N.of_nat groups + 1) h ->
    length vs = (8 * groups)%nat -> Forall (fits w) vs ->
    bytes_ok body -> length body = (groups * w)%nat -> bit_stream body = flat_map (lsb_bits w) vs ->
    conforming w runs rest ->
    conforming w (PackedRun vs :: runs) (h ++ body ++ rest).

(** What can be read from bytes that need not conform: a buffer may end right after a header or inside
    one (of at most 9 bytes); a bit-packed run may be cut short by the end of the buffer, and then holds
    as many values as fit completely. Values of RLE runs must be complete. *)
Inductive readable (w : nat) : list N -> list N -> Prop :=
| rb_nil : readable w [] []
| rb_header v h : varint v h -> readable w [] h
| rb_cut h : h <> [] -> (length h <= 9)%nat -> Forall (fun b => 128 <= b < 256) h -> readable w [] h
| rb_rle count h body rest vals :
    varint (2 * N.of_nat count) h ->
    bytes_ok body -> length body = ceil8 w ->
    readable w vals rest ->
    readable w (repeat (le body) count ++ vals) (h ++ body ++ rest)
| rb_packed groups h body rest vals :
    varint (2 * groups + 1) h -> groups * N.of_nat w < 2 ^ 64 ->
    bytes_ok body -> body ++ rest <> [] ->
    nlen body = N.min (groups * N.of_nat w) (nlen (body ++ rest)) ->
    readable w vals rest ->
    readable w (map (fun i => bit_field w i body) (seq 0 (8 * length body / w)) ++ vals) (h ++ body ++ rest).

(** Bytes on which the decoder aborts, with what it returns before: [broken m w runs vals data] when
    [data] starts with [runs] complete runs holding [vals], and then comes a header of more than 64 bits,
    an RLE run whose value is cut by the end of the buffer, or (in builds with overflow checks) a
    bit-packed run announcing 2^64 bytes or more. *)
Inductive broken (m : mode) (w : nat) : nat -> list N -> list N -> Prop :=
| bk_header init last rest :
    length init = 9%nat -> Forall (fun b => 128 <= b < 256) init -> 1 < last < 256 -> bytes_ok rest ->
    broken m w 0 [] (init ++ last :: rest)
| bk_value count h body :
    varint (2 * count) h -> bytes_ok body -> body <> [] -> (length body < ceil8 w)%nat ->
    broken m w 0 [] (h ++ body)
| bk_groups groups h body :
    m = Checked -> varint (2 * groups + 1) h -> bytes_ok body -> body <> [] -> 2 ^ 64 <= groups * N.of_nat w ->
    broken m w 0 [] (h ++ body)
| bk_after_rle count h body rest runs vals :
    varint (2 * N.of_nat count) h -> bytes_ok body -> length body = ceil8 w ->
    broken m w runs vals rest ->
    broken m w (S runs) (repeat (le body) count ++ vals) (h ++ body ++ rest)
| bk_after_packed groups h body rest runs vals :
    varint (2 * groups + 1) h -> groups * N.of_nat w < 2 ^ 64 -> bytes_ok body ->
    nlen body = groups * N.of_nat w ->
    broken m w runs vals rest ->
    broken m w (S runs) (map (fun i => bit_field w i body) (seq 0 (8 * length body / w)) ++ vals)
      (h ++ body ++ rest).
