(** Model of /repo/src/types.rs: native values and their little-endian bytes. *)
From Verif Require Import Base.Prelude Model.Types.
Open Scope N_scope.

(** types.rs:42-47: the types implementing [NativeType]. *)
Inductive native := NI32 | NI64 | NF32 | NF64 | NI96.

(** types.rs:42-47. The values: integers are [Z]; floats are kept as their bit pattern; [[u32; 3]] is three words. *)
Definition carrier (t : native) : Type :=
  match t with
  | NI32 | NI64 => Z
  | NF32 | NF64 => N
  | NI96 => (N * N * N)%type
  end.

(** types.rs:21 and 50. [std::mem::size_of::<T>()]. *)
Definition native_size (t : native) : nat :=
  match t with NI32 | NF32 => 4 | NI64 | NF64 => 8 | NI96 => 12 end%nat.

(** types.rs:15, 37, 48 [TYPE]. *)
Definition native_physical (t : native) : physical_type :=
  match t with NI32 => Int32 | NI64 => Int64 | NF32 => Float | NF64 => Double | NI96 => Int96 end.

(** types.rs:42-47. Values that exist in Rust. *)
Definition native_ok (t : native) : carrier t -> Prop :=
  match t with
  | NI32 => fun z => (- 2 ^ 31 <= z < 2 ^ 31)%Z
  | NI64 => fun z => (- 2 ^ 63 <= z < 2 ^ 63)%Z
  | NF32 => fun b => b < 2 ^ 32
  | NF64 => fun b => b < 2 ^ 64
  | NI96 => fun v => let '(a, b, c) := v in a < 2 ^ 32 /\ b < 2 ^ 32 /\ c < 2 ^ 32
  end.

(** types.rs:23-25 and 52-70 [to_le_bytes]. *)
Definition native_to_le (t : native) : carrier t -> list N :=
  match t with
  | NI32 => fun z => to_le 4 (of_signed 32 z)
  | NI64 => fun z => to_le 8 (of_signed 64 z)
  | NF32 => fun b => to_le 4 b
  | NF64 => fun b => to_le 8 b
  | NI96 => fun v => let '(a, b, c) := v in to_le 4 a ++ to_le 4 b ++ to_le 4 c
  end.

(** types.rs:28-30 and 73-94 [from_le_bytes], on an array of exactly [native_size] bytes. *)
Definition native_from_le (t : native) (bytes : list N) : carrier t :=
  match t with
  | NI32 => to_signed 32 (le bytes)
  | NI64 => to_signed 64 (le bytes)
  | NF32 => le bytes
  | NF64 => le bytes
  | NI96 => (le (firstn 4 bytes), le (firstn 4 (skipn 4 bytes)), le (skipn 8 bytes))
  end.

(** types.rs:135-141 [decode]: [try_into] an array fails, and panics, unless the length is exact. *)
Definition native_decode (t : native) (chunk : list N) : res (carrier t) :=
  if (length chunk =? native_size t)%nat then Ok (native_from_le t chunk) else Panic.

(** types.rs:33-35. [f32::partial_cmp] / [f64::partial_cmp] on bit patterns (IEEE 754): unordered when either is a NaN,
    otherwise by signed magnitude, the two zeros being equal. [inf] is the pattern of +infinity. *)
Definition float_mag (w : N) (b : N) : N := b mod 2 ^ (w - 1).
(** types.rs:33-35: a NaN has a magnitude above that of infinity. *)
Definition float_nan (w inf b : N) : bool := inf <? float_mag w b.
(** types.rs:33-35: the sign-magnitude pattern as an integer that orders like the float. *)
Definition float_key (w b : N) : Z :=
  if b <? 2 ^ (w - 1) then Z.of_N (float_mag w b) else (- Z.of_N (float_mag w b))%Z.
(** types.rs:33-35 [partial_cmp]. *)
Definition float_partial_cmp (w inf a b : N) : option comparison :=
  if float_nan w inf a || float_nan w inf b then None
  else Some (float_key w a ?= float_key w b)%Z.
(** types.rs:33-35: the bits of [f32::INFINITY]. *)
Definition inf32 : N := 2139095040.            (* 0x7f800000 *)
(** types.rs:33-35: the bits of [f64::INFINITY]. *)
Definition inf64 : N := 9218868437227405312.   (* 0x7ff0000000000000 *)

(** types.rs:110-112 [int96_to_i64_ns], all in [i64]; the shift of line 109 drops the high bits. *)
Definition smul (m : mode) (w : N) (a b : Z) : res Z :=
  if in_s w (a * b) then Ok (a * b)%Z
  else match m with Checked => Panic | Wrapping => Ok (wrap_s w (a * b)) end.
(** types.rs:103-113 [int96_to_i64_ns]. *)
Definition int96_to_i64_ns (m : mode) (v : N * N * N) : res Z :=
  let '(v0, v1, v2) := v in
  let day := Z.of_N v2 in
  let* nanoseconds := sadd m 64 (wrap_s 64 (Z.of_N v1 * 2 ^ 32)) (Z.of_N v0) in
  let* d := ssub m 64 day 2440588 in
  let* seconds := smul m 64 d 86400 in
  let* ns := smul m 64 seconds 1000000000 in
  sadd m 64 ns nanoseconds.

(** types.rs:33-35 and 97-99 [ord]. *)
Definition native_ord (m : mode) (t : native) : carrier t -> carrier t -> res comparison :=
  match t with
  | NI32 => fun a b => Ok (a ?= b)%Z
  | NI64 => fun a b => Ok (a ?= b)%Z
  | NF32 => fun a b => Ok (match float_partial_cmp 32 inf32 a b with Some c => c | None => Eq end)
  | NF64 => fun a b => Ok (match float_partial_cmp 64 inf64 a b with Some c => c | None => Eq end)
  | NI96 => fun a b =>
      let* x := int96_to_i64_ns m a in
      let* y := int96_to_i64_ns m b in
      Ok (x ?= y)%Z
  end.

(** types.rs:125-131: the loop of [ord_binary]. *)
Fixpoint ord_zip (a b : list N) : comparison :=
  match a, b with
  | v1 :: a', v2 :: b' => match (v1 ?= v2) with Eq => ord_zip a' b' | other => other end
  | _, _ => Eq
  end.
(** types.rs:116-132 [ord_binary]. *)
Definition ord_binary (a b : list N) : comparison :=
  match a, b with
  | [], [] => Eq
  | [], _ => Lt
  | _, [] => Gt
  | _, _ => ord_zip a b
  end.

(** read/levels.rs:4 [get_bit_width] on the bit pattern of an [i16];
    [leading_zeros] of a 16-bit word [x] is [16 - N.size x]. *)
Definition leading_zeros16 (x : N) : N := 16 - N.size x.
(** read/levels.rs:3-5 [get_bit_width]. *)
Definition get_bit_width (max_level : Z) : N := 16 - leading_zeros16 (of_signed 16 max_level).
