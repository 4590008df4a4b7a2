(** When packing into a buffer of a given size panics, and how many values it packs. *)
From Verif Require Import Base.Prelude.

(** Values are packed in blocks of [8 * B] (the bits of the type), each taking [w * B] bytes. The last block is ragged when the
    number of values is not a multiple of [8 * B]. *)
Definition block_values (B : nat) : nat := 8 * B.
Definition block_bytes (B w : nat) : nat := w * B.
Definition ragged (B count : nat) : Prop := count mod block_values B <> 0.
Definition blocks (B count : nat) : nat := (count + block_values B - 1) / block_values B.

(** Packing [count] values of [w] bits into [room] bytes panics. *)
Definition packing_panics (B w count room : nat) : Prop :=
  w = 0 \/
  (count <> 0 /\ room <> 0 /\
   ((block_values B < w /\ (ragged B count \/ block_bytes B w <= room)) \/
    (w <= block_values B /\ ragged B count /\ room < blocks B count * block_bytes B w /\ room mod block_bytes B w <> 0))).

(** The number of values that have room: those of the blocks that fit entirely. *)
Definition values_with_room (B w count room : nat) : nat := Nat.min count (room / block_bytes B w * block_values B).
