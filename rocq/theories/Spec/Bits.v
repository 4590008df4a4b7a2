(** The LSB-first bit layout of the Parquet format: byte strings as bit streams. *)
From Verif Require Import Base.Prelude.

(** The [w] low bits of [v], least significant first. *)
Definition lsb_bits (w : nat) (v : N) : list bool :=
  map (fun i => N.testbit v (N.of_nat i)) (seq 0 w).

(** A byte string as a stream of bits, each byte least significant bit first. *)
Definition bit_stream (l : list N) : list bool := flat_map (lsb_bits 8) l.

(** The number whose bits, least significant first, are the given ones. *)
Fixpoint bits_val (bs : list bool) : N :=
  match bs with
  | [] => 0
  | b :: r => (if b then 1 else 0) + 2 * bits_val r
  end%N.

(** Bits [i*w, (i+1)*w) of a byte string, as a number. *)
Definition bit_field (w i : nat) (l : list N) : N :=
  bits_val (firstn w (skipn (i * w) (bit_stream l))).

(** [v] fits in [w] bits. *)
Definition fits (w : nat) (v : N) : Prop := (v < 2 ^ N.of_nat w)%N.
