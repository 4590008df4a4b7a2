(** Split-block bloom filters, from the Parquet format's BloomFilter.md: the filter is a sequence of [z]
    blocks of eight 32-bit words; a hash addresses one bit in each word of one block. *)
From Verif Require Import Base.Prelude Spec.Bits.
Open Scope N_scope.

(** BloomFilter.md, the eight odd multipliers. *)
Definition bloom_salt (i : N) : N :=
  match i with
  | 0 => 0x47b6137b | 1 => 0x44974d91 | 2 => 0x8824ad5b | 3 => 0xa2b7289d
  | 4 => 0x705495c7 | 5 => 0x2df1424b | 6 => 0x9efc4947 | _ => 0x5c6bfb31
  end.

(** The block of a hash in a filter of [z] blocks: its high half scaled to [0, z). *)
Definition bloom_block (z hash : N) : N := (hash / 2 ^ 32 * z) / 2 ^ 32.

(** The bit addressed in word [i]: the top five bits of the low half times the multiplier. *)
Definition bloom_bit (hash i : N) : N := ((hash mod 2 ^ 32) * bloom_salt i) mod 2 ^ 32 / 2 ^ 27.

(** The eight bits of block [b] addressed by a hash, counted from the start of the filter. *)
Definition bloom_positions_in (b hash : N) : list N :=
  map (fun i => 256 * b + 32 * i + bloom_bit hash i) [0; 1; 2; 3; 4; 5; 6; 7].
Definition bloom_positions (z hash : N) : list N := bloom_positions_in (bloom_block z hash) hash.

(** Bit [k] of a filter, bytes least significant bit first. *)
Definition filter_bit (bitset : list N) (k : N) : bool := nth (N.to_nat k) (bit_stream bitset) false.
