(** What a bloom filter over values should mean. *)
From Verif Require Import Base.Prelude Model.Native Model.BloomValues.
Open Scope N_scope.

(** The bytes of a value in the PLAIN encoding, from the format: two's complement integers, floats by their bits and three words, all least
    significant byte first; strings without their length. *)
Inductive plain_value : hashable -> list N -> Prop :=
| pv_int32 (z : Z) b : length b = 4%nat -> bytes_ok b -> Z.of_N (le b) = (z mod 2 ^ 32)%Z -> plain_value (HNative NI32 z) b
| pv_int64 (z : Z) b : length b = 8%nat -> bytes_ok b -> Z.of_N (le b) = (z mod 2 ^ 64)%Z -> plain_value (HNative NI64 z) b
| pv_float (x : N) b : length b = 4%nat -> bytes_ok b -> le b = x -> plain_value (HNative NF32 x) b
| pv_double (x : N) b : length b = 8%nat -> bytes_ok b -> le b = x -> plain_value (HNative NF64 x) b
| pv_int96 (x y z : N) b : length b = 12%nat -> bytes_ok b -> le b = x + 2 ^ 32 * y + 2 ^ 64 * z -> plain_value (HNative NI96 (x, y, z)) b
| pv_bytes b : bytes_ok b -> plain_value (HBytes b) b.

(** The value exists in Rust: native values have their width, bytes are bytes. *)
Definition value_exists (v : hashable) : Prop := match v with HNative t x => native_ok t x | HBytes b => bytes_ok b end.
