(** Model of /repo/src/bloom_filter/hash.rs: the hashes of values. [xxh64] with the seed 0 is another crate and a parameter. *)
From Verif Require Import Base.Prelude Model.Types Model.Native.
Open Scope N_scope.

(** bloom_filter/hash.rs:9-11 [hash_native]. *)
Definition hash_native (xxh64 : list N -> N) (t : native) (value : carrier t) : N := xxh64 (native_to_le t value).
(** bloom_filter/hash.rs:15-17 [hash_byte]. *)
Definition hash_byte (xxh64 : list N -> N) (value : list N) : N := xxh64 value.

(** bloom_filter/hash.rs:9 and 15: what a caller can hash: a native value, or bytes. *)
Inductive hashable := HNative (t : native) (value : carrier t) | HBytes (value : list N).
(** bloom_filter/hash.rs:9-17. *)
Definition hash_value (xxh64 : list N -> N) (v : hashable) : N :=
  match v with HNative t x => hash_native xxh64 t x | HBytes b => hash_byte xxh64 b end.
