(** Model of /repo/src/bloom_filter/: split-block bloom filters. The hash function (xxh64, bloom_filter/hash.rs) is
    outside the model: filters work on the 64-bit hashes. *)
From Verif Require Import Base.Prelude Base.Iter Model.Types.
Open Scope N_scope.

(** bloom_filter/split_block.rs:4-6 [SALT]. *)
Definition salt : list N :=
  [1203114875; 1150766481; 2284105051; 2729912477; 1884591559; 770785867; 2667333959; 1550580529].

(** bloom_filter/split_block.rs:8-13 [hash_to_block_index]; [as u32] truncates. *)
Definition hash_to_block_index (m : mode) (hash len : N) : res N :=
  let number_of_blocks := len / 32 in
  let low_hash := N.shiftr hash 32 in
  let* p := umul m 64 low_hash number_of_blocks in
  Ok (N.shiftr p 32 mod two32).

(** bloom_filter/split_block.rs:15-24 [new_mask], on a [u32]. *)
Definition new_mask (x : N) : list N :=
  map (fun s => N.shiftl 1 (N.shiftr ((x * s) mod two32) 27)) salt.

(** bloom_filter/split_block.rs:28-35 [load_block]: at most eight words, missing ones zero. *)
Definition load_block (bitset : list N) : list N :=
  let words := map le (firstn 8 (chunks_exact 4 bitset)) in
  words ++ repeat 0 (8 - length words).

(** bloom_filter/split_block.rs:39-48 [unload_block], on a slice of exactly 32 bytes (its only call, line 80, passes
    one), where all eight chunks are overwritten. *)
Definition unload_block (block : list N) : list N := flat_map (to_le 4) block.

(** bloom_filter/split_block.rs:56 and 73. [&bitset[start..start + 32]], and writing to that range. *)
Definition slice32 (start : N) (bitset : list N) : res (list N) :=
  if (start + 32 <=? nlen bitset) then Ok (firstn 32 (skipn (N.to_nat start) bitset)) else Panic.
(** bloom_filter/split_block.rs:79-80. *)
Definition write32 (start : N) (bytes bitset : list N) : res (list N) :=
  if (start + 32 <=? nlen bitset) then
    Ok (firstn (N.to_nat start) bitset ++ bytes ++ skipn (N.to_nat start + 32) bitset)
  else Panic.

(** bloom_filter/split_block.rs:59-63: the loop of [is_in_set]. *)
Fixpoint all_hit (mask block : list N) : bool :=
  match mask, block with
  | a :: mask', b :: block' => if N.land a b =? 0 then false else all_hit mask' block'
  | _, _ => true
  end.

(** bloom_filter/split_block.rs:51-65 [is_in_set]; [hash as u32] keeps the low half. *)
Definition is_in_set (m : mode) (bitset : list N) (hash : N) : res bool :=
  let* block_index := hash_to_block_index m hash (nlen bitset) in
  let key := hash mod two32 in
  let mask := new_mask key in
  let* slice := slice32 (block_index * 32) bitset in
  Ok (all_hit mask (load_block slice)).

(** bloom_filter/split_block.rs:76-81: the loop of [insert] over the word indices [is]; the whole block is stored
    again after each word. *)
Fixpoint insert_loop (is : list nat) (start : N) (mask block bitset : list N) : res (list N) :=
  match is with
  | [] => Ok bitset
  | i :: r =>
      let block' := firstn i block ++ N.lor (nth i block 0) (nth i mask 0) :: skipn (S i) block in
      let* bitset' := write32 start (unload_block block') bitset in
      insert_loop r start mask block' bitset'
  end.

(** bloom_filter/split_block.rs:68-82 [insert]. *)
Definition insert (m : mode) (bitset : list N) (hash : N) : res (list N) :=
  let* block_index := hash_to_block_index m hash (nlen bitset) in
  let key := hash mod two32 in
  let mask := new_mask key in
  let* slice := slice32 (block_index * 32) bitset in
  insert_loop (seq 0 8) (block_index * 32) mask (load_block slice) bitset.

(** bloom_filter/mod.rs:19-22 and 58-62, as in the tests there. A caller inserting a sequence of hashes. *)
Fixpoint insert_all (m : mode) (bitset : list N) (hashes : list N) : res (list N) :=
  match hashes with
  | [] => Ok bitset
  | h :: r => let* b := insert m bitset h in insert_all m b r
  end.

(** bloom_filter/read.rs:33-42: the fields of the thrift [BloomFilterHeader] used there: whether the algorithm is the
    split-block one and whether the bitset is uncompressed. *)
Record bloom_header := mk_bh { bh_num_bytes : Z; bh_block : bool; bh_uncompressed : bool }.

(** bloom_filter/read.rs:14-49 [read], on a source given by all its bytes; [decode] is the thrift decoder of the header
    and returns the bytes after it. Seeking past the end of a source is not an error, reading there finds no
    bytes. Failing allocations (line 46) are not modelled. *)
Definition bloom_read (decode : list N -> res (bloom_header * list N)) (offset : option Z)
  (source : list N) : res (list N) :=
  match offset with
  | None => Ok []
  | Some offset =>
      let offset := as_usize offset in
      let* (header, rest) := decode (skipn (N.to_nat offset) source) in
      if negb (bh_block header) then Ok []
      else if negb (bh_uncompressed header) then Ok []
      else
        let* length := try_usize (bh_num_bytes header) in
        Ok (firstn (N.to_nat length) rest)
  end.
