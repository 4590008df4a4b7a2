(** Model of the encoders of /repo/src/encoding/ for iterators whose [size_hint] is not exact. The definitions in Model/HybridRle.v and
    Model/DeltaBitpacked.v are those for exact ones. *)
From Verif Require Import Base.Prelude Base.Iter Model.Uleb128 Model.Bitpacked Model.HybridRle Model.DeltaBitpacked.
Open Scope N_scope.

(** encoding/hybrid_rle/encoder.rs:9, 75, encoding/delta_bitpacked/encoder.rs:11: the iterator that is passed. It returns [es_items] and then [None]
    for ever; [es_upper k] is [size_hint().1] after [k] calls of [next]. *)
Record estimated (A : Type) := mk_es { es_items : list A; es_upper : nat -> option nat }.
Arguments mk_es {A}. Arguments es_items {A}. Arguments es_upper {A}.

(** encoding/hybrid_rle/encoder.rs:16, 39, 80, encoding/hybrid_rle/bitmap.rs:76, encoding/delta_bitpacked/encoder.rs:22, 33, 48, 49: [size_hint().1.unwrap()]. *)
Definition upper {A} (it : estimated A) (calls : nat) : res nat :=
  match es_upper it calls with Some n => Ok n | None => Panic end.

(** encoding/hybrid_rle/encoder.rs:33-72 [bitpacked_encode_u32], with the upper bound [len]. *)
Definition bitpacked_encode_u32_est (w len : nat) (items : list N) : res (list N) :=
  let chunks := (len / 32)%nat in
  let remainder := (len - chunks * 32)%nat in
  let* (out, items, buffer) := bp_u32_chunks w chunks items (repeat 0 32) in
  if (remainder =? 0)%nat then Ok out
  else
    let items := firstn remainder items in
    let buffer := items ++ skipn (length items) buffer in
    let* packed := encode_pack 4 buffer w (repeat 0 128) in
    let* last := slice_to (ceil8 (remainder * w)) packed in
    Ok (out ++ last).
(** encoding/hybrid_rle/encoder.rs:9-29 [encode_u32]. *)
Definition encode_u32_est (it : estimated N) (num_bits : N) : res (list N) :=
  let* len := upper it 0 in
  let* header := bitpacked_header len in
  let* body := bitpacked_encode_u32_est (N.to_nat (num_bits mod 256)) len (es_items it) in
  Ok (header ++ body).

(** encoding/hybrid_rle/bitmap.rs:71-102 [encode_bool], with the upper bound [len]. *)
Definition bitmap_encode_est (len : nat) (items : list bool) : res (list N) :=
  let chunks := (len / 8)%nat in
  let reminder := (len mod 8)%nat in
  let* (out, rest) := bool_chunks chunks items in
  if (reminder =? 0)%nat then Ok out
  else
    let* last := bool_byte 0 0 rest in
    Ok (out ++ [last]).
(** encoding/hybrid_rle/encoder.rs:75-93 [encode_bool]. *)
Definition encode_bool_est (it : estimated bool) : res (list N) :=
  let* len := upper it 0 in
  let* header := bitpacked_header len in
  let* body := bitmap_encode_est len (es_items it) in
  Ok (header ++ body).

(** encoding/delta_bitpacked/encoder.rs:39: the calls of [next] that [(0..128).zip(&mut iterator)] makes when [items] are left. *)
Definition zip_calls (items : list Z) : nat := if (length items <? 128)%nat then S (length items) else 128%nat.

(** encoding/delta_bitpacked/encoder.rs:35-63, the loop over blocks, after [calls] calls of [next]; [len] is [length], and the arrays [values] and [deltas] keep
    their contents from block to block. The loop may not end: [None] is the state after [fuel] blocks. *)
Fixpoint enc_blocks_est (m : mode) (fuel : nat) (it : estimated Z) (calls : nat) (prev : Z) (items : list Z) (len : nat) (values : list Z) (deltas : list N)
  : option (res (list N)) :=
  match len with
  | O => Some (Ok [])
  | _ =>
      match fuel with
      | O => None
      | S f =>
          let calls' := (calls + zip_calls items)%nat in
          let block :=
            let* (mn, nb, vs, prev) := enc_scan m prev i64_max i64_min 0 (firstn 128 items) in
            let values := vs ++ skipn (length vs) values in
            let* len' := upper it calls' in
            let* taken := usub m 64 (N.of_nat len) (N.of_nat len') in
            let consumed := N.to_nat (N.min taken 128) in
            let* rel := enc_rel m mn (firstn consumed values) in
            let deltas := rel ++ skipn (length rel) deltas in
            let* head := zigzag_bytes mn in
            let* body := write_miniblock nb deltas in
            Ok (head ++ [nb mod 256] ++ body, prev, len', values, deltas) in
          match block with
          | Panic => Some Panic
          | Err e => Some (Err e)
          | Ok (bytes, prev, len', values, deltas) =>
              match enc_blocks_est m f it calls' prev (skipn 128 items) len' values deltas with
              | None => None
              | Some r => Some (let* rest := r in Ok (bytes ++ rest))
              end
          end
      end
  end.

(** encoding/delta_bitpacked/encoder.rs:11-64 [encode]. *)
Definition delta_encode_est (m : mode) (fuel : nat) (it : estimated Z) : option (res (list N)) :=
  let start :=
    let* h1 := uleb_bytes 128 in
    let* h2 := uleb_bytes 1 in
    let* len := upper it 0 in
    let* h3 := uleb_bytes (N.of_nat len) in
    let first_value := match es_items it with [] => 0%Z | x :: _ => x end in
    let* h4 := zigzag_bytes first_value in
    let* len := upper it 1 in
    Ok (h1 ++ h2 ++ h3 ++ h4, first_value, len) in
  match start with
  | Panic => Some Panic
  | Err e => Some (Err e)
  | Ok (header, first_value, len) =>
      match enc_blocks_est m fuel it 1 first_value (skipn 1 (es_items it)) len (repeat 0%Z 128) (repeat 0 128) with
      | None => None
      | Some r => Some (let* body := r in Ok (header ++ body))
      end
  end.
