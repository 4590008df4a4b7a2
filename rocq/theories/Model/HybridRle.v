(** Model of /repo/src/encoding/hybrid_rle/. *)
From Verif Require Import Base.Prelude Base.Iter Model.Uleb128 Model.Bitpacked.
Open Scope N_scope.

(** encoding/hybrid_rle/mod.rs:13-21 [HybridEncoded]. *)
Inductive hybrid_encoded :=
| HBitpacked (packed : list N)
| HRle (pack : list N) (additional : N).

(** encoding/hybrid_rle/decoder.rs:7-11 [Decoder]. *)
Record rle_decoder := mk_rle { rd_values : list N; rd_num_bits : nat }.

(** encoding/hybrid_rle/decoder.rs:30-64 [Decoder::next]. An [Err] would be an item [Some(Err(..))]; [uleb128::decode]
    never returns one. [(indicator as usize >> 1) * num_bits] is a [usize] product. *)
Definition rle_next (m : mode) (d : rle_decoder) : res (option hybrid_encoded * rle_decoder) :=
  let w := rd_num_bits d in
  if (w =? 0)%nat then Ok (None, d)
  else
    match rd_values d with
    | [] => Ok (None, d)
    | _ =>
        let* (indicator, consumed) := uleb_decode (rd_values d) in
        let* values := slice_from consumed (rd_values d) in
        match values with
        | [] => Ok (None, mk_rle [] w)
        | _ =>
            if N.land indicator 1 =? 1 then
              let* bytes := umul m 64 (N.shiftr indicator 1) (N.of_nat w) in
              let bytes := N.min bytes (nlen values) in
              let* (result, remaining) := split_at (N.to_nat bytes) values in
              Ok (Some (HBitpacked result), mk_rle remaining w)
            else
              let run_length := N.shiftr indicator 1 in
              let* (result, remaining) := split_at (ceil8 w) values in
              Ok (Some (HRle result run_length), mk_rle remaining w)
        end
    end.

(** encoding/hybrid_rle/mod.rs:23-31 [State]; [SRle v n] is [repeat(v).take(n)]. *)
Inductive hr_state :=
| SNone
| SBitpacked (d : bp_decoder)
| SRle (value : N) (n : N)
| SSingle (v : option N).

(** encoding/hybrid_rle/mod.rs:33-39 [HybridRleDecoder]. *)
Record hr_decoder := mk_hr {
  hr_decoder_ : rle_decoder;
  hr_st : hr_state;
  hr_remaining : N
}.

(** encoding/hybrid_rle/mod.rs:51-55: the first four bytes of [pack] as a little-endian u32 (missing bytes are zero). *)
Definition rle_value (pack : list N) : N := le (firstn 4 pack).

(** encoding/hybrid_rle/mod.rs:42-64 [read_next]. *)
Definition read_next (m : mode) (d : rle_decoder) (remaining : N) : res (hr_state * rle_decoder) :=
  let* (o, d) := rle_next m d in
  match o with
  | Some (HBitpacked packed) =>
      let w := rd_num_bits d in
      let len := N.min (nlen packed * 8 / N.of_nat w) remaining in
      let* dec := bp_try_new m 4 packed w len in
      Ok (SBitpacked dec, d)
  | Some (HRle pack additional) =>
      let value := rle_value pack in
      if additional =? 1 then Ok (SSingle (Some value), d) else Ok (SRle value additional, d)
  | None => Ok (SNone, d)
  end.

(** encoding/hybrid_rle/mod.rs:68-77 [HybridRleDecoder::try_new]. *)
Definition hr_try_new (m : mode) (data : list N) (w : nat) (num_values : N) : res hr_decoder :=
  let* (state, d) := read_next m (mk_rle data w) num_values in
  Ok (mk_hr d state num_values).

(** encoding/hybrid_rle/mod.rs:87-96: one step of the current run. *)
Definition state_next (s : hr_state) : res (option N * hr_state) :=
  match s with
  | SSingle o => Ok (o, SSingle None)
  | SBitpacked d => let* (o, d') := bp_next 4 d in Ok (o, SBitpacked d')
  | SRle v n => if n =? 0 then Ok (None, SRle v 0) else Ok (Some v, SRle v (n - 1))
  | SNone => Ok (Some 0, SNone)
  end.

(** encoding/hybrid_rle/mod.rs:83-109 [next]: when the current run is exhausted the next one is read and [next] calls
    itself. The fuel bounds that recursion; [hr_next] starts it with more than it can need (each
    recursion consumes input), and running out would be a panic, which the theorems exclude. *)
Fixpoint hr_next_go (m : mode) (fuel : nat) (s : hr_decoder) : res (option N * hr_decoder) :=
  match fuel with
  | O => Panic
  | S f =>
      if hr_remaining s =? 0 then Ok (None, s)
      else
        let* (o, st') := state_next (hr_st s) in
        match o with
        | Some v => Ok (Some v, mk_hr (hr_decoder_ s) st' (hr_remaining s - 1))
        | None =>
            let* (st', d) := read_next m (hr_decoder_ s) (hr_remaining s) in
            hr_next_go m f (mk_hr d st' (hr_remaining s))
        end
  end.
(** encoding/hybrid_rle/mod.rs:83-109. *)
Definition hr_next (m : mode) (s : hr_decoder) : res (option N * hr_decoder) :=
  hr_next_go m (length (rd_values (hr_decoder_ s)) + 2) s.

(** encoding/hybrid_rle/mod.rs:111-113 [size_hint]. *)
Definition hr_size_hint (s : hr_decoder) : N := hr_remaining s.

(** encoding/hybrid_rle/encoder.rs:47-57 [bitpacked_encode_u32]: the loop over full blocks of 32. The array [buffer] is
    kept from block to block. The iterator is a list whose [size_hint] is its length. *)
Fixpoint bp_u32_chunks (w : nat) (chunks : nat) (items buffer : list N) : res (list N * list N * list N) :=
  match chunks with
  | O => Ok ([], items, buffer)
  | S k =>
      let buffer := firstn 32 items ++ skipn (length (firstn 32 items)) buffer in
      let* packed := encode_pack 4 buffer w (repeat 0 128) in
      let* out := slice_to (ceil8 (32 * w)) packed in
      let* (rest, items, buffer) := bp_u32_chunks w k (skipn 32 items) buffer in
      Ok (out ++ rest, items, buffer)
  end.

(** encoding/hybrid_rle/encoder.rs:33-72. *)
Definition bitpacked_encode_u32 (w : nat) (items : list N) : res (list N) :=
  let len := length items in
  let chunks := (len / 32)%nat in
  let remainder := (len - chunks * 32)%nat in
  let* (out, items, buffer) := bp_u32_chunks w chunks items (repeat 0 32) in
  if (remainder =? 0)%nat then Ok out
  else
    let items := firstn remainder items in
    let buffer := items ++ skipn (length items) buffer in
    let* packed := encode_pack 4 buffer w (repeat 0 128) in
    let* last := slice_to (ceil8 (remainder * w)) packed in
    Ok (out ++ last).

(** encoding/hybrid_rle/encoder.rs:15-24, 79-89: the run header. *)
Definition bitpacked_header (len : nat) : res (list N) :=
  uleb_bytes (N.lor (N.shiftl (N.of_nat (ceil8 len)) 1 mod two64) 1).

(** encoding/hybrid_rle/encoder.rs:9-29 [encode_u32]; [num_bits as u8] truncates. *)
Definition encode_u32 (items : list N) (num_bits : N) : res (list N) :=
  let* header := bitpacked_header (length items) in
  let* body := bitpacked_encode_u32 (N.to_nat (num_bits mod 256)) items in
  Ok (header ++ body).

(** encoding/hybrid_rle/bitmap.rs:3 [BIT_MASK]. *)
Definition bit_mask (i : nat) : res N :=
  match nth_error [1; 2; 4; 8; 16; 32; 64; 128] i with Some v => Ok v | None => Panic end.
(** encoding/hybrid_rle/bitmap.rs:7-9 [set]. *)
Definition set_bit (byte : N) (i : nat) : res N :=
  let* mk := bit_mask i in Ok (N.lor byte mk).

(** encoding/hybrid_rle/bitmap.rs:82-87, 92-97: fold the booleans into a byte. *)
Fixpoint bool_byte (i : nat) (byte : N) (items : list bool) : res N :=
  match items with
  | [] => Ok byte
  | v :: r =>
      let* byte := (if v then set_bit byte i else Ok byte) in
      bool_byte (S i) byte r
  end.

(** encoding/hybrid_rle/bitmap.rs:81-89: full bytes; [iterator.next().unwrap()] panics when the items run out. *)
Fixpoint bool_chunks (k : nat) (items : list bool) : res (list N * list bool) :=
  match k with
  | O => Ok ([], items)
  | S k =>
      if (length items <? 8)%nat then Panic
      else
        let* b := bool_byte 0 0 (firstn 8 items) in
        let* (rest, items) := bool_chunks k (skipn 8 items) in
        Ok (b :: rest, items)
  end.

(** encoding/hybrid_rle/bitmap.rs:71-102 [encode_bool] (exported as [bitpacked_encode]). *)
Definition bitmap_encode (items : list bool) : res (list N) :=
  let len := length items in
  let chunks := (len / 8)%nat in
  let reminder := (len mod 8)%nat in
  let* (out, rest) := bool_chunks chunks items in
  if (reminder =? 0)%nat then Ok out
  else
    let* last := bool_byte 0 0 rest in
    Ok (out ++ [last]).

(** encoding/hybrid_rle/encoder.rs:75-93 [encode_bool]. *)
Definition encode_bool (items : list bool) : res (list N) :=
  let* header := bitpacked_header (length items) in
  let* body := bitmap_encode items in
  Ok (header ++ body).

(** encoding/hybrid_rle/bitmap.rs:13-19 [BitmapIter]. *)
Record bitmap_iter := mk_bm {
  bm_iter : list N;
  bm_current : N;
  bm_remaining : N;
  bm_mask : N
}.

(** encoding/hybrid_rle/bitmap.rs:35, 54. [u8::rotate_left]. *)
Definition rotl8 (v k : N) : N :=
  let k := k mod 8 in
  N.lor (N.shiftl v k mod 256) (N.shiftr v (8 - k)).

(** encoding/hybrid_rle/bitmap.rs:26-39 [BitmapIter::new]. *)
Definition bm_new (slice : list N) (offset : nat) (len : N) : res bitmap_iter :=
  let* bytes := slice_from (offset / 8) slice in
  Ok (mk_bm (skipn 1 bytes) (match bytes with [] => 0 | b :: _ => b end) len
        (rotl8 1 (N.of_nat offset mod two32))).

(** encoding/hybrid_rle/bitmap.rs:46-62 [next]: at the end of the slice the current byte stays. *)
Definition bm_next (s : bitmap_iter) : res (option bool * bitmap_iter) :=
  if bm_remaining s =? 0 then Ok (None, s)
  else
    let remaining := bm_remaining s - 1 in
    let value := negb (N.land (bm_current s) (bm_mask s) =? 0) in
    let mask := rotl8 (bm_mask s) 1 in
    if mask =? 1 then
      match bm_iter s with
      | [] => Ok (Some value, mk_bm [] (bm_current s) remaining mask)
      | v :: r => Ok (Some value, mk_bm r v remaining mask)
      end
    else Ok (Some value, mk_bm (bm_iter s) (bm_current s) remaining mask).

(** encoding/hybrid_rle/bitmap.rs:65-67. *)
Definition bm_size_hint (s : bitmap_iter) : N := bm_remaining s.
