(** Model of /repo/src/encoding/bitpacked/.
    The four instances (u8, u16, u32, u64) are one definition with [B] the size of the integer type in
    bytes; [8 * B] is the macro's [$bits] and [Unpacked::LENGTH]. *)
From Verif Require Import Base.Prelude Base.Iter.
Open Scope nat_scope.

(** encoding/bitpacked/mod.rs:68-98. *)
Definition tbits (B : nat) : nat := 8 * B.

(** encoding/bitpacked/mod.rs:22-52, [Packed::LENGTH]: 8, 16*2, 32*4 and 64*64. *)
Definition packed_len (B : nat) : nat := if B =? 8 then 4096 else 8 * B * B.

(** encoding/bitpacked/pack.rs:30-32, 36-38, 43-45: [for i in 0..$bytes { output[pos + i] |= val[i] }]. *)
Fixpoint or_prefix (out val : list N) : res (list N) :=
  match val, out with
  | [], _ => Ok out
  | v :: vs, x :: r => let* r' := or_prefix r vs in Ok (N.lor x v :: r')
  | _ :: _, [] => Panic
  end.
(** encoding/bitpacked/pack.rs:31, 37, 44. *)
Fixpoint or_at (out : list N) (pos : nat) (val : list N) {struct pos} : res (list N) :=
  match pos, out with
  | O, _ => or_prefix out val
  | S p, x :: r => let* r' := or_at r p val in Ok (x :: r')
  | S _, [] => match val with [] => Ok [] | _ => Panic end
  end.

(** encoding/bitpacked/pack.rs:14-17 and encoding/bitpacked/unpack.rs:33-36: the mask of [w] ones ([<$t>::MAX] when [w] is the type's width). *)
Definition mask (w : nat) : N := N.ones (N.of_nat w).

(** encoding/bitpacked/pack.rs:20-46, one iteration of the loop of [pack] with value [v = input[i]]. *)
Definition pack_step (B w i : nat) (v : N) (out : list N) : res (list N) :=
  let bits := tbits B in
  let start_bit := i * w in
  let end_bit := start_bit + w in
  let start_bit_offset := start_bit mod bits in
  let end_bit_offset := end_bit mod bits in
  let start_byte := start_bit / bits in
  let end_byte := end_bit / bits in
  if negb (start_byte =? end_byte) && negb (end_bit_offset =? 0) then
    let a := (N.shiftl v (N.of_nat start_bit_offset) mod 2 ^ N.of_nat bits)%N in
    let* out := or_at out (start_byte * B) (to_le B a) in
    let b := N.land (N.shiftr v (N.of_nat (w - end_bit_offset))) (mask w) in
    or_at out (end_byte * B) (to_le B b)
  else
    let val := (N.shiftl (N.land v (mask w)) (N.of_nat start_bit_offset) mod 2 ^ N.of_nat bits)%N in
    or_at out (start_byte * B) (to_le B val).

(** encoding/bitpacked/pack.rs:19-47. *)
Fixpoint pack_loop (B w i : nat) (input : list N) (out : list N) : res (list N) :=
  match input with
  | [] => Ok out
  | v :: rest =>
      let* out := pack_step B w i v out in
      pack_loop B w (S i) rest out
  end.

(** encoding/bitpacked/pack.rs:4-48 and 60-68 [pack] behind the jump table of encoding/bitpacked/pack.rs:60-70: an unknown [num_bits] is
    [unreachable!]; zero bits clears the output; the output must hold [num_bits * $bytes] bytes. *)
Definition pack (B : nat) (input : list N) (out : list N) (w : nat) : res (list N) :=
  if tbits B <? w then Panic
  else if w =? 0 then Ok (map (fun _ => 0%N) out)
  else if length out <? w * B then Panic
  else pack_loop B w 0 input out.

(** encoding/bitpacked/unpack.rs:40-46, the closure [r]: word number [idx] of the input. *)
Definition word_at (B : nat) (inp : list N) (idx : nat) : res N :=
  if idx * B + B <=? length inp then Ok (le (firstn B (skipn (idx * B) inp))) else Panic.

(** encoding/bitpacked/unpack.rs:49-66, value number [i]. *)
Definition unpack_step (B w : nat) (inp : list N) (i : nat) : res N :=
  let bits := tbits B in
  let start_bit := i * w in
  let end_bit := start_bit + w in
  let start_bit_offset := start_bit mod bits in
  let end_bit_offset := end_bit mod bits in
  let start_byte := start_bit / bits in
  let end_byte := end_bit / bits in
  if negb (start_byte =? end_byte) && negb (end_bit_offset =? 0) then
    let* val := word_at B inp start_byte in
    let a := N.shiftr val (N.of_nat start_bit_offset) in
    let* val := word_at B inp end_byte in
    let b := (N.shiftl val (N.of_nat (w - end_bit_offset)) mod 2 ^ N.of_nat bits)%N in
    Ok (N.lor a (N.land b (mask w)))
  else
    let* val := word_at B inp start_byte in
    Ok (N.land (N.shiftr val (N.of_nat start_bit_offset)) (mask w)).

(** encoding/bitpacked/unpack.rs:48-67. *)
Fixpoint unpack_loop (B w : nat) (inp : list N) (is : list nat) : res (list N) :=
  match is with
  | [] => Ok []
  | i :: rest =>
      let* v := unpack_step B w inp i in
      let* l := unpack_loop B w inp rest in
      Ok (v :: l)
  end.

(** encoding/bitpacked/unpack.rs:23-68 and 80-88 [unpack] behind the jump table of encoding/bitpacked/unpack.rs:80-88. *)
Definition unpack (B : nat) (inp : list N) (w : nat) : res (list N) :=
  if tbits B <? w then Panic
  else if w =? 0 then Ok (repeat 0%N (tbits B))
  else if length inp <? w * B then Panic
  else unpack_loop B w inp (seq 0 (tbits B)).

(** encoding/bitpacked/decode.rs:17-26 [decode_pack]: a short pack is copied into a zeroed [Packed] array. *)
Definition decode_pack (B : nat) (packed : list N) (w : nat) : res (list N) :=
  if length packed <? tbits B * w / 8 then
    if packed_len B <? length packed then Panic
    else unpack B (packed ++ repeat 0%N (packed_len B - length packed)) w
  else unpack B packed w.

(** encoding/bitpacked/decode.rs:9-15, the struct; [bp_packed] is what the [Chunks] iterator has left. *)
Record bp_decoder := mk_bp {
  bp_packed : list N;
  bp_num_bits : nat;
  bp_remaining : N;
  bp_index : nat;
  bp_unpacked : list N
}.

(** encoding/bitpacked/decode.rs:30-59 [Decoder::try_new]. The product [length * num_bits] is a [usize] product. *)
Definition bp_try_new (m : mode) (B : nat) (packed : list N) (w : nat) (len : N) : res bp_decoder :=
  let block_size := B * w in
  if w =? 0 then Err OutOfSpec
  else
    let* needed := umul m 64 len (N.of_nat w) in
    if (nlen packed * 8 <? needed)%N then Err OutOfSpec
    else
      match packed with
      | [] => Ok (mk_bp [] w 0%N 0 (repeat 0%N (tbits B)))
      | _ =>
          let* u := decode_pack B (firstn block_size packed) w in
          Ok (mk_bp (skipn block_size packed) w len 0 u)
      end.

(** encoding/bitpacked/decode.rs:66-80 [next]. *)
Definition bp_next (B : nat) (st : bp_decoder) : res (option N * bp_decoder) :=
  if (bp_remaining st =? 0)%N then Ok (None, st)
  else
    match nth_error (bp_unpacked st) (bp_index st) with
    | None => Panic
    | Some result =>
        let index := S (bp_index st) in
        let remaining := (bp_remaining st - 1)%N in
        if index =? tbits B then
          match bp_packed st with
          | [] => Ok (Some result, mk_bp [] (bp_num_bits st) remaining index (bp_unpacked st))
          | _ =>
              let block_size := B * bp_num_bits st in
              let* u := decode_pack B (firstn block_size (bp_packed st)) (bp_num_bits st) in
              Ok (Some result,
                  mk_bp (skipn block_size (bp_packed st)) (bp_num_bits st) remaining 0 u)
          end
        else Ok (Some result,
                 mk_bp (bp_packed st) (bp_num_bits st) remaining index (bp_unpacked st))
    end.

(** encoding/bitpacked/decode.rs:83-85 [size_hint]. *)
Definition bp_size_hint (st : bp_decoder) : N := bp_remaining st.

(** encoding/bitpacked/encode.rs:24-29, 31-34: the zip of value chunks with output chunks of [packed_size] bytes. [exact] tells
    [chunks_exact_mut] (which skips a short last chunk) from [chunks_mut]. *)
Fixpoint encode_zip (B w : nat) (exact : bool) (us : list (list N)) (packed : list N) : res (list N) :=
  match us with
  | [] => Ok packed
  | u :: us' =>
      let packed_size := (tbits B * w + 7) / 8 in
      match packed with
      | [] => Ok []
      | _ =>
          if exact && (length packed <? packed_size) then Ok packed
          else
            let* c := pack B u (firstn packed_size packed) w in
            let* rest := encode_zip B w exact us' (skipn packed_size packed) in
            Ok (c ++ rest)
      end
  end.

(** encoding/bitpacked/encode.rs:11-36 [encode]; [chunks_mut(0)] panics, hence the test for a zero [packed_size]. *)
Definition bp_encode (B : nat) (unpacked : list N) (w : nat) (packed : list N) : res (list N) :=
  let chunks := chunks_exact (tbits B) unpacked in
  let remainder := chunks_remainder (tbits B) unpacked in
  let packed_size := (tbits B * w + 7) / 8 in
  if packed_size =? 0 then Panic
  else
    match remainder with
    | [] => encode_zip B w true chunks packed
    | _ =>
        let last_chunk := remainder ++ repeat 0%N (tbits B - length remainder) in
        encode_zip B w false (chunks ++ [last_chunk]) packed
    end.

(** encoding/bitpacked/encode.rs:46-54 [encode_pack]: note the comparison with [Packed::LENGTH]. *)
Definition encode_pack (B : nat) (unpacked : list N) (w : nat) (packed : list N) : res (list N) :=
  if length unpacked <? packed_len B then
    if tbits B <? length unpacked then Panic
    else pack B (unpacked ++ repeat 0%N (tbits B - length unpacked)) packed w
  else if length unpacked =? tbits B then pack B unpacked packed w
  else Panic.
