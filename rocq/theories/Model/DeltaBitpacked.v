(** Model of /repo/src/encoding/delta_bitpacked/. *)
From Verif Require Import Base.Prelude Base.Iter Model.Uleb128 Model.Bitpacked.
Open Scope N_scope.

(** encoding/delta_bitpacked/decoder.rs:9-24 [Block]. [_num_mini_blocks] is never read and left out. *)
Record block := mk_block {
  bl_min : Z;                       (* min_delta *)
  bl_vpmb : N;                      (* values_per_mini_block *)
  bl_widths : list N;               (* bitwidths *)
  bl_values : list N;               (* values *)
  bl_remaining : N;                 (* remaining *)
  bl_index : N;                     (* current_index *)
  bl_mini : option bp_decoder;      (* current_miniblock *)
  bl_consumed : nat                 (* consumed_bytes *)
}.

(** encoding/delta_bitpacked/decoder.rs:67-92 [advance_miniblock]: the state afterwards and the error returned, if any.
    [Decoder::try_new(..).unwrap()] turns an error into a panic. *)
Definition block_advance (m : mode) (b : block) : res (option error * block) :=
  match bl_widths b with
  | [] => Panic
  | num_bits :: widths =>
      if 0 <? num_bits then
        let length := N.min (bl_remaining b) (bl_vpmb b) in
        let* bits := umul m 64 (bl_vpmb b) num_bits in
        let miniblock_length := ceil8N bits in
        if nlen (bl_values b) <? miniblock_length then
          Ok (Some OutOfSpec,
              mk_block (bl_min b) (bl_vpmb b) widths (bl_values b) (bl_remaining b) (bl_index b)
                (bl_mini b) (bl_consumed b))
        else
          let n := N.to_nat miniblock_length in
          let* (miniblock, remainder) := split_at n (bl_values b) in
          match bp_try_new m 8 miniblock (N.to_nat num_bits) length with
          | Ok d => Ok (None, mk_block (bl_min b) (bl_vpmb b) widths remainder (bl_remaining b) 0
                                (Some d) (bl_consumed b + n))
          | _ => Panic
          end
      else Ok (None, mk_block (bl_min b) (bl_vpmb b) widths (bl_values b) (bl_remaining b) 0
                       None (bl_consumed b))
  end.

(** encoding/delta_bitpacked/decoder.rs:27-65 [Block::try_new]. *)
Definition block_try_new (m : mode) (values : list N) (num_mini_blocks vpmb len : N) : res block :=
  let* total := umul m 64 num_mini_blocks vpmb in
  let length := N.min len total in
  let* (min_delta, consumed) := zigzag_decode values in
  let* values := slice_from consumed values in
  if nlen values <? num_mini_blocks then Err OutOfSpec
  else
    let n := N.to_nat num_mini_blocks in
    let* (bitwidths, values) := split_at n values in
    let b := mk_block min_delta vpmb bitwidths values length 0 None (consumed + n) in
    let* (e, b) := block_advance m b in
    match e with
    | Some e => Err e
    | None => Ok b
    end.

(** encoding/delta_bitpacked/decoder.rs:96, 217. An item of these iterators is a [Result]: [inl] a value, [inr] an error. *)
Definition item := (Z + error)%type.

(** encoding/delta_bitpacked/decoder.rs:98-118 [Block::next]. *)
Definition block_next (m : mode) (b : block) : res (option item * block) :=
  if bl_remaining b =? 0 then Ok (None, b)
  else
    let* (x, mini) :=
      match bl_mini b with
      | Some d => let* (o, d') := bp_next 8 d in
                  Ok (match o with Some v => v | None => 0 end, Some d')
      | None => Ok (0, None)
      end in
    let* result := sadd m 64 (bl_min b) (to_signed 64 x) in
    let index := bl_index b + 1 in
    let remaining := bl_remaining b - 1 in
    let b := mk_block (bl_min b) (bl_vpmb b) (bl_widths b) (bl_values b) remaining index mini
               (bl_consumed b) in
    if (0 <? remaining) && (index =? bl_vpmb b) then
      let* (e, b) := block_advance m b in
      match e with
      | Some e => Ok (Some (inr e), b)
      | None => Ok (Some (inl result), b)
      end
    else Ok (Some (inl result), b).

(** encoding/delta_bitpacked/decoder.rs:124-134 [Decoder]. *)
Record delta_decoder := mk_delta {
  dd_nmb : N;                       (* num_mini_blocks *)
  dd_vpmb : N;                      (* values_per_mini_block *)
  dd_remaining : N;                 (* values_remaining *)
  dd_next : Z;                      (* next_value *)
  dd_values : list N;               (* values *)
  dd_block : option block;          (* current_block *)
  dd_consumed : nat                 (* consumed_bytes *)
}.

(** encoding/delta_bitpacked/decoder.rs:137-179 [Decoder::try_new]. *)
Definition delta_try_new (m : mode) (values : list N) : res delta_decoder :=
  let* (block_size, c1) := uleb_decode values in
  if negb (block_size mod 128 =? 0) then Panic
  else
    let* values := slice_from c1 values in
    let* (num_mini_blocks, c2) := uleb_decode values in
    let* values := slice_from c2 values in
    let* (total_count, c3) := uleb_decode values in
    let* values := slice_from c3 values in
    let* (first_value, c4) := zigzag_decode values in
    let* values := slice_from c4 values in
    if num_mini_blocks =? 0 then Panic
    else
      let vpmb := block_size / num_mini_blocks in
      if negb (vpmb mod 8 =? 0) then Panic
      else
        let* current_block :=
          (if 1 <? total_count then
             let* b := block_try_new m values num_mini_blocks vpmb (total_count - 1) in Ok (Some b)
           else Ok None) in
        Ok (mk_delta num_mini_blocks vpmb total_count first_value values current_block
              (c1 + c2 + c3 + c4)).

(** encoding/delta_bitpacked/decoder.rs:182-184 [consumed_bytes]. *)
Definition delta_consumed (d : delta_decoder) : nat :=
  dd_consumed d + match dd_block d with Some b => bl_consumed b | None => 0%nat end.

(** encoding/delta_bitpacked/decoder.rs:186-213 [load_delta]. *)
Definition load_delta (m : mode) (d : delta_decoder) : res (item * delta_decoder) :=
  match dd_block d with
  | None => Panic
  | Some b =>
      let* (o, b) := block_next m b in
      match o with
      | Some x =>
          Ok (x, mk_delta (dd_nmb d) (dd_vpmb d) (dd_remaining d) (dd_next d) (dd_values d) (Some b)
                   (dd_consumed d))
      | None =>
          let* values := slice_from (bl_consumed b) (dd_values d) in
          let consumed := (dd_consumed d + bl_consumed b)%nat in
          match block_try_new m values (dd_nmb d) (dd_vpmb d) (dd_remaining d) with
          | Ok nb =>
              let* (o, nb) := block_next m nb in
              match o with
              | None => Ok (inr OutOfSpec,
                            mk_delta (dd_nmb d) (dd_vpmb d) (dd_remaining d) (dd_next d) values (Some b) consumed)
              | Some x => Ok (x, mk_delta (dd_nmb d) (dd_vpmb d) (dd_remaining d) (dd_next d) values
                                   (Some nb) consumed)
              end
          | Err e => Ok (inr e, mk_delta (dd_nmb d) (dd_vpmb d) (dd_remaining d) (dd_next d) values (Some b) consumed)
          | Panic => Panic
          end
      end
  end.

(** encoding/delta_bitpacked/decoder.rs:219-239 [next]. *)
Definition delta_next (m : mode) (d : delta_decoder) : res (option item * delta_decoder) :=
  if dd_remaining d =? 0 then Ok (None, d)
  else
    let result := dd_next d in
    let remaining := dd_remaining d - 1 in
    let d := mk_delta (dd_nmb d) (dd_vpmb d) remaining (dd_next d) (dd_values d) (dd_block d) (dd_consumed d) in
    if remaining =? 0 then Ok (Some (inl result), d)
    else
      let* (x, d) := load_delta m d in
      match x with
      | inr e => Ok (Some (inr e), d)
      | inl delta =>
          let* next_value := sadd m 64 (dd_next d) delta in
          Ok (Some (inl result),
              mk_delta (dd_nmb d) (dd_vpmb d) (dd_remaining d) next_value (dd_values d) (dd_block d) (dd_consumed d))
      end.

(** encoding/delta_bitpacked/decoder.rs:241-243 [size_hint]. *)
Definition delta_size_hint (d : delta_decoder) : N := dd_remaining d.

(** encoding/delta_bitpacked/encoder.rs:36-47, the loop over one block: running minimum, maximum, bit width, deltas, last value.
    [64 - x.leading_zeros()] of a 64-bit word is [N.size]. *)
Fixpoint enc_scan (m : mode) (prev mn mx : Z) (nb : N) (items : list Z) : res (Z * N * list Z * Z) :=
  match items with
  | [] => Ok (mn, nb, [], prev)
  | x :: r =>
      let* delta := ssub m 64 x prev in
      let mn := Z.min mn delta in
      let mx := Z.max mx delta in
      let* diff := ssub m 64 mx mn in
      let nb := N.size (of_signed 64 diff) in
      let* (mn, nb, vs, prev) := enc_scan m x mn mx nb r in
      Ok (mn, nb, delta :: vs, prev)
  end.

(** encoding/delta_bitpacked/encoder.rs:52-54, [(v - min_delta) as u64]. *)
Fixpoint enc_rel (m : mode) (mn : Z) (vs : list Z) : res (list N) :=
  match vs with
  | [] => Ok []
  | v :: r =>
      let* d := ssub m 64 v mn in
      let* l := enc_rel m mn r in
      Ok (of_signed 64 d :: l)
  end.

(** encoding/delta_bitpacked/encoder.rs:66-78 [write_miniblock]. *)
Definition write_miniblock (num_bits : N) (deltas : list N) : res (list N) :=
  if 0 <? num_bits then
    let w := N.to_nat num_bits in
    bp_encode 8 deltas w (repeat 0 (ceil8 (length deltas * w)))
  else Ok [].

(** encoding/delta_bitpacked/encoder.rs:37. *)
Definition i64_min : Z := (- 9223372036854775808)%Z.
(** encoding/delta_bitpacked/encoder.rs:36. *)
Definition i64_max : Z := 9223372036854775807%Z.

(** encoding/delta_bitpacked/encoder.rs:35-63, the loop over blocks; the array [deltas] keeps its contents from block to block.
    [fuel] bounds the number of blocks; running out is a panic, which the theorems exclude. *)
Fixpoint enc_blocks (m : mode) (fuel : nat) (prev : Z) (items : list Z) (deltas : list N) : res (list N) :=
  match items with
  | [] => Ok []
  | _ =>
      match fuel with
      | O => Panic
      | S f =>
          let* (mn, nb, vs, prev) := enc_scan m prev i64_max i64_min 0 (firstn 128 items) in
          let* rel := enc_rel m mn vs in
          let deltas := rel ++ skipn (length rel) deltas in
          let* head := zigzag_bytes mn in
          let* body := write_miniblock nb deltas in
          let* rest := enc_blocks m f prev (skipn 128 items) deltas in
          Ok (head ++ [nb mod 256] ++ body ++ rest)
      end
  end.

(** encoding/delta_bitpacked/encoder.rs:11-64 [encode]; the iterator is a list whose [size_hint] is its length. *)
Definition delta_encode (m : mode) (items : list Z) : res (list N) :=
  let* h1 := uleb_bytes 128 in
  let* h2 := uleb_bytes 1 in
  let* h3 := uleb_bytes (nlen items) in
  let first_value := match items with [] => 0%Z | x :: _ => x end in
  let* h4 := zigzag_bytes first_value in
  let* body := enc_blocks m (length items) first_value (skipn 1 items) (repeat 0 128) in
  Ok (h1 ++ h2 ++ h3 ++ h4 ++ body).
