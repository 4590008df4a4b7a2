(** Model of /repo/src/compression.rs, /repo/src/read/compression.rs and /repo/src/write/compression.rs.

    The codecs themselves (brotli, flate2, snap, lz4, zstd) are other crates: they appear as the functions of the
    record [codecs], which every function here takes as an argument. The build modelled has all codec features on, with one of the two lz4 crates.
    A [&mut [u8]] argument is a list that is returned changed; a [Vec] is a list, and its capacity, which no
    list shows, is a separate argument of the one function that looks at it. *)
From Verif Require Import Base.Prelude Model.Types Model.Thrift Model.Intervals Model.Page.
Open Scope N_scope.

(** compression.rs:41-47, 59-61, 72-73, 110-112, 140-141, 152-153, 164-169, 184 and 209-210. The calls into the codec crates.
    - [enc o x]: the bytes appended to the output when [x] is compressed with options [o].
    - [stream_dec c x]: the bytes that the [Read] adaptor of codec [c] produces from [x] before it ends or fails.
    - [snappy_len x]: [snap::raw::decompress_len].
    - [snappy_dec x cap], [lz4_dec x cap]: decoding into an output slice of [cap] bytes: the bytes written from the
      start of the slice, and whether the call succeeded. *)
Record codecs := mk_codecs {
  enc : compression_options -> list N -> res (list N);
  stream_dec : compression -> list N -> list N;
  snappy_len : list N -> option N;
  snappy_dec : list N -> N -> list N * bool;
  lz4_dec : list N -> N -> list N * bool
}.

(** compression.rs:28-130 [compress] (with 8-22 [inner_compress]): appends to [out]. *)
Definition compress_bytes (C : codecs) (o : compression_options) (input out : list N) : res (list N) :=
  match o with
  | OUncompressed => Err InvalidParameter
  | OLzo | OLz4 => Err FeatureNotSupported
  | _ => let* y := enc C o input in Ok (out ++ y)
  end.

(** compression.rs:168-169, 184 and 265-269. Writing [w] from the start of the slice [out]. *)
Definition write_prefix (w out : list N) : list N := firstn (length out) w ++ skipn (length w) out.

(** compression.rs:141, 153 and 210. [Read::read_exact(out)] on a decoder that produces [w]: on success all of [out] is overwritten. *)
Definition read_exact_into (w out : list N) : list N * res unit :=
  if (length out <=? length w)%nat then (firstn (length out) w, Ok tt) else (write_prefix w out, Err OutOfSpec).

(** compression.rs:251 and 254. [u32::from_be_bytes] *)
Fixpoint be (acc : N) (l : list N) : N := match l with [] => acc | b :: r => be (acc * 256 + b) r end.

(** compression.rs:168-171, 184 and 265-269. A block decoder writing into a slice. *)
Definition block_into (w : list N * bool) (out : list N) : list N * res N :=
  (write_prefix (fst w) out, if snd w then Ok (nlen (fst w)) else Err OutOfSpec).

(** compression.rs:231-287 [try_decompress_hadoop]. [input_len] and [output_len] of the code are the variables of
    the same name; [input] keeps the bytes from the current frame on (the code does not shorten it on the exit
    paths). The first component is the whole output slice after the call. The casts [as i32] of the length hint
    are not modelled. *)
Fixpoint hadoop_loop (C : codecs) (fuel : nat) (input : list N) (input_len : N) (done output : list N)
  : list N * res unit :=
  let finish := if input_len =? 0 then Ok tt else Err OutOfSpec in
  match fuel with
  | O => (done ++ output, Err OutOfSpec)
  | S f =>
      if 8 <=? input_len then
        let expected_decompressed := be 0 (firstn 4 input) in
        let expected_compressed := be 0 (firstn 4 (skipn 4 input)) in
        let input := skipn 8 input in
        let input_len := input_len - 8 in
        if input_len <? expected_compressed then (done ++ output, Err OutOfSpec)
        else if nlen output <? expected_decompressed then (done ++ output, Err OutOfSpec)
        else
          match block_into (lz4_dec C (firstn (N.to_nat expected_compressed) input) (nlen output)) output with
          | (output, Ok size) =>
              if size =? expected_decompressed then
                let input_len := input_len - expected_compressed in
                if expected_compressed <? input_len then
                  hadoop_loop C f (skipn (N.to_nat expected_compressed) input) input_len
                    (done ++ firstn (N.to_nat expected_decompressed) output)
                    (skipn (N.to_nat expected_decompressed) output)
                else (done ++ output, if input_len =? 0 then Ok tt else Err OutOfSpec)
              else (done ++ output, Err OutOfSpec)
          | (output, Err e) => (done ++ output, Err e)
          | (output, Panic) => (done ++ output, Panic)
          end
      else (done ++ output, finish)
  end.
(** compression.rs:231-287 [try_decompress_hadoop]. *)
Definition try_decompress_hadoop (C : codecs) (input output : list N) : list N * res unit :=
  hadoop_loop C (S (length input)) input (nlen input) [] output.

(** compression.rs:171, 185 and 197: [map(|_| ())]. *)
Definition unit_res (x : list N * res N) : list N * res unit := (fst x, rmap (fun _ => tt) (snd x)).

(** compression.rs:134-225 [decompress]. *)
Definition decompress_bytes (C : codecs) (c : compression) (input out : list N) : list N * res unit :=
  match c with
  | Brotli | Gzip | Zstd => read_exact_into (stream_dec C c input) out
  | Snappy =>
      match snappy_len C input with
      | None => (out, Err OutOfSpec)
      | Some len =>
          if nlen out <? len then (out, Err OutOfSpec)
          else unit_res (block_into (snappy_dec C input (nlen out)) out)
      end
  | Lz4Raw => unit_res (block_into (lz4_dec C input (nlen out)) out)
  | Lz4 =>
      match try_decompress_hadoop C input out with
      | (out', Ok tt) => (out', Ok tt)
      | (out', Panic) => (out', Panic)
      | (out', Err _) => unit_res (block_into (lz4_dec C input (nlen out')) out')
      end
  | Uncompressed => (out, Err InvalidParameter)
  | Lzo => (out, Err FeatureNotSupported)
  end.

(** write/compression.rs:29-31 and read/compression.rs:27-28: the sum of two [i32] fields, cast [as usize]. *)
Definition levels_length (m : mode) (h : t_data_header_v2) : res N :=
  let* s := sadd m 32 (dh2_rep_length h) (dh2_def_length h) in Ok (as_usize s).

(** write/compression.rs:11-51 [compress_data]. *)
Definition compress_data (C : codecs) (m : mode) (p : data_page) (compressed : list N) (o : compression_options)
  : res compressed_data_page :=
  let size := nlen (dp_buffer p) in
  let* compressed :=
    match o with
    | OUncompressed => Ok (dp_buffer p)
    | _ =>
        match dp_header p with
        | HV1 _ => compress_bytes C o (dp_buffer p) compressed
        | HV2 h =>
            let* n := levels_length m h in
            let* levels := slice_range 0 n (dp_buffer p) in
            let* values := slice_range n (nlen (dp_buffer p)) (dp_buffer p) in
            compress_bytes C o values (compressed ++ levels)
        end
    end in
  Ok (mk_cdp (dp_header p) compressed (options_compression o) size (dp_descriptor p) (dp_selected p)).

(** write/compression.rs:53-76 [compress_dict]. *)
Definition compress_dict (C : codecs) (p : dict_page) (compressed : list N) (o : compression_options)
  : res compressed_dict_page :=
  let* compressed :=
    match o with
    | OUncompressed => Ok (di_buffer p)
    | _ => compress_bytes C o (di_buffer p) compressed
    end in
  Ok (mk_cdict compressed (options_compression o) (di_num_values p) (nlen (di_buffer p)) (di_is_sorted p)).

(** write/compression.rs:85-98 [compress]. *)
Definition compress (C : codecs) (m : mode) (p : page) (compressed : list N) (o : compression_options)
  : res compressed_page :=
  match p with
  | PData p => rmap CData (compress_data C m p compressed o)
  | PDict p => rmap CDict (compress_dict C p compressed o)
  end.

(** read/compression.rs:15-51 [decompress_v2]; 11-13 [decompress_v1] is [decompress_bytes]. *)
Definition decompress_v2 (C : codecs) (m : mode) (compressed : list N) (h : t_data_header_v2) (c : compression)
  (buffer : list N) : list N * res unit :=
  match levels_length m h with
  | Ok offset =>
      if match dh2_is_compressed h with Some b => b | None => true end then
        if (nlen buffer <? offset) || (nlen compressed <? offset) then (buffer, Err OutOfSpec)
        else
          let n := N.to_nat offset in
          let (values, r) := decompress_bytes C c (skipn n compressed) (skipn n buffer) in
          (firstn n compressed ++ values, r)
      else if nlen buffer =? nlen compressed then (compressed, Ok tt) else (buffer, Err OutOfSpec)
  | Err e => (buffer, Err e)
  | Panic => (buffer, Panic)
  end.

(** read/compression.rs:64-74: the decompression buffer brought to [read_size] bytes; [cap] is its capacity. *)
Definition prepare (cap read_size : N) (buffer : list N) : list N :=
  if cap <? read_size then repeat 0 (N.to_nat read_size)
  else if nlen buffer <? read_size then buffer ++ repeat 0 (N.to_nat read_size - length buffer)
  else firstn (N.to_nat read_size) buffer.

(** read/compression.rs:93 and write/compression.rs:143: no function of its own. *)
Definition set_cp_buffer (b : list N) (p : compressed_page) : compressed_page :=
  match p with
  | CData p => CData (mk_cdp (cdp_header p) b (cdp_compression p) (cdp_uncompressed_size p) (cdp_descriptor p) (cdp_selected p))
  | CDict p => CDict (mk_cdict b (cdi_compression p) (cdi_num_values p) (cdi_uncompressed_size p) (cdi_is_sorted p))
  end.
(** read/compression.rs:198 and 200: no function of its own. *)
Definition set_page_buffer (b : list N) (p : page) : page :=
  match p with
  | PData p => PData (mk_dp (dp_header p) b (dp_descriptor p) (dp_selected p))
  | PDict p => PDict (mk_dict b (di_num_values p) (di_is_sorted p))
  end.

(** read/compression.rs:56-96 [decompress_buffer]: the compressed page and the buffer after the call. *)
Definition decompress_buffer (C : codecs) (m : mode) (cap : N) (p : compressed_page) (buffer : list N)
  : compressed_page * list N * res bool :=
  match cp_compression p with
  | Uncompressed => (set_cp_buffer buffer p, cp_buffer p, Ok false)
  | c =>
      let buffer := prepare cap (cp_uncompressed_size p) buffer in
      let (buffer, r) :=
        match p with
        | CData d =>
            match cdp_header d with
            | HV1 _ => decompress_bytes C c (cdp_buffer d) buffer
            | HV2 h => decompress_v2 C m (cdp_buffer d) h c buffer
            end
        | CDict d => decompress_bytes C c (cdi_buffer d) buffer
        end in
      (p, buffer, rmap (fun _ => true) r)
  end.

(** read/compression.rs:98-112 [create_page]. *)
Definition create_page (p : compressed_page) (buffer : list N) : page :=
  match p with
  | CData p => PData (mk_dp (cdp_header p) buffer (cdp_descriptor p) (cdp_selected p))
  | CDict p => PDict (mk_dict buffer (cdi_num_values p) (cdi_is_sorted p))
  end.

(** read/compression.rs:117-120 [decompress]. *)
Definition decompress (C : codecs) (m : mode) (cap : N) (p : compressed_page) (buffer : list N) : res page :=
  match decompress_buffer C m cap p buffer with
  | (p, buffer, Ok _) => Ok (create_page p buffer)
  | (_, _, Err e) => Err e
  | (_, _, Panic) => Panic
  end.

(** read/page/mod.rs:11-13. A page iterator with a scratch buffer (trait [PageIterator], read/page/mod.rs:11-13): the items of its
    [next], and [swap_buffer]. *)
Record page_iter (S : Type) := mk_pi {
  pi_next : S -> res (option (compressed_page + error) * S);
  pi_swap : S -> list N -> S * list N
}.
Arguments mk_pi {S}. Arguments pi_next {S}. Arguments pi_swap {S}.

(** read/compression.rs:164-169 [Decompressor]. *)
Record decompressor (S : Type) := mk_dec {
  de_iter : S;
  de_buffer : list N;
  de_current : option page;
  de_was : bool
}.
Arguments mk_dec {S}. Arguments de_iter {S}. Arguments de_buffer {S}. Arguments de_current {S}. Arguments de_was {S}.
(** read/compression.rs:173-180 [new]. *)
Definition dec_new {S} (it : S) (buffer : list N) : decompressor S := mk_dec it buffer None false.

(** read/compression.rs:184-189 [into_buffers]. *)
Definition dec_into_buffers {S} (P : page_iter S) (d : decompressor S) : list N * list N :=
  (snd (pi_swap P (de_iter d) []), de_buffer d).

(** read/compression.rs:195-218 [advance], with 122-136 [decompress_reuse]; [cap] is the capacity of the
    decompression buffer at this call. The result is the error returned, if any, and the new state: on an error the
    code leaves [current] as it is, with its buffer already taken away. *)
Definition dec_advance {S} (C : codecs) (m : mode) (P : page_iter S) (cap : N) (d : decompressor S)
  : res (option error * decompressor S) :=
  let '(it, buffer, current) :=
    match de_current d with
    | Some p =>
        if de_was d then (de_iter d, page_buffer p, Some (set_page_buffer [] p))
        else let (it, b) := pi_swap P (de_iter d) (page_buffer p) in (it, de_buffer d, Some (set_page_buffer b p))
    | None => (de_iter d, de_buffer d, None)
    end in
  let* (item, it) := pi_next P it in
  match item with
  | None => Ok (None, mk_dec it buffer None (de_was d))
  | Some (inr e) => Ok (Some e, mk_dec it buffer current (de_was d))
  | Some (inl cp) =>
      match decompress_buffer C m cap cp buffer with
      | (_, buffer, Err e) => Ok (Some e, mk_dec it buffer current (de_was d))
      | (_, _, Panic) => Panic
      | (cp, buffer, Ok was) =>
          let it := if was then fst (pi_swap P it (cp_buffer cp)) else it in
          Ok (None, mk_dec it [] (Some (create_page cp buffer)) was)
      end
  end.

(** read/compression.rs:195-222. [advance] followed by [get], once per capacity in [caps]; an error of [advance] is an item too. *)
Fixpoint dec_run {S} (C : codecs) (m : mode) (P : page_iter S) (caps : list N) (d : decompressor S)
  : res (list (option page + error)) :=
  match caps with
  | [] => Ok []
  | cap :: r =>
      let* (e, d) := dec_advance C m P cap d in
      let* l := dec_run C m P r d in
      Ok (match e with Some e => inr e | None => inl (de_current d) end :: l)
  end.

(** read/compression.rs:195-222: the same calls with everything that can be seen on the way: for each, the error that [advance] returned, if any, and what
    [get] returns after it; and the decompressor at the end. *)
Fixpoint dec_trace {S} (C : codecs) (m : mode) (P : page_iter S) (caps : list N) (d : decompressor S)
  : res (list (option error * option page) * decompressor S) :=
  match caps with
  | [] => Ok ([], d)
  | cap :: r =>
      let* (e, d) := dec_advance C m P cap d in
      let* (l, d') := dec_trace C m P r d in
      Ok ((e, de_current d) :: l, d')
  end.

(** write/compression.rs:102-107 [Compressor]. The iterator of pages is the list of its items. *)
Record compressor := mk_comp {
  co_items : list (page + error);
  co_options : compression_options;
  co_buffer : list N;
  co_current : option compressed_page
}.
(** write/compression.rs:111-118 [new]. *)
Definition comp_new (items : list (page + error)) (o : compression_options) (buffer : list N) : compressor :=
  mk_comp items o buffer None.
(** write/compression.rs:132 and 147. [Vec::clear] *)
Definition clear (b : list N) : list N := firstn 0 b.
(** write/compression.rs:126-134 [into_inner]. *)
Definition comp_into_inner (c : compressor) : list (page + error) * list N :=
  (co_items c, clear match co_current c with Some p => cp_buffer p | None => co_buffer c end).

(** write/compression.rs:141-160 [advance] and [get]. On an error the code leaves [current] as it is, with its buffer
    already taken away. *)
Definition comp_advance (C : codecs) (m : mode) (c : compressor) : res (option error * compressor) :=
  let '(b, buffer, current) :=
    match co_current c with
    | Some p => (cp_buffer p, co_buffer c, Some (set_cp_buffer [] p))
    | None => (co_buffer c, [], None)
    end in
  let b := clear b in
  match co_items c with
  | [] => Ok (None, mk_comp [] (co_options c) buffer None)
  | inr e :: r => Ok (Some e, mk_comp r (co_options c) buffer current)
  | inl p :: r =>
      match compress C m p b (co_options c) with
      | Ok cp => Ok (None, mk_comp r (co_options c) buffer (Some cp))
      | Err e => Ok (Some e, mk_comp r (co_options c) buffer current)
      | Panic => Panic
      end
  end.
(** write/compression.rs:141-160: [advance] followed by [get], [n] times. *)
Fixpoint comp_run (C : codecs) (m : mode) (n : nat) (c : compressor) : res (list (option compressed_page + error)) :=
  match n with
  | O => Ok []
  | S k =>
      let* (e, c) := comp_advance C m c in
      let* l := comp_run C m k c in
      Ok (match e with Some e => inr e | None => inl (co_current c) end :: l)
  end.
(** write/compression.rs:141-160: the same calls with everything that can be seen on the way, and the compressor at the end. *)
Fixpoint comp_trace (C : codecs) (m : mode) (n : nat) (c : compressor) : res (list (option error * option compressed_page) * compressor) :=
  match n with
  | O => Ok ([], c)
  | S k =>
      let* (e, c) := comp_advance C m c in
      let* (l, c') := comp_trace C m k c in
      Ok ((e, co_current c) :: l, c')
  end.
