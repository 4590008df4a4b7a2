(** Model of compression in the other builds of the crate: /repo/src/compression.rs with any set of codec features (/repo/Cargo.toml:24-29 and 40-46),
    and what a failed compression leaves in the output. Model/Compression.v has the build with all codecs. *)
From Verif Require Import Base.Prelude Model.Types Model.Thrift Model.Intervals Model.Page Model.Compression.
Open Scope N_scope.

(** Cargo.toml:24-29 and 40-46: the features that compression.rs asks for. With both lz4 features there is no [lz4_decompress_to_buffer]
    (compression.rs:289-310), and the crate does not compile; these sets are here nevertheless. *)
Record features := mk_features { has_brotli : bool; has_gzip : bool; has_snappy : bool; has_lz4 : bool; has_lz4_flex : bool; has_zstd : bool }.

(** compression.rs:41-47, 59-61, 72-73, 84-86, 94-97 and 110-116. The calls into the codec crates while compressing.
    - [e_stream o x]: what an encoder that writes to the [Vec] appends to it, and whether it fails.
    - [e_bound o n]: the room asked for [n] bytes. - [e_block o x cap]: the bytes written from the start of a slice of [cap] bytes, and the size. *)
Record encoders := mk_encoders {
  e_stream : compression_options -> list N -> list N * res unit;
  e_bound : compression_options -> N -> res N;
  e_block : compression_options -> list N -> N -> list N * res N
}.
(** compression.rs:8-22 [inner_compress]: the output after the call and its result. *)
Definition inner_compress (E : encoders) (o : compression_options) (input out : list N) : list N * res unit :=
  match e_bound E o (nlen input) with
  | Ok max =>
      let (w, r) := e_block E o input max in
      let resized := write_prefix w (repeat 0 (N.to_nat max)) in
      match r with
      | Ok size => (firstn (length out + N.to_nat size) (out ++ resized), Ok tt)
      | Err e => (out ++ resized, Err e)
      | Panic => (out ++ resized, Panic)
      end
  | Err e => (out, Err e)
  | Panic => (out, Panic)
  end.
(** compression.rs:41-50, 59-61 and 110-116: an encoder on top of the output. *)
Definition stream_compress (E : encoders) (o : compression_options) (input out : list N) : list N * res unit :=
  let (w, r) := e_stream E o input in (out ++ w, r).
(** compression.rs:28-130 [compress], for the build with the features [f]. *)
Definition build_compress (f : features) (E : encoders) (o : compression_options) (input out : list N) : list N * res unit :=
  match o with
  | OBrotli _ => if has_brotli f then stream_compress E o input out else (out, Err FeatureNotActive)
  | OGzip _ => if has_gzip f then stream_compress E o input out else (out, Err FeatureNotActive)
  | OSnappy => if has_snappy f then inner_compress E o input out else (out, Err FeatureNotActive)
  | OLz4Raw =>
      if has_lz4_flex f && negb (has_lz4 f) then inner_compress E o input out
      else if has_lz4 f then inner_compress E o input out
      else (out, Err FeatureNotActive)
  | OZstd _ => if has_zstd f then stream_compress E o input out else (out, Err FeatureNotActive)
  | OUncompressed => (out, Err InvalidParameter)
  | OLzo | OLz4 => (out, Err FeatureNotSupported)
  end.

(** compression.rs:134-225 [decompress], for the build with the features [f]. *)
Definition build_decompress (f : features) (C : codecs) (c : compression) (input out : list N) : list N * res unit :=
  match c with
  | Brotli => if has_brotli f then read_exact_into (stream_dec C c input) out else (out, Err FeatureNotActive)
  | Gzip => if has_gzip f then read_exact_into (stream_dec C c input) out else (out, Err FeatureNotActive)
  | Snappy =>
      if has_snappy f then
        match snappy_len C input with
        | None => (out, Err OutOfSpec)
        | Some len => if nlen out <? len then (out, Err OutOfSpec) else unit_res (block_into (snappy_dec C input (nlen out)) out)
        end
      else (out, Err FeatureNotActive)
  | Lz4Raw =>
      if has_lz4_flex f && negb (has_lz4 f) then unit_res (block_into (lz4_dec C input (nlen out)) out)
      else if has_lz4 f then unit_res (block_into (lz4_dec C input (nlen out)) out)
      else (out, Err FeatureNotActive)
  | Lz4 =>
      if has_lz4_flex f || has_lz4 f then
        match try_decompress_hadoop C input out with
        | (out', Ok tt) => (out', Ok tt)
        | (out', Panic) => (out', Panic)
        | (out', Err _) => unit_res (block_into (lz4_dec C input (nlen out')) out')
        end
      else (out, Err FeatureNotActive)
  | Zstd => if has_zstd f then read_exact_into (stream_dec C c input) out else (out, Err FeatureNotActive)
  | Uncompressed => (out, Err InvalidParameter)
  | Lzo => (out, Err FeatureNotSupported)
  end.

(** write/compression.rs:11-51 [compress_data], 53-76 [compress_dict] and 85-98 [compress], for the build with the features [f]. *)
Definition build_compress_page (f : features) (E : encoders) (m : mode) (p : page) (compressed : list N) (o : compression_options) : res compressed_page :=
  let run (input out : list N) : res (list N) := let (out, r) := build_compress f E o input out in let* _ := r in Ok out in
  match p with
  | PData p =>
      let* buffer :=
        match o with
        | OUncompressed => Ok (dp_buffer p)
        | _ =>
            match dp_header p with
            | HV1 _ => run (dp_buffer p) compressed
            | HV2 h =>
                let* n := levels_length m h in
                let* levels := slice_range 0 n (dp_buffer p) in
                let* values := slice_range n (nlen (dp_buffer p)) (dp_buffer p) in
                run values (compressed ++ levels)
            end
        end in
      Ok (CData (mk_cdp (dp_header p) buffer (options_compression o) (nlen (dp_buffer p)) (dp_descriptor p) (dp_selected p)))
  | PDict p =>
      let* buffer := match o with OUncompressed => Ok (di_buffer p) | _ => run (di_buffer p) compressed end in
      Ok (CDict (mk_cdict buffer (options_compression o) (di_num_values p) (nlen (di_buffer p)) (di_is_sorted p)))
  end.

(** read/compression.rs:15-51 [decompress_v2], for the build with the features [f]. *)
Definition build_decompress_v2 (f : features) (C : codecs) (m : mode) (compressed : list N) (h : t_data_header_v2) (c : compression) (buffer : list N)
  : list N * res unit :=
  match levels_length m h with
  | Ok offset =>
      if match dh2_is_compressed h with Some b => b | None => true end then
        if (nlen buffer <? offset) || (nlen compressed <? offset) then (buffer, Err OutOfSpec)
        else
          let n := N.to_nat offset in
          let (values, r) := build_decompress f C c (skipn n compressed) (skipn n buffer) in
          (firstn n compressed ++ values, r)
      else if nlen buffer =? nlen compressed then (compressed, Ok tt) else (buffer, Err OutOfSpec)
  | Err e => (buffer, Err e)
  | Panic => (buffer, Panic)
  end.
(** read/compression.rs:56-120 [decompress_buffer], [create_page] and [decompress], for the build with the features [f]. *)
Definition build_decompress_page (f : features) (C : codecs) (m : mode) (cap : N) (p : compressed_page) (buffer : list N) : res page :=
  match cp_compression p with
  | Uncompressed => Ok (create_page (set_cp_buffer buffer p) (cp_buffer p))
  | c =>
      let buffer := prepare cap (cp_uncompressed_size p) buffer in
      let (buffer, r) :=
        match p with
        | CData d =>
            match cdp_header d with
            | HV1 _ => build_decompress f C c (cdp_buffer d) buffer
            | HV2 h => build_decompress_v2 f C m (cdp_buffer d) h c buffer
            end
        | CDict d => build_decompress f C c (cdi_buffer d) buffer
        end in
      let* _ := r in Ok (create_page p buffer)
  end.
