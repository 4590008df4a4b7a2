(** What the compression properties mean, apart from how pages are compressed and decompressed. *)
From Verif Require Import Base.Prelude Model.Types Model.Thrift Model.Page Model.Compression.
Open Scope N_scope.

(** Every codec's decompressor inverts its compressor. A block decoder may be given an output slice longer than
    the content. *)
Definition inverts (C : codecs) : Prop :=
  forall o x y, enc C o x = Ok y ->
  match o with
  | OGzip _ | OBrotli _ | OZstd _ => stream_dec C (options_compression o) y = x
  | OSnappy => snappy_len C y = Some (nlen x) /\ forall cap, nlen x <= cap -> snappy_dec C y cap = (x, true)
  | OLz4Raw => forall cap, nlen x <= cap -> lz4_dec C y cap = (x, true)
  | OUncompressed | OLzo | OLz4 => True
  end.

(** The page does not claim, in a version 2 header, that its values are stored uncompressed. *)
Definition says_compressed (p : page) : Prop :=
  match p with
  | PData d => match dp_header d with HV2 h => dh2_is_compressed h <> Some false | HV1 _ => True end
  | PDict _ => True
  end.

(** What a call that fills a slice gives its caller: the slice, if the call succeeds. *)
Definition outcome (x : list N * res unit) : res (list N) := rmap (fun _ => fst x) (snd x).

(** The stored bytes [input] decode to all of the [n] bytes they are declared to hold (or fail to decode). Streaming
    decoders always do; block decoders may stop early. *)
Definition fills (C : codecs) (c : compression) (input : list N) (n : N) : Prop :=
  match c with
  | Snappy => forall w, snappy_dec C input n = (w, true) -> nlen w = n
  | Lz4Raw => forall w, lz4_dec C input n = (w, true) -> nlen w = n
  | Lz4 => exists r, forall out, nlen out = n -> outcome (decompress_bytes C Lz4 input out) = r
  | Uncompressed | Gzip | Brotli | Zstd | Lzo => True
  end.
Definition page_fills (C : codecs) (m : mode) (p : compressed_page) : Prop :=
  match p with
  | CDict d => fills C (cdi_compression d) (cdi_buffer d) (cdi_uncompressed_size d)
  | CData d =>
      match cdp_header d with
      | HV1 _ => fills C (cdp_compression d) (cdp_buffer d) (cdp_uncompressed_size d)
      | HV2 h =>
          dh2_is_compressed h <> Some false ->
          forall off, levels_length m h = Ok off -> off <= cdp_uncompressed_size d -> off <= nlen (cdp_buffer d) ->
          fills C (cdp_compression d) (skipn (N.to_nat off) (cdp_buffer d)) (cdp_uncompressed_size d - off)
      end
  end.

(** [R s l]: the page iterator in state [s] will return the items [l] and then nothing more, whatever buffers are
    swapped into it on the way. *)
Definition serves {S} (P : page_iter S) (R : S -> list (compressed_page + error) -> Prop) : Prop :=
  (forall s l b, R s l -> R (fst (pi_swap P s b)) l) /\
  (forall s, R s [] -> exists s', pi_next P s = Ok (None, s') /\ R s' []) /\
  (forall s x l, R s (x :: l) -> exists s', pi_next P s = Ok (Some x, s') /\ R s' l).

(** [scratch s]: the buffer that the page iterator in state [s] holds. It is exchanged by a swap and kept when there is no further page. *)
Definition keeps_scratch {S} (P : page_iter S) (R : S -> list (compressed_page + error) -> Prop) (scratch : S -> list N) : Prop :=
  (forall s b, snd (pi_swap P s b) = scratch s /\ scratch (fst (pi_swap P s b)) = b) /\
  (forall s s', R s [] -> pi_next P s = Ok (None, s') -> scratch s' = scratch s).

(** The buffers to expect back after all pages of a column were decompressed: the one of the page reader holds the stored bytes of the last
    page; the one for decompression holds the decompressed bytes of the last page, or is a new one if the last page was not compressed. *)
Definition buffers_after (page_buffer0 buffer0 : list N) (stored : list compressed_page) (pages : list page) : list N * list N :=
  match rev stored, rev pages with
  | cp :: _, p :: _ => (cp_buffer cp, match cp_compression cp with Uncompressed => [] | _ => page_buffer p end)
  | _, _ => (page_buffer0, buffer0)
  end.

(** Decompressing every page on its own, into a new empty buffer; [n] calls. *)
Fixpoint decompress_each (C : codecs) (m : mode) (l : list (compressed_page + error)) (n : nat)
  : res (list (option page + error)) :=
  match n with
  | O => Ok []
  | S k =>
      match l with
      | [] => let* r := decompress_each C m [] k in Ok (inl None :: r)
      | inr e :: l => let* r := decompress_each C m l k in Ok (inr e :: r)
      | inl cp :: l =>
          match decompress C m 0 cp [] with
          | Ok p => let* r := decompress_each C m l k in Ok (inl (Some p) :: r)
          | Err e => let* r := decompress_each C m l k in Ok (inr e :: r)
          | Panic => Panic
          end
      end
  end.

(** Compressing every page on its own, into a new empty buffer. *)
Fixpoint compress_each (C : codecs) (m : mode) (o : compression_options) (l : list (page + error)) (n : nat)
  : res (list (option compressed_page + error)) :=
  match n with
  | O => Ok []
  | S k =>
      match l with
      | [] => let* r := compress_each C m o [] k in Ok (inl None :: r)
      | inr e :: l => let* r := compress_each C m o l k in Ok (inr e :: r)
      | inl p :: l =>
          match compress C m p [] o with
          | Ok cp => let* r := compress_each C m o l k in Ok (inl (Some cp) :: r)
          | Err e => let* r := compress_each C m o l k in Ok (inr e :: r)
          | Panic => Panic
          end
      end
  end.

(** Hadoop's framing of LZ4 blocks: decompressed and compressed length as big-endian [u32], then the block. A frame is
    a content with its compressed form. *)
Definition be32 (v : N) : list N := [v / 16777216 mod 256; v / 65536 mod 256; v / 256 mod 256; v mod 256].
Definition frame_bytes (f : list N * list N) : list N := be32 (nlen (fst f)) ++ be32 (nlen (snd f)) ++ snd f.
Definition frames_bytes (fs : list (list N * list N)) : list N := concat (map frame_bytes fs).
Definition frames_content (fs : list (list N * list N)) : list N := concat (map fst fs).
(** The block decoder inverts the frame's compression, and the lengths fit their fields. *)
Definition frame_ok (C : codecs) (f : list N * list N) : Prop :=
  nlen (fst f) < two32 /\ nlen (snd f) < two32 /\
  forall cap, nlen (fst f) <= cap -> lz4_dec C (snd f) cap = (fst f, true).
(** Whatever follows a frame is longer than that frame's block. *)
Fixpoint tails_longer (fs : list (list N * list N)) : Prop :=
  match fs with
  | [] | [_] => True
  | f :: r => nlen (snd f) < nlen (frames_bytes r) /\ tails_longer r
  end.

(** A page as somebody who reads it from a column should see it: the descriptor is that of the column, all rows are selected (which
    is how it is stored), and whether a dictionary is sorted is not stored. *)
Definition page_as_read (d : descriptor) (p : page) : page :=
  match p with
  | PData x => PData (mk_dp (dp_header x) (dp_buffer x) d None)
  | PDict x => PDict (mk_dict (di_buffer x) (di_num_values x) false)
  end.
