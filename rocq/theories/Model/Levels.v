(** Model of the compression levels in /repo/src/compression.rs: which level reaches the encoder of a codec. Model/Compression.v leaves the encoders open;
    here they are given their level. *)
From Verif Require Import Base.Prelude Model.Types Model.Compression.
Open Scope N_scope.

(** compression.rs:41-47 (brotli), 59-61 (gzip), 68-73 (snappy), 79-99 (lz4) and 108-116 (zstd). The encoders of the other crates: the bytes they append, for a
    level if they have one. *)
Record leveled := mk_leveled {
  lv_brotli : Z -> list N -> res (list N);
  lv_gzip : Z -> list N -> res (list N);
  lv_zstd : Z -> list N -> res (list N);
  lv_snappy : list N -> res (list N);
  lv_lz4 : list N -> res (list N)
}.
(** parquet_bridge.rs:165-169 [BrotliLevel::default] and compression.rs:39 [unwrap_or_default]. *)
Definition brotli_or_default (l : option Z) : Z := match l with Some z => z | None => 1%Z end.
(** parquet_bridge.rs:194-200 [GzipLevel::default] and compression.rs:58 [unwrap_or_default]. *)
Definition gzip_or_default (l : option Z) : Z := match l with Some z => z | None => 6%Z end.
(** compression.rs:108: the default is the one of [i32], not the one of [ZstdLevel] (parquet_bridge.rs:253-258). *)
Definition zstd_or_default (l : option Z) : Z := match l with Some z => z | None => 0%Z end.
(** compression.rs:28-130 [compress]: what the encoder of the codec is called with. *)
Definition enc_at (L : leveled) (o : compression_options) (x : list N) : res (list N) :=
  match o with
  | OBrotli l => lv_brotli L (brotli_or_default l) x
  | OGzip l => lv_gzip L (gzip_or_default l) x
  | OZstd l => lv_zstd L (zstd_or_default l) x
  | OSnappy => lv_snappy L x
  | OLz4Raw => lv_lz4 L x
  | OUncompressed => Err InvalidParameter
  | OLzo | OLz4 => Err FeatureNotSupported
  end.
(** compression.rs: the codecs with these encoders and the decoders of [C]. *)
Definition at_levels (L : leveled) (C : codecs) : codecs := mk_codecs (enc_at L) (stream_dec C) (snappy_len C) (snappy_dec C) (lz4_dec C).
