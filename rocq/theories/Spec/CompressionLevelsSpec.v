(** Compression levels: which options somebody can have, which levels a codec may be given, and codecs that invert their encoders at these levels. *)
From Verif Require Import Base.Prelude Model.Types Model.Thrift Model.Page Model.Compression Model.Levels Spec.CompressionSpec.
Open Scope N_scope.

(** The options that can be made with the crate: a level comes from one of the constructors (or is the default of brotli or gzip). *)
Definition can_be_made (o : compression_options) : Prop :=
  match o with
  | OBrotli (Some l) => l = 1%Z \/ exists z, brotli_level z = Ok l
  | OGzip (Some l) => l = 6%Z \/ exists z, gzip_level z = Ok l
  | OZstd (Some l) => exists z, zstd_level z = Ok l
  | _ => True
  end.
(** The levels that the codec of another crate may be given; 0 asks zstd for its own default. *)
Definition level_fits (c : compression) (z : Z) : Prop :=
  match c with
  | Brotli => (0 <= z <= 11)%Z
  | Gzip => (0 <= z <= 10)%Z
  | Zstd => (0 <= z <= 22)%Z
  | _ => False
  end.
(** The level that the options ask for. *)
Definition level_asked (o : compression_options) : option Z :=
  match o with OBrotli l | OGzip l | OZstd l => l | _ => None end.
(** The decoders of [C] undo the encoders, at each level that may be given; at other levels nothing is known. *)
Definition inverts_at (L : leveled) (C : codecs) : Prop :=
  (forall z x y, level_fits Brotli z -> lv_brotli L z x = Ok y -> stream_dec C Brotli y = x) /\
  (forall z x y, level_fits Gzip z -> lv_gzip L z x = Ok y -> stream_dec C Gzip y = x) /\
  (forall z x y, level_fits Zstd z -> lv_zstd L z x = Ok y -> stream_dec C Zstd y = x) /\
  (forall x y, lv_snappy L x = Ok y -> snappy_len C y = Some (nlen x) /\ forall cap, nlen x <= cap -> snappy_dec C y cap = (x, true)) /\
  (forall x y, lv_lz4 L x = Ok y -> forall cap, nlen x <= cap -> lz4_dec C y cap = (x, true)).
(** The page [cp] is [p], compressed with some options that can be made. *)
Definition compressed_somehow (L : leveled) (C : codecs) (m : mode) (p : page) (cp : compressed_page) : Prop :=
  exists o, can_be_made o /\ compress (at_levels L C) m p [] o = Ok cp /\ (o <> OUncompressed -> says_compressed p).
