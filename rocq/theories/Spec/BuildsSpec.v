(** Which builds of the crate have which codec. *)
From Verif Require Import Base.Prelude Model.Types Model.Thrift Model.Page Model.Compression Model.Builds Spec.CompressionSpec.
Open Scope N_scope.

(** The codec [c] needs a feature that the build does not have. *)
Inductive lacks (f : features) : compression -> Prop :=
| lacks_brotli : has_brotli f = false -> lacks f Brotli
| lacks_gzip : has_gzip f = false -> lacks f Gzip
| lacks_snappy : has_snappy f = false -> lacks f Snappy
| lacks_zstd : has_zstd f = false -> lacks f Zstd
| lacks_lz4 : has_lz4 f = false -> has_lz4_flex f = false -> lacks f Lz4
| lacks_lz4_raw : has_lz4 f = false -> has_lz4_flex f = false -> lacks f Lz4Raw.
(** The default build. *)
Definition default_build : features := mk_features true true true true false true.
(** [C] stands for the same codec crates as [E]. *)
Definition same_crates (E : encoders) (C : codecs) : Prop := forall o x, enc C o x = outcome (build_compress default_build E o x []).

(** The level bytes of a page of the second version are within the page, compressed or not. *)
Definition levels_within (h : page_header) (size : N) : Prop :=
  match h with
  | HV1 _ => True
  | HV2 x => (0 <= dh2_rep_length x)%Z /\ (0 <= dh2_def_length x)%Z /\ (dh2_rep_length x + dh2_def_length x < 2 ^ 31)%Z /\
             Z.to_N (dh2_rep_length x + dh2_def_length x) <= size
  end.
(** A page of the second version that says that its values are not compressed. *)
Definition stored_as_is (p : compressed_page) : Prop :=
  exists d h, p = CData d /\ cdp_header d = HV2 h /\ dh2_is_compressed h = Some false.
