(** Which bytes are a sequence of Hadoop's LZ4 frames, as the crate recognises them. *)
From Verif Require Import Base.Prelude Model.Compression Spec.CompressionSpec.
Open Scope N_scope.

(** [framed C input room content]: the input is a sequence of frames that decompress, one after the other, into [room] bytes, to [content]. Each
    frame but the last is followed by more bytes than its block has. *)
Inductive framed (C : codecs) : list N -> N -> list N -> Prop :=
| framed_none room : framed C [] room []
| framed_last content block room : nlen content < two32 -> nlen block < two32 -> nlen content <= room ->
    lz4_dec C block room = (content, true) ->
    framed C (frame_bytes (content, block)) room content
| framed_more content block room rest more : nlen content < two32 -> nlen block < two32 -> nlen content <= room ->
    lz4_dec C block room = (content, true) -> nlen block < nlen rest ->
    framed C rest (room - nlen content) more ->
    framed C (frame_bytes (content, block) ++ rest) room (content ++ more).
