(** [BasicDecompressor]: read/compression.rs:225-288. *)
From Verif Require Import Base.Prelude Model.Types Model.Page Model.Compression.
Open Scope N_scope.

(** read/compression.rs:233-238 [is_compressed], implemented for compressed pages. *)
Definition cp_is_compressed (p : compressed_page) : bool := match cp_compression p with Uncompressed => false | _ => true end.

(** read/compression.rs:252-288 [BasicDecompressor]: [advance] followed by [get], once per entry of [buffers]; an error of [advance] is an item too.
    The work is done by the crate [streaming_decompression], which is not part of the repository: each of its [advance] takes the next item of
    the iterator; it passes on an error of the iterator, and otherwise hands the page with its buffer to [decompress] and passes on the outcome.
    Simplification: which buffer that is (the one given to [new], the one of an earlier page, or a new one) is left to that crate, so the model takes
    the contents and the capacity of the buffer at each call from [buffers], which are any. [into_inner] (read/compression.rs:269-272) is not modelled. *)
Fixpoint bd_run {S} (C : codecs) (m : mode) (next : S -> res (option (compressed_page + error) * S)) (buffers : list (N * list N)) (s : S)
  : res (list (option page + error)) :=
  match buffers with
  | [] => Ok []
  | (cap, buffer) :: r =>
      let* (item, s) := next s in
      match item with
      | None => let* l := bd_run C m next r s in Ok (inl None :: l)
      | Some (inr e) => let* l := bd_run C m next r s in Ok (inr e :: l)
      | Some (inl cp) =>
          match decompress C m cap cp buffer with
          | Ok p => let* l := bd_run C m next r s in Ok (inl (Some p) :: l)
          | Err e => let* l := bd_run C m next r s in Ok (inr e :: l)
          | Panic => Panic
          end
      end
  end.
