(** Model of /repo/src/encoding/plain_byte_array.rs, /repo/src/encoding/mod.rs and of the value iterators of
    /repo/src/deserialize/native.rs and deserialize/fixed_len.rs. Items are [A + error]: [inr] is an [Err] item. *)
From Verif Require Import Base.Prelude Base.Iter Model.Native.
Open Scope N_scope.

(** encoding/mod.rs:17-21 [get_length]. *)
Definition get_length (values : list N) : option N :=
  if (4 <=? length values)%nat then Some (le (firstn 4 values)) else None.

(** encoding/plain_byte_array.rs:8-11 [BinaryIter]. *)
Record binary_iter := mk_bi { bi_values : list N; bi_length : option N }.

(** encoding/plain_byte_array.rs:23-40 [next]. *)
Definition bi_next (s : binary_iter) : res (option (list N + error) * binary_iter) :=
  if (length (bi_values s) <? 4)%nat then Ok (None, s)
  else
    let len := option_map (fun x => x - 1) (bi_length s) in       (* [saturating_sub] *)
    let* head := slice_to 4 (bi_values s) in
    let length_ := le head in
    let* values := slice_from 4 (bi_values s) in
    if nlen values <? length_ then Ok (Some (inr OutOfSpec), mk_bi values len)
    else
      let* (result, remaining) := split_at (N.to_nat length_) values in
      Ok (Some (inl result), mk_bi remaining len).

(** encoding/plain_byte_array.rs:43-45 [size_hint]: lower and upper bound. *)
Definition bi_size_hint (s : binary_iter) : N * option N :=
  (match bi_length s with Some n => n | None => 0 end, bi_length s).

(** deserialize/native.rs:23-24 and deserialize/fixed_len.rs:18. [slice.chunks_exact(size)] as an iterator; a zero size panics. *)
Definition ce_new (size : nat) (l : list N) : res (list N * nat) :=
  if (size =? 0)%nat then Panic else Ok (l, size).
(** deserialize/native.rs:12 and deserialize/fixed_len.rs:28: [ChunksExact::next]. *)
Definition ce_next (s : list N * nat) : res (option (list N) * (list N * nat)) :=
  let (l, size) := s in
  if (length l <? size)%nat then Ok (None, s)
  else Ok (Some (firstn size l), (skipn size l, size)).
(** deserialize/fixed_len.rs:33: [ChunksExact::size_hint], both bounds. *)
Definition ce_size_hint (s : list N * nat) : nat := (length (fst s) / snd s)%nat.

(** deserialize/native.rs:15-26 [native_cast], after the page was split into its parts;
    [Casted] is the chunk iterator mapped with [decode]. *)
Definition cast_new (t : native) (values : list N) : res (list N * nat) :=
  if negb (length values mod native_size t =? 0)%nat then Err OutOfSpec
  else ce_new (native_size t) values.
(** deserialize/native.rs:12 and 25: [ChunksExact] mapped with [decode]. *)
Definition cast_next (t : native) (s : list N * nat) : res (option (carrier t) * (list N * nat)) :=
  let* (o, s) := ce_next s in
  match o with
  | None => Ok (None, s)
  | Some chunk => let* v := native_decode t chunk in Ok (Some v, s)
  end.

(** deserialize/fixed_len.rs:17-20 [FixexBinaryIter::new], 27-29 [next], 32-34 [size_hint]. *)
Definition fl_new (values : list N) (size : N) : res (list N * nat) := ce_new (N.to_nat size) values.
(** deserialize/fixed_len.rs:27-29 [next]. *)
Definition fl_next (s : list N * nat) : res (option (list N) * (list N * nat)) := ce_next s.
