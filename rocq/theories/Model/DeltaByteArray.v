(** Model of /repo/src/encoding/delta_length_byte_array/ and /repo/src/encoding/delta_byte_array/. *)
From Verif Require Import Base.Prelude Base.Iter Model.DeltaBitpacked.
Open Scope N_scope.

(** encoding/delta_length_byte_array/decoder.rs:32-36 [Decoder]. *)
Record dl_decoder := mk_dl {
  dl_bytes : list N;                (* values *)
  dl_lengths : delta_decoder;       (* lengths *)
  dl_total : N                      (* total_length *)
}.

(** encoding/delta_length_byte_array/decoder.rs:39-46 [try_new]. *)
Definition dl_try_new (m : mode) (values : list N) : res dl_decoder :=
  let* lengths := delta_try_new m values in
  Ok (mk_dl values lengths 0).

(** encoding/delta_length_byte_array/decoder.rs:51-55 [into_values] and 60-64 [values]: the same code. *)
Definition dl_values (d : dl_decoder) : res (list N) :=
  if negb (delta_size_hint (dl_lengths d) =? 0) then Panic
  else
    let start := delta_consumed (dl_lengths d) in
    let* r := slice_from start (dl_bytes d) in
    slice_to (N.to_nat (dl_total d)) r.

(** encoding/delta_length_byte_array/decoder.rs:70-80 [next]; [v as u32] and [v as i32] truncate. *)
Definition dl_next (m : mode) (d : dl_decoder) : res (option item * dl_decoder) :=
  let* (o, lengths) := delta_next m (dl_lengths d) in
  match o with
  | Some (inl v) =>
      let* total := uadd m 32 (dl_total d) (of_signed 32 v) in
      Ok (Some (inl (wrap_s 32 v)), mk_dl (dl_bytes d) lengths total)
  | Some (inr e) => Ok (Some (inr e), mk_dl (dl_bytes d) lengths (dl_total d))
  | None => Ok (None, mk_dl (dl_bytes d) lengths (dl_total d))
  end.

(** encoding/delta_length_byte_array/encoder.rs:7-19 [encode]: the bytes appended to [buffer]. The running sum of
    [usize] lengths (line 12) cannot overflow for strings held in memory and is left out. *)
Definition dl_encode (m : mode) (strings : list (list N)) : res (list N) :=
  let* h := delta_encode m (map (fun x => Z.of_nat (length x)) strings) in
  Ok (h ++ concat strings).

(** encoding/delta_byte_array/encoder.rs:13-18: the index of the first difference, or the previous length. *)
Fixpoint first_diff (a b : list N) (i : nat) : option nat :=
  match a, b with
  | x :: a', y :: b' => if x =? y then first_diff a' b' (S i) else Some i
  | _, _ => None
  end.
(** encoding/delta_byte_array/encoder.rs:13-19. *)
Definition prefix_length (item previous : list N) : nat :=
  match first_diff item previous 0 with
  | Some i => i
  | None => length previous
  end.

(** encoding/delta_byte_array/encoder.rs:10-25: the loop computing the prefixes; [sum_lengths] (line 22) is only
    kept for the subtraction and addition that can overflow. *)
Fixpoint db_prefixes (m : mode) (previous : list N) (sum : N) (strings : list (list N)) : res (list nat) :=
  match strings with
  | [] => Ok []
  | item :: r =>
      let p := prefix_length item previous in
      let* d := usub m 64 (nlen item) (N.of_nat p) in
      let* sum := uadd m 64 sum d in
      let* ps := db_prefixes m item sum r in
      Ok (p :: ps)
  end.

(** encoding/delta_byte_array/encoder.rs:28-30: [&item[prefix as usize..]]. *)
Fixpoint db_suffixes (strings : list (list N)) (prefixes : list nat) : res (list (list N)) :=
  match strings, prefixes with
  | item :: r, p :: ps =>
      let* s := slice_from p item in
      let* l := db_suffixes r ps in
      Ok (s :: l)
  | _, _ => Ok []
  end.

(** encoding/delta_byte_array/encoder.rs:6-33 [encode]: the bytes appended to [buffer]. The slices of line 30 are
    taken lazily, but before anything is returned. *)
Definition db_encode (m : mode) (strings : list (list N)) : res (list N) :=
  let* prefixes := db_prefixes m [] 0 strings in
  let* h := delta_encode m (map Z.of_nat prefixes) in
  let* suffixes := db_suffixes strings prefixes in
  let* b := dl_encode m suffixes in
  Ok (h ++ b).

(** encoding/delta_byte_array/decoder.rs:11-14 [Decoder]. *)
Record db_decoder := mk_db {
  db_bytes : list N;                (* values *)
  db_lengths : delta_decoder        (* prefix_lengths *)
}.

(** encoding/delta_byte_array/decoder.rs:17-23 [try_new]. *)
Definition db_try_new (m : mode) (values : list N) : res db_decoder :=
  let* d := delta_try_new m values in
  Ok (mk_db values d).

(** encoding/delta_byte_array/decoder.rs:25-30 [into_lengths]. *)
Definition db_into_lengths (m : mode) (d : db_decoder) : res dl_decoder :=
  if negb (delta_size_hint (db_lengths d) =? 0) then Panic
  else
    let* r := slice_from (delta_consumed (db_lengths d)) (db_bytes d) in
    dl_try_new m r.

(** encoding/delta_byte_array/decoder.rs:36-38 [next]; [x as u32] truncates. *)
Definition db_next (m : mode) (d : db_decoder) : res (option (N + error) * db_decoder) :=
  let* (o, l) := delta_next m (db_lengths d) in
  Ok (match o with
      | Some (inl v) => Some (inl (of_signed 32 v))
      | Some (inr e) => Some (inr e)
      | None => None
      end, mk_db (db_bytes d) l).
