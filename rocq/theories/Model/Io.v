(** The outside world of the reader and the writer: thrift structs as bytes, a sink that may fail, a seekable source.
    Nothing here is code of /repo; it is what the crate calls. *)
From Verif Require Import Base.Prelude.
Open Scope N_scope.

(** read/page/reader.rs:247-256, write/page.rs:202-203. The compact thrift protocol of the crate parquet-format-safe for one struct: the bytes written, and the struct read
    with the bytes that remain, given the allocation limit passed to the protocol. *)
Record thrift (X : Type) := mk_thrift {
  t_enc : X -> list N;
  t_dec : N -> list N -> res (X * list N)
}.
Arguments mk_thrift {X}. Arguments t_enc {X}. Arguments t_dec {X}.

(** No code of /repo: a law of the parameter, used by callers such as read/page/reader.rs:247-256. The struct [x] is read back within the limit [max], whatever follows it; a struct has at least one byte. *)
Definition reads_back {X} (T : thrift X) (max : N) (x : X) : Prop :=
  t_enc T x <> [] /\ forall rest, t_dec T max (t_enc T x ++ rest) = Ok (x, rest).

(** write/file.rs:21 and 38: a sink ([std::io::Write]): the bytes it holds and, if it is going to fail, how many more bytes it takes before it
    does. A failing write may have taken some of its bytes. *)
Record sink := mk_sink { sk_data : list N; sk_room : option N }.
(** write/file.rs:20-25: a function of a [Write] sink. *)
Definition writer (A : Type) : Type := sink -> sink * res A.
(** write/file.rs:21 and 38. *)
Definition write_all (bytes : list N) : writer unit := fun s =>
  match sk_room s with
  | None => (mk_sink (sk_data s ++ bytes) None, Ok tt)
  | Some room =>
      if nlen bytes <=? room then (mk_sink (sk_data s ++ bytes) (Some (room - nlen bytes)), Ok tt)
      else (mk_sink (sk_data s ++ firstn (N.to_nat room) bytes) (Some 0), Err OutOfSpec)
  end.
(** write/file.rs:22. *)
Definition wret {A} (a : A) : writer A := fun s => (s, Ok a).
(** write/row_group.rs:107: a result that writes nothing. *)
Definition wres {A} (x : res A) : writer A := fun s => (s, x).
(** write/file.rs:21 and 28: the operator [?]. *)
Definition wbind {A B} (x : writer A) (f : A -> writer B) : writer B := fun s =>
  match x s with
  | (s, Ok a) => f a s
  | (s, Err e) => (s, Err e)
  | (s, Panic) => (s, Panic)
  end.
Notation "'do*' x ':=' e 'in' b" := (wbind e (fun x => b))
  (at level 61, x pattern, e at next level, right associativity) : res_scope.

(** write/file.rs:27-28. Writing a struct; the protocol returns the number of bytes. *)
Definition write_struct {X} (T : thrift X) (x : X) : writer N :=
  do* _ := write_all (t_enc T x) in wret (nlen (t_enc T x)).

(** read/indexes/read.rs:90-94. A seekable source given by all its bytes: what a reader at [start] reads when it asks for [length] bytes, and
    [Seek::seek(SeekFrom::End(-n))] followed by reading [n] bytes. *)
Definition read_at (file : list N) (start length : N) : list N :=
  firstn (N.to_nat length) (skipn (N.to_nat start) file).
(** read/metadata.rs:54-60. *)
Definition read_end (file : list N) (n : N) : list N := skipn (length file - N.to_nat n) file.
