(** What the kind of an error says. *)
From Verif Require Import Base.Prelude Model.Types Model.Thrift Model.Io.

(** If this fails with an error (rather than a panic), the error is one of [K]. *)
Definition fails_as {A} (K : error -> Prop) (r : res A) : Prop := forall e, r = Err e -> K e.

(** The only error is that the file is out of specification. *)
Definition malformed {A} (r : res A) : Prop := fails_as (fun e => e = OutOfSpec) r.

(** The thrift decoder's errors are turned into that error (error.rs:91-95 in /repo/src). *)
Definition thrift_malformed {X} (T : thrift X) : Prop := forall max s, malformed (t_dec T max s).

(** Some header that the decoder reads (with this limit) announces a page of more bytes than the limit. *)
Definition announces_more (T : thrift t_page_header) (max : N) : Prop :=
  exists source h rest, t_dec T max source = Ok (h, rest) /\ (Z.of_N max < ph_compressed_size h)%Z.
(** What a page reader may complain about: a malformed file, or a page that is too long for the limit. *)
Definition page_complaint (T : thrift t_page_header) (max : N) (e : error) : Prop :=
  e = OutOfSpec \/ (e = WouldOverAllocate /\ announces_more T max).

(** Encodings of values that a page is opened with: plain, and positions in a dictionary if there is one. *)
Definition supported (e : encoding) (has_dict : bool) : Prop :=
  e = EPlain \/ ((e = EPlainDictionary \/ e = ERleDictionary) /\ has_dict = true).
