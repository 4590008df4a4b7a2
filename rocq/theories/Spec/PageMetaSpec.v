(** What a page should say about itself. *)
From Verif Require Import Base.Prelude Model.Types Model.Thrift Model.Page.
Open Scope Z_scope.

(** The encodings of the Parquet format and their numbers. The number 1 was once that of GROUP_VAR_INT and is not used. *)
Inductive names : Z -> encoding -> Prop :=
| names_plain : names 0 EPlain
| names_plain_dictionary : names 2 EPlainDictionary
| names_rle : names 3 ERle
| names_bit_packed : names 4 EBitPacked
| names_delta_binary_packed : names 5 EDeltaBinaryPacked
| names_delta_length_byte_array : names 6 EDeltaLengthByteArray
| names_delta_byte_array : names 7 EDeltaByteArray
| names_rle_dictionary : names 8 ERleDictionary
| names_byte_stream_split : names 9 EByteStreamSplit.

(** A question for the encoding with number [z] is answered by its name, or by a panic if there is none. *)
Definition answers (z : Z) (r : res encoding) : Prop :=
  (exists e, names z e /\ r = Ok e) \/ ((forall e, ~ names z e) /\ r = Panic).

(** The number that stands in the header as the number of values. *)
Definition announced (h : page_header) : Z := match h with HV1 x => dh_num_values x | HV2 x => dh2_num_values x end.
(** The statistics that stand in the header. *)
Definition stored_statistics (h : page_header) : option t_statistics := match h with HV1 x => dh_statistics x | HV2 x => dh2_statistics x end.
