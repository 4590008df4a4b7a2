(** The two delta encodings of byte strings of the Parquet format:
      DELTA_LENGTH_BYTE_ARRAY := DELTA_BINARY_PACKED(lengths) bytes of the strings one after the other
      DELTA_BYTE_ARRAY        := DELTA_BINARY_PACKED(prefix lengths) DELTA_LENGTH_BYTE_ARRAY(suffixes) *)
From Verif Require Import Base.Prelude Spec.DeltaSpec Spec.StringsSpec.

(** [data] is a DELTA_BINARY_PACKED stream of [numbers], with any number of miniblocks per block and any miniblock
    size. With overflow checks on ([m = Checked]) adding up the deltas must moreover stay within 64 bits. *)
Definition number_stream (m : mode) (numbers : list Z) (data : list N) : Prop :=
  exists nmb v first bl, delta_stream nmb v (length numbers) first bl data /\
    stream_values (length numbers) first bl = numbers /\
    (m = Wrapping \/ adds_in_range first bl).

Definition length_stream (m : mode) (strings : list (list N)) (data : list N) : Prop :=
  exists h, number_stream m (map (fun x => Z.of_nat (length x)) strings) h /\ data = h ++ concat strings.

Definition prefix_stream (m : mode) (prefixes : list nat) (suffixes : list (list N)) (data : list N) : Prop :=
  exists h rest, number_stream m (map Z.of_nat prefixes) h /\ length_stream m suffixes rest /\ data = h ++ rest.
