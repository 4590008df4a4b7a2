(** The DELTA_BINARY_PACKED encoding of the Parquet format:
      stream     := varint(block size) varint(miniblocks per block) varint(total count)
                    zigzag(first value) block*
      block      := zigzag(min delta) width* miniblock*
    A block holds [miniblocks * v] deltas ([v] values per miniblock), the last one possibly fewer; the
    miniblocks of the last block that hold no delta are absent although their widths are stored; a partly
    used miniblock has its full size. Additions wrap at 64 bits. *)
From Verif Require Import Base.Prelude Spec.Bits Spec.UlebSpec Spec.RleSpec.
Open Scope N_scope.

(** [z] as a zigzag varint: 0, -1, 1, -2, ... are 0, 1, 2, 3, ... *)
Definition zigzag_code (z : Z) : N := if (0 <=? z)%Z then Z.to_N (2 * z) else Z.to_N (- 2 * z - 1).
Definition zigzag_varint (z : Z) (h : list N) : Prop :=
  (- 2 ^ 63 <= z < 2 ^ 63)%Z /\ varint (zigzag_code z) h.

(** [miniblocks v widths ds bytes]: the relative deltas [ds] laid out in miniblocks of [v] values. *)
Inductive miniblocks (v : nat) : list N -> list N -> list N -> Prop :=
| mb_done widths : miniblocks v widths [] []
| mb_cons w widths ds body rest :
    ds <> [] -> (w <= 64)%nat -> Forall (fits w) (firstn v ds) ->
    bytes_ok body -> (8 * length body = v * w)%nat ->
    firstn (length (firstn v ds) * w) (bit_stream body) = flat_map (lsb_bits w) (firstn v ds) ->
    miniblocks v widths (skipn v ds) rest ->
    miniblocks v (N.of_nat w :: widths) ds (body ++ rest).

(** A block is its minimum delta and its relative deltas. *)
Definition dblock := (Z * list N)%type.

Inductive blocks (nmb v : nat) : list dblock -> list N -> Prop :=
| bs_nil : blocks nmb v [] []
| bs_cons mn ds h widths body bl rest :
    zigzag_varint mn h -> bytes_ok widths -> length widths = nmb ->
    ds <> [] -> (length ds <= nmb * v)%nat -> (bl <> [] -> length ds = nmb * v)%nat ->
    miniblocks v widths ds body ->
    blocks nmb v bl rest ->
    blocks nmb v ((mn, ds) :: bl) (h ++ widths ++ body ++ rest).

(** The values of a stream: each value is the previous one plus a delta, wrapping. *)
Definition block_deltas (b : dblock) : list Z :=
  map (fun d => wrap_s 64 (fst b + to_signed 64 d)) (snd b).
Definition stream_deltas (bl : list dblock) : list Z := flat_map block_deltas bl.
Fixpoint running (first : Z) (deltas : list Z) : list Z :=
  match deltas with
  | [] => [first]
  | d :: r => first :: running (wrap_s 64 (first + d)) r
  end.
Definition stream_values (count : nat) (first : Z) (bl : list dblock) : list Z :=
  match count with
  | O => []
  | S _ => running first (stream_deltas bl)
  end.

Inductive delta_stream (nmb v count : nat) (first : Z) (bl : list dblock) : list N -> Prop :=
| ds_intro block_size h1 h2 h3 h4 body :
    block_size mod 128 = 0 -> N.of_nat nmb * N.of_nat v = block_size -> (0 < nmb)%nat -> (0 < v)%nat -> (v mod 8 = 0)%nat ->
    varint block_size h1 -> varint (N.of_nat nmb) h2 -> varint (N.of_nat count) h3 ->
    zigzag_varint first h4 ->
    (count - 1 = length (stream_deltas bl))%nat ->
    blocks nmb v bl body ->
    delta_stream nmb v count first bl (h1 ++ h2 ++ h3 ++ h4 ++ body).

(** No addition of the decoder leaves the 64-bit range (only matters with overflow checks on). *)
Fixpoint running_in_range (first : Z) (deltas : list Z) : Prop :=
  match deltas with
  | [] => True
  | d :: r => in_s 64 (first + d) = true /\ running_in_range (first + d) r
  end.
Definition adds_in_range (first : Z) (bl : list dblock) : Prop :=
  Forall (fun b => Forall (fun d => in_s 64 (fst b + to_signed 64 d) = true) (snd b)) bl /\
  running_in_range first (stream_deltas bl).

(** When encoding cannot overflow: consecutive items differ by a 64-bit signed number, and within each
    run of 128 differences (one block) any two differ by a 64-bit signed number. *)
Fixpoint differences (l : list Z) : list Z :=
  match l with
  | [] => []
  | x :: r => match r with [] => [] | y :: _ => (y - x)%Z :: differences r end
  end.
Definition differences_fit (items : list Z) : Prop :=
  Forall (fun d => in_s 64 d = true) (differences items) /\
  forall k a b, In a (firstn 128 (skipn (128 * k) (differences items))) ->
                In b (firstn 128 (skipn (128 * k) (differences items))) -> in_s 64 (a - b) = true.
