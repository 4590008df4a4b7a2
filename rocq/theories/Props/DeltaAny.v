(** C91: DELTA_BINARY_PACKED decoding of arbitrary bytes. *)
From Verif Require Import Base.Prelude Base.Iter Spec.Bits Spec.UlebSpec Spec.DeltaAnySpec
  Model.DeltaBitpacked Proofs.DeltaDecProofs Proofs.DeltaAnyProofs.
Open Scope N_scope.

(** C91 is false: an empty buffer, a block size that is no multiple of 128, and a miniblock wider than 64 bits panic, in every build. *)
Theorem delta_decoder_panics_refuted : forall m,
  delta_try_new m [] = Panic /\ delta_try_new m [100; 4; 2; 0] = Panic /\
  delta_try_new m ([128; 1; 4; 2; 0] ++ [0] ++ [65; 0; 0; 0] ++ repeat 0 260) = Panic.
Proof. intros []; repeat split; vm_compute; reflexivity. Qed.
Print Assumptions delta_decoder_panics_refuted.

(** The exact behaviour on every sequence of bytes ([stream_at] in Spec/DeltaAnySpec.v reads the bytes as a whole): which buffers
    cannot be opened, with an error or a panic; for the others, which values are returned one after the other, and whether then the
    iterator ends (with exact hints before, and the number of bytes consumed), returns an error, or panics. Without overflow
    checks, for miniblocks of fewer than 2^56 values. *)
Theorem delta_decoder_any : forall m data, bytes_ok data ->
  (m = Wrapping -> forall bs nmb count first rest, header_at data = Some (bs, nmb, count, first, rest) -> bs / nmb < 2 ^ 56) ->
  match stream_at m data with
  | Refused => delta_try_new m data = Err OutOfSpec
  | OpenAborts => delta_try_new m data = Panic
  | Holds values (Complete rest) => exists s, delta_try_new m data = Ok s /\
      yields (delta_next m) (fun s left => delta_size_hint s = nlen left /\ (left = [] -> delta_consumed s = (length data - length rest)%nat)) s (map inl values)
  | Holds values Failed => exists s s1 s2, delta_try_new m data = Ok s /\ returns (delta_next m) s (map inl values) s1 /\
      delta_next m s1 = Ok (Some (inr OutOfSpec), s2)
  | Holds values Aborts => exists s s1, delta_try_new m data = Ok s /\ returns (delta_next m) s (map inl values) s1 /\ delta_next m s1 = Panic
  end.
Proof.
  intros m data Hok Hsm. pose proof (stream_at_any m data Hok Hsm) as H. destruct (stream_at m data) as [| |values [rest| |]]; try exact H.
  - destruct H as (s & E & s1 & s2 & Hr & Hn). exists s, s1, s2. auto.
  - destruct H as (s & E & s1 & Hr & Hn). exists s, s1. auto.
Qed.
Print Assumptions delta_decoder_any.

(** Twelve values announced; the second miniblock of eight values is cut off, is too wide, or is there. *)
Example delta_decoder_any_case :
  let head := [128; 1; 16; 12; 2] in
  let block := [2] ++ [1; 8] ++ repeat 0 14 ++ [255] in
  bytes_okb (head ++ block) = true /\
  header_at head = Some (128, 16, 12, 1%Z, []) /\
  stream_at Checked (head ++ block ++ [1; 2]) = Holds [1; 3; 5; 7; 9; 11; 13]%Z Failed /\
  stream_at Wrapping (head ++ [2] ++ [1; 65] ++ repeat 0 14 ++ [255] ++ repeat 0 65) = Holds [1; 3; 5; 7; 9; 11; 13]%Z Aborts /\
  stream_at Checked (head ++ block ++ [1; 2; 3; 4; 5; 6; 7; 8; 77]) = Holds [1; 3; 5; 7; 9; 11; 13; 15; 17; 19; 22; 26]%Z (Complete [77]) /\
  stream_at Checked (head ++ [2] ++ repeat 0 5) = Refused /\ stream_at Checked [128; 1; 0] = OpenAborts /\
  (let* s := delta_try_new Checked (head ++ block ++ [1; 2]) in drain (delta_next Checked) 8 s) = Ok (map inl [1; 3; 5; 7; 9; 11; 13]%Z ++ [inr OutOfSpec]).
Proof. vm_compute. repeat split. Qed.

(** Errors are not final: when a further block is missing, calling the iterator again after its error panics. Here 200 values are
    announced and the buffer ends after the first block, of 128 deltas of zero. *)
Theorem delta_after_error_refuted : forall m,
  let data := [128; 1; 1; 200; 1; 0; 0; 0] in
  exists s s1, delta_try_new m data = Ok s /\ drain_st (delta_next m) 129 s = Ok (repeat (inl 0%Z) 128 ++ [inr OutOfSpec], s1) /\ delta_next m s1 = Panic.
Proof. intros []; eexists; eexists; (split; [vm_compute; reflexivity|]); (split; [vm_compute; reflexivity|]); vm_compute; reflexivity. Qed.
Print Assumptions delta_after_error_refuted.
