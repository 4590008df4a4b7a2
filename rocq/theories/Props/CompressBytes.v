(** C40: the functions that compress and decompress bytes, apart from pages. *)
From Verif Require Import Base.Prelude Model.Types Model.Thrift Model.Intervals Model.Page Model.Compression
  Spec.CompressionSpec Proofs.CompressionProofs Props.Compression.
Open Scope N_scope.

(** What compressing bytes gives: the output of the codec behind what the buffer held, or the error of the codec. Asking for no
    compression is an invalid parameter; LZO and the Hadoop flavour of LZ4 cannot be written. *)
Theorem compress_bytes_outcome : forall C o input out,
  match o with
  | OUncompressed => compress_bytes C o input out = Err InvalidParameter
  | OLzo | OLz4 => compress_bytes C o input out = Err FeatureNotSupported
  | OSnappy | OLz4Raw | OGzip _ | OBrotli _ | OZstd _ =>
      (forall y, enc C o input = Ok y -> compress_bytes C o input out = Ok (out ++ y)) /\
      (forall e, enc C o input = Err e -> compress_bytes C o input out = Err e)
  end.
Proof.
  intros C o input out. destruct o; try reflexivity; (split; intros x H; unfold compress_bytes; rewrite H; reflexivity).
Qed.
Print Assumptions compress_bytes_outcome.
Example compress_bytes_outcome_case :
  compress_bytes toy OSnappy [1; 2] [9] = Ok [9; 1; 2; 0] /\ compress_bytes toy OUncompressed [1; 2] [9] = Err InvalidParameter.
Proof. split; reflexivity. Qed.

(** What was appended decompresses to the input, into any buffer of its length. *)
Theorem compress_bytes_round_trip : forall C o input out r, inverts C -> compress_bytes C o input out = Ok r ->
  firstn (length out) r = out /\
  forall buffer, nlen buffer = nlen input ->
    decompress_bytes C (options_compression o) (skipn (length out) r) buffer = (input, Ok tt).
Proof.
  intros C o input out r HC H. destruct (compress_bytes_inv _ _ _ _ _ H) as (Hu & z & He & ->). split.
  - rewrite firstn_app, firstn_all, Nat.sub_diag. cbn [firstn]. apply app_nil_r.
  - intros buffer Hl. rewrite skipn_app, skipn_all, Nat.sub_diag. cbn [skipn app]. apply decompress_bytes_enc; try assumption; intros ->; discriminate H.
Qed.
Print Assumptions compress_bytes_round_trip.
Example compress_bytes_round_trip_case : inverts toy /\ compress_bytes toy OLz4Raw [1; 2] [9] = Ok [9; 1; 2; 0] /\
  decompress_bytes toy Lz4Raw [1; 2; 0] [0; 0] = ([1; 2], Ok tt).
Proof. split; [exact toy_inverts|]. split; reflexivity. Qed.
