(** C115: what a file writer gives back. *)
From Verif Require Import Base.Prelude Base.Codec Model.Types Model.Thrift Model.Page Model.Io Model.Schema Model.PageWrite Model.ColumnWrite Model.Metadata Model.FileWrite
  Model.WriterEnd Spec.FileSpec Spec.WriterEndSpec Proofs.FileWriteProofs Proofs.WriterEndProofs Proofs.ThriftCodec Props.PageIo Props.FileWrite.
Open Scope N_scope.

(** For every sequence of writes and ends, none of which panicked: the writer still answers the schema and the options it was made with. If no end
    succeeded, it has no metadata, and asking for the sink with the metadata panics. Else exactly one end succeeded and all later ones were refused;
    the writer answers, whatever followed, the metadata of that end: its version, creator, schema and key-value pairs are those given, it has one row
    group for each write that succeeded before, and its encoding is what the file ended with at that end. Later calls only appended to the file. *)
Theorem writer_gives_back F m s schema stats v created_by l w results :
  calls (fw_call F m) (writer_new s schema stats v created_by) l = (w, results) -> ~ In Panic results ->
  fw_schema w = schema /\ fw_options w = (stats, match v with V1 => 1%Z | V2 => 2%Z end) /\
  ((no_end l results /\ fw_metadata w = None /\ fw_into_inner_and_metadata w = Panic) \/
   exists l1 kv l2 r1 size r2 w1 meta n,
     l = l1 ++ CEnd kv :: l2 /\ results = r1 ++ Ok size :: r2 /\ length r1 = length l1 /\ no_end l1 r1 /\ ends_refused l2 r2 /\
     calls (fw_call F m) (writer_new s schema stats v created_by) (l1 ++ [CEnd kv]) = (w1, r1 ++ [Ok size]) /\
     fw_metadata w = Some meta /\ fw_into_inner_and_metadata w = Ok (fw_into_inner w, meta) /\
     fm_version meta = match v with V1 => 1%Z | V2 => 2%Z end /\ fm_schema meta = sd_into_thrift schema /\ fm_key_value meta = kv /\
     fm_created_by meta = created_by /\ fm_column_orders meta = None /\ fm_encryption meta = None /\ fm_footer_key meta = None /\
     groups_written l1 r1 n /\ length (fm_row_groups meta) = n /\
     ends_with_footer (sk_data (fw_into_inner w1)) (t_enc (f_file F) meta) /\
     exists more, sk_data (fw_into_inner w) = sk_data (fw_into_inner w1) ++ more).
Proof.
  intros H P. destruct (history_ends F m (writer_new s schema stats v created_by) eq_refl eq_refl l w results H P) as ((A & B & C & D) & _ & K).
  cbn in A, B, C, D. split; [ exact A | ]. split; [ unfold fw_options; rewrite B, C; destruct v; reflexivity | ].
  destruct K as [[K1 K2] | (_ & _ & l1 & kv & l2 & r1 & size & r2 & w1 & meta & n & E1 & E2 & L1 & Ca & N1 & N2 & Me & Gi & Gw & Gl & En & Lo)].
  - left. split; [ exact K2 | ]. split; [ exact K1 | ]. unfold fw_into_inner_and_metadata. rewrite K1. reflexivity.
  - right. exists l1, kv, l2, r1, size, r2, w1, meta, n. repeat (split; [ assumption | ]).
    split; [ unfold fw_into_inner_and_metadata; rewrite Me; reflexivity | ]. destruct Gi as (G1 & G2 & G3 & G4 & G5 & G6 & G7). cbn in G1, G2, G4.
    split; [ rewrite G1; destruct v; reflexivity | ]. repeat (split; [ assumption | ]). exact Lo.
Qed.
Print Assumptions writer_gives_back.
(** A row group, a failing write, an end, a write and another end. *)
Example writer_gives_back_case :
  let (w, results) := calls (fw_call wx_formats Checked) (writer_new (mk_sink [] None) wx_schema true V2 (Some [109]))
    [CWrite wx_g1; CWrite [inr Io]; CEnd (Some [mk_kv [107] None]); CWrite wx_g2; CEnd None] in
  match results with [Ok _; Err Io; Ok _; Ok _; Err InvalidParameter] => True | _ => False end /\
  match fw_into_inner_and_metadata w with
  | Ok (s, meta) => fm_version meta = 2%Z /\ fm_key_value meta = Some [mk_kv [107] None] /\ fm_num_rows meta = 5%Z /\ length (fm_row_groups meta) = 1%nat /\
      length (fw_groups w) = 2%nat
  | _ => False
  end.
Proof. vm_compute. repeat split. Qed.

(** The documentation has it that there is metadata as soon as the end was called, and that only a writer that was not ended panics. An end that
    fails on a full sink is a call too, but leaves no metadata. *)
Theorem metadata_after_any_end_refuted : exists s w,
  calls (fw_call wx_formats Checked) (writer_new s wx_schema true V2 None) [CWrite wx_g1; CEnd None] = (w, [Ok 0; Err OutOfSpec]) /\
  fw_metadata w = None /\ fw_into_inner_and_metadata w = Panic.
Proof.
  pose (k := nlen (sk_data (fw_sink (wx_step1 wx_g1)))).
  exists (mk_sink [] (Some (k + 10))), (fst (calls (fw_call wx_formats Checked) (writer_new (mk_sink [] (Some (k + 10))) wx_schema true V2 None) [CWrite wx_g1; CEnd None])).
  vm_compute. repeat split.
Qed.
Print Assumptions metadata_after_any_end_refuted.
