(** C47, C48, C50, C51, C55 (writer), C69, C84: written files and histories of calls of the file writer. *)
From Coq Require Import Sorting.Sorted.
From Verif Require Import Base.Prelude Base.LeFacts Base.Codec Model.Types Model.Thrift Model.Intervals Model.Page Model.Io Model.Statistics
  Model.PageWrite Model.ColumnWrite Model.Schema Model.PageRead Model.Metadata Model.Indexes Model.FileWrite Spec.PagesSpec Spec.ChunkSpec Spec.SchemaSpec
  Spec.MetadataSpec Spec.RowsSpec Spec.FileSpec Proofs.SchemaProofs Proofs.MetadataProofs Proofs.FileWriteProofs Proofs.ThriftCodec Props.PageIo Props.Schema.
Open Scope N_scope.

(** For the examples: two columns, and two row groups for them (of 5 and of 2 rows) whose data pages have statistics. *)
Definition wx_formats := mk_formats ex_header ex_column_meta ex_file_meta ex_offset_index ex_column_index.
Definition wx_b := mk_prim (mk_fi [98] Required None) None None Int64.
Definition wx_fields := [Primitive (d_primitive io_desc); Primitive wx_b].
Definition wx_schema := mk_sd [114] wx_fields (columns_of wx_fields).
Definition wx_stats (n : Z) (min max : list N) := mk_tstats None None (Some n) None (Some max) (Some min).
Definition wx_a1 :=
  CData (mk_cdp (HV1 (mk_tdh 3 8 3 3 (Some (wx_stats 1 [1; 0; 0; 0] [7; 0; 0; 0])))) [9; 9; 9] Snappy 12 io_desc (Some [mk_iv 0 3])).
Definition wx_b_page (n : N) :=
  CData (mk_cdp (HV1 (mk_tdh (Z.of_N n) 0 3 3 (Some (wx_stats 0 [1; 0; 0; 0; 0; 0; 0; 0] [2; 0; 0; 0; 0; 0; 0; 0])))) (repeat 4 (N.to_nat n)) Gzip n
    (mk_descr wx_b 0 0) (Some [mk_iv 0 n])).
Definition wx_g1 : row_group_iter := [inl (map inl [io_dict; wx_a1; io_v2]); inl (map inl [wx_b_page 5])].
Definition wx_g2 : row_group_iter := [inl (map inl [io_v2]); inl (map inl [wx_b_page 1; wx_b_page 1])].
Definition wx_size (r : res N) : N := match r with Ok n => n | _ => 0 end.
Definition wx_new := fw_new (mk_sink [] None) wx_schema true 2 (Some [109]).
Definition wx_step1 (g : row_group_iter) := fst (fw_write wx_formats Checked wx_new g).
Lemma wx_good : good_schema wx_schema.
Proof.
  unfold good_schema, wx_schema, wx_fields. cbn [sd_fields sd_leaves].
  refine (conj _ (conj _ (conj _ (conj _ (conj _ _))))); [ discriminate | reflexivity | | reflexivity | | ].
  - repeat constructor.
  - intros f u Hf Hw. destruct Hf as [<-|[<-|[]]]; inversion Hw; subst; (split; [ reflexivity | repeat constructor ]).
  - intros f i l c fs Hf. destruct Hf as [<-|[<-|[]]]; intros Hw; inversion Hw.
Qed.

(** * C47 *)

(** After any history of row groups written, and the end: the file starts and ends with the magic bytes, every chunk is where the
    metadata says, and the chunks do not overlap and are in order. *)
Theorem file_locates_chunks F m s schema stats version created_by gs w kv w' size :
  sk_data s = [] -> history F m (fw_new s schema stats version created_by) gs w -> fw_end F m w kv = (w', Ok size) ->
  nlen (sk_data (fw_sink w')) < 2 ^ 63 ->
  let file := sk_data (fw_sink w') in
  exists meta, fw_metadata w' = Some meta /\
    (exists middle, file = [80; 65; 82; 49] ++ middle ++ [80; 65; 82; 49]) /\
    Forall2 (fun g rg => Forall2 (chunk_at F file) (combine (sd_leaves schema) g) (rg_columns rg)) gs (fm_row_groups meta) /\
    StronglySorted before (ranges (fm_row_groups meta)) /\
    Forall (fun r => 4 <= fst r /\ fst r + snd r + nlen (t_enc (f_file F) meta) + 8 <= nlen file) (ranges (fm_row_groups meta)) /\
    (nlen (t_enc (f_file F) meta) < 2 ^ 31 -> size = nlen file).
Proof.
  intros Hs Hh He Hlen file.
  destruct (file_ended _ _ _ _ _ _ _ _ _ _ _ _ Hs Hh He Hlen) as (meta & Hmeta & Hended & _ & _ & Hsize).
  exists meta. split; [ exact Hmeta | ].
  destruct Hended as (rgs1 & rgs2 & specs & h1 & h2 & h3 & rows & Hmag & Hl & Hc & Ho & _ & _ & _ & pre & Hp & Hp4 & Hf). fold file in Hmag, Hl, Hc, Ho, Hf, Hsize, Hlen. cbn [fw_schema fw_statistics fw_new] in *.
  split; [ | split; [ eapply laid_groups_chunks; exact Hl | ] ].
  { destruct Hmag as (pre0 & post & E & E0). assert (pre0 = []) as -> by (destruct pre0; [ reflexivity | unfold nlen in E0; cbn in E0; lia ]). cbn [app] in E.
    rewrite Hf in E. destruct pre as [|b1 [|b2 [|b3 [|b4 pre]]]]; try (unfold nlen in Hp4; cbn in Hp4; lia). cbn [app] in E. injection E as -> -> -> -> _.
    exists (pre ++ t_enc (f_file F) meta ++ to_le 4 (of_signed 32 (as_i32 (nlen (t_enc (f_file F) meta))))). rewrite Hf. cbn [app]. rewrite <- !app_assoc. reflexivity. }
  destruct (laid_groups_ranges _ _ _ _ _ _ _ _ _ _ Hl) as [R1 R2]. split; [ exact R1 | ]. split; [ | exact Hsize ].
  eapply Forall_impl; [ | exact R2 ]. intros r [r1 r2]. split; [ exact r1 | ].
  assert (h1 <= h2) by (destruct stats; [ eapply indexed_groups_le; exact Hc | destruct Hc as [_ ->]; lia ]).
  pose proof (indexed_groups_le _ _ _ _ _ _ _ _ Ho). rewrite Hf, !nlen_app. unfold nlen at 4. rewrite to_le_length. change (nlen magic) with 4. lia.
Qed.
Print Assumptions file_locates_chunks.

(** The example: the second row group is tried three times, the first two attempts fail without writing anything of it. *)
Definition wx_written : file_writer :=
  let w := fst (fw_write wx_formats Checked wx_new wx_g1) in
  fst (fw_write wx_formats Checked w wx_g2).
Definition wx_ended : file_writer * res N := fw_end wx_formats Checked wx_written (Some [mk_kv [107] None]).
Definition wx_file : list N := sk_data (fw_sink (fst wx_ended)).
Definition wx_meta : t_file_meta := match fw_metadata (fst wx_ended) with Some t => t | None => mk_tfm 0 [] 0 [] None None None None None end.
Lemma wx_history : history wx_formats Checked wx_new [wx_g1; wx_g2] wx_written.
Proof.
  eapply history_failed with (g := [inr Io]); [ vm_compute; reflexivity | right; split; reflexivity | ].
  eapply history_ok; [ vm_compute; reflexivity | ].
  eapply history_failed with (g := [inl [inr Io]]); [ vm_compute; reflexivity | left; reflexivity | ].
  eapply history_ok; [ vm_compute; reflexivity | ].
  assert (E : forall a b : file_writer, a = b -> history wx_formats Checked a [] b) by (intros a b ->; constructor).
  apply E. vm_compute. reflexivity.
Qed.
Example file_locates_chunks_witness :
  history wx_formats Checked wx_new [wx_g1; wx_g2] wx_written /\ snd wx_ended = Ok (nlen wx_file) /\
  map (fun r => snd r) (ranges (fm_row_groups wx_meta)) <> [] /\ length (ranges (fm_row_groups wx_meta)) = 4%nat.
Proof. split; [ exact wx_history | ]. vm_compute. split; [ reflexivity | ]. split; [ discriminate | reflexivity ]. Qed.

(** * C84 *)

(** Each row group of a written file carries a summary of its chunks (where the first begins, their sizes before and after compression)
    and its position in the file, unless that does not fit 16 bits. *)
Theorem written_groups_summarised F m s schema stats version created_by gs w kv w' size :
  sk_data s = [] -> history F m (fw_new s schema stats version created_by) gs w -> fw_end F m w kv = (w', Ok size) ->
  nlen (sk_data (fw_sink w')) < 2 ^ 63 ->
  exists meta, fw_metadata w' = Some meta /\ length (fm_row_groups meta) = length gs /\
    forall k rg, nth_error (fm_row_groups meta) k = Some rg ->
      summarises rg /\ rg_sorting rg = None /\ rg_ordinal rg = (if (Z.of_nat k <? 32768)%Z then Some (Z.of_nat k) else None) /\
      exists metas, Forall2 (fun c meta => cc_meta c = Some meta) (rg_columns rg) metas /\
        rg_total_byte_size rg = fold_right (fun meta z => (cm_uncompressed_size meta + z)%Z) 0%Z metas.
Proof.
  intros Hs Hh He Hlen. destruct (file_ended _ _ _ _ _ _ _ _ _ _ _ _ Hs Hh He Hlen) as (meta & Hmeta & Hended & _).
  exists meta. split; [ exact Hmeta | ]. destruct Hended as (rgs1 & rgs2 & specs & h1 & h2 & h3 & rows & _ & Hl & _).
  split; [ exact (proj1 (laid_groups_length _ _ _ _ _ _ _ _ _ _ Hl)) | ]. exact (laid_groups_summarised _ _ _ _ _ _ _ _ _ _ Hl).
Qed.
Print Assumptions written_groups_summarised.
Example written_groups_summarised_witness :
  history wx_formats Checked wx_new [wx_g1; wx_g2] wx_written /\ snd wx_ended = Ok (nlen wx_file) /\
  map rg_ordinal (fm_row_groups wx_meta) = [Some 0%Z; Some 1%Z] /\
  (exists a b, map rg_file_offset (fm_row_groups wx_meta) = [Some 4%Z; Some b] /\ rg_compressed_size (hd (mk_trg [] 0 0 None None None None) (fm_row_groups wx_meta)) = Some a /\ (4 + a < b)%Z).
Proof. split; [ exact wx_history | ]. vm_compute. split; [ reflexivity | ]. split; [ reflexivity | ]. do 2 eexists. split; [ reflexivity | ]. split; reflexivity. Qed.

(** * C48 *)

(** Opening a written file returns what was written: the schema, the key-value metadata, the rows, and for each row group the chunks of
    its columns; whatever the size of the metadata (below 2 GiB). The schema must be one that can be stored and each row group must have
    a column for each column of the schema. *)
Theorem written_file_opens F m s schema stats version created_by gs w kv w' size :
  sk_data s = [] -> history F m (fw_new s schema stats version created_by) gs w -> fw_end F m w kv = (w', Ok size) ->
  nlen (sk_data (fw_sink w')) < 2 ^ 63 ->
  good_schema schema -> Forall (fun g => (length (sd_leaves schema) <= length g)%nat) gs ->
  file_rows schema gs < 2 ^ 63 ->
  exists meta, fw_metadata w' = Some meta /\
    (nlen (t_enc (f_file F) meta) < 2 ^ 31 -> reads_back (f_file F) (2 * (nlen (t_enc (f_file F) meta) + 8) + 1024) meta ->
     exists md, read_metadata (f_file F) m (sk_data (fw_sink w')) = Ok md /\ fmd_schema md = schema /\ fmd_version md = version /\
       fmd_created_by md = created_by /\ fmd_key_value md = kv /\ fmd_num_rows md = file_rows schema gs /\ fmd_column_orders md = None /\
       Forall2 (same_row_group schema) (fm_row_groups meta) (fmd_row_groups md)).
Proof.
  intros Hs Hh He Hlen Hgood Hcols Hrows. destruct (file_ended _ _ _ _ _ _ _ _ _ _ _ _ Hs Hh He Hlen) as (meta & Hmeta & Hended & _).
  exists meta. split; [ exact Hmeta | ]. intros Hsz Hback. exact (ended_open _ _ _ _ _ _ _ Hended Hlen Hgood Hcols Hrows Hsz Hback).
Qed.
Print Assumptions written_file_opens.
Lemma wx_meta_ok : cok c_file_meta wx_meta.
Proof. refine (of_codec_sound c_file_meta 0 (t_enc ex_file_meta wx_meta) wx_meta [] _). vm_compute. reflexivity. Qed.
Example written_file_opens_witness :
  good_schema wx_schema /\ file_rows wx_schema [wx_g1; wx_g2] = 7 /\
  reads_back ex_file_meta (2 * (nlen (t_enc ex_file_meta wx_meta) + 8) + 1024) wx_meta /\
  match read_metadata ex_file_meta Checked wx_file with
  | Ok md => (fmd_num_rows md, map rgm_num_rows (fmd_row_groups md)) = (7, [5; 2])
  | _ => False
  end.
Proof.
  split; [ exact wx_good | ]. split; [ vm_compute; reflexivity | ]. split; [ | vm_compute; reflexivity ].
  apply (of_codec_reads_back c_file_meta). exact wx_meta_ok.
Qed.

(** A row group with fewer columns than the schema is accepted, and the file ended; it cannot be opened. (Columns beyond those of the
    schema are dropped without an error.) *)
Theorem missing_columns_refuted : exists g w w' size,
  length g = 1%nat /\ length (sd_leaves wx_schema) = 2%nat /\
  fw_write wx_formats Checked wx_new g = (w, Ok tt) /\ fw_end wx_formats Checked w None = (w', Ok size) /\
  read_metadata ex_file_meta Checked (sk_data (fw_sink w')) = Err OutOfSpec.
Proof.
  set (g := [inl (map inl [wx_a1])] : row_group_iter).
  exists g, (wx_step1 g), (fst (fw_end wx_formats Checked (wx_step1 g) None)), (wx_size (snd (fw_end wx_formats Checked (wx_step1 g) None))).
  split; [ reflexivity | ]. split; [ reflexivity | ]. split; [ vm_compute; reflexivity | ]. split; vm_compute; reflexivity.
Qed.
Print Assumptions missing_columns_refuted.
Theorem extra_columns_dropped F m w g more : length g = length (sd_leaves (fw_schema w)) -> fw_write F m w (g ++ more) = fw_write F m w g.
Proof.
  intros Hg. unfold fw_write. destruct (fw_maybe_start w) as [w1 [u|e|]] eqn:E; [ | reflexivity | reflexivity ].
  assert (fw_schema w1 = fw_schema w) as Hs.
  { unfold fw_maybe_start, fw_start in E. destruct (fw_offset w =? 0); [ | injection E as <- _; reflexivity ].
    destruct (write_all magic (fw_sink w)) as [s [|x|]]; injection E as <- _; reflexivity. }
  unfold write_row_group. rewrite Hs.
  assert (Hw : forall ds g off s, length g = length ds -> write_columns F m off ds (g ++ more) s = write_columns F m off ds g s).
  { clear. induction ds as [|d ds IH]; intros [|c g] off s H; try discriminate H; [ destruct more as [|[] ]; reflexivity | ].
    cbn [app write_columns]. destruct c as [l|e]; [ | reflexivity ]. unfold wbind.
    destruct (write_column_chunk (f_header F) (f_column F) m off d l s) as [s1 [[[c sp] n]|e|]]; [ | reflexivity | reflexivity ].
    rewrite IH by (injection H as H; exact H). reflexivity. }
  unfold wbind. rewrite (Hw _ _ _ _ Hg). reflexivity.
Qed.
Print Assumptions extra_columns_dropped.
Example extra_columns_dropped_witness :
  length wx_g1 = 2%nat /\ snd (fw_write wx_formats Checked wx_new (wx_g1 ++ [inr Io])) = Ok tt.
Proof. split; [ reflexivity | vm_compute; reflexivity ]. Qed.

(** * C50 *)

(** After a successful end, and whatever calls follow, another end is an error that changes nothing. *)
Theorem second_end_rejected F m w kv w' size later w'' results kv' :
  fw_end F m w kv = (w', Ok size) -> calls (fw_call F m) w' later = (w'', results) ->
  fw_end F m w'' kv' = (w'', Err InvalidParameter).
Proof.
  intros H1 H2. apply fw_end_finished in H1 as [Hs Ho]. destruct (finished_calls _ _ _ _ _ _ Hs Ho H2). apply finished_end; assumption.
Qed.
Print Assumptions second_end_rejected.
Example second_end_witness :
  snd wx_ended = Ok (nlen wx_file) /\
  snd (calls (fw_call wx_formats Checked) (fst wx_ended) [CEnd None; CWrite wx_g2; CEnd None]) = [Err InvalidParameter; Ok 0; Err InvalidParameter].
Proof. split; vm_compute; reflexivity. Qed.

(** A row group can be written after the end: the call succeeds, the file can no longer be opened, nor can it be ended again. *)
Theorem write_after_end_refuted : exists w size w',
  fw_end wx_formats Checked wx_written None = (w, Ok size) /\ fw_write wx_formats Checked w wx_g2 = (w', Ok tt) /\
  sk_data (fw_sink w') <> sk_data (fw_sink w) /\
  is_ok (read_metadata ex_file_meta Checked (sk_data (fw_sink w))) = true /\
  read_metadata ex_file_meta Checked (sk_data (fw_sink w')) = Err OutOfSpec /\
  forall kv, fw_end wx_formats Checked w' kv = (w', Err InvalidParameter).
Proof.
  destruct (fw_end wx_formats Checked wx_written None) as [w r] eqn:E1. destruct r as [size|e|]; [ | vm_compute in E1; discriminate E1 | vm_compute in E1; discriminate E1 ].
  exists w, size. destruct (fw_write wx_formats Checked w wx_g2) as [w' r] eqn:E2. pose proof (fw_end_finished _ _ _ _ _ _ E1) as [Hs Ho].
  destruct (finished_write _ _ _ _ _ _ Hs Ho E2) as [Hs' Ho'].
  assert (E3 : w = fst (fw_end wx_formats Checked wx_written None)) by (rewrite E1; reflexivity).
  assert (E4 : (w', r) = fw_write wx_formats Checked (fst (fw_end wx_formats Checked wx_written None)) wx_g2) by (rewrite <- E3, E2; reflexivity).
  assert (E5 : r = Ok tt) by (apply (f_equal snd) in E4; cbn [snd] in E4; rewrite E4; vm_compute; reflexivity).
  apply (f_equal fst) in E4. cbn [fst] in E4. subst r. exists w'. split; [ reflexivity | ]. split; [ reflexivity | ].
  split; [ | split; [ rewrite E3; vm_compute; reflexivity | split; [ rewrite E4; vm_compute; reflexivity | ] ] ].
  - intros E. apply (f_equal (@length _)) in E. rewrite E4, E3 in E. vm_compute in E. discriminate E.
  - intros kv. apply finished_end; assumption.
Qed.
Print Assumptions write_after_end_refuted.

(** * C51 *)

(** A write that fails after it wrote something leaves the writer with a wrong position: a row group written afterwards is not where the
    metadata says. (A write that fails before it wrote anything does no harm: the histories of [file_locates_chunks] have such writes.) *)
Theorem failed_write_refuted : exists w1 w2 w3 size meta rg c cm,
  fw_write wx_formats Checked wx_new [inl (map inl [wx_a1]); inr Io] = (w1, Err Io) /\
  fw_write wx_formats Checked w1 [inl (map inl [wx_a1; io_v2]); inl (map inl [wx_b_page 5])] = (w2, Ok tt) /\
  fw_end wx_formats Checked w2 None = (w3, Ok size) /\ fw_metadata w3 = Some meta /\
  fm_row_groups meta = [rg] /\ nth_error (rg_columns rg) 0 = Some c /\ cc_meta c = Some cm /\
  is_ok (read_metadata ex_file_meta Checked (sk_data (fw_sink w3))) = true /\
  read_at (sk_data (fw_sink w3)) (chunk_start cm) (chunk_length cm) <> chunk_bytes ex_header [wx_a1; io_v2] /\
  size <> nlen (sk_data (fw_sink w3)).
Proof.
  set (w1 := wx_step1 [inl (map inl [wx_a1]); inr Io]).
  set (w2 := fst (fw_write wx_formats Checked w1 [inl (map inl [wx_a1; io_v2]); inl (map inl [wx_b_page 5])])).
  set (p3 := fw_end wx_formats Checked w2 None).
  set (meta := match fw_metadata (fst p3) with Some t => t | None => wx_meta end).
  set (rg := match fm_row_groups meta with rg :: _ => rg | [] => mk_trg [] 0 0 None None None None end).
  set (c := match rg_columns rg with c :: _ => c | [] => mk_tcc None 0 None None None None None None None end).
  set (cm := match cc_meta c with Some cm => cm | None => mk_tcm 0 [] [] 0 0 0 0 None 0 None None None None None end).
  exists w1, w2, (fst p3), (wx_size (snd p3)), meta, rg, c, cm.
  repeat (split; [ vm_compute; reflexivity | ]). split; intros H; vm_compute in H; discriminate H.
Qed.
Print Assumptions failed_write_refuted.

(** * C55 *)

(** The asynchronous writer does what the synchronous one does, for all calls up to the first end that succeeds, and that end writes the
    same bytes and returns the same size. *)
Theorem async_writer_matches F m w l w' results kv :
  calls (fw_call F m) w l = (w', results) ->
  Forall2 (fun c r => match c with CEnd _ => exists e, r = Err e | CWrite _ => True end) l results ->
  calls (fs_call F m) w l = (w', results) /\
  snd (fs_end F m w' kv) = snd (fw_end F m w' kv) /\ fw_sink (fst (fs_end F m w' kv)) = fw_sink (fst (fw_end F m w' kv)).
Proof.
  assert (Hlast : forall w, (snd (fs_end F m w kv) = snd (fw_end F m w kv) /\ fw_sink (fst (fs_end F m w kv)) = fw_sink (fst (fw_end F m w kv)))).
  { clear. intros w. unfold fs_end, fw_end. destruct (fw_maybe_start w) as [w1 [u|e|]]; try (split; reflexivity).
    destruct (fw_state w1); try (split; reflexivity). destruct (total_rows m 0 (fw_groups w1)); try (split; reflexivity).
    destruct (fw_indexes F m w1) as [w2 [u2|e|]]; try (split; reflexivity). cbv zeta.
    destruct (end_file (f_file F) m (fw_thrift w2 a kv) (fw_sink w2)) as [s [n|e|]]; split; reflexivity. }
  intros H HF. split; [ | apply Hlast ]. revert w w' results H HF.
  induction l as [|c l IH]; intros w w' results H HF; cbn [calls] in *; [ exact H | ].
  destruct (fw_call F m w c) as [w1 x] eqn:E1. destruct (calls (fw_call F m) w1 l) as [w2 xs] eqn:E2. injection H as <- <-.
  inversion HF as [|? ? ? ? Hx Hxs]; subst.
  assert (fs_call F m w c = (w1, x)) as ->.
  { destruct c as [g|kv']; [ exact E1 | ]. cbn [fw_call fs_call] in *. unfold fw_end in E1. unfold fs_end.
    destruct (fw_maybe_start w) as [w3 [u|e|]]; try exact E1. destruct (fw_state w3); try exact E1.
    destruct (total_rows m 0 (fw_groups w3)); try exact E1. destruct (fw_indexes F m w3) as [w4 [u4|e|]]; try exact E1. cbv zeta in E1.
    destruct (end_file (f_file F) m (fw_thrift w4 a kv') (fw_sink w4)) as [s [n|e|]] eqn:Ef; try exact E1.
    exfalso. injection E1 as <- <-. cbv beta iota in Hx. destruct Hx as [e Hx]. revert Hx. unfold uadd.
    destruct (fw_offset w4 + n <? 2 ^ 64); [ discriminate | ]. destruct m; discriminate. }
  rewrite (IH _ _ _ E2 Hxs). reflexivity.
Qed.
Print Assumptions async_writer_matches.
Example async_writer_witness :
  let w := fst (calls (fw_call wx_formats Checked) wx_new [CWrite wx_g1; CWrite [inr Io]; CWrite wx_g2]) in
  snd (calls (fw_call wx_formats Checked) wx_new [CWrite wx_g1; CWrite [inr Io]; CWrite wx_g2]) = [Ok 0; Err Io; Ok 0] /\
  snd (fs_end wx_formats Checked w None) = Ok (nlen (sk_data (fw_sink (fst (fs_end wx_formats Checked w None))))).
Proof. cbv zeta. split; vm_compute; reflexivity. Qed.

(** Not after the end: the asynchronous writer accepts a second end (and writes a second footer), the synchronous one does not. *)
Theorem async_second_end_refuted :
  snd (calls (fw_call wx_formats Checked) wx_new [CWrite wx_g1; CEnd None; CEnd None]) <>
  snd (calls (fs_call wx_formats Checked) wx_new [CWrite wx_g1; CEnd None; CEnd None]) /\
  (length (sk_data (fw_sink (fst (calls (fw_call wx_formats Checked) wx_new [CWrite wx_g1; CEnd None; CEnd None])))) <
   length (sk_data (fw_sink (fst (calls (fs_call wx_formats Checked) wx_new [CWrite wx_g1; CEnd None; CEnd None])))))%nat.
Proof. split; [ intros H; vm_compute in H; discriminate H | apply Nat.ltb_lt; vm_compute; reflexivity ]. Qed.
Print Assumptions async_second_end_refuted.

(** * C69 *)

(** The rows of the file are the sum of those of the row groups, and the rows of a row group are those of the data pages of its first
    column. *)
Theorem row_counts_agree F m s schema stats version created_by gs w kv w' size :
  sk_data s = [] -> history F m (fw_new s schema stats version created_by) gs w -> fw_end F m w kv = (w', Ok size) ->
  nlen (sk_data (fw_sink w')) < 2 ^ 63 ->
  file_rows schema gs < 2 ^ 63 ->
  exists meta, fw_metadata w' = Some meta /\
    fm_num_rows meta = fold_right (fun rg z => (rg_num_rows rg + z)%Z) 0%Z (fm_row_groups meta) /\
    Forall2 (fun g rg => rg_num_rows rg = Z.of_N (group_rows schema g)) gs (fm_row_groups meta).
Proof.
  intros Hs Hh He Hlen Hrows. destruct (file_ended _ _ _ _ _ _ _ _ _ _ _ _ Hs Hh He Hlen) as (meta & Hmeta & Hended & _).
  exists meta. split; [ exact Hmeta | ]. destruct (ended_rows _ _ _ _ _ _ _ Hended Hrows) as [H1 H2]. cbn [fw_schema fw_new] in *.
  split; [ | exact H2 ]. rewrite H1. clear - H2. induction H2 as [|g rg gs rgs H1 H2 IH]; [ reflexivity | ].
  cbn [file_rows fold_right]. fold (file_rows schema gs). rewrite N2Z.inj_add, IH, H1. reflexivity.
Qed.
Print Assumptions row_counts_agree.
Example row_counts_witness :
  file_rows wx_schema [wx_g1; wx_g2] = 7 /\
  fm_num_rows wx_meta = 7%Z /\ map rg_num_rows (fm_row_groups wx_meta) = [5; 2]%Z.
Proof. vm_compute. auto. Qed.

(** The other columns are not looked at: a row group whose columns have different numbers of rows is written, and the file opens. *)
Theorem uneven_columns_refuted : exists g w w' size meta md,
  fw_write wx_formats Checked wx_new g = (w, Ok tt) /\ fw_end wx_formats Checked w None = (w', Ok size) /\ fw_metadata w' = Some meta /\
  read_metadata ex_file_meta Checked (sk_data (fw_sink w')) = Ok md /\
  map (fun c => chunk_rows (pages_of_column c)) g = [3; 5] /\ map rgm_num_rows (fmd_row_groups md) = [3].
Proof.
  set (g := [inl (map inl [wx_a1]); inl (map inl [wx_b_page 5])] : row_group_iter).
  set (p := fw_end wx_formats Checked (wx_step1 g) None).
  set (md := match read_metadata ex_file_meta Checked (sk_data (fw_sink (fst p))) with Ok md => md | _ => mk_fmd 0 0 None [] None wx_schema None end).
  exists g, (wx_step1 g), (fst p), (wx_size (snd p)), (match fw_metadata (fst p) with Some t => t | None => wx_meta end), md.
  repeat (split; [ vm_compute; reflexivity | ]). vm_compute; reflexivity.
Qed.
Print Assumptions uneven_columns_refuted.

(** A page as its constructor makes it has the rows given to the constructor, counted from the page's first. Any page counts as the rows it carries exactly if all but its
    last interval of rows are empty. *)
Theorem new_page_rows h buffer c size d n :
  page_rows (CData (cdp_new h buffer c size d (Some n))) = n /\ carried_rows (CData (cdp_new h buffer c size d (Some n))) = N.to_nat n /\
  option_map rows_of (cdp_selected (cdp_new h buffer c size d (Some n))) = Some (seq 0 (N.to_nat n)) /\
  page_rows (CData (cdp_new h buffer c size d None)) = 0.
Proof. unfold page_rows, carried_rows, cdp_new, rows_of, rows. cbn. rewrite app_nil_r, seq_length. auto. Qed.
Print Assumptions new_page_rows.
Theorem page_rows_exact p ivs iv : cdp_selected p = Some (ivs ++ [iv]) ->
  (page_rows (CData p) = N.of_nat (carried_rows (CData p)) <-> Forall (fun i => iv_length i = 0) ivs) /\
  page_rows (CData p) <= N.of_nat (carried_rows (CData p)).
Proof.
  intros E. unfold page_rows, carried_rows. rewrite E, last_last. unfold rows_of. rewrite map_app, concat_app, app_length. cbn [map concat].
  rewrite app_nil_r. unfold rows at 2 4. rewrite seq_length. split; [ | lia ].
  assert (H : length (concat (map rows ivs)) = 0%nat <-> Forall (fun i => iv_length i = 0) ivs).
  { clear. induction ivs as [|i ivs IH]; [ cbn; split; auto | ]. cbn [map concat]. rewrite app_length. unfold rows at 1. rewrite seq_length. split.
    - intros H. constructor; [ lia | apply IH; lia ].
    - intros H. apply Forall_cons_iff in H as [H1 H2]. apply IH in H2. lia. }
  rewrite <- H. lia.
Qed.
Print Assumptions page_rows_exact.

(** So of a page that was read with a selection of rows, only the last interval counts. *)
Theorem selected_rows_refuted : exists d w,
  cdp_selected d = Some [mk_iv 0 2; mk_iv 4 1] /\
  fw_write wx_formats Checked wx_new [inl [inl (CData d)]; inl (map inl [wx_b_page 5])] = (w, Ok tt) /\
  map rg_num_rows (fw_groups w) = [1%Z].
Proof.
  set (d := mk_cdp (HV1 (mk_tdh 5 8 3 3 None)) [9; 9; 9] Snappy 12 io_desc (Some [mk_iv 0 2; mk_iv 4 1])).
  exists d, (wx_step1 [inl [inl (CData d)]; inl (map inl [wx_b_page 5])]). split; [ reflexivity | ]. split; vm_compute; reflexivity.
Qed.
Print Assumptions selected_rows_refuted.
