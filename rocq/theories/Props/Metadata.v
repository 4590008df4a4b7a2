(** C49, C63, C64, C65, C79, C84: file metadata, opening files, selecting row groups and iterating columns. *)
From Verif Require Import Base.Prelude Base.LeFacts Model.Types Model.Thrift Model.Intervals Model.Page Model.Io Model.Schema Model.PageRead Model.Metadata
  Spec.SchemaSpec Spec.MetadataSpec Proofs.TypesFacts Proofs.HybridEncProofs Proofs.SchemaProofs Proofs.MetadataProofs Proofs.ThriftCodec Props.Schema.
Open Scope N_scope.

(** Metadata for the examples: a row group with a chunk for each of the three columns of [sx_descriptor]. *)
Definition mx_meta (start : Z) (dict : option Z) : t_column_meta :=
  mk_tcm 1 [0; 3]%Z [[97]] 1 5 40 30 None start None dict None None None.
Definition mx_chunk (start : Z) (dict : option Z) : t_column_chunk :=
  mk_tcc None (start + 30) (Some (mx_meta start dict)) None None None None None None.
Definition mx_columns : list column_md :=
  map (fun x => mk_cmd (fst x) (snd x))
    (combine [mx_chunk 4 None; mx_chunk 60 (Some 44%Z); mx_chunk 90 None] (columns_of sx_fields)).
Definition mx_group (rows : N) : row_group_md := mk_rgm mx_columns rows 120.
Definition mx_file : file_md :=
  mk_fmd 2 7 (Some [109]) [mx_group 5; mx_group 2] (Some [mk_kv [107] None]) sx_descriptor None.
Lemma mx_good : good_file mx_file.
Proof.
  assert (Hg : forall r, r < 2 ^ 63 -> good_group sx_descriptor (mx_group r)).
  { intros r Hr. split; [ reflexivity | ]. split; [ | split; [ exact Hr | ]; split; reflexivity ].
    unfold mx_group, mx_columns. cbn [rgm_columns].
    repeat (apply Forall_cons; [ refine (conj (conj _ _) (conj (conj _ _) (conj _ (ex_intro _ Snappy eq_refl)))); cbn; try lia; try exact I; split; cbn; lia | ]).
    apply Forall_nil. }
  split; [ | split; [ | reflexivity ] ].
  - refine (conj _ (conj _ (conj _ (conj _ (conj _ _))))); [ discriminate | reflexivity | | reflexivity | exact sx_storable | ].
    + apply (proj1 schema_columns_witness).
    + apply (proj2 schema_round_trip_hypotheses).
  - repeat apply Forall_cons; try apply Forall_nil; apply Hg; reflexivity.
Qed.

(** * C63 *)

(** Converting to thrift and back keeps everything but the column orders, which are dropped. *)
Theorem metadata_kept_partial m f : good_file f ->
  exists t, file_into_thrift m f = Ok t /\ file_from_thrift m t = Ok (without_orders f).
Proof. apply file_round. Qed.
Print Assumptions metadata_kept_partial.
Theorem metadata_round_trip m f t : good_file f -> fmd_column_orders f = None -> file_into_thrift m f = Ok t ->
  file_from_thrift m t = Ok f.
Proof.
  intros Hg Ho Ht. destruct (file_round m f Hg) as (t' & E & H). replace t with t' by (apply Ok_inj; congruence). rewrite H.
  unfold without_orders. rewrite <- Ho. destruct f; reflexivity.
Qed.
Print Assumptions metadata_round_trip.
Example metadata_round_trip_witness :
  good_file mx_file /\ exists t, file_into_thrift Checked mx_file = Ok t /\ file_from_thrift Checked t = Ok mx_file /\
    map rg_file_offset (fm_row_groups t) = [Some 4%Z; Some 4%Z] /\ map rg_compressed_size (fm_row_groups t) = [Some 90%Z; Some 90%Z].
Proof. split; [ exact mx_good | ]. eexists. split; [ vm_compute; reflexivity | ]. split; [ vm_compute; reflexivity | ]. vm_compute. auto. Qed.

(** Metadata with column orders loses them: the file is read as one of undefined (legacy) order. *)
Theorem metadata_orders_refuted : exists t0 f t f',
  file_from_thrift Checked t0 = Ok f /\ file_into_thrift Checked f = Ok t /\ file_from_thrift Checked t = Ok f' /\
  file_column_order f 1 = Ok (TypeDefined SUnsigned) /\ file_column_order f' 1 = Ok UndefinedOrder.
Proof.
  exists (mk_tfm 1 (sd_into_thrift sx_descriptor) 0 [] None None (Some [TTypeOrder; TTypeOrder; TTypeOrder]) None None). do 3 eexists.
  split; [ vm_compute; reflexivity | ]. split; [ vm_compute; reflexivity | ]. split; [ vm_compute; reflexivity | ]. split; reflexivity.
Qed.
Print Assumptions metadata_orders_refuted.

(** * C84 *)

(** Metadata converted to thrift: each row group carries the chunks and the number of rows it had, and its summary describes these chunks. *)
Theorem converted_groups_summarised m f t : good_file f -> file_into_thrift m f = Ok t ->
  Forall summarises (fm_row_groups t) /\
  Forall2 (fun g rg => rg_columns rg = map cmd_chunk (rgm_columns g) /\ rg_num_rows rg = Z.of_N (rgm_num_rows g) /\
                       rg_total_byte_size rg = Z.of_N (rgm_total_byte_size g)) (fmd_row_groups f) (fm_row_groups t).
Proof.
  intros (_ & Hg & _) H. unfold file_into_thrift in H. apply bind_ok in H as (groups & H & E). apply Ok_inj in E. subst t. cbn [fm_row_groups].
  revert groups H Hg. generalize (fmd_row_groups f). induction l as [|g l IH]; intros groups H Hg.
  - apply Ok_inj in H. subst. split; constructor.
  - cbn [map collect_res] in H. apply bind_ok in H as (rg & E1 & H). apply bind_ok in H as (rgs & E2 & H). apply Ok_inj in H. subst.
    destruct (row_group_summarised _ _ _ _ (Forall_inv Hg) E1) as [S1 S2]. destruct (IH _ E2 (Forall_inv_tail Hg)) as [I1 I2]. split; constructor; assumption.
Qed.
Print Assumptions converted_groups_summarised.
(** A row group whose first chunk has a dictionary page, one whose first chunk has none, and one that gives 0 for "none". *)
Definition mx_group_first (dict : option Z) : row_group_md :=
  mk_rgm (map (fun x => mk_cmd (fst x) (snd x)) (combine [mx_chunk 60 dict; mx_chunk 4 None; mx_chunk 90 None] (columns_of sx_fields))) 1 120.
Definition mx_summarised : file_md :=
  mk_fmd 2 7 None (map mx_group_first [Some 44%Z; None; Some 0%Z]) None sx_descriptor None.
Example converted_groups_summarised_witness :
  good_file mx_summarised /\ exists t, file_into_thrift Checked mx_summarised = Ok t /\
    map rg_file_offset (fm_row_groups t) = [Some 44%Z; Some 60%Z; Some 60%Z] /\ map rg_compressed_size (fm_row_groups t) = [Some 90%Z; Some 90%Z; Some 90%Z].
Proof.
  split.
  - split; [ exact (proj1 mx_good) | ]. split; [ | reflexivity ].
    assert (Hg : forall d, match d with Some o => (0 <= o < 2 ^ 63)%Z | None => True end -> good_group sx_descriptor (mx_group_first d)).
    { intros d Hd. split; [ reflexivity | ]. split; [ | split; [ reflexivity | ]; split; reflexivity ].
      unfold mx_group_first. cbn [rgm_columns].
      repeat (apply Forall_cons; [ refine (conj (conj _ _) (conj (conj _ _) (conj _ (ex_intro _ Snappy eq_refl)))); cbn; try lia; try exact I; try exact Hd | ]).
      apply Forall_nil. }
    unfold mx_summarised. cbn [fmd_row_groups fmd_schema map]. repeat (apply Forall_cons; [ apply Hg; cbn; lia | ]). apply Forall_nil.
  - eexists. split; [ vm_compute; reflexivity | ]. vm_compute. auto.
Qed.

(** * C49 *)

(** A file that is too short, does not end in PAR1, or declares a negative length or one that does not fit, is an error. *)
Theorem open_rejects T m file : ~ framed file -> read_metadata T m file = Err OutOfSpec.
Proof. apply not_framed. Qed.
Print Assumptions open_rejects.

(** Any other file is opened by decoding exactly the bytes that its declared length says: however long they are, only they count. *)
Theorem open_exact T m file : framed file ->
  read_metadata T m file = let* (t, _) := t_dec T (2 * nlen (footer file) + 1024) (footer file) in file_from_thrift m t.
Proof. apply with_size_exact. Qed.
Print Assumptions open_exact.

(** With arithmetic that wraps (a release build) nothing panics, even if the size given for the file is wrong. *)
Theorem open_total_partial T file size : (forall max b, t_dec T max b <> Panic) ->
  read_metadata_with_size T Wrapping file size <> Panic.
Proof. intros H. apply with_size_no_panic; [ exact H | discriminate ]. Qed.
Print Assumptions open_total_partial.
(** With checked arithmetic (a debug build) nothing panics unless the schema nests more than 32767 optional or repeated groups. *)
Theorem open_total_checked_partial T m file : (forall max b, t_dec T max b <> Panic) ->
  (forall t r i l c fields, framed file -> t_dec T (2 * nlen (footer file) + 1024) (footer file) = Ok (t, r) ->
     type_from_thrift (fm_schema t) = Ok (Group i l c fields) -> Forall shallow fields) ->
  read_metadata T m file <> Panic.
Proof.
  intros HT Hs.
  assert (Hd : framed file \/ ~ framed file).
  { assert (Heq : last_bytes 4 file = [80; 65; 82; 49] \/ last_bytes 4 file <> [80; 65; 82; 49])
      by (destruct (bytes_eqb (last_bytes 4 file) [80; 65; 82; 49]) eqn:E; [ left; apply bytes_eqb_ok; exact E | right; intros F; apply bytes_eqb_ok in F; congruence ]).
    unfold framed. destruct Heq; [ | tauto ]. destruct (N.le_gt_cases 12 (nlen file)); [ | right; lia ].
    destruct (Z.le_gt_cases 0 (declared_length file)); [ | right; lia ].
    destruct (Z.le_gt_cases (declared_length file + 8) (Z.of_N (nlen file))); [ tauto | right; lia ]. }
  destruct Hd as [Hf|Hf]; [ | rewrite (not_framed T m file Hf); discriminate ].
  rewrite (with_size_exact T m file Hf). unfold deserialize_metadata. apply bind_no_panic; [ apply HT | ].
  intros [t r] E. apply file_no_panic. apply schema_shallow. intros i l c fields. apply (Hs t r i l c fields Hf E).
Qed.
Print Assumptions open_total_checked_partial.

(** A schema of nested optional groups. *)
Fixpoint nested (n : nat) : parquet_type :=
  match n with O => sx_int | S n => Group (mk_fi [97] Optional None) None None [nested n] end.
Lemma nested_panics : forall n base rep def leaves path, (0 <= def)%Z -> (32768 <= def + Z.of_nat n)%Z -> (def < 32768)%Z ->
  build_tree Checked (nested n) base rep def leaves path = Panic.
Proof.
  induction n as [|n IH]; intros base rep def leaves path H0 H Hd; [ lia | ].
  cbn [nested build_tree get_field_info fi_repetition]. unfold sadd, in_s. change (Z.of_N 16 - 1)%Z with 15%Z. change (2 ^ 15)%Z with 32768%Z.
  destruct (Z.ltb_spec (def + 1) 32768) as [Hl|Hl].
  - replace ((- (32768) <=? def + 1)%Z && true) with true by lia. cbn [bind]. rewrite IH by lia. reflexivity.
  - rewrite andb_false_r. reflexivity.
Qed.
Lemma nested_ok n : (forall u, within (nested n) u -> storable u) /\ full (nested n) = true.
Proof.
  induction n as [|n [IH1 IH2]]; cbn [nested].
  - split; [ | reflexivity ]. intros u Hu. apply (sx_storable sx_int); [ left; reflexivity | exact Hu ].
  - split; [ | cbn [full is_nil forallb]; rewrite IH2; reflexivity ]. intros u Hu. within_inv Hu; [ reflexivity | apply IH1; assumption ].
Qed.
(** Such a file makes a debug build panic. *)
Theorem open_total_refuted : exists t, forall T,
  (forall max, reads_back T max t) -> nlen (t_enc T t) < 2 ^ 31 ->
  exists file, read_metadata T Checked file = Panic.
Proof.
  set (n := Z.to_nat 32768). exists (mk_tfm 1 (to_thrift (new_root [114] [nested n])) 0 [] None None None None None).
  match goal with |- forall T, (forall max, reads_back T max ?x) -> _ => set (t := x) end.
  intros T HT Hlen. exists (magic ++ t_enc T t ++ to_le 4 (nlen (t_enc T t)) ++ magic).
  set (file := magic ++ t_enc T t ++ to_le 4 (nlen (t_enc T t)) ++ magic).
  destruct (framed_file magic (t_enc T t) ltac:(cbv; discriminate) Hlen) as [Hfr Hft]. fold file in Hfr, Hft.
  rewrite (open_exact T Checked file Hfr), Hft. destruct (HT (2 * nlen (t_enc T t ++ to_le 4 (nlen (t_enc T t)) ++ magic) + 1024)) as [_ Hd]. rewrite Hd. cbn [bind].
  unfold file_from_thrift, t. cbn [fm_schema]. unfold sd_try_from_thrift. rewrite type_round_trip.
  - cbn [is_nil forallb]. rewrite (proj2 (nested_ok n)). cbn [negb andb bind sd_try_from_type new_root fi_name sd_new build_all].
    unfold sd_new. cbn [build_all]. rewrite nested_panics; [ reflexivity | lia | unfold n; lia | lia ].
  - reflexivity.
  - intros f u Hf Hu. destruct Hf as [<-|[]]. exact (proj1 (nested_ok n) u Hu).
Qed.
Print Assumptions open_total_refuted.

Definition mx_thrift : t_file_meta := match file_into_thrift Checked mx_file with Ok t => t | _ => mk_tfm 0 [] 0 [] None None None None None end.
Definition mx_bytes : list N :=
  (magic ++ [1; 2; 3]) ++ t_enc ex_file_meta mx_thrift ++ to_le 4 (nlen (t_enc ex_file_meta mx_thrift)) ++ magic.
Example open_witness :
  framed mx_bytes /\ read_metadata ex_file_meta Checked mx_bytes = Ok mx_file /\
  read_metadata ex_file_meta Checked (removelast mx_bytes) = Err OutOfSpec /\
  read_metadata ex_file_meta Checked (magic ++ [255; 255; 255; 255] ++ magic) = Err OutOfSpec /\
  read_metadata ex_file_meta Checked (magic ++ [1; 0; 0; 0] ++ magic) = Err OutOfSpec /\
  read_metadata_with_size ex_file_meta Checked mx_bytes 70000 = Err OutOfSpec.
Proof.
  split; [ unfold mx_bytes; apply framed_file; vm_compute; [ discriminate | reflexivity ] | ].
  split; [ vm_compute; reflexivity | ]. split; [ vm_compute; reflexivity | ]. split; [ vm_compute; reflexivity | ]. split; vm_compute; reflexivity.
Qed.
Example open_total_witness : forall max b, t_dec ex_file_meta max b <> Panic.
Proof. intros max b. apply of_codec_total. Qed.

(** * C64 *)

(** Exactly the row groups accepted by the predicate, which is given their positions, are kept in order; nothing else changes. *)
Theorem filter_row_groups_exact f predicate :
  filter_row_groups f predicate =
  mk_fmd (fmd_version f) (fmd_num_rows f) (fmd_created_by f) (kept predicate (fmd_row_groups f)) (fmd_key_value f) (fmd_schema f)
    (fmd_column_orders f).
Proof. unfold filter_row_groups. rewrite filter_from_ok. reflexivity. Qed.
Print Assumptions filter_row_groups_exact.
(** In particular a row group is kept if and only if it is accepted at one of its positions. *)
Theorem filter_row_groups_in f predicate g :
  In g (fmd_row_groups (filter_row_groups f predicate)) <->
  exists i, nth_error (fmd_row_groups f) i = Some g /\ predicate g i = true.
Proof.
  rewrite filter_row_groups_exact. cbn [fmd_row_groups]. unfold kept. generalize (fmd_row_groups f). intros l. rewrite in_map_iff.
  assert (Hn : forall (l : list row_group_md) k i g, In (i, g) (combine (seq k (length l)) l) <-> (k <= i)%nat /\ nth_error l (i - k) = Some g).
  { clear. induction l as [|x l IH]; intros k i g; cbn [length seq combine].
    - split; [ intros [] | ]. intros [_ H]. destruct (i - k)%nat; discriminate H.
    - cbn [In]. rewrite IH. split.
      + intros [H|[H1 H2]]; [ injection H as <- <-; rewrite Nat.sub_diag; auto | ]. split; [ lia | ].
        replace (i - k)%nat with (S (i - S k)) by lia. exact H2.
      + intros [H1 H2]. destruct (Nat.eq_dec i k) as [->|Hne].
        * rewrite Nat.sub_diag in H2. left. cbn in H2. congruence.
        * right. split; [ lia | ]. replace (i - k)%nat with (S (i - S k)) in H2 by lia. exact H2. }
  split.
  - intros ([i x] & E & H). cbn [snd] in E. subst x. apply filter_In in H as [H1 H2]. cbn [fst snd] in H2. apply Hn in H1 as [_ H1].
    rewrite Nat.sub_0_r in H1. exists i. auto.
  - intros (i & H1 & H2). exists (i, g). split; [ reflexivity | ]. apply filter_In. split; [ | exact H2 ]. apply Hn. split; [ lia | ].
    rewrite Nat.sub_0_r. exact H1.
Qed.
Print Assumptions filter_row_groups_in.
Example filter_row_groups_witness :
  map rgm_num_rows (fmd_row_groups (filter_row_groups mx_file (fun _ i => (0 <? i)%nat))) = [2] /\
  map rgm_num_rows (fmd_row_groups (filter_row_groups mx_file (fun g _ => 3 <? rgm_num_rows g))) = [5] /\
  fmd_num_rows (filter_row_groups mx_file (fun _ _ => false)) = 7.
Proof. repeat split; reflexivity. Qed.

(** * C65 *)

(** The columns of a field are those whose path starts with its name, in order. *)
Theorem field_columns_exact l name : Forall (fun c => cd_path (cmd_descr c) <> []) l ->
  exists r, get_field_columns l name = Ok r /\
    r = filter (fun c => match cd_path (cmd_descr c) with n :: _ => bytes_eqb n name | [] => false end) l /\
    forall c, In c r <-> In c l /\ exists rest, cd_path (cmd_descr c) = name :: rest.
Proof.
  intros H. rewrite (get_field_columns_ok name l H). eexists. split; [ reflexivity | ]. split; [ reflexivity | ]. intros c. rewrite filter_In.
  split; intros [H1 H2]; (split; [ exact H1 | ]).
  - destruct (cd_path (cmd_descr c)) as [|n rest]; [ discriminate H2 | ]. apply bytes_eqb_ok in H2. subst n. exists rest. reflexivity.
  - destruct H2 as [rest ->]. apply bytes_eqb_ok. reflexivity.
Qed.
Print Assumptions field_columns_exact.

(** Iterating over a source visits every column once and in order, each with a reader from its first byte on, whatever the user did
    with the readers before; the buffer goes from reader to reader and comes back in the end. *)
Theorem columns_in_order file columns filter scratch max uses :
  Forall (fun c => chunk_located (cmd_chunk c)) columns -> length uses = length columns ->
  exists items b, visits (ci_advance file) ci_current ci_put (ci_new columns filter scratch max) uses items b /\
    map snd items = columns /\ in_order file filter max scratch columns uses items b.
Proof.
  intros H Hl. destruct (ci_visits file columns uses (ci_new columns filter scratch max) eq_refl Hl H) as (items & b & Hv & Ho).
  exists items, b. split; [ exact Hv | ]. cbn [ci_new ci_filter ci_max ci_current ci_scratch] in Ho. split; [ | exact Ho ].
  clear - Ho. induction Ho; [ reflexivity | ]. cbn [map snd]. f_equal. assumption.
Qed.
Print Assumptions columns_in_order.
Example columns_in_order_witness :
  Forall (fun c => chunk_located (cmd_chunk c)) mx_columns /\ length mx_columns = 3%nat /\
  map (fun c => map (length (A:=N)) (cd_path (cmd_descr c))) mx_columns = [[1]; [1; 1; 1]; [1]]%nat /\
  match ci_advance mx_bytes (ci_new mx_columns None [7] 100) with
  | Ok (inl it) => option_map (fun x => (length (pr_source (fst x)), pr_scratch (fst x))) (ci_current it) = Some ((length mx_bytes - 4)%nat, [7])
  | _ => False
  end.
Proof.
  split; [ exact (proj1 (proj2 (Forall_inv (proj1 (proj2 mx_good))))) | ]. split; [ reflexivity | ]. split; [ reflexivity | ]. vm_compute. reflexivity.
Qed.

(** So iterating over the columns of a field visits exactly the columns whose path starts with its name, once and in order. *)
Theorem field_columns_in_order file columns name filter scratch max uses :
  Forall (fun c => cd_path (cmd_descr c) <> []) columns -> Forall (fun c => chunk_located (cmd_chunk c)) columns ->
  let wanted := List.filter (fun c => match cd_path (cmd_descr c) with n :: _ => bytes_eqb n name | [] => false end) columns in
  length uses = length wanted ->
  exists it items b, get_column_iterator columns name filter scratch max = Ok it /\
    visits (ci_advance file) ci_current ci_put it uses items b /\
    map snd items = wanted /\ in_order file filter max scratch wanted uses items b.
Proof.
  intros Hp Hl wanted Hu. unfold get_column_iterator. rewrite (get_field_columns_ok name columns Hp). cbn [bind]. fold wanted.
  destruct (columns_in_order file wanted filter scratch max uses) as (items & b & H).
  - apply Forall_forall. intros c Hc. unfold wanted in Hc. apply filter_In in Hc as [Hc _]. rewrite Forall_forall in Hl. apply Hl. exact Hc.
  - exact Hu.
  - exists (ci_new wanted filter scratch max), items, b. split; [ reflexivity | exact H ].
Qed.
Print Assumptions field_columns_in_order.
Example field_columns_in_order_case :
  Forall (fun c => cd_path (cmd_descr c) <> []) mx_columns /\
  match get_column_iterator mx_columns [98] None [7] 100, get_column_iterator mx_columns [99; 99] None [7] 100 with
  | Ok it, Ok none => (length (ci_columns it), length (ci_columns none)) = (1, 0)%nat /\ ci_scratch it = [7]
  | _, _ => False
  end.
Proof. split; [ repeat constructor; discriminate | ]. vm_compute. auto. Qed.

(** Iterating over columns that were read before visits them in the opposite order. *)
Theorem preread_columns_reversed_exact chunks uses : length uses = length chunks ->
  visits rci_advance rci_current rci_put (rci_new chunks) uses (rev chunks) [].
Proof. intros H. apply rci_visits; [ cbn; rewrite rev_involutive; reflexivity | rewrite rev_length; exact H ]. Qed.
Print Assumptions preread_columns_reversed_exact.
Theorem preread_columns_refuted : exists chunks, forall uses items b,
  visits rci_advance rci_current rci_put (rci_new chunks) uses items b -> map snd items <> map snd chunks.
Proof.
  exists (map (fun c => ([], c)) mx_columns). intros uses items b H.
  inversion H as [s b0 E|s s1 i u us l b0 E1 E2 H1]; subst; [ discriminate E | ].
  unfold rci_advance, rci_new, mx_columns in E1. cbn in E1. apply Ok_inj in E1. injection E1 as <-. cbn in E2. injection E2 as <-.
  cbn [map snd]. unfold mx_columns. cbn. discriminate.
Qed.
Print Assumptions preread_columns_refuted.

(** * C79 *)

(** The legacy annotation that means the same as a logical type (LogicalTypes.md of the format). *)
Definition same_annotation (l : primitive_logical) (c : primitive_converted) : Prop :=
  match l, c with
  | LString, CUtf8 | LEnum, CEnum | LJson, CJson | LBson, CBson | LDate, CDate => True
  | LDecimal p s, CDecimal p' s' => p = p' /\ s = s'
  | LTime Milliseconds _, CTimeMillis | LTime Microseconds _, CTimeMicros => True
  | LTimestamp Milliseconds _, CTimestampMillis | LTimestamp Microseconds _, CTimestampMicros => True
  | LInteger IInt8, CInt8 | LInteger IInt16, CInt16 | LInteger IInt32, CInt32 | LInteger IInt64, CInt64 => True
  | LInteger IUInt8, CUint8 | LInteger IUInt16, CUint16 | LInteger IUInt32, CUint32 | LInteger IUInt64, CUint64 => True
  | _, _ => False
  end.
(** A column has the same sort order whether it is annotated the new way, the old way, or both. *)
Theorem sort_order_agrees l c p : same_annotation l c ->
  get_sort_order (Some l) None p = get_sort_order None (Some c) p /\
  get_sort_order (Some l) (Some c) p = get_sort_order None (Some c) p.
Proof.
  intros H. destruct l, c; try destruct H; try (split; reflexivity);
    repeat match goal with u : time_unit |- _ => destruct u; try destruct H | k : integer_type |- _ => destruct k; try destruct H end;
    split; reflexivity.
Qed.
Print Assumptions sort_order_agrees.
(** Annotations other than unsigned integers, intervals, decimals and unknown types do not change the order of the physical type. *)
Theorem sort_order_physical l c t :
  annotated t c l ->
  match l with Some (LInteger IUInt8) | Some (LInteger IUInt16) | Some (LInteger IUInt32) | Some (LInteger IUInt64)
             | Some (LDecimal _ _) | Some LUnknown => False | _ => True end ->
  match c with Some CUint8 | Some CUint16 | Some CUint32 | Some CUint64 | Some CInterval | Some (CDecimal _ _) => False | _ => True end ->
  get_sort_order l c t = get_sort_order None None t.
Proof.
  intros [Hc Hl] H1 H2. destruct l as [l|].
  - cbn [on_some] in Hl. destruct l; try destruct H1;
      repeat match goal with u : time_unit |- _ => destruct u | k : integer_type |- _ => destruct k; try destruct H1 end;
      cbn [logical_on] in Hl; subst t; reflexivity.
  - destruct c as [c|]; [ | reflexivity ]. cbn [on_some] in Hc. destruct c; try destruct H2; cbn [converted_on] in Hc; subst t; reflexivity.
Qed.
Print Assumptions sort_order_physical.
(** Reading the orders of a file gives every column with a declared order the order of its type. *)
Theorem column_orders_exact m t f i d :
  file_from_thrift m t = Ok f -> nth_error (sd_leaves (fmd_schema f)) i = Some d ->
  file_column_order f i =
    match fm_column_orders t with
    | None => Ok UndefinedOrder
    | Some orders =>
        if (i <? length orders)%nat
        then Ok (TypeDefined (get_sort_order (pt_logical (d_primitive (cd_descriptor d))) (pt_converted (d_primitive (cd_descriptor d)))
                                (pt_physical (d_primitive (cd_descriptor d)))))
        else Panic
    end.
Proof.
  intros H Hd. unfold file_from_thrift in H. apply bind_ok in H as (s & Es & H). apply bind_ok in H as (gs & Eg & H). cbv zeta in H.
  apply bind_ok in H as (rows & Er & H). apply Ok_inj in H. subst f. cbn [fmd_schema] in Hd. unfold file_column_order. cbn [fmd_column_orders].
  destruct (fm_column_orders t) as [orders|]; [ | reflexivity ]. cbn [option_map]. unfold parse_column_orders. clear - Hd.
  rewrite nth_error_map. revert i orders Hd. induction (sd_leaves s) as [|x l IH]; intros [|i] orders Hd; try discriminate Hd.
  - cbn [nth_error] in Hd. injection Hd as ->. destruct orders; reflexivity.
  - destruct orders as [|o orders]; [ reflexivity | ]. cbn [combine nth_error length]. rewrite (IH i orders Hd). reflexivity.
Qed.
Print Assumptions column_orders_exact.
Example sort_order_witness :
  same_annotation (LInteger IUInt32) CUint32 /\ get_sort_order (Some (LInteger IUInt32)) None Int32 = SUnsigned /\
  get_sort_order None None Int32 = SSigned /\ annotated ByteArray (Some CUtf8) (Some LString) /\
  get_sort_order (Some LString) (Some CUtf8) ByteArray = SUnsigned.
Proof. repeat split. Qed.
