(** C137: skipping row groups of files of any writer by the statistics of their columns. *)
From Verif Require Import Base.Prelude Base.Iter Model.Types Model.Native Model.Thrift Model.Statistics Model.Page Model.Io Model.Compression Model.PageRead Model.Metadata Model.ColumnMeta Model.Schema Model.FileWrite
  Spec.Bits Spec.PagesSpec Spec.ForeignSpec Spec.CompressionSpec Spec.PlainSpec Spec.RowsSpec Spec.LevelsSpec Spec.ValuesSpec Spec.RunsSpec Spec.SkipSpec Spec.SearchSpec Spec.SchemaSpec Spec.MetadataSpec Spec.AcceptSpec
  Spec.NestedSpec Spec.ForeignValuesSpec Spec.ForeignSearchSpec Spec.ForeignSkipSpec
  Proofs.TypesFacts Proofs.PageIoProofs Proofs.ForeignProofs Proofs.ForeignValuesProofs Proofs.ForeignSkipProofs Proofs.IndexReadProofs Proofs.FileWriteProofs Proofs.CancelProofs Proofs.EndToEndProofs Proofs.ThriftCodec
  Props.PageIo Props.FileWrite Props.Compression Props.Runs Props.Accept Props.Nested Props.ForeignValues Props.ForeignFile.
Open Scope N_scope.

Lemma foreign_opened F m file t schema : ends_in F file t -> sd_try_from_thrift m (fm_schema t) = Ok schema -> file_acceptable schema t ->
  read_metadata (f_file F) m file = Ok (metadata_of schema t).
Proof.
  intros (before & Ef & Hb & Hlen & Hback) Hs Ha. rewrite <- (proj1 (metadata_accepted_exactly m schema t Hs) Ha). eapply opened_tail; [|exact Hb|exact Hlen|exact Hback]. rewrite Ef. do 3 f_equal.
  rewrite as_i32_small by (change (2 ^ 31) with 2147483648 in Hlen; exact Hlen). unfold of_signed. change (2 ^ Z.of_N 32)%Z with 4294967296%Z.
  change (2 ^ 31) with 2147483648 in Hlen. rewrite Z.mod_small by lia. rewrite N2Z.id. reflexivity.
Qed.
Lemma null_count_read s p st : deserialize_statistics s p = Ok st -> stats_null_count st = ts_null_count s.
Proof.
  unfold deserialize_statistics, primitive_read, boolean_read, binary_read, fixed_read. destruct (pt_physical p);
    repeat match goal with |- context [bind ?x _] => destruct x; cbn [bind]; try discriminate end; intros H; apply Ok_inj in H; subst st; reflexivity.
Qed.

(** C137. The statistics of a column chunk of any writer come back with the bounds they say. If a bound has a wrong length, asking for them is an error and no panic. *)
Theorem foreign_statistics : forall k c meta s,
  ValuesSpec.column_of k (cd_descriptor (cmd_descr c)) -> cc_meta (cmd_chunk c) = Some meta -> cm_statistics meta = Some s ->
  (forall b, statistics_say k s b -> exists st, cmd_statistics c = Ok (Some (Ok st)) /\ bounds_stated k st b /\ stats_null_count st = ts_null_count s) /\
  (broken_statistics k s -> cmd_statistics c = Ok (Some (Err OutOfSpec))).
Proof.
  intros k c meta s Hk Em Es. unfold cmd_statistics, cmd_meta. rewrite Em. cbn [bind]. rewrite Es. split.
  - intros b Hb. destruct (statistics_said k s _ b Hk Hb) as (st & E & Hst). exists st. rewrite E. split; [reflexivity|]. split; [exact Hst|]. exact (null_count_read _ _ _ E).
  - intros Hb. rewrite (statistics_broken k s _ Hk Hb). reflexivity.
Qed.
Print Assumptions foreign_statistics.

(** C137. Somebody opens a file of any writer and looks for wanted values in a column. They leave out row groups with a test on the bounds of the column's statistics, which lets pass
    all bounds within which a wanted value can lie, and all row groups without statistics or with statistics that are not decoded. They read the column of the row groups that are left,
    and get its cells; the wanted ones among them are those of all row groups, in order and as often. *)
Theorem foreign_skip : forall k F C m file t schema j leaf truth cells (keep : option (value k) * option (value k) -> bool) (wanted : value k -> bool) (passes : row_group_md -> nat -> bool) scratch max,
  ends_in F file t -> sd_try_from_thrift m (fm_schema t) = Ok schema -> file_acceptable schema t -> nth_error (sd_leaves schema) j = Some leaf -> ValuesSpec.column_of k (cd_descriptor leaf) ->
  Forall2 (group_holds k F C max file j leaf truth) (fm_row_groups t) cells ->
  (forall b v, truth b v -> wanted v = true -> keep b = true) ->
  (forall rg i c, nth_error (rgm_columns rg) j = Some c ->
     cmd_statistics c = Ok None \/ (exists e, cmd_statistics c = Ok (Some (Err e))) \/ (exists s b, cmd_statistics c = Ok (Some (Ok s)) /\ bounds_stated k s b /\ keep b = true) ->
     passes rg i = true) ->
  exists md kept,
    read_metadata (f_file F) m file = Ok md /\
    Forall2 (group_reads k (f_header F) C m scratch max file j) (fmd_row_groups (filter_row_groups md passes)) kept /\
    filter (hit wanted) (concat kept) = filter (hit wanted) (concat cells).
Proof.
  intros k F C m file t schema j leaf truth cells keep wanted passes scratch max He Hs Ha El Hk Hg Hsound Hpass.
  exists (metadata_of schema t).
  assert (Eopen : read_metadata (f_file F) m file = Ok (metadata_of schema t)) by (apply foreign_opened; assumption).
  assert (H : Forall2 (fun rg l => group_reads k (f_header F) C m scratch max file j rg l /\ forall i, passes rg i = false -> filter (hit wanted) l = []) (fmd_row_groups (metadata_of schema t)) cells).
  { cbn [metadata_of fmd_row_groups]. clear - Hg El Hk Hsound Hpass. induction Hg as [|g l groups cells (chunk & meta & codec & pages & dict & cellss & E1 & E2 & Hst & Hl & Hr & Hv & Hh & ->) _ IH]; [constructor|].
    cbn [map]. apply Forall2_cons; [|exact IH].
    assert (E3 : nth_error (rgm_columns (group_of schema g)) j = Some (mk_cmd chunk leaf)).
    { cbn [group_of rgm_columns]. rewrite nth_error_map. erewrite nth_error_combine; [|exact E1|exact El]. reflexivity. }
    split.
    - destruct (foreign_column_read k (f_header F) C m file (mk_cmd chunk leaf) codec pages dict cellss scratch max Hl Hr Hv Hk Hh) as (r & ps & R1 & R2 & R3 & R4).
      exists (mk_cmd chunk leaf), r, dict, ps, (firstn (length ps) cellss). split; [exact E3|]. split; [exact R1|]. split; [exact R2|]. split; [exact R3|]. symmetry. exact R4.
    - intros i Hp. destruct (filter (hit wanted) (concat cellss)) as [|x rest] eqn:Ef; [reflexivity|exfalso].
      assert (Hx : In x (filter (hit wanted) (concat cellss))) by (rewrite Ef; left; reflexivity). apply filter_In in Hx as [Hx Hhit]. destruct x as [v|]; [|discriminate Hhit]. cbn [hit] in Hhit.
      assert (T : passes (group_of schema g) i = true); [|congruence]. apply (Hpass _ i _ E3).
      destruct (cm_statistics meta) as [s|] eqn:Es.
      + destruct (foreign_statistics k (mk_cmd chunk leaf) meta s Hk E2 Es) as [S1 S2]. destruct (Hst s eq_refl) as [Hb|(b & Hb & Htrue)]; [right; left; exists OutOfSpec; exact (S2 Hb)|].
        destruct (S1 b Hb) as (st & A1 & A2 & _). right. right. exists st, b. split; [exact A1|]. split; [exact A2|]. exact (Hsound b v (Htrue v Hx) Hhit).
      + left. unfold cmd_statistics, cmd_meta. cbn [cmd_chunk]. rewrite E2. cbn [bind]. rewrite Es. reflexivity. }
  destruct (filter_from_cells (hit wanted) passes _ _ _ 0 H) as (kept & K1 & K2). exists kept. split; [exact Eopen|]. split; [exact K1|exact K2].
Qed.
Print Assumptions foreign_skip.

(** Four row groups of one column. The first has the values 1, 2 and 3 and says so. The second has 7, 7, 5, 1, 2 and 3, and says that they lie from 1 to 7; its chunk begins with a dictionary. The third has
    statistics with a bound of two bytes and the fourth has none; both have the pages of the second. Somebody looks for values of at least 4 and leaves out the first. *)
Definition bq_fields := [Primitive (d_primitive ux_desc)].
Definition bq_schema := mk_sd [114] bq_fields (columns_of bq_fields).
Definition bq_leaf := mk_cdescr ux_desc [[97]] (Primitive (d_primitive ux_desc)).
Definition bq_stats (lo hi : list N) := mk_tstats (Some [9]) None None None (Some hi) (Some lo).
Definition bq_chunk (values : Z) (at_ : N) (s : option t_statistics) :=
  mk_tcc None 0 (Some (mk_tcm 1 [] [[97]] 1 values 5 5 None (Z.of_N at_) None None s None None)) None None None None None None.
Definition bq_start := 4 + nlen (stored_chunk ex_header (firstn 2 gx_pages)).
Definition bq_groups := [
  mk_trg [bq_chunk 5 bq_start (Some (bq_stats [1; 0; 0; 0] [3; 0; 0; 0]))] 5 5 None None None None;
  mk_trg [bq_chunk 10 4 (Some (bq_stats [1; 0; 0; 0] [7; 0; 0; 0]))] 5 10 None None None None;
  mk_trg [bq_chunk 10 4 (Some (bq_stats [1; 0; 0; 0] [7; 0]))] 5 10 None None None None;
  mk_trg [bq_chunk 10 4 None] 5 10 None None None None].
Definition bq_meta := mk_tfm 2 (sd_into_thrift bq_schema) 35 bq_groups None None None None None.
Definition bq_tail := t_enc ex_file_meta bq_meta ++ to_le 4 (nlen (t_enc ex_file_meta bq_meta)) ++ [80; 65; 82; 49].
Definition bq_file := [80; 65; 82; 49] ++ stored_chunk ex_header gx_pages ++ bq_tail.
Definition bq_truth (b : option Z * option Z) (v : Z) : Prop :=
  match fst b with Some lo => (lo <= v)%Z | None => True end /\ match snd b with Some hi => (v <= hi)%Z | None => True end.
Definition bq_keep (b : option Z * option Z) : bool := match snd b with Some hi => (4 <=? hi)%Z | None => true end.
Definition bq_wanted (v : Z) : bool := (4 <=? v)%Z.
Definition bq_passes (rg : row_group_md) (_ : nat) : bool :=
  match rgm_columns rg with
  | c :: _ => match cmd_statistics c with Ok (Some (Ok (SNative NI32 _ x))) => match st_max x with Some hi => (4 <=? hi)%Z | None => true end | _ => true end
  | [] => true
  end.
Definition bq_cells : list (list (option Z)) := [concat (skipn 2 gx_cells); concat gx_cells; concat gx_cells; concat gx_cells].
Definition bq_between (lo hi : Z) (c : option Z) : bool := match c with Some x => (lo <=? x) && (x <=? hi) | None => true end%Z.
Lemma bq_in lo hi (cells : list (option Z)) : forallb (bq_between lo hi) cells = true -> forall v, In (Some v) cells -> bq_truth (Some lo, Some hi) v.
Proof. intros E v H. rewrite forallb_forall in E. specialize (E _ H). cbn [bq_between] in E. unfold bq_truth. cbn [fst snd]. lia. Qed.
Lemma bq_readable : Forall (readable ex_header 100) gx_pages.
Proof. exact (proj1 (proj2 foreign_column_read_case)). Qed.
Lemma bq_chunk_holds values at_ s before pages cellss : bq_file = before ++ stored_chunk ex_header pages ++ bq_tail -> nlen before = at_ -> at_ < 1000 -> values_of (map snd pages) = values -> (values < 1000)%Z ->
  Forall (readable ex_header 100) pages -> Forall2 (page_holds (KNative NI32) toy Snappy ux_desc (Some [5; 7]%Z)) (map snd pages) cellss ->
  (forall x, s = Some x -> broken_statistics (KNative NI32) x \/ exists b, statistics_say (KNative NI32) x b /\ forall v, In (Some v) (concat cellss) -> bq_truth b v) ->
  group_holds (KNative NI32) wx_formats toy 100 bq_file 0 bq_leaf bq_truth (mk_trg [bq_chunk values at_ s] 5 values None None None None) (concat cellss).
Proof.
  intros Ef Eb Hb Ev Hv Hr Hh Hs. eexists _, _, Snappy, pages, (Some [5; 7]%Z), cellss. split; [reflexivity|]. split; [reflexivity|]. split; [exact Hs|]. split; [|split; [exact Hr|split; [|split; [exact Hh|reflexivity]]]].
  - eexists _, before, bq_tail. split; [reflexivity|]. split; [exact Ef|]. split; [rewrite Eb; change (2 ^ 63) with 9223372036854775808; lia|]. cbn [cm_dictionary_page_offset cm_data_page_offset cm_num_values cm_codec]. rewrite Eb. repeat split. symmetry. exact Ev.
  - rewrite Ev. change (2 ^ 63)%Z with 9223372036854775808%Z. lia.
Qed.
Lemma bq_holds : Forall2 (group_holds (KNative NI32) wx_formats toy 100 bq_file 0 bq_leaf bq_truth) (fm_row_groups bq_meta) bq_cells.
Proof.
  assert (Hb : forall lo hi : Z, (-128 <= lo < 128)%Z -> (-128 <= hi < 128)%Z -> statistics_say (KNative NI32) (bq_stats (native_to_le NI32 lo) (native_to_le NI32 hi)) (Some lo, Some hi)).
  { intros lo hi H1 H2. split; cbn; (split; [split; [lia|reflexivity]|exact I]). }
  apply Forall2_cons; [|apply Forall2_cons; [|apply Forall2_cons; [|apply Forall2_cons; [|apply Forall2_nil]]]].
  - refine (bq_chunk_holds 5 bq_start _ ([80; 65; 82; 49] ++ stored_chunk ex_header (firstn 2 gx_pages)) (skipn 2 gx_pages) (skipn 2 gx_cells) _ _ _ _ _ _ _ _);
      [vm_compute; reflexivity|vm_compute; reflexivity|vm_compute; reflexivity|vm_compute; reflexivity|lia| | |].
    + pose proof bq_readable as H. inversion H as [|? ? _ H1]; subst. inversion H1 as [|? ? _ H2]; subst. exact H2.
    + pose proof gx_holds as H. inversion H as [|? ? ? ? _ H1]; subst. inversion H1 as [|? ? ? ? _ H2]; subst. exact H2.
    + intros x [= <-]. right. exists (Some 1, Some 3)%Z. split; [exact (Hb 1 3 ltac:(lia) ltac:(lia))%Z|]. apply bq_in. vm_compute. reflexivity.
  - refine (bq_chunk_holds 10 4 _ [80; 65; 82; 49] gx_pages gx_cells _ _ _ _ _ _ gx_holds _); [reflexivity|reflexivity|reflexivity|reflexivity|lia|exact bq_readable|].
    intros x [= <-]. right. exists (Some 1, Some 7)%Z. split; [exact (Hb 1 7 ltac:(lia) ltac:(lia))%Z|]. apply bq_in. vm_compute. reflexivity.
  - refine (bq_chunk_holds 10 4 _ [80; 65; 82; 49] gx_pages gx_cells _ _ _ _ _ _ gx_holds _); [reflexivity|reflexivity|reflexivity|reflexivity|lia|exact bq_readable|].
    intros x [= <-]. left. exists 4, [7; 0]. split; [reflexivity|]. split; [right; reflexivity|discriminate].
  - refine (bq_chunk_holds 10 4 _ [80; 65; 82; 49] gx_pages gx_cells _ _ _ _ _ _ gx_holds _); [reflexivity|reflexivity|reflexivity|reflexivity|lia|exact bq_readable|]. discriminate.
Qed.
Example foreign_skip_case :
  ends_in wx_formats bq_file bq_meta /\ sd_try_from_thrift Checked (fm_schema bq_meta) = Ok bq_schema /\ file_acceptable bq_schema bq_meta /\ nth_error (sd_leaves bq_schema) 0 = Some bq_leaf /\
  Forall2 (group_holds (KNative NI32) wx_formats toy 100 bq_file 0 bq_leaf bq_truth) (fm_row_groups bq_meta) bq_cells /\
  (forall b v, bq_truth b v -> bq_wanted v = true -> bq_keep b = true) /\
  (forall rg i c, nth_error (rgm_columns rg) 0 = Some c ->
     cmd_statistics c = Ok None \/ (exists e, cmd_statistics c = Ok (Some (Err e))) \/ (exists s b, cmd_statistics c = Ok (Some (Ok s)) /\ bounds_stated (KNative NI32) s b /\ bq_keep b = true) ->
     bq_passes rg i = true) /\
  (exists md, read_metadata ex_file_meta Checked bq_file = Ok md /\ map rgm_num_rows (fmd_row_groups (filter_row_groups md bq_passes)) = [10; 10; 10]) /\
  filter (hit bq_wanted) (concat bq_cells) = [Some 7; Some 7; Some 5; Some 7; Some 7; Some 5; Some 7; Some 7; Some 5]%Z.
Proof.
  split; [|split; [vm_compute; reflexivity|split; [|split; [reflexivity|split; [exact bq_holds|split; [|split; [|split; [|reflexivity]]]]]]]].
  - exists ([80; 65; 82; 49] ++ stored_chunk ex_header gx_pages). split; [reflexivity|].
    split; [vm_compute; discriminate|]. split; [vm_compute; reflexivity|].
    apply (of_codec_reads_back c_file_meta). refine (of_codec_sound c_file_meta 0 (t_enc ex_file_meta bq_meta) bq_meta [] _). vm_compute. reflexivity.
  - split; [|cbn; lia]. repeat (apply Forall_cons; [split; [reflexivity|split; [cbn; lia|split; [cbn; lia|apply Forall_cons; [|apply Forall_nil]]]]; split; [vm_compute; repeat split; discriminate|discriminate]|]). apply Forall_nil.
  - unfold bq_truth, bq_wanted, bq_keep. intros [lo [hi|]] v; cbn [fst snd]; [lia|reflexivity].
  - intros rg i c E H. unfold bq_passes. destruct (rgm_columns rg) as [|c' r]; [discriminate E|]. injection E as ->.
    destruct H as [-> |[[e ->]|(s & b & -> & (p & x & -> & ->) & H)]]; [reflexivity|reflexivity|exact H].
  - exists (metadata_of bq_schema bq_meta). split; vm_compute; reflexivity.
Qed.

(** C137. The same for columns of any nesting, with the entries of the column in place of its cells. *)
Theorem foreign_skip_nested : forall k F C m file t schema j leaf truth entries (keep : option (value k) * option (value k) -> bool) (wanted : value k -> bool) (passes : row_group_md -> nat -> bool) scratch max,
  ends_in F file t -> sd_try_from_thrift m (fm_schema t) = Ok schema -> file_acceptable schema t -> nth_error (sd_leaves schema) j = Some leaf -> ValuesSpec.column_of k (cd_descriptor leaf) ->
  Forall2 (group_holds_nested k F C max file j leaf truth) (fm_row_groups t) entries ->
  (forall b v, truth b v -> wanted v = true -> keep b = true) ->
  (forall rg i c, nth_error (rgm_columns rg) j = Some c ->
     cmd_statistics c = Ok None \/ (exists e, cmd_statistics c = Ok (Some (Err e))) \/ (exists s b, cmd_statistics c = Ok (Some (Ok s)) /\ bounds_stated k s b /\ keep b = true) ->
     passes rg i = true) ->
  exists md kept,
    read_metadata (f_file F) m file = Ok md /\
    Forall2 (group_reads_nested k (f_header F) C m scratch max file j) (fmd_row_groups (filter_row_groups md passes)) kept /\
    filter (fun e => hit wanted (en_value e)) (concat kept) = filter (fun e => hit wanted (en_value e)) (concat entries).
Proof.
  intros k F C m file t schema j leaf truth entries keep wanted passes scratch max He Hs Ha El Hk Hg Hsound Hpass.
  exists (metadata_of schema t). set (h := fun e : entry (value k) => hit wanted (en_value e)).
  assert (Eopen : read_metadata (f_file F) m file = Ok (metadata_of schema t)) by (apply foreign_opened; assumption).
  assert (H : Forall2 (fun rg l => group_reads_nested k (f_header F) C m scratch max file j rg l /\ forall i, passes rg i = false -> filter h l = []) (fmd_row_groups (metadata_of schema t)) entries).
  { cbn [metadata_of fmd_row_groups]. clear - Hg El Hk Hsound Hpass. induction Hg as [|g l groups cells (chunk & meta & codec & pages & dict & cellss & E1 & E2 & Hst & Hl & Hr & Hv & Hh & ->) _ IH]; [constructor|].
    cbn [map]. apply Forall2_cons; [|exact IH].
    assert (E3 : nth_error (rgm_columns (group_of schema g)) j = Some (mk_cmd chunk leaf)).
    { cbn [group_of rgm_columns]. rewrite nth_error_map. erewrite nth_error_combine; [|exact E1|exact El]. reflexivity. }
    split.
    - destruct (foreign_nested_column_read k (f_header F) C m file (mk_cmd chunk leaf) codec pages dict cellss scratch max Hl Hr Hv Hk Hh) as (r & ps & R1 & R2 & R3 & R4).
      exists (mk_cmd chunk leaf), r, dict, ps, (firstn (length ps) cellss). split; [exact E3|]. split; [exact R1|]. split; [exact R2|]. split; [exact R3|]. symmetry. exact R4.
    - intros i Hp. destruct (filter h (concat cellss)) as [|x rest] eqn:Ef; [reflexivity|exfalso].
      assert (Hx : In x (filter h (concat cellss))) by (rewrite Ef; left; reflexivity). apply filter_In in Hx as [Hx Hhit]. unfold h in Hhit. destruct (en_value x) as [v|] eqn:Ex; [|discriminate Hhit]. cbn [hit] in Hhit.
      assert (T : passes (group_of schema g) i = true); [|congruence]. apply (Hpass _ i _ E3).
      destruct (cm_statistics meta) as [s|] eqn:Es.
      + destruct (foreign_statistics k (mk_cmd chunk leaf) meta s Hk E2 Es) as [S1 S2]. destruct (Hst s eq_refl) as [Hb|(b & Hb & Htrue)]; [right; left; exists OutOfSpec; exact (S2 Hb)|].
        destruct (S1 b Hb) as (st & A1 & A2 & _). right. right. exists st, b. split; [exact A1|]. split; [exact A2|]. exact (Hsound b v (Htrue x v Hx Ex) Hhit).
      + left. unfold cmd_statistics, cmd_meta. cbn [cmd_chunk]. rewrite E2. cbn [bind]. rewrite Es. reflexivity. }
  destruct (filter_from_cells h passes _ _ _ 0 H) as (kept & K1 & K2). exists kept. split; [exact Eopen|]. split; [exact K1|exact K2].
Qed.
Print Assumptions foreign_skip_nested.

(** Two row groups of a column of optional lists: the first has the last page of the example of C133, with [-1; 1], and says so; the second has all three and no statistics. *)
Definition bn_leaf := nth 0 (sd_leaves nx_schema) (mk_cdescr nx_desc [] (Primitive (d_primitive nx_desc))).
Definition bn_chunk (values : Z) (at_ : N) (s : option t_statistics) :=
  mk_tcc None 0 (Some (mk_tcm 1 [] [[108]; [101]] 1 values 90 90 None (Z.of_N at_) None None s None None)) None None None None None None.
Definition bn_start := 6 + nlen (stored_chunk ex_header (firstn 2 hx_pages)).
Definition bn_groups := [mk_trg [bn_chunk 2 bn_start (Some (bq_stats [255; 255; 255; 255] [1; 0; 0; 0]))] 90 1 None None None None; mk_trg [bn_chunk 7 6 None] 90 5 None None None None].
Definition bn_meta := mk_tfm 2 (sd_into_thrift nx_schema) 6 bn_groups None None None None None.
Definition bn_tail := t_enc ex_file_meta bn_meta ++ to_le 4 (nlen (t_enc ex_file_meta bn_meta)) ++ [80; 65; 82; 49].
Definition bn_file := [80; 65; 82; 49; 0; 0] ++ stored_chunk ex_header hx_pages ++ bn_tail.
Definition bn_entries : list (list (entry Z)) := [concat (skipn 2 nx_entries); concat nx_entries].
Definition bn_between (lo hi : Z) (e : entry Z) : bool := bq_between lo hi (en_value e).
Lemma bn_holds : Forall2 (group_holds_nested (KNative NI32) wx_formats toy 100 bn_file 0 bn_leaf bq_truth) (fm_row_groups bn_meta) bn_entries.
Proof.
  destruct foreign_file_read_case as (_ & _ & _ & _ & _ & _ & Hr & Hh).
  apply Forall2_cons; [|apply Forall2_cons; [|apply Forall2_nil]].
  - eexists (bn_chunk 2 bn_start (Some (bq_stats [255; 255; 255; 255] [1; 0; 0; 0]))), _, Snappy, (skipn 2 hx_pages), (Some hx_words), (skipn 2 nx_entries).
    split; [reflexivity|]. split; [reflexivity|]. split; [|split; [|split; [|split; [reflexivity|split; [|reflexivity]]]]].
    + intros x [= <-]. right. exists (Some (-1), Some 1)%Z. split; [split; cbn; (split; [split; [lia|reflexivity]|exact I])|]. intros e v Hin Ev.
      assert (E : forallb (bn_between (-1) 1) (concat (skipn 2 nx_entries)) = true) by (vm_compute; reflexivity). rewrite forallb_forall in E. specialize (E _ Hin).
      assert (E' : bq_between (-1) 1 (Some v) = true) by exact (eq_trans (f_equal (bq_between (-1) 1) (eq_sym Ev)) E). cbn [bq_between] in E'. unfold bq_truth. cbn [fst snd]. lia.
    + eexists _, ([80; 65; 82; 49; 0; 0] ++ stored_chunk ex_header (firstn 2 hx_pages)), bn_tail. split; [reflexivity|]. split; [vm_compute; reflexivity|]. split; [vm_compute; reflexivity|]. repeat split.
    + inversion Hr as [|? ? _ H1]; subst. inversion H1 as [|? ? _ H2]; subst. exact H2.
    + inversion Hh as [|? ? ? ? _ H1]; subst. inversion H1 as [|? ? ? ? _ H2]; subst. exact H2.
  - eexists (bn_chunk 7 6 None), _, Snappy, hx_pages, (Some hx_words), nx_entries.
    split; [reflexivity|]. split; [reflexivity|]. split; [discriminate|split; [|split; [exact Hr|split; [reflexivity|split; [exact Hh|reflexivity]]]]].
    eexists _, [80; 65; 82; 49; 0; 0], bn_tail. split; [reflexivity|]. split; [reflexivity|]. split; [vm_compute; reflexivity|]. repeat split.
Qed.
Example foreign_skip_nested_case :
  ends_in wx_formats bn_file bn_meta /\ sd_try_from_thrift Checked (fm_schema bn_meta) = Ok nx_schema /\ file_acceptable nx_schema bn_meta /\ nth_error (sd_leaves nx_schema) 0 = Some bn_leaf /\
  Forall2 (group_holds_nested (KNative NI32) wx_formats toy 100 bn_file 0 bn_leaf bq_truth) (fm_row_groups bn_meta) bn_entries /\
  (exists md, read_metadata ex_file_meta Checked bn_file = Ok md /\ map rgm_num_rows (fmd_row_groups (filter_row_groups md bq_passes)) = [5]) /\
  map en_value (filter (fun e => hit bq_wanted (en_value e)) (concat bn_entries)) = [Some 7; Some 7]%Z.
Proof.
  split; [|split; [vm_compute; reflexivity|split; [|split; [reflexivity|split; [exact bn_holds|split; [|vm_compute; reflexivity]]]]]].
  - exists ([80; 65; 82; 49; 0; 0] ++ stored_chunk ex_header hx_pages). split; [reflexivity|].
    split; [vm_compute; discriminate|]. split; [vm_compute; reflexivity|].
    apply (of_codec_reads_back c_file_meta). refine (of_codec_sound c_file_meta 0 (t_enc ex_file_meta bn_meta) bn_meta [] _). vm_compute. reflexivity.
  - split; [|cbn; lia]. repeat (apply Forall_cons; [split; [reflexivity|split; [cbn; lia|split; [cbn; lia|apply Forall_cons; [|apply Forall_nil]]]]; split; [vm_compute; repeat split; discriminate|discriminate]|]). apply Forall_nil.
  - exists (metadata_of nx_schema bn_meta). split; vm_compute; reflexivity.
Qed.
