(** C127: skipping row groups by the statistics of a column chunk. *)
From Verif Require Import Base.Prelude Base.Codec Base.LeFacts Model.Types Model.Native Model.Thrift Model.Intervals Model.Page Model.Io Model.Statistics Model.PageWrite
  Model.Compression Model.ColumnWrite Model.Schema Model.Metadata Model.ColumnMeta Model.FileWrite Spec.PlainSpec Spec.StatsSpec Spec.ChunkSpec
  Spec.SchemaSpec Spec.MetadataSpec Spec.FileSpec Spec.ValuesSpec Spec.SkipSpec
  Proofs.StatsProofs Proofs.ColumnWriteProofs Proofs.FileWriteProofs Proofs.IndexReadProofs Proofs.ThriftCodec Proofs.SkipProofs
  Props.PageIo Props.Statistics Props.Metadata Props.FileWrite Props.EndToEnd Props.Prune.
Open Scope N_scope.

(** C127. In a file that was written and opened, the statistics of a column chunk can be read, they have both bounds if some page has a value, and all values of
    the chunk are within them. This is so if each data page has statistics that are true and the bounds of the pages can be compared (see [comparable]); the
    bounds of the chunk are then the least minimum and the greatest maximum of the pages. If each page tells its number of nulls, so does the chunk. *)
Theorem chunk_bounds_true k F m schema stats gs kv file md i g rg j c cds cps pages :
  written_and_opened F m schema stats gs kv file md -> good_schema schema -> complete_groups schema gs ->
  nth_error gs i = Some g -> nth_error (fmd_row_groups md) i = Some rg ->
  nth_error g j = Some (inl (map inl (cds ++ cps))) -> nth_error (rgm_columns rg) j = Some c ->
  Forall (fun p => is_data p = false) cds -> cps <> [] -> Forall2 (honest_page k) cps pages ->
  Forall (page_of_type (d_primitive (cd_descriptor (cmd_descr c)))) (data_pages cps) ->
  comparable k (known (map (fun x => fst (fst x)) pages)) -> comparable k (known (map (fun x => snd (fst x)) pages)) ->
  nlen (concat (map snd pages)) < 2 ^ 63 ->
  exists s b, cmd_statistics c = Ok (Some (Ok s)) /\ bounds_stated k s b /\
    extreme (value_le k) (known (map (fun x => fst (fst x)) pages)) (fst b) /\ extreme (fun x y => value_le k y x) (known (map (fun x => snd (fst x)) pages)) (snd b) /\
    (forall v, In (Some v) (concat (map snd pages)) -> within k b v) /\
    (Forall counts_nulls cps -> stats_null_count s = Some (nulls (concat (map snd pages)))).
Proof.
  intros H Hg Hc E1 E2 E3 E4 Hcds Hne Hhon Hty C1 C2 Hlen.
  destruct (opened_summed _ _ _ _ _ _ _ _ _ _ _ _ _ _ H Hg Hc E1 E2 E3 E4) as (_ & pos & l & specs & meta & El & Em & Hsp & m' & red & Hred & Hser). cbn [snd] in El.
  injection El as El. assert (l = cds ++ cps) as -> by (clear - El; revert l El; generalize (cds ++ cps); induction l as [|x l IH]; intros [|y r] E; try discriminate; [reflexivity|]; injection E as -> E; f_equal; apply IH; exact E).
  set (p := d_primitive (cd_descriptor (cmd_descr c))) in *.
  assert (Hs : exists st, Forall2 (fun p s => exists d, p = CData d /\ cdp_statistics d = Ok (Some s)) cps st /\
    Forall2 (fun x cells => honest k (fst x) (snd x) cells) (combine st (map fst pages)) (map snd pages) /\ length st = length (map fst pages) /\
    Forall2 (bounds_stated k) st (map fst pages) /\ Forall (stats_of_type p) st /\ (Forall counts_nulls cps -> Forall (fun s => stats_null_count s <> None) st)).
  { clear - Hhon Hty. induction Hhon as [|q [b cells] cps pages (d & s & -> & Es & Hh) _ IH].
    - exists []. repeat split; constructor.
    - cbn [data_pages flat_map app] in Hty. inversion Hty as [|? ? [Hd Hb] Hty']; subst. destruct (IH Hty') as (st & A1 & A2 & A3 & A4 & A5 & A6).
      exists (s :: st). cbn [map fst snd combine length] in *. split; [constructor; [exists d; auto|exact A1]|]. split; [constructor; [exact Hh|exact A2]|]. split; [lia|].
      split; [constructor; [exact (proj1 Hh)|exact A4]|]. split.
      + constructor; [|exact A5]. unfold cdp_statistics in Es. rewrite Hd in Es. destruct (header_statistics (cdp_header d)) as [v|]; [|discriminate].
        destruct (deserialize_statistics v p) as [s'| |] eqn:Ev; try discriminate. cbn [bind] in Es. apply Ok_inj in Es. injection Es as ->.
        exact (proj1 (statistics_read_faithful v p s (proj1 Hb) (proj2 Hb) Ev)).
      + intros F. constructor; [|exact (A6 (Forall_inv_tail F))]. destruct (Forall_inv F) as (d' & s' & Ed & Es' & Hn). injection Ed as <-. congruence. }
  destruct Hs as (st & S1 & S2 & S3 & S4 & S5 & S6).
  pose proof (specs_known _ _ _ _ Hsp cds cps st eq_refl Hcds S1) as Hk.
  assert (Hst : st <> []) by (intros ->; inversion S1; subst; congruence).
  destruct (nulls_counts k st (map fst pages) (map snd pages) S2 S3) as (N1 & N2 & N3).
  assert (Hnn : (nulls (concat (map snd pages)) < 2 ^ 63)%Z).
  { unfold nulls, nlen in *. pose proof (filtered_length (fun c => match c with None => true | Some _ => false end) (concat (map snd pages))).
    change (2 ^ 63)%Z with 9223372036854775808%Z. change (2 ^ 63) with 9223372036854775808 in Hlen. lia. }
  destruct (merged k m' p _ st (map fst pages) Hk Hst S5 S4) as (r & b & R1 & R2 & R3 & R4 & R5 & R6);
    [rewrite map_map; exact C1|rewrite map_map; exact C2|split; [exact N1|eapply Z.le_lt_trans; [exact N2|exact Hnn]]|].
  rewrite Hred in R1. apply Ok_inj in R1. subst red. destruct (statistics_roundtrip p r R2) as (t & T1 & T2).
  rewrite T1 in Hser. cbn [bind] in Hser. apply Ok_inj in Hser.
  exists r, b. split; [unfold cmd_statistics, cmd_meta; rewrite Em; cbn [bind]; rewrite <- Hser; fold p; rewrite T2; reflexivity|].
  split; [exact R3|]. split; [rewrite map_map in R4; exact R4|]. split; [rewrite map_map in R5; exact R5|]. split.
  - intros v Hv. apply in_concat in Hv as (cells & Hc1 & Hc2). apply in_map_iff in Hc1 as ([b0 cells'] & E & Hin). cbn [snd] in E. subst cells'.
    eapply within_merged; [exact R4|exact R5|apply (in_map fst) in Hin; exact Hin|]. cbn [fst].
    clear - Hhon Hin Hc2. induction Hhon as [|q x cps pages (d & s & _ & _ & _ & Hh & _) _ IH]; [destruct Hin|]. destruct Hin as [->|Hin]; [exact (Hh v Hc2)|exact (IH Hin)].
  - intros Hf. rewrite R6. unfold known_sum. rewrite (N3 (S6 Hf)). destruct pages as [|x pages]; [inversion Hhon; subst; congruence|].
    change (Some (sum_Z (map nulls (map snd (x :: pages)))) = Some (nulls (concat (map snd (x :: pages))))). rewrite nulls_sum. reflexivity.
Qed.
Print Assumptions chunk_bounds_true.

(** C127. Somebody looks for row groups with a value that meets [wanted] in the column [j], and keeps those whose statistics of this column have bounds that pass
    the test [keep] (which passes all bounds between which a wanted value lies); what they do with a row group without readable statistics does not matter. Each
    row group with such a value is kept. *)
Theorem kept_row_groups_have_all_wanted k F m schema stats gs kv file md i g rg j c cds cps pages (keep : option (value k) * option (value k) -> bool) (wanted : value k -> Prop) (passes : row_group_md -> nat -> bool) :
  written_and_opened F m schema stats gs kv file md -> good_schema schema -> complete_groups schema gs ->
  nth_error gs i = Some g -> nth_error (fmd_row_groups md) i = Some rg ->
  nth_error g j = Some (inl (map inl (cds ++ cps))) -> nth_error (rgm_columns rg) j = Some c ->
  Forall (fun p => is_data p = false) cds -> Forall2 (honest_page k) cps pages ->
  Forall (page_of_type (d_primitive (cd_descriptor (cmd_descr c)))) (data_pages cps) ->
  comparable k (known (map (fun x => fst (fst x)) pages)) -> comparable k (known (map (fun x => snd (fst x)) pages)) ->
  nlen (concat (map snd pages)) < 2 ^ 63 ->
  (forall b v, within k b v -> wanted v -> keep b = true) ->
  (forall rg i c s b, nth_error (rgm_columns rg) j = Some c -> cmd_statistics c = Ok (Some (Ok s)) -> bounds_stated k s b -> keep b = true -> passes rg i = true) ->
  forall v, In (Some v) (concat (map snd pages)) -> wanted v -> In rg (fmd_row_groups (filter_row_groups md passes)).
Proof.
  intros H Hg Hc E1 E2 E3 E4 Hcds Hhon Hty C1 C2 Hlen Hkeep Hpass v Hv Hw.
  assert (Hne : cps <> []) by (intros ->; inversion Hhon; subst; destruct Hv).
  destruct (chunk_bounds_true k _ _ _ _ _ _ _ _ _ _ _ _ _ _ _ _ H Hg Hc E1 E2 E3 E4 Hcds Hne Hhon Hty C1 C2 Hlen) as (s & b & A1 & A2 & _ & _ & A3 & _).
  apply filter_row_groups_in. exists i. split; [exact E2|]. exact (Hpass rg i c s b E4 A1 A2 (Hkeep b v (A3 v Hv) Hw)).
Qed.
Print Assumptions kept_row_groups_have_all_wanted.

(** The file of the example of C125. *)
Definition sk_pages : list ((option Z * option Z) * list (option Z)) := [((Some 1, Some 7), [Some 1; None; Some 7]); ((Some (-1), Some (-1)), [None; Some (-1)])]%Z.
Definition sk_test (least : Z) (rg : row_group_md) (_ : nat) : bool :=
  match rgm_columns rg with
  | c :: _ => match cmd_statistics c with Ok (Some (Ok (SNative NI32 _ x))) => match st_max x with Some hi => (least <=? hi)%Z | None => true end | _ => true end
  | [] => true
  end.
Lemma sk_typed : Forall (page_of_type (d_primitive (cd_descriptor (cmd_descr px_column)))) (data_pages (skipn 1 px_compressed)).
Proof.
  replace (d_primitive (cd_descriptor (cmd_descr px_column))) with (d_primitive io_desc) by (vm_compute; reflexivity).
  unfold px_compressed, data_pages. cbn [skipn flat_map app]. repeat (apply Forall_cons; [split; [reflexivity|cbn; split; repeat constructor]|]); apply Forall_nil.
Qed.
Lemma sk_honest : Forall2 (honest_page (KNative NI32)) (skipn 1 px_compressed) sk_pages.
Proof.
  unfold px_compressed, sk_pages. cbn [skipn]. constructor; [|constructor; [|constructor]]; (eexists _, _; split; [reflexivity|]; split; [vm_compute; reflexivity|]);
    (split; [eexists _, _; split; reflexivity|]); (split; [|intros n E; vm_compute in E; injection E as <-; reflexivity]).
  - intros v [E|[E|[E|[]]]]; try discriminate E; injection E as <-; eexists _, _; (split; [reflexivity|cbn; lia]).
  - intros v [E|[E|[]]]; try discriminate E; injection E as <-; eexists _, _; (split; [reflexivity|cbn; lia]).
Qed.
Example chunk_bounds_true_case :
  (exists s, cmd_statistics px_column = Ok (Some (Ok s)) /\ bounds_stated (KNative NI32) s (Some (-1), Some 7)%Z /\ stats_null_count s = Some 2%Z) /\
  (forall v, In (Some v) (concat (map snd sk_pages)) -> within (KNative NI32) (Some (-1), Some 7)%Z v) /\
  fmd_row_groups (filter_row_groups px_md (sk_test 5)) = fmd_row_groups px_md /\ fmd_row_groups (filter_row_groups px_md (sk_test 8)) = [].
Proof.
  destruct (chunk_bounds_true (KNative NI32) wx_formats Checked wx_schema true [px_group] None px_file px_md 0 px_group (nth 0 (fmd_row_groups px_md) (mk_rgm [] 0 0)) 0 px_column
    (firstn 1 px_compressed) (skipn 1 px_compressed) sk_pages) as (s & b & A1 & A2 & _ & _ & A3 & A4).
  - exact px_opened.
  - exact wx_good.
  - split; [repeat constructor|vm_compute; reflexivity].
  - reflexivity.
  - vm_compute. reflexivity.
  - reflexivity.
  - vm_compute. reflexivity.
  - repeat constructor.
  - discriminate.
  - exact sk_honest.
  - exact sk_typed.
  - exact I.
  - exact I.
  - vm_compute. reflexivity.
  - assert (Eb : b = (Some (-1), Some 7)%Z).
    { assert (E : exists p n d, cmd_statistics px_column = Ok (Some (Ok (SNative NI32 p (mk_st n d (Some 7) (Some (-1))))))%Z) by (eexists _, _, _; vm_compute; reflexivity).
      destruct E as (p & n & d & E). rewrite E in A1. injection A1 as <-. destruct A2 as (p' & x & E' & ->). 
      apply (f_equal (fun s => match s with SNative NI32 _ x => (st_min x, st_max x) | _ => (None, None) end)) in E'. symmetry. exact E'. }
    subst b. split; [exists s; split; [exact A1|split; [exact A2|]]|].
    + rewrite A4; [reflexivity|]. unfold px_compressed. cbn [skipn]. repeat (apply Forall_cons; [eexists _, _; split; [reflexivity|]; split; [vm_compute; reflexivity|discriminate]|]). apply Forall_nil.
    + split; [exact A3|]. split; vm_compute; reflexivity.
Qed.
Example kept_row_groups_have_all_wanted_case : In (nth 0 (fmd_row_groups px_md) (mk_rgm [] 0 0)) (fmd_row_groups (filter_row_groups px_md (sk_test 5))).
Proof.
  refine (kept_row_groups_have_all_wanted (KNative NI32) wx_formats Checked wx_schema true [px_group] None px_file px_md 0 px_group (nth 0 (fmd_row_groups px_md) (mk_rgm [] 0 0)) 0 px_column
    (firstn 1 px_compressed) (skipn 1 px_compressed) sk_pages px_keep (fun v => 5 <= v)%Z (sk_test 5) px_opened wx_good _ _ _ _ _ _ sk_honest sk_typed I I _ _ _ 7%Z _ _).
  - split; [repeat constructor|vm_compute; reflexivity].
  - reflexivity.
  - vm_compute. reflexivity.
  - reflexivity.
  - vm_compute. reflexivity.
  - repeat constructor.
  - vm_compute. reflexivity.
  - intros b v (lo & hi & -> & _ & L) Hv. cbn [value_le value carrier] in L. unfold px_keep. cbn [snd]. apply Z.leb_le. lia.
  - intros rg i c s b Ec Es (p & x & -> & ->) Hk. unfold sk_test. destruct (rgm_columns rg) as [|c' l]; [discriminate Ec|]. injection Ec as ->. rewrite Es. exact Hk.
  - cbn. auto.
  - lia.
Qed.

(** C127 is false if a page has no statistics: the chunk has the bounds of the others. The second page holds the value 9, the chunk claims that 7 is the greatest,
    and a test for values of at least 9 skips the row group. *)
Definition su_pages : list page :=
  [PDict (mk_dict [1; 0; 0; 0; 7; 0; 0; 0] 2 true);
   PData (mk_dp (HV1 (mk_tdh 3 8 3 3 (Some (wx_stats 1 [1; 0; 0; 0] [7; 0; 0; 0])))) [2; 0; 0; 0; 3; 5; 1; 3; 2] io_desc (Some [mk_iv 0 3]));
   PData (mk_dp (HV2 (mk_tdh2 2 1 2 0 2 0 (Some true) None)) [3; 2; 9; 0; 0; 0] io_desc (Some [mk_iv 0 2]))].
Definition su_compressed : list compressed_page :=
  [CDict (mk_cdict [1; 0; 0; 0; 7; 0; 0; 0; 0] Snappy 2 8 true);
   CData (mk_cdp (HV1 (mk_tdh 3 8 3 3 (Some (wx_stats 1 [1; 0; 0; 0] [7; 0; 0; 0])))) [2; 0; 0; 0; 3; 5; 1; 3; 2; 0] Snappy 9 io_desc (Some [mk_iv 0 3]));
   CData (mk_cdp (HV2 (mk_tdh2 2 1 2 0 2 0 (Some true) None)) [3; 2; 9; 0; 0; 0; 0] Snappy 6 io_desc (Some [mk_iv 0 2]))].
Definition su_group : row_group_iter := [inl (map inl su_compressed); inl (map inl [wx_b_page 5])].
Definition su_written := fst (fw_write wx_formats Checked (fw_new (mk_sink [] None) wx_schema false 2%Z (Some [109])) su_group).
Definition su_ended : file_writer * res N := fw_end wx_formats Checked su_written None.
Definition su_file : list N := sk_data (fw_sink (fst su_ended)).
Definition su_meta : t_file_meta := match fw_metadata (fst su_ended) with Some t => t | None => mk_tfm 0 [] 0 [] None None None None None end.
Definition su_md : file_md := match read_metadata ex_file_meta Checked su_file with Ok md => md | _ => mk_fmd 0 0 None [] None wx_schema None end.
Theorem skipped_row_group_refuted :
  written_and_opened wx_formats Checked wx_schema false [su_group] None su_file su_md /\
  Forall2 (stores (KNative NI32) io_desc (Some [1; 7]%Z)) su_pages [[]; [Some 1; None; Some 7]; [None; Some 9]]%Z /\
  (exists rg c s, fmd_row_groups su_md = [rg] /\ nth_error (rgm_columns rg) 0 = Some c /\ cmd_statistics c = Ok (Some (Ok s)) /\ bounds_stated (KNative NI32) s (Some 1, Some 7)%Z) /\
  fmd_row_groups (filter_row_groups su_md (sk_test 9)) = [].
Proof.
  split; [|split; [|split]].
  - exists (mk_sink [] None), 2%Z, (Some [109]), su_written, (fst su_ended), (nlen su_file), su_meta.
    split; [ reflexivity | ]. split.
    { apply history_ok with (w1 := su_written); [ | apply history_nil ]. vm_compute. reflexivity. }
    split; [ vm_compute; reflexivity | ]. split; [ reflexivity | ]. split; [ vm_compute; reflexivity | ].
    split; [ vm_compute; reflexivity | ]. split; [ vm_compute; reflexivity | ]. split; [ | vm_compute; reflexivity ].
    apply (of_codec_reads_back c_file_meta). refine (of_codec_sound c_file_meta 0 (t_enc ex_file_meta su_meta) su_meta [] _). vm_compute. reflexivity.
  - unfold su_pages. constructor; [ | constructor; [ | constructor; [ | constructor ] ] ].
    + eapply stores_dictionary; [ reflexivity | | reflexivity ]. split; [ repeat (apply Forall_cons; [ vm_compute; split; [ discriminate | reflexivity ] | ]); apply Forall_nil | reflexivity ].
    + apply stores_positions with (entries := [1; 7]%Z) (positions := [0; 1]) (w := 1%nat) (bytes := [3; 2]); try reflexivity; [ discriminate | right; reflexivity | lia | repeat constructor | ].
      split; [ reflexivity | ]. split; [ reflexivity | ]. split; [ reflexivity | ]. split; [ reflexivity | ]. exists [3; 5]. vm_compute. repeat split.
    + apply stores_plain with (bytes := [9; 0; 0; 0]); [ reflexivity | | ].
      * split; [ apply Forall_cons; [ vm_compute; split; [ discriminate | reflexivity ] | apply Forall_nil ] | reflexivity ].
      * split; [ reflexivity | ]. split; [ reflexivity | ]. split; [ reflexivity | ]. split; [ reflexivity | ]. exists [3; 2]. vm_compute. repeat split.
  - eexists _, _, _. split; [vm_compute; reflexivity|]. split; [vm_compute; reflexivity|]. split; [vm_compute; reflexivity|]. eexists _, _. split; reflexivity.
  - vm_compute. reflexivity.
Qed.
Print Assumptions skipped_row_group_refuted.
