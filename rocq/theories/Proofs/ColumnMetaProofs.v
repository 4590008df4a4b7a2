(** Lemmas about what column chunks answer about themselves. *)
From Verif Require Import Base.Prelude Model.Types Model.Thrift Model.Page Model.Io Model.Intervals Model.Schema Model.Statistics Model.Metadata Model.ColumnMeta
  Spec.SchemaSpec Spec.MetadataSpec Spec.AcceptSpec Spec.ColumnMetaSpec Proofs.TypesFacts Proofs.SchemaProofs Proofs.MetadataProofs Proofs.AcceptProofs Proofs.ErrorsProofs.
Open Scope N_scope.

Lemma some_metadata c meta : cc_meta (cmd_chunk c) = Some meta -> answers c meta.
Proof.
  intros H. unfold answers, cmd_num_values, cmd_compressed_size, cmd_uncompressed_size, cmd_data_page_offset, cmd_index_page_offset,
    cmd_dictionary_page_offset, cmd_has_index_page, cmd_column_encoding, cmd_statistics, cmd_meta. rewrite H. cbn [bind].
  do 6 (split; [reflexivity|]). split; [|split; [reflexivity|split]].
  - destruct (cm_index_page_offset meta) as [o|]; eexists; (split; [reflexivity|]); split; intros X; try discriminate X; eauto. destruct X as [o X]; discriminate X.
  - intros ->. reflexivity.
  - intros s ->. pose proof (deserialize_no_panic s (d_primitive (cd_descriptor (cmd_descr c)))) as P.
    destruct (deserialize_statistics s _) as [x|e|] eqn:E; [exists (Ok x)|exists (Err e)|contradiction]; repeat split; discriminate.
Qed.
Lemma no_metadata c : cc_meta (cmd_chunk c) = None -> all_panic c.
Proof.
  intros H. unfold all_panic, cmd_num_values, cmd_compressed_size, cmd_uncompressed_size, cmd_data_page_offset, cmd_index_page_offset,
    cmd_dictionary_page_offset, cmd_has_index_page, cmd_column_encoding, cmd_statistics, cmd_compression, byte_range, cmd_meta. rewrite H. cbn [bind].
  repeat split.
Qed.
Lemma opened_parts m t f : file_from_thrift m t = Ok f ->
  exists s, sd_try_from_thrift m (fm_schema t) = Ok s /\ file_acceptable s t /\ f = metadata_of s t.
Proof.
  intros H. pose proof H as H'. unfold file_from_thrift in H'. apply bind_ok in H' as (s & Hs & _). exists s. split; [exact Hs|].
  destruct (file_exact m s t Hs) as [[A E]|[_ E]]; rewrite E in H; [|discriminate H]. apply Ok_inj in H. auto.
Qed.
Lemma opened_column m t f g c : file_from_thrift m t = Ok f -> In g (fmd_row_groups f) -> In c (rgm_columns g) ->
  chunk_acceptable (cmd_chunk c) /\ In (cmd_descr c) (sd_leaves (fmd_schema f)).
Proof.
  intros H Hg Hc. apply opened_parts in H as (s & Hs & [Ha _] & ->). cbn [metadata_of fmd_row_groups fmd_schema] in *.
  apply in_map_iff in Hg as (rg & <- & Hrg). rewrite Forall_forall in Ha. destruct (Ha rg Hrg) as (_ & _ & _ & Hch).
  cbn [group_of rgm_columns] in Hc. apply in_map_iff in Hc as ([ch d] & <- & Hin). cbn [fst snd cmd_chunk cmd_descr].
  rewrite Forall_forall in Hch. split; [apply Hch; exact (in_combine_l _ _ _ _ Hin)|exact (in_combine_r _ _ _ _ Hin)].
Qed.

(** Every leaf below a field has it as its base, and a path that begins with the path so far and the name of the type. *)
Lemma build_tree_below m base : forall t rep def leaves path leaves' path', build_tree m t base rep def leaves path = Ok (leaves', path') ->
  path' = path ++ [type_name t] /\
  exists new, leaves' = leaves ++ new /\ Forall (fun d => cd_base d = base /\ exists rest, cd_path d = path ++ type_name t :: rest) new.
Proof.
  induction t as [p|i l c fields IH] using parquet_ind; intros rep def leaves path leaves' path' H; cbn [build_tree] in H;
    apply bind_ok in H as (def' & _ & H); apply bind_ok in H as (rep' & _ & H).
  - apply Ok_inj in H. apply pair_equal_spec in H as [<- <-]. split; [reflexivity|]. eexists. split; [reflexivity|]. constructor; [|constructor].
    split; [reflexivity|]. exists []. reflexivity.
  - set (q := path ++ [type_name (Group i l c fields)]) in *.
    assert (Hgo : forall fs lv, (forall f, In f fs -> In f fields) -> 
      (fix go (fields : list parquet_type) (leaves : list column_descriptor) (path : list (list N)) :=
         match fields with
         | [] => Ok (leaves, path)
         | f :: r => let* (leaves, path) := build_tree m f base rep' def' leaves path in go r leaves (removelast path)
         end) fs lv q = Ok (leaves', path') ->
      path' = q /\ exists new, leaves' = lv ++ new /\ Forall (fun d => cd_base d = base /\ exists rest, cd_path d = q ++ rest) new).
    { induction fs as [|f fs IHfs]; intros lv Hsub E.
      - apply Ok_inj in E. apply pair_equal_spec in E as [<- <-]. split; [reflexivity|]. exists []. rewrite app_nil_r. split; [reflexivity|constructor].
      - apply bind_ok in E as ([lv1 p1] & E1 & E). rewrite Forall_forall in IH. apply IH in E1 as (-> & new1 & -> & F1); [|apply Hsub; left; reflexivity].
        rewrite removelast_last in E. apply IHfs in E as (-> & new2 & -> & F2); [|intros x Hx; apply Hsub; right; exact Hx].
        split; [reflexivity|]. exists (new1 ++ new2). rewrite app_assoc. split; [reflexivity|]. apply Forall_app. split; [|exact F2].
        eapply Forall_impl; [|exact F1]. cbn beta. intros d [B [rest P]]. split; [exact B|]. eexists. exact P. }
    apply Hgo in H as (-> & new & -> & F); [|auto]. split; [reflexivity|]. exists new. split; [reflexivity|].
    eapply Forall_impl; [|exact F]. cbn beta. intros d [B [rest P]]. split; [exact B|]. exists rest. rewrite P. unfold q. rewrite <- app_assoc. reflexivity.
Qed.
Lemma build_all_below m : forall fields leaves leaves', build_all m fields leaves = Ok leaves' ->
  exists new, leaves' = leaves ++ new /\ Forall (fun d => In (cd_base d) fields /\ exists rest, cd_path d = type_name (cd_base d) :: rest) new.
Proof.
  induction fields as [|f fields IH]; intros leaves leaves' H; cbn [build_all] in H.
  - apply Ok_inj in H. subst. exists []. rewrite app_nil_r. split; [reflexivity|constructor].
  - apply bind_ok in H as ([lv p] & E & H). apply build_tree_below in E as (_ & new1 & -> & F1). apply IH in H as (new2 & -> & F2).
    exists (new1 ++ new2). rewrite app_assoc. split; [reflexivity|]. apply Forall_app. split.
    + eapply Forall_impl; [|exact F1]. cbn beta. intros d [B [rest P]]. rewrite B. split; [left; reflexivity|]. exists rest. exact P.
    + eapply Forall_impl; [|exact F2]. cbn beta. intros d [B P]. split; [right; exact B|exact P].
Qed.
Lemma schema_leaves m l s : sd_try_from_thrift m l = Ok s ->
  Forall (fun d => In (cd_base d) (sd_fields s) /\ exists rest, cd_path d = type_name (cd_base d) :: rest) (sd_leaves s).
Proof.
  intros H. unfold sd_try_from_thrift in H. apply bind_ok in H as (t & _ & H). destruct t as [p|i lg cv fields]; [discriminate H|].
  cbn [sd_try_from_type] in H. unfold sd_new in H. apply bind_ok in H as (leaves & E & H). apply Ok_inj in H. subst s. cbn [sd_fields sd_leaves].
  apply build_all_below in E as (new & -> & F). exact F.
Qed.

Lemma collect_sizes : forall l metas, Forall2 (fun c meta => cc_meta (cmd_chunk c) = Some meta) l metas ->
  collect_res (map (fun c => let* meta := cmd_meta c in Ok (as_usize (cm_compressed_size meta))) l) = Ok (map (fun meta => as_usize (cm_compressed_size meta)) metas).
Proof.
  induction 1 as [|c meta l metas Hc _ IH]; [reflexivity|]. cbn [map collect_res]. unfold cmd_meta at 1. rewrite Hc. cbn [bind]. rewrite IH. reflexivity.
Qed.
Lemma collect_sizes_none : forall l, (exists c, In c l /\ cc_meta (cmd_chunk c) = None) ->
  collect_res (map (fun c => let* meta := cmd_meta c in Ok (as_usize (cm_compressed_size meta))) l) = Panic.
Proof.
  induction l as [|c l IH]; intros (x & Hx & E); [destruct Hx|]. cbn [map collect_res]. unfold cmd_meta at 1. destruct (cc_meta (cmd_chunk c)) as [meta|] eqn:Ec; [|reflexivity].
  cbn [bind]. rewrite IH; [reflexivity|]. destruct Hx as [->|Hx]; [congruence|]. exists x. auto.
Qed.
Lemma usum_checked l total : total = fold_right N.add 0 l -> Forall (fun x => x < 2 ^ 64) l ->
  (total < 2 ^ 64 -> usum Checked l = Ok total) /\ (2 ^ 64 <= total -> usum Checked l = Panic).
Proof.
  intros E H. revert total E. change (2 ^ 64) with 18446744073709551616 in *. induction H as [|x l Hx Hl IH]; intros total ->.
  - split; [reflexivity|]. cbn. lia.
  - cbn [fold_right usum]. destruct (IH _ eq_refl) as [I1 I2]. set (r := fold_right N.add 0 l) in *. split; intros X.
    + rewrite I1 by lia. cbn [bind]. unfold uadd. change (2 ^ 64) with 18446744073709551616.
      match goal with |- context [if ?b then _ else _] => destruct b eqn:E end; [reflexivity|lia].
    + destruct (N.lt_ge_cases r 18446744073709551616) as [Hr|Hr]; [|rewrite I2 by exact Hr; reflexivity].
      rewrite I1 by exact Hr. cbn [bind]. unfold uadd. change (2 ^ 64) with 18446744073709551616.
      match goal with |- context [if ?b then _ else _] => destruct b eqn:E end; [lia|reflexivity].
Qed.
Lemma usum_wrapping l : usum Wrapping l = Ok (fold_right N.add 0 l mod 2 ^ 64).
Proof.
  induction l as [|x l IH]; [reflexivity|]. cbn [usum fold_right]. rewrite IH. cbn [bind]. unfold uadd.
  set (r := fold_right N.add 0 l). rewrite <- (N.add_mod_idemp_r x r) by discriminate.
  match goal with |- context [if ?b then _ else _] => destruct b eqn:E end; [|reflexivity].
  f_equal. symmetry. apply N.mod_small. apply N.ltb_lt. exact E.
Qed.
Lemma sum_sizes_fold metas : Forall (fun meta => (0 <= cm_compressed_size meta < 2 ^ 63)%Z) metas ->
  fold_right N.add 0 (map (fun meta => as_usize (cm_compressed_size meta)) metas) = sum_sizes metas /\
  Forall (fun x => x < 2 ^ 64) (map (fun meta => as_usize (cm_compressed_size meta)) metas).
Proof.
  change (2 ^ 63)%Z with 9223372036854775808%Z. change (2 ^ 64) with 18446744073709551616.
  induction 1 as [|meta metas Hm _ [I1 I2]]; [split; [reflexivity|constructor]|]. cbn [map fold_right sum_sizes].
  rewrite I1. unfold chunk_length. rewrite as_usize_nonneg by lia. split; [reflexivity|]. constructor; [lia|exact I2].
Qed.
Lemma sum_sizes_bound metas : Forall (fun meta => (0 <= cm_compressed_size meta < 2 ^ 63)%Z) metas -> sum_sizes metas <= nlen metas * (2 ^ 63).
Proof.
  change (2 ^ 63)%Z with 9223372036854775808%Z. change (2 ^ 63) with 9223372036854775808.
  induction 1 as [|meta metas Hm _ IH]; [cbn; lia|]. cbn [sum_sizes]. unfold chunk_length, nlen in *. cbn [length]. lia.
Qed.
