(** C96: chunks of any writer. *)
From Verif Require Import Base.Prelude Base.Iter Model.Types Model.Thrift Model.Intervals Model.Page Model.Io Model.PageRead
  Spec.PagesSpec Spec.ForeignSpec Proofs.PageIoProofs Proofs.ForeignProofs Proofs.ThriftCodec Props.PageIo.
Open Scope N_scope.

(** The pages of a chunk come back as their writer stored them, in order, up to the one with the last of the [total] values, without the
    data pages that the filter rejects; [rest] is whatever follows. In particular a dictionary page is sorted exactly if its header says so. *)
Theorem foreign_chunk_read T m l rest total c d f scratch max :
  Forall (readable T max) l -> (total <= values_of (map snd l))%Z -> (values_of (map snd l) < 2 ^ 63)%Z ->
  let pages := needed total (map snd l) in
  exists r', runs (pr_next T m) (pr_new (stored_chunk T l ++ rest) total c d f scratch max)
      (map inl (map (as_stored c d) (filter (wanted (f d)) pages))) r' /\
    pr_source r' = stored_chunk T (skipn (length pages) l) ++ rest.
Proof.
  intros Hall Htot Hmax pages. set (r := pr_new (stored_chunk T l ++ rest) total c d f scratch max).
  assert (Hnn : (0 <= values_of (map snd l))%Z).
  { clear - Hall. induction Hall as [|y l (_ & _ & _ & _ & Hy) _ IH]; cbn [map]; [reflexivity|rewrite values_of_cons; lia]. }
  destruct (foreign_step T m rest l r) as (x & r1 & r' & H1 & H2 & H3); [reflexivity|exact Hall|unfold r; cbn [pr_new pr_total pr_seen]; lia..|].
  unfold r in H2, H3. cbn [pr_new pr_total pr_seen pr_compression pr_descriptor pr_filter] in H2, H3. rewrite Z.sub_0_r in H2, H3. fold pages in H2, H3.
  exists r'. split; [|exact H2]. specialize (H1 (S (length (pr_source r))) (Nat.lt_succ_diag_r _)). destruct x as [a|].
  - destruct H3 as (items & -> & Hr). eapply runs_cons; [exact H1|exact Hr].
  - destruct H3 as [-> ->]. apply runs_nil. exact H1.
Qed.
Print Assumptions foreign_chunk_read.

(** A sorted dictionary page with a checksum, then a page with a header of both versions. *)
Definition foreign_chunk : list (t_page_header * compressed_page) :=
  [(mk_tph 2 8 8 (Some 99%Z) None None (Some (mk_tdict 2 0 (Some true))) None, io_dict);
   (mk_tph 3 2 2 (Some (-5)%Z) (Some (mk_tdh 3 8 3 3 None)) None None
      (Some (mk_tdh2 2 1 2 0 1 0 (Some true) (Some (mk_tstats None None (Some 1%Z) None None None)))), io_v2)].
Example foreign_chunk_read_case :
  Forall (readable ex_header 100) foreign_chunk /\
  drain_st (pr_next ex_header Checked) 5 (io_reader (stored_chunk ex_header foreign_chunk ++ [77]) 2 (fun _ _ => true) 100) =
    Ok ([inl (as_stored Snappy io_desc io_dict); inl (as_stored Snappy io_desc io_v2)],
        pr_at (io_reader [] 2 (fun _ _ => true) 100) [77] 2 []) /\
  match as_stored Snappy io_desc io_dict with CDict d => cdi_is_sorted d = true | CData _ => False end.
Proof.
  split; [|split; [vm_compute; reflexivity|reflexivity]].
  repeat apply Forall_cons; [| |apply Forall_nil]; (split; [|split; [|split; [|split]]]); cbn; try (unfold known_encoding; lia); try codec_ok.
  - repeat split. eexists. repeat split.
  - repeat split.
Qed.
