(** C107, C108: the row groups a file writer takes, the errors and panics of writing, and the files that can be ended. *)
From Verif Require Import Base.Prelude Model.Types Model.Thrift Model.Intervals Model.Page Model.Io Model.Statistics Model.PageWrite Model.ColumnWrite
  Model.Schema Model.PageRead Model.Metadata Model.Indexes Model.FileWrite Spec.PagesSpec Spec.ChunkSpec Spec.StatsSpec Spec.EqualitySpec Spec.FileSpec Spec.WritableSpec
  Proofs.FileWriteProofs Proofs.WritableProofs Proofs.ThriftCodec Props.PageIo Props.FileWrite.
Open Scope N_scope.

(** * C107 *)

(** On a sink that does not fail, any writer takes exactly the row groups that can be written. *)
Theorem write_accepted_exactly F m w g : sk_room (fw_sink w) = None -> counts_64 (schema_columns (fw_schema w) g) -> rows_64 (fw_schema w) g ->
  ((exists w', fw_write F m w g = (w', Ok tt)) <-> group_writable m (fw_schema w) g).
Proof. apply fw_write_iff. Qed.
Print Assumptions write_accepted_exactly.

(** On any sink: the only errors are that of the sink or of a row group out of specification, and those of the producer. *)
Theorem write_errors F m w g w' e : counts_64 (schema_columns (fw_schema w) g) -> fw_write F m w g = (w', Err e) -> e = OutOfSpec \/ produced e g.
Proof. apply fw_write_fails. Qed.
Print Assumptions write_errors.
Theorem start_errors w w' e : fw_start w = (w', Err e) -> e = OutOfSpec \/ (e = InvalidParameter /\ fw_offset w <> 0).
Proof. apply start_fails. Qed.
Print Assumptions start_errors.

(** On any sink: a row group about which nothing is wrong in these three ways is written or refused, without a panic. *)
Theorem write_never_panics F m w g w' : counts_64 (schema_columns (fw_schema w) g) -> rows_64 (fw_schema w) g -> group_harmless m (fw_schema w) g ->
  fw_write F m w g <> (w', Panic).
Proof. apply fw_write_calm. Qed.
Print Assumptions write_never_panics.

Definition ux_bare (sel : option (list interval)) : compressed_page := CData (mk_cdp (HV1 (mk_tdh 3 8 3 3 None)) [9; 9; 9] Snappy 12 io_desc sel).
Definition ux_96 := mk_prim (mk_fi [98] Required None) None None Int96.
Definition ux_stats_96 : compressed_page :=
  CData (mk_cdp (HV1 (mk_tdh 1 0 3 3 (Some (wx_stats 0 (repeat 1 12) (repeat 2 12))))) [4] Gzip 1 (mk_descr ux_96 0 0) (Some [mk_iv 0 1])).
Definition ux_b (l : list compressed_page) : row_group_iter := [inl (map inl [wx_a1]); inl (map inl l)].
Example write_accepted_witness :
  group_writable Checked wx_schema wx_g1 /\ counts_64 wx_g1 /\ rows_64 wx_schema wx_g1 /\ group_harmless Checked wx_schema wx_g1 /\
  (** pages compressed with two codecs, statistics of two types, pages whose rows are not told (first column), failing producers *)
  snd (fw_write wx_formats Checked wx_new (ux_b [wx_b_page 5; ux_bare None])) = Err OutOfSpec /\
  snd (fw_write wx_formats Checked wx_new (ux_b [wx_b_page 5; ux_stats_96])) = Err OutOfSpec /\
  snd (fw_write wx_formats Checked wx_new [inl [inl (ux_bare None)]; inl (map inl [wx_b_page 5])]) = Err OutOfSpec /\
  snd (fw_write wx_formats Checked wx_new [inl [inl wx_a1; inr WouldOverAllocate]]) = Err WouldOverAllocate /\
  (** the panics *)
  snd (fw_write wx_formats Checked wx_new (ux_b [ux_bare (Some [])])) = Panic /\
  snd (fw_write wx_formats Checked wx_new (ux_b [ux_stats_96])) = Panic.
Proof.
  assert (A : exists w', fw_write wx_formats Checked wx_new wx_g1 = (w', Ok tt)) by (exists (wx_step1 wx_g1); vm_compute; reflexivity).
  assert (C : counts_64 wx_g1).
  { unfold counts_64, wx_g1. apply Forall_cons; [|apply Forall_cons; [|apply Forall_nil]]; rewrite pages_of_map; repeat (apply Forall_cons || apply Forall_nil);
      intros s z H1 H2; vm_compute in H1; try discriminate H1; injection H1 as <-; vm_compute in H2; try discriminate H2; injection H2 as <-; reflexivity. }
  assert (R : rows_64 wx_schema wx_g1).
  { apply Forall_cons; [|apply Forall_cons; [|apply Forall_nil]]; vm_compute; reflexivity. }
  split; [apply (write_accepted_exactly wx_formats Checked wx_new wx_g1 eq_refl C R); exact A|].
  split; [exact C|]. split; [exact R|]. split.
  { apply Forall_cons; [|apply Forall_cons; [|apply Forall_nil]]; rewrite pages_of_map.
    - split; [repeat (apply Forall_cons || apply Forall_nil); cbn; (exact I || discriminate)|]. split.
      + match goal with |- Forall _ ?l => let l' := eval vm_compute in l in change l with l' end. repeat (apply Forall_cons || apply Forall_nil); discriminate.
      + intros _ [k X]. match type of X with context [firstn k ?l] => let l' := eval vm_compute in l in change l with l' in X end.
        destruct k as [|[|k]]; [discriminate X|discriminate X|rewrite firstn_all2 in X by (cbn; lia); discriminate X].
    - split; [repeat (apply Forall_cons || apply Forall_nil); cbn; (exact I || discriminate)|]. split.
      + match goal with |- Forall _ ?l => let l' := eval vm_compute in l in change l with l' end. repeat (apply Forall_cons || apply Forall_nil); discriminate.
      + intros _ [k X]. match type of X with context [firstn k ?l] => let l' := eval vm_compute in l in change l with l' in X end.
        destruct k as [|[|k]]; [discriminate X|discriminate X|rewrite firstn_all2 in X by (cbn; lia); discriminate X]. }
  repeat split; vm_compute; reflexivity.
Qed.

(** * C108 *)

(** A file whose row groups were all taken cannot always be ended: a data page of another column than the first whose rows are not told, or
    (with column indexes) a page without statistics is refused at the end, when everything is written. *)
Theorem ending_refuted : exists g w w2 g2 w3 w4,
  fw_write wx_formats Checked (fw_new (mk_sink [] None) wx_schema false 2 None) g = (w, Ok tt) /\
  fw_end wx_formats Checked w None = (w2, Err OutOfSpec) /\
  fw_write wx_formats Checked wx_new g2 = (w3, Ok tt) /\ fw_end wx_formats Checked w3 None = (w4, Err OutOfSpec).
Proof.
  set (g := ux_b [ux_bare None]). set (g2 := ux_b [ux_bare (Some [mk_iv 0 3])]).
  set (w := fst (fw_write wx_formats Checked (fw_new (mk_sink [] None) wx_schema false 2 None) g)).
  exists g, w, (fst (fw_end wx_formats Checked w None)), g2, (wx_step1 g2), (fst (fw_end wx_formats Checked (wx_step1 g2) None)).
  repeat split; vm_compute; reflexivity.
Qed.
Print Assumptions ending_refuted.

(** After any history on a sink that does not fail: the file can be ended exactly if its row groups can be indexed, but for metadata of 2 GiB or
    more, whose length may overflow. *)
Theorem end_accepted_exactly F m s schema stats version created_by gs w kv w' r : sk_data s = [] -> sk_room s = None ->
  history F m (fw_new s schema stats version created_by) gs w -> fw_end F m w kv = (w', r) ->
  nlen (sk_data (fw_sink w')) < 2 ^ 63 -> file_rows schema gs < 2 ^ 63 -> Forall (rows_64 schema) gs ->
  (Forall (group_indexable (f_header F) stats schema) gs ->
     (exists size, r = Ok size) \/
     (m = Checked /\ r = Panic /\ exists before meta trailer,
        sk_data (fw_sink w') = before ++ t_enc (f_file F) meta ++ trailer /\ nlen trailer = 8 /\ 2 ^ 31 <= nlen (t_enc (f_file F) meta))) /\
  (~ Forall (group_indexable (f_header F) stats schema) gs -> r = Err OutOfSpec).
Proof.
  intros Hd Hr Hh He Hs Hrows H64. pose proof (history_unlimited _ _ _ _ _ Hh Hr) as Hu.
  assert (Hs' : nlen (sk_data (fw_sink w)) < 2 ^ 63).
  { pose proof (fw_end_longer _ _ _ _ _ _ He) as L. apply longer_nlen in L. lia. }
  pose proof (history_writing F m _ _ _ _ Hh [] (writing_new F m s schema stats version created_by Hd) Hs') as Hw. cbn [app] in Hw.
  pose proof Hw as (K1 & K2 & _). cbn [fw_new fw_schema fw_statistics] in K1, K2.
  rewrite <- K1 in Hrows, H64. rewrite <- K1, <- K2. exact (fw_end_exact F m _ w gs kv w' r Hw Hu He Hs Hrows H64).
Qed.
Print Assumptions end_accepted_exactly.

(** On any sink, any writer: the only errors of ending are that of the sink or of pages out of specification, and that of a file already ended. *)
Theorem end_errors F m w kv w' e : fw_end F m w kv = (w', Err e) -> e = OutOfSpec \/ (e = InvalidParameter /\ fw_offset w <> 0 /\ fw_state w <> WStarted).
Proof. apply fw_end_fails. Qed.
Print Assumptions end_errors.

Example end_accepted_witness :
  Forall (group_indexable ex_header false wx_schema) [wx_g1; wx_g2] /\ ~ group_indexable ex_header true wx_schema (ux_b [ux_bare (Some [mk_iv 0 3])]) /\
  ~ group_indexable ex_header false wx_schema (ux_b [ux_bare None]) /\ group_indexable ex_header true wx_schema (ux_b [wx_b_page 5]) /\
  (exists w w1 w2 size, fw_write wx_formats Checked wx_new wx_g1 = (w, Ok tt) /\ fw_write wx_formats Checked w wx_g2 = (w1, Ok tt) /\ fw_end wx_formats Checked w1 None = (w2, Ok size)).
Proof.
  split; [|split; [|split; [|split]]].
  - apply Forall_cons; [|apply Forall_cons; [|apply Forall_nil]]; (apply Forall_cons; [|apply Forall_cons; [|apply Forall_nil]]); rewrite pages_of_map;
      repeat (apply Forall_cons || apply Forall_nil); (split; [cbn [locatable]; (exact I || (split; [vm_compute; reflexivity|discriminate]))|discriminate]).
  - intros H. apply Forall_inv_tail, Forall_inv, Forall_inv in H. destruct H as [_ H]. destruct (H eq_refl) as (s & X & _). vm_compute in X. discriminate X.
  - intros H. apply Forall_inv_tail, Forall_inv, Forall_inv in H. destruct H as [[_ H] _]. apply H. reflexivity.
  - apply Forall_cons; [|apply Forall_cons; [|apply Forall_nil]]; rewrite pages_of_map; (apply Forall_cons; [|apply Forall_nil]);
      (split; [split; [vm_compute; reflexivity|discriminate]|]); intros _; eexists; (split; [vm_compute; reflexivity|split; vm_compute; discriminate]).
  - exists (wx_step1 wx_g1), (fst (fw_write wx_formats Checked (wx_step1 wx_g1) wx_g2)),
      (fst (fw_end wx_formats Checked (fst (fw_write wx_formats Checked (wx_step1 wx_g1) wx_g2)) None)),
      (wx_size (snd (fw_end wx_formats Checked (fst (fw_write wx_formats Checked (wx_step1 wx_g1) wx_g2)) None))).
    repeat split; vm_compute; reflexivity.
Qed.
