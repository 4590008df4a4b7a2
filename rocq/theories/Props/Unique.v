(** C85, C122: the cells of a page are determined by the page. *)
From Verif Require Import Base.Prelude Base.Iter Model.Types Model.Native Model.Thrift Model.Intervals Model.HybridRle Model.Plain Model.Page Model.Deserialize
  Spec.Bits Spec.PlainSpec Spec.PageSpec Spec.CompressionSpec Spec.ValuesSpec Spec.SelectedSpec Proofs.UniqueProofs Proofs.ValuesProofs Props.PageIo Props.EndToEnd.
Open Scope N_scope.

(** C85. Two users who follow the iterators of a page with the same dictionary get the same cells. *)
Theorem decoding_unique k m dict p c1 c2 : decodes k m dict p c1 -> decodes k m dict p c2 -> c1 = c2.
Proof.
  destruct p as [q|q]; cbn [decodes]; [|intros [-> _] [-> _]; reflexivity].
  destruct k as [t| |size|]; intros (s1 & E1 & H1) (s2 & E2 & H2); rewrite E1 in E2; apply Ok_inj in E2; subst s2;
    first [eapply followed_boolean_fun; eassumption | eapply followed_fun; [|exact H1|exact H2]; intros ? ? E; cbn beta in E; congruence].
Qed.
Print Assumptions decoding_unique.
(** C122. The same for the selected rows of a page. *)
Theorem selected_decoding_unique k m dict p c1 c2 : decodes_selected k m dict p c1 -> decodes_selected k m dict p c2 -> c1 = c2.
Proof.
  destruct p as [q|q]; cbn [decodes_selected]; [|intros [-> _] [-> _]; reflexivity].
  intros (r1 & Er1 & A1) (r2 & Er2 & A2). rewrite Er1 in Er2. injection Er2 as <-. revert A1 A2.
  destruct k as [t| |size|]; intros (s1 & E1 & H1) (s2 & E2 & H2); rewrite E1 in E2; apply Ok_inj in E2; subst s2;
    first [eapply followed_boolean_selected_fun; eassumption | eapply followed_selected_fun; [|exact H1|exact H2]; intros ? ? E; cbn beta in E; congruence].
Qed.
Print Assumptions selected_decoding_unique.
(** C85. Hence a page that stores cells is read as these cells and as nothing else. *)
Theorem stored_cells_only k d m dict p cells : column_of k d -> stores k d dict p cells -> forall c, decodes k m dict (page_as_read d p) c <-> c = cells.
Proof.
  intros Hk Hs c. pose proof (stored_decodes k m d dict p cells Hk Hs) as H. split; [intros Hc; eapply decoding_unique; eassumption|intros ->; exact H].
Qed.
Print Assumptions stored_cells_only.
Example stored_cells_only_case : forall c, decodes (KNative NI32) Checked (Some [1; 7]%Z) (page_as_read io_desc (nth 1 vx_pages (PDict (mk_dict [] 0 false)))) c <-> c = [Some 1; None; Some 7]%Z.
Proof.
  apply stored_cells_only; [reflexivity|]. pose proof vx_stores as H. unfold vx_pages, vx_cells in H. inversion H as [|? ? ? ? _ H1]. inversion H1 as [|? ? ? ? Hx _]. exact Hx.
Qed.
