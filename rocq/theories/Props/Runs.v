(** C131: pages laid out by any writer are read exactly by following the runs of their levels. *)
From Verif Require Import Base.Prelude Base.Iter Model.Types Model.Native Model.Thrift Model.Intervals Model.HybridRle Model.Plain Model.Page Model.Deserialize
  Spec.Bits Spec.UlebSpec Spec.RleSpec Spec.RowsSpec Spec.LevelsSpec Spec.PlainSpec Spec.PageSpec Spec.ValuesSpec Spec.SelectedSpec Spec.RunsSpec
  Proofs.HybridEncProofs Proofs.PageProofs Proofs.NestedProofs Proofs.UniqueProofs Proofs.ValuesProofs Proofs.RunsProofs Props.Deserialize Props.Conformance.
Open Scope N_scope.

Lemma required_gives_fun {V I} w m (next : V -> res (option I * V)) it a b : required_gives w m next it a -> required_gives w m next it b -> a = b.
Proof. intros H1 H2. destruct w; cbn [required_gives] in *; [eapply yields_fun; eassumption|eapply sliced_fun; eassumption]. Qed.
Lemma optional_gives_fun {V I} w m (next : V -> res (option I * V)) ri it a b : optional_gives w m next ri it a -> optional_gives w m next ri it b -> a = b.
Proof.
  destruct w; cbn [optional_gives].
  - intros (r1 & H1 & E1) (r2 & H2 & E2). assert (r1 = r2) as -> by (eapply (map_inj (@inl _ error)); [apply inl_inj|eapply yields_fun; eassumption]). congruence.
  - intros (f1 & r1 & F1 & H1 & E1) (f2 & r2 & F2 & H2 & E2). rewrite F1 in F2. apply Ok_inj in F2. subst f2.
    assert (r1 = r2) as -> by (eapply (map_inj (@inl _ error)); [apply inl_inj|eapply yields_fun; eassumption]). congruence.
Qed.
Lemma gives_fun {V A I} w m (next : V -> res (option I * V)) (item : A -> I) st c1 c2 : (forall x y, item x = item y -> x = y) ->
  gives w m next item st c1 -> gives w m next item st c2 -> c1 = c2.
Proof.
  intros Hi. destruct st as [[levels|] it|it|dy|[levels|] dy]; cbn [gives]; try contradiction.
  - intros H1 H2. eapply map_inj; [|eapply optional_gives_fun; eassumption]. apply option_map_inj, Hi.
  - intros (v1 & -> & H1) (v2 & -> & H2). f_equal. eapply map_inj; [exact Hi|]. eapply required_gives_fun; eassumption.
  - intros (p1 & -> & _ & H1) (p2 & -> & _ & H2). f_equal. eapply required_gives_fun; eassumption.
  - intros (p1 & H1 & L1) (p2 & H2 & L2). assert (p1 = p2) as -> by (eapply optional_gives_fun; eassumption). eapply looked_up_fun; eassumption.
Qed.

(** C131. However the levels and the dictionary positions of a page are divided into runs, somebody who follows the runs gets the cells of the page and
    nothing else; and somebody who asks for some rows, and follows the filtered runs, gets the cells of these rows. *)
Theorem any_layout_read : forall k m d dict p cells w, column_of k d -> holds k d dict p cells -> has_rows (length cells) w ->
  forall c, reads w k m dict p c <-> c = wanted_rows w cells.
Proof.
  intros k m d dict p cells w Hk Hh Hw c. pose proof (holds_reads w m k d dict p cells Hk Hh Hw) as H. split; [|intros ->; exact H]. intros Hc.
  revert Hc H. generalize (wanted_rows w cells). clear. intros c2. unfold reads. destruct k as [t| |size|]; intros (s1 & E1 & H1) (s2 & E2 & H2); rewrite E1 in E2; apply Ok_inj in E2; subst s2.
  - eapply gives_fun; [|exact H1|exact H2]. intros ? ? E; exact E.
  - eapply gives_fun; [|exact H1|exact H2]. intros ? ? E; cbn beta in E; congruence.
  - eapply gives_fun; [|exact H1|exact H2]. intros ? ? E; exact E.
  - destruct s1 as [[levels|] it|bytes n]; cbn [gives_boolean] in *; try contradiction; [eapply optional_gives_fun; eassumption|].
    destruct H1 as (b1 & v1 & F1 & -> & H1), H2 as (b2 & v2 & F2 & -> & H2). rewrite F1 in F2. apply Ok_inj in F2. subst b2. f_equal. eapply required_gives_fun; eassumption.
Qed.
Print Assumptions any_layout_read.

(** The pages that the crate's encoders make are among them (Spec/ValuesSpec.v), so the two ways of reading them agree. *)
Theorem own_layout_read : forall k m d dict p cells w, column_of k d -> stores k d dict (PData p) cells -> nlen (dp_buffer p) < 2 ^ 61 -> has_rows (length cells) w ->
  decodes k m dict (PData (mk_dp (dp_header p) (dp_buffer p) d None)) cells /\
  reads w k m dict p (wanted_rows w cells).
Proof.
  intros k m d dict p cells w Hk Hs Hb Hw. split; [exact (stored_decodes k m d dict (PData p) cells Hk Hs)|]. eapply any_layout_read; [exact Hk| |exact Hw|reflexivity].
  assert (G : forall values, cells_page d cells values p -> cells_laid d cells values p).
  { intros values (H1 & H2 & H3 & H4 & def & Hp & Hdef). unfold cells_laid. refine (conj H1 (conj H2 (conj H3 (conj H4 (conj _ _))))).
    - destruct Hp as (_ & Hp). assert (E : exists l, dp_buffer p = l ++ values).
      { destruct (dp_header p); destruct Hp as (-> & _); [|exists def; reflexivity]. unfold v1_layout. eexists. rewrite app_assoc. reflexivity. }
      destruct E as (l & E). rewrite E in Hb. unfold nlen in *. rewrite app_length in Hb. lia.
    - exists def. split; [exact Hp|]. destruct (fi_repetition (pt_info (d_primitive d))); [exact Hdef| |exact Hdef]. destruct Hdef as (Hm & He). split; [exact Hm|].
      destruct (encoded_booleans_conform (levels_of cells)) as (out & pad & E & Hc & _).
      + unfold nlen in *. rewrite levels_length. change (2 ^ 61) with 2305843009213693952. change (2 ^ 31) with 2147483648 in H4. lia.
      + rewrite He in E. apply Ok_inj in E. subst out. exists [PackedRun (map N.b2n (levels_of cells ++ pad))], pad. split; [exact Hc|]. cbn [flat_map run_values]. rewrite app_nil_r, map_map.
        rewrite (map_ext _ (fun b => b)) by (intros []; reflexivity). apply map_id. }
  inversion Hs as [p' c' bytes He Hv Hc|p' c' entries positions width bytes Hnb Hd He Hpos Hwd Hf Hen Hc|]; subst.
  - eapply holds_plain; [exact He|exact Hv|apply G; exact Hc].
  - eapply holds_positions; [exact Hnb|reflexivity|exact He|exact Hpos| |apply G; exact Hc]. split; [exact Hwd|]. split; [exact Hf|]. right. exact Hen.
Qed.
Print Assumptions own_layout_read.

(** Levels in two runs, which the crate's boolean iterator does not read (C28, [optional_page_two_runs_refuted]); dictionary positions in an RLE run and a bit-packed run. *)
Definition ux_desc := mk_descr (mk_prim (mk_fi [97] Optional None) None None Int32) 1 0.
Definition ux_plain := dp_new (HV1 (mk_tdh 5 0 3 3 None)) ([4; 0; 0; 0; 6; 1; 4; 0] ++ concat (map (native_to_le NI32) [1; 2; 3]%Z)) ux_desc None.
Definition ux_dict := dp_new (HV1 (mk_tdh 5 8 3 3 None)) [4; 0; 0; 0; 6; 1; 4; 0; 1; 4; 1; 3; 254] ux_desc None.
Lemma ux_levels : levels_laid [true; true; true; false; false] [6; 1; 4; 0].
Proof.
  exists [RleRun 3 1; RleRun 2 0], []. split; [|reflexivity].
  apply (conf_rle 1 3 1 [6] [1] [4; 0]); try reflexivity; try (repeat constructor; reflexivity).
  { repeat split; try reflexivity; [cbn; lia|]. exists [], 6. repeat split; try constructor; reflexivity. }
  apply (conf_rle 1 2 0 [4] [0] []); try reflexivity; try (repeat constructor; reflexivity).
  { repeat split; try reflexivity; [cbn; lia|]. exists [], 4. repeat split; try constructor; reflexivity. }
Qed.
Example any_layout_read_case : let rows := Rows [mk_iv 1 1; mk_iv 2 2] in has_rows 5 rows /\
  reads All (KNative NI32) Checked None ux_plain [Some 1; Some 2; Some 3; None; None]%Z /\
  reads rows (KNative NI32) Checked None ux_plain [Some 2; Some 3; None]%Z /\
  reads All (KNative NI32) Checked (Some [5; 7]%Z) ux_dict [Some 7; Some 7; Some 5; None; None]%Z /\
  reads rows (KNative NI32) Checked (Some [5; 7]%Z) ux_dict [Some 7; Some 5; None]%Z.
Proof.
  cbn zeta. assert (Hr : has_rows 5 (Rows [mk_iv 1 1; mk_iv 2 2])).
  { split; [vm_compute; repeat split; lia|]. split; [repeat constructor|]. repeat constructor; cbn; lia. }
  assert (Hp : holds (KNative NI32) ux_desc None ux_plain [Some 1; Some 2; Some 3; None; None]%Z).
  { eapply holds_plain; [reflexivity|split; [|reflexivity]; repeat constructor; cbn; lia|]. split; [reflexivity|]. split; [reflexivity|]. split; [reflexivity|]. split; [reflexivity|]. split; [reflexivity|].
    exists [6; 1; 4; 0]. split; [split; [reflexivity|split; [reflexivity|split; reflexivity]]|]. split; [reflexivity|exact ux_levels]. }
  assert (Hd : holds (KNative NI32) ux_desc (Some [5; 7]%Z) ux_dict [Some 7; Some 7; Some 5; None; None]%Z).
  { eapply (holds_positions (KNative NI32) _ _ _ _ [5; 7]%Z [1; 1; 0] 1 [4; 1; 3; 254]); [discriminate|reflexivity|right; reflexivity|reflexivity| |].
    - split; [lia|]. split; [repeat constructor; reflexivity|]. left. split; [reflexivity|]. exists [RleRun 2 1; PackedRun [0; 1; 1; 1; 1; 1; 1; 1]], [1; 1; 1; 1; 1; 1; 1]. split; [|reflexivity].
      apply (conf_rle 1 2 1 [4] [1] [3; 254]); try reflexivity; try (repeat constructor; reflexivity).
      { repeat split; try reflexivity; [cbn; lia|]. exists [], 4. repeat split; try constructor; reflexivity. }
      apply (conf_packed 1 1 [0; 1; 1; 1; 1; 1; 1; 1] [3] [254] []); try reflexivity; try (repeat constructor; reflexivity).
      { repeat split; try reflexivity; [cbn; lia|]. exists [], 3. repeat split; try constructor; reflexivity. }
    - split; [reflexivity|]. split; [reflexivity|]. split; [reflexivity|]. split; [reflexivity|]. split; [reflexivity|].
      exists [6; 1; 4; 0]. split; [split; [reflexivity|split; [reflexivity|split; reflexivity]]|]. split; [reflexivity|exact ux_levels]. }
  split; [exact Hr|]. split; [|split; [|split]]; (eapply (any_layout_read _ _ ux_desc); [reflexivity|first [exact Hp|exact Hd]|first [exact I|exact Hr]|reflexivity]).
Qed.
