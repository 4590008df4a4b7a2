(** Iterating pages: C25 (sliced iteration), C26 (filtered level runs), C27 (level runs cut at the row count),
    C28 (boolean levels), C29 (optional values), C30 (dictionary indices). *)
From Verif Require Import Base.Prelude Base.LeFacts Base.Iter Spec.Bits Spec.UlebSpec Spec.RleSpec Spec.RowsSpec Spec.LevelsSpec
  Spec.PageSpec Spec.PlainSpec
  Model.Types Model.Native Model.Thrift Model.Intervals Model.Uleb128 Model.Bitpacked Model.HybridRle Model.Plain Model.Page Model.Deserialize
  Proofs.BitsFacts Proofs.HybridRleProofs Proofs.HybridEncProofs Proofs.BitmapProofs Proofs.PageProofs Proofs.PlainProofs
  Proofs.SliceProofs Proofs.FilteredProofs Proofs.LevelsProofs Props.HybridRle Props.Plain.
Open Scope N_scope.

(** An iterator over a list, for the examples. *)
Definition list_next {A} (l : list A) : res (option A * list A) := Ok (pop l).

(** C25. [pick its rows] are the items at the given positions. *)
Theorem sliced_iteration : forall A S (next : S -> res (option A * S)) P m s its ivs,
  yields next P s its ->
  sorted_disjoint ivs -> Forall non_empty ivs -> Forall iv_ok ivs -> nlen (rows_of ivs) < 2 ^ 64 ->
  exists sl, sl_new m s ivs = Ok sl /\
    yields (sl_next m next)
      (fun st rest => Forall (fun r => (r < length its)%nat) (rows_of ivs) -> sl_size_hint st = nlen rest)
      sl (pick its (rows_of ivs)).
Proof.
  intros A S next P m s its ivs Hy Hs Hne Hiv Hlen. unfold sl_new.
  rewrite sum_lengths_ok by (unfold nlen in Hlen; unfold total_len; lia). cbn [bind]. eexists. split; [reflexivity|].
  pose proof (sl_yields next P m (total_len ivs) s its ivs 0 0 eq_refl Hy Hs Hne Hiv) as H.
  rewrite <- pick_from_0. apply H.
  - reflexivity.
  - exact Hlen.
  - intro Hall. cbn [N.to_nat seq app]. rewrite pick_from_0, pick_all by exact Hall. reflexivity.
Qed.
Print Assumptions sliced_iteration.

Example sliced_iteration_case :
  let ivs := [mk_iv 1 2; mk_iv 5 1; mk_iv 6 1] in
  sorted_disjoint ivs /\ Forall non_empty ivs /\ Forall iv_ok ivs /\
  (let* sl := sl_new Checked [10; 11; 12; 13; 14; 15; 16; 17] ivs in drain (sl_next Checked list_next) 9 sl)
    = Ok [11; 12; 15; 16].
Proof.
  split; [vm_compute; repeat constructor|]. split; [repeat constructor|]. split; [repeat constructor|]. vm_compute. reflexivity.
Qed.

(** The condition on empty intervals is needed: an empty interval panics (or, without overflow checks, makes
    every later item be returned). [select_pages] can produce such intervals (Props/Intervals.v, C71). *)
Theorem sliced_iteration_empty_interval : forall A S (next : S -> res (option A * S)) s s' a start ivs,
  start < 2 ^ 64 -> nlen (rows_of ivs) < 2 ^ 64 ->
  iter_nth next (N.to_nat start) s = Ok (Some a, s') ->
  exists sl, sl_new Checked s (mk_iv start 0 :: ivs) = Ok sl /\ sl_next Checked next sl = Panic.
Proof.
  intros A S next s s' a start ivs Hst Hlen E. unfold sl_new.
  rewrite sum_lengths_ok by (rewrite total_len_cons; unfold nlen in Hlen; unfold total_len; cbn; lia). cbn [bind].
  eexists. split; [reflexivity|]. unfold sl_next. cbn [sl_current_remaining sl_rows sl_current sl_iter sl_total iv_start iv_length].
  cbn [N.eqb]. unfold usub at 1. replace (0 <=? start) with true by lia. cbn [bind]. rewrite N.sub_0_r, E. cbn [bind].
  unfold uadd. replace (start + 0 <? 2 ^ 64) with true by lia. cbn [bind]. reflexivity.
Qed.
Print Assumptions sliced_iteration_empty_interval.

(** C26. [assign_filtered 0 out] is what a reader gets that gives each set level of the filtered runs the next
    stored value, skipping as many stored values as a skip says (Spec/LevelsSpec.v). It is, for each selected
    row, null or the position of the row's value among all stored values; and the reader is never told to move past more
    values than are stored. *)
Theorem filtered_levels_select : forall S (next : S -> res (option (level_run + error) * S)) P m s runs ivs,
  yields next P s (map inl runs) -> Forall run_ok runs ->
  let levels := concat (map run_levels runs) in
  sorted_disjoint ivs -> Forall iv_ok ivs -> nlen (rows_of ivs) < 2 ^ 64 ->
  Forall (fun i => (N.to_nat (iv_start i) + N.to_nat (iv_length i) <= length levels)%nat) ivs ->
  exists fh out, fh_new m s ivs = Ok fh /\
    yields (fh_next m next) (fun st rest => fh_len st = sum_filtered rest) fh (map inl out) /\
    flat_map filtered_levels out = map (fun r => nth r levels false) (rows_of ivs) /\
    assign_filtered 0 out =
      map (fun r => if nth r levels false then Some (count_true (firstn r levels)) else None) (rows_of ivs) /\
    (moved_past out <= count_true levels)%nat.
Proof.
  intros S next P m s runs ivs Hy Hok levels Hs Hiv Hlen Hends.
  unfold fh_new. rewrite sum_lengths_ok by (unfold nlen in Hlen; unfold total_len; lia). cbn [bind].
  set (fh := mk_fh s None None ivs 0 (0 + N.of_nat (total_len ivs))).
  destruct (fh_yields next P m (filter_measure fh runs) fh runs 0) as (out & Hyo & Ho & Hmp).
  - apply Nat.le_refl.
  - unfold filter_state_ok, fh. cbn [fh_iter fh_current fh_interval fh_rows fh_items fh_total iv_list app cur_levels].
    refine (conj Hok (conj I (conj Hiv (conj Hs (conj _ (conj Hends (conj _ _))))))).
    + apply Forall_forall. intros r Hr. unfold rows_of in Hr. apply in_concat in Hr as (x & Hx & Hr).
      apply in_map_iff in Hx as (i & <- & Hi). unfold rows in Hr. apply in_seq in Hr.
      rewrite Forall_forall in Hends. specialize (Hends i Hi). fold levels. cbn. lia.
    + reflexivity.
    + exact Hlen.
  - exact Hy.
  - exists fh, out. split; [reflexivity|]. split; [exact Hyo|].
    assert (E : assign_filtered 0 out =
      map (fun r => if nth r levels false then Some (count_true (firstn r levels)) else None) (rows_of ivs)).
    { rewrite Ho. unfold fh. cbn [fh_current fh_interval fh_rows fh_items iv_list app cur_levels]. fold levels.
      apply map_ext. intro r. unfold at_row. rewrite Nat.sub_0_r. reflexivity. }
    split; [|split; [exact E|exact Hmp]].
    assert (G : forall c o, flat_map filtered_levels o = map (fun x => match x with Some _ => true | None => false end) (assign_filtered c o)).
    { clear. intros c o. revert c. induction o as [|x o IH]; intro c; [reflexivity|]. cbn [flat_map].
      assert (Ha : forall c l, map (fun x : option nat => match x with Some _ => true | None => false end) (assign c l) = l).
      { clear. intros c l. revert c. induction l as [|[] l IH]; intro c; cbn; [reflexivity| |]; now rewrite IH. }
      destruct x as [bytes off n|b n|k]; cbn [assign_filtered]; rewrite ?map_app, ?Ha, <- ?IH; reflexivity. }
    rewrite (G 0%nat), E, map_map. apply map_ext. intro r. now destruct (nth r levels false).
Qed.
Print Assumptions filtered_levels_select.

Example filtered_levels_case :
  let runs := [RBitmap [45] 6; RRepeated true 3; RRepeated false 2] in   (* 1 0 1 1 0 1 | 1 1 1 | 0 0 *)
  let ivs := [mk_iv 2 2; mk_iv 5 2; mk_iv 8 2] in
  Forall run_ok runs /\ sorted_disjoint ivs /\ Forall iv_ok ivs /\
  (let* fh := fh_new Checked (map inl runs) ivs in drain (fh_next Checked list_next) 20 fh)
    = Ok [inl (FSkipped 1); inl (FBitmap [45] 2 2); inl (FSkipped 0); inl (FBitmap [45] 5 1); inl (FRepeated true 1);
          inl (FSkipped 1); inl (FRepeated true 1); inl (FRepeated false 1)].
Proof.
  split; [|split; [vm_compute; repeat constructor|split; [repeat constructor|vm_compute; reflexivity]]].
  repeat (apply Forall_cons; [split; [reflexivity|cbn; try exact I; lia]|]). apply Forall_nil.
Qed.

(** C27. The levels of a conforming stream (Spec/RleSpec.v), up to the count; [ri_len] (the reported number of
    levels left) is exact when the stream has that many. *)
Theorem level_runs_exact : forall m runs data n,
  conforming 1 runs data -> nlen data < 2 ^ 61 -> N.of_nat n < 2 ^ 64 ->
  let levels := map (N.eqb 1) (flat_map run_values runs) in
  exists out,
    yields (ri_next m) (fun s rest => sum_runs rest <= ri_len s /\ ((n <= length levels)%nat -> sum_runs rest = ri_len s))
      (ri_new (mk_rle data 1) (N.of_nat n)) (map inl out) /\
    concat (map run_levels out) = firstn n levels /\ Forall run_ok out.
Proof.
  intros m runs data n Hc Hd Hn levels.
  destruct (ri_yields m runs data Hc (N.of_nat n) 0 ltac:(lia) Hn Hd) as (out & Hy & Ho & Hok).
  exists out. split; [|split; [|exact Hok]].
  - revert Hy. apply yields_weaken. intros s l [H1 H2]. split; [exact H1|]. intro H. apply H2. unfold nlen. fold levels. lia.
  - rewrite Ho. rewrite N.sub_0_r, Nat2N.id. reflexivity.
Qed.
Print Assumptions level_runs_exact.

(** For any bytes at all: the runs returned so far and the reported remainder add up to the declared count. *)
Theorem level_runs_bounded : forall m data w n fuel items s,
  drain_st (ri_next m) fuel (ri_new (mk_rle data w) n) = Ok (items, s) -> sum_runs items + ri_len s = n.
Proof.
  intros m data w n fuel items s H. apply ri_bound in H; [|cbn; lia]. rewrite H. unfold ri_len, ri_new. cbn. lia.
Qed.
Print Assumptions level_runs_bounded.

Example level_runs_case :
  let runs := [RleRun 3 1; PackedRun [1; 0; 1; 1; 0; 0; 0; 0]; RleRun 5 0] in
  let data := [6; 1; 3; 13; 10; 0] in
  conforming 1 runs data /\
  drain (ri_next Checked) 9 (ri_new (mk_rle data 1) 7) = Ok [inl (RRepeated true 3); inl (RBitmap [13] 4)].
Proof.
  split; [|vm_compute; reflexivity].
  apply (conf_rle 1 3 1 [6] [1] [3; 13; 10; 0]); try reflexivity; try (repeat constructor; reflexivity).
  { repeat split; try reflexivity; [cbn; lia|]. exists [], 6. repeat split; try constructor; reflexivity. }
  apply (conf_packed 1 1 [1; 0; 1; 1; 0; 0; 0; 0] [3] [13] [10; 0]); try reflexivity; try (repeat constructor; reflexivity).
  { repeat split; try reflexivity; [cbn; lia|]. exists [], 3. repeat split; try constructor; reflexivity. }
  apply (conf_rle 1 5 0 [10] [0] []); try reflexivity; try (repeat constructor; reflexivity).
  { repeat split; try reflexivity; [cbn; lia|]. exists [], 10. repeat split; try constructor; reflexivity. }
Qed.

(** C28 as stated is false: the boolean iterator ends with the first run. *)
Theorem bool_levels_refuted : exists runs data n,
  conforming 1 runs data /\ (n <= length (flat_map run_values runs))%nat /\
  forall m, exists items,
    drain (bl_next (ri_next m)) (S n) (bl_new (ri_new (mk_rle data 1) (N.of_nat n))) = Ok items /\
    items <> map inl (firstn n (map (N.eqb 1) (flat_map run_values runs))).
Proof.
  exists [RleRun 3 1; RleRun 2 0], [6; 1; 4; 0], 5%nat. split; [|split; [cbn; lia|]].
  - apply (conf_rle 1 3 1 [6] [1] [4; 0]); try reflexivity; try (repeat constructor; reflexivity).
    { repeat split; try reflexivity; [cbn; lia|]. exists [], 6. repeat split; try constructor; reflexivity. }
    apply (conf_rle 1 2 0 [4] [0] []); try reflexivity; try (repeat constructor; reflexivity).
    { repeat split; try reflexivity; [cbn; lia|]. exists [], 4. repeat split; try constructor; reflexivity. }
  - intros []; eexists; (split; [vm_compute; reflexivity|discriminate]).
Qed.
Print Assumptions bool_levels_refuted.

(** What holds: it yields the levels of the first run, cut at the count; all levels when there is one run. *)
Theorem bool_levels_first_run : forall m r runs data n,
  conforming 1 (r :: runs) data -> N.of_nat n < 2 ^ 64 -> nlen data < 2 ^ 61 ->
  yields (bl_next (ri_next m)) (fun _ _ => True) (bl_new (ri_new (mk_rle data 1) (N.of_nat n)))
    (map inl (firstn n (map (N.eqb 1) (run_values r)))).
Proof. exact bl_ri_first. Qed.
Print Assumptions bool_levels_first_run.

Theorem bool_levels_written : forall m levels,
  nlen levels < 2 ^ 60 ->
  exists data, encode_bool levels = Ok data /\
    yields (bl_next (ri_next m)) (fun _ _ => True) (bl_new (ri_new (mk_rle data 1) (nlen levels))) (map inl levels).
Proof. exact bl_encoded. Qed.
Print Assumptions bool_levels_written.

Example bool_levels_written_case :
  encode_bool [true; false; true] = Ok [3; 5] /\
  drain (bl_next (ri_next Checked)) 9 (bl_new (ri_new (mk_rle [3; 5] 1) 3)) = Ok [inl true; inl false; inl true].
Proof. vm_compute. split; reflexivity. Qed.

(** C29. Over any validity and value iterators. *)
Theorem optional_values : forall S T A (vnext : S -> res (option (bool + error) * S)) (next : T -> res (option A * T))
    P Q levels v t values,
  yields vnext P v (map inl levels) -> yields next Q t values -> (count_true levels <= length values)%nat ->
  yields (ov_next vnext next) (fun _ _ => True) (v, t) (map inl (pair_values levels values)) /\
  length (pair_values levels values) = length levels /\
  (forall i, (i < length levels)%nat -> nth_error (pair_values levels values) i =
     if nth i levels false then option_map Some (nth_error values (count_true (firstn i levels))) else Some None).
Proof.
  intros S T A vnext next P Q levels v t values Hv Ht Hc. split; [|split].
  - eapply yields_weaken; [|eapply ov_yields; eassumption]. trivial.
  - clear. revert values. induction levels as [|[] k IH]; intros vs; cbn; try reflexivity; [|now rewrite IH].
    destruct vs; cbn; now rewrite IH.
  - clear -Hc. revert values Hc. induction levels as [|b k IH]; intros vs Hc i Hi; [cbn in Hi; lia|].
    cbn [count_true] in Hc. destruct b.
    + destruct vs as [|x vs]; [cbn in Hc; lia|]. cbn [pair_values]. destruct i as [|i]; [reflexivity|].
      cbn [nth_error nth firstn count_true Nat.add]. apply IH; cbn in *; lia.
    + cbn [pair_values]. destruct i as [|i]; [reflexivity|]. cbn [nth_error nth firstn count_true Nat.add].
      apply IH; cbn in *; lia.
Qed.
Print Assumptions optional_values.

(** Whole pages. An optional, non-nested column: maximum definition level 1, levels as written by the crate. *)
Definition optional_page (p : data_page) (levels : list bool) (values : list N) : Prop :=
  exists rep def, page_parts p rep def values /\ encode_bool levels = Ok def /\
    d_max_def (dp_descriptor p) = 1%Z /\ is_optional p = true /\
    dp_num_values p = nlen levels /\ nlen levels < 2 ^ 60.
Definition required_page (p : data_page) (values : list N) : Prop :=
  is_optional p = false /\ exists rep def, page_parts p rep def values.

Lemma validity_of m p levels values : optional_page p levels values ->
  exists ri, dl_try_new m p = Ok (DBitmap ri) /\
    yields (bl_next (ri_next m)) (fun _ _ => True) (bl_new ri) (map inl levels).
Proof.
  intros (rep & def & Hp & He & Hmax & _ & Hn & Hl). unfold dl_try_new. rewrite (split_parts m p _ _ _ Hp). cbn [bind].
  rewrite Hmax. cbn [Z.eqb Pos.eqb]. eexists. split; [reflexivity|]. rewrite Hn.
  destruct (bl_encoded m levels Hl) as (out & E & Hy). rewrite He in E. apply Ok_inj in E. subst. exact Hy.
Qed.

Theorem native_optional_page : forall D m t p (dict : option D) levels vs,
  dp_encoding p = Ok EPlain -> Forall (native_ok t) vs -> count_true levels = length vs ->
  optional_page p levels (concat (map (native_to_le t) vs)) ->
  exists ri it, native_try_new m t p dict = Ok (PsOptional (DBitmap ri) it) /\
    yields (ov_next (bl_next (ri_next m)) (cast_next t)) (fun _ _ => True) (bl_new ri, it) (map inl (pair_values levels vs)).
Proof.
  intros D m t p dict levels vs He Hvs Hc Hp. destruct (validity_of m p levels _ Hp) as (ri & Ev & Hv).
  destruct Hp as (rep & def & Hp & _ & _ & Hopt & _). destruct (native_page_roundtrip t vs Hvs) as (it & Ec & Hy).
  exists ri, it. split.
  - unfold native_try_new. rewrite He, Hopt. cbn [bind]. rewrite Ev. cbn [bind]. unfold native_cast.
    rewrite (split_parts m p _ _ _ Hp). cbn [bind]. rewrite Ec. reflexivity.
  - eapply (optional_values _ _ _ _ _ _ _ levels _ _ vs Hv Hy). lia.
Qed.
Print Assumptions native_optional_page.

Theorem native_required_page : forall D m t p (dict : option D) vs,
  dp_encoding p = Ok EPlain -> Forall (native_ok t) vs ->
  required_page p (concat (map (native_to_le t) vs)) ->
  exists it, native_try_new m t p dict = Ok (PsRequired it) /\
    yields (cast_next t) (fun s rest => ce_size_hint s = length rest) it vs.
Proof.
  intros D m t p dict vs He Hvs (Hopt & rep & def & Hp). destruct (native_page_roundtrip t vs Hvs) as (it & Ec & Hy).
  exists it. split; [|exact Hy].
  unfold native_try_new. rewrite He, Hopt. cbn [bind]. unfold native_cast.
  rewrite (split_parts m p _ _ _ Hp). cbn [bind]. rewrite Ec. reflexivity.
Qed.
Print Assumptions native_required_page.

Theorem binary_optional_page : forall D m p (dict : option D) levels l,
  dp_encoding p = Ok EPlain -> Forall (fun s => nlen s < 2 ^ 32) l -> count_true levels = length l ->
  optional_page p levels (plain_strings l) ->
  exists ri it, binary_try_new m p dict = Ok (PsOptional (DBitmap ri) it) /\
    yields (ov_next (bl_next (ri_next m)) bi_next) (fun _ _ => True) (bl_new ri, it)
      (map inl (pair_values levels (map inl l))).
Proof.
  intros D m p dict levels l He Hl Hc Hp. destruct (validity_of m p levels _ Hp) as (ri & Ev & Hv).
  destruct Hp as (rep & def & Hp & _ & _ & Hopt & _). destruct (plain_byte_array_roundtrip l Hl) as [_ Hy].
  exists ri, (mk_bi (plain_strings l) None). split.
  - unfold binary_try_new. rewrite He, Hopt. cbn [bind]. rewrite (split_parts m p _ _ _ Hp). cbn [bind]. rewrite Ev. reflexivity.
  - eapply (optional_values _ _ _ _ _ _ _ levels _ _ (map inl l) Hv Hy). rewrite map_length. lia.
Qed.
Print Assumptions binary_optional_page.

Theorem binary_required_page : forall D m p (dict : option D) l,
  dp_encoding p = Ok EPlain -> Forall (fun s => nlen s < 2 ^ 32) l -> dp_num_values p = nlen l ->
  required_page p (plain_strings l) ->
  exists it, binary_try_new m p dict = Ok (PsRequired it) /\
    yields bi_next (fun s rest => bi_size_hint s = (nlen rest, Some (nlen rest))) it (map inl l).
Proof.
  intros D m p dict l He Hl Hn (Hopt & rep & def & Hp). destruct (plain_byte_array_roundtrip l Hl) as [Hy _].
  exists (mk_bi (plain_strings l) (Some (nlen l))). split; [|exact Hy].
  unfold binary_try_new. rewrite He, Hopt. cbn [bind]. rewrite (split_parts m p _ _ _ Hp). cbn [bind]. rewrite Hn. reflexivity.
Qed.
Print Assumptions binary_required_page.

Theorem boolean_optional_page : forall m p levels bits values,
  dp_encoding p = Ok EPlain -> bitmap_encode bits = Ok values -> count_true levels = length bits ->
  nlen values < 2 ^ 61 -> optional_page p levels values ->
  exists ri it, boolean_try_new m p = Ok (BsOptional (DBitmap ri) it) /\
    yields (ov_next (bl_next (ri_next m)) bm_next) (fun _ _ => True) (bl_new ri, it) (map inl (pair_values levels bits)).
Proof.
  intros m p levels bits values He Hb Hc Hlen Hp. destruct (validity_of m p levels _ Hp) as (ri & Ev & Hv).
  destruct Hp as (rep & def & Hp & _ & _ & Hopt & _).
  destruct (bitmap_encode_spec bits) as (out & E & Hlo & _ & Hs). rewrite Hb in E. apply Ok_inj in E. subst out.
  destruct (bm_new_spec values 0 (8 * length values)) as (it & Ei & Hy); [lia|].
  cbn [skipn] in Hy. rewrite firstn_all2 in Hy by (rewrite bit_stream_length; lia).
  exists ri, it. split.
  - unfold boolean_try_new. rewrite He, Hopt. cbn [bind]. rewrite Ev. cbn [bind].
    rewrite (split_parts m p _ _ _ Hp). cbn [bind]. unfold umul.
    replace (nlen values * 8 <? 2 ^ 64) with true
      by (change (2 ^ 61) with 2305843009213693952 in Hlen; change (2 ^ 64) with 18446744073709551616; lia).
    cbn [bind]. replace (nlen values * 8) with (N.of_nat (8 * length values)) by (unfold nlen; lia). rewrite Ei. reflexivity.
  - rewrite <- (pair_values_app levels bits (repeat false (8 * ceil8 (length bits) - length bits))) by lia.
    rewrite <- Hs. eapply (optional_values _ _ _ _ _ _ _ levels _ _ _ Hv Hy).
    rewrite Hs, app_length. lia.
Qed.
Print Assumptions boolean_optional_page.

Example native_optional_case :
  let p := dp_new (HV1 (mk_tdh 4 0 3 3 None)) ([2; 0; 0; 0; 3; 13] ++ concat (map (native_to_le NI32) [7; -1; 5]%Z))
             (mk_descr (mk_prim (mk_fi [97] Optional None) None None Int32) 1 0) None in
  let levels := [true; false; true; true] in
  optional_page p levels (concat (map (native_to_le NI32) [7; -1; 5]%Z)) /\
  (match native_try_new (P := unit) Checked NI32 p None with
   | Ok (PsOptional (DBitmap ri) it) =>
       drain (ov_next (bl_next (ri_next Checked)) (cast_next NI32)) 9 (bl_new ri, it)
   | _ => Panic
   end) = Ok (map inl [Some 7; None; Some (-1); Some 5]%Z).
Proof. split; [|vm_compute; reflexivity]. exists [], [3; 13]. vm_compute. repeat split. Qed.

(** The composition needs the levels to be a single run: with two runs the page loses values, because of C28. *)
Theorem optional_page_two_runs_refuted : exists p,
  page_parts p [] [6; 1; 4; 0] (concat (map (native_to_le NI32) [1; 2; 3]%Z)) /\   (* levels 1 1 1 0 0 *)
  dp_num_values p = 5 /\
  (match native_try_new (P := unit) Checked NI32 p None with
   | Ok (PsOptional (DBitmap ri) it) =>
       drain (ov_next (bl_next (ri_next Checked)) (cast_next NI32)) 9 (bl_new ri, it)
   | _ => Panic
   end) = Ok (map inl [Some 1; Some 2; Some 3]%Z).
Proof.
  exists (dp_new (HV1 (mk_tdh 5 0 3 3 None)) ([4; 0; 0; 0; 6; 1; 4; 0] ++ concat (map (native_to_le NI32) [1; 2; 3]%Z))
             (mk_descr (mk_prim (mk_fi [97] Optional None) None None Int32) 1 0) None).
  vm_compute. repeat split.
Qed.
Print Assumptions optional_page_two_runs_refuted.

(** Exactly, for levels in any number of runs laid out as the format says: the items of the first run are right, and there are no others. *)
Definition page_in_runs (p : data_page) (runs : list run) (values : list N) : Prop :=
  exists rep def, page_parts p rep def values /\ conforming 1 runs def /\ nlen def < 2 ^ 61 /\
    d_max_def (dp_descriptor p) = 1%Z /\ is_optional p = true /\ dp_num_values p < 2 ^ 64.
Definition levels_in (p : data_page) (runs : list run) : list bool := firstn (N.to_nat (dp_num_values p)) (map (N.eqb 1) (flat_map run_values runs)).
Lemma first_levels p r runs : firstn (N.to_nat (dp_num_values p)) (map (N.eqb 1) (run_values r)) = firstn (length (run_values r)) (levels_in p (r :: runs)).
Proof.
  unfold levels_in. cbn [flat_map]. rewrite map_app, firstn_firstn, Nat.min_comm, <- firstn_firstn. f_equal.
  rewrite <- (map_length (N.eqb 1) (run_values r)). rewrite firstn_app, Nat.sub_diag, firstn_O, app_nil_r, firstn_all. reflexivity.
Qed.
Lemma validity_in_runs m p r runs values : page_in_runs p (r :: runs) values ->
  exists ri, dl_try_new m p = Ok (DBitmap ri) /\
    yields (bl_next (ri_next m)) (fun _ _ => True) (bl_new ri) (map inl (firstn (length (run_values r)) (levels_in p (r :: runs)))).
Proof.
  intros (rep & def & Hp & Hc & Hd & Hmax & _ & Hn). unfold dl_try_new. rewrite (split_parts m p _ _ _ Hp). cbn [bind].
  rewrite Hmax. cbn [Z.eqb Pos.eqb]. eexists. split; [reflexivity|].
  pose proof (bl_ri_first m r runs def (N.to_nat (dp_num_values p)) Hc ltac:(lia) Hd) as H. rewrite N2Nat.id in H. rewrite <- first_levels. exact H.
Qed.
Lemma pair_values_firstn {A} : forall k levels (vs : list A), pair_values (firstn k levels) vs = firstn k (pair_values levels vs).
Proof.
  induction k as [|k IH]; intros [|[] levels] vs; cbn [firstn pair_values]; try reflexivity; [ | f_equal; apply IH ]. destruct vs; cbn [firstn]; f_equal; apply IH.
Qed.
Lemma count_true_firstn k levels : (count_true (firstn k levels) <= count_true levels)%nat.
Proof. revert k. induction levels as [|b levels IH]; intros [|k]; cbn [firstn count_true]; try lia. specialize (IH k). destruct b; lia. Qed.
Theorem native_page_in_runs : forall D m t p (dict : option D) r runs vs,
  dp_encoding p = Ok EPlain -> Forall (native_ok t) vs -> page_in_runs p (r :: runs) (concat (map (native_to_le t) vs)) ->
  count_true (levels_in p (r :: runs)) = length vs ->
  exists ri it, native_try_new m t p dict = Ok (PsOptional (DBitmap ri) it) /\
    yields (ov_next (bl_next (ri_next m)) (cast_next t)) (fun _ _ => True) (bl_new ri, it)
      (map inl (firstn (length (run_values r)) (pair_values (levels_in p (r :: runs)) vs))).
Proof.
  intros D m t p dict r runs vs He Hvs Hp Hc. destruct (validity_in_runs m p r runs  _ Hp) as (ri & Ev & Hv).
  destruct Hp as (rep & def & Hp & _ & _ & _ & Hopt & _). destruct (native_page_roundtrip t vs Hvs) as (it & Ec & Hy).
  exists ri, it. split.
  - unfold native_try_new. rewrite He, Hopt. cbn [bind]. rewrite Ev. cbn [bind]. unfold native_cast.
    rewrite (split_parts m p _ _ _ Hp). cbn [bind]. rewrite Ec. reflexivity.
  - rewrite <- pair_values_firstn. eapply (optional_values _ _ _ _ _ _ _ _ _ _ vs Hv Hy). rewrite <- Hc. apply count_true_firstn.
Qed.
Print Assumptions native_page_in_runs.
Theorem binary_page_in_runs : forall D m p (dict : option D) r runs l,
  dp_encoding p = Ok EPlain -> Forall (fun s => nlen s < 2 ^ 32) l -> page_in_runs p (r :: runs) (plain_strings l) ->
  count_true (levels_in p (r :: runs)) = length l ->
  exists ri it, binary_try_new m p dict = Ok (PsOptional (DBitmap ri) it) /\
    yields (ov_next (bl_next (ri_next m)) bi_next) (fun _ _ => True) (bl_new ri, it)
      (map inl (firstn (length (run_values r)) (pair_values (levels_in p (r :: runs)) (map inl l)))).
Proof.
  intros D m p dict r runs l He Hl Hp Hc. destruct (validity_in_runs m p r runs  _ Hp) as (ri & Ev & Hv).
  destruct Hp as (rep & def & Hp & _ & _ & _ & Hopt & _). destruct (plain_byte_array_roundtrip l Hl) as [_ Hy].
  exists ri, (mk_bi (plain_strings l) None). split.
  - unfold binary_try_new. rewrite He, Hopt. cbn [bind]. rewrite (split_parts m p _ _ _ Hp). cbn [bind]. rewrite Ev. reflexivity.
  - rewrite <- pair_values_firstn. eapply (optional_values _ _ _ _ _ _ _ _ _ _ (map inl l) Hv Hy). rewrite map_length, <- Hc. apply count_true_firstn.
Qed.
Print Assumptions binary_page_in_runs.
Theorem boolean_page_in_runs : forall m p r runs bits values,
  dp_encoding p = Ok EPlain -> bitmap_encode bits = Ok values -> nlen values < 2 ^ 61 -> page_in_runs p (r :: runs) values ->
  count_true (levels_in p (r :: runs)) = length bits ->
  exists ri it, boolean_try_new m p = Ok (BsOptional (DBitmap ri) it) /\
    yields (ov_next (bl_next (ri_next m)) bm_next) (fun _ _ => True) (bl_new ri, it)
      (map inl (firstn (length (run_values r)) (pair_values (levels_in p (r :: runs)) bits))).
Proof.
  intros m p r runs bits values He Hb Hlen Hp Hc. destruct (validity_in_runs m p r runs  _ Hp) as (ri & Ev & Hv).
  destruct Hp as (rep & def & Hp & _ & _ & _ & Hopt & _).
  destruct (bitmap_encode_spec bits) as (out & E & Hlo & _ & Hs). rewrite Hb in E. apply Ok_inj in E. subst out.
  destruct (bm_new_spec values 0 (8 * length values)) as (it & Ei & Hy); [lia|].
  cbn [skipn] in Hy. rewrite firstn_all2 in Hy by (rewrite bit_stream_length; lia).
  exists ri, it. split.
  - unfold boolean_try_new. rewrite He, Hopt. cbn [bind]. rewrite Ev. cbn [bind].
    rewrite (split_parts m p _ _ _ Hp). cbn [bind]. unfold umul.
    replace (nlen values * 8 <? 2 ^ 64) with true
      by (change (2 ^ 61) with 2305843009213693952 in Hlen; change (2 ^ 64) with 18446744073709551616; lia).
    cbn [bind]. replace (nlen values * 8) with (N.of_nat (8 * length values)) by (unfold nlen; lia). rewrite Ei. reflexivity.
  - rewrite <- pair_values_firstn. pose proof (count_true_firstn (length (run_values r)) (levels_in p (r :: runs))) as Hle.
    rewrite <- (pair_values_app _ bits (repeat false (8 * ceil8 (length bits) - length bits))) by lia.
    rewrite <- Hs. eapply (optional_values _ _ _ _ _ _ _ _ _ _ _ Hv Hy).
    rewrite Hs, app_length. lia.
Qed.
Print Assumptions boolean_page_in_runs.
Theorem fixed_page_in_runs : forall D m size p (dict : option D) r runs l,
  0 < size -> pt_physical (d_primitive (dp_descriptor p)) = FixedLenByteArray size ->
  dp_encoding p = Ok EPlain -> Forall (fun s => nlen s = size) l -> page_in_runs p (r :: runs) (concat l) ->
  count_true (levels_in p (r :: runs)) = length l ->
  exists ri it, fixed_try_new m p dict = Ok (PsOptional (DBitmap ri) it) /\
    yields (ov_next (bl_next (ri_next m)) fl_next) (fun _ _ => True) (bl_new ri, it)
      (map inl (firstn (length (run_values r)) (pair_values (levels_in p (r :: runs)) l))).
Proof.
  intros D m size p dict r runs l Hs Ht He Hl Hp Hc. destruct (validity_in_runs m p r runs _ Hp) as (ri & Ev & Hv).
  destruct Hp as (rep & def & Hp & _ & _ & _ & Hopt & _).
  exists ri, (concat l, N.to_nat size). split.
  - unfold fixed_try_new. rewrite Ht, He, Hopt. cbn [bind]. rewrite (split_parts m p _ _ _ Hp). cbn [bind]. rewrite Ev. cbn [bind].
    unfold fl_new, ce_new. destruct (Nat.eqb_spec (N.to_nat size) 0); [lia|]. reflexivity.
  - rewrite <- pair_values_firstn. unfold fl_next.
    assert (Hy : yields ce_next (fun s items => ce_size_hint s = length items) (concat l ++ [], N.to_nat size) l).
    { apply ce_yields; [lia| |cbn [length]; lia]. eapply Forall_impl; [|exact Hl]. intros c E. cbn beta in E. unfold nlen in E. lia. }
    rewrite app_nil_r in Hy.
    eapply (optional_values _ _ _ _ _ _ _ _ _ _ l Hv Hy). rewrite <- Hc. apply count_true_firstn.
Qed.
Print Assumptions fixed_page_in_runs.

(** The same for a page of positions in a dictionary, of any kind of values: one byte for the number of bits, then the positions in runs of their own. *)
Lemma pair_values_cut {A} levels (a b : list A) : firstn (count_true levels) a = firstn (count_true levels) b ->
  (count_true levels <= length a)%nat -> (count_true levels <= length b)%nat -> pair_values levels a = pair_values levels b.
Proof.
  intros E Ha Hb. rewrite <- (firstn_skipn (count_true levels) a), <- (firstn_skipn (count_true levels) b), E.
  rewrite !pair_values_app by (rewrite firstn_length; lia). reflexivity.
Qed.
Lemma count_true_length levels : (count_true levels <= length levels)%nat.
Proof. induction levels as [|[] levels IH]; cbn [count_true length]; lia. Qed.
Theorem dictionary_page_in_runs : forall D m p (d : D) r runs w positions data,
  dp_encoding p = Ok EPlainDictionary \/ dp_encoding p = Ok ERleDictionary ->
  0 < w <= 32 -> conforming (N.to_nat w) positions data -> nlen data < 2 ^ 61 -> page_in_runs p (r :: runs) (w :: data) ->
  (count_true (levels_in p (r :: runs)) <= length (flat_map run_values positions))%nat ->
  exists ri dy,
    (forall t, native_try_new m t p (Some d) = Ok (PsOptionalDictionary (DBitmap ri) dy)) /\
    binary_try_new m p (Some d) = Ok (PsOptionalDictionary (DBitmap ri) dy) /\
    (forall size, pt_physical (d_primitive (dp_descriptor p)) = FixedLenByteArray size -> fixed_try_new m p (Some d) = Ok (PsOptionalDictionary (DBitmap ri) dy)) /\
    dy_dict dy = d /\
    yields (ov_next (bl_next (ri_next m)) (hr_next m)) (fun _ _ => True) (bl_new ri, dy_indexes dy)
      (map inl (firstn (length (run_values r)) (pair_values (levels_in p (r :: runs)) (flat_map run_values positions)))).
Proof.
  intros D m p d r runs w positions data He Hw Hc Hd Hp Hn. destruct (validity_in_runs m p r runs _ Hp) as (ri & Ev & Hv).
  destruct Hp as (rep & def & Hp & _ & _ & _ & Hopt & _).
  destruct (hybrid_rle_decodes_conforming m (N.to_nat w) positions data (N.to_nat (dp_num_values p)) ltac:(lia) Hc Hd) as (s & Es & Hy).
  rewrite N2Nat.id in Es.
  assert (Ed : dy_try_new m p d = Ok (mk_dictionary s d)).
  { unfold dy_try_new, dict_indices_decoder. rewrite (split_parts m p _ _ _ Hp). cbn [bind].
    destruct (N.ltb_spec 32 w); [lia|]. rewrite Es. reflexivity. }
  exists ri, (mk_dictionary s d). split; [|split; [|split; [|split; [reflexivity|]]]].
  - intros t. unfold native_try_new. destruct He as [He|He]; rewrite He, Hopt; cbn [bind]; rewrite Ev; cbn [bind]; rewrite Ed; reflexivity.
  - unfold binary_try_new. destruct He as [He|He]; rewrite He, Hopt; cbn [bind]; rewrite Ev; cbn [bind]; rewrite Ed; reflexivity.
  - intros size Ht. unfold fixed_try_new. rewrite Ht. destruct He as [He|He]; rewrite He, Hopt; cbn [bind]; rewrite Ev; cbn [bind]; rewrite Ed; reflexivity.
  - cbn [dy_indexes]. rewrite <- pair_values_firstn.
    set (n := N.to_nat (dp_num_values p)) in *. set (lv := levels_in p (r :: runs)) in *. set (idx := flat_map run_values positions) in *.
    pose proof (count_true_firstn (length (run_values r)) lv) as Hle.
    assert (Hlv : (length lv <= n)%nat) by (unfold lv, levels_in; rewrite firstn_length; fold n; lia).
    pose proof (count_true_length lv) as Hct.
    assert (Hln : length (firstn n (idx ++ repeat 0 n)) = n) by (rewrite firstn_length, app_length, repeat_length; lia).
    rewrite (pair_values_cut _ idx (firstn n (idx ++ repeat 0 n))); [|..].
    + eapply (optional_values _ _ _ _ _ _ _ _ _ _ _ Hv Hy). lia.
    + rewrite firstn_firstn, Nat.min_l by lia. rewrite firstn_app.
      replace (count_true (firstn (length (run_values r)) lv) - length idx)%nat with 0%nat by lia. cbn [firstn]. rewrite app_nil_r. reflexivity.
    + lia.
    + lia.
Qed.
Print Assumptions dictionary_page_in_runs.
Definition runs_page : data_page :=
  dp_new (HV1 (mk_tdh 5 0 3 3 None)) ([4; 0; 0; 0; 6; 1; 4; 0] ++ concat (map (native_to_le NI32) [1; 2; 3]%Z)) (mk_descr (mk_prim (mk_fi [97] Optional None) None None Int32) 1 0) None.
Example page_in_runs_case :
  page_in_runs runs_page [RleRun 3 1; RleRun 2 0] (concat (map (native_to_le NI32) [1; 2; 3]%Z)) /\ levels_in runs_page [RleRun 3 1; RleRun 2 0] = [true; true; true; false; false] /\
  dp_encoding runs_page = Ok EPlain.
Proof.
  split; [ | split; vm_compute; reflexivity ]. exists [], [6; 1; 4; 0].
  split; [ vm_compute; repeat split | ]. split; [ | vm_compute; repeat split ].
  assert (V : forall v, v < 128 -> varint v [v]).
  { intros v Hv. split; [eapply N.lt_trans; [exact Hv|reflexivity]|]. split; [cbn; lia|].
    split; [cbn [base128]; rewrite N.mod_small by assumption; lia|]. exists [], v. repeat split; [constructor|assumption]. }
  change [6; 1; 4; 0] with ([6] ++ [1] ++ [4; 0]). apply conf_rle; [ apply (V 6); reflexivity | reflexivity | repeat constructor | reflexivity | reflexivity | ].
  change [4; 0] with ([4] ++ [0] ++ []). apply conf_rle; [ apply (V 4); reflexivity | reflexivity | repeat constructor | reflexivity | reflexivity | constructor ].
Qed.
(** Levels 1 1 1, then 0 0; the positions 1, 1 and 0 with one bit each, in two runs. *)
Definition runs_dict_page : data_page :=
  dp_new (HV1 (mk_tdh 5 8 3 3 None)) ([4; 0; 0; 0; 6; 1; 4; 0] ++ [1; 4; 1; 2; 0]) (mk_descr (mk_prim (mk_fi [97] Optional None) None None (FixedLenByteArray 2)) 1 0) None.
Definition runs_fixed_page : data_page :=
  dp_new (HV1 (mk_tdh 5 0 3 3 None)) ([4; 0; 0; 0; 6; 1; 4; 0] ++ [1; 2; 3; 4; 5; 6]) (mk_descr (mk_prim (mk_fi [97] Optional None) None None (FixedLenByteArray 2)) 1 0) None.
Example dictionary_page_in_runs_case :
  page_in_runs runs_dict_page [RleRun 3 1; RleRun 2 0] [1; 4; 1; 2; 0] /\ conforming 1 [RleRun 2 1; RleRun 1 0] [4; 1; 2; 0] /\
  dp_encoding runs_dict_page = Ok ERleDictionary /\
  page_in_runs runs_fixed_page [RleRun 3 1; RleRun 2 0] (concat [[1; 2]; [3; 4]; [5; 6]]) /\ dp_encoding runs_fixed_page = Ok EPlain /\
  (match fixed_try_new Checked runs_dict_page (Some [[7; 7]; [8; 8]]) with
   | Ok (PsOptionalDictionary (DBitmap ri) dy) => drain (ov_next (bl_next (ri_next Checked)) (hr_next Checked)) 9 (bl_new ri, dy_indexes dy)
   | _ => Panic
   end) = Ok (map inl [Some 1; Some 1; Some 0]).
Proof.
  assert (V : forall v, v < 128 -> varint v [v]).
  { intros v Hv. split; [eapply N.lt_trans; [exact Hv|reflexivity]|]. split; [cbn; lia|].
    split; [cbn [base128]; rewrite N.mod_small by assumption; lia|]. exists [], v. repeat split; [constructor|assumption]. }
  assert (L : conforming 1 [RleRun 3 1; RleRun 2 0] [6; 1; 4; 0]).
  { change [6; 1; 4; 0] with ([6] ++ [1] ++ [4; 0]). apply conf_rle; [ apply (V 6); reflexivity | reflexivity | repeat constructor | reflexivity | reflexivity | ].
    change [4; 0] with ([4] ++ [0] ++ []). apply conf_rle; [ apply (V 4); reflexivity | reflexivity | repeat constructor | reflexivity | reflexivity | constructor ]. }
  split; [ exists [], [6; 1; 4; 0]; split; [ vm_compute; repeat split | split; [ exact L | vm_compute; repeat split ] ] | ].
  split.
  { change [4; 1; 2; 0] with ([4] ++ [1] ++ [2; 0]). apply conf_rle; [ apply (V 4); reflexivity | reflexivity | repeat constructor | reflexivity | reflexivity | ].
    change [2; 0] with ([2] ++ [0] ++ []). apply conf_rle; [ apply (V 2); reflexivity | reflexivity | repeat constructor | reflexivity | reflexivity | constructor ]. }
  split; [ vm_compute; reflexivity | ].
  split; [ exists [], [6; 1; 4; 0]; split; [ vm_compute; repeat split | split; [ exact L | vm_compute; repeat split ] ] | ].
  split; vm_compute; reflexivity.
Qed.

(** C30. *)
Theorem dict_indices_decode : forall m p rep def w data runs,
  page_parts p rep def (N.of_nat w :: data) -> (0 < w <= 32)%nat -> conforming w runs data -> nlen data < 2 ^ 61 ->
  let n := N.to_nat (dp_num_values p) in
  exists s, dict_indices_decoder m p = Ok s /\
    yields (hr_next m) (fun s rest => hr_size_hint s = nlen rest) s (firstn n (flat_map run_values runs ++ repeat 0 n)).
Proof.
  intros m p rep def w data runs Hp Hw Hc Hd n. unfold dict_indices_decoder. rewrite (split_parts m p _ _ _ Hp). cbn [bind].
  replace (32 <? N.of_nat w) with false by lia. rewrite Nat2N.id.
  destruct (hybrid_rle_decodes_conforming m w runs data n Hw Hc Hd) as (s & E & Hy). unfold n in E. rewrite N2Nat.id in E.
  exists s. split; assumption.
Qed.
Print Assumptions dict_indices_decode.

(** Indices written by the crate's encoder come back. *)
Theorem dict_indices_roundtrip : forall m p rep def w indices data,
  encode_u32 indices (N.of_nat w) = Ok data -> page_parts p rep def (N.of_nat w :: data) ->
  (w <= 32)%nat -> Forall (fits w) indices -> nlen indices < 2 ^ 56 -> dp_num_values p = nlen indices ->
  exists s, dict_indices_decoder m p = Ok s /\
    yields (hr_next m) (fun s rest => hr_size_hint s = nlen rest) s indices.
Proof.
  intros m p rep def w indices data He Hp Hw Hf Hl Hn. unfold dict_indices_decoder. rewrite (split_parts m p _ _ _ Hp).
  cbn [bind]. replace (32 <? N.of_nat w) with false by lia. rewrite Nat2N.id, Hn.
  destruct (hybrid_rle_roundtrip m w indices Hw Hf Hl) as (out & s & Eo & Es & Hy). rewrite He in Eo. apply Ok_inj in Eo. subst out.
  exists s. split; assumption.
Qed.
Print Assumptions dict_indices_roundtrip.

Theorem dict_indices_bad_width : forall m p rep def w data,
  page_parts p rep def (w :: data) -> 32 < w -> dict_indices_decoder m p = Err OutOfSpec.
Proof.
  intros m p rep def w data Hp Hw. unfold dict_indices_decoder. rewrite (split_parts m p _ _ _ Hp). cbn [bind].
  replace (32 <? w) with true by lia. reflexivity.
Qed.
Print Assumptions dict_indices_bad_width.

(** A dictionary-encoded page without the width byte panics. *)
Theorem dict_indices_no_width_panics : forall m p rep def,
  page_parts p rep def [] -> dict_indices_decoder m p = Panic.
Proof. intros m p rep def Hp. unfold dict_indices_decoder. now rewrite (split_parts m p _ _ _ Hp). Qed.
Print Assumptions dict_indices_no_width_panics.

(** The page states hand out exactly this decoder, with the dictionary they were given. *)
Theorem dictionary_pages : forall D m p (d : D) s,
  (dp_encoding p = Ok EPlainDictionary \/ dp_encoding p = Ok ERleDictionary) -> is_optional p = false ->
  dict_indices_decoder m p = Ok s ->
  (forall t, native_try_new m t p (Some d) = Ok (PsRequiredDictionary (mk_dictionary s d))) /\
  binary_try_new m p (Some d) = Ok (PsRequiredDictionary (mk_dictionary s d)) /\
  (forall size, pt_physical (d_primitive (dp_descriptor p)) = FixedLenByteArray size ->
     fixed_try_new m p (Some d) = Ok (PsRequiredDictionary (mk_dictionary s d))).
Proof.
  intros D m p d s He Ho Hs. unfold native_try_new, binary_try_new, fixed_try_new, dy_try_new.
  rewrite Ho, Hs. destruct He as [-> | ->]; cbn [bind]; repeat split; intros size ->; reflexivity.
Qed.
Print Assumptions dictionary_pages.

Theorem dictionary_optional_pages : forall D m p (d : D) levels w data runs,
  (dp_encoding p = Ok EPlainDictionary \/ dp_encoding p = Ok ERleDictionary) ->
  optional_page p levels (N.of_nat w :: data) -> conforming w runs data -> (0 < w <= 32)%nat -> nlen data < 2 ^ 61 ->
  let indices := flat_map run_values runs in
  (count_true levels <= length indices)%nat ->
  exists ri s,
    (forall t, native_try_new m t p (Some d) = Ok (PsOptionalDictionary (DBitmap ri) (mk_dictionary s d))) /\
    binary_try_new m p (Some d) = Ok (PsOptionalDictionary (DBitmap ri) (mk_dictionary s d)) /\
    yields (ov_next (bl_next (ri_next m)) (hr_next m)) (fun _ _ => True) (bl_new ri, s)
      (map inl (pair_values levels indices)).
Proof.
  intros D m p d levels w data runs He Hp Hc Hw Hd indices Hcount. destruct (validity_of m p levels _ Hp) as (ri & Ev & Hv).
  destruct Hp as (rep & def & Hp & _ & _ & Hopt & Hn & _).
  destruct (dict_indices_decode m p rep def w data _ Hp Hw Hc Hd) as (s & Es & Hy). fold indices in Hy.
  rewrite Hn in Hy. unfold nlen in Hy. rewrite Nat2N.id in Hy.
  exists ri, s. unfold native_try_new, binary_try_new, dy_try_new. rewrite Hopt, Ev, Es.
  assert (Hcl : (count_true levels <= length levels)%nat) by (clear; induction levels as [|[] l IH]; cbn; lia).
  assert (E : pair_values levels indices = pair_values levels (firstn (length levels) (indices ++ repeat 0 (length levels)))).
  { destruct (Nat.le_gt_cases (length levels) (length indices)) as [L|L].
    - rewrite firstn_app. replace (length levels - length indices)%nat with 0%nat by lia. rewrite firstn_O, app_nil_r.
      rewrite <- (firstn_skipn (length levels) indices) at 1. apply pair_values_app. rewrite firstn_length. lia.
    - rewrite firstn_app, firstn_all2 by lia. symmetry. apply pair_values_app. exact Hcount. }
  split; [|split].
  - destruct He as [-> | ->]; reflexivity.
  - destruct He as [-> | ->]; reflexivity.
  - rewrite E. eapply (optional_values _ _ _ _ _ _ _ levels _ _ _ Hv Hy).
    rewrite firstn_length, app_length, repeat_length. lia.
Qed.
Print Assumptions dictionary_optional_pages.

Example dict_indices_case :
  let p := dp_new (HV1 (mk_tdh 9 8 3 3 None)) [3; 18; 5] (mk_descr (mk_prim (mk_fi [97] Required None) None None Int32) 0 0) None in
  page_parts p [] [] [3; 18; 5] /\
  (let* s := dict_indices_decoder Checked p in drain (hr_next Checked) 20 s) = Ok (repeat 5 9).
Proof. vm_compute. repeat split. Qed.
