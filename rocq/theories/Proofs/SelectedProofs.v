(** Proofs about decompressing any iterator of pages, and about selected rows. *)
From Verif Require Import Base.Prelude Base.Iter Model.Types Model.Native Model.Thrift Model.Intervals Model.HybridRle Model.Plain Model.Page Model.Deserialize
  Model.Compression Model.BasicDecompress Model.FileWrite Model.ColumnWrite Model.PageWrite
  Spec.Bits Spec.PlainSpec Spec.PageSpec Spec.RowsSpec Spec.LevelsSpec Spec.PagesSpec Spec.FileSpec Spec.CompressionSpec Spec.ValuesSpec Spec.SelectedSpec
  Proofs.BitsFacts Proofs.BitmapProofs Proofs.SliceProofs Proofs.CompressionProofs Proofs.EndToEndProofs Proofs.ValuesProofs Props.Deserialize.
Open Scope N_scope.

Lemma bd_run_each {S} C m (next : S -> res (option (compressed_page + error) * S)) R :
  hands_out next R -> forall buffers s l, R s l ->
  Forall (fun x => match x with inl cp => page_fills C m cp | inr _ => True end) l ->
  bd_run C m next buffers s = decompress_each C m l (length buffers).
Proof.
  intros (Hnil & Hcons). induction buffers as [|[cap b] buffers IH]; intros s l HR Hf; cbn [bd_run length decompress_each]; [reflexivity|].
  destruct l as [|[cp|e] l].
  - destruct (Hnil s HR) as (s' & -> & HR'). cbn [bind]. rewrite (IH s' []); auto.
  - destruct (Hcons s _ l HR) as (s' & -> & HR'). cbn [bind]. rewrite (decompress_any_buffer C m cp cap b) by exact (Forall_inv Hf).
    destruct (decompress C m 0 cp []) as [p|e|]; [| |reflexivity]; rewrite (IH s' l); auto; exact (Forall_inv_tail Hf).
  - destruct (Hcons s _ l HR) as (s' & -> & HR'). cbn [bind]. rewrite (IH s' l); auto. exact (Forall_inv_tail Hf).
Qed.

(** ** Picking rows *)
Lemma pick_app {A} (l : list A) a b : pick l (a ++ b) = pick l a ++ pick l b.
Proof. unfold pick. apply flat_map_app. Qed.
Lemma pick_map {A B} (f : A -> B) l rows : pick (map f l) rows = map f (pick l rows).
Proof.
  induction rows as [|r rows IH]; [reflexivity|]. unfold pick in *. cbn [flat_map]. rewrite IH, map_app. f_equal.
  rewrite nth_error_map. destruct (nth_error l r); reflexivity.
Qed.
Lemma pick_in {A} (l : list A) rows x : In x (pick l rows) -> In x l.
Proof. unfold pick. intros H. apply in_flat_map in H as (r & _ & H). destruct (nth_error l r) eqn:E; [|destruct H]. destruct H as [<-|[]]. exact (nth_error_In _ _ E). Qed.
Lemma pick_forall2 {A B} (P : A -> B -> Prop) la lb : Forall2 P la lb -> forall rows, Forall2 P (pick la rows) (pick lb rows).
Proof.
  intros H. induction rows as [|r rows IH]; [constructor|]. unfold pick in *. cbn [flat_map]. apply Forall2_app; [|exact IH].
  clear IH rows. revert r. induction H as [|a b la lb Hab H IH]; intros [|r]; cbn [nth_error]; [constructor|constructor|constructor; [exact Hab|constructor]|apply IH].
Qed.
Lemma pick_shift {A} (a b c : list A) rows : Forall (fun r => (r < length b)%nat) rows -> pick (a ++ b ++ c) (map (Nat.add (length a)) rows) = pick b rows.
Proof.
  induction 1 as [|r rows Hr _ IH]; [reflexivity|]. unfold pick in *. cbn [map flat_map]. rewrite IH. f_equal.
  rewrite nth_error_app2 by lia. replace (length a + r - length a)%nat with r by lia. rewrite nth_error_app1 by exact Hr. reflexivity.
Qed.
Lemma pick_below {A} (l : list A) rows : pick l (filter (fun r => (r <? length l)%nat) rows) = pick l rows.
Proof.
  induction rows as [|r rows IH]; [reflexivity|]. unfold pick in *. cbn [filter]. destruct (Nat.ltb_spec r (length l)) as [H|H]; cbn [flat_map]; rewrite IH; [reflexivity|].
  rewrite (proj2 (nth_error_None l r)) by exact H. reflexivity.
Qed.

(** ** The rows selected in a page *)
Lemma rows_bound n : forall l p, sorted_disjoint_from p l -> Forall (fun i => iv_start i + iv_length i <= n) l ->
  Forall (fun r => (r < N.to_nat n)%nat) (rows_of l) /\ (l = [] \/ (p + length (rows_of l) <= N.to_nat n)%nat).
Proof.
  induction l as [|i l IH]; intros p Hs Hb; [split; [constructor|left; reflexivity]|]. cbn [sorted_disjoint_from] in Hs. destruct Hs as [H1 H2].
  destruct (IH _ H2 (Forall_inv_tail Hb)) as [I1 I2]. pose proof (Forall_inv Hb) as Hi. cbn beta in Hi.
  unfold rows_of in *. cbn [map concat]. unfold rows at 1 3. split.
  - apply Forall_app. split; [|exact I1]. apply Forall_forall. intros r Hr. apply in_seq in Hr. lia.
  - right. rewrite app_length, seq_length. destruct I2 as [-> |I2]; [cbn [map concat length]|]; lia.
Qed.

(** ** Following iterators for some rows *)
Section Selected.
  Variable m : mode.
  Variable ivs : list interval.
  Hypothesis Hs : sorted_disjoint ivs.
  Hypothesis Hne : Forall non_empty ivs.
  Hypothesis Hok : Forall iv_ok ivs.
  Hypothesis Hlen : nlen (rows_of ivs) < 2 ^ 64.

  Lemma sliced_pick {S A} (next : S -> res (option A * S)) P s items : yields next P s items -> sliced m next ivs s (pick items (rows_of ivs)).
  Proof.
    intros Hy. destruct (sliced_iteration _ _ next P m s items ivs Hy Hs Hne Hok Hlen) as (sl & E & Hsl). exists sl. split; [exact E|].
    eapply yields_weaken; [|exact Hsl]. trivial.
  Qed.

  Lemma followed_pick {V A I} (next : V -> res (option I * V)) (item : A -> I) st cells :
    followed m next item st cells -> followed_selected m ivs next item st (pick cells (rows_of ivs)).
  Proof.
    destruct st as [v it|it|dy|v dy]; cbn [followed followed_selected].
    - destruct v as [levels|]; [|intros []]. intros H. apply sliced_pick in H. rewrite pick_map in H. exact H.
    - intros (vs & -> & H). exists (pick vs (rows_of ivs)). rewrite <- !pick_map. split; [reflexivity|]. exact (sliced_pick _ _ _ _ H).
    - intros (ps & -> & H1 & H). exists (pick ps (rows_of ivs)). rewrite <- pick_map. split; [reflexivity|]. split; [intros Hin; apply H1; exact (pick_in _ _ _ Hin)|].
      exact (sliced_pick _ _ _ _ H).
    - destruct v as [levels|]; [|intros []]. intros (ps & H & HF). exists (pick ps (rows_of ivs)). split; [|apply pick_forall2; exact HF].
      rewrite <- pick_map. exact (sliced_pick _ _ _ _ H).
  Qed.

  Lemma followed_boolean_pick st cells : followed_boolean m st cells -> followed_boolean_selected m ivs st (pick cells (rows_of ivs)).
  Proof.
    destruct st as [v it|bytes n]; cbn [followed_boolean followed_boolean_selected].
    - destruct v as [levels|]; [|intros []]. intros H. rewrite <- pick_map. exact (sliced_pick _ _ _ _ H).
    - intros (-> & H). rewrite pick_map. destruct (bm_new_spec bytes 0 (N.to_nat n)) as (b & Eb & Hy).
      { rewrite <- bit_stream_length. exact H. }
      rewrite N2Nat.id in Eb. cbn [skipn] in Hy. exists b, (pick (firstn (N.to_nat n) (bit_stream bytes)) (rows_of ivs)). split; [exact Eb|]. split; [reflexivity|].
      exact (sliced_pick _ _ _ _ Hy).
  Qed.

  Lemma decodes_pick k dict h b d cells : decodes k m dict (PData (mk_dp h b d None)) cells ->
    decodes_selected k m dict (PData (mk_dp h b d (Some ivs))) (pick cells (rows_of ivs)).
  Proof.
    cbn [decodes decodes_selected]. intros H. exists ivs. split; [reflexivity|]. destruct k as [t| |size|].
    - destruct H as (st & E & H). exists st. split; [exact E|apply followed_pick; exact H].
    - destruct H as (st & E & H). exists st. split; [exact E|apply followed_pick; exact H].
    - destruct H as (st & E & H). exists st. split; [exact E|apply followed_pick; exact H].
    - destruct H as (st & E & H). exists st. split; [exact E|apply followed_boolean_pick; exact H].
  Qed.
End Selected.

(** ** Pages read with their rows *)
Definition page_with_rows (d : descriptor) (rows : option (list interval)) (p : page) : page :=
  match p with
  | PData x => PData (mk_dp (dp_header x) (dp_buffer x) d rows)
  | PDict x => PDict (mk_dict (di_buffer x) (di_num_values x) false)
  end.
Lemma decompress_with_rows C m cap d rows cp b p : decompress C m cap cp b = Ok p ->
  decompress C m cap (read_page_of (cp_compression cp) d rows false cp) b = Ok (page_with_rows d rows p).
Proof.
  unfold decompress, decompress_buffer. intros H.
  assert (E : cp_compression (read_page_of (cp_compression cp) d rows false cp) = cp_compression cp) by (destruct cp; reflexivity).
  rewrite E.
  assert (Eu : cp_uncompressed_size (read_page_of (cp_compression cp) d rows false cp) = cp_uncompressed_size cp) by (destruct cp; reflexivity).
  rewrite Eu.
  assert (Hc : forall o, create_page (read_page_of (cp_compression cp) d rows false cp) o = page_with_rows d rows (create_page cp o)) by (intros o; destruct cp; reflexivity).
  destruct cp as [x|x]; cbn [read_page_of cp_compression cdp_header cdp_buffer cdi_buffer] in *.
  - set (c := cdp_compression x) in *. destruct c; cbn [fst snd] in *; try (apply Ok_inj in H; subst p; reflexivity);
      (destruct (match cdp_header x with HV1 _ => _ | HV2 _ => _ end) as [o [[]|e|]]; cbn [rmap] in *; try discriminate H; apply Ok_inj in H; subst p; rewrite Hc; reflexivity).
  - set (c := cdi_compression x) in *. destruct c; cbn [fst snd] in *; try (apply Ok_inj in H; subst p; reflexivity);
      (destruct (decompress_bytes _ _ _ _) as [o [[]|e|]]; cbn [rmap] in *; try discriminate H; apply Ok_inj in H; subst p; rewrite Hc; reflexivity).
Qed.
Lemma bd_run_runs {S} C m (next : S -> res (option (compressed_page + error) * S)) : forall cps ps, Forall2 (fun cp p => forall cap b, decompress C m cap cp b = Ok p) cps ps ->
  forall r r' buffers, runs next r (map inl cps) r' -> length buffers = Datatypes.S (length ps) ->
  bd_run C m next buffers r = Ok (map (fun p => inl (Some p)) ps ++ [inl None]).
Proof.
  induction 1 as [|cp p cps ps H _ IH]; intros r r' buffers Hr Hl.
  - destruct buffers as [|[cap b] [|x l]]; try discriminate Hl. inversion Hr as [? ? E|]; subst. cbn [bd_run]. rewrite E. reflexivity.
  - destruct buffers as [|[cap b] buffers]; [discriminate Hl|]. cbn [map] in Hr. inversion Hr as [|? s1 ? ? ? E Hr']; subst. cbn [bd_run map app]. rewrite E. cbn [bind].
    rewrite H. rewrite (IH s1 r' buffers Hr'); [reflexivity|]. cbn [length] in Hl. lia.
Qed.

(** ** The pages of a column and their rows *)
Lemma compress_rows {A} C m p o cp (cells : list (option A)) : compress C m p [] o = Ok cp -> counts_rows p cells ->
  is_data cp = true /\ page_rows cp = nlen cells.
Proof.
  intros Hc Hr. destruct p as [p|p]; [|destruct Hr]. destruct Hr as [Hr _]. unfold compress, compress_data in Hc.
  set (o' := match o with OUncompressed => _ | _ => _ end) in Hc. destruct o' as [y| |]; cbn [bind rmap] in Hc; try discriminate Hc. apply Ok_inj in Hc. subst cp.
  split; [reflexivity|]. cbn [page_rows cdp_selected]. rewrite Hr. reflexivity.
Qed.
Lemma compress_dict_page C m x o cp : compress C m (PDict x) [] o = Ok cp -> exists y, cp = CDict y.
Proof. unfold compress. destruct (compress_dict C x [] o); cbn [rmap]; intros H; try discriminate H. apply Ok_inj in H. eauto. Qed.
Lemma pages_of_locations T : forall l start row, Forall (fun p => is_data p = true) l ->
  map (fun b => Z.to_N (snd b - fst b)) (pages_of (locations T start row l) (row + chunk_rows l)) = map page_rows l.
Proof.
  induction l as [|p l IH]; intros start row H; [reflexivity|]. cbn [locations]. rewrite (Forall_inv H). cbn [chunk_rows fold_right]. fold (chunk_rows l).
  cbn [pages_of map loc_first_row fst snd]. specialize (IH (start + nlen (page_bytes T p)) (row + page_rows p) (Forall_inv_tail H)).
  replace (row + (page_rows p + chunk_rows l)) with (row + page_rows p + chunk_rows l) by lia. rewrite IH. f_equal.
  destruct l as [|q l]; cbn [locations]; [cbn [chunk_rows fold_right]; lia|]. rewrite (Forall_inv (Forall_inv_tail H)). cbn [loc_first_row]. lia.
Qed.
Lemma first_rows_of_locations T : forall l start row, Forall (fun p => is_data p = true) l ->
  map (fun x => Z.to_nat (loc_first_row x)) (locations T start row l) = map (fun i => (N.to_nat row + N.to_nat (chunk_rows (firstn i l)))%nat) (seq 0 (length l)).
Proof.
  induction l as [|p l IH]; intros start row H; [reflexivity|]. cbn [locations]. rewrite (Forall_inv H). cbn [length seq map loc_first_row firstn]. f_equal.
  - cbn [chunk_rows fold_right]. lia.
  - rewrite IH by exact (Forall_inv_tail H). rewrite <- seq_shift, map_map. apply map_ext. intros i. cbn [firstn chunk_rows fold_right]. fold (chunk_rows (firstn i l)). lia.
Qed.
(** The rows picked from all pages are the rows picked page by page. *)
Lemma pick_pages {A} : forall (cellss : list (list A)) pre (sel : list (list nat)),
  Forall2 (fun cells rows => Forall (fun r => (r < length cells)%nat) rows) cellss sel ->
  pick (pre ++ concat cellss) (concat (map (fun x => map (Nat.add (fst x)) (snd x))
    (combine (map (fun i => (length pre + length (concat (firstn i cellss)))%nat) (seq 0 (length cellss))) sel))) =
  concat (map (fun x => pick (fst x) (snd x)) (combine cellss sel)).
Proof.
  induction cellss as [|cells cellss IH]; intros pre sel H; inversion H as [|? rows ? sel' Hr H']; subst; [reflexivity|].
  cbn [length seq map combine concat firstn fst snd]. rewrite Nat.add_0_r, pick_app, pick_shift by exact Hr. f_equal.
  specialize (IH (pre ++ cells) sel' H'). rewrite <- app_assoc in IH. rewrite <- IH. do 3 f_equal. rewrite <- seq_shift, map_map.
  f_equal. apply map_ext. intros i. cbn [firstn concat]. rewrite !app_length. lia.
Qed.
