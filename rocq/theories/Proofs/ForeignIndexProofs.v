(** Proofs about columns of any writer that are read through their offset index. *)
From Verif Require Import Base.Prelude Base.Iter Model.Types Model.Native Model.Thrift Model.Intervals Model.Page Model.Io Model.Compression Model.BasicDecompress Model.PageRead Model.Metadata
  Model.Indexes Spec.FileSpec Spec.RowsSpec Spec.PagesSpec Spec.ForeignSpec Spec.CompressionSpec Spec.LevelsSpec Spec.ValuesSpec Spec.SelectedSpec Spec.RunsSpec Spec.ForeignValuesSpec Spec.ForeignIndexSpec
  Proofs.TypesFacts Proofs.PageIoProofs Proofs.AnyPagesProofs Proofs.ForeignProofs Proofs.SelectedProofs Proofs.ForeignValuesProofs Props.Intervals.
Open Scope N_scope.

Lemma read_at_app before bytes after : read_at (before ++ bytes ++ after) (nlen before) (nlen bytes) = bytes.
Proof.
  unfold read_at, nlen. rewrite !Nat2N.id. rewrite (skipn_app (length before) before). rewrite Nat.sub_diag, skipn_all. cbn [app skipn].
  rewrite (firstn_app (length bytes) bytes), Nat.sub_diag, firstn_all. cbn [firstn]. apply app_nil_r.
Qed.
Lemma nlen_concat_cons {A} (x : list A) l : nlen (concat (x :: l)) = nlen x + nlen (concat l).
Proof. unfold nlen. cbn [concat]. rewrite app_length. lia. Qed.

(** ** What is listed *)
Lemma listed_rows {A} T file row pages (cellss : list (list A)) locs : listed T file row pages cellss locs ->
  first_rows_ok (Z.of_N row) locs (row + nlen (concat cellss)) /\
  Forall (fun x => Z.of_N row <= loc_first_row x <= Z.of_N (row + nlen (concat cellss)))%Z locs /\
  Forall (fun x => 0 <= loc_offset x /\ 0 <= loc_size x)%Z locs /\
  map (fun b => Z.to_N (snd b - fst b)) (RowsSpec.pages_of locs (row + nlen (concat cellss))) = map nlen cellss /\
  map (fun x => Z.to_nat (loc_first_row x)) locs = map (fun i => (N.to_nat row + length (concat (firstn i cellss)))%nat) (seq 0 (length cellss)) /\
  match locs with [] => cellss = [] | a :: _ => loc_first_row a = Z.of_N row end /\
  Forall (fun cells => cells <> []) cellss.
Proof.
  induction 1 as [row|row x pages cells cellss locs before after Hf Hne H (I1 & I2 & I3 & I4 & I5 & I6 & I7)].
  - cbn. repeat split; constructor || lia.
  - rewrite nlen_concat_cons. replace (row + (nlen cells + nlen (concat cellss))) with (row + nlen cells + nlen (concat cellss)) by lia.
    split; [|split; [|split; [|split; [|split; [|split]]]]].
    + cbn [first_rows_ok loc_first_row]. split; [lia|]. destruct locs as [|a r]; cbn [first_rows_ok] in *; [lia|]. split; [lia|apply I1].
    + constructor; [cbn; lia|]. eapply Forall_impl; [|exact I2]. intros y Hy. cbn beta in *. lia.
    + constructor; [cbn; lia|exact I3].
    + cbn [RowsSpec.pages_of map fst snd loc_first_row]. rewrite I4. f_equal. destruct locs as [|a r].
      * subst cellss. change (nlen (concat [])) with 0. lia.
      * rewrite I6. lia.
    + cbn [map loc_first_row length seq]. f_equal; [cbn [firstn concat length]; lia|]. rewrite I5, <- seq_shift, map_map. apply map_ext. intros i. cbn [firstn concat]. rewrite app_length. unfold nlen. lia.
    + reflexivity.
    + constructor; assumption.
Qed.

(** The rows that are selected in each page. *)
Lemma selection_of_listed {A} T file m pages (cellss : list (list A)) locs intervals : listed T file 0 pages cellss locs -> nlen (concat cellss) < 2 ^ 63 ->
  sorted_disjoint intervals -> Forall non_empty intervals -> Forall iv_ok intervals ->
  exists sel, select_pages m intervals locs (nlen (concat cellss)) = Ok sel /\
    Forall2 (fun p loc => Z.of_N (fp_start p) = loc_offset loc /\ Z.of_N (fp_length p) = loc_size loc) sel locs /\
    Forall2 (fun cells f => RunsSpec.has_rows (length cells) (Rows (fp_selected f))) cellss sel /\
    concat (map (fun x => map (Nat.add (fst x)) (snd x)) (combine (map (fun i => length (concat (firstn i cellss))) (seq 0 (length cellss))) (map (fun f => rows_of (fp_selected f)) sel))) =
      filter (fun r => (r <? length (concat cellss))%nat) (rows_of intervals).
Proof.
  intros Hl Hn Hsd Hne Hiv. destruct (listed_rows _ _ _ _ _ _ Hl) as (R1 & R2 & R3 & R4 & R5 & R6 & R7). rewrite N.add_0_l in *. change (Z.of_N 0) with 0%Z in *.
  set (n := nlen (concat cellss)) in *.
  assert (Hlocs : locs_ok locs). { unfold locs_ok. eapply Forall_impl; [|exact R2]. intros x Hx. cbn beta in Hx. change (2 ^ 63) with 9223372036854775808 in Hn. change (2 ^ 63)%Z with 9223372036854775808%Z. lia. }
  assert (Hn64 : n < 2 ^ 64) by (change (2 ^ 63) with 9223372036854775808 in Hn; change (2 ^ 64) with 18446744073709551616; lia).
  destruct (select_pages_exact m intervals locs n Hlocs Hn64 Hiv R1 R3) as (sel & Es & S1 & Snum & Sb & S3). destruct (S3 Hsd) as [Ssd Srows]. clear S3.
  destruct (page_row_intervals_exact locs n Hlocs) as [H1 _]. destruct (H1 R1) as (ivs & Ei & Em). clear H1.
  assert (Hpe : Forall non_empty ivs).
  { assert (E : map iv_length ivs = map nlen cellss). { rewrite <- R4, <- Em, map_map. apply map_ext. intros i. unfold iv_bounds. cbn [fst snd]. lia. }
    clear - E R7. revert ivs E. induction R7 as [|cells cellss Hc _ IH]; intros [|i ivs] E; try discriminate; constructor; injection E as E1 E2; [|apply IH; exact E2].
    unfold non_empty. rewrite E1. destruct cells; [congruence|]. unfold nlen. cbn [length]. lia. }
  pose proof (select_pages_non_empty m intervals locs n sel ivs Hlocs Hn64 Hiv Hne Ei Hpe Es) as Sne.
  exists sel. split; [exact Es|]. split; [exact S1|]. split.
  - rewrite R4 in Snum. clear - Snum Sb Ssd Sne. revert sel Snum Sb Ssd Sne. induction cellss as [|cells cellss IH]; intros [|f sel] Snum Sb Ssd Sne; try discriminate; constructor.
    + cbn [RunsSpec.has_rows]. injection Snum as E _. split; [exact (Forall_inv Ssd)|]. split; [exact (Forall_inv Sne)|]. eapply Forall_impl; [|exact (Forall_inv Sb)]. intros i Hi. cbn beta in Hi. rewrite E in Hi. unfold nlen in Hi. lia.
    + injection Snum as _ E. apply IH; [exact E|exact (Forall_inv_tail Sb)|exact (Forall_inv_tail Ssd)|exact (Forall_inv_tail Sne)].
  - transitivity (concat (map (fun x => map (Nat.add (Z.to_nat (loc_first_row (snd x)))) (rows_of (fp_selected (fst x)))) (combine sel locs))).
    + cbn [N.to_nat Nat.add] in R5. rewrite <- R5. clear. revert locs. induction sel as [|f sel IH]; intros [|a locs]; cbn [map combine concat fst snd]; try reflexivity. f_equal. apply IH.
    + rewrite Srows. destruct locs as [|a r].
      * subst cellss. cbn [concat length]. apply filter_ext. intros [|x]; reflexivity.
      * rewrite R6. apply filter_ext. intros x. unfold n, nlen. rewrite Nat2N.id. reflexivity.
Qed.

(** ** Reading what is listed *)
Definition chosen (codec : compression) (d : descriptor) (x : (t_page_header * compressed_page) * filtered_page) : list compressed_page :=
  match fp_selected (snd x) with [] => [] | s => [read_page_of codec d (Some s) false (as_stored codec d (snd (fst x)))] end.
Lemma finish_selected h p c d rows : describes h p -> is_data p = true -> finish_page h (cp_buffer p) c d rows = Ok (read_page_of c d rows false (as_stored c d p)).
Proof.
  intros (Hu & _ & H) Hd. destruct p as [x|x]; [|discriminate Hd]. unfold finish_page. rewrite Hu, try_usize_of. cbn [cp_buffer cp_uncompressed_size as_stored read_page_of cdp_header cdp_buffer cdp_uncompressed_size].
  destruct (cdp_header x); destruct H as [-> H]; cbn [page_type_of_thrift bind]; rewrite H; reflexivity.
Qed.
Lemma data_runs {A} T m file start codec d pages (cellss : list (list A)) row locs sel : listed T file row pages cellss locs ->
  Forall (header_readable T) pages -> Forall (fun x => is_data (snd x) = true) pages ->
  Forall2 (fun p loc => Z.of_N (fp_start p) = loc_offset loc /\ Z.of_N (fp_length p) = loc_size loc) sel locs ->
  exists r', runs (ir_next T m) (mk_ir file start codec d sel Data) (map inl (flat_map (chosen codec d) (combine pages sel))) r'.
Proof.
  intros H. revert sel. induction H as [row|row x pages cells cellss locs before after Hf Hne H IH]; intros sel Hh Hd Hs.
  - inversion Hs; subst. eexists. cbn [combine flat_map map]. apply runs_nil. reflexivity.
  - inversion Hs as [|f loc sel' locs' [E1 E2] Hs']; subst sel locs' loc. cbn [loc_offset loc_size] in E1, E2. apply N2Z.inj in E1, E2.
    destruct (IH sel' (Forall_inv_tail Hh) (Forall_inv_tail Hd) Hs') as (r' & Hr). exists r'. cbn [combine flat_map]. unfold chosen at 1. cbn [fst snd].
    destruct (fp_selected f) as [|i s] eqn:Ef.
    + cbn [app]. assert (En : ir_next T m (mk_ir file start codec d (f :: sel') Data) = ir_next T m (mk_ir file start codec d sel' Data)).
      { unfold ir_next. cbn [ir_state ir_pages ir_next_data]. rewrite Ef. apply next_data_pages. }
      inversion Hr as [s0 s1 E|s0 s1 y l r0 E Hr' Ea El]; [apply runs_nil; rewrite En; exact E|]. eapply runs_cons; [rewrite En; exact E|exact Hr'].
    + cbn [app map]. eapply runs_cons; [|exact Hr]. unfold ir_next. cbn [ir_state ir_pages ir_next_data]. rewrite Ef. cbn [ir_file ir_column_start ir_compression ir_descriptor].
      unfold read_page_at. rewrite E1, E2, Hf, read_at_app. unfold stored_bytes. destruct (Forall_inv Hh) as (Hdesc & _ & Hb). rewrite Hb. cbn [bind]. cbn beta iota.
      rewrite finish_selected by (exact Hdesc || exact (Forall_inv Hd)). reflexivity.
Qed.

(** The dictionary, if there is one, and then the pages. *)
Lemma indexed_runs {A} T m file start codec d dictionary pages (cellss : list (list A)) locs sel : listed T file 0 pages cellss locs -> begins_at T file start dictionary locs ->
  Forall (header_readable T) pages -> Forall (fun x => is_data (snd x) = true) pages ->
  (forall x, dictionary = Some x -> header_readable T x /\ is_data (snd x) = false) ->
  Forall2 (fun p loc => Z.of_N (fp_start p) = loc_offset loc /\ Z.of_N (fp_length p) = loc_size loc) sel locs ->
  exists r', runs (ir_next T m) (ir_new file start codec d sel)
    (map inl (match pages, dictionary with _ :: _, Some x => [as_stored codec d (snd x)] | _, _ => [] end ++ flat_map (chosen codec d) (combine pages sel))) r'.
Proof.
  intros Hl Hb Hh Hd Hdict Hs. destruct (data_runs T m file start codec d pages cellss 0 locs sel Hl Hh Hd Hs) as (r' & Hr). exists r'.
  assert (Skip : read_dict T m (ir_new file start codec d sel) = Ok None -> runs (ir_next T m) (ir_new file start codec d sel) (map inl (flat_map (chosen codec d) (combine pages sel))) r').
  { intros E. assert (En : ir_next T m (ir_new file start codec d sel) = ir_next T m (mk_ir file start codec d sel Data)) by (unfold ir_new in E |- *; unfold ir_next; cbn [ir_state]; rewrite E; reflexivity).
    inversion Hr as [s0 s1 E1|s0 s1 y l r0 E1 Hr' Ea El]; [apply runs_nil; rewrite En; exact E1|]. eapply runs_cons; [rewrite En; exact E1|exact Hr']. }
  destruct Hl as [row|row x pages cells cellss locs before after Hf Hne Hl].
  - inversion Hs; subst. apply Skip. reflexivity.
  - inversion Hs as [|f loc sel' locs' [E1 E2] Hs']; subst sel locs' loc. cbn [loc_offset loc_size] in E1, E2. cbn [begins_at loc_offset] in Hb.
    destruct dictionary as [y|].
    + destruct Hb as (Eo & b & a & Ef & Eb). destruct (Hdict y eq_refl) as ((Hdesc & Hnb & Hback) & Hk).
      cbn [app map]. eapply runs_cons; [|exact Hr]. unfold ir_new, ir_next. cbn [ir_state]. unfold read_dict. cbn [ir_pages ir_column_start ir_file ir_compression ir_descriptor].
      assert (Esub : usub m 64 (fp_start f) start = Ok (nlen (stored_bytes T y))).
      { unfold usub. replace (start <=? fp_start f) with true by lia. f_equal. lia. }
      rewrite Esub. cbn [bind]. assert (Hpos : 0 < nlen (stored_bytes T y)). { unfold stored_bytes, nlen. rewrite app_length. destruct (t_enc T (fst y)); [congruence|]. cbn [length]. lia. }
      replace (0 <? nlen (stored_bytes T y)) with true by lia. cbn [bind]. unfold read_page_at. rewrite Ef, <- Eb, read_at_app. unfold stored_bytes at 1. rewrite Hback. cbn [bind]. cbn beta iota.
      rewrite finish_page_described by exact Hdesc. cbn [bind]. destruct (snd y) as [q|q]; [discriminate Hk|]. reflexivity.
    + apply Skip. unfold read_dict, ir_new. cbn [ir_pages ir_column_start]. replace (usub m 64 (fp_start f) start) with (Ok 0); [reflexivity|].
      unfold usub. replace (start <=? fp_start f) with true by lia. f_equal. lia.
Qed.

(** ** What the chosen pages hold *)
Lemma holds_with_rows k d dict h body rows cells : RunsSpec.holds k d dict (mk_dp h body d None) cells -> RunsSpec.holds k d dict (mk_dp h body d rows) cells.
Proof. intros [bytes H1 H2 H3|entries positions w bytes H1 H2 H3 H4 H5 H6]; [eapply holds_plain; eassumption|eapply holds_positions; eassumption]. Qed.
Lemma chosen_reads k C m codec d dict : column_of k d ->
  (forall p cells w, RunsSpec.holds k d dict p cells -> RunsSpec.has_rows (length cells) w -> forall got, reads w k m dict p got <-> got = wanted_rows w cells) ->
  forall pages cellss, Forall2 (page_holds k C codec d dict) (map snd pages) cellss -> Forall (fun x => is_data (snd x) = true) pages ->
  forall sel, Forall2 (fun cells f => RunsSpec.has_rows (length cells) (Rows (fp_selected f))) cellss sel ->
  exists ps selected, Forall2 (fun cp p => forall cap b, decompress C m cap cp b = Ok p) (flat_map (chosen codec d) (combine pages sel)) ps /\
    Forall2 (selection_reads k m dict) ps selected /\
    concat selected = concat (map (fun x => pick (fst x) (snd x)) (combine cellss (map (fun f => rows_of (fp_selected f)) sel))).
Proof.
  intros Hk Hread. induction pages as [|x pages IH]; intros cellss Hh Hd sel Hs; inversion Hh as [|cp cells cps cellss' Hp Hh']; subst.
  - exists [], []. inversion Hs; subst. repeat split; constructor.
  - inversion Hs as [|? f ? sel' Hf Hs']; subst. destruct (IH cellss' Hh' (Forall_inv_tail Hd) sel' Hs') as (ps & selected & I1 & I2 & I3).
    cbn [combine flat_map map concat fst snd]. unfold chosen at 1. cbn [fst snd]. destruct (fp_selected f) as [|i s] eqn:Ef.
    + exists ps, selected. cbn [app]. split; [exact I1|]. split; [exact I2|]. exact I3.
    + destruct Hp as (body & Hb & Hp). pose proof (Forall_inv Hd) as Hx. cbn beta in Hx. destruct (snd x) as [q|q]; [|discriminate Hx].
      exists (PData (mk_dp (cdp_header q) body d (Some (i :: s))) :: ps), (pick cells (rows_of (i :: s)) :: selected). cbn [app concat]. rewrite I3. split; [|split; [|reflexivity]].
      * constructor; [|exact I1]. intros cap b. change codec with (cp_compression (as_stored codec d (CData q))) at 1.
        rewrite (decompress_with_rows C m cap d (Some (i :: s)) _ b _ (packed_decompress C m codec d (CData q) body cap b Hb)). reflexivity.
      * constructor; [|exact I2]. cbn [selection_reads]. exists (i :: s). split; [reflexivity|]. intros got.
        apply (Hread _ cells (Rows (i :: s))); [apply holds_with_rows; exact Hp|exact Hf].
Qed.
