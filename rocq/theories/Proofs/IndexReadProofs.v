(** Lemmas about reading pages, and pages through their index, from files that were written. *)
From Verif Require Import Base.Prelude Base.LeFacts Model.Types Model.Native Model.Thrift Model.Intervals Model.Page Model.Io Model.Statistics Model.PageWrite
  Model.ColumnWrite Model.Schema Model.PageRead Model.Metadata Model.Indexes Model.FileWrite Spec.RowsSpec Spec.StatsSpec Spec.PagesSpec Spec.ChunkSpec Spec.SchemaSpec
  Spec.MetadataSpec Spec.FileSpec
  Proofs.TypesFacts Proofs.IntervalsProofs Proofs.PageIoProofs Proofs.PageReadProofs Proofs.ColumnWriteProofs Proofs.CompressionProofs Proofs.SchemaProofs Proofs.MetadataProofs
  Proofs.FileWriteProofs Proofs.PlainProofs Props.Statistics Props.Intervals Props.PageIo Proofs.IndexProofs.
Open Scope N_scope.

(** ** The offset index of a list of pages *)

Lemma page_locations_exact T m : forall off l specs, specs_for T off l specs ->
  forall row, row + chunk_rows l < 2 ^ 63 -> off + nlen (chunk_bytes T l) < 2 ^ 63 ->
  (Forall (locatable T) l -> exists locs, page_locations m (Z.of_N row) (filter is_data_page specs) = Ok locs) /\
  (~ Forall (locatable T) l -> page_locations m (Z.of_N row) (filter is_data_page specs) = Err OutOfSpec).
Proof.
  induction 1 as [|off p spec l specs H _ IH]; intros row Hlt Hoff.
  { split; [ intros _; eexists; reflexivity | intros Hn; exfalso; apply Hn; constructor ]. }
  cbn [filter]. rewrite (is_data_page_for _ _ _ _ H). cbn [chunk_rows fold_right] in *. fold (chunk_rows l) in *.
  rewrite chunk_bytes_cons, nlen_app in Hoff.
  change (2 ^ 63) with 9223372036854775808 in *.
  destruct p as [d|d]; cbn [is_data] in *.
  - cbn [page_locations]. pose proof H as (_ & _ & _ & Ho & Hw & _ & _ & Hr & _). rewrite Ho, Hw. change (2 ^ 63) with 9223372036854775808.
    replace (off <? 9223372036854775808) with true by lia. cbn [bind]. unfold try_i32.
    destruct (N.ltb_spec (nlen (page_bytes T (CData d))) 2147483648) as [Hb|Hb]; cbn [bind].
    2:{ split; [ | reflexivity ]. intros Hf. destruct (Forall_inv Hf) as [Hf' _]. change (2 ^ 31) with 2147483648 in Hf'. lia. }
    unfold page_num_rows in Hr. cbn [cp_selected] in Hr. cbn [page_rows] in *. destruct (cdp_selected d) as [ivs|] eqn:Hp.
    2:{ apply Ok_inj in Hr. rewrite Hr. split; [ | reflexivity ]. intros Hf. destruct (Forall_inv Hf) as [_ Hf']. contradiction. }
    + rewrite last_rev in *. destruct (rev ivs) as [|iv r]; [ discriminate Hr | ]. apply Ok_inj in Hr. rewrite Hr.
      rewrite as_i64_small by lia. rewrite sadd_ok by (unfold in_s; change (2 ^ (Z.of_N 64 - 1))%Z with 9223372036854775808%Z; lia). cbn [bind].
      rewrite <- N2Z.inj_add. destruct (IH (row + iv_length iv)) as [IH1 IH2]; [ lia | lia | ]. split.
      * intros Hf. destruct (IH1 (Forall_inv_tail Hf)) as [locs ->]. eexists. reflexivity.
      * intros Hf. rewrite IH2; [ reflexivity | ]. intros Hf'. apply Hf. constructor; [ | exact Hf' ]. split; [ exact Hb | congruence ].
  - destruct (IH row) as [IH1 IH2]; [ cbn [page_rows] in Hlt; lia | lia | ]. split.
    + intros Hf. apply IH1. exact (Forall_inv_tail Hf).
    + intros Hf. apply IH2. intros Hf'. apply Hf. constructor; [ exact I | exact Hf' ].
Qed.

(** Each entry is the range of bytes of its page. *)
Lemma locations_hold T file : forall l start row, holds file start (chunk_bytes T l) ->
  Forall2 (fun p loc => exists o, loc_offset loc = Z.of_N o /\ holds file o (page_bytes T p) /\ loc_size loc = Z.of_N (nlen (page_bytes T p)))
    (filter is_data l) (locations T start row l).
Proof.
  induction l as [|p l IH]; intros start row H; [ constructor | ]. cbn [filter locations]. rewrite chunk_bytes_cons in H. apply holds_split in H as [H1 H2].
  destruct (is_data p); [ | apply IH; exact H2 ]. constructor; [ | apply IH; exact H2 ]. exists start. split; [ reflexivity | ]. split; [ exact H1 | reflexivity ].
Qed.

(** ** The column index of a list of pages *)

Lemma page_stats_type p d st : page_of_type p d -> cdp_statistics d = Ok (Some st) -> stats_of_type p st.
Proof.
  intros [Hp Hb] E1. unfold cdp_statistics in E1. destruct (header_statistics (cdp_header d)) as [v|]; [ | discriminate E1 ]. destruct Hb as [Hb1 Hb2].
  destruct (deserialize_statistics v (d_primitive (cdp_descriptor d))) as [st'| |] eqn:Ed; cbn [bind] in E1; try discriminate E1.
  injection E1 as <-. rewrite Hp in Ed. eapply statistics_read_faithful; eassumption.
Qed.
Lemma index_entry_total p d spec : page_of_type p d -> Ok (ps_statistics spec) = cdp_statistics d ->
  (exists st e, cdp_statistics d = Ok (Some st) /\ indexable st /\ index_entry spec = Ok e) \/
  ((exists x, cdp_statistics d = Ok x /\ match x with None => True | Some x => ~ indexable x end) /\ index_entry spec = Err OutOfSpec).
Proof.
  intros Ht E. unfold index_entry. destruct (ps_statistics spec) as [st|] eqn:Es; [ | right; split; [ exists None; auto | reflexivity ] ].
  pose proof (page_stats_type _ _ _ Ht (eq_sym E)) as Hty.
  assert (Eser : serialize_statistics st = Ok (mk_tstats None None (stats_null_count st)
                (match st with SBool s => st_distinct_count s | SNative _ _ s => st_distinct_count s | SBinary _ s | SFixed _ s => st_distinct_count s end)
                (snd (stats_bounds st)) (fst (stats_bounds st)))).
  { destruct st as [s|t p' s|p' s|p' s]; try reflexivity. cbn [serialize_statistics]. destruct Hty as (-> & n & -> & _). reflexivity. }
  rewrite Eser. cbn [bind ts_null_count ts_min_value ts_max_value].
  destruct (stats_null_count st) as [n|] eqn:En.
  - destruct (stats_bounds st) as [[mn|] [mx|]] eqn:Eb; cbn [fst snd];
      try (left; exists st; eexists; split; [ symmetry; exact E | ]; split; [ | reflexivity ]; unfold indexable; rewrite En, Eb; cbn; split; congruence).
    right. split; [ | reflexivity ]. exists (Some st). split; [ symmetry; exact E | ]. unfold indexable. rewrite Eb. cbn. intros [_ H]. apply H; [ discriminate | reflexivity ].
  - right. split; [ | reflexivity ]. exists (Some st). split; [ symmetry; exact E | ]. unfold indexable. rewrite En. intros [H _]. apply H. reflexivity.
Qed.
Lemma column_index_total T p off l specs : specs_for T off l specs -> Forall (page_of_type p) (data_pages l) ->
  (exists i, serialize_column_index specs = Ok i) \/
  ((exists d x, In d (data_pages l) /\ cdp_statistics d = Ok x /\ match x with None => True | Some x => ~ indexable x end) /\
   serialize_column_index specs = Err OutOfSpec).
Proof.
  intros Hs Ht. pose proof (specs_statistics _ _ _ _ Hs) as E. unfold serialize_column_index.
  assert (H : (exists es, collect_res (map index_entry (filter is_data_page specs)) = Ok es) \/
    ((exists d x, In d (data_pages l) /\ cdp_statistics d = Ok x /\ match x with None => True | Some x => ~ indexable x end) /\
     collect_res (map index_entry (filter is_data_page specs)) = Err OutOfSpec)).
  { clear Hs. revert E Ht. generalize (data_pages l). induction (filter is_data_page specs) as [|spec sp IH]; intros [|d ds] E Ht; try discriminate E.
    - left. eexists. reflexivity.
    - cbn [map] in E. injection E as E1 E2. cbn [map collect_res].
      destruct (index_entry_total p d spec (Forall_inv Ht) E1) as [(st & e & _ & _ & ->)|[(x & X1 & X2) ->]]; cbn [bind].
      + destruct (IH ds E2 (Forall_inv_tail Ht)) as [[es ->]|[(d' & x & X1 & X2) ->]]; cbn [bind]; [ left; eexists; reflexivity | ].
        right. split; [ | reflexivity ]. exists d', x. split; [ right; exact X1 | exact X2 ].
      + right. split; [ | reflexivity ]. exists d, x. split; [ left; reflexivity | auto ]. }
  destruct H as [[es ->]|[H ->]]; cbn [bind]; [ left; eexists; reflexivity | right; auto ].
Qed.

(** ** Opened files *)

Lemma nth_error_Forall2 {A B} (R : A -> B -> Prop) l l' i a b : Forall2 R l l' -> nth_error l i = Some a -> nth_error l' i = Some b -> R a b.
Proof. intros H. revert i. induction H as [|x y l l' Hx _ IH]; intros [|i] E1 E2; try discriminate; [ injection E1 as ->; injection E2 as ->; exact Hx | exact (IH i E1 E2) ]. Qed.

Lemma opened_group F m schema stats gs kv file md i g rg : written_and_opened F m schema stats gs kv file md -> good_schema schema -> complete_groups schema gs ->
  nth_error gs i = Some g -> nth_error (fmd_row_groups md) i = Some rg ->
  exists s version created_by meta rg', ended F m (fw_new s schema stats version created_by) gs kv file meta /\ nlen file < 2 ^ 63 /\
    nth_error (fm_row_groups meta) i = Some rg' /\ map cmd_chunk (rgm_columns rg) = rg_columns rg' /\ map cmd_descr (rgm_columns rg) = sd_leaves schema /\
    Forall2 (chunk_at F file) (combine (sd_leaves schema) g) (rg_columns rg').
Proof.
  intros (s & version & created_by & w & w' & size & meta & Hs & Hh & He & -> & Hlen & Hmeta & Hsz & Hback & Hread) Hgood (Hcols & Hrows) Eg Erg.
  destruct (file_ended _ _ _ _ _ _ _ _ _ _ _ _ Hs Hh He Hlen) as (meta' & Hmeta' & Hended & _). assert (meta' = meta) as -> by congruence.
  destruct (ended_open _ _ _ _ _ _ _ Hended Hlen Hgood Hcols Hrows Hsz Hback) as (md' & Hread' & _ & _ & _ & _ & _ & _ & Hgroups).
  assert (md' = md) as -> by congruence. cbn [fw_schema fw_new] in Hgroups.
  assert (exists rg', nth_error (fm_row_groups meta) i = Some rg') as [rg' E'].
  { destruct (nth_error (fm_row_groups meta) i) eqn:E; [ eexists; reflexivity | ]. exfalso. apply nth_error_None in E. apply Forall2_length in Hgroups.
    assert (i < length (fmd_row_groups md))%nat by (apply nth_error_Some; congruence). lia. }
  destruct (nth_error_Forall2 _ _ _ _ _ _ Hgroups E' Erg) as (G1 & G2 & _ & _).
  exists s, version, created_by, meta, rg'. refine (conj Hended (conj Hlen (conj E' (conj G1 (conj G2 _))))).
  destruct Hended as (rgs1 & rgs2 & specs & h1 & h2 & h3 & rows & _ & Hl & _). cbn [fw_schema fw_new] in Hl. apply laid_groups_chunks in Hl.
  exact (nth_error_Forall2 _ _ _ _ _ _ Hl Eg E').
Qed.

Lemma nth_error_combine {A B} : forall (a : list A) (b : list B) j x y, nth_error a j = Some x -> nth_error b j = Some y -> nth_error (combine a b) j = Some (x, y).
Proof. induction a as [|a0 a IH]; intros [|b0 b] [|j] x y H1 H2; try discriminate; cbn in *; [ injection H1 as ->; injection H2 as ->; reflexivity | apply IH; assumption ]. Qed.

(** The chunk of column [j] of an opened file. *)
Lemma opened_column F m schema stats gs kv file md i g rg j pages c : written_and_opened F m schema stats gs kv file md -> good_schema schema -> complete_groups schema gs ->
  nth_error gs i = Some g -> nth_error (fmd_row_groups md) i = Some rg -> nth_error g j = Some (inl pages) -> nth_error (rgm_columns rg) j = Some c ->
  nth_error (sd_leaves schema) j = Some (cmd_descr c) /\ nlen file < 2 ^ 63 /\ chunk_at F file (cmd_descr c, inl pages) (cmd_chunk c).
Proof.
  intros H Hg Hc E1 E2 E3 E4. destruct (opened_group _ _ _ _ _ _ _ _ _ _ _ H Hg Hc E1 E2) as (s & v & cb & meta & rg' & _ & Hlen & _ & G1 & G2 & Hch).
  assert (nth_error (sd_leaves schema) j = Some (cmd_descr c)) as Ed by (rewrite <- G2; apply map_nth_error; exact E4).
  split; [ exact Ed | ]. split; [ exact Hlen | ]. refine (nth_error_Forall2 _ _ _ j _ _ Hch _ _); [ apply nth_error_combine; assumption | ].
  rewrite <- G1. apply map_nth_error. exact E4.
Qed.

(** ** Reading through the index *)

Lemma locations_data T : forall dict l start row, Forall (fun p => is_data p = false) dict ->
  locations T start row (dict ++ l) = locations T (start + nlen (chunk_bytes T dict)) row l.
Proof.
  induction dict as [|p dict IH]; intros l start row H; [ cbn [app]; f_equal; unfold chunk_bytes, nlen; cbn; lia | ]. cbn [app locations]. rewrite (Forall_inv H).
  rewrite IH by exact (Forall_inv_tail H). rewrite chunk_bytes_cons, nlen_app. f_equal. lia.
Qed.
Lemma locations_rows T : forall l start row, Forall (fun p => is_data p = true) l ->
  first_rows_ok (Z.of_N row) (locations T start row l) (row + chunk_rows l) /\
  Forall (fun x => 0 <= loc_first_row x <= Z.of_N (row + chunk_rows l))%Z (locations T start row l) /\
  Forall (fun x => 0 <= loc_offset x /\ 0 <= loc_size x)%Z (locations T start row l) /\ length (locations T start row l) = length l.
Proof.
  induction l as [|p l IH]; intros start row H.
  - cbn. repeat split; try constructor. lia.
  - cbn [locations]. rewrite (Forall_inv H). destruct (IH (start + nlen (page_bytes T p)) (row + page_rows p) (Forall_inv_tail H)) as (I1 & I2 & I3 & I4).
    cbn [chunk_rows fold_right]. fold (chunk_rows l). replace (row + (page_rows p + chunk_rows l)) with (row + page_rows p + chunk_rows l) by lia.
    split; [ | split; [ | split ] ].
    + cbn [first_rows_ok loc_first_row]. split; [ lia | ]. destruct (locations T (start + nlen (page_bytes T p)) (row + page_rows p) l) as [|a r]; cbn [first_rows_ok] in *; [ lia | split; [ lia | apply I1 ] ].
    + constructor; [ cbn; lia | exact I2 ].
    + constructor; [ cbn; lia | exact I3 ].
    + cbn [length]. rewrite I4. reflexivity.
Qed.
Lemma selected_placed T : forall l start row sel, Forall (fun p => is_data p = true) l ->
  Forall2 (fun p loc => Z.of_N (fp_start p) = loc_offset loc /\ Z.of_N (fp_length p) = loc_size loc) sel (locations T start row l) ->
  Forall2 same_place sel (placed T start (combine l (map fp_selected sel))).
Proof.
  induction l as [|p l IH]; intros start row sel Hd H; cbn [locations] in H.
  - inversion H; subst. constructor.
  - rewrite (Forall_inv Hd) in H. inversion H as [|s loc sel' locs [H1 H2] H3]; subst. cbn [map combine placed loc_offset loc_size] in *. constructor.
    + unfold same_place. cbn. repeat split; lia.
    + eapply IH; [ exact (Forall_inv_tail Hd) | exact H3 ].
Qed.
Lemma map_fst_combine {A B} : forall (a : list A) (b : list B), length b = length a -> map fst (combine a b) = a.
Proof. induction a as [|x a IH]; intros [|y b] H; try discriminate; [ reflexivity | ]. cbn [combine map fst]. rewrite IH by (cbn in H; lia). reflexivity. Qed.

Lemma chunk_indexed_read F m file c dict data intervals : nlen file < 2 ^ 63 -> chunk_at F file (cmd_descr c, inl (map inl (dict ++ data))) (cmd_chunk c) ->
  (dict = [] \/ exists x, dict = [CDict x]) -> Forall (fun p => is_data p = true) data -> chunk_rows data < 2 ^ 63 ->
  Forall (fun p => reads_back (f_header F) 1048576 (header_of p)) (dict ++ data) -> Forall iv_ok intervals ->
  let locs := chunk_locations F (inl (map inl (dict ++ data))) (cmd_chunk c) in
  exists codec sel r r', (forall p, In p (dict ++ data) -> cp_compression p = codec) /\ select_pages m intervals locs (chunk_rows data) = Ok sel /\
    length sel = length data /\ indexed_reader_new file c sel = Ok r /\
    runs (ir_next (f_header F) m) r
      (map inl (match data with [] => [] | _ => map (read_page_of codec (cd_descriptor (cmd_descr c)) None false) dict end ++
                selected_pages codec (cd_descriptor (cmd_descr c)) (combine data (map fp_selected sel)))) r' /\
    Forall (fun p => Forall (fun i => iv_start i + iv_length i <= fp_num_rows p) (fp_selected p)) sel /\
    (sorted_disjoint intervals ->
      concat (map (fun x => map (Nat.add (Z.to_nat (loc_first_row (snd x)))) (rows_of (fp_selected (fst x)))) (combine sel locs)) =
      filter (fun r => (r <? N.to_nat (chunk_rows data))%nat) (rows_of intervals)).
Proof.
  intros Hlen (pages & meta & Ep & Em & Hh & Hl & start & Hdesc) Hdict Hdata Hrows Hback Hiv locs.
  cbn [snd fst] in Ep, Hdesc. injection Ep as Ep. apply (f_equal (flat_map (fun x => match x with inl p => [p] | inr _ => [] end))) in Ep.
  assert (Epp : forall l : list compressed_page, flat_map (fun x : compressed_page + error => match x with inl p => [p] | inr _ => [] end) (map inl l) = l)
    by (clear; induction l as [|a l IH]; [ reflexivity | cbn [map flat_map app]; rewrite IH; reflexivity ]).
  rewrite !Epp in Ep. clear Epp. subst pages.
  assert (Elocs : locs = locations (f_header F) (chunk_start meta + nlen (chunk_bytes (f_header F) dict)) 0 data).
  { unfold locs, chunk_locations. rewrite Em, pages_of_map. apply locations_data. destruct Hdict as [-> |[x ->]]; repeat constructor. }
  destruct (locations_rows (f_header F) data (chunk_start meta + nlen (chunk_bytes (f_header F) dict)) 0 Hdata) as (R1 & R2 & R3 & R4).
  rewrite <- Elocs in *. change (Z.of_N 0) with 0%Z in R1. rewrite N.add_0_l in *.
  assert (Hlocs : locs_ok locs). { unfold locs_ok. eapply Forall_impl; [ | exact R2 ]. intros x Hx. change (2 ^ 63) with 9223372036854775808 in Hrows. change (2 ^ 63)%Z with 9223372036854775808%Z. cbn beta in Hx. lia. }
  assert (Hr64 : chunk_rows data < 2 ^ 64) by (change (2 ^ 63) with 9223372036854775808 in Hrows; change (2 ^ 64) with 18446744073709551616; lia).
  destruct (select_pages_exact m intervals locs (chunk_rows data) Hlocs Hr64 Hiv R1 R3) as (sel & Es & S1 & _ & S2 & S3).
  pose proof Hdesc as (_ & _ & _ & Hoff & Hdo & (codec & Hcodec & Ecodec & _) & _).
  assert (Hsel : length sel = length data) by (apply Forall2_length in S1; lia).
  assert (Hstart : as_usize (cm_data_page_offset meta) = chunk_start meta).
  { unfold chunk_start. rewrite Hdo. unfold as_usize. rewrite Hoff. pose proof (holds_bound _ _ _ Hh) as Hb. unfold chunk_start in Hb. rewrite Hdo, Hoff in Hb. change (2 ^ 63) with 9223372036854775808 in Hlen.
    destruct (dict ++ data); [ reflexivity | ]. rewrite N2Z.id in *. unfold of_signed. change (2 ^ Z.of_N 64)%Z with 18446744073709551616%Z. rewrite Z.mod_small by lia. apply N2Z.id. }
  assert (Hnew : indexed_reader_new file c sel = Ok (ir_new file (chunk_start meta) codec (cd_descriptor (cmd_descr c)) sel)).
  { unfold indexed_reader_new, byte_range, cmd_compression, cmd_meta. rewrite Em. cbn [bind]. rewrite Hdo, Hstart, Ecodec, codec_round. reflexivity. }
  destruct Hh as (pre & post & Hfile & Hpre).
  destruct (indexed_reader_returns_selected (f_header F) m codec (cd_descriptor (cmd_descr c)) dict (combine data (map fp_selected sel)) pre post sel) as (r' & Hr').
  - exact Hdict.
  - rewrite map_fst_combine by (rewrite map_length; exact Hsel). exact Hback.
  - rewrite Hpre. apply selected_placed with (row := 0); [ exact Hdata | ]. rewrite <- Elocs. exact S1.
  - rewrite map_fst_combine in Hr' by (rewrite map_length; exact Hsel). rewrite <- Hfile, Hpre in Hr'.
    exists codec, sel, (ir_new file (chunk_start meta) codec (cd_descriptor (cmd_descr c)) sel), r'.
    split; [ intros p Hp; unfold same_codec in Hcodec; rewrite Forall_forall in Hcodec; apply Hcodec; exact Hp | ].
    split; [ exact Es | ]. split; [ exact Hsel | ]. split; [ exact Hnew | ]. split; [ | split; [ exact S2 | ] ].
    + destruct data as [|d0 data]; [ exact Hr' | ]. destruct sel as [|s0 sel]; [ discriminate Hsel | ]. exact Hr'.
    + intros Hsd. destruct (S3 Hsd) as [_ ->]. destruct data as [|d0 data].
      * rewrite Elocs. cbn [locations]. cbn [chunk_rows fold_right N.to_nat]. apply filter_ext. intros r. cbn. destruct r; reflexivity.
      * rewrite Elocs. cbn [locations]. rewrite (Forall_inv Hdata). cbn [loc_first_row]. apply filter_ext. intros r. cbn. reflexivity.
Qed.

(** ** Readers do not panic *)

Lemma collect_no_panic {A} (l : list (res A)) : Forall (fun r => r <> Panic) l -> collect_res l <> Panic.
Proof. induction 1 as [|r l H _ IH]; [ discriminate | ]. cbn [collect_res]. destruct r; cbn [bind]; [ | discriminate | congruence ]. destruct (collect_res l); cbn [bind]; congruence. Qed.
Lemma try_usize_total z : try_usize z <> Panic.
Proof. unfold try_usize. destruct (z <? 0)%Z; discriminate. Qed.
Lemma prepare_read_total chunks o l : prepare_read chunks o l <> Panic.
Proof.
  unfold prepare_read. destruct chunks as [|c chunks]; [ discriminate | ]. destruct (o (cmd_chunk c)) as [x|]; [ | discriminate ].
  apply bind_no_panic; [ apply try_usize_total | ]. intros x' _. apply bind_no_panic; [ | discriminate ].
  apply collect_no_panic. apply Forall_map. apply Forall_forall. intros y _. destruct (l (cmd_chunk y)); [ apply try_usize_total | discriminate ].
Qed.
Lemma decode_locations_total T max : (forall max s, t_dec T max s <> Panic) -> forall n data, decode_locations T max n data <> Panic.
Proof.
  intros HT. induction n as [|n IH]; intros data; [ discriminate | ]. cbn [decode_locations]. apply bind_no_panic; [ apply HT | ]. intros [l d] _.
  apply bind_no_panic; [ apply IH | discriminate ].
Qed.
Lemma index_pages_total {A} (value : list N -> res A) i : (forall b, value b <> Panic) -> index_pages value i <> Panic.
Proof.
  intros H. unfold index_pages. apply collect_no_panic. apply Forall_map. apply Forall_forall. intros [[[a b] c] d] _. destruct c; [ discriminate | ].
  apply bind_no_panic; [ apply H | ]. intros x _. apply bind_no_panic; [ apply H | discriminate ].
Qed.
Lemma boundary_order_total z : boundary_order_of_thrift z <> Panic.
Proof. unfold boundary_order_of_thrift. repeat match goal with |- context [match ?x with _ => _ end] => destruct x; try discriminate end. Qed.
Lemma index_from_thrift_total i p : pt_physical p <> Boolean -> index_from_thrift i p <> Panic.
Proof.
  intros Hp. unfold index_from_thrift.
  assert (Hn : forall t b, native_bound t b <> Panic) by (intros t b; unfold native_bound; destruct (length b =? native_size t)%nat; discriminate).
  destruct (pt_physical p); try contradiction;
    (apply bind_no_panic; [ apply index_pages_total; first [ apply Hn | discriminate ] | intros pages _; apply bind_no_panic; [ apply boundary_order_total | discriminate ] ]).
Qed.
Lemma deserialize_indexes_total T : (forall max s, t_dec T max s <> Panic) -> forall chunks,
  Forall (fun c => pt_physical (d_primitive (cd_descriptor (cmd_descr c))) <> Boolean) chunks ->
  forall data lengths, total lengths <= nlen data -> deserialize_indexes T chunks data lengths <> Panic.
Proof.
  intros HT. induction 1 as [|c chunks H _ IH]; intros data [|n lengths] Hl; try discriminate. cbn [deserialize_indexes]. cbn [total fold_right] in Hl. fold (total lengths) in Hl.
  replace (nlen data <? n) with false by lia. apply bind_no_panic.
  - unfold deserialize_index. apply bind_no_panic; [ apply HT | ]. intros [i r] _. apply index_from_thrift_total. exact H.
  - intros i _. apply bind_no_panic; [ | discriminate ]. apply IH. unfold nlen in *. rewrite skipn_length. lia.
Qed.
Lemma read_at_length file o n : o + n <= nlen file -> nlen (read_at file o n) = n.
Proof. intros H. unfold read_at, nlen in *. rewrite firstn_length, skipn_length. lia. Qed.
