(** Lemmas about writing files. *)
From Coq Require Import Sorting.Sorted.
From Verif Require Import Base.Prelude Base.LeFacts Model.Types Model.Native Model.Thrift Model.Intervals Model.Page Model.Io Model.Statistics Model.PageWrite
  Model.ColumnWrite Model.Schema Model.PageRead Model.Metadata Model.Indexes Model.FileWrite Spec.PagesSpec Spec.ChunkSpec Spec.SchemaSpec Spec.MetadataSpec Spec.FileSpec
  Proofs.TypesFacts Proofs.IntervalsProofs Proofs.PageIoProofs Proofs.PageReadProofs Proofs.ColumnWriteProofs Proofs.CompressionProofs Proofs.SchemaProofs Proofs.MetadataProofs.
Open Scope N_scope.

(** ** Sinks only grow *)

Definition longer (a b : sink) : Prop := exists x, sk_data b = sk_data a ++ x.
Lemma longer_refl s : longer s s.
Proof. exists []. rewrite app_nil_r. reflexivity. Qed.
Lemma longer_trans a b c : longer a b -> longer b c -> longer a c.
Proof. intros [x Hx] [y Hy]. exists (x ++ y). rewrite Hy, Hx, app_assoc. reflexivity. Qed.
Lemma longer_nlen a b : longer a b -> nlen (sk_data a) <= nlen (sk_data b).
Proof. intros [x ->]. rewrite nlen_app. lia. Qed.

Definition grows {A} (x : writer A) : Prop := forall s s' r, x s = (s', r) -> longer s s'.
Lemma grows_write_all b : grows (write_all b).
Proof.
  intros s s' r. unfold write_all. destruct (sk_room s) as [n|]; [ destruct (nlen b <=? n) | ]; intros H; injection H; intros; subst; eexists; reflexivity.
Qed.
Lemma grows_wres {A} (x : res A) : grows (wres x).
Proof. intros s s' r H. unfold wres in H. injection H; intros; subst. apply longer_refl. Qed.
Lemma grows_wret {A} (x : A) : grows (wret x).
Proof. apply grows_wres with (x := Ok x). Qed.
Lemma grows_wbind {A B} (x : writer A) (f : A -> writer B) : grows x -> (forall a, grows (f a)) -> grows (wbind x f).
Proof.
  intros Hx Hf s s' r. unfold wbind. destruct (x s) as [s1 [a| |]] eqn:E; intros H.
  - eapply longer_trans; [ eapply Hx; exact E | eapply Hf; exact H ].
  - injection H; intros; subst. eapply Hx; exact E.
  - injection H; intros; subst. eapply Hx; exact E.
Qed.
Lemma grows_write_struct {X} (T : thrift X) x : grows (write_struct T x).
Proof. apply grows_wbind; [ apply grows_write_all | intros; apply grows_wret ]. Qed.
Lemma grows_write_page T off p : grows (write_page T off p).
Proof.
  unfold write_page. repeat first [ apply grows_wbind; intros | apply grows_wres | apply grows_wret | apply grows_write_struct | apply grows_write_all ].
Qed.
Lemma grows_write_pages T : forall pages off, grows (write_pages T off pages).
Proof.
  induction pages as [|[p|e] pages IH]; intros off; cbn [write_pages].
  - apply grows_wret.
  - apply grows_wbind; [ apply grows_write_page | intros spec ]. apply grows_wbind; [ apply IH | intros; apply grows_wret ].
  - apply grows_wres.
Qed.
Lemma grows_write_column_chunk T TM m off d pages : grows (write_column_chunk T TM m off d pages).
Proof.
  unfold write_column_chunk. apply grows_wbind; [ apply grows_write_pages | intros specs ].
  apply grows_wbind; [ apply grows_wres | intros c ]. destruct (cc_meta c); [ | apply grows_wres ].
  apply grows_wbind; [ apply grows_write_struct | intros; apply grows_wret ].
Qed.
Lemma grows_write_columns F m : forall ds cols off, grows (write_columns F m off ds cols).
Proof.
  induction ds as [|d ds IH]; intros cols off; cbn [write_columns]; [ apply grows_wret | ].
  destruct cols as [|[pages|e] cols]; [ apply grows_wret | | apply grows_wres ].
  apply grows_wbind; [ apply grows_write_column_chunk | intros [[c sp] n] ].
  apply grows_wbind; [ apply IH | intros [l o]; apply grows_wret ].
Qed.
Lemma grows_write_row_group F m off ds cols ord : grows (write_row_group F m off ds cols ord).
Proof.
  unfold write_row_group. apply grows_wbind; [ apply grows_write_columns | intros [l o] ].
  apply grows_wbind; [ apply grows_wres | intros n ]. apply grows_wbind; [ apply grows_wres | intros ms ]. apply grows_wret.
Qed.

(** ** Holding bytes *)

Lemma holds_app file more start b : holds file start b -> holds (file ++ more) start b.
Proof. intros (pre & post & -> & H). exists pre, (post ++ more). split; [ rewrite <- !app_assoc; reflexivity | exact H ]. Qed.
Lemma holds_longer a b start x : longer a b -> holds (sk_data a) start x -> holds (sk_data b) start x.
Proof. intros [y ->]. apply holds_app. Qed.
Lemma holds_end pre b : holds (pre ++ b) (nlen pre) b.
Proof. exists pre, []. rewrite app_nil_r. auto. Qed.
Lemma app_eq_len {A} : forall (a b c d : list A), a ++ b = c ++ d -> length a = length c -> a = c /\ b = d.
Proof.
  induction a as [|x a IH]; intros b [|y c] d E L; cbn [length app] in *; try discriminate L; [ auto | ].
  injection E as -> E. apply IH in E as [-> ->]; [ auto | lia ].
Qed.
Lemma holds_split file start a b : holds file start (a ++ b) <-> holds file start a /\ holds file (start + nlen a) b.
Proof.
  split.
  - intros (pre & post & -> & H). split.
    + exists pre, (b ++ post). split; [ rewrite <- app_assoc; reflexivity | exact H ].
    + exists (pre ++ a), post. split; [ rewrite <- !app_assoc; reflexivity | rewrite nlen_app; lia ].
  - intros [(pre & post & -> & H) (pre' & post' & E & H')]. exists pre, post'. split; [ | exact H ].
    assert (pre' = pre ++ a /\ b ++ post' = post) as [-> <-].
    { rewrite app_assoc in E. apply app_eq_len in E as [-> ->]; [ auto | ]. rewrite app_length. unfold nlen in *. lia. }
    rewrite <- app_assoc. reflexivity.
Qed.
Lemma holds_nil file start : start <= nlen file -> holds file start [].
Proof.
  intros H. exists (firstn (N.to_nat start) file), (skipn (N.to_nat start) file). cbn [app]. rewrite firstn_skipn. split; [ reflexivity | ].
  unfold nlen in *. rewrite firstn_length. lia.
Qed.
Lemma holds_read file start b : holds file start b -> read_at file start (nlen b) = b.
Proof. intros (pre & post & -> & <-). apply read_at_exact. Qed.
Lemma holds_skip file start b : holds file start b -> exists post, skipn (N.to_nat start) file = b ++ post.
Proof. intros (pre & post & -> & <-). exists post. rewrite skipn_nlen_app by reflexivity. reflexivity. Qed.
Lemma holds_bound file start b : holds file start b -> start + nlen b <= nlen file.
Proof. intros (pre & post & -> & <-). rewrite !nlen_app. lia. Qed.

(** ** Columns one after the other *)

(** The statistics in the metadata are those of the pages, merged. *)
Definition summed (specs : list page_spec) (meta : t_column_meta) : Prop :=
  exists m reduced, reduce_statistics m (map ps_statistics specs) = Ok reduced /\
    (match reduced with None => Ok None | Some s => let* s := serialize_statistics s in Ok (Some s) end) = Ok (cm_statistics meta).
(** From [pos] to [hi]: for each column its pages and then its metadata. *)
Inductive laid (F : formats) (file : list N) : N -> list (column_descriptor * (pages_iter + error)) -> list t_column_chunk -> list (list page_spec) -> N -> Prop :=
| laid_nil pos : laid F file pos [] [] [] pos
| laid_cons pos d l meta chunk specs cols chunks specss hi :
    cc_meta chunk = Some meta -> specs_for (f_header F) pos l specs -> describes (f_header F) pos d l meta ->
    holds file pos (chunk_bytes (f_header F) l ++ t_enc (f_column F) meta) ->
    laid F file (pos + nlen (chunk_bytes (f_header F) l ++ t_enc (f_column F) meta)) cols chunks specss hi -> summed specs meta ->
    laid F file pos ((d, inl (map inl l)) :: cols) (chunk :: chunks) (specs :: specss) hi.

Lemma laid_longer F a b : longer a b -> forall pos cols chunks specss hi,
  laid F (sk_data a) pos cols chunks specss hi -> laid F (sk_data b) pos cols chunks specss hi.
Proof.
  intros H. induction 1; [ constructor | ]. econstructor; [ eassumption | assumption | assumption | eapply holds_longer; eassumption | assumption | assumption ].
Qed.
Lemma laid_meta F file : forall pos cols chunks specss hi, laid F file pos cols chunks specss hi ->
  forall chunks', Forall2 (fun c c' => cc_meta c' = cc_meta c) chunks chunks' -> laid F file pos cols chunks' specss hi.
Proof.
  induction 1 as [|pos d l meta chunk specs cols chunks specss hi Hm Hs Hd Hh Hl IH Hz]; intros chunks' H.
  - inversion H. constructor.
  - inversion H as [|? c' ? cs' Hc Hcs]; subst. econstructor; [ rewrite Hc; exact Hm | assumption | assumption | assumption | apply IH; assumption | assumption ].
Qed.
Lemma laid_length F file pos cols chunks specss hi : laid F file pos cols chunks specss hi ->
  length chunks = length cols /\ length specss = length cols.
Proof. induction 1 as [|pos d l meta chunk specs cols chunks specss hi Hm Hs Hd Hh Hl [IH1 IH2]]; [ auto | ]. cbn [length]. auto. Qed.
Lemma laid_hi F file pos cols chunks specss hi : laid F file pos cols chunks specss hi -> pos <= hi.
Proof. induction 1; [ reflexivity | lia ]. Qed.
(** The end is inside the file, unless nothing was written. *)
Lemma laid_bound F file pos cols chunks specss hi : laid F file pos cols chunks specss hi -> pos <= nlen file -> hi <= nlen file.
Proof. induction 1 as [|pos d l meta chunk specs cols chunks specss hi Hm Hs Hd Hh Hl IH]; [ auto | ]. intros _. apply IH. apply holds_bound in Hh. lia. Qed.

Lemma pair_inj {A B} (a a' : A) (b b' : B) : (a, b) = (a', b') -> a = a' /\ b = b'.
Proof. intros H. injection H; auto. Qed.

Lemma write_columns_ok F m : forall ds cols off s s' l last,
  write_columns F m off ds cols s = (s', Ok (l, last)) -> off = nlen (sk_data s) -> nlen (sk_data s') < 2 ^ 63 ->
  last = nlen (sk_data s') /\ laid F (sk_data s') off (combine ds cols) (map fst l) (map snd l) last /\
  Forall (fun x => exists meta, fst x = mk_tcc None (cm_data_page_offset meta + cm_compressed_size meta) (Some meta) None None None None None None) l.
Proof.
  induction ds as [|d ds IH]; intros cols off s s' l last H Hoff Hs.
  - cbn [write_columns] in H. apply wret_ok in H as [-> H]. apply pair_inj in H as [<- <-]. cbn. split; [ assumption | ]. split; constructor.
  - destruct cols as [|[pages|e] cols]; cbn [write_columns] in H.
    + apply wret_ok in H as [-> H]. apply pair_inj in H as [<- <-]. cbn. split; [ assumption | ]. split; constructor.
    + apply wbind_ok in H as (s1 & [[chunk specs] size] & H1 & H). apply wbind_ok in H as (s2 & [l2 o2] & H2 & H).
      apply wret_ok in H as [-> H]. apply pair_inj in H as [<- <-].
      pose proof (grows_write_column_chunk _ _ _ _ _ _ _ _ _ H1) as G1. pose proof (grows_write_columns _ _ _ _ _ _ _ _ H2) as G2.
      pose proof (longer_nlen _ _ G1). pose proof (longer_nlen _ _ G2).
      apply write_column_chunk_ok in H1; [ | lia ]. destruct H1 as (p & meta & red & -> & Hsp & Hd & Hsz & -> & Hde & Hr1 & Hr2).
      assert (E : off + size = nlen (sk_data s1)) by (rewrite Hd, Hoff, Hsz, !nlen_app; reflexivity).
      apply IH in H2; [ | assumption | assumption ]. destruct H2 as (Hlast & Hl & Hf). split; [ assumption | ].
      split.
      * cbn [combine map fst snd]. econstructor; [ reflexivity | exact Hsp | exact Hde | | | exists m, red; split; assumption ].
        -- eapply holds_longer; [ exact G2 | ]. rewrite Hd, Hoff. apply holds_end.
        -- replace (off + nlen _) with (off + size); [ exact Hl | ]. rewrite Hsz, nlen_app. reflexivity.
      * constructor; [ exists meta; reflexivity | exact Hf ].
    + apply wres_ok in H as [_ H]. discriminate H.
Qed.

(** A row group. *)
Definition group_fits (m : mode) (specss : list (list page_spec)) (rg : t_row_group) : Prop :=
  match specss with [] => rg_num_rows rg = 0%Z | specs :: _ => sum_rows m 0 (filter is_data_page specs) = Ok (rg_num_rows rg) end /\
  exists metas, Forall2 (fun c meta => cc_meta c = Some meta) (rg_columns rg) metas /\
    rg_total_byte_size rg = zsum (map cm_uncompressed_size metas) /\
    rg_compressed_size rg = Some (zsum (map cm_compressed_size metas)).
Definition group_at (i : nat) (rg : t_row_group) : Prop :=
  rg_sorting rg = None /\
  rg_file_offset rg = match rg_columns rg with [] => None | c :: _ => option_map cm_data_page_offset (cc_meta c) end /\
  rg_ordinal rg = if (Z.of_nat i <? 32768)%Z then Some (Z.of_nat i) else None.

Lemma collect_metas : forall (l : list (t_column_chunk * list page_spec)) metas,
  collect_res (map (fun x => chunk_meta (fst x)) l) = Ok metas -> Forall2 (fun c meta => cc_meta c = Some meta) (map fst l) metas.
Proof.
  induction l as [|[c sp] l IH]; cbn [map collect_res fst]; intros metas H.
  - apply Ok_inj in H. subst. constructor.
  - unfold chunk_meta at 1 in H. destruct (cc_meta c) as [meta|] eqn:E; cbn [bind] in H; [ | discriminate H ].
    destruct (collect_res (map (fun x => chunk_meta (fst x)) l)) as [r| |]; cbn [bind] in H; try discriminate H.
    apply Ok_inj in H. subst. constructor; [ exact E | apply IH; reflexivity ].
Qed.

Lemma write_row_group_ok F m off ds cols ord s s' rg specss size :
  write_row_group F m off ds cols ord s = (s', Ok (rg, specss, size)) -> off = nlen (sk_data s) -> nlen (sk_data s') < 2 ^ 63 ->
  off + size = nlen (sk_data s') /\ laid F (sk_data s') off (combine ds cols) (rg_columns rg) specss (off + size) /\
  group_fits m specss rg /\ group_at ord rg /\
  Forall (fun c => cc_column_index_offset c = None /\ cc_column_index_length c = None) (rg_columns rg).
Proof.
  intros H Hoff Hs. unfold write_row_group in H. apply wbind_ok in H as (s1 & [l last] & H1 & H).
  apply wbind_ok in H as (s2 & rows & H2 & H). apply wres_ok in H2 as [-> H2].
  apply wbind_ok in H as (s3 & metas & H3 & H). apply wres_ok in H3 as [-> H3].
  apply wret_ok in H as [-> H]. apply pair_inj in H as [H <-]. apply pair_inj in H as [<- <-].
  apply write_columns_ok in H1; [ | assumption | assumption ]. destruct H1 as (-> & Hl & Hf).
  pose proof (laid_hi _ _ _ _ _ _ _ Hl). replace (off + (nlen (sk_data s1) - off)) with (nlen (sk_data s1)) by lia.
  split; [ reflexivity | ]. split; [ exact Hl | ]. split; [ | split ].
  - split.
    + cbn [rg_num_rows]. unfold compute_num_rows in H2. destruct l as [|[c sp] l]; [ apply Ok_inj in H2; exact (eq_sym H2) | exact H2 ].
    + exists metas. split; [ apply collect_metas; exact H3 | split; reflexivity ].
  - split; [ reflexivity | ]. split; [ | reflexivity ]. cbn [rg_file_offset rg_columns]. destruct l as [|[c sp] l]; [ reflexivity | ].
    apply Forall_inv in Hf as [meta Hf]. cbn [fst] in Hf. cbn [map fst]. rewrite Hf. unfold chunk_file_offset. cbn [cc_meta option_map].
    inversion Hl as [|? d ? meta' ? ? ? ? ? ? Hm _ Hde]; subst. cbn [fst cc_meta] in Hm. injection Hm as <-. destruct Hde as (_ & _ & _ & _ & -> & _). reflexivity.
  - cbn [rg_columns]. rewrite Forall_map. eapply Forall_impl; [ | exact Hf ]. intros [c sp] [meta E]. cbn [fst] in *. rewrite E. split; reflexivity.
Qed.

(** ** Row groups one after the other *)

Inductive laid_groups (F : formats) (m : mode) (ds : list column_descriptor) (file : list N) : N -> nat -> list row_group_iter -> list t_row_group -> list (list (list page_spec)) -> N -> Prop :=
| laidg_nil pos i : laid_groups F m ds file pos i [] [] [] pos
| laidg_cons pos i g rg specss mid gs rgs specsss hi :
    laid F file pos (combine ds g) (rg_columns rg) specss mid -> group_fits m specss rg -> group_at i rg ->
    laid_groups F m ds file mid (S i) gs rgs specsss hi -> laid_groups F m ds file pos i (g :: gs) (rg :: rgs) (specss :: specsss) hi.
Lemma laid_groups_longer F m ds a b : longer a b -> forall pos i gs rgs specsss hi,
  laid_groups F m ds (sk_data a) pos i gs rgs specsss hi -> laid_groups F m ds (sk_data b) pos i gs rgs specsss hi.
Proof.
  intros H. induction 1; [ constructor | ]. econstructor; [ eapply laid_longer; eassumption | eassumption | eassumption | eassumption ].
Qed.
Lemma laid_groups_snoc F m ds file : forall pos i gs rgs specsss hi g rg specss hi',
  laid_groups F m ds file pos i gs rgs specsss hi -> laid F file hi (combine ds g) (rg_columns rg) specss hi' ->
  group_fits m specss rg -> group_at (i + length gs)%nat rg ->
  laid_groups F m ds file pos i (gs ++ [g]) (rgs ++ [rg]) (specsss ++ [specss]) hi'.
Proof.
  intros pos i gs rgs specsss hi g rg specss hi'. induction 1 as [pos i|pos i g0 rg0 sp0 mid gs rgs spss hi Hl Hf Ha Hg IH]; intros H1 H2 H3.
  - cbn [app]. econstructor; [ exact H1 | exact H2 | | constructor ]. cbn [length] in H3. rewrite Nat.add_0_r in H3. exact H3.
  - cbn [app]. econstructor; [ exact Hl | exact Hf | exact Ha | ]. apply IH; [ assumption | assumption | ]. cbn [length] in H3.
    replace (S i + length gs)%nat with (i + S (length gs))%nat by lia. exact H3.
Qed.
Lemma laid_groups_length F m ds file pos i gs rgs specsss hi : laid_groups F m ds file pos i gs rgs specsss hi ->
  length rgs = length gs /\ length specsss = length gs.
Proof. induction 1 as [|pos i g0 rg0 sp0 mid gs rgs spss hi Hl Hf Ha Hg [IH1 IH2]]; [ auto | cbn [length]; auto ]. Qed.

Lemma laid_groups_summarised F m ds file pos i gs rgs specsss hi : laid_groups F m ds file pos i gs rgs specsss hi ->
  forall k rg, nth_error rgs k = Some rg ->
    summarises rg /\ rg_sorting rg = None /\ rg_ordinal rg = (if (Z.of_nat (i + k) <? 32768)%Z then Some (Z.of_nat (i + k)) else None) /\
    exists metas, Forall2 (fun c meta => cc_meta c = Some meta) (rg_columns rg) metas /\
      rg_total_byte_size rg = fold_right (fun meta z => (cm_uncompressed_size meta + z)%Z) 0%Z metas.
Proof.
  assert (Hz : forall (f : t_column_meta -> Z) l, zsum (map f l) = fold_right (fun meta z => (f meta + z)%Z) 0%Z l).
  { intros f. unfold zsum. induction l as [|x l IH]; cbn [map fold_right]; [ reflexivity | rewrite IH; reflexivity ]. }
  induction 1 as [pos i|pos i g rg specss mid gs rgs specsss hi Hl Hf Ha Hg IH]; intros k rg' H; [ destruct k; discriminate H | ].
  destruct k as [|k].
  - cbn [nth_error] in H. injection H as <-. rewrite Nat.add_0_r. destruct Hf as (_ & metas & F2 & Hu & Hcs). destruct Ha as (Hs & Ho & Hor).
    split; [ | split; [ exact Hs | split; [ exact Hor | ] ] ].
    + exists metas. split; [ exact F2 | ]. rewrite Hcs, Hz. split; [ | reflexivity ]. rewrite Ho. destruct F2 as [|c meta cs metas E F2]; [ reflexivity | ].
      rewrite E. cbn [option_map]. inversion Hl as [|? d ? meta' ? ? ? ? ? ? Hm _ Hde]; subst. rewrite E in Hm. injection Hm as <-.
      destruct Hde as (_ & _ & _ & _ & Hd & _). unfold first_page. rewrite Hd. reflexivity.
    + exists metas. split; [ exact F2 | ]. rewrite Hu, Hz. reflexivity.
  - cbn [nth_error] in H. replace (i + S k)%nat with (S i + k)%nat by lia. exact (IH k rg' H).
Qed.

(** ** The state of a writer *)

(** A writer that has written the row groups [gs]. *)
Definition writing (F : formats) (m : mode) (w0 w : file_writer) (gs : list row_group_iter) : Prop :=
  fw_schema w = fw_schema w0 /\ fw_statistics w = fw_statistics w0 /\ fw_version w = fw_version w0 /\ fw_created_by w = fw_created_by w0 /\
  fw_metadata w = None /\
  fw_offset w = nlen (sk_data (fw_sink w)) /\
  (fw_offset w = 0 /\ fw_state w = WInitialised /\ gs = [] /\ fw_groups w = [] /\ fw_specs w = [] \/
   fw_state w = WStarted /\ holds (sk_data (fw_sink w)) 0 magic /\
   Forall (fun rg => Forall (fun c => cc_column_index_offset c = None /\ cc_column_index_length c = None) (rg_columns rg)) (fw_groups w) /\
   laid_groups F m (sd_leaves (fw_schema w)) (sk_data (fw_sink w)) 4 0 gs (fw_groups w) (fw_specs w) (nlen (sk_data (fw_sink w)))).

Lemma maybe_start_ok F m w0 w gs w1 r : writing F m w0 w gs -> fw_maybe_start w = (w1, r) ->
  longer (fw_sink w) (fw_sink w1) /\
  (r = Ok tt -> writing F m w0 w1 gs /\ fw_state w1 = WStarted).
Proof.
  intros (H1 & H2 & H3 & H4 & H5 & H6 & H) E. unfold fw_maybe_start, fw_start in E.
  destruct (fw_offset w =? 0) eqn:E0.
  - destruct (write_all magic (fw_sink w)) as [s [u|e|]] eqn:Ew; apply pair_inj in E as [<- <-]; cbn [fw_sink set_sink].
    + split; [ eapply grows_write_all; exact Ew | intros _ ]. apply write_all_ok in Ew as [Ew _].
      assert (sk_data (fw_sink w) = []) as Hn by (destruct (sk_data (fw_sink w)) as [|x y]; [ reflexivity | unfold nlen in H6; cbn [length] in H6; lia ]).
      rewrite Hn in Ew. cbn [app] in Ew. destruct H as [(_ & _ & -> & Hg & Hsp)|(_ & Hm & _)].
      * split; [ | reflexivity ]. unfold writing. cbn. rewrite Ew. repeat (split; [ assumption || reflexivity | ]). right.
        split; [ reflexivity | ]. split; [ exists [], []; split; reflexivity | ]. rewrite Hg, Hsp. split; [ constructor | constructor ].
      * exfalso. rewrite Hn in Hm. apply holds_bound in Hm. vm_compute in Hm. apply Hm. reflexivity.
    + split; [ eapply grows_write_all; exact Ew | discriminate ].
    + split; [ eapply grows_write_all; exact Ew | discriminate ].
  - apply pair_inj in E as [<- <-]. split; [ apply longer_refl | intros _ ]. split.
    + unfold writing. auto 10.
    + destruct H as [(Hz & _)|(Hz & _)]; [ lia | exact Hz ].
Qed.
Lemma fw_write_longer F m w g w' r : fw_write F m w g = (w', r) -> longer (fw_sink w) (fw_sink w').
Proof.
  unfold fw_write. destruct (fw_maybe_start w) as [w1 r1] eqn:E.
  assert (L : longer (fw_sink w) (fw_sink w1)).
  { unfold fw_maybe_start, fw_start in E. destruct (fw_offset w =? 0); [ | apply pair_inj in E as [<- <-]; apply longer_refl ].
    destruct (write_all magic (fw_sink w)) as [s [u|e|]] eqn:Ew; apply pair_inj in E as [<- <-]; eapply grows_write_all; exact Ew. }
  destruct r1 as [u|e|]; [ | intros H; apply pair_inj in H as [<- <-]; exact L | intros H; apply pair_inj in H as [<- <-]; exact L ].
  destruct (write_row_group _ _ _ _ _ _ _) as [s [[[rg sp] n]|e|]] eqn:Eg; intros H; apply pair_inj in H as [<- <-]; cbn [fw_sink set_sink];
    eapply longer_trans; try exact L; eapply grows_write_row_group; exact Eg.
Qed.
Lemma history_longer F m w gs w' : history F m w gs w' -> longer (fw_sink w) (fw_sink w').
Proof.
  induction 1; [ apply longer_refl | | ]; eapply longer_trans; try eassumption; eapply fw_write_longer; eassumption.
Qed.

Lemma writing_ok F m w0 w g w1 gs : writing F m w0 w gs -> fw_write F m w g = (w1, Ok tt) -> nlen (sk_data (fw_sink w1)) < 2 ^ 63 ->
  writing F m w0 w1 (gs ++ [g]).
Proof.
  intros Hw E Hs. unfold fw_write in E. destruct (fw_maybe_start w) as [w2 r] eqn:Es.
  destruct (maybe_start_ok F m w0 w gs w2 r Hw Es) as [_ HH]. destruct r as [u|e|]; [ destruct u | discriminate E | discriminate E ].
  destruct (HH eq_refl) as [(H1 & H2 & H3 & H4 & H5 & H6 & H) Hst]. clear HH.
  destruct H as [(_ & Hst' & _)|(_ & Hm & Hf & Hl)]; [ congruence | ].
  destruct (write_row_group _ _ _ _ _ _ _) as [s [[[rg sp] n]|e|]] eqn:Eg; apply pair_inj in E as [<- E]; try discriminate E.
  cbn [fw_sink] in Hs. pose proof (grows_write_row_group _ _ _ _ _ _ _ _ _ Eg) as G.
  pose proof (laid_groups_length _ _ _ _ _ _ _ _ _ _ Hl) as [Hlen _].
  apply write_row_group_ok in Eg; [ | assumption | assumption ]. destruct Eg as (E1 & E2 & E3 & E4 & E5).
  unfold writing. cbn. repeat (split; [ assumption | ]). right. split; [ assumption | ].
  split; [ eapply holds_longer; eassumption | ]. split; [ apply Forall_app; split; [ assumption | constructor; [ assumption | constructor ] ] | ].
  rewrite <- E1. eapply laid_groups_snoc; [ | | exact E3 | ].
  - rewrite H6 in *. eapply laid_groups_longer; [ exact G | exact Hl ].
  - rewrite <- H6. exact E2.
  - rewrite <- Hlen. exact E4.
Qed.
Lemma writing_failed F m w0 w g w1 gs e : writing F m w0 w gs -> fw_write F m w g = (w1, Err e) -> wrote_nothing w w1 -> writing F m w0 w1 gs.
Proof.
  intros Hw E Hn. unfold fw_write in E. destruct (fw_maybe_start w) as [w2 r] eqn:Es.
  destruct (maybe_start_ok F m w0 w gs w2 r Hw Es) as [HL HH]. pose proof Hw as Hw0. destruct Hw as (A1 & A2 & A3 & A4 & A5 & A6 & A).
  destruct r as [u|e'|]; [ destruct u | | discriminate E ].
  - destruct (HH eq_refl) as [(H1 & H2 & H3 & H4 & H5 & H6 & H) Hst]. clear HH.
    destruct H as [(_ & Hst' & _)|(_ & Hm & Hf & Hl)]; [ congruence | ].
    destruct (write_row_group _ _ _ _ _ _ _) as [s [[[rg sp] n]|e'|]] eqn:Eg; apply pair_inj in E as [<- E]; try discriminate E.
    pose proof (grows_write_row_group _ _ _ _ _ _ _ _ _ Eg) as G. cbn [fw_sink set_sink] in *.
    assert (S : sk_data s = sk_data (fw_sink w2)).
    { destruct HL as [x Hx], G as [y Hy]. destruct Hn as [Hn|[Hn Hn']].
      - cbn [set_sink fw_sink] in Hn. rewrite Hn, Hx in Hy. rewrite <- app_assoc in Hy. rewrite <- (app_nil_r (sk_data (fw_sink w))) in Hy at 1. apply app_inv_head in Hy.
        symmetry in Hy. apply app_eq_nil in Hy as [Hy1 Hy2]. subst. rewrite Hn, Hx, app_nil_r. reflexivity.
      - cbn [set_sink fw_sink] in Hn'. unfold fw_maybe_start, fw_start in Es. rewrite A6, Hn in Es. change (nlen [] =? 0) with true in Es. cbn [negb] in Es.
        destruct (write_all magic (fw_sink w)) as [s2 [u|e2|]] eqn:Ew; apply pair_inj in Es as [<- Es]; try discriminate Es.
        apply write_all_ok in Ew as [Ew _]. cbn [fw_sink]. rewrite Ew, Hn, Hn'. reflexivity. }
    unfold writing. cbn. rewrite S. repeat (split; [ assumption | ]). right. auto.
  - apply pair_inj in E as [<- _]. unfold fw_maybe_start, fw_start in Es. destruct (fw_offset w =? 0) eqn:E0; [ | discriminate Es ].
    destruct (write_all magic (fw_sink w)) as [s [u|e2|]] eqn:Ew; apply pair_inj in Es as [<- Es]; try discriminate Es.
    unfold writing. cbn [set_sink fw_schema fw_statistics fw_version fw_created_by fw_metadata fw_offset fw_sink fw_state fw_groups fw_specs].
    repeat (split; [ assumption | ]).
    assert (sk_data s = sk_data (fw_sink w)) as S.
    { destruct Hn as [Hn|[Hn Hn']]; [ exact Hn | ]. exfalso. cbn [set_sink fw_sink] in Hn'.
      unfold write_all in Ew. destruct (sk_room (fw_sink w)) as [room|]; [ | discriminate Ew ].
      destruct (nlen magic <=? room) eqn:Er; [ discriminate Ew | ]. apply pair_inj in Ew as [<- _]. cbn [sk_data] in Hn'. rewrite Hn in Hn'. cbn [app] in Hn'.
      change (nlen magic) with 4 in Er. assert (room = 0 \/ room = 1 \/ room = 2 \/ room = 3) as Hr by lia.
      destruct Hr as [->|[->|[->| ->]]]; discriminate Hn'. }
    rewrite S. split; [ assumption | ]. destruct A as [A|(A & Hm & _)]; [ left; exact A | ]. exfalso.
    apply holds_bound in Hm. change (nlen magic) with 4 in Hm. lia.
Qed.

Lemma history_writing F m w0 w gs w' : history F m w gs w' -> forall gs0, writing F m w0 w gs0 -> nlen (sk_data (fw_sink w')) < 2 ^ 63 ->
  writing F m w0 w' (gs0 ++ gs).
Proof.
  induction 1 as [w|w g w1 gs w' H1 H2 IH|w g w1 e gs w' H1 Hn H2 IH]; intros gs0 Hw Hs.
  - rewrite app_nil_r. exact Hw.
  - replace (gs0 ++ g :: gs) with ((gs0 ++ [g]) ++ gs) by (rewrite <- app_assoc; reflexivity). apply IH; [ | exact Hs ].
    eapply writing_ok; [ exact Hw | exact H1 | ]. pose proof (longer_nlen _ _ (history_longer _ _ _ _ _ H2)). lia.
  - apply IH; [ | exact Hs ]. eapply writing_failed; eassumption.
Qed.
Lemma writing_new F m s schema st v cb : sk_data s = [] -> writing F m (fw_new s schema st v cb) (fw_new s schema st v cb) [].
Proof. intros H. unfold writing. cbn. rewrite H. repeat (split; [ reflexivity | ]). left. auto. Qed.

(** ** Indexes after the row groups *)

Section Indexed.
  Variable file : list N.
  Variable enc : list page_spec -> res (list N).
  Variable set : t_column_chunk -> option Z -> option Z -> t_column_chunk.
  Inductive indexed : N -> list t_column_chunk -> list (list page_spec) -> list t_column_chunk -> N -> Prop :=
  | indexed_nil pos : indexed pos [] [] [] pos
  | indexed_cons pos c cs p ps b cs' hi : enc p = Ok b -> holds file pos b -> indexed (pos + nlen b) cs ps cs' hi ->
      indexed pos (c :: cs) (p :: ps) (set c (Some (as_i64 pos)) (Some (as_i32 (nlen b))) :: cs') hi.
  Inductive indexed_groups : N -> list t_row_group -> list (list (list page_spec)) -> list t_row_group -> N -> Prop :=
  | indexedg_nil pos : indexed_groups pos [] [] [] pos
  | indexedg_cons pos g gs p ps mid cs' gs' hi : indexed pos (rg_columns g) p cs' mid -> indexed_groups mid gs ps gs' hi ->
      indexed_groups pos (g :: gs) (p :: ps) (set_columns g cs' :: gs') hi.
End Indexed.
Lemma indexed_longer enc set a b : longer a b -> forall pos cs ps cs' hi, indexed (sk_data a) enc set pos cs ps cs' hi -> indexed (sk_data b) enc set pos cs ps cs' hi.
Proof. intros H. induction 1; [ constructor | ]. econstructor; [ eassumption | eapply holds_longer; eassumption | assumption ]. Qed.
Lemma indexed_groups_longer enc set a b : longer a b -> forall pos cs ps cs' hi, indexed_groups (sk_data a) enc set pos cs ps cs' hi -> indexed_groups (sk_data b) enc set pos cs ps cs' hi.
Proof. intros H. induction 1; [ constructor | ]. econstructor; [ eapply indexed_longer; eassumption | assumption ]. Qed.

Definition writes_enc (write : list page_spec -> writer N) (enc : list page_spec -> res (list N)) : Prop :=
  forall p s s' n, write p s = (s', Ok n) -> exists b, enc p = Ok b /\ sk_data s' = sk_data s ++ b /\ n = nlen b.

Section IndexedOk.
  Variable write : list page_spec -> writer N.
  Variable enc : list page_spec -> res (list N).
  Variable set : t_column_chunk -> option Z -> option Z -> t_column_chunk.
  Variable old : t_column_chunk -> option Z.
  Hypothesis W : writes_enc write enc.
  Hypothesis G : forall p, grows (write p).
  Lemma index_columns_longer : forall cs ps s pos s' hi cs' r, index_columns write set old s pos cs ps = (s', hi, cs', r) -> longer s s'.
  Proof.
    induction cs as [|c cs IH]; intros ps s pos s' hi cs' r H; [ injection H; intros; subst; apply longer_refl | ].
    destruct ps as [|p ps]; [ injection H; intros; subst; apply longer_refl | ]. cbn [index_columns] in H.
    destruct (write p s) as [s1 [n|e|]] eqn:E; [ | injection H; intros; subst; eapply G; exact E | injection H; intros; subst; eapply G; exact E ].
    destruct (index_columns write set old s1 (pos + n) cs ps) as [[[s2 h2] l2] r2] eqn:E2. injection H; intros; subst.
    eapply longer_trans; [ eapply G; exact E | eapply IH; exact E2 ].
  Qed.
  Lemma index_columns_ok : forall cs ps s pos s' hi cs', index_columns write set old s pos cs ps = (s', hi, cs', Ok tt) -> pos = nlen (sk_data s) ->
    length cs = length ps ->
    hi = nlen (sk_data s') /\ indexed (sk_data s') enc set pos cs ps cs' hi.
  Proof.
    induction cs as [|c cs IH]; intros ps s pos s' hi cs' H Hp Hl; destruct ps as [|p ps]; try discriminate Hl.
    - injection H; intros; subst. split; [ reflexivity | constructor ].
    - cbn [index_columns] in H. destruct (write p s) as [s1 [n|e|]] eqn:E; [ | discriminate H | discriminate H ].
      destruct (index_columns write set old s1 (pos + n) cs ps) as [[[s2 h2] l2] r2] eqn:E2. injection H; intros; subst.
      pose proof (index_columns_longer _ _ _ _ _ _ _ _ E2) as L.
      apply W in E as (b & Eb & Ed & ->). apply IH in E2; [ | rewrite Ed, nlen_app; reflexivity | cbn [length] in Hl; lia ]. destruct E2 as [-> E2].
      split; [ reflexivity | ]. econstructor; [ exact Eb | | exact E2 ]. eapply holds_longer; [ exact L | ]. rewrite Ed. apply holds_end.
  Qed.
  Lemma index_groups_longer : forall cs ps s pos s' hi cs' r, index_groups write set old s pos cs ps = (s', hi, cs', r) -> longer s s'.
  Proof.
    induction cs as [|c cs IH]; intros ps s pos s' hi cs' r H; [ injection H; intros; subst; apply longer_refl | ].
    destruct ps as [|p ps]; [ injection H; intros; subst; apply longer_refl | ]. cbn [index_groups] in H.
    destruct (index_columns write set old s pos (rg_columns c) p) as [[[s1 h1] l1] r1] eqn:E.
    pose proof (index_columns_longer _ _ _ _ _ _ _ _ E) as L.
    destruct r1 as [u|e|]; [ | injection H; intros; subst; exact L | injection H; intros; subst; exact L ].
    destruct (index_groups write set old s1 h1 cs ps) as [[[s2 h2] l2] r2] eqn:E2. injection H; intros; subst.
    eapply longer_trans; [ exact L | eapply IH; exact E2 ].
  Qed.
  Lemma index_groups_ok : forall cs ps s pos s' hi cs', index_groups write set old s pos cs ps = (s', hi, cs', Ok tt) -> pos = nlen (sk_data s) ->
    Forall2 (fun g p => length (rg_columns g) = length p) cs ps ->
    hi = nlen (sk_data s') /\ indexed_groups (sk_data s') enc set pos cs ps cs' hi.
  Proof.
    intros cs ps s pos s' hi cs' H Hp Hl. revert s pos s' hi cs' H Hp. induction Hl as [|g p cs ps Hg Hl IH]; intros s pos s' hi cs' H Hp.
    - injection H; intros; subst. split; [ reflexivity | constructor ].
    - cbn [index_groups] in H. destruct (index_columns write set old s pos (rg_columns g) p) as [[[s1 h1] l1] r1] eqn:E.
      destruct r1 as [[]|e|]; [ | discriminate H | discriminate H ].
      destruct (index_groups write set old s1 h1 cs ps) as [[[s2 h2] l2] r2] eqn:E2. injection H; intros; subst.
      pose proof (index_groups_longer _ _ _ _ _ _ _ _ E2) as L.
      apply index_columns_ok in E; [ | reflexivity | exact Hg ]. destruct E as [-> E]. apply IH in E2; [ | reflexivity ]. destruct E2 as [-> E2].
      split; [ reflexivity | ]. econstructor; [ eapply indexed_longer; [ exact L | exact E ] | exact E2 ].
  Qed.
End IndexedOk.

Definition enc_column_index (F : formats) (p : list page_spec) : res (list N) := let* i := serialize_column_index p in Ok (t_enc (f_index F) i).
Definition enc_offset_index (F : formats) (m : mode) (p : list page_spec) : res (list N) := let* i := serialize_offset_index m p in Ok (t_enc (f_offsets F) i).
Lemma writes_column_index F : writes_enc (write_column_index (f_index F)) (enc_column_index F).
Proof.
  intros p s s' n H. unfold write_column_index in H. apply wbind_ok in H as (s1 & i & H1 & H). apply wres_ok in H1 as [-> H1].
  apply write_struct_ok in H as [-> H]. exists (t_enc (f_index F) i). unfold enc_column_index. rewrite H1. auto.
Qed.
Lemma writes_offset_index F m : writes_enc (write_offset_index (f_offsets F) m) (enc_offset_index F m).
Proof.
  intros p s s' n H. unfold write_offset_index in H. apply wbind_ok in H as (s1 & i & H1 & H). apply wres_ok in H1 as [-> H1].
  apply write_struct_ok in H as [-> H]. exists (t_enc (f_offsets F) i). unfold enc_offset_index. rewrite H1. auto.
Qed.
Lemma grows_column_index F p : grows (write_column_index (f_index F) p).
Proof. apply grows_wbind; [ apply grows_wres | intros; apply grows_write_struct ]. Qed.
Lemma grows_offset_index F m p : grows (write_offset_index (f_offsets F) m p).
Proof. apply grows_wbind; [ apply grows_wres | intros; apply grows_write_struct ]. Qed.

Lemma indexed_meta file enc set : (forall c a b, cc_meta (set c a b) = cc_meta c) -> forall pos cs ps cs' hi,
  indexed file enc set pos cs ps cs' hi -> Forall2 (fun c c' => cc_meta c' = cc_meta c) cs cs'.
Proof. intros H. induction 1; constructor; auto. Qed.
Lemma indexed_length file enc set pos cs ps cs' hi : indexed file enc set pos cs ps cs' hi -> length cs' = length cs.
Proof. induction 1; cbn [length]; auto. Qed.
Lemma indexed_lengths file enc set pos gs ps gs' hi : indexed_groups file enc set pos gs ps gs' hi ->
  Forall2 (fun g p => length (rg_columns g) = length p) gs ps -> Forall2 (fun g p => length (rg_columns g) = length p) gs' ps.
Proof.
  induction 1 as [|pos g gs p ps mid cs' gs' hi H1 H2 IH]; [ auto | ]. intros H. constructor.
  - cbn [set_columns rg_columns]. rewrite (indexed_length _ _ _ _ _ _ _ _ H1). exact (Forall2_head _ _ _ _ _ H).
  - apply IH. exact (Forall2_tail _ _ _ _ _ H).
Qed.

Lemma Forall2_trans_meta a b c : Forall2 (fun c c' : t_column_chunk => cc_meta c' = cc_meta c) a b -> Forall2 (fun c c' => cc_meta c' = cc_meta c) b c ->
  Forall2 (fun c c' => cc_meta c' = cc_meta c) a c.
Proof.
  intros H. revert c. induction H as [|x y a b H1 H2 IH]; intros c H; [ exact H | ]. inversion H as [|? z ? c' H3 H4]; subst. constructor; [ congruence | auto ].
Qed.
(** The same row group but for the places of its indexes. *)
Definition same_group (g g' : t_row_group) : Prop :=
  exists cs', g' = set_columns g cs' /\ Forall2 (fun c c' => cc_meta c' = cc_meta c) (rg_columns g) cs'.
Lemma same_group_refl g : same_group g g.
Proof.
  exists (rg_columns g). split; [ destruct g; reflexivity | ]. induction (rg_columns g); constructor; auto.
Qed.
Lemma indexed_same file enc set : (forall c a b, cc_meta (set c a b) = cc_meta c) -> forall pos cs ps cs' hi,
  indexed_groups file enc set pos cs ps cs' hi -> Forall2 same_group cs cs'.
Proof.
  intros H. induction 1 as [|pos g gs p ps mid cs' gs' hi H1 H2 IH]; constructor; [ | exact IH ]. exists cs'. split; [ reflexivity | ].
  eapply indexed_meta; eassumption.
Qed.
Lemma same_group_trans a b c : same_group a b -> same_group b c -> same_group a c.
Proof.
  intros (x & -> & Hx) (y & -> & Hy). exists y. split; [ destruct a; reflexivity | ]. cbn [set_columns rg_columns] in Hy. eapply Forall2_trans_meta; eassumption.
Qed.
Lemma Forall2_trans_same a b c : Forall2 same_group a b -> Forall2 same_group b c -> Forall2 same_group a c.
Proof.
  intros H. revert c. induction H as [|x y a b H1 H2 IH]; intros c H; [ exact H | ]. inversion H as [|? z ? c' H3 H4]; subst.
  constructor; [ eapply same_group_trans; eassumption | auto ].
Qed.
Lemma Forall2_refl_same l : Forall2 same_group l l.
Proof. induction l; constructor; auto using same_group_refl. Qed.
Lemma fits_same m specss g g' : same_group g g' -> group_fits m specss g -> group_fits m specss g'.
Proof.
  intros (cs & -> & H) [H1 (metas & H2 & H3)]. split; [ exact H1 | ]. exists metas. split; [ | exact H3 ]. cbn [set_columns rg_columns]. clear - H H2.
  revert metas H2. induction H as [|c c' l l' H1 H2 IH]; intros metas H; [ exact H | ]. inversion H as [|? z ? c'' H3 H4]; subst. constructor; [ congruence | auto ].
Qed.
Lemma at_same i g g' : same_group g g' -> group_at i g -> group_at i g'.
Proof.
  intros (cs & -> & H) (H1 & H2 & H3). split; [ exact H1 | ]. split; [ | exact H3 ]. cbn [set_columns rg_columns rg_file_offset]. rewrite H2.
  destruct H as [|c c' l l' H _]; [ reflexivity | ]. rewrite H. reflexivity.
Qed.
Lemma laid_groups_same F m ds file : forall pos i gs rgs specsss hi, laid_groups F m ds file pos i gs rgs specsss hi ->
  forall rgs', Forall2 same_group rgs rgs' -> laid_groups F m ds file pos i gs rgs' specsss hi.
Proof.
  induction 1 as [|pos i g0 rg0 sp0 mid gs rgs spss hi Hl Hf Ha Hg IH]; intros rgs' H; inversion H as [|? g' ? l' H1 H2]; subst; [ constructor | ].
  econstructor; [ | eapply fits_same; eassumption | eapply at_same; eassumption | apply IH; assumption ].
  destruct H1 as (cs & -> & H1). cbn [set_columns rg_columns]. eapply laid_meta; eassumption.
Qed.
Lemma laid_groups_columns F m ds file pos i gs rgs specsss hi : laid_groups F m ds file pos i gs rgs specsss hi ->
  Forall2 (fun g p => length (rg_columns g) = length p) rgs specsss.
Proof.
  induction 1 as [|pos i g0 rg0 sp0 mid gs rgs spss hi Hl Hf Ha Hg IH]; constructor; [ | exact IH ].
  apply laid_length in Hl as [-> ->]. reflexivity.
Qed.

(** ** The end of a file *)

Lemma end_file_ok T m meta s s' n : end_file T m meta s = (s', Ok n) ->
  sk_data s' = sk_data s ++ t_enc T meta ++ to_le 4 (of_signed 32 (as_i32 (nlen (t_enc T meta)))) ++ magic /\
  uadd m 64 (as_usize (as_i32 (nlen (t_enc T meta)))) footer_size = Ok n.
Proof.
  unfold end_file. intros H. apply wbind_ok in H as (s1 & k & H1 & H). apply write_struct_ok in H1 as [-> H1].
  apply wbind_ok in H as (s2 & u & H2 & H). apply write_all_ok in H2 as [H2 _]. apply wres_ok in H as [-> H].
  split; [ rewrite H2, H1, <- app_assoc; reflexivity | exact H ].
Qed.
Lemma grows_end_file T m meta : grows (end_file T m meta).
Proof.
  unfold end_file. apply grows_wbind; [ apply grows_write_struct | intros n ]. apply grows_wbind; [ apply grows_write_all | intros; apply grows_wres ].
Qed.

Lemma fw_indexes_longer F m w w' r : fw_indexes F m w = (w', r) -> longer (fw_sink w) (fw_sink w').
Proof.
  unfold fw_indexes. destruct (if fw_statistics w then _ else _) as [[[s o] gs] r1] eqn:E.
  assert (longer (fw_sink w) s) as L.
  { destruct (fw_statistics w); [ | injection E; intros; subst; apply longer_refl ]. unfold column_indexes in E. eapply index_groups_longer; [ | exact E ]. apply grows_column_index. }
  destruct r1 as [u|e|]; [ | intros H; injection H; intros; subst; exact L | intros H; injection H; intros; subst; exact L ].
  destruct (offset_indexes F m s o gs (fw_specs w)) as [[[s2 o2] gs2] r2] eqn:E2. intros H; injection H; intros; subst. cbn [set_progress fw_sink].
  eapply longer_trans; [ exact L | ]. unfold offset_indexes in E2. eapply index_groups_longer; [ | exact E2 ]. apply grows_offset_index.
Qed.

(** What a file looks like once it was ended: the row groups, the column indexes (if asked for), the offset indexes, and the metadata. *)
Definition ended (F : formats) (m : mode) (w0 : file_writer) (gs : list row_group_iter) (kv : option (list t_key_value)) (file : list N) (meta : t_file_meta) : Prop :=
  exists rgs1 rgs2 specs hi1 hi2 hi3 rows,
    holds file 0 magic /\
    laid_groups F m (sd_leaves (fw_schema w0)) file 4 0 gs (fm_row_groups meta) specs hi1 /\
    (if fw_statistics w0 then indexed_groups file (enc_column_index F) set_column_index hi1 rgs1 specs rgs2 hi2 else rgs2 = rgs1 /\ hi2 = hi1) /\
    indexed_groups file (enc_offset_index F m) set_offset_index hi2 rgs2 specs (fm_row_groups meta) hi3 /\
    Forall (fun rg => Forall (fun c => cc_column_index_offset c = None /\ cc_column_index_length c = None) (rg_columns rg)) rgs1 /\
    total_rows m 0 rgs1 = Ok rows /\
    meta = mk_tfm (fw_version w0) (sd_into_thrift (fw_schema w0)) rows (fm_row_groups meta) kv (fw_created_by w0) None None None /\
    exists pre, nlen pre = hi3 /\ 4 <= nlen pre /\
      file = pre ++ t_enc (f_file F) meta ++ to_le 4 (of_signed 32 (as_i32 (nlen (t_enc (f_file F) meta)))) ++ magic.

Lemma total_rows_same m : forall l l', Forall2 same_group l l' -> forall a, total_rows m a l' = total_rows m a l.
Proof.
  induction 1 as [|g g' l l' H1 H2 IH]; intros a; [ reflexivity | ]. cbn [total_rows]. destruct H1 as (cs & -> & _). cbn [set_columns rg_num_rows].
  destruct (sadd m 64 a (rg_num_rows g)); cbn [bind]; auto.
Qed.

Lemma writing_end F m w0 w gs kv w' size : writing F m w0 w gs -> fw_end F m w kv = (w', Ok size) -> nlen (sk_data (fw_sink w')) < 2 ^ 63 ->
  exists meta, fw_metadata w' = Some meta /\ ended F m w0 gs kv (sk_data (fw_sink w')) meta /\ fw_state w' = WFinished /\ fw_offset w' <> 0 /\
    (nlen (t_enc (f_file F) meta) < 2 ^ 31 -> size = nlen (sk_data (fw_sink w'))).
Proof.
  intros Hw E Hs. unfold fw_end in E. destruct (fw_maybe_start w) as [w1 r] eqn:Es.
  destruct (maybe_start_ok F m w0 w gs w1 r Hw Es) as [_ HH]. destruct r as [u|e|]; [ destruct u | discriminate E | discriminate E ].
  destruct (HH eq_refl) as [(H1 & H2 & H3 & H4 & H5 & H6 & H) Hst]. clear HH Hw Es w. rewrite Hst in E.
  destruct H as [(_ & Hst' & _)|(_ & Hm & Hf & Hl)]; [ congruence | ].
  destruct (total_rows m 0 (fw_groups w1)) as [rows|e|] eqn:Er; [ | discriminate E | discriminate E ].
  destruct (fw_indexes F m w1) as [w2 r] eqn:Ei. pose proof (fw_indexes_longer _ _ _ _ _ Ei) as L12.
  destruct r as [[]|e|]; [ | discriminate E | discriminate E ].
  destruct (end_file _ _ _ _) as [s [len|e|]] eqn:Ee; [ | discriminate E | discriminate E ].
  apply pair_inj in E as [<- E]. cbn [fw_sink fw_metadata fw_state fw_offset] in *.
  pose proof (grows_end_file _ _ _ _ _ _ Ee) as L2.
  unfold fw_indexes in Ei.
  destruct (if fw_statistics w1 then column_indexes F (fw_sink w1) (fw_offset w1) (fw_groups w1) (fw_specs w1) else (fw_sink w1, fw_offset w1, fw_groups w1, Ok tt))
    as [[[s1 o1] rgs2] r1] eqn:E1.
  destruct r1 as [[]|e|]; [ | discriminate Ei | discriminate Ei ].
  destruct (offset_indexes F m s1 o1 rgs2 (fw_specs w1)) as [[[s2 o2] rgs3] r2] eqn:E2.
  apply pair_inj in Ei as [<- Ei]. subst r2. cbn [set_progress fw_sink fw_offset fw_groups] in *.
  pose proof (laid_groups_columns _ _ _ _ _ _ _ _ _ _ Hl) as Hc.
  assert (A : o1 = nlen (sk_data s1) /\ (if fw_statistics w0 then indexed_groups (sk_data s1) (enc_column_index F) set_column_index (nlen (sk_data (fw_sink w1))) (fw_groups w1) (fw_specs w1) rgs2 o1
      else rgs2 = fw_groups w1 /\ o1 = nlen (sk_data (fw_sink w1))) /\ Forall2 (fun g p => length (rg_columns g) = length p) rgs2 (fw_specs w1) /\
      Forall2 same_group (fw_groups w1) rgs2 /\ longer (fw_sink w1) s1).
  { rewrite H2 in E1. destruct (fw_statistics w0).
    - unfold column_indexes in E1. pose proof (index_groups_longer _ _ _ (grows_column_index F) _ _ _ _ _ _ _ _ E1) as L.
      eapply index_groups_ok in E1; [ | apply writes_column_index | apply grows_column_index | exact H6 | exact Hc ].
      destruct E1 as [-> E1]. rewrite H6 in E1. split; [ reflexivity | ]. split; [ exact E1 | ]. split; [ eapply indexed_lengths; eassumption | ].
      split; [ | exact L ]. eapply indexed_same; [ | exact E1 ]. reflexivity.
    - injection E1; intros; subst. split; [ assumption | ]. split; [ auto | ]. split; [ assumption | ]. split; [ apply Forall2_refl_same | apply longer_refl ]. }
  destruct A as (Ho1 & A1 & A2 & A3 & L1).
  unfold offset_indexes in E2. pose proof (index_groups_longer _ _ _ (grows_offset_index F m) _ _ _ _ _ _ _ _ E2) as L12'.
  eapply index_groups_ok in E2; [ | apply writes_offset_index | apply grows_offset_index | exact Ho1 | exact A2 ]. destruct E2 as [Ho2 B].
  assert (B3 : Forall2 same_group rgs2 rgs3) by (eapply indexed_same; [ | exact B ]; reflexivity).
  apply end_file_ok in Ee. cbn [set_progress fw_groups fw_schema fw_version fw_created_by fw_offset] in *.
  set (meta := fw_thrift (set_progress w1 s2 o2 rgs3) rows kv) in *. destruct Ee as [Ee Ez].
  exists meta. split; [ reflexivity | ]. split; [ | split; [ reflexivity | ] ].
  - exists (fw_groups w1), rgs2, (fw_specs w1), (nlen (sk_data (fw_sink w1))), o1, o2, rows.
    split; [ eapply holds_longer; [ | exact Hm ]; eapply longer_trans; [ exact L12 | exact L2 ] | ].
    split. { rewrite <- H1. cbn [fm_row_groups meta fw_thrift set_progress fw_groups].
      eapply laid_groups_same; [ | eapply Forall2_trans_same; [ exact A3 | exact B3 ] ].
      eapply laid_groups_longer; [ | exact Hl ]. eapply longer_trans; [ exact L12 | exact L2 ]. }
    split. { destruct (fw_statistics w0); [ | exact A1 ]. eapply indexed_groups_longer; [ | exact A1 ]. eapply longer_trans; [ exact L12' | exact L2 ]. }
    split; [ eapply indexed_groups_longer; [ exact L2 | exact B ] | ]. split; [ exact Hf | ]. split; [ exact Er | ].
    split. { unfold meta, fw_thrift. cbn [fm_row_groups set_progress fw_groups fw_schema fw_version fw_created_by]. rewrite H1, H3, H4. reflexivity. }
    exists (sk_data s2). split; [ symmetry; exact Ho2 | ]. split; [ | exact Ee ].
    pose proof (longer_nlen _ _ L12). apply holds_bound in Hm. change (nlen magic) with 4 in Hm. lia.
  - assert (o2 <> 0). { pose proof (longer_nlen _ _ L12). apply holds_bound in Hm. change (nlen magic) with 4 in Hm. lia. }
    split; [ assumption | ]. intros Hlen. change (2 ^ 31) with 2147483648 in Hlen.
    rewrite as_i32_small in Ez, Ee by assumption. rewrite as_usize_nonneg in Ez by lia. rewrite N2Z.id in Ez.
    assert (nlen (sk_data s) = o2 + (nlen (t_enc (f_file F) meta) + 8)).
    { rewrite Ee, !nlen_app, Ho2. change (nlen magic) with 4. unfold nlen at 3. rewrite to_le_length. lia. }
    change (2 ^ 63) with 9223372036854775808 in Hs.
    unfold uadd in Ez. replace (nlen (t_enc (f_file F) meta) + footer_size <? 2 ^ 64) with true in Ez
      by (change (2 ^ 64) with 18446744073709551616; unfold footer_size; lia).
    apply Ok_inj in Ez. subst len. unfold uadd in E. 
    replace (o2 + (nlen (t_enc (f_file F) meta) + footer_size) <? 2 ^ 64) with true in E
      by (change (2 ^ 64) with 18446744073709551616; unfold footer_size; lia).
    apply Ok_inj in E. subst size. unfold footer_size. lia.
Qed.

(** ** From positions to ranges *)

Lemma chunk_start_describes T off d l meta : describes T off d l meta -> chunk_start meta = match l with [] => 0 | _ => off end.
Proof.
  intros (_ & _ & _ & H & Hd & _). unfold chunk_start. rewrite Hd, H. destruct l; [ reflexivity | apply N2Z.id ].
Qed.
Lemma chunk_length_describes T off d l meta : describes T off d l meta -> chunk_length meta = nlen (chunk_bytes T l).
Proof. intros (H & _). unfold chunk_length. rewrite H. apply N2Z.id. Qed.

Lemma laid_chunks F file pos cols chunks specss hi : laid F file pos cols chunks specss hi -> Forall2 (chunk_at F file) cols chunks.
Proof.
  induction 1 as [|pos d l meta chunk specs cols chunks specss hi Hm Hs Hd Hh Hl IH]; [ constructor | ]. constructor; [ | exact IH ].
  exists l, meta. split; [ reflexivity | ]. split; [ exact Hm | ]. apply holds_split in Hh as [Hh _].
  split; [ rewrite (chunk_start_describes _ _ _ _ _ Hd) | split; [ eapply chunk_length_describes; exact Hd | exists pos; exact Hd ] ].
  destruct l; [ apply holds_nil; lia | exact Hh ].
Qed.
Lemma laid_groups_chunks F m ds file pos i gs rgs specsss hi : laid_groups F m ds file pos i gs rgs specsss hi ->
  Forall2 (fun g rg => Forall2 (chunk_at F file) (combine ds g) (rg_columns rg)) gs rgs.
Proof.
  induction 1 as [|pos i g0 rg0 sp0 mid gs rgs spss hi Hl Hf Ha Hg IH]; constructor; [ | exact IH ]. eapply laid_chunks; exact Hl.
Qed.

Lemma sorted_app {A} (R : A -> A -> Prop) : forall a b, StronglySorted R a -> StronglySorted R b -> Forall (fun x => Forall (R x) b) a -> StronglySorted R (a ++ b).
Proof.
  induction a as [|x a IH]; intros b Ha Hb H; [ exact Hb | ]. cbn [app]. inversion Ha; subst. constructor.
  - apply IH; [ assumption | assumption | exact (Forall_inv_tail H) ].
  - apply Forall_app. split; [ assumption | exact (Forall_inv H) ].
Qed.
Definition column_ranges (cs : list t_column_chunk) : list (N * N) :=
  flat_map (fun c => match cc_meta c with Some meta => [(chunk_start meta, chunk_length meta)] | None => [] end) cs.
Definition inside (lo hi : N) (r : N * N) : Prop := lo <= fst r /\ fst r + snd r <= hi.
Lemma laid_ranges F file pos cols chunks specss hi : laid F file pos cols chunks specss hi ->
  StronglySorted before (filter (fun r => 0 <? snd r) (column_ranges chunks)) /\ Forall (inside pos hi) (filter (fun r => 0 <? snd r) (column_ranges chunks)).
Proof.
  induction 1 as [|pos d l meta chunk specs cols chunks specss hi Hm Hs Hd Hh Hl [IH1 IH2]]; [ split; constructor | ].
  unfold column_ranges in *. cbn [flat_map]. rewrite Hm, filter_app.
  rewrite (chunk_start_describes _ _ _ _ _ Hd), (chunk_length_describes _ _ _ _ _ Hd).
  pose proof (laid_hi _ _ _ _ _ _ _ Hl) as Hhi. rewrite nlen_app in Hhi, IH2.
  assert (W : Forall (inside pos hi) (filter (fun r : N * N => 0 <? snd r) (flat_map (fun c => match cc_meta c with Some meta => [(chunk_start meta, chunk_length meta)] | None => [] end) chunks))).
  { eapply Forall_impl; [ | exact IH2 ]. intros r [H1 H2]. split; lia. }
  cbn [filter snd]. destruct (0 <? nlen (chunk_bytes (f_header F) l)) eqn:E; [ | cbn [app]; split; assumption ].
  destruct l as [|p l]; [ discriminate E | ]. cbn [app]. split.
  - constructor; [ exact IH1 | ]. eapply Forall_impl; [ | exact IH2 ]. intros r [H1 H2]. unfold before. cbn [fst snd]. lia.
  - constructor; [ split; cbn [fst snd]; lia | exact W ].
Qed.
Lemma laid_groups_hi F m ds file pos i gs rgs specsss hi : laid_groups F m ds file pos i gs rgs specsss hi -> pos <= hi.
Proof. induction 1 as [|pos i g0 rg0 sp0 mid gs rgs spss hi Hl Hf Ha Hg IH]; [ reflexivity | ]. apply laid_hi in Hl. lia. Qed.
Lemma laid_groups_ranges F m ds file pos i gs rgs specsss hi : laid_groups F m ds file pos i gs rgs specsss hi ->
  StronglySorted before (ranges rgs) /\ Forall (inside pos hi) (ranges rgs).
Proof.
  induction 1 as [|pos i g0 rg0 sp0 mid gs rgs spss hi Hl Hf Ha Hg [IH1 IH2]]; [ split; constructor | ].
  unfold ranges. cbn [flat_map]. rewrite filter_app. fold (column_ranges (rg_columns rg0)). fold (ranges rgs).
  pose proof (laid_hi _ _ _ _ _ _ _ Hl) as H1. pose proof (laid_groups_hi _ _ _ _ _ _ _ _ _ _ Hg) as H2.
  apply laid_ranges in Hl as [H3 H4]. split.
  - apply sorted_app; [ assumption | assumption | ]. eapply Forall_impl; [ | exact H4 ]. intros r [H5 H6]. eapply Forall_impl; [ | exact IH2 ].
    intros q [H7 H8]. unfold before. lia.
  - apply Forall_app. split; [ eapply Forall_impl; [ | exact H4 ] | eapply Forall_impl; [ | exact IH2 ] ]; intros r [H5 H6]; split; lia.
Qed.

(** ** Rows *)

Lemma is_data_page_for T off p spec : spec_for T off p spec -> is_data_page spec = is_data p.
Proof.
  intros (_ & H & _). unfold is_data_page. rewrite H. destruct p as [d|d]; [ | reflexivity ]. cbn [header_of]. destruct (cdp_header d); reflexivity.
Qed.
Lemma last_rev {A} (l : list A) d : last l d = match rev l with [] => d | x :: _ => x end.
Proof. rewrite <- (rev_involutive l) at 1. destruct (rev l) as [|x r]; [ reflexivity | ]. cbn [rev]. apply last_last. Qed.
Lemma spec_rows T off p spec n : spec_for T off p spec -> ps_num_rows spec = Some n -> n = page_rows p.
Proof.
  intros (_ & _ & _ & _ & _ & _ & _ & H & _) E. rewrite E in H. unfold page_num_rows in H. destruct p as [d|d]; cbn [cp_selected page_rows] in *.
  - destruct (cdp_selected d) as [ivs|]; [ | discriminate H ]. rewrite last_rev. destruct (rev ivs) as [|iv r]; [ discriminate H | ].
    apply Ok_inj in H. injection H as ->. reflexivity.
  - discriminate H.
Qed.
Lemma sum_rows_for T m : forall off l specs, specs_for T off l specs ->
  forall acc z, sum_rows m (Z.of_N acc) (filter is_data_page specs) = Ok z -> acc + chunk_rows l < 2 ^ 63 -> z = Z.of_N (acc + chunk_rows l).
Proof.
  induction 1 as [|off p spec l specs H _ IH]; intros acc z E Hlt.
  - cbn [filter sum_rows] in E. apply Ok_inj in E. cbn [chunk_rows fold_right]. rewrite N.add_0_r. auto.
  - cbn [filter] in E. rewrite (is_data_page_for _ _ _ _ H) in E. cbn [chunk_rows fold_right] in *. fold (chunk_rows l) in *.
    destruct (is_data p) eqn:Ed.
    + cbn [sum_rows] in E. destruct (ps_num_rows spec) as [n|] eqn:En; [ | discriminate E ].
      apply (spec_rows _ _ _ _ _ H) in En as ->. change (2 ^ 63) with 9223372036854775808 in Hlt.
      rewrite as_i64_small in E by lia. rewrite sadd_ok in E by (unfold in_s; change (2 ^ (Z.of_N 64 - 1))%Z with 9223372036854775808%Z; lia).
      cbn [bind] in E. rewrite <- N2Z.inj_add in E. apply IH in E; [ | change (2 ^ 63) with 9223372036854775808; lia ]. rewrite E. f_equal. lia.
    + destruct p; [ discriminate Ed | ]. cbn [page_rows] in *. apply IH in E; [ | lia ]. rewrite E. f_equal. 
Qed.
Lemma pages_of_map l : pages_of_column (inl (map inl l)) = l.
Proof. cbn [pages_of_column]. induction l as [|p l IH]; [ reflexivity | ]. cbn [map flat_map app]. rewrite IH. reflexivity. Qed.
Lemma combine_firstn {A B} : forall (a : list A) (b : list B), combine a (firstn (length a) b) = combine a b.
Proof. induction a as [|x a IH]; intros [|y b]; cbn [length firstn combine]; [ reflexivity | reflexivity | reflexivity | rewrite IH; reflexivity ]. Qed.

Lemma group_rows_ok F m s file pos g rg specss mid : laid F file pos (combine (sd_leaves s) g) (rg_columns rg) specss mid -> group_fits m specss rg ->
  group_rows s g < 2 ^ 63 -> rg_num_rows rg = Z.of_N (group_rows s g).
Proof.
  intros Hl [Hf _] Hlt. unfold group_rows in *. unfold schema_columns in *. destruct (sd_leaves s) as [|d ds]; cbn [length firstn] in *.
  - cbn [combine] in Hl. inversion Hl; subst. exact Hf.
  - destruct g as [|c g]; cbn [combine] in Hl; cbn [firstn] in *.
    + inversion Hl; subst. exact Hf.
    + inversion Hl as [|? ? l meta chunk specs ? ? ? ? ? Hs]; subst. rewrite pages_of_map in *.
      apply (sum_rows_for _ m _ _ _ Hs) with (acc := 0); [ exact Hf | exact Hlt ].
Qed.
Lemma groups_rows_ok F m s file pos i gs rgs specsss hi : laid_groups F m (sd_leaves s) file pos i gs rgs specsss hi ->
  file_rows s gs < 2 ^ 63 ->
  Forall2 (fun g rg => rg_num_rows rg = Z.of_N (group_rows s g)) gs rgs.
Proof.
  induction 1 as [|pos i g0 rg0 sp0 mid gs rgs spss hi Hl Hf Ha Hg IH]; intros Hlt; [ constructor | ].
  cbn [file_rows fold_right] in Hlt. fold (file_rows s gs) in Hlt. constructor.
  - eapply group_rows_ok; [ exact Hl | exact Hf | lia ].
  - apply IH. lia.
Qed.
Lemma total_rows_ok m s : forall gs rgs, Forall2 (fun g rg => rg_num_rows rg = Z.of_N (group_rows s g)) gs rgs ->
  forall acc, acc + file_rows s gs < 2 ^ 63 -> total_rows m (Z.of_N acc) rgs = Ok (Z.of_N (acc + file_rows s gs)).
Proof.
  induction 1 as [|g rg gs rgs H1 H2 IH]; intros acc Hlt; cbn [file_rows fold_right total_rows] in *; [ rewrite N.add_0_r; reflexivity | ].
  fold (file_rows s gs) in *. rewrite H1. change (2 ^ 63) with 9223372036854775808 in *.
  rewrite sadd_ok by (unfold in_s; change (2 ^ (Z.of_N 64 - 1))%Z with 9223372036854775808%Z; lia). cbn [bind].
  rewrite <- N2Z.inj_add, IH by lia. do 2 f_equal. lia.
Qed.

(** ** Opening the file *)

Lemma laid_located F file pos cols chunks specss hi : laid F file pos cols chunks specss hi -> nlen file < 2 ^ 63 -> Forall chunk_located chunks.
Proof.
  intros H Hs. induction H as [|pos d l meta chunk specs cols chunks specss hi Hm Hs' Hd Hh Hl IH]; constructor; [ | assumption ].
  unfold chunk_located. rewrite Hm. change (2 ^ 63) with 9223372036854775808 in *. apply holds_bound in Hh. rewrite nlen_app in Hh.
  destruct Hd as (H1 & _ & _ & H2 & H3 & (c & _ & H4 & _) & _). unfold located, i64_size. rewrite H1, H2, H3.
  change (2 ^ 63)%Z with 9223372036854775808%Z. split; [ lia | ]. split; [ destruct l; lia | ]. split; [ exact I | ]. exists c. exact H4.
Qed.
Lemma laid_sizes F file pos cols chunks specss hi : laid F file pos cols chunks specss hi ->
  forall metas, Forall2 (fun c meta => cc_meta c = Some meta) chunks metas -> (0 <= zsum (map cm_uncompressed_size metas))%Z.
Proof.
  induction 1 as [|pos d l meta chunk specs cols chunks specss hi Hm Hs' Hd Hh Hl IH Hz]; intros metas H; inversion H as [|? meta' ? metas' H1 H2]; subst.
  - cbn. lia.
  - apply IH in H2. cbn [map zsum fold_right]. fold (zsum (map cm_uncompressed_size metas')). rewrite Hm in H1. injection H1 as <-.
    destruct Hd as (_ & -> & _). lia.
Qed.

Lemma combine_map {A B C} (f : A -> B -> C) (g1 : C -> A) (g2 : C -> B) : (forall a b, g1 (f a b) = a /\ g2 (f a b) = b) ->
  forall a b, length a = length b -> map g1 (map (fun x => f (fst x) (snd x)) (combine a b)) = a /\ map g2 (map (fun x => f (fst x) (snd x)) (combine a b)) = b.
Proof.
  intros H. induction a as [|x a IH]; intros [|y b] L; cbn [length] in L; try discriminate L; [ auto | ].
  cbn [combine map fst snd]. destruct (H x y) as [-> ->]. destruct (IH b) as [-> ->]; [ lia | ]. auto.
Qed.

(** What was read of a row group is what was written. *)
Lemma row_group_open F m s file pos g rg specss mid : laid F file pos (combine (sd_leaves s) g) (rg_columns rg) specss mid -> group_fits m specss rg ->
  nlen file < 2 ^ 63 -> (length (sd_leaves s) <= length g)%nat -> (0 <= rg_num_rows rg)%Z ->
  exists md, row_group_from_thrift s rg = Ok md /\ same_row_group s rg md.
Proof.
  intros Hl [_ (metas & Hm & Ht & _)] Hs Hlen Hr. unfold row_group_from_thrift.
  pose proof (laid_length _ _ _ _ _ _ _ Hl) as [L _]. rewrite combine_length, Nat.min_l in L by assumption.
  rewrite L, Nat.eqb_refl. cbn [negb]. pose proof (laid_sizes _ _ _ _ _ _ _ Hl _ Hm) as Hz. rewrite <- Ht in Hz.
  rewrite !try_usize_ok by assumption. cbn [bind].
  pose proof (laid_located _ _ _ _ _ _ _ Hl Hs) as Hloc.
  destruct (combine_map (fun c d => mk_cmd c d) cmd_chunk cmd_descr (fun a b => conj eq_refl eq_refl) (rg_columns rg) (sd_leaves s) L) as [E1 E2].
  set (l := map (fun x => mk_cmd (fst x) (snd x)) (combine (rg_columns rg) (sd_leaves s))) in *.
  pose proof (columns_from_thrift_ok l) as C. rewrite E1, E2 in C. rewrite C.
  - cbn [bind]. eexists. split; [ reflexivity | ]. unfold same_row_group. cbn [rgm_columns rgm_num_rows rgm_total_byte_size]. split; [ exact E1 | ]. split; [ exact E2 | ]. split; lia.
  - rewrite <- Forall_map. rewrite E1. exact Hloc.
Qed.
Lemma row_groups_open F m s file pos i gs rgs specsss hi : laid_groups F m (sd_leaves s) file pos i gs rgs specsss hi -> nlen file < 2 ^ 63 ->
  Forall (fun g => (length (sd_leaves s) <= length g)%nat) gs -> Forall (fun rg => (0 <= rg_num_rows rg)%Z) rgs ->
  exists mds, collect_res (map (row_group_from_thrift s) rgs) = Ok mds /\ Forall2 (same_row_group s) rgs mds.
Proof.
  intros H Hs. induction H as [|pos i g0 rg0 sp0 mid gs rgs spss hi Hl Hf Ha Hg IH]; intros Hlen Hr; [ exists []; split; [ reflexivity | constructor ] | ].
  destruct (row_group_open _ _ _ _ _ _ _ _ _ Hl Hf Hs (Forall_inv Hlen) (Forall_inv Hr)) as (md & E & Hmd).
  destruct (IH (Forall_inv_tail Hlen) (Forall_inv_tail Hr)) as (mds & Es & Hmds).
  exists (md :: mds). cbn [map collect_res]. rewrite E, Es. split; [ reflexivity | constructor; assumption ].
Qed.

(** The rows of the metadata of an ended file. *)
Lemma ended_rows F m w0 gs kv file meta : ended F m w0 gs kv file meta ->
  file_rows (fw_schema w0) gs < 2 ^ 63 ->
  fm_num_rows meta = Z.of_N (file_rows (fw_schema w0) gs) /\
  Forall2 (fun g rg => rg_num_rows rg = Z.of_N (group_rows (fw_schema w0) g)) gs (fm_row_groups meta).
Proof.
  intros (rgs1 & rgs2 & specs & h1 & h2 & h3 & rows & _ & Hl & Hc & Ho & _ & Hr & Hm & _) Hlt.
  pose proof (groups_rows_ok _ _ _ _ _ _ _ _ _ _ Hl Hlt) as Hg. split; [ | exact Hg ].
  assert (S1 : Forall2 same_group rgs1 rgs2).
  { destruct (fw_statistics w0); [ eapply indexed_same; [ | exact Hc ]; reflexivity | destruct Hc as [-> _]; apply Forall2_refl_same ]. }
  assert (S2 : Forall2 same_group rgs2 (fm_row_groups meta)) by (eapply indexed_same; [ | exact Ho ]; reflexivity).
  rewrite <- (total_rows_same m _ _ (Forall2_trans_same _ _ _ S1 S2)) in Hr.
  pose proof (total_rows_ok m _ _ _ Hg 0 Hlt) as Ht. change (Z.of_N 0) with 0%Z in Ht. rewrite Ht in Hr. apply Ok_inj in Hr.
  rewrite Hm. cbn [fm_num_rows]. rewrite <- Hr. reflexivity.
Qed.
Lemma ended_open F m w0 gs kv file meta : ended F m w0 gs kv file meta -> nlen file < 2 ^ 63 -> good_schema (fw_schema w0) ->
  Forall (fun g => (length (sd_leaves (fw_schema w0)) <= length g)%nat) gs ->
  file_rows (fw_schema w0) gs < 2 ^ 63 ->
  nlen (t_enc (f_file F) meta) < 2 ^ 31 -> reads_back (f_file F) (2 * (nlen (t_enc (f_file F) meta) + 8) + 1024) meta ->
  exists md, read_metadata (f_file F) m file = Ok md /\ fmd_schema md = fw_schema w0 /\ fmd_version md = fw_version w0 /\
    fmd_created_by md = fw_created_by w0 /\ fmd_key_value md = kv /\ fmd_num_rows md = file_rows (fw_schema w0) gs /\ fmd_column_orders md = None /\
    Forall2 (same_row_group (fw_schema w0)) (fm_row_groups meta) (fmd_row_groups md).
Proof.
  intros He Hs Hgood Hlen Hlt Hsz Hback. destruct (ended_rows _ _ _ _ _ _ _ He Hlt) as [Hrows Hgr].
  destruct He as (rgs1 & rgs2 & specs & h1 & h2 & h3 & rows & _ & Hl & _ & _ & _ & _ & Hm & pre & _ & Hpre & Hfile).
  rewrite as_i32_small in Hfile by (change (2 ^ 31) with 2147483648 in Hsz; exact Hsz).
  assert (Hos : of_signed 32 (Z.of_N (nlen (t_enc (f_file F) meta))) = nlen (t_enc (f_file F) meta)).
  { unfold of_signed. change (2 ^ Z.of_N 32)%Z with 4294967296%Z. change (2 ^ 31) with 2147483648 in Hsz. rewrite Z.mod_small by lia. apply N2Z.id. }
  rewrite Hos in Hfile. destruct (framed_file pre (t_enc (f_file F) meta) Hpre Hsz) as [Hf1 Hf2]. rewrite <- Hfile in Hf1, Hf2.
  assert (Hneg : Forall (fun rg => (0 <= rg_num_rows rg)%Z) (fm_row_groups meta)).
  { clear - Hgr. induction Hgr as [|g rg l l' H1 H2 IH]; constructor; [ lia | exact IH ]. }
  destruct (row_groups_open _ _ _ _ _ _ _ _ _ _ Hl Hs Hlen Hneg) as (mds & Emds & Hmds).
  assert (Hopen : read_metadata (f_file F) m file = let* (t, _) := t_dec (f_file F) (2 * nlen (footer file) + 1024) (footer file) in file_from_thrift m t).
  { unfold read_metadata. apply (with_size_exact (f_file F) m file Hf1). }
  rewrite Hopen, Hf2. replace (2 * nlen _ + 1024) with (2 * (nlen (t_enc (f_file F) meta) + 8) + 1024).
  2: { rewrite !nlen_app. change (nlen magic) with 4. unfold nlen at 3. rewrite to_le_length. lia. }
  destruct Hback as [_ Hback]. rewrite Hback. cbn [bind]. unfold file_from_thrift.
  assert (fm_schema meta = sd_into_thrift (fw_schema w0)) as -> by (rewrite Hm; reflexivity).
  rewrite (good_schema_round m _ Hgood). cbn [bind]. rewrite Emds. cbn [bind]. rewrite Hrows, try_usize_of_N. cbn [bind].
  eexists. split; [ reflexivity | ]. cbn [fmd_schema fmd_version fmd_created_by fmd_key_value fmd_num_rows fmd_column_orders fmd_row_groups].
  rewrite Hm at 1 2 3 4. cbn [fm_version fm_created_by fm_key_value fm_column_orders option_map]. auto 10.
Qed.

(** ** From a new writer to the end *)

Lemma indexed_le file enc set pos cs ps cs' hi : indexed file enc set pos cs ps cs' hi -> pos <= hi.
Proof. induction 1; lia. Qed.
Lemma indexed_groups_le file enc set pos gs ps gs' hi : indexed_groups file enc set pos gs ps gs' hi -> pos <= hi.
Proof. induction 1 as [|pos g gs p ps mid cs' gs' hi H1 H2 IH]; [ lia | ]. apply indexed_le in H1. lia. Qed.
Lemma fw_maybe_start_longer w w' r : fw_maybe_start w = (w', r) -> longer (fw_sink w) (fw_sink w').
Proof.
  unfold fw_maybe_start, fw_start. intros H. destruct (fw_offset w =? 0); [ | injection H as <- _; apply longer_refl ].
  destruct (write_all magic (fw_sink w)) as [s x] eqn:E. apply grows_write_all in E. destruct x; injection H as <- _; exact E.
Qed.
Lemma fw_end_longer F m w kv w' r : fw_end F m w kv = (w', r) -> longer (fw_sink w) (fw_sink w').
Proof.
  unfold fw_end. intros H. destruct (fw_maybe_start w) as [w1 r1] eqn:E1. apply fw_maybe_start_longer in E1.
  destruct r1; [ | injection H as <- _; exact E1 | injection H as <- _; exact E1 ].
  destruct (fw_state w1); try (injection H as <- _; exact E1).
  destruct (total_rows m 0 (fw_groups w1)); try (injection H as <- _; exact E1).
  destruct (fw_indexes F m w1) as [w2 r2] eqn:E2. apply fw_indexes_longer in E2. pose proof (longer_trans _ _ _ E1 E2) as E12.
  destruct r2; try (injection H as <- _; exact E12).
  destruct (end_file (f_file F) m (fw_thrift w2 a0 kv) (fw_sink w2)) as [s r3] eqn:E3. apply grows_end_file in E3.
  pose proof (longer_trans _ _ _ E12 E3). destruct r3; injection H as <- _; assumption.
Qed.
Lemma file_ended F m s schema stats version created_by gs w kv w' size :
  sk_data s = [] -> history F m (fw_new s schema stats version created_by) gs w -> fw_end F m w kv = (w', Ok size) -> nlen (sk_data (fw_sink w')) < 2 ^ 63 ->
  exists meta, fw_metadata w' = Some meta /\ ended F m (fw_new s schema stats version created_by) gs kv (sk_data (fw_sink w')) meta /\
    fw_state w' = WFinished /\ fw_offset w' <> 0 /\ (nlen (t_enc (f_file F) meta) < 2 ^ 31 -> size = nlen (sk_data (fw_sink w'))).
Proof.
  intros Hs Hh He Hlen. apply (writing_end F m _ w gs kv w' size); [ | exact He | exact Hlen ].
  apply (history_writing F m _ _ gs w Hh []); [ apply writing_new; exact Hs | ].
  apply fw_end_longer in He. apply longer_nlen in He. lia.
Qed.

(** ** After the end *)

Lemma index_columns_le write set old : forall cs ps s off s' last l r, index_columns write set old s off cs ps = (s', last, l, r) -> off <= last.
Proof.
  induction cs as [|c cs IH]; intros [|p ps] s off s' last l r H; cbn [index_columns] in H; try (injection H as _ <- _ _; lia).
  destruct (write p s) as [s1 [n|e|]]; try (injection H as _ <- _ _; lia).
  destruct (index_columns write set old s1 (off + n) cs ps) as [[[s2 last2] l2] r2] eqn:E. apply IH in E. injection H as _ <- _ _. lia.
Qed.
Lemma index_groups_le write set old : forall gs ps s off s' last l r, index_groups write set old s off gs ps = (s', last, l, r) -> off <= last.
Proof.
  induction gs as [|g gs IH]; intros [|p ps] s off s' last l r H; cbn [index_groups] in H; try (injection H as _ <- _ _; lia).
  destruct (index_columns write set old s off (rg_columns g) p) as [[[s1 o1] l1] r1] eqn:E. apply index_columns_le in E.
  destruct r1; try (injection H as _ <- _ _; lia).
  destruct (index_groups write set old s1 o1 gs ps) as [[[s2 last2] l2] r2] eqn:E2. apply IH in E2. injection H as _ <- _ _. lia.
Qed.
Lemma fw_indexes_le F m w w' r : fw_indexes F m w = (w', r) -> fw_offset w <= fw_offset w'.
Proof.
  unfold fw_indexes. intros H.
  destruct (if fw_statistics w then _ else _) as [[[s o] g] r1] eqn:E.
  assert (fw_offset w <= o).
  { destruct (fw_statistics w); [ apply index_groups_le in E; exact E | injection E as _ <- _ _; lia ]. }
  destruct r1; [ | injection H as <- _; cbn; assumption | injection H as <- _; cbn; assumption ].
  destruct (offset_indexes F m s o g (fw_specs w)) as [[[s2 o2] g2] r2] eqn:E2. apply index_groups_le in E2. injection H as <- _. cbn. lia.
Qed.
Lemma fw_end_finished F m w kv w' size : fw_end F m w kv = (w', Ok size) -> fw_state w' = WFinished /\ fw_offset w' <> 0.
Proof.
  unfold fw_end. intros H. destruct (fw_maybe_start w) as [w1 r1] eqn:E1.
  destruct r1; [ | discriminate H | discriminate H ].
  assert (fw_offset w1 <> 0).
  { unfold fw_maybe_start, fw_start in E1. destruct (fw_offset w =? 0) eqn:E; [ | injection E1 as <- _; lia ].
    destruct (write_all magic (fw_sink w)) as [s [|e|]]; injection E1 as <- E0; cbn; discriminate. }
  destruct (fw_state w1); try discriminate H. destruct (total_rows m 0 (fw_groups w1)); try discriminate H.
  destruct (fw_indexes F m w1) as [w2 r2] eqn:E2. apply fw_indexes_le in E2. destruct r2; try discriminate H.
  destruct (end_file (f_file F) m (fw_thrift w2 a0 kv) (fw_sink w2)) as [s r3] eqn:E3. destruct r3; try discriminate H.
  injection H as <- _. cbn. split; [ reflexivity | lia ].
Qed.
Lemma finished_write F m w g w' r : fw_state w = WFinished -> fw_offset w <> 0 -> fw_write F m w g = (w', r) -> fw_state w' = WFinished /\ fw_offset w' <> 0.
Proof.
  intros Hs Ho. unfold fw_write, fw_maybe_start. apply N.eqb_neq in Ho as Ho'. rewrite Ho'.
  destruct (write_row_group F m (fw_offset w) (sd_leaves (fw_schema w)) g (length (fw_groups w)) (fw_sink w)) as [s [[[rg sp] n]|e|]]; intros H; injection H as <- _; cbn;
    (split; [ exact Hs | lia ]).
Qed.
Lemma finished_end F m w kv : fw_state w = WFinished -> fw_offset w <> 0 -> fw_end F m w kv = (w, Err InvalidParameter).
Proof. intros Hs Ho. unfold fw_end, fw_maybe_start. apply N.eqb_neq in Ho as ->. rewrite Hs. reflexivity. Qed.
Lemma finished_calls F m : forall l w w' rs, fw_state w = WFinished -> fw_offset w <> 0 -> calls (fw_call F m) w l = (w', rs) ->
  fw_state w' = WFinished /\ fw_offset w' <> 0.
Proof.
  induction l as [|c l IH]; intros w w' rs Hs Ho H; cbn [calls] in H; [ injection H as <- _; auto | ].
  destruct (fw_call F m w c) as [w1 x] eqn:E1. destruct (calls (fw_call F m) w1 l) as [w2 xs] eqn:E2. injection H as <- _.
  assert (fw_state w1 = WFinished /\ fw_offset w1 <> 0) as [].
  { destruct c as [g|kv]; cbn [fw_call] in E1.
    - destruct (fw_write F m w g) as [w3 r] eqn:E. apply finished_write in E; [ | exact Hs | exact Ho ]. injection E1 as <- _. exact E.
    - rewrite finished_end in E1 by assumption. injection E1 as <- _. auto. }
  eapply IH; eassumption.
Qed.
