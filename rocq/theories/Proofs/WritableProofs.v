(** Lemmas about which row groups a file writer takes, the errors it gives, and which files can be ended. *)
From Verif Require Import Base.Prelude Base.LeFacts Model.Types Model.Thrift Model.Intervals Model.Page Model.Io Model.Statistics Model.PageWrite Model.ColumnWrite
  Model.Schema Model.PageRead Model.Metadata Model.Indexes Model.FileWrite Spec.PagesSpec Spec.ChunkSpec Spec.StatsSpec Spec.EqualitySpec Spec.FileSpec Spec.WritableSpec
  Spec.ErrorsSpec Proofs.TypesFacts Proofs.CompressionProofs Proofs.SchemaProofs Proofs.PageIoProofs Proofs.ColumnWriteProofs Proofs.FileWriteProofs Proofs.IndexProofs Proofs.IndexReadProofs Proofs.StatsProofs Proofs.EqualityProofs Proofs.ErrorsProofs Props.Equality.
Open Scope N_scope.

(** ** Statistics of pages *)

Lemma deserialize_labelled v p s : deserialize_statistics v p = Ok s -> ~ mislabelled_statistics s.
Proof.
  unfold deserialize_statistics. destruct (pt_physical p) as [ | | | | | | |size] eqn:E;
    unfold boolean_read, primitive_read, binary_read, fixed_read; repeat (destruct (check_len _ _); cbn [bind]; try discriminate);
    repeat (destruct (decode_opt _ _); cbn [bind]; try discriminate);
    intros H; apply Ok_inj in H; subst s; cbn [mislabelled_statistics]; try tauto.
  intros N. apply N. unfold fixed_length. rewrite E. eexists. reflexivity.
Qed.
Lemma page_labelled p s : page_statistics p = Some s -> ~ mislabelled_statistics s.
Proof.
  destruct p as [d|d]; cbn [page_statistics]; [|discriminate]. unfold cdp_statistics.
  destruct (header_statistics (cdp_header d)) as [v|]; [|discriminate].
  destruct (deserialize_statistics v _) as [x| |] eqn:E; cbn [bind]; try discriminate.
  intros H. injection H as <-. eapply deserialize_labelled. exact E.
Qed.
Lemma serialize_labelled s : ~ mislabelled_statistics s -> exists t, serialize_statistics s = Ok t.
Proof.
  destruct s as [s|t p s|p s|p s]; cbn [serialize_statistics mislabelled_statistics]; try (intros _; eexists; reflexivity).
  intros H. unfold fixed_length in H. destruct (pt_physical p) eqn:E; try (exfalso; apply H; intros [n0 X]; congruence). eexists. reflexivity.
Qed.
Lemma specs_page_statistics T off l specs : specs_for T off l specs -> map ps_statistics specs = map page_statistics l.
Proof.
  induction 1 as [|off p spec l specs H _ IH]; [reflexivity|]. cbn [map]. rewrite IH. f_equal.
  destruct H as (_ & _ & _ & _ & _ & _ & H & _). destruct p as [d|d]; cbn [page_statistics]; [rewrite <- H; reflexivity|].
  apply Ok_inj in H. auto.
Qed.
Lemma in_known {A} (x : A) l : In x (known l) <-> In (Some x) l.
Proof.
  induction l as [|[a|] l IH]; [cbn; tauto| |]; rewrite known_cons; cbn [In]; rewrite IH.
  - split; (intros [H|H]; [left|right; exact H]); congruence.
  - split; [intros H; right; exact H|intros [H|H]; [discriminate H|exact H]].
Qed.

Definition counts_ok (l : list statistics) : Prop := Forall (fun s => forall z, nulls_told s = Some z -> in_s 64 z = true) l.
Lemma merge_iff m pages : counts_ok (known pages) -> Forall (fun s => ~ mislabelled_statistics s) (known pages) ->
  (mergeable m (known pages) -> exists r, reduce_statistics m pages = Ok r /\
     exists st, (match r with None => Ok None | Some s => let* s := serialize_statistics s in Ok (Some s) end) = Ok st) /\
  (forall r, reduce_statistics m pages = Ok r -> mergeable m (known pages)) /\
  (forall e, reduce_statistics m pages = Err e -> e = OutOfSpec) /\
  (Forall (fun s => statistics_about s <> Int96) (known pages) -> (m = Checked -> ~ count_overflows (map nulls_told (known pages))) ->
     reduce_statistics m pages <> Panic).
Proof.
  intros Hc Hl. destruct (merging_outcome m pages Hc) as (M1 & M2 & M3).
  assert (NE : ~ Exists mislabelled_statistics (known pages)).
  { intros X. apply Exists_exists in X as (x & X1 & X2). rewrite Forall_forall in Hl. exact (Hl x X1 X2). }
  destruct (known pages) as [|first rest] eqn:E.
  { specialize (M1 eq_refl). split; [|split; [|split]].
    - intros _. exists None. split; [exact M1|]. exists None. reflexivity.
    - intros r _. left. reflexivity.
    - intros e H. rewrite M1 in H. discriminate.
    - intros _ _ H. rewrite M1 in H. discriminate. }
  assert (Ne : first :: rest <> []) by discriminate.
  assert (D : Forall (fun s => statistics_about s = statistics_about first) (first :: rest) \/
    exists b, In b (first :: rest) /\ statistics_about first <> statistics_about b).
  { destruct (forallb (fun s => physical_eqb (statistics_about s) (statistics_about first)) (first :: rest)) eqn:F.
    - left. apply Forall_forall. intros x Hx. rewrite forallb_forall in F. apply physical_eqb_spec. apply F. exact Hx.
    - right. assert (N : ~ forall x, In x (first :: rest) -> physical_eqb (statistics_about x) (statistics_about first) = true).
      { intros N. apply forallb_forall in N. congruence. }
      clear - F. induction (first :: rest) as [|b l IH] in F |- *; [discriminate F|]. cbn [forallb] in F. apply andb_false_iff in F as [F|F].
      + exists b. split; [left; reflexivity|]. intros X. rewrite X in F. rewrite (proj2 (physical_eqb_spec _ _) eq_refl) in F. discriminate.
      + destruct (IH F) as (b' & B1 & B2). exists b'. split; [right; exact B1|exact B2]. }
  destruct D as [D|(b & B1 & B2)].
  - specialize (M3 _ Ne D). destruct M3 as [P Q]. split; [|split; [|split]].
    + intros [X|(t & T1 & T2 & T3)]; [discriminate X|]. pose proof (Forall_inv T2) as T4. cbn beta in T4. rewrite T4 in *.
      destruct (Q T1 NE) as (s & S1 & _ & S3); [intros [Y1 Y2]; exact (T3 Y1 Y2)|].
      exists (Some s). split; [exact S1|]. destruct (serialize_labelled s S3) as [t' ->]. eexists. reflexivity.
    + intros r Hr. right. exists (statistics_about first). split; [|split; [exact D|]].
      * intros X. rewrite (P (or_introl X)) in Hr. discriminate.
      * intros X Y. rewrite (P (or_intror (or_intror (conj X Y)))) in Hr. discriminate.
    + intros e He. destruct (physical_eqb (statistics_about first) Int96) eqn:X.
      { apply physical_eqb_spec in X. rewrite (P (or_introl X)) in He. discriminate. }
      assert (X' : statistics_about first <> Int96) by (intros Y; rewrite Y in X; discriminate).
      exfalso. assert (K : ~ (m = Checked /\ count_overflows (map nulls_told (first :: rest)))).
      { intros Y. rewrite (P (or_intror (or_intror Y))) in He. discriminate. }
      destruct (Q X' NE K) as (s & S1 & _). congruence.
    + intros F1 F2. destruct (Q (Forall_inv F1) NE) as (s & S1 & _); [intros [Y1 Y2]; exact (F2 Y1 Y2)|]. congruence.
  - assert (X : reduce_statistics m pages = Err OutOfSpec) by (apply M2; exists first, b; split; [left; reflexivity|split; assumption]).
    split; [|split; [|split]].
    + intros [Y|(t & _ & T2 & _)]; [discriminate Y|]. exfalso. apply B2. rewrite Forall_forall in T2. rewrite (T2 _ B1). exact (T2 first (or_introl eq_refl)).
    + intros r Hr. congruence.
    + intros e He. congruence.
    + intros _ _. congruence.
Qed.
Definition column_counts (c : pages_iter + error) : Prop :=
  Forall (fun p => forall s z, page_statistics p = Some s -> nulls_told s = Some z -> in_s 64 z = true) (pages_of_column c).
Lemma counts_known l : Forall (fun p => forall s z, page_statistics p = Some s -> nulls_told s = Some z -> in_s 64 z = true) l ->
  counts_ok (known (map page_statistics l)) /\ Forall (fun s => ~ mislabelled_statistics s) (known (map page_statistics l)).
Proof.
  intros H. split; apply Forall_forall; intros s Hs; apply in_known in Hs; apply in_map_iff in Hs as (p & E & Hp).
  - rewrite Forall_forall in H. intros z. exact (H p Hp s z E).
  - eapply page_labelled. exact E.
Qed.

(** ** Columns *)

Lemma page_writable_spec T off p spec : spec_for T off p spec -> page_writable p.
Proof.
  intros (H1 & _ & _ & _ & _ & _ & H2 & H3 & _). split; [exact H1|]. destruct p as [d|d]; [|exact I]. split; [eexists; symmetry; exact H2|].
  intros X. unfold page_num_rows in H3. cbn [cp_selected] in H3. rewrite X in H3. discriminate H3.
Qed.
Lemma pages_writable_specs T off l specs : specs_for T off l specs -> Forall page_writable l.
Proof. induction 1; constructor; [eapply page_writable_spec; eassumption|assumption]. Qed.
Lemma writable_stats l : Forall page_writable l ->
  Forall within_limits l /\
  Forall2 (fun p x => match p with CData d => cdp_statistics d = Ok x /\ cdp_selected d <> Some [] | CDict _ => x = None end) l (map page_statistics l).
Proof.
  induction 1 as [|p l [H1 H2] _ [IH1 IH2]]; [split; constructor|]. split; [constructor; assumption|]. cbn [map]. constructor; [|exact IH2].
  destruct p as [d|d]; [|reflexivity]. destruct H2 as [[x E] N]. cbn [page_statistics]. rewrite E. split; [reflexivity|exact N].
Qed.
(** What a chunk written looks like. *)
Definition written_specs (T : thrift t_page_header) (c : pages_iter + error) (x : t_column_chunk * list page_spec) : Prop :=
  (exists off, specs_for T off (pages_of_column c) (snd x)) /\ exists meta, cc_meta (fst x) = Some meta.
Lemma write_column_of T TM m off d c data : column_counts c -> column_writable m c ->
  exists pages chunk specs size data', c = inl pages /\
    write_column_chunk T TM m off d pages (mk_sink data None) = (mk_sink data' None, Ok (chunk, specs, size)) /\ written_specs T c (chunk, specs).
Proof.
  intros Hc (l & -> & Hw & [cd Hcd] & Hm). unfold column_counts in Hc. rewrite pages_of_map in Hc.
  destruct (counts_known l Hc) as [K1 K2]. destruct (writable_stats l Hw) as [W1 W2].
  destruct (write_pages_of T l _ W1 W2 off data) as (specs & E1 & E2 & E3).
  destruct (merge_iff m (map page_statistics l) K1 K2) as (M1 & _). destruct (M1 Hm) as (r & R1 & st & R2). rewrite <- E3 in R1.
  destruct (build_column_chunk_of T m off l specs d cd r st E2 Hcd R1 R2) as (meta & Eb).
  exists (map inl l). do 4 eexists. split; [reflexivity|]. split.
  - unfold write_column_chunk. unfold wbind at 1. rewrite E1. unfold wbind at 1, wres. rewrite Eb. cbn [cc_meta].
    unfold wbind, write_struct, write_all, wret. cbn [wbind sk_room sk_data]. reflexivity.
  - unfold written_specs. cbn [fst snd cc_meta]. rewrite pages_of_map. split; [exists off; exact E2|eexists; reflexivity].
Qed.
Lemma write_column_back T TM m off d pages s s' chunk specs size : column_counts (inl pages) ->
  write_column_chunk T TM m off d pages s = (s', Ok (chunk, specs, size)) -> column_writable m (inl pages) /\ written_specs T (inl pages) (chunk, specs).
Proof.
  intros Hc H. unfold write_column_chunk in H. apply wbind_ok in H as (s1 & sp & H1 & H).
  apply write_pages_ok in H1 as (l & -> & _ & Hs). apply wbind_ok in H as (s2 & ch & H2 & H). apply wres_ok in H2 as [-> H2].
  destruct (cc_meta ch) as [meta|] eqn:Em; [|apply wres_ok in H as [_ H]; discriminate H].
  apply wbind_ok in H as (s3 & n & _ & H). apply wret_ok in H as [_ H].
  assert (ch = chunk /\ sp = specs) as [-> ->] by (injection H; auto).
  unfold column_counts in Hc. rewrite pages_of_map in Hc. destruct (counts_known l Hc) as [K1 K2].
  split.
  - exists l. split; [reflexivity|]. split; [eapply pages_writable_specs; exact Hs|].
    unfold build_column_chunk in H2. rewrite (specs_codecs _ _ _ _ Hs) in H2.
    destruct (1 <? nlen (distinct_codecs (map cp_compression l))) eqn:Ec; [discriminate H2|]. apply N.ltb_ge in Ec.
    split.
    + eexists. apply Forall_forall. intros p Hp. apply (one_codec _ Ec). apply in_map. exact Hp.
    + destruct (collect_res (map spec_num_values specs)); cbn [bind] in H2; try discriminate H2.
      destruct (collect_res (map spec_encodings specs)); cbn [bind] in H2; try discriminate H2.
      destruct (reduce_statistics m (map ps_statistics specs)) as [r| |] eqn:Er; cbn [bind] in H2; try discriminate H2.
      rewrite (specs_page_statistics _ _ _ _ Hs) in Er. destruct (merge_iff m (map page_statistics l) K1 K2) as (_ & M & _). exact (M r Er).
  - split; [exists off; cbn [snd]; rewrite pages_of_map; exact Hs|eexists; exact Em].
Qed.

(** ** Row groups *)

Lemma write_columns_of F m : forall ds g off data, Forall column_counts (firstn (length ds) g) -> Forall (column_writable m) (firstn (length ds) g) ->
  exists data' l last, write_columns F m off ds g (mk_sink data None) = (mk_sink data' None, Ok (l, last)) /\
    Forall2 (written_specs (f_header F)) (firstn (length ds) g) l.
Proof.
  induction ds as [|d ds IH]; intros g off data Hc Hw; [exists data, [], off; split; [destruct g; reflexivity|constructor]|].
  destruct g as [|c g]; [exists data, [], off; split; [reflexivity|constructor]|]. cbn [length firstn] in *.
  destruct (write_column_of (f_header F) (f_column F) m off d c data (Forall_inv Hc) (Forall_inv Hw)) as (pages & chunk & specs & size & data1 & -> & E & Hx).
  destruct (IH g (off + size) data1 (Forall_inv_tail Hc) (Forall_inv_tail Hw)) as (data' & l & last & E2 & Hl).
  exists data', ((chunk, specs) :: l), last. split; [|constructor; assumption].
  cbn [write_columns]. unfold wbind at 1. rewrite E. cbn iota beta. unfold wbind at 1. rewrite E2. reflexivity.
Qed.
Lemma write_columns_back F m : forall ds g off s s' l last, Forall column_counts (firstn (length ds) g) ->
  write_columns F m off ds g s = (s', Ok (l, last)) ->
  Forall (column_writable m) (firstn (length ds) g) /\ Forall2 (written_specs (f_header F)) (firstn (length ds) g) l.
Proof.
  induction ds as [|d ds IH]; intros g off s s' l last Hc H.
  { assert (l = []) as -> by (destruct g; apply wret_ok in H as [_ H]; injection H; auto). split; constructor. }
  destruct g as [|[pages|e] g]; cbn [write_columns] in H.
  - apply wret_ok in H as [_ H]. injection H as <- _. split; constructor.
  - apply wbind_ok in H as (s1 & [[chunk specs] size] & H1 & H). apply wbind_ok in H as (s2 & [l2 last2] & H2 & H). apply wret_ok in H as [_ H].
    cbn [length firstn] in *. apply write_column_back in H1 as [A B]; [|exact (Forall_inv Hc)].
    apply IH in H2 as [C D]; [|exact (Forall_inv_tail Hc)]. injection H as <- _. split; constructor; assumption.
  - apply wres_ok in H as [_ H]. discriminate H.
Qed.

Lemma told_rows T off p spec : spec_for T off p spec -> is_data p = true ->
  (match p with CData d => cdp_selected d <> None | CDict _ => True end /\ ps_num_rows spec = Some (page_rows p)) \/
  (~ match p with CData d => cdp_selected d <> None | CDict _ => True end /\ ps_num_rows spec = None).
Proof.
  intros H D. destruct p as [d|d]; [|discriminate D]. pose proof H as (_ & _ & _ & _ & _ & _ & _ & H1 & _).
  unfold page_num_rows in H1. cbn [cp_selected] in H1. destruct (cdp_selected d) as [ivs|] eqn:E.
  - left. split; [discriminate|]. destruct (ps_num_rows spec) as [n|] eqn:En; [rewrite (spec_rows _ _ _ _ _ H En); reflexivity|].
    destruct (rev ivs); discriminate H1.
  - right. apply Ok_inj in H1. split; [intros X; apply X; reflexivity|auto].
Qed.
Lemma sum_rows_exact T m : forall off l specs, specs_for T off l specs -> forall acc, acc + chunk_rows l < 2 ^ 63 ->
  (rows_told l /\ sum_rows m (Z.of_N acc) (filter is_data_page specs) = Ok (Z.of_N (acc + chunk_rows l))) \/
  (~ rows_told l /\ sum_rows m (Z.of_N acc) (filter is_data_page specs) = Err OutOfSpec).
Proof.
  induction 1 as [|off p spec l specs H _ IH]; intros acc Hlt.
  { left. split; [constructor|]. cbn [filter sum_rows chunk_rows fold_right]. rewrite N.add_0_r. reflexivity. }
  cbn [filter]. rewrite (is_data_page_for _ _ _ _ H). cbn [chunk_rows fold_right] in *. fold (chunk_rows l) in *.
  change (2 ^ 63) with 9223372036854775808 in *.
  destruct (is_data p) eqn:Ed.
  - cbn [sum_rows]. destruct (told_rows _ _ _ _ H Ed) as [[T1 ->]|[T1 ->]].
    + rewrite as_i64_small by lia. rewrite sadd_ok by (unfold in_s; change (2 ^ (Z.of_N 64 - 1))%Z with 9223372036854775808%Z; lia). cbn [bind].
      rewrite <- N2Z.inj_add. destruct (IH (acc + page_rows p)) as [[I1 I2]|[I1 I2]]; [lia| |].
      * left. split; [constructor; assumption|]. rewrite I2. f_equal. lia.
      * right. split; [|exact I2]. intros X. apply I1. exact (Forall_inv_tail X).
    + right. split; [|reflexivity]. intros X. exact (T1 (Forall_inv X)).
  - destruct p as [d|d]; [discriminate Ed|]. cbn [page_rows] in *. rewrite N.add_0_l in *. destruct (IH acc Hlt) as [[I1 I2]|[I1 I2]].
    + left. split; [constructor; [exact I|exact I1]|exact I2].
    + right. split; [|exact I2]. intros X. apply I1. exact (Forall_inv_tail X).
Qed.
Lemma metas_collect T g l : Forall2 (written_specs T) g l -> exists metas, collect_res (map (fun x => chunk_meta (fst x)) l) = Ok metas.
Proof.
  induction 1 as [|c x g l [_ [meta H]] _ [metas IH]]; [eexists; reflexivity|]. cbn [map collect_res]. unfold chunk_meta at 1. rewrite H. cbn [bind].
  rewrite IH. eexists. reflexivity.
Qed.
Lemma group_rows_exact T m g l : Forall2 (written_specs T) g l -> Forall (fun c => chunk_rows (pages_of_column c) < 2 ^ 63) g ->
  (match g with c :: _ => rows_told (pages_of_column c) | [] => True end /\ exists z, compute_num_rows m l = Ok z) \/
  (~ match g with c :: _ => rows_told (pages_of_column c) | [] => True end /\ compute_num_rows m l = Err OutOfSpec).
Proof.
  intros H Hr. destruct H as [|c [chunk specs] g l [[off H] _] _]; [left; split; [exact I|eexists; reflexivity]|].
  cbn [compute_num_rows snd] in *. destruct (sum_rows_exact T m _ _ _ H 0) as [[A B]|[A B]]; [exact (Forall_inv Hr)| |].
  - left. split; [exact A|eexists; exact B].
  - right. split; assumption.
Qed.

Lemma row_group_iff F m schema g off ordinal s : sk_room s = None -> counts_64 (schema_columns schema g) -> rows_64 schema g ->
  ((exists s' x, write_row_group F m off (sd_leaves schema) g ordinal s = (s', Ok x)) <-> group_writable m schema g).
Proof.
  intros Hs Hc Hr. destruct s as [data room]. cbn [sk_room] in Hs. subst room. split.
  - intros (s' & x & H). unfold write_row_group in H. apply wbind_ok in H as (s1 & [l last] & H1 & H).
    apply write_columns_back in H1 as [A B]; [|exact Hc]. split; [exact A|].
    apply wbind_ok in H as (s2 & rows & H2 & _). apply wres_ok in H2 as [_ H2].
    destruct (group_rows_exact _ m _ _ B Hr) as [[R _]|[_ R]]; [exact R|congruence].
  - intros [A R]. destruct (write_columns_of F m (sd_leaves schema) g off data Hc A) as (data' & l & last & E & B).
    unfold write_row_group. destruct (metas_collect _ _ _ B) as [metas Em].
    destruct (group_rows_exact _ m _ _ B Hr) as [[_ [z Ez]]|[N _]]; [|contradiction].
    do 2 eexists. unfold wbind at 1. rewrite E. cbn iota beta. unfold wbind at 1, wres. rewrite Ez. cbn iota. unfold wbind, wres. rewrite Em. reflexivity.
Qed.
Lemma maybe_start_unlimited w : sk_room (fw_sink w) = None ->
  exists w1, fw_maybe_start w = (w1, Ok tt) /\ sk_room (fw_sink w1) = None /\ fw_schema w1 = fw_schema w.
Proof.
  intros H. unfold fw_maybe_start, fw_start. destruct (fw_offset w =? 0); [|exists w; auto].
  unfold write_all. rewrite H. eexists. split; [reflexivity|]. split; reflexivity.
Qed.
Lemma fw_write_iff F m w g : sk_room (fw_sink w) = None -> counts_64 (schema_columns (fw_schema w) g) -> rows_64 (fw_schema w) g ->
  ((exists w', fw_write F m w g = (w', Ok tt)) <-> group_writable m (fw_schema w) g).
Proof.
  intros Hs Hc Hr. destruct (maybe_start_unlimited w Hs) as (w1 & E1 & S1 & K1). unfold fw_write. rewrite E1.
  rewrite <- K1 in *. pose proof (row_group_iff F m (fw_schema w1) g (fw_offset w1) (length (fw_groups w1)) (fw_sink w1) S1 Hc Hr) as G.
  rewrite <- G. destruct (write_row_group _ _ _ _ _ _ _) as [s' [[[rg sp] size]|e|]].
  - split; intros _; [do 2 eexists; reflexivity|eexists; reflexivity].
  - split; [intros [w' X]; discriminate X|intros (s2 & x & X); discriminate X].
  - split; [intros [w' X]; discriminate X|intros (s2 & x & X); discriminate X].
Qed.

(** ** Errors *)

(** A writer that fails only with such errors. *)
Definition wfails {A} (P : error -> Prop) (x : writer A) : Prop := forall s, match snd (x s) with Err e => P e | _ => True end.
Lemma wf_bind {A B} P (x : writer A) (f : A -> writer B) : wfails P x -> (forall a, wfails P (f a)) -> wfails P (wbind x f).
Proof. intros Hx Hf s. unfold wbind. specialize (Hx s). destruct (x s) as [s1 [a|e|]]; [apply Hf|exact Hx|exact I]. Qed.
Lemma wf_bind_of {A B} P (x : writer A) (f : A -> writer B) : wfails P x -> (forall s s1 a, x s = (s1, Ok a) -> wfails P (f a)) -> wfails P (wbind x f).
Proof. intros Hx Hf s. unfold wbind. specialize (Hx s). destruct (x s) as [s1 [a|e|]] eqn:E; [exact (Hf _ _ _ E s1)|exact Hx|exact I]. Qed.
Lemma wf_ret {A} P (a : A) : wfails P (wret a).
Proof. intros s. exact I. Qed.
Lemma wf_res {A} (P : error -> Prop) (x : res A) : fails_as P x -> wfails P (wres x).
Proof. intros H s. unfold wres. cbn [snd]. destruct x as [a|e|]; [exact I|exact (H e eq_refl)|exact I]. Qed.
Lemma wf_weaken {A} (P Q : error -> Prop) (x : writer A) : (forall e, P e -> Q e) -> wfails P x -> wfails Q x.
Proof. intros H Hx s. specialize (Hx s). destruct (snd (x s)); auto. Qed.
Notation bad := (fun e : error => e = OutOfSpec).
Lemma wf_all b : wfails bad (write_all b).
Proof. intros s. unfold write_all. destruct (sk_room s) as [r|]; [|exact I]. destruct (nlen b <=? r); cbn [snd]; [exact I|reflexivity]. Qed.
Lemma wf_struct {X} (T : thrift X) x : wfails bad (write_struct T x).
Proof. apply wf_bind; [apply wf_all|intros _; apply wf_ret]. Qed.

Lemma m_try_i32 n : malformed (try_i32 n).
Proof. unfold try_i32. intros e. destruct (n <? _); intros H; [discriminate H|injection H; auto]. Qed.
Lemma m_assemble p : malformed (assemble_header p).
Proof.
  destruct p as [d|d]; cbn [assemble_header]; unfold assemble_data_page_header, assemble_dict_page_header, maybe_bytes.
  - apply fails_bind; [apply fails_bind; [apply m_try_i32|intros a; apply fails_bind; [apply m_try_i32|intros b e H; discriminate H]]|].
    intros [u c] e H. destruct (cdp_header d); discriminate H.
  - apply fails_bind; [apply fails_bind; [apply m_try_i32|intros a; apply fails_bind; [apply m_try_i32|intros b e H; discriminate H]]|].
    intros [u c]. apply fails_bind; [apply m_try_i32|intros n e H; discriminate H].
Qed.
Lemma m_page_stats d : malformed (cdp_statistics d).
Proof.
  unfold cdp_statistics. destruct (header_statistics (cdp_header d)); [|intros e H; discriminate H].
  apply fails_bind; [apply m_deserialize_statistics|intros a e H; discriminate H].
Qed.
Lemma m_page_rows p : malformed (page_num_rows p).
Proof. unfold page_num_rows. intros e. destruct (cp_selected p) as [ivs|]; [destruct (rev ivs)|]; intros H; discriminate H. Qed.
Lemma wf_page T off p : wfails bad (write_page T off p).
Proof.
  unfold write_page. apply wf_bind; [apply wf_res; apply m_assemble|intros h].
  apply wf_bind; [apply wf_struct|intros n]. apply wf_bind; [apply wf_all|intros _].
  apply wf_bind; [apply wf_res; destruct p; [apply m_page_stats|intros e H; discriminate H]|intros st].
  apply wf_bind; [apply wf_res; apply m_page_rows|intros r; apply wf_ret].
Qed.
Lemma wf_pages T : forall l off, wfails (fun e => e = OutOfSpec \/ In (inr e) l) (write_pages T off l).
Proof.
  induction l as [|[p|e] l IH]; intros off; cbn [write_pages]; [apply wf_ret| |].
  - apply wf_bind; [eapply wf_weaken; [|apply wf_page]; cbn beta; auto|intros sp].
    apply wf_bind; [eapply wf_weaken; [|apply IH]; cbn beta; intros e [H|H]; [left; exact H|right; right; exact H]|intros sps; apply wf_ret].
  - apply wf_res. intros e' H. injection H as <-. right. left. reflexivity.
Qed.
Lemma m_build m specs d T off l : Forall (fun p => forall s z, page_statistics p = Some s -> nulls_told s = Some z -> in_s 64 z = true) l ->
  specs_for T off l specs -> malformed (build_column_chunk m specs d).
Proof.
  intros Hc Hs e. unfold build_column_chunk. destruct (1 <? _); [intros H; injection H; auto|].
  rewrite (collect_for _ _ T (spec_num_values_for T) off l specs Hs), (collect_for _ _ T (spec_encodings_for T) off l specs Hs). cbn [bind].
  rewrite (specs_page_statistics _ _ _ _ Hs). destruct (counts_known l Hc) as [K1 K2].
  destruct (merge_iff m (map page_statistics l) K1 K2) as (M1 & M2 & M3 & _).
  destruct (reduce_statistics m (map page_statistics l)) as [r|e'|] eqn:Er; cbn [bind].
  - destruct (M1 (M2 r eq_refl)) as (r' & R1 & st & R2). injection R1 as <-. rewrite R2. cbn [bind]. intros H. discriminate H.
  - intros H. injection H as ->. exact (M3 e eq_refl).
  - intros H. discriminate H.
Qed.
Lemma wf_column T TM m off d pages : column_counts (inl pages) -> wfails (fun e => e = OutOfSpec \/ In (inr e) pages) (write_column_chunk T TM m off d pages).
Proof.
  intros Hc. unfold write_column_chunk. apply wf_bind_of; [apply wf_pages|]. intros s s1 specs H. apply write_pages_ok in H as (l & -> & _ & Hs).
  unfold column_counts in Hc. rewrite pages_of_map in Hc.
  eapply wf_weaken; [intros e X; left; exact X|]. apply wf_bind; [apply wf_res; eapply m_build; eassumption|]. intros ch.
  destruct (cc_meta ch); [|apply wf_res; intros e X; discriminate X]. apply wf_bind; [apply wf_struct|intros n; apply wf_ret].
Qed.
(** The error [e] comes from the producer of the columns and pages. *)
Lemma wf_columns F m : forall ds g off, Forall column_counts (firstn (length ds) g) ->
  wfails (fun e => e = OutOfSpec \/ produced e g) (write_columns F m off ds g).
Proof.
  induction ds as [|d ds IH]; intros g off Hc; [destruct g; apply wf_ret|]. destruct g as [|[pages|e] g]; cbn [write_columns]; [apply wf_ret| |].
  - cbn [length firstn] in Hc. apply wf_bind.
    + eapply wf_weaken; [|apply wf_column; exact (Forall_inv Hc)]. cbn beta. intros e [H|H]; [left; exact H|]. right. right. exists pages. split; [left; reflexivity|exact H].
    + intros [[chunk specs] size]. apply wf_bind; [|intros [l last]; apply wf_ret].
      eapply wf_weaken; [|apply IH; exact (Forall_inv_tail Hc)]. cbn beta. intros e [H|[H|(p & H1 & H2)]]; [left; exact H|right; left; right; exact H|].
      right. right. exists p. split; [right; exact H1|exact H2].
  - apply wf_res. intros e' H. injection H as <-. right. left. left. reflexivity.
Qed.
Lemma sadd_no_err m n a b e : sadd m n a b <> Err e.
Proof. unfold sadd. destruct (in_s n (a + b)%Z); [discriminate|]. destruct m; discriminate. Qed.
Lemma m_sum_rows m : forall specs acc, malformed (sum_rows m acc specs).
Proof.
  induction specs as [|s r IH]; intros acc e H; cbn [sum_rows] in H; [discriminate H|]. destruct (ps_num_rows s); [|injection H; auto].
  destruct (sadd m 64 acc (as_i64 n)) as [x|e'|] eqn:E; cbn [bind] in H; [exact (IH _ _ H)| |discriminate H]. exfalso. exact (sadd_no_err _ _ _ _ _ E).
Qed.
Lemma wf_row_group F m off ds g i : Forall column_counts (firstn (length ds) g) -> wfails (fun e => e = OutOfSpec \/ produced e g) (write_row_group F m off ds g i).
Proof.
  intros Hc. unfold write_row_group. apply wf_bind; [apply wf_columns; exact Hc|]. intros [l last]. apply wf_bind.
  - apply wf_res. intros e H. left. destruct l as [|[c specs] l]; [discriminate H|]. exact (m_sum_rows _ _ _ _ H).
  - intros rows. apply wf_bind; [|intros metas; apply wf_ret]. apply wf_res. apply m_collect_map. intros x e H. unfold chunk_meta in H.
    destruct (cc_meta (fst x)); discriminate H.
Qed.
Lemma start_fails w w' e : fw_start w = (w', Err e) -> e = OutOfSpec \/ (e = InvalidParameter /\ fw_offset w <> 0).
Proof.
  unfold fw_start. destruct (N.eqb_spec (fw_offset w) 0) as [Hz|Hz]; [|intros H; injection H; auto].
  pose proof (wf_all magic (fw_sink w)) as W. destruct (write_all magic (fw_sink w)) as [s [u|e'|]]; intros H; [discriminate H| |discriminate H].
  apply pair_inj in H as [_ H]. injection H as ->. left. exact W.
Qed.
Lemma maybe_start_fails w w' e : fw_maybe_start w = (w', Err e) -> e = OutOfSpec.
Proof.
  unfold fw_maybe_start. destruct (N.eqb_spec (fw_offset w) 0) as [Hz|Hz]; [|intros H; discriminate H].
  intros H. apply start_fails in H as [H|[_ H]]; [exact H|contradiction].
Qed.
Lemma maybe_start_schema w w' r : fw_maybe_start w = (w', r) -> fw_schema w' = fw_schema w.
Proof.
  unfold fw_maybe_start, fw_start. destruct (fw_offset w =? 0); [|intros H; injection H as <- _; reflexivity].
  destruct (write_all magic (fw_sink w)) as [s [u|e|]]; intros H; injection H as <- _; reflexivity.
Qed.
Lemma fw_write_fails F m w g w' e : counts_64 (schema_columns (fw_schema w) g) -> fw_write F m w g = (w', Err e) -> e = OutOfSpec \/ produced e g.
Proof.
  intros Hc. unfold fw_write. destruct (fw_maybe_start w) as [w1 [u|e'|]] eqn:E.
  - rewrite <- (maybe_start_schema _ _ _ E) in Hc.
    pose proof (wf_row_group F m (fw_offset w1) (sd_leaves (fw_schema w1)) g (length (fw_groups w1)) Hc (fw_sink w1)) as W.
    destruct (write_row_group _ _ _ _ _ _ _) as [s [[[rg sp] size]|e'|]]; intros H; [discriminate H| |discriminate H].
    apply pair_inj in H as [_ H]. injection H as ->. exact W.
  - intros H. apply pair_inj in H as [_ H]. injection H as ->. left. eapply maybe_start_fails. exact E.
  - intros H. discriminate H.
Qed.

(** ** Panics *)

Definition wcalm {A} (x : writer A) : Prop := forall s, snd (x s) <> Panic.
Lemma wc_bind {A B} (x : writer A) (f : A -> writer B) : wcalm x -> (forall s s1 a, x s = (s1, Ok a) -> wcalm (f a)) -> wcalm (wbind x f).
Proof. intros Hx Hf s. unfold wbind. specialize (Hx s). destruct (x s) as [s1 [a|e|]] eqn:E; [exact (Hf _ _ _ E s1)|discriminate|exfalso; exact (Hx eq_refl)]. Qed.
Lemma wc_ret {A} (a : A) : wcalm (wret a).
Proof. intros s. discriminate. Qed.
Lemma wc_res {A} (x : res A) : x <> Panic -> wcalm (wres x).
Proof. intros H s. exact H. Qed.
Lemma wc_all b : wcalm (write_all b).
Proof. intros s. unfold write_all. destruct (sk_room s) as [r|]; [|discriminate]. destruct (nlen b <=? r); discriminate. Qed.
Lemma wc_struct {X} (T : thrift X) x : wcalm (write_struct T x).
Proof. apply wc_bind; [apply wc_all|intros s s1 a _; apply wc_ret]. Qed.
Lemma try_i32_calm n : try_i32 n <> Panic.
Proof. unfold try_i32. destruct (n <? _); discriminate. Qed.
Lemma assemble_calm p : assemble_header p <> Panic.
Proof.
  destruct p as [d|d]; cbn [assemble_header]; unfold assemble_data_page_header, assemble_dict_page_header, maybe_bytes;
    repeat match goal with |- context [try_i32 ?n] => let E := fresh in pose proof (try_i32_calm n) as E; destruct (try_i32 n); cbn [bind]; try discriminate; try contradiction end;
    try (destruct (cdp_header d); discriminate).
Qed.
Lemma stats_calm d : cdp_statistics d <> Panic.
Proof.
  unfold cdp_statistics. destruct (header_statistics (cdp_header d)) as [v|]; [|discriminate].
  pose proof (deserialize_no_panic v (d_primitive (cdp_descriptor d))) as H. destruct (deserialize_statistics _ _); cbn [bind]; [discriminate|discriminate|contradiction].
Qed.
Definition selected_ok (p : compressed_page) : Prop := match p with CData d => cdp_selected d <> Some [] | CDict _ => True end.
Lemma wc_page T off p : selected_ok p -> wcalm (write_page T off p).
Proof.
  intros Hp. unfold write_page. apply wc_bind; [apply wc_res; apply assemble_calm|intros s s1 h _].
  apply wc_bind; [apply wc_struct|intros s' s1' n _]. apply wc_bind; [apply wc_all|intros s2 s3 u _].
  apply wc_bind; [apply wc_res; destruct p; [apply stats_calm|discriminate]|intros s4 s5 st _].
  apply wc_bind; [|intros s6 s7 r _; apply wc_ret]. apply wc_res. unfold page_num_rows. destruct p as [d|d]; cbn [cp_selected selected_ok] in *; [|discriminate].
  destruct (cdp_selected d) as [ivs|]; [|discriminate]. destruct (rev ivs) as [|iv r] eqn:E; [|discriminate].
  exfalso. apply Hp. f_equal. apply (f_equal (@rev _)) in E. rewrite rev_involutive in E. exact E.
Qed.
Lemma wc_pages T : forall l off, Forall selected_ok (pages_of_column (inl l)) -> wcalm (write_pages T off l).
Proof.
  induction l as [|[p|e] l IH]; intros off H; cbn [write_pages]; [apply wc_ret| |].
  - cbn [pages_of_column flat_map app] in H. fold (pages_of_column (inl l)) in H.
    apply wc_bind; [apply wc_page; exact (Forall_inv H)|intros s s1 sp _].
    apply wc_bind; [apply IH; exact (Forall_inv_tail H)|intros s' s1' sps _; apply wc_ret].
  - apply wc_res. discriminate.
Qed.
Definition column_harmless (m : mode) (c : pages_iter + error) : Prop :=
  Forall selected_ok (pages_of_column c) /\
  Forall (fun x => statistics_about x <> Int96) (known (map page_statistics (pages_of_column c))) /\
  (m = Checked -> ~ count_overflows (map nulls_told (known (map page_statistics (pages_of_column c))))).
Lemma wc_column T TM m off d pages : column_counts (inl pages) -> column_harmless m (inl pages) -> wcalm (write_column_chunk T TM m off d pages).
Proof.
  intros Hc (H1 & H2 & H3). unfold write_column_chunk. apply wc_bind; [apply wc_pages; exact H1|].
  intros s s1 specs H. apply write_pages_ok in H as (l & -> & _ & Hs).
  unfold column_counts in Hc. rewrite pages_of_map in *. destruct (counts_known l Hc) as [K1 K2].
  assert (B : build_column_chunk m specs d <> Panic /\ forall ch, build_column_chunk m specs d = Ok ch -> cc_meta ch <> None).
  { unfold build_column_chunk. destruct (1 <? _); [split; [discriminate|intros ch X; discriminate X]|].
    rewrite (collect_for _ _ T (spec_num_values_for T) off l specs Hs), (collect_for _ _ T (spec_encodings_for T) off l specs Hs). cbn [bind].
    rewrite (specs_page_statistics _ _ _ _ Hs). destruct (merge_iff m (map page_statistics l) K1 K2) as (M1 & M2 & _ & M4).
    destruct (reduce_statistics m (map page_statistics l)) as [r|e'|] eqn:Er; cbn [bind].
    - destruct (M1 (M2 r eq_refl)) as (r' & R1 & st & R2). injection R1 as <-. rewrite R2. cbn [bind]. split; [discriminate|].
      intros ch X. apply Ok_inj in X. subst ch. discriminate.
    - split; [discriminate|intros ch X; discriminate X].
    - exfalso. exact (M4 H2 H3 eq_refl). }
  destruct B as [B1 B2]. apply wc_bind; [apply wc_res; exact B1|]. intros s' s1' ch X. apply wres_ok in X as [_ X].
  destruct (cc_meta ch) eqn:Em; [|exfalso; exact (B2 ch X Em)]. apply wc_bind; [apply wc_struct|intros s2 s3 n _; apply wc_ret].
Qed.
Lemma wc_columns F m : forall ds g off, Forall column_counts (firstn (length ds) g) -> Forall (column_harmless m) (firstn (length ds) g) ->
  wcalm (write_columns F m off ds g).
Proof.
  induction ds as [|d ds IH]; intros g off Hc Hh; [destruct g; apply wc_ret|]. destruct g as [|[pages|e] g]; cbn [write_columns]; [apply wc_ret| |].
  - cbn [length firstn] in *. apply wc_bind; [apply wc_column; [exact (Forall_inv Hc)|exact (Forall_inv Hh)]|].
    intros s s1 [[chunk specs] size] _. apply wc_bind; [apply IH; [exact (Forall_inv_tail Hc)|exact (Forall_inv_tail Hh)]|intros s2 s3 [l last] _; apply wc_ret].
  - apply wc_res. discriminate.
Qed.
Lemma wc_row_group F m schema g off i : counts_64 (schema_columns schema g) -> rows_64 schema g -> group_harmless m schema g ->
  wcalm (write_row_group F m off (sd_leaves schema) g i).
Proof.
  intros Hc Hr Hh. unfold write_row_group. apply wc_bind; [apply wc_columns; [exact Hc|exact Hh]|]. intros s s1 [l last] H.
  apply write_columns_back in H as [_ B]; [|exact Hc]. destruct (metas_collect _ _ _ B) as [metas Em]. rewrite Em.
  apply wc_bind.
  - apply wc_res. destruct (group_rows_exact _ m _ _ B Hr) as [[_ [z ->]]|[_ ->]]; discriminate.
  - intros s2 s3 rows _. apply wc_bind; [apply wc_res; discriminate|intros s4 s5 x _; apply wc_ret].
Qed.
Lemma maybe_start_calm w w' : fw_maybe_start w <> (w', Panic).
Proof.
  unfold fw_maybe_start, fw_start. destruct (fw_offset w =? 0); [|discriminate]. pose proof (wc_all magic (fw_sink w)) as H.
  destruct (write_all magic (fw_sink w)) as [s [u|e|]]; [discriminate|discriminate|]. exfalso. exact (H eq_refl).
Qed.
Lemma fw_write_calm F m w g w' : counts_64 (schema_columns (fw_schema w) g) -> rows_64 (fw_schema w) g -> group_harmless m (fw_schema w) g ->
  fw_write F m w g <> (w', Panic).
Proof.
  intros Hc Hr Hh. unfold fw_write. destruct (fw_maybe_start w) as [w1 [u|e|]] eqn:E.
  - rewrite <- (maybe_start_schema _ _ _ E) in *. pose proof (wc_row_group F m (fw_schema w1) g (fw_offset w1) (length (fw_groups w1)) Hc Hr Hh (fw_sink w1)) as W.
    destruct (write_row_group _ _ _ _ _ _ _) as [s [[[rg sp] size]|e|]]; [discriminate|discriminate|]. exfalso. exact (W eq_refl).
  - discriminate.
  - exfalso. exact (maybe_start_calm _ _ E).
Qed.

(** ** Ending *)

Lemma index_entry_exact T off p spec : spec_for T off p spec -> is_data p = true ->
  (page_indexable p /\ exists e, index_entry spec = Ok e) \/ (~ page_indexable p /\ index_entry spec = Err OutOfSpec).
Proof.
  intros (_ & _ & _ & _ & _ & _ & H & _) D. destruct p as [d|d]; [|discriminate D]. unfold index_entry. cbn [page_indexable].
  destruct (ps_statistics spec) as [st|] eqn:Es.
  2:{ right. split; [|reflexivity]. intros (s & X & _). congruence. }
  assert (L : ~ mislabelled_statistics st) by (apply (page_labelled (CData d)); cbn [page_statistics]; rewrite <- H; reflexivity).
  assert (Eser : serialize_statistics st = Ok (mk_tstats None None (nulls_told st)
                (match st with SBool s => st_distinct_count s | SNative _ _ s => st_distinct_count s | SBinary _ s | SFixed _ s => st_distinct_count s end)
                (snd (stats_bounds st)) (fst (stats_bounds st)))).
  { destruct st as [s|t p' s|p' s|p' s]; try reflexivity. cbn [serialize_statistics mislabelled_statistics] in *. unfold fixed_length in L.
    destruct (pt_physical p') eqn:Ep; try (exfalso; apply L; intros [n0 X]; congruence). reflexivity. }
  rewrite Eser. cbn [bind ts_null_count ts_min_value ts_max_value].
  destruct (nulls_told st) as [n|] eqn:En.
  - destruct (fst (stats_bounds st)) as [mn|] eqn:E1; [destruct (snd (stats_bounds st)) as [mx|] eqn:E2|].
    + left. split; [|eexists; reflexivity]. exists st. rewrite E1, E2. split; [congruence|]. split; [congruence|discriminate].
    + right. split; [|reflexivity]. intros (s & X & _ & Y). assert (s = st) as -> by congruence. rewrite E1, E2 in Y. apply Y; [discriminate|reflexivity].
    + left. split; [|eexists; reflexivity]. exists st. rewrite E1. split; [congruence|]. split; [congruence|]. intros X. contradiction.
  - right. split; [|reflexivity]. intros (s & X & Y & _). assert (s = st) as -> by congruence. rewrite En in Y. contradiction.
Qed.
Lemma column_index_exact T : forall off l specs, specs_for T off l specs ->
  (Forall page_indexable l /\ exists i, serialize_column_index specs = Ok i) \/ (~ Forall page_indexable l /\ serialize_column_index specs = Err OutOfSpec).
Proof.
  intros off l specs Hs. unfold serialize_column_index.
  assert (H : (Forall page_indexable l /\ exists es, collect_res (map index_entry (filter is_data_page specs)) = Ok es) \/
    (~ Forall page_indexable l /\ collect_res (map index_entry (filter is_data_page specs)) = Err OutOfSpec)).
  { induction Hs as [|off p spec l specs H _ IH]; [left; split; [constructor|eexists; reflexivity]|].
    cbn [filter]. rewrite (is_data_page_for _ _ _ _ H). destruct (is_data p) eqn:D.
    - cbn [map collect_res]. destruct (index_entry_exact _ _ _ _ H D) as [[A [e ->]]|[A ->]]; cbn [bind].
      + destruct IH as [[B [es ->]]|[B ->]]; cbn [bind]; [left; split; [constructor; assumption|eexists; reflexivity]|].
        right. split; [|reflexivity]. intros X. exact (B (Forall_inv_tail X)).
      + right. split; [|reflexivity]. intros X. exact (A (Forall_inv X)).
    - destruct p as [d|d]; [discriminate D|]. destruct IH as [[B C]|[B C]].
      + left. split; [constructor; [exact I|exact B]|exact C].
      + right. split; [|exact C]. intros X. exact (B (Forall_inv_tail X)). }
  destruct H as [[A [es ->]]|[A ->]]; cbn [bind]; [left; split; [exact A|eexists; reflexivity]|right; split; [exact A|reflexivity]].
Qed.

Section Loop.
  Variable enc : list page_spec -> res (list N).
  Variable write : list page_spec -> writer N.
  Variable set : t_column_chunk -> option Z -> option Z -> t_column_chunk.
  Variable old : t_column_chunk -> option Z.
  Variable good : list page_spec -> Prop.
  Hypothesis W : forall p data, write p (mk_sink data None) =
    match enc p with Ok b => (mk_sink (data ++ b) None, Ok (nlen b)) | Err e => (mk_sink data None, Err e) | Panic => (mk_sink data None, Panic) end.
  Definition decided (p : list page_spec) : Prop := (good p /\ exists b, enc p = Ok b) \/ (~ good p /\ enc p = Err OutOfSpec).
  Lemma index_columns_exact : forall cs ps data, length cs = length ps -> Forall decided ps ->
    exists data' hi cs',
    ((Forall good ps /\ index_columns write set old (mk_sink data None) (nlen data) cs ps = (mk_sink data' None, hi, cs', Ok tt) /\ hi = nlen data' /\ length cs' = length ps) \/
     (~ Forall good ps /\ index_columns write set old (mk_sink data None) (nlen data) cs ps = (mk_sink data' None, hi, cs', Err OutOfSpec))).
  Proof.
    induction cs as [|c cs IH]; intros [|p ps] data Hl Hd; try discriminate Hl.
    { exists data, (nlen data), []. left. split; [constructor|]. split; [reflexivity|]. split; reflexivity. }
    cbn [index_columns]. rewrite W. destruct (Forall_inv Hd) as [[G [b ->]]|[G ->]].
    - destruct (IH ps (data ++ b)) as (data' & hi & cs' & H); [cbn [length] in Hl; lia|exact (Forall_inv_tail Hd)|].
      rewrite nlen_app in H. destruct H as [(H1 & H2 & H3 & H4)|(H1 & H2)]; rewrite H2.
      + do 3 eexists. left. split; [constructor; assumption|]. split; [reflexivity|]. split; [exact H3|cbn [length]; lia].
      + do 3 eexists. right. split; [|reflexivity]. intros X. exact (H1 (Forall_inv_tail X)).
    - do 3 eexists. right. split; [|reflexivity]. intros X. exact (G (Forall_inv X)).
  Qed.
  Lemma index_groups_exact : forall gs pss data, Forall2 (fun g ps => length (rg_columns g) = length ps) gs pss -> Forall (Forall decided) pss ->
    exists data' hi gs',
    ((Forall (Forall good) pss /\ index_groups write set old (mk_sink data None) (nlen data) gs pss = (mk_sink data' None, hi, gs', Ok tt) /\ hi = nlen data' /\
        Forall2 (fun g ps => length (rg_columns g) = length ps) gs' pss) \/
     (~ Forall (Forall good) pss /\ index_groups write set old (mk_sink data None) (nlen data) gs pss = (mk_sink data' None, hi, gs', Err OutOfSpec))).
  Proof.
    intros gs pss data Hl. revert data. induction Hl as [|g ps gs pss Hg Hl IH]; intros data Hd.
    { exists data, (nlen data), []. left. split; [constructor|]. split; [reflexivity|]. split; [reflexivity|constructor]. }
    cbn [index_groups]. destruct (index_columns_exact (rg_columns g) ps data Hg (Forall_inv Hd)) as (d1 & h1 & cs' & [(H1 & -> & -> & H4)|(H1 & ->)]).
    - destruct (IH d1 (Forall_inv_tail Hd)) as (d2 & h2 & gs' & [(I1 & -> & I3 & I4)|(I1 & ->)]).
      + do 3 eexists. left. split; [constructor; assumption|]. split; [reflexivity|]. split; [exact I3|]. constructor; [exact H4|exact I4].
      + do 3 eexists. right. split; [|reflexivity]. intros X. exact (I1 (Forall_inv_tail X)).
    - do 3 eexists. right. split; [|reflexivity]. intros X. exact (H1 (Forall_inv X)).
  Qed.
End Loop.

(** Sinks without a limit stay so. *)
Definition unlimited {A} (x : writer A) : Prop := forall s, sk_room s = None -> sk_room (fst (x s)) = None.
Lemma ul_bind {A B} (x : writer A) (f : A -> writer B) : unlimited x -> (forall a, unlimited (f a)) -> unlimited (wbind x f).
Proof. intros Hx Hf s H. unfold wbind. specialize (Hx s H). destruct (x s) as [s1 [a|e|]]; [apply Hf; exact Hx|exact Hx|exact Hx]. Qed.
Lemma ul_ret {A} (a : A) : unlimited (wret a).
Proof. intros s H. exact H. Qed.
Lemma ul_res {A} (x : res A) : unlimited (wres x).
Proof. intros s H. exact H. Qed.
Lemma ul_all b : unlimited (write_all b).
Proof. intros s H. unfold write_all. rewrite H. reflexivity. Qed.
Lemma ul_struct {X} (T : thrift X) x : unlimited (write_struct T x).
Proof. apply ul_bind; [apply ul_all|intros u; apply ul_ret]. Qed.
Lemma ul_page T off p : unlimited (write_page T off p).
Proof.
  unfold write_page. apply ul_bind; [apply ul_res|intros h]. apply ul_bind; [apply ul_struct|intros n]. apply ul_bind; [apply ul_all|intros u].
  apply ul_bind; [apply ul_res|intros st]. apply ul_bind; [apply ul_res|intros r; apply ul_ret].
Qed.
Lemma ul_pages T : forall l off, unlimited (write_pages T off l).
Proof.
  induction l as [|[p|e] l IH]; intros off; cbn [write_pages]; [apply ul_ret| |apply ul_res].
  apply ul_bind; [apply ul_page|intros sp]. apply ul_bind; [apply IH|intros sps; apply ul_ret].
Qed.
Lemma ul_columns F m : forall ds g off, unlimited (write_columns F m off ds g).
Proof.
  induction ds as [|d ds IH]; intros g off; [destruct g; apply ul_ret|]. destruct g as [|[pages|e] g]; cbn [write_columns]; [apply ul_ret| |apply ul_res].
  apply ul_bind.
  - unfold write_column_chunk. apply ul_bind; [apply ul_pages|intros specs]. apply ul_bind; [apply ul_res|intros ch].
    destruct (cc_meta ch); [|apply ul_res]. apply ul_bind; [apply ul_struct|intros n; apply ul_ret].
  - intros [[chunk specs] size]. apply ul_bind; [apply IH|intros [l last]; apply ul_ret].
Qed.
Lemma ul_row_group F m off ds g i : unlimited (write_row_group F m off ds g i).
Proof.
  unfold write_row_group. apply ul_bind; [apply ul_columns|intros [l last]]. apply ul_bind; [apply ul_res|intros rows]. apply ul_bind; [apply ul_res|intros metas; apply ul_ret].
Qed.
Lemma write_unlimited F m w g w' r : fw_write F m w g = (w', r) -> sk_room (fw_sink w) = None -> sk_room (fw_sink w') = None.
Proof.
  intros H Hs. unfold fw_write in H. destruct (maybe_start_unlimited w Hs) as (w1 & E1 & S1 & K1). rewrite E1 in H.
  pose proof (ul_row_group F m (fw_offset w1) (sd_leaves (fw_schema w1)) g (length (fw_groups w1)) (fw_sink w1) S1) as U.
  destruct (write_row_group _ _ _ _ _ _ _) as [s [[[rg sp] size]|e|]]; apply pair_inj in H as [<- _]; exact U.
Qed.
Lemma history_unlimited F m w gs w' : history F m w gs w' -> sk_room (fw_sink w) = None -> sk_room (fw_sink w') = None.
Proof. induction 1 as [w|w g w1 gs w' H1 H2 IH|w g w1 e gs w' H1 Hn H2 IH]; intros Hs; [exact Hs|apply IH; eapply write_unlimited; eassumption|apply IH; eapply write_unlimited; eassumption]. Qed.

Lemma Forall_both {A B} (P : A -> Prop) (Q : B -> Prop) l l' : Forall2 (fun a b => P a <-> Q b) l l' -> (Forall P l <-> Forall Q l').
Proof.
  induction 1 as [|a b l l' H _ IH]; [split; constructor|]. split; intros X; (constructor; [apply H; exact (Forall_inv X)|apply IH; exact (Forall_inv_tail X)]).
Qed.
Lemma Forall2_weaken {A B} (P Q : A -> B -> Prop) l l' : (forall a b, P a b -> Q a b) -> Forall2 P l l' -> Forall2 Q l l'.
Proof. intros H. induction 1; constructor; auto. Qed.
Lemma Forall2_right {A B} (P : A -> B -> Prop) (Q : B -> Prop) l l' : (forall a b, P a b -> Q b) -> Forall2 P l l' -> Forall Q l'.
Proof. intros H. induction 1; constructor; eauto. Qed.

(** The pages of a column and their specifications. *)
Definition column_specs (F : formats) (c : pages_iter + error) (specs : list page_spec) : Prop :=
  exists off, specs_for (f_header F) off (pages_of_column c) specs /\ off + nlen (chunk_bytes (f_header F) (pages_of_column c)) < 2 ^ 63.
Lemma laid_specs F file pos cols chunks specss hi : laid F file pos cols chunks specss hi -> nlen file < 2 ^ 63 -> Forall2 (column_specs F) (map snd cols) specss.
Proof.
  intros H Hf. induction H as [|pos d l meta chunk specs cols chunks specss hi Hm Hs Hd Hh Hl IH Hz]; [constructor|]. cbn [map snd]. constructor; [|exact IH].
  exists pos. rewrite pages_of_map. split; [exact Hs|]. apply holds_bound in Hh. rewrite nlen_app in Hh.
  change (2 ^ 63) with 9223372036854775808 in *. lia.
Qed.
Lemma snd_combine {A B} : forall (a : list A) (b : list B), map snd (combine a b) = firstn (length a) b.
Proof. induction a as [|x a IH]; intros [|y b]; cbn [length firstn combine map snd]; [reflexivity|reflexivity|reflexivity|rewrite IH; reflexivity]. Qed.
Lemma laid_groups_specs F m s file pos i gs rgs specsss hi : laid_groups F m (sd_leaves s) file pos i gs rgs specsss hi -> nlen file < 2 ^ 63 ->
  Forall2 (fun g specss => Forall2 (column_specs F) (schema_columns s g) specss) gs specsss.
Proof.
  intros H Hf. induction H as [|pos i g0 rg0 sp0 mid gs rgs spss hi Hl Hf' Ha Hg IH]; constructor; [|exact IH].
  unfold schema_columns. rewrite <- snd_combine. eapply laid_specs; eassumption.
Qed.
Definition able (enc : list page_spec -> res (list N)) (p : list page_spec) : Prop := exists b, enc p = Ok b.
Lemma column_index_able F c specs : column_specs F c specs ->
  decided (enc_column_index F) (able (enc_column_index F)) specs /\ (Forall page_indexable (pages_of_column c) <-> able (enc_column_index F) specs).
Proof.
  intros (off & Hs & _). unfold decided, able, enc_column_index. destruct (column_index_exact _ _ _ _ Hs) as [[A [i ->]]|[A ->]]; cbn [bind].
  - split; [left; split; eexists; reflexivity|]. split; intros _; [eexists; reflexivity|exact A].
  - split; [right; split; [intros [b X]; discriminate X|reflexivity]|]. split; [intros X; contradiction|intros [b X]; discriminate X].
Qed.
Lemma offset_index_able F m c specs : column_specs F c specs -> chunk_rows (pages_of_column c) < 2 ^ 63 ->
  decided (enc_offset_index F m) (able (enc_offset_index F m)) specs /\ (Forall (locatable (f_header F)) (pages_of_column c) <-> able (enc_offset_index F m) specs).
Proof.
  intros (off & Hs & Ho) Hr. unfold decided, able, enc_offset_index, serialize_offset_index.
  destruct (page_locations_exact _ m _ _ _ Hs 0 Hr Ho) as [A B]. change (Z.of_N 0) with 0%Z in *.
  assert (D : Forall (locatable (f_header F)) (pages_of_column c) \/ ~ Forall (locatable (f_header F)) (pages_of_column c)).
  { clear. induction (pages_of_column c) as [|p l [IH|IH]]; [left; constructor| |right; intros X; exact (IH (Forall_inv_tail X))].
    destruct p as [d|d]; [|left; constructor; [exact I|exact IH]].
    destruct (N.ltb_spec (nlen (page_bytes (f_header F) (CData d))) (2 ^ 31)) as [Hl|Hl].
    - destruct (cdp_selected d) eqn:E; [left; constructor; [split; [exact Hl|congruence]|exact IH]|].
      right. intros X. destruct (Forall_inv X) as [_ Y]. contradiction.
    - right. intros X. destruct (Forall_inv X) as [Y _]. lia. }
  destruct D as [D|D].
  - destruct (A D) as [locs ->]. cbn [bind]. split; [left; split; eexists; reflexivity|]. split; intros _; [eexists; reflexivity|exact D].
  - rewrite (B D). cbn [bind]. split; [right; split; [intros [b X]; discriminate X|reflexivity]|]. split; [intros X; contradiction|intros [b X]; discriminate X].
Qed.
Lemma write_column_index_unlimited F p data : write_column_index (f_index F) p (mk_sink data None) =
  match enc_column_index F p with Ok b => (mk_sink (data ++ b) None, Ok (nlen b)) | Err e => (mk_sink data None, Err e) | Panic => (mk_sink data None, Panic) end.
Proof. unfold write_column_index, enc_column_index, wbind, wres. destruct (serialize_column_index p); reflexivity. Qed.
Lemma write_offset_index_unlimited F m p data : write_offset_index (f_offsets F) m p (mk_sink data None) =
  match enc_offset_index F m p with Ok b => (mk_sink (data ++ b) None, Ok (nlen b)) | Err e => (mk_sink data None, Err e) | Panic => (mk_sink data None, Panic) end.
Proof. unfold write_offset_index, enc_offset_index, wbind, wres. destruct (serialize_offset_index m p); reflexivity. Qed.

Lemma fw_indexes_exact F m w gs : sk_room (fw_sink w) = None -> fw_offset w = nlen (sk_data (fw_sink w)) ->
  Forall2 (fun g p => length (rg_columns g) = length p) (fw_groups w) (fw_specs w) ->
  Forall2 (fun g specss => Forall2 (column_specs F) (schema_columns (fw_schema w) g) specss) gs (fw_specs w) ->
  Forall (rows_64 (fw_schema w)) gs ->
  (Forall (group_indexable (f_header F) (fw_statistics w) (fw_schema w)) gs /\
     exists data' gs', fw_indexes F m w = (set_progress w (mk_sink data' None) (nlen data') gs', Ok tt)) \/
  (~ Forall (group_indexable (f_header F) (fw_statistics w) (fw_schema w)) gs /\ exists w', fw_indexes F m w = (w', Err OutOfSpec)).
Proof.
  intros Hroom Hoff Hlen Hsp Hrows. destruct (fw_sink w) as [data room] eqn:Es. cbn [sk_room sk_data] in *. subst room.
  assert (C1 : Forall (Forall (decided (enc_column_index F) (able (enc_column_index F)))) (fw_specs w)).
  { eapply Forall2_right; [|exact Hsp]. cbn beta. intros g specss H. eapply Forall2_right; [|exact H]. intros c sp X. exact (proj1 (column_index_able F c sp X)). }
  assert (C2 : Forall (fun g => Forall (fun c => Forall page_indexable (pages_of_column c)) (schema_columns (fw_schema w) g)) gs <->
               Forall (Forall (able (enc_column_index F))) (fw_specs w)).
  { apply Forall_both. eapply Forall2_weaken; [|exact Hsp]. cbn beta. intros g specss H. apply Forall_both. eapply Forall2_weaken; [|exact H].
    intros c sp X. exact (proj2 (column_index_able F c sp X)). }
  assert (Hsp' : Forall2 (fun g specss => Forall2 (fun c sp => column_specs F c sp /\ chunk_rows (pages_of_column c) < 2 ^ 63) (schema_columns (fw_schema w) g) specss) gs (fw_specs w)).
  { clear - Hsp Hrows. induction Hsp as [|g sp gs sps H _ IH]; [constructor|]. constructor; [|apply IH; exact (Forall_inv_tail Hrows)].
    pose proof (Forall_inv Hrows) as Hr. unfold rows_64 in Hr. clear - H Hr. induction H as [|c x l xs H _ IH]; [constructor|].
    constructor; [split; [exact H|exact (Forall_inv Hr)]|apply IH; exact (Forall_inv_tail Hr)]. }
  assert (O1 : Forall (Forall (decided (enc_offset_index F m) (able (enc_offset_index F m)))) (fw_specs w)).
  { eapply Forall2_right; [|exact Hsp']. cbn beta. intros g specss H. eapply Forall2_right; [|exact H]. intros c sp [X Y]. exact (proj1 (offset_index_able F m c sp X Y)). }
  assert (O2 : Forall (fun g => Forall (fun c => Forall (locatable (f_header F)) (pages_of_column c)) (schema_columns (fw_schema w) g)) gs <->
               Forall (Forall (able (enc_offset_index F m))) (fw_specs w)).
  { apply Forall_both. eapply Forall2_weaken; [|exact Hsp']. cbn beta. intros g specss H. apply Forall_both. eapply Forall2_weaken; [|exact H].
    intros c sp [X Y]. exact (proj2 (offset_index_able F m c sp X Y)). }
  assert (G : Forall (group_indexable (f_header F) (fw_statistics w) (fw_schema w)) gs <->
    (Forall (fun g => Forall (fun c => Forall (locatable (f_header F)) (pages_of_column c)) (schema_columns (fw_schema w) g)) gs /\
     (fw_statistics w = true -> Forall (fun g => Forall (fun c => Forall page_indexable (pages_of_column c)) (schema_columns (fw_schema w) g)) gs))).
  { unfold group_indexable. split.
    - intros H. split; [|intros E]; (eapply Forall_impl; [|exact H]); cbn beta; intros g Hg; (eapply Forall_impl; [|exact Hg]); cbn beta; intros c Hcc;
        (eapply Forall_impl; [|exact Hcc]); cbn beta; intros p [X Y]; [exact X|exact (Y E)].
    - intros [H1 H2]. rewrite Forall_forall in *. intros g Hg. specialize (H1 g Hg). rewrite Forall_forall in *. intros c Hcc. specialize (H1 c Hcc).
      rewrite Forall_forall in *. intros p Hp. split; [exact (H1 p Hp)|]. intros E. specialize (H2 E g Hg). rewrite Forall_forall in H2. specialize (H2 c Hcc).
      rewrite Forall_forall in H2. exact (H2 p Hp). }
  rewrite G. clear G. unfold fw_indexes. rewrite Es, Hoff. destruct (fw_statistics w).
  - unfold column_indexes.
    destruct (index_groups_exact (enc_column_index F) _ set_column_index cc_column_index_length (able (enc_column_index F)) (write_column_index_unlimited F)
                (fw_groups w) (fw_specs w) data Hlen C1) as (d1 & h1 & gs1 & [(A1 & -> & -> & A4)|(A1 & ->)]).
    + unfold offset_indexes.
      destruct (index_groups_exact (enc_offset_index F m) _ set_offset_index cc_offset_index_length (able (enc_offset_index F m)) (write_offset_index_unlimited F m)
                  gs1 (fw_specs w) d1 A4 O1) as (d2 & h2 & gs2 & [(B1 & -> & -> & B4)|(B1 & ->)]).
      * left. split; [split; [apply O2; exact B1|intros _; apply C2; exact A1]|do 2 eexists; reflexivity].
      * right. split; [intros [X _]; apply B1; apply O2; exact X|eexists; reflexivity].
    + right. split; [intros [_ X]; apply A1; apply C2; exact (X eq_refl)|eexists; reflexivity].
  - unfold offset_indexes.
    destruct (index_groups_exact (enc_offset_index F m) _ set_offset_index cc_offset_index_length (able (enc_offset_index F m)) (write_offset_index_unlimited F m)
                (fw_groups w) (fw_specs w) data Hlen O1) as (d2 & h2 & gs2 & [(B1 & -> & -> & B4)|(B1 & ->)]).
    * left. split; [split; [apply O2; exact B1|discriminate]|do 2 eexists; reflexivity].
    * right. split; [intros [X _]; apply B1; apply O2; exact X|eexists; reflexivity].
Qed.

Lemma fw_end_exact F m w0 w gs kv w' r : writing F m w0 w gs -> sk_room (fw_sink w) = None -> fw_end F m w kv = (w', r) ->
  nlen (sk_data (fw_sink w')) < 2 ^ 63 -> file_rows (fw_schema w) gs < 2 ^ 63 -> Forall (rows_64 (fw_schema w)) gs ->
  (Forall (group_indexable (f_header F) (fw_statistics w) (fw_schema w)) gs ->
     (exists size, r = Ok size) \/
     (m = Checked /\ r = Panic /\ exists pre meta trailer, sk_data (fw_sink w') = pre ++ t_enc (f_file F) meta ++ trailer /\ nlen trailer = 8 /\ 2 ^ 31 <= nlen (t_enc (f_file F) meta))) /\
  (~ Forall (group_indexable (f_header F) (fw_statistics w) (fw_schema w)) gs -> r = Err OutOfSpec).
Proof.
  intros Hw Hroom E Hs Hrows H64. unfold fw_end in E. destruct (maybe_start_unlimited w Hroom) as (w1 & Es & R1 & _). rewrite Es in E.
  pose proof (maybe_start_schema _ _ _ Es) as Ks.
  assert (Kst : fw_statistics w1 = fw_statistics w).
  { unfold fw_maybe_start, fw_start in Es. destruct (fw_offset w =? 0); [|injection Es as <-; reflexivity].
    destruct (write_all magic (fw_sink w)) as [s [u|e|]]; [injection Es as <-; reflexivity|discriminate Es|discriminate Es]. }
  rewrite <- Ks, <- Kst in *.
  destruct (maybe_start_ok F m w0 w gs w1 _ Hw Es) as [_ HH]. destruct (HH eq_refl) as [(H1 & H2 & H3 & H4 & H5 & H6 & H) Hst].
  rewrite Hst in E. destruct H as [(_ & Hst' & _)|(_ & Hm & Hf & Hl)]; [congruence|].
  assert (Er : total_rows m 0 (fw_groups w1) = Ok (Z.of_N (file_rows (fw_schema w1) gs))).
  { apply (total_rows_ok m (fw_schema w1) gs (fw_groups w1)) with (acc := 0); [|exact Hrows]. eapply groups_rows_ok; [exact Hl|exact Hrows]. }
  rewrite Er in E. destruct (fw_indexes F m w1) as [w2 ri] eqn:Ei. pose proof (fw_indexes_longer _ _ _ _ _ Ei) as L12. apply longer_nlen in L12.
  assert (Hs2 : nlen (sk_data (fw_sink w2)) <= nlen (sk_data (fw_sink w'))).
  { destruct ri as [[]|e|]; [|apply pair_inj in E as [<- _]; lia|apply pair_inj in E as [<- _]; lia].
    destruct (end_file _ _ _ _) as [s [len|e|]] eqn:Ee; apply pair_inj in E as [<- _]; cbn [fw_sink set_sink]; apply grows_end_file in Ee; apply longer_nlen in Ee; exact Ee. }
  change (2 ^ 63) with 9223372036854775808 in *.
  destruct (fw_indexes_exact F m w1 gs R1 H6) as [(G & data' & gs' & G2)|(G & w3 & G2)].
  - eapply laid_groups_columns. exact Hl.
  - eapply laid_groups_specs; [exact Hl|]. change (2 ^ 63) with 9223372036854775808. lia.
  - exact H64.
  - rewrite Ei in G2. apply pair_inj in G2 as [-> ->]. split; [intros _|intros X; contradiction].
    set (meta := fw_thrift (set_progress w1 (mk_sink data' None) (nlen data') gs') (Z.of_N (file_rows (fw_schema w1) gs)) kv) in *.
    unfold end_file, wbind, write_struct, write_all, wret, wres in E. cbn [wbind sk_room sk_data set_progress fw_sink] in E.
    destruct (uadd m 64 (as_usize (as_i32 (nlen (t_enc (f_file F) meta)))) footer_size) as [len|e|] eqn:Eu.
    + apply pair_inj in E as [<- E]. cbn [fw_sink sk_data set_progress fw_offset] in *.
      destruct r as [size|e|]; [left; eexists; reflexivity| |].
      * exfalso. unfold uadd in E. destruct (_ <? 2 ^ 64) in E; [discriminate E|]. destruct m; discriminate E.
      * right. split; [unfold uadd in E; destruct (_ <? 2 ^ 64) in E; [discriminate E|destruct m; [reflexivity|discriminate E]]|]. split; [reflexivity|].
        exists data', meta, (to_le 4 (of_signed 32 (as_i32 (nlen (t_enc (f_file F) meta)))) ++ magic). rewrite <- app_assoc. split; [reflexivity|].
        split; [rewrite nlen_app; unfold nlen; rewrite to_le_length; reflexivity|].
        destruct (N.le_gt_cases (2 ^ 31) (nlen (t_enc (f_file F) meta))) as [Hb|Hb]; [exact Hb|]. exfalso. change (2 ^ 31) with 2147483648 in Hb.
        rewrite as_i32_small in Eu by exact Hb. rewrite as_usize_nonneg in Eu by lia. rewrite N2Z.id in Eu.
        unfold uadd in Eu. replace (nlen (t_enc (f_file F) meta) + footer_size <? 2 ^ 64) with true in Eu
          by (change (2 ^ 64) with 18446744073709551616; unfold footer_size; lia).
        apply Ok_inj in Eu. subst len. unfold uadd in E.
        replace (nlen data' + (nlen (t_enc (f_file F) meta) + footer_size) <? 2 ^ 64) with true in E
          by (change (2 ^ 64) with 18446744073709551616; unfold footer_size; lia).
        discriminate E.
    + exfalso. unfold uadd in Eu. destruct (_ <? 2 ^ 64) in Eu; [discriminate Eu|]. destruct m; discriminate Eu.
    + apply pair_inj in E as [<- <-]. cbn [fw_sink sk_data set_sink set_progress] in *. right.
      split; [unfold uadd in Eu; destruct (_ <? 2 ^ 64) in Eu; [discriminate Eu|destruct m; [reflexivity|discriminate Eu]]|]. split; [reflexivity|].
      exists data', meta, (to_le 4 (of_signed 32 (as_i32 (nlen (t_enc (f_file F) meta)))) ++ magic). rewrite <- app_assoc. split; [reflexivity|].
      split; [rewrite nlen_app; unfold nlen; rewrite to_le_length; reflexivity|].
      destruct (N.le_gt_cases (2 ^ 31) (nlen (t_enc (f_file F) meta))) as [Hb|Hb]; [exact Hb|]. exfalso. change (2 ^ 31) with 2147483648 in Hb.
      rewrite as_i32_small in Eu by exact Hb. rewrite as_usize_nonneg in Eu by lia. rewrite N2Z.id in Eu.
      unfold uadd in Eu. replace (nlen (t_enc (f_file F) meta) + footer_size <? 2 ^ 64) with true in Eu
        by (change (2 ^ 64) with 18446744073709551616; unfold footer_size; lia).
      discriminate Eu.
  - rewrite Ei in G2. apply pair_inj in G2 as [-> ->]. apply pair_inj in E as [_ <-]. split; [intros X; contradiction|intros _; reflexivity].
Qed.

(** ** Errors of ending *)
Section LoopErrors.
  Variable write : list page_spec -> writer N.
  Variable set : t_column_chunk -> option Z -> option Z -> t_column_chunk.
  Variable old : t_column_chunk -> option Z.
  Hypothesis W : forall p, wfails bad (write p).
  Lemma index_columns_fails : forall cs ps s pos, malformed (snd (index_columns write set old s pos cs ps)).
  Proof.
    induction cs as [|c cs IH]; intros [|p ps] s pos e; cbn [index_columns snd]; try discriminate.
    pose proof (W p s) as Wp. destruct (write p s) as [s1 [n|e'|]].
    - specialize (IH ps s1 (pos + n) e). destruct (index_columns _ _ _ s1 (pos + n) cs ps) as [[[s2 h] l] r]. exact IH.
    - cbn [snd] in *. intros X. injection X as <-. exact Wp.
    - discriminate.
  Qed.
  Lemma index_groups_fails : forall gs pss s pos, malformed (snd (index_groups write set old s pos gs pss)).
  Proof.
    induction gs as [|g gs IH]; intros [|p ps] s pos e; cbn [index_groups snd]; try discriminate.
    pose proof (index_columns_fails (rg_columns g) p s pos) as Hc. destruct (index_columns _ _ _ s pos (rg_columns g) p) as [[[s1 h1] l1] r1].
    cbn [snd] in Hc. destruct r1 as [u|e'|]; cbn [snd].
    - specialize (IH ps s1 h1 e). destruct (index_groups _ _ _ s1 h1 gs ps) as [[[s2 h] l] r]. exact IH.
    - intros X. injection X as <-. exact (Hc e' eq_refl).
    - discriminate.
  Qed.
End LoopErrors.
Lemma m_index_entry s : malformed (index_entry s).
Proof.
  unfold index_entry. destruct (ps_statistics s) as [st|]; [|intros e X; injection X; auto]. apply fails_bind.
  - intros e X. destruct st as [a|t p a|p a|p a]; cbn [serialize_statistics] in X; try discriminate X. destruct (pt_physical p); discriminate X.
  - intros t e X. destruct (ts_null_count t); [|injection X; auto]. destruct (ts_min_value t); [|discriminate X]. destruct (ts_max_value t); [discriminate X|injection X; auto].
Qed.
Lemma m_page_locations m : forall l z, malformed (page_locations m z l).
Proof.
  induction l as [|s l IH]; intros z; [intros e X; discriminate X|]. cbn [page_locations]. apply fails_bind; [intros e X; destruct (ps_offset s <? 2 ^ 63); [discriminate X|injection X; auto]|].
  intros o. apply fails_bind; [apply m_try_i32|]. intros sz. destruct (ps_num_rows s); [|intros e X; injection X; auto].
  apply fails_bind; [intros e X; exfalso; exact (sadd_no_err _ _ _ _ _ X)|]. intros nx. apply fails_bind; [apply IH|intros r e X; discriminate X].
Qed.
Lemma m_total_rows m e : forall l z, total_rows m z l <> Err e.
Proof.
  induction l as [|g l IH]; intros z; [discriminate|]. cbn [total_rows]. destruct (sadd m 64 z (rg_num_rows g)) as [x|e'|] eqn:E; cbn [bind]; [apply IH| |discriminate].
  exfalso. exact (sadd_no_err _ _ _ _ _ E).
Qed.
Lemma fw_indexes_fails F m w w' e : fw_indexes F m w = (w', Err e) -> e = OutOfSpec.
Proof.
  unfold fw_indexes. assert (A : malformed (snd (if fw_statistics w then column_indexes F (fw_sink w) (fw_offset w) (fw_groups w) (fw_specs w) else (fw_sink w, fw_offset w, fw_groups w, Ok tt)))).
  { destruct (fw_statistics w); [|intros x X; discriminate X]. apply index_groups_fails. intros p. unfold write_column_index. apply wf_bind; [|intros i; apply wf_struct].
    apply wf_res. unfold serialize_column_index. apply fails_bind; [apply m_collect_map; intros s; apply m_index_entry|intros a x X; discriminate X]. }
  destruct (if fw_statistics w then _ else _) as [[[s1 o1] g1] r1]. cbn [snd] in A. destruct r1 as [u|e1|].
  - pose proof (index_groups_fails (write_offset_index (f_offsets F) m) set_offset_index cc_offset_index_length) as B.
    unfold offset_indexes. specialize (B ltac:(intros p; unfold write_offset_index; apply wf_bind; [apply wf_res; apply m_page_locations|intros i; apply wf_struct]) g1 (fw_specs w) s1 o1).
    destruct (index_groups _ _ _ s1 o1 g1 (fw_specs w)) as [[[s2 o2] g2] r2]. cbn [snd] in B. intros X. apply pair_inj in X as [_ ->]. exact (B e eq_refl).
  - intros X. apply pair_inj in X as [_ X]. injection X as ->. exact (A e eq_refl).
  - intros X. discriminate X.
Qed.
Lemma maybe_start_state w w' : fw_maybe_start w = (w', Ok tt) -> fw_state w' <> WStarted -> fw_offset w <> 0 /\ fw_state w' = fw_state w.
Proof.
  unfold fw_maybe_start, fw_start. destruct (N.eqb_spec (fw_offset w) 0) as [Hz|Hz]; [|intros X; injection X as <-; auto].
  destruct (write_all magic (fw_sink w)) as [s [u|e|]]; intros X N; try discriminate X. injection X as <-. exfalso. apply N. reflexivity.
Qed.
Lemma fw_end_fails F m w kv w' e : fw_end F m w kv = (w', Err e) -> e = OutOfSpec \/ (e = InvalidParameter /\ fw_offset w <> 0 /\ fw_state w <> WStarted).
Proof.
  unfold fw_end. destruct (fw_maybe_start w) as [w1 [u|e1|]] eqn:E.
  - destruct u. destruct (fw_state w1) eqn:Est.
    + intros X. apply pair_inj in X as [_ X]. injection X as <-. right. destruct (maybe_start_state _ _ E) as [A B]; [congruence|]. split; [reflexivity|]. split; [exact A|congruence].
    + destruct (total_rows m 0 (fw_groups w1)) as [rows|e2|] eqn:Er; [|exfalso; exact (m_total_rows _ _ _ _ Er)|intros X; discriminate X].
      destruct (fw_indexes F m w1) as [w2 [u|e2|]] eqn:Ei.
      * assert (B : wfails bad (end_file (f_file F) m (fw_thrift w2 rows kv))).
        { unfold end_file. apply wf_bind; [apply wf_struct|intros n]. apply wf_bind; [apply wf_all|intros v]. apply wf_res. intros x X. unfold uadd in X.
          destruct (_ <? 2 ^ 64) in X; [discriminate X|]. destruct m; discriminate X. }
        specialize (B (fw_sink w2)). destruct (end_file _ _ _ _) as [s [len|e3|]].
        -- intros X. apply pair_inj in X as [_ X]. unfold uadd in X. destruct (_ <? 2 ^ 64) in X; [discriminate X|]. destruct m; discriminate X.
        -- intros X. apply pair_inj in X as [_ X]. injection X as <-. left. exact B.
        -- intros X. discriminate X.
      * intros X. apply pair_inj in X as [_ X]. injection X as <-. left. eapply fw_indexes_fails. exact Ei.
      * intros X. discriminate X.
    + intros X. apply pair_inj in X as [_ X]. injection X as <-. right. destruct (maybe_start_state _ _ E) as [A B]; [congruence|]. split; [reflexivity|]. split; [exact A|congruence].
  - intros X. apply pair_inj in X as [_ X]. injection X as <-. left. eapply maybe_start_fails. exact E.
  - intros X. discriminate X.
Qed.
