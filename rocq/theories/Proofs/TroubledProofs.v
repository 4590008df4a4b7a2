(** Histories of a file writer in which row groups failed after some of their bytes were written. *)
From Verif Require Import Base.Prelude Base.LeFacts Model.Types Model.Native Model.Thrift Model.Intervals Model.Page Model.Io Model.Statistics Model.PageWrite
  Model.ColumnWrite Model.Schema Model.PageRead Model.Metadata Model.Indexes Model.FileWrite Spec.PagesSpec Spec.ChunkSpec Spec.MetadataSpec Spec.FileSpec
  Proofs.TypesFacts Proofs.PageIoProofs Proofs.MetadataProofs Proofs.FileWriteProofs Proofs.CrashProofs.
Open Scope N_scope.

Lemma Forall2_impl {A B} (P Q : A -> B -> Prop) l l' : (forall a b, P a b -> Q a b) -> Forall2 P l l' -> Forall2 Q l l'.
Proof. intros H. induction 1; constructor; auto. Qed.
Lemma holds_shift pre garbage out pos b : nlen pre <= pos -> holds (pre ++ out) pos b -> holds (garbage ++ out) (pos - nlen pre + nlen garbage) b.
Proof.
  intros H (x & y & E & Hx). subst pos. assert (exists z, x = pre ++ z) as [z ->].
  { exists (skipn (length pre) x). assert (firstn (length pre) x = pre) as Hf.
    { apply (f_equal (firstn (length pre))) in E. rewrite !firstn_app, Nat.sub_diag, firstn_all in E. cbn [firstn] in E. rewrite app_nil_r in E.
      replace (length pre - length x)%nat with 0%nat in E by (unfold nlen in H; lia). cbn [firstn] in E. rewrite app_nil_r in E. symmetry. exact E. }
    rewrite <- Hf at 1. symmetry. apply firstn_skipn. }
  rewrite <- app_assoc in E. apply app_inv_head in E. subst out. exists (garbage ++ z), y. rewrite <- app_assoc. split; [ reflexivity | ].
  rewrite !nlen_app. lia.
Qed.
Lemma laid_behind F clean data out k : nlen data = nlen clean + k -> forall pos cols chunks specss hi,
  laid F (clean ++ out) pos cols chunks specss hi -> nlen clean <= pos -> Forall2 (chunk_behind F (data ++ out) k) cols chunks.
Proof.
  intros Hk. induction 1 as [|pos d l meta chunk specs cols chunks specss hi Hm Hs Hd Hh Hl IH Hz]; intros Hpos; [ constructor | ].
  constructor; [ | apply IH; lia ]. exists l, meta. split; [ reflexivity | ]. split; [ exact Hm | ].
  split; [ | split; [ eapply chunk_length_describes; exact Hd | exists pos; exact Hd ] ].
  intros Hne. rewrite (chunk_start_describes _ _ _ _ _ Hd). apply holds_split in Hh as [Hh _]. destruct l; [ congruence | ].
  apply (holds_shift _ data) in Hh; [ | exact Hpos ]. replace (pos + k) with (pos - nlen clean + nlen data) by lia. exact Hh.
Qed.
Lemma behind_longer F file more k x c : chunk_behind F file k x c -> chunk_behind F (file ++ more) k x c.
Proof.
  intros (pages & meta & H1 & H2 & H3 & H4). exists pages, meta. repeat (split; [ assumption | ]). split; [ | assumption ]. intro H. apply holds_app. auto.
Qed.
Lemma behind_meta F file k x c c' : cc_meta c' = cc_meta c -> chunk_behind F file k x c -> chunk_behind F file k x c'.
Proof. intros E (pages & meta & H1 & H2 & H3). exists pages, meta. rewrite E. auto. Qed.

(** A writer on a reliable sink, with the writer it would be without the bytes that were left behind. *)
Definition trouble (F : formats) (m : mode) (w0 w : file_writer) (l : list (row_group_iter * N)) (k : N) : Prop :=
  exists data clean, fw_sink w = mk_sink data None /\ writing F m w0 (set_sink w (mk_sink clean None)) (map fst l) /\ nlen data = nlen clean + k /\
    (clean = [] <-> data = []) /\ (exists t, clean <> [] -> data = [80; 65; 82; 49] ++ t) /\
    Forall2 (fun x rg => Forall2 (chunk_behind F data (snd x)) (combine (sd_leaves (fw_schema w)) (fst x)) (rg_columns rg)) l (fw_groups w).

Lemma writing_nonempty F m w0 w gs : writing F m w0 w gs -> fw_offset w = nlen (sk_data (fw_sink w)).
Proof. intros (_ & _ & _ & _ & _ & H & _). exact H. Qed.

(** After the start both are started. *)
Lemma trouble_start F m w0 w l k : trouble F m w0 w l k ->
  exists w1, fw_maybe_start w = (w1, Ok tt) /\ trouble F m w0 w1 l k /\ fw_offset w1 <> 0 /\ fw_schema w1 = fw_schema w /\
    sk_data (fw_sink w1) = match sk_data (fw_sink w) with [] => [80; 65; 82; 49] | d => d end.
Proof.
  intros (data & clean & Hs & Hw & Hk & Hne & Ht & Hf). pose proof (writing_nonempty _ _ _ _ _ Hw) as Ho. cbn [set_sink fw_offset fw_sink sk_data] in Ho.
  unfold fw_maybe_start, fw_start. rewrite Ho, Hs. destruct clean as [|b clean].
  - change (nlen (@nil N) =? 0) with true. cbn [write_all sk_room sk_data]. eexists. split; [ reflexivity | ].
    assert (data = []) as -> by (apply Hne; reflexivity). split; [ | split; [ discriminate | split; reflexivity ] ].
    exists [80; 65; 82; 49], [80; 65; 82; 49]. cbn [fw_sink fw_schema fw_groups]. split; [ reflexivity | ].
    split; [ | split; [ change (nlen (@nil N)) with 0 in Hk; lia | split; [ split; discriminate | split; [ exists []; reflexivity | ] ] ] ].
    + destruct (fw_maybe_start (set_sink w (mk_sink [] None))) as [w1 r] eqn:E. destruct (maybe_start_ok _ _ _ _ _ _ _ Hw E) as [_ HH].
      unfold fw_maybe_start, fw_start in E. cbn [set_sink fw_offset fw_sink fw_schema fw_statistics fw_version fw_created_by fw_groups fw_specs fw_metadata] in E.
      rewrite Ho in E. change (nlen (@nil N) =? 0) with true in E. cbn [write_all sk_room sk_data] in E. apply pair_inj in E as [<- <-].
      exact (proj1 (HH eq_refl)).
    + destruct Hw as (_ & _ & _ & _ & _ & _ & [(_ & _ & E & Eg & _)|(_ & Hm & _)]).
      * cbn [set_sink fw_groups] in Eg. rewrite Eg in *. destruct l; [ constructor | discriminate E ].
      * cbn [set_sink fw_sink sk_data] in Hm. apply holds_bound in Hm. change (nlen magic) with 4 in Hm. change (nlen (@nil N)) with 0 in Hm. lia.
  - replace (nlen (b :: clean) =? 0) with false by (unfold nlen; cbn [length]; lia). exists w. split; [ reflexivity | ].
    split; [ exists data, (b :: clean); auto 10 | ]. split; [ rewrite Ho; unfold nlen; cbn [length]; lia | ]. split; [ reflexivity | ].
    rewrite Hs. cbn [sk_data]. destruct data; [ destruct Hne as [_ Hne]; discriminate (Hne eq_refl) | reflexivity ].
Qed.

(** What a write does once the file was started. *)
Lemma fw_write_started F m w g : fw_offset w <> 0 -> fw_write F m w g =
  match write_row_group F m (fw_offset w) (sd_leaves (fw_schema w)) g (length (fw_groups w)) (fw_sink w) with
  | (s, Ok (group, specs, size)) =>
      (mk_fw s (fw_schema w) (fw_statistics w) (fw_version w) (fw_created_by w) (fw_offset w + size) (fw_groups w ++ [group])
         (fw_specs w ++ [specs]) (fw_state w) (fw_metadata w), Ok tt)
  | (s, Err e) => (set_sink w s, Err e)
  | (s, Panic) => (set_sink w s, Panic)
  end.
Proof. intros H. unfold fw_write, fw_maybe_start. replace (fw_offset w =? 0) with false by lia. reflexivity. Qed.
Lemma fw_write_start F m w w1 g : fw_maybe_start w = (w1, Ok tt) -> fw_offset w1 <> 0 -> fw_write F m w g = fw_write F m w1 g.
Proof. intros H Ho. rewrite (fw_write_started _ _ _ _ Ho). unfold fw_write. rewrite H. reflexivity. Qed.

Lemma trouble_ok F m w0 w l k g w1 : trouble F m w0 w l k -> fw_write F m w g = (w1, Ok tt) -> nlen (sk_data (fw_sink w1)) < 2 ^ 63 ->
  trouble F m w0 w1 (l ++ [(g, k)]) k.
Proof.
  intros Ht E Hs. destruct (trouble_start _ _ _ _ _ _ Ht) as (w2 & Es & Ht2 & Ho & _ & _). rewrite (fw_write_start _ _ _ _ _ Es Ho) in E. clear Ht Es.
  destruct Ht2 as (data & clean & Hd & Hw & Hk & Hne & [t Hpre] & Hf).
  destruct (steady_write_row_group F m (fw_offset w2) (sd_leaves (fw_schema w2)) g (length (fw_groups w2))) as (out & r & S & _).
  assert (E' : exists wc, fw_write F m (set_sink w2 (mk_sink clean None)) g = (set_sink wc (mk_sink (clean ++ out) None), Ok tt) /\ w1 = set_sink wc (mk_sink (data ++ out) None) /\
     exists rg specss, fw_groups wc = fw_groups w2 ++ [rg] /\ fw_schema wc = fw_schema w2 /\
       exists s size, write_row_group F m (fw_offset w2) (sd_leaves (fw_schema w2)) g (length (fw_groups w2)) (mk_sink clean None) = (s, Ok (rg, specss, size)) /\ s = mk_sink (clean ++ out) None).
  { rewrite fw_write_started in E by exact Ho. rewrite fw_write_started by exact Ho. cbn [set_sink fw_offset fw_schema fw_groups fw_sink fw_statistics fw_version fw_created_by fw_specs fw_state fw_metadata].
    rewrite Hd, S in E. rewrite S. destruct r as [[[rg sp] n]|e|]; apply pair_inj in E as [E1 E2]; try discriminate E2.
    exists w1. rewrite <- E1. split; [ reflexivity | ]. split; [ reflexivity | ]. exists rg, sp. split; [ reflexivity | ]. split; [ reflexivity | ].
    do 2 eexists. split; reflexivity. }
  destruct E' as (wc & Ec & -> & rg & specss & Eg & Esch & s & size & Er & Hsk).
  assert (Hlen : nlen (sk_data (mk_sink (clean ++ out) None)) < 2 ^ 63).
  { cbn [set_sink fw_sink sk_data] in *. rewrite nlen_app in *. lia. }
  exists (data ++ out), (clean ++ out). cbn [set_sink fw_sink fw_schema fw_groups]. split; [ reflexivity | ].
  split. { rewrite map_app. cbn [map fst]. apply (writing_ok F m w0 _ g _ (map fst l) Hw Ec). exact Hlen. }
  split; [ rewrite !nlen_app; lia | ].
  assert (Hcne : clean <> []). { pose proof (writing_nonempty _ _ _ _ _ Hw) as H. cbn [set_sink fw_offset fw_sink sk_data] in H. intros ->. apply Ho. rewrite H. reflexivity. }
  split. { split; intros H; apply app_eq_nil in H as [H _]; [ congruence | apply Hne in H; congruence ]. }
  split. { exists (t ++ out). intros _. rewrite (Hpre Hcne). rewrite <- app_assoc. reflexivity. }
  rewrite Eg, Esch. apply Forall2_app.
  - eapply Forall2_impl; [ | exact Hf ]. intros x rg' H. eapply Forall2_impl; [ | exact H ]. intros. apply behind_longer. assumption.
  - constructor; [ | constructor ]. cbn [fst snd]. pose proof (writing_nonempty _ _ _ _ _ Hw) as Hoff. cbn [set_sink fw_offset fw_sink sk_data] in Hoff.
    subst s; apply write_row_group_ok in Er; [ | exact Hoff | exact Hlen ]. destruct Er as (_ & El & _). cbn [sk_data] in El.
    eapply laid_behind; [ exact Hk | exact El | rewrite Hoff; lia ].
Qed.

Lemma trouble_failed F m w0 w l k g w1 e : trouble F m w0 w l k -> fw_write F m w g = (w1, Err e) -> trouble F m w0 w1 l (k + left_behind w w1).
Proof.
  intros Ht E. unfold left_behind. destruct (trouble_start _ _ _ _ _ _ Ht) as (w2 & Es & Ht2 & Ho & _ & Ed). rewrite (fw_write_start _ _ _ _ _ Es Ho) in E. rewrite <- Ed. clear Ht Es Ed.
  destruct Ht2 as (data & clean & Hd & Hw & Hk & Hne & [t Hpre] & Hf).
  destruct (steady_write_row_group F m (fw_offset w2) (sd_leaves (fw_schema w2)) g (length (fw_groups w2))) as (out & r & S & _).
  rewrite fw_write_started in E by exact Ho. rewrite Hd, S in E. destruct r as [[[rg sp] n]|e'|]; apply pair_inj in E as [<- E]; try discriminate E.
  assert (Hcne : clean <> []). { pose proof (writing_nonempty _ _ _ _ _ Hw) as H. cbn [set_sink fw_offset fw_sink sk_data] in H. intros ->. apply Ho. rewrite H. reflexivity. }
  exists (data ++ out), clean. cbn [set_sink fw_sink fw_schema fw_groups sk_data]. rewrite Hd. cbn [sk_data].
  split; [ reflexivity | ]. split; [ exact Hw | ]. split; [ rewrite nlen_app; lia | ].
  split. { split; intros H; [ congruence | apply app_eq_nil in H as [H _]; apply Hne in H; congruence ]. }
  split. { exists (t ++ out). intros _. rewrite (Hpre Hcne). rewrite <- app_assoc. reflexivity. }
  eapply Forall2_impl; [ | exact Hf ]. intros x rg' H. eapply Forall2_impl; [ | exact H ]. intros. apply behind_longer. assumption.
Qed.

Lemma troubled_longer F m w k l w' k' : troubled F m w k l w' k' -> longer (fw_sink w) (fw_sink w').
Proof. induction 1; [ apply longer_refl | | ]; eapply longer_trans; try eassumption; eapply fw_write_longer; eassumption. Qed.
Lemma troubled_trouble F m w0 w k l w' k' : troubled F m w k l w' k' -> nlen (sk_data (fw_sink w')) < 2 ^ 63 ->
  forall l0, trouble F m w0 w l0 k -> trouble F m w0 w' (l0 ++ l) k'.
Proof.
  induction 1 as [w k|w k g w1 l w' k' H1 H2 IH|w k g w1 e l w' k' H1 H2 IH]; intros Hs l0 Ht.
  - rewrite app_nil_r. exact Ht.
  - replace (l0 ++ (g, k) :: l) with ((l0 ++ [(g, k)]) ++ l) by (rewrite <- app_assoc; reflexivity). apply IH; [ exact Hs | ].
    eapply trouble_ok; [ exact Ht | exact H1 | ]. pose proof (longer_nlen _ _ (troubled_longer _ _ _ _ _ _ _ H2)). lia.
  - apply IH; [ exact Hs | ]. eapply trouble_failed; eassumption.
Qed.
Lemma trouble_new F m schema st v cb : trouble F m (fw_new (mk_sink [] None) schema st v cb) (fw_new (mk_sink [] None) schema st v cb) [] 0.
Proof.
  exists [], []. split; [ reflexivity | ]. split; [ apply writing_new; reflexivity | ]. split; [ reflexivity | ]. split; [ reflexivity | ].
  split; [ exists []; congruence | constructor ].
Qed.

(** ** The end *)

Lemma index_columns_meta write set old : (forall c a b, cc_meta (set c a b) = cc_meta c) -> forall cs ps s off s' last l r,
  index_columns write set old s off cs ps = (s', last, l, r) -> Forall2 (fun c c' => cc_meta c' = cc_meta c) cs l.
Proof.
  intros Hset. assert (R : forall l : list t_column_chunk, Forall2 (fun c c' => cc_meta c' = cc_meta c) l l) by (induction l; constructor; auto).
  induction cs as [|c cs IH]; intros [|p ps] s off s' last l r H; cbn [index_columns] in H; try (injection H; intros; subst; apply R).
  destruct (write p s) as [s1 [n|e|]].
  - destruct (index_columns write set old s1 (off + n) cs ps) as [[[s2 o2] l2] r2] eqn:E. injection H; intros; subst. constructor; [ apply Hset | eapply IH; exact E ].
  - injection H; intros; subst. constructor; [ apply Hset | apply R ].
  - injection H; intros; subst. constructor; [ apply Hset | apply R ].
Qed.
Lemma index_groups_same write set old : (forall c a b, cc_meta (set c a b) = cc_meta c) -> forall gs ps s off s' last l r,
  index_groups write set old s off gs ps = (s', last, l, r) -> Forall2 same_group gs l.
Proof.
  intros Hset. induction gs as [|g gs IH]; intros [|p ps] s off s' last l r H; cbn [index_groups] in H; try (injection H; intros; subst; apply Forall2_refl_same).
  destruct (index_columns write set old s off (rg_columns g) p) as [[[s1 o1] cs] r1] eqn:Ec. apply index_columns_meta in Ec; [ | exact Hset ].
  destruct r1 as [u|e|].
  - destruct (index_groups write set old s1 o1 gs ps) as [[[s2 o2] l2] r2] eqn:E. injection H; intros; subst. constructor; [ exists cs; auto | eapply IH; exact E ].
  - injection H; intros; subst. constructor; [ exists cs; auto | apply Forall2_refl_same ].
  - injection H; intros; subst. constructor; [ exists cs; auto | apply Forall2_refl_same ].
Qed.
Lemma fw_indexes_same F m w w' r : fw_indexes F m w = (w', r) -> Forall2 same_group (fw_groups w) (fw_groups w').
Proof.
  unfold fw_indexes. destruct (if fw_statistics w then _ else _) as [[[s o] gs] r1] eqn:E.
  assert (Forall2 same_group (fw_groups w) gs) as S.
  { destruct (fw_statistics w); [ | injection E; intros; subst; apply Forall2_refl_same ]. unfold column_indexes in E. eapply index_groups_same; [ | exact E ]. reflexivity. }
  destruct r1 as [u|e|]; [ | intros H; apply pair_inj in H as [<- _]; exact S | intros H; apply pair_inj in H as [<- _]; exact S ].
  destruct (offset_indexes F m s o gs (fw_specs w)) as [[[s2 o2] gs2] r2] eqn:E2. intros H; apply pair_inj in H as [<- _]. cbn [set_progress fw_groups].
  eapply Forall2_trans_same; [ exact S | ]. unfold offset_indexes in E2. eapply index_groups_same; [ | exact E2 ]. reflexivity.
Qed.
Lemma fw_end_tail F m w kv w' size : fw_end F m w kv = (w', Ok size) ->
  exists meta middle, fw_metadata w' = Some meta /\ Forall2 same_group (fw_groups w) (fm_row_groups meta) /\
    sk_data (fw_sink w') = sk_data (fw_sink w) ++ middle ++ t_enc (f_file F) meta ++ to_le 4 (of_signed 32 (as_i32 (nlen (t_enc (f_file F) meta)))) ++ magic.
Proof.
  unfold fw_end. destruct (fw_maybe_start w) as [w1 r] eqn:Es. pose proof (fw_maybe_start_longer _ _ _ Es) as L1.
  assert (Eg : fw_groups w1 = fw_groups w).
  { unfold fw_maybe_start, fw_start in Es. destruct (fw_offset w =? 0); [ | apply pair_inj in Es as [<- _]; reflexivity ].
    destruct (write_all magic (fw_sink w)) as [s [u|e|]]; apply pair_inj in Es as [<- _]; reflexivity. }
  destruct r as [u|e|]; try discriminate. destruct (fw_state w1); try discriminate. destruct (total_rows m 0 (fw_groups w1)) as [rows|e|]; try discriminate.
  destruct (fw_indexes F m w1) as [w2 r2] eqn:Ei. pose proof (fw_indexes_longer _ _ _ _ _ Ei) as L2. pose proof (fw_indexes_same _ _ _ _ _ Ei) as Sg.
  destruct r2 as [u2|e|]; try discriminate. cbv zeta. destruct (end_file _ _ _ _) as [s [len|e|]] eqn:Ee; try discriminate.
  intros H. apply pair_inj in H as [<- _]. apply end_file_ok in Ee as [Ee _].
  destruct (longer_trans _ _ _ L1 L2) as [x Hx]. eexists _, x. cbn [fw_metadata fw_sink]. split; [ reflexivity | ].
  split; [ rewrite <- Eg; exact Sg | ]. rewrite Ee, Hx, <- !app_assoc. reflexivity.
Qed.

Lemma same_behind F file k cols rg rg' : same_group rg rg' -> Forall2 (chunk_behind F file k) cols (rg_columns rg) -> Forall2 (chunk_behind F file k) cols (rg_columns rg').
Proof.
  intros (cs & -> & H) Hf. cbn [set_columns rg_columns]. revert cs H. induction Hf as [|x c cols l H1 H2 IH]; intros cs H; inversion H as [|? c' ? l' E Hl]; subst; constructor.
  - eapply behind_meta; eassumption.
  - apply IH. assumption.
Qed.

Lemma trouble_end F m w0 w l k kv w' size : trouble F m w0 w l k -> fw_end F m w kv = (w', Ok size) -> nlen (sk_data (fw_sink w')) < 2 ^ 63 ->
  exists meta, fw_metadata w' = Some meta /\
    Forall2 (fun x rg => Forall2 (chunk_behind F (sk_data (fw_sink w')) (snd x)) (combine (sd_leaves (fw_schema w)) (fst x)) (rg_columns rg)) l (fm_row_groups meta) /\
    (nlen (t_enc (f_file F) meta) < 2 ^ 31 -> size + k = nlen (sk_data (fw_sink w')) /\
      (reads_back (f_file F) (2 * (nlen (t_enc (f_file F) meta) + 8) + 1024) meta -> read_metadata (f_file F) m (sk_data (fw_sink w')) = file_from_thrift m meta)).
Proof.
  intros Ht E Hs. destruct (trouble_start _ _ _ _ _ _ Ht) as (w1 & Es & Ht1 & Ho & <- & _).
  assert (E1 : fw_end F m w1 kv = (w', Ok size)).
  { rewrite <- E. unfold fw_end. rewrite Es. unfold fw_maybe_start. replace (fw_offset w1 =? 0) with false by lia. reflexivity. }
  clear E Es Ht. rename E1 into E. destruct Ht1 as (data & clean & Hd & Hw & Hk & Hne & [t Hpre] & Hf).
  destruct (fw_end_tail _ _ _ _ _ _ E) as (meta & middle & Hmeta & Hsame & Hfile).
  destruct (steady_fw_end F m kv w1) as (out & wc & r & S & _).
  pose proof (S data) as Sd. rewrite <- Hd, set_same in Sd. cbv beta in Sd. rewrite E in Sd. apply pair_inj in Sd as [-> <-].
  pose proof (S clean) as Sc. cbv beta in Sc. cbn [set_sink fw_sink sk_data fw_metadata] in *.
  exists meta. split; [ exact Hmeta | ]. split.
  - rewrite Hd in *. cbn [sk_data] in *. clear - Hf Hsame. revert Hsame. generalize (fm_row_groups meta) as rgs. induction Hf as [|x rg l rgs H1 H2 IH]; intros rgs' H; inversion H as [|? rg' ? l' Hs Hl]; subst; constructor.
    + eapply same_behind; [ exact Hs | ]. eapply Forall2_impl; [ | exact H1 ]. intros. apply behind_longer. assumption.
    + apply IH. assumption.
  - intros Hlen.
    assert (Hsize : size = nlen (clean ++ out)).
    { assert (Hs' : nlen (sk_data (fw_sink (set_sink wc (mk_sink (clean ++ out) None)))) < 2 ^ 63) by (cbn [set_sink fw_sink sk_data]; rewrite nlen_app in *; lia).
      destruct (writing_end F m w0 _ (map fst l) kv _ size Hw Sc Hs') as (meta' & Hm' & _ & _ & _ & Hz). cbn [set_sink fw_metadata fw_sink sk_data] in *.
      assert (meta' = meta) as -> by congruence. apply Hz. exact Hlen. }
    split; [ rewrite Hsize, !nlen_app; lia | ]. intros [_ Hback].
    rewrite Hfile. rewrite Hd. cbn [sk_data].
    assert (Hsg : of_signed 32 (as_i32 (nlen (t_enc (f_file F) meta))) = nlen (t_enc (f_file F) meta)).
    { rewrite as_i32_small by (change (2 ^ 31) with 2147483648 in Hlen; exact Hlen). unfold of_signed. change (2 ^ Z.of_N 32)%Z with 4294967296%Z.
      change (2 ^ 31) with 2147483648 in Hlen. rewrite Z.mod_small by lia. apply N2Z.id. }
    rewrite Hsg. rewrite app_assoc. set (pre := data ++ middle).
    assert (Hp : 4 <= nlen pre).
    { unfold pre. rewrite Hpre; [ rewrite !nlen_app; change (nlen [80; 65; 82; 49]) with 4; lia | ]. intros ->. apply Ho.
      rewrite (writing_nonempty _ _ _ _ _ Hw : fw_offset w1 = _). reflexivity. }
    destruct (framed_file pre (t_enc (f_file F) meta) Hp Hlen) as [Hf1 Hf2]. rewrite (with_size_exact _ _ _ Hf1), Hf2. unfold deserialize_metadata.
    replace (2 * nlen _ + 1024) with (2 * (nlen (t_enc (f_file F) meta) + 8) + 1024).
    2: { rewrite !nlen_app. change (nlen magic) with 4. unfold nlen at 3. rewrite to_le_length. lia. }
    rewrite Hback. reflexivity.
Qed.
