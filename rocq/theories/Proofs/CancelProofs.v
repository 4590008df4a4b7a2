(** Histories of an asynchronous writer in which calls were dropped. *)
From Verif Require Import Base.Prelude Base.LeFacts Model.Types Model.Native Model.Thrift Model.Intervals Model.Page Model.Io Model.Statistics Model.PageWrite
  Model.ColumnWrite Model.Schema Model.PageRead Model.Metadata Model.Indexes Model.FileWrite Model.Cancel Spec.PagesSpec Spec.ChunkSpec Spec.MetadataSpec
  Spec.FileSpec Spec.CancelSpec
  Proofs.TypesFacts Proofs.PageIoProofs Proofs.MetadataProofs Proofs.ColumnWriteProofs Proofs.FileWriteProofs Proofs.CrashProofs Proofs.TroubledProofs Proofs.IndexProofs.
Open Scope N_scope.

Inductive Forall3 {A B C} (P : A -> B -> C -> Prop) : list A -> list B -> list C -> Prop :=
| Forall3_nil : Forall3 P [] [] []
| Forall3_cons a b c la lb lc : P a b c -> Forall3 P la lb lc -> Forall3 P (a :: la) (b :: lb) (c :: lc).
Lemma Forall3_app {A B C} (P : A -> B -> C -> Prop) la lb lc la' lb' lc' : Forall3 P la lb lc -> Forall3 P la' lb' lc' -> Forall3 P (la ++ la') (lb ++ lb') (lc ++ lc').
Proof. induction 1; intros; [ assumption | ]. cbn [app]. constructor; auto. Qed.
Lemma Forall3_impl {A B C} (P Q : A -> B -> C -> Prop) la lb lc : (forall a b c, P a b c -> Q a b c) -> Forall3 P la lb lc -> Forall3 Q la lb lc.
Proof. intros H. induction 1; constructor; auto. Qed.

(** A column, its chunk and its pages' specifications. *)
Definition col_ok (F : formats) (data : list N) (k : N) (x : column_descriptor * (pages_iter + error)) (c : t_column_chunk) (specs : list page_spec) : Prop :=
  exists pages meta start, snd x = inl (map inl pages) /\ cc_meta c = Some meta /\ (pages <> [] -> holds data (start + k) (chunk_bytes (f_header F) pages)) /\
    describes (f_header F) start (fst x) pages meta /\ specs_for (f_header F) start pages specs.
Definition group_ok (F : formats) (schema : schema_descriptor) (data : list N) (x : row_group_iter * N) (rg : t_row_group) (specss : list (list page_spec)) : Prop :=
  Forall3 (col_ok F data (snd x)) (combine (sd_leaves schema) (fst x)) (rg_columns rg) specss.

Lemma col_ok_behind F data k x c specs : col_ok F data k x c specs -> chunk_behind F data k x c.
Proof.
  intros (pages & meta & start & E & Em & Hh & Hd & Hs). exists pages, meta. split; [ exact E | ]. split; [ exact Em | ].
  split; [ | split; [ eapply chunk_length_describes; exact Hd | exists start; exact Hd ] ].
  intros Hne. rewrite (chunk_start_describes _ _ _ _ _ Hd). destruct pages; [ congruence | auto ].
Qed.
Lemma col_ok_longer F data more k x c specs : col_ok F data k x c specs -> col_ok F (data ++ more) k x c specs.
Proof.
  intros (pages & meta & start & E & Em & Hh & Hd & Hs). exists pages, meta, start. split; [ exact E | ]. split; [ exact Em | ]. split; [ | auto ].
  intros Hne. apply holds_app. auto.
Qed.
Lemma col_ok_meta F data k x c c' specs : cc_meta c' = cc_meta c -> col_ok F data k x c specs -> col_ok F data k x c' specs.
Proof. intros E (pages & meta & start & H1 & H2 & H3). exists pages, meta, start. rewrite E. auto. Qed.
Lemma group_ok_longer F schema data more x rg specss : group_ok F schema data x rg specss -> group_ok F schema (data ++ more) x rg specss.
Proof. unfold group_ok. apply Forall3_impl. intros. apply col_ok_longer. assumption. Qed.
Lemma group_ok_same F schema data x rg rg' specss : same_group rg rg' -> group_ok F schema data x rg specss -> group_ok F schema data x rg' specss.
Proof.
  intros (cs & -> & H) Hf. unfold group_ok in *. cbn [set_columns rg_columns]. revert cs H. induction Hf as [|y c sp cols l sps H1 H2 IH]; intros cs H;
    inversion H as [|? c' ? l' E Hl]; subst; constructor; [ eapply col_ok_meta; eassumption | apply IH; assumption ].
Qed.
Lemma groups_ok_same F schema data l rgs specsss : Forall3 (group_ok F schema data) l rgs specsss -> forall rgs', Forall2 same_group rgs rgs' ->
  Forall3 (group_ok F schema data) l rgs' specsss.
Proof.
  induction 1 as [|x rg sp l rgs sps H1 H2 IH]; intros rgs' H; inversion H as [|? rg' ? l' Hs Hl]; subst; constructor; [ eapply group_ok_same; eassumption | auto ].
Qed.

(** What the writer is like after any history. *)
Definition streaming (F : formats) (w0 w : file_writer) (l : list (row_group_iter * N)) : Prop :=
  fw_schema w = fw_schema w0 /\ sk_room (fw_sink w) = None /\ fw_offset w <= nlen (file_of w) /\ (fw_offset w = 0 \/ 4 <= fw_offset w) /\
  Forall3 (group_ok F (fw_schema w0) (file_of w)) l (fw_groups w) (fw_specs w).

(** Steps that record no row group: the file gets longer, and no more is counted than was added. *)
Definition counts (w w' : file_writer) : Prop :=
  fw_schema w' = fw_schema w /\ fw_specs w' = fw_specs w /\ Forall2 same_group (fw_groups w) (fw_groups w') /\
  fw_offset w <= fw_offset w' /\ (fw_offset w = 0 -> fw_offset w' = 0 \/ 4 <= fw_offset w') /\
  exists x, file_of w' = file_of w ++ x /\ fw_offset w' - fw_offset w <= nlen x.
Lemma counts_refl w : counts w w.
Proof.
  split; [ reflexivity | ]. split; [ reflexivity | ]. split; [ apply Forall2_refl_same | ]. split; [ lia | ]. split; [ auto | ]. exists []. rewrite app_nil_r. split; [ reflexivity | lia ].
Qed.
Lemma counts_trans a b c : counts a b -> counts b c -> counts a c.
Proof.
  intros (A1 & A2 & A3 & A4 & A5 & x & A6 & A7) (B1 & B2 & B3 & B4 & B5 & y & B6 & B7).
  split; [ congruence | ]. split; [ congruence | ]. split; [ eapply Forall2_trans_same; eassumption | ]. split; [ lia | ].
  split. { intros H. destruct (A5 H) as [H1|H1]; [ auto | right; lia ]. }
  exists (x ++ y). rewrite B6, A6, app_assoc. split; [ reflexivity | ]. rewrite nlen_app. lia.
Qed.
Lemma counts_sink w s : longer (fw_sink w) s -> counts w (set_sink w s).
Proof.
  intros [x Hx]. split; [ reflexivity | ]. split; [ reflexivity | ]. split; [ apply Forall2_refl_same | ]. cbn [set_sink fw_offset]. split; [ lia | ]. split; [ auto | ].
  exists x. split; [ exact Hx | lia ].
Qed.
Lemma streaming_counts F w0 w l w' : streaming F w0 w l -> counts w w' -> sk_room (fw_sink w') = None -> streaming F w0 w' l.
Proof.
  intros (H1 & H2 & H3 & H4 & H5) (A1 & A2 & A3 & A4 & A5 & x & A6 & A7) Hr.
  split; [ congruence | ]. split; [ exact Hr | ]. split. { rewrite A6, nlen_app. lia. }
  split. { destruct H4 as [H4|H4]; [ auto | right; lia ]. }
  rewrite A2. eapply groups_ok_same; [ | exact A3 ]. rewrite A6. eapply Forall3_impl; [ | exact H5 ]. intros. apply group_ok_longer. assumption.
Qed.

Lemma counts_start w w' r : fw_maybe_start w = (w', r) -> counts w w' /\ (r = Ok tt -> fw_offset w' <> 0).
Proof.
  unfold fw_maybe_start, fw_start. destruct (N.eqb_spec (fw_offset w) 0) as [E|E].
  - destruct (write_all magic (fw_sink w)) as [s [u|e|]] eqn:Ew; intros H; apply pair_inj in H as [<- <-].
    + split; [ | discriminate ]. split; [ reflexivity | ]. split; [ reflexivity | ]. split; [ apply Forall2_refl_same | ]. cbn [fw_offset]. split; [ lia | ].
      split; [ right; lia | ]. exists magic. cbn [fw_sink]. unfold file_of. cbn [fw_sink].
      unfold write_all in Ew. destruct (sk_room (fw_sink w)) as [n|]; [ destruct (nlen magic <=? n) | ]; apply pair_inj in Ew as [<- Ew]; try discriminate Ew;
        cbn [sk_data]; (split; [ reflexivity | change (nlen magic) with 4; lia ]).
    + split; [ | discriminate ]. apply counts_sink. eapply (grows_write_all magic); exact Ew.
    + split; [ | discriminate ]. apply counts_sink. eapply (grows_write_all magic); exact Ew.
  - intros H. apply pair_inj in H as [<- <-]. split; [ apply counts_refl | auto ].
Qed.

(** A write that does not succeed. *)
Lemma counts_write F m w g w' r : fw_write F m w g = (w', r) -> r <> Ok tt -> counts w w'.
Proof.
  unfold fw_write. destruct (fw_maybe_start w) as [w1 r1] eqn:E. apply counts_start in E as [C _].
  destruct r1 as [u|e|]; [ | intros H _; apply pair_inj in H as [<- _]; exact C | intros H _; apply pair_inj in H as [<- _]; exact C ].
  destruct (write_row_group _ _ _ _ _ _ _) as [s [[[rg sp] n]|e|]] eqn:Ew; intros H Hr; apply pair_inj in H as [<- <-]; [ congruence | | ];
    (eapply counts_trans; [ exact C | apply counts_sink; eapply grows_write_row_group; exact Ew ]).
Qed.

(** The loops of [end]. *)
Lemma index_columns_counts write enc set old : writes_enc write enc -> (forall p, grows (write p)) -> forall cs ps s off s' last l r,
  index_columns write set old s off cs ps = (s', last, l, r) -> off <= last /\ exists x, sk_data s' = sk_data s ++ x /\ last - off <= nlen x.
Proof.
  intros W G. induction cs as [|c cs IH]; intros [|p ps] s off s' last l r H; cbn [index_columns] in H;
    try (injection H; intros; subst; split; [ lia | exists []; rewrite app_nil_r; split; [ reflexivity | lia ] ]).
  destruct (write p s) as [s1 [n|e|]] eqn:E.
  - destruct (index_columns write set old s1 (off + n) cs ps) as [[[s2 o2] l2] r2] eqn:E2. injection H; intros; subst.
    apply IH in E2 as (Hle & x & Hx & Hn). apply W in E as (b & _ & Hb & ->). split; [ lia | ]. exists (b ++ x). rewrite Hx, Hb, <- app_assoc. split; [ reflexivity | ].
    rewrite nlen_app. lia.
  - injection H; intros; subst. destruct (G _ _ _ _ E) as [x Hx]. split; [ lia | ]. exists x. split; [ exact Hx | lia ].
  - injection H; intros; subst. destruct (G _ _ _ _ E) as [x Hx]. split; [ lia | ]. exists x. split; [ exact Hx | lia ].
Qed.
Lemma index_groups_counts write enc set old : writes_enc write enc -> (forall p, grows (write p)) -> forall gs ps s off s' last l r,
  index_groups write set old s off gs ps = (s', last, l, r) -> off <= last /\ exists x, sk_data s' = sk_data s ++ x /\ last - off <= nlen x.
Proof.
  intros W G. induction gs as [|g gs IH]; intros [|p ps] s off s' last l r H; cbn [index_groups] in H;
    try (injection H; intros; subst; split; [ lia | exists []; rewrite app_nil_r; split; [ reflexivity | lia ] ]).
  destruct (index_columns write set old s off (rg_columns g) p) as [[[s1 o1] cs] r1] eqn:Ec.
  apply (index_columns_counts write enc) in Ec as (Hle & x & Hx & Hn); [ | exact W | exact G ].
  destruct r1 as [u|e|].
  - destruct (index_groups write set old s1 o1 gs ps) as [[[s2 o2] l2] r2] eqn:E2. injection H; intros; subst.
    apply IH in E2 as (Hle2 & y & Hy & Hn2). split; [ lia | ]. exists (x ++ y). rewrite Hy, Hx, <- app_assoc. split; [ reflexivity | ]. rewrite nlen_app. lia.
  - injection H; intros; subst. split; [ lia | ]. exists x. split; [ exact Hx | lia ].
  - injection H; intros; subst. split; [ lia | ]. exists x. split; [ exact Hx | lia ].
Qed.
Lemma counts_indexes F m w w' r : fw_indexes F m w = (w', r) -> fw_offset w <> 0 -> counts w w'.
Proof.
  intros H Hne. pose proof (fw_indexes_same _ _ _ _ _ H) as S. pose proof (fw_indexes_le _ _ _ _ _ H) as L.
  assert (A : fw_schema w' = fw_schema w /\ fw_specs w' = fw_specs w /\ exists x, file_of w' = file_of w ++ x /\ fw_offset w' - fw_offset w <= nlen x).
  { unfold fw_indexes in H.
    destruct (if fw_statistics w then _ else _) as [[[s o] gs] r1] eqn:E.
    assert (A : fw_offset w <= o /\ exists x, sk_data s = sk_data (fw_sink w) ++ x /\ o - fw_offset w <= nlen x).
    { destruct (fw_statistics w).
      - unfold column_indexes in E. eapply index_groups_counts; [ apply writes_column_index | apply grows_column_index | exact E ].
      - injection E; intros; subst. split; [ lia | ]. exists []. rewrite app_nil_r. split; [ reflexivity | lia ]. }
    destruct A as (Hle & x & Hx & Hn).
    destruct r1 as [u|e|].
    - destruct (offset_indexes F m s o gs (fw_specs w)) as [[[s2 o2] gs2] r2] eqn:E2. apply pair_inj in H as [<- _]. unfold file_of. cbn [set_progress fw_schema fw_specs fw_sink fw_offset].
      unfold offset_indexes in E2. eapply index_groups_counts in E2; [ | apply writes_offset_index | apply grows_offset_index ]. destruct E2 as (Hle2 & y & Hy & Hn2).
      split; [ reflexivity | ]. split; [ reflexivity | ]. exists (x ++ y). rewrite Hy, Hx, <- app_assoc. split; [ reflexivity | ]. rewrite nlen_app. lia.
    - apply pair_inj in H as [<- _]. unfold file_of. cbn [set_progress fw_schema fw_specs fw_sink fw_offset]. split; [ reflexivity | ]. split; [ reflexivity | ]. exists x. auto.
    - apply pair_inj in H as [<- _]. unfold file_of. cbn [set_progress fw_schema fw_specs fw_sink fw_offset]. split; [ reflexivity | ]. split; [ reflexivity | ]. exists x. auto. }
  destruct A as (A1 & A2 & A3). split; [ exact A1 | ]. split; [ exact A2 | ]. split; [ exact S | ]. split; [ exact L | ]. split; [ intros; congruence | exact A3 ].
Qed.
Lemma counts_end F m w kv w' r : fs_end F m w kv = (w', r) -> counts w w'.
Proof.
  unfold fs_end. destruct (fw_maybe_start w) as [w1 r1] eqn:E. apply counts_start in E as [C Hne].
  destruct r1 as [[]|e|]; [ | intros H; apply pair_inj in H as [<- _]; exact C | intros H; apply pair_inj in H as [<- _]; exact C ].
  specialize (Hne eq_refl).
  destruct (fw_state w1); [ intros H; apply pair_inj in H as [<- _]; exact C | | intros H; apply pair_inj in H as [<- _]; exact C ].
  destruct (total_rows m 0 (fw_groups w1)) as [rows|e|]; [ | intros H; apply pair_inj in H as [<- _]; exact C | intros H; apply pair_inj in H as [<- _]; exact C ].
  destruct (fw_indexes F m w1) as [w2 r2] eqn:Ei. apply counts_indexes in Ei; [ | exact Hne ]. pose proof (counts_trans _ _ _ C Ei) as C2.
  destruct r2 as [u|e|]; [ | intros H; apply pair_inj in H as [<- _]; exact C2 | intros H; apply pair_inj in H as [<- _]; exact C2 ].
  destruct (end_file _ _ _ _) as [s [len|e|]] eqn:Ee; intros H; apply pair_inj in H as [<- _];
    (eapply counts_trans; [ exact C2 | apply counts_sink; eapply grows_end_file; exact Ee ]).
Qed.

(** ** Calls *)

Lemma reliable_self w : sk_room (fw_sink w) = None -> set_sink w (mk_sink (file_of w) None) = w.
Proof. unfold file_of. destruct w as [[data room] ? ? ? ? ? ? ? ? ?]. cbn [fw_sink sk_room]. intros ->. reflexivity. Qed.
Lemma reliable_call F m w c w' r : sk_room (fw_sink w) = None -> fs_call F m w c = (w', r) -> sk_room (fw_sink w') = None /\ file_of w' = file_of w ++ adds F m w c.
Proof.
  intros Hr E. destruct (steady_async_call F m c w) as (out & w1 & r1 & H1 & _). specialize (H1 (file_of w)). cbv beta in H1. rewrite (reliable_self w Hr) in H1.
  unfold adds. rewrite E in H1. apply pair_inj in H1 as [-> ->]. rewrite E. unfold file_of. cbn [fst set_sink fw_sink sk_room sk_data]. split; [ reflexivity | ].
  rewrite skipn_app, skipn_all, Nat.sub_diag, skipn_O. reflexivity.
Qed.
Lemma counts_rooms w w' a b : counts (with_room w a) w' -> counts w (with_room w' b).
Proof. intros (H1 & H2 & H3 & H4 & H5 & x & H6 & H7). split; [ exact H1 | ]. split; [ exact H2 | ]. split; [ exact H3 | ]. split; [ exact H4 | ]. split; [ exact H5 | ]. exists x. split; [ exact H6 | exact H7 ]. Qed.
Lemma dropped_call F m w c n : sk_room (fw_sink w) = None -> n < nlen (adds F m w c) ->
  sk_room (fw_sink (fs_dropped F m w c n)) = None /\ file_of (fs_dropped F m w c n) = file_of w ++ firstn (N.to_nat n) (adds F m w c) /\
  counts w (fs_dropped F m w c n).
Proof.
  intros Hr Hn. split; [ reflexivity | ]. destruct (fs_call F m w c) as [w1 r] eqn:E1. pose proof (reliable_call _ _ _ _ _ _ Hr E1) as [_ Ha].
  destruct (steady_async_call F m c w) as (out & w2 & r2 & H1 & H2). specialize (H1 (file_of w)). cbv beta in H1. rewrite (reliable_self w Hr) in H1.
  rewrite E1 in H1. apply pair_inj in H1 as [-> ->]. unfold file_of at 1 in Ha. cbn [set_sink fw_sink sk_data] in Ha. apply app_inv_head in Ha. subst out.
  specialize (H2 (file_of w) n). replace (nlen (adds F m w c) <=? n) with false in H2 by lia. destruct H2 as [w3 H2]. cbv beta in H2.
  change (set_sink w (mk_sink (file_of w) (Some n))) with (with_room w (Some n)) in H2.
  unfold fs_dropped. rewrite H2. cbn [fst]. split; [ reflexivity | ]. apply counts_rooms with (a := Some n). destruct c as [g|kv]; cbn [fs_call] in H2.
  - destruct (fw_write F m (with_room w (Some n)) g) as [w4 r4] eqn:Ew. apply pair_inj in H2 as [<- H2]. eapply counts_write; [ exact Ew | ]. intros ->. discriminate H2.
  - eapply counts_end. exact H2.
Qed.

(** A row group that is written. *)
Lemma laid_cols F clean data out k : nlen data = nlen clean + k -> forall pos cols chunks specss hi,
  laid F (clean ++ out) pos cols chunks specss hi -> nlen clean <= pos -> Forall3 (col_ok F (data ++ out) k) cols chunks specss.
Proof.
  intros Hk. induction 1 as [|pos d l meta chunk specs cols chunks specss hi Hm Hs Hd Hh Hl IH Hz]; intros Hpos; [ constructor | ].
  constructor; [ | apply IH; lia ]. exists l, meta, pos. split; [ reflexivity | ]. split; [ exact Hm | ]. split; [ | auto ].
  intros _. apply holds_split in Hh as [Hh _].
  apply (holds_shift _ data) in Hh; [ | exact Hpos ]. replace (pos + k) with (pos - nlen clean + nlen data) by lia. exact Hh.
Qed.
Lemma started_streaming F w0 w l w1 : streaming F w0 w l -> fw_maybe_start w = (w1, Ok tt) -> streaming F w0 w1 l /\ uncounted w1 = uncounted w /\ fw_offset w1 <> 0.
Proof.
  intros H E. destruct (counts_start _ _ _ E) as [C Hne]. split; [ | split; [ | auto ] ].
  - eapply streaming_counts; [ exact H | exact C | ]. destruct H as (_ & Hr & _). unfold fw_maybe_start, fw_start, write_all in E. rewrite Hr in E.
    destruct (fw_offset w =? 0); apply pair_inj in E as [<- _]; [ reflexivity | exact Hr ].
  - destruct H as (_ & Hr & _). unfold fw_maybe_start, fw_start, write_all in E. rewrite Hr in E. destruct (N.eqb_spec (fw_offset w) 0) as [E0|E0]; apply pair_inj in E as [<- _]; [ | reflexivity ].
    unfold uncounted, file_of. cbn [fw_sink sk_data fw_offset]. rewrite E0, nlen_app. change (nlen magic) with 4. lia.
Qed.
Lemma nlen_repeat {A} (a : A) n : nlen (repeat a (N.to_nat n)) = n.
Proof. unfold nlen. rewrite repeat_length. apply N2Nat.id. Qed.
Lemma streaming_written F m w0 w l g w1 : streaming F w0 w l -> fw_write F m w g = (w1, Ok tt) -> nlen (file_of w1) < 2 ^ 63 ->
  streaming F w0 w1 (l ++ [(g, uncounted w)]) /\ uncounted w1 = uncounted w.
Proof.
  intros H E Hlen. unfold fw_write in E. destruct (fw_maybe_start w) as [w2 r2] eqn:Es. destruct r2 as [[]|e|]; [ | discriminate E | discriminate E ].
  destruct (started_streaming _ _ _ _ _ H Es) as (H2 & <- & Hne). clear H Es w. rename w2 into w. destruct H2 as (H1 & Hr & Ho & H4 & Hg).
  set (k := uncounted w). set (clean := repeat 0 (N.to_nat (fw_offset w))).
  assert (Hc : nlen clean = fw_offset w) by apply nlen_repeat.
  assert (Hk : nlen (file_of w) = nlen clean + k) by (unfold k, uncounted; lia).
  destruct (steady_write_row_group F m (fw_offset w) (sd_leaves (fw_schema w)) g (length (fw_groups w))) as (out & r & S & _).
  pose proof (S (file_of w)) as Sd. assert (Es : mk_sink (file_of w) None = fw_sink w) by (unfold file_of; destruct (fw_sink w) as [d [n|]]; [ discriminate Hr | reflexivity ]).
  rewrite Es in Sd. rewrite Sd in E. destruct r as [[[rg sp] size]|e|]; [ | discriminate E | discriminate E ]. apply pair_inj in E as [<- _].
  unfold file_of in Hlen |- * at 1. unfold uncounted, file_of. cbn [fw_sink sk_data fw_offset] in *. rewrite nlen_app in Hlen.
  pose proof (write_row_group_ok _ _ _ _ _ _ _ _ _ _ _ (S clean) (eq_sym Hc)) as W. cbn [sk_data] in W. destruct W as (W1 & W2 & _ & _ & _); [ rewrite nlen_app; unfold file_of in Ho; lia | ].
  rewrite nlen_app in W1.
  split; [ | rewrite nlen_app; unfold k, uncounted in *; unfold file_of in *; lia ].
  split; [ exact H1 | ]. split; [ reflexivity | ]. unfold file_of. cbn [fw_sink sk_data fw_offset fw_groups fw_specs]. split; [ rewrite nlen_app; unfold file_of in *; lia | ].
  split; [ right; lia | ]. apply Forall3_app.
  - eapply Forall3_impl; [ | exact Hg ]. intros. apply group_ok_longer. assumption.
  - constructor; [ | constructor ]. unfold group_ok. cbn [fst snd]. rewrite <- H1. eapply laid_cols; [ exact Hk | exact W2 | lia ].
Qed.
Lemma streamed_longer F m w l w' : streamed F m w l w' -> sk_room (fw_sink w) = None -> sk_room (fw_sink w') = None /\ nlen (file_of w) <= nlen (file_of w').
Proof.
  induction 1 as [w|w g w1 r l w' E _ IH|w g w1 e l w' E _ IH|w kv w1 r l w' E Hp _ IH|w c n l w' Hn _ IH]; intros Hr.
  - split; [ exact Hr | lia ].
  - destruct (reliable_call _ _ _ _ _ _ Hr E) as [Hr1 Hf]. destruct (IH Hr1) as [A B]. split; [ exact A | ]. rewrite Hf, nlen_app in B. lia.
  - destruct (reliable_call _ _ _ _ _ _ Hr E) as [Hr1 Hf]. destruct (IH Hr1) as [A B]. split; [ exact A | ]. rewrite Hf, nlen_app in B. lia.
  - destruct (reliable_call _ _ _ _ _ _ Hr E) as [Hr1 Hf]. destruct (IH Hr1) as [A B]. split; [ exact A | ]. rewrite Hf, nlen_app in B. lia.
  - destruct (dropped_call _ _ _ _ _ Hr Hn) as (Hr1 & Hf & _). destruct (IH Hr1) as [A B]. split; [ exact A | ]. rewrite Hf, nlen_app in B. lia.
Qed.
Lemma streamed_streaming F m w0 w l w' : streamed F m w l w' -> nlen (file_of w') < 2 ^ 63 -> forall l0, streaming F w0 w l0 -> streaming F w0 w' (l0 ++ l).
Proof.
  induction 1 as [w|w g w1 r l w' E Hs IH|w g w1 e l w' E Hs IH|w kv w1 r l w' E Hp Hs IH|w c n l w' Hn Hs IH]; intros Hlen l0 H.
  - rewrite app_nil_r. exact H.
  - replace (l0 ++ (g, uncounted w) :: l) with ((l0 ++ [(g, uncounted w)]) ++ l) by (rewrite <- app_assoc; reflexivity). apply IH; [ exact Hlen | ].
    destruct (reliable_call _ _ _ _ _ _ (proj1 (proj2 H)) E) as [Hr1 _]. destruct (streamed_longer _ _ _ _ _ Hs Hr1) as [_ HL].
    cbn [fs_call] in E. destruct (fw_write F m w g) as [w2 r2] eqn:Ew. apply pair_inj in E as [<- E]. destruct r2 as [[]|e|]; try discriminate E.
    eapply (streaming_written F m); [ exact H | exact Ew | lia ].
  - apply IH; [ exact Hlen | ]. destruct (reliable_call _ _ _ _ _ _ (proj1 (proj2 H)) E) as [Hr1 _]. cbn [fs_call] in E.
    destruct (fw_write F m w g) as [w2 r2] eqn:Ew. apply pair_inj in E as [<- E]. eapply streaming_counts; [ exact H | eapply counts_write; [ exact Ew | intros -> ; discriminate E ] | exact Hr1 ].
  - apply IH; [ exact Hlen | ]. destruct (reliable_call _ _ _ _ _ _ (proj1 (proj2 H)) E) as [Hr1 _]. cbn [fs_call] in E. eapply streaming_counts; [ exact H | eapply counts_end; exact E | exact Hr1 ].
  - apply IH; [ exact Hlen | ]. destruct (dropped_call _ _ _ _ _ (proj1 (proj2 H)) Hn) as (Hr1 & _ & C). eapply streaming_counts; [ exact H | exact C | exact Hr1 ].
Qed.
Lemma streaming_new F schema st v cb : streaming F (fw_new (mk_sink [] None) schema st v cb) (fw_new (mk_sink [] None) schema st v cb) [].
Proof. split; [ reflexivity | ]. split; [ reflexivity | ]. split; [ cbn; lia | ]. split; [ left; reflexivity | constructor ]. Qed.

(** ** The end *)

Lemma groups_columns F schema data l rgs specsss : Forall3 (group_ok F schema data) l rgs specsss -> Forall2 (fun g p => length (rg_columns g) = length p) rgs specsss.
Proof.
  induction 1 as [|x rg sp l rgs sps H1 H2 IH]; constructor; [ | exact IH ]. unfold group_ok in H1. clear - H1. induction H1; cbn [length]; auto.
Qed.
(** Offset indexes, written from the [clean] bytes on. *)
Lemma indexed_cols F m clean data out k k' file : nlen data = nlen clean + k' -> file = data ++ out -> nlen file < 2 ^ 63 -> forall cols cs1 specss, Forall3 (col_ok F file k) cols cs1 specss ->
  forall pos cs2 hi, indexed (clean ++ out) (enc_offset_index F m) set_offset_index pos cs1 specss cs2 hi -> nlen clean <= pos ->
  pos <= hi /\ Forall2 (chunk_and_index_behind F file k k') cols cs2.
Proof.
  intros Hk Hfile Hlen. induction 1 as [|x c specs cols cs1 specss H1 H2 IH]; intros pos cs2 hi H Hpos; inversion H as [|? ? ? ? ? b cs' ? Eb Hb Hi]; subst; [ split; [ lia | constructor ] | ].
  apply IH in Hi as [Hle Hf]; [ | lia ]. split; [ lia | ]. constructor; [ | exact Hf ]. clear IH H H2 Hf.
  assert (H3 : col_ok F (data ++ out) k x (set_offset_index c (Some (as_i64 pos)) (Some (as_i32 (nlen b)))) specs) by (eapply col_ok_meta; [ reflexivity | exact H1 ]).
  split; [ eapply col_ok_behind; exact H3 | ]. intros Hrows. exists pos.
  assert (Hp : pos + k' < 2 ^ 63). { pose proof (holds_bound _ _ _ Hb). rewrite nlen_app in *. lia. }
  change (2 ^ 63) with 9223372036854775808 in Hp.
  split. { cbn [set_offset_index cc_offset_index_offset]. rewrite as_i64_small by lia. reflexivity. }
  destruct H3 as (pages & meta & start & E & Em & _ & Hd & Hs). cbn [set_offset_index cc_meta] in Em.
  unfold enc_offset_index in Eb. destruct (serialize_offset_index m specs) as [locs|e|] eqn:El; cbn [bind] in Eb; try discriminate Eb. apply Ok_inj in Eb. subst b.
  assert (locs = chunk_locations F (snd x) (set_offset_index c (Some (as_i64 pos)) (Some (as_i32 (nlen (t_enc (f_offsets F) locs)))))) as El'.
  { unfold chunk_locations. cbn [set_offset_index cc_meta]. rewrite Em, E, pages_of_map. rewrite E, pages_of_map in Hrows.
    unfold serialize_offset_index in El. apply (page_locations_for _ m _ _ _ Hs 0) in El; [ | exact Hrows ]. rewrite El.
    rewrite (chunk_start_describes _ _ _ _ _ Hd). destruct pages; reflexivity. }
  cbv zeta. rewrite <- El'. cbn [set_offset_index cc_offset_index_length]. split; [ reflexivity | ].
  apply (holds_shift _ data) in Hb; [ | exact Hpos ]. replace (pos + k') with (pos - nlen clean + nlen data) by lia. exact Hb.
Qed.
Lemma indexed_groups_cols F m schema clean data out k' file : nlen data = nlen clean + k' -> file = data ++ out -> nlen file < 2 ^ 63 -> forall l rgs1 specsss, Forall3 (group_ok F schema file) l rgs1 specsss ->
  forall pos rgs2 hi, indexed_groups (clean ++ out) (enc_offset_index F m) set_offset_index pos rgs1 specsss rgs2 hi -> nlen clean <= pos ->
  Forall2 (fun x rg => Forall2 (chunk_and_index_behind F file (snd x) k') (combine (sd_leaves schema) (fst x)) (rg_columns rg)) l rgs2.
Proof.
  intros Hk Hfile Hlen. induction 1 as [|x rg specss l rgs1 specsss H1 H2 IH]; intros pos rgs2 hi H Hpos; inversion H as [|? ? ? ? ? mid cs' gs' ? Hc Hi]; subst; [ constructor | ].
  destruct (indexed_cols F m clean data out (snd x) k' (data ++ out) Hk eq_refl Hlen _ _ _ H1 _ _ _ Hc Hpos) as [Hle Hf].
  constructor; [ exact Hf | ]. eapply IH; [ exact Hi | lia ].
Qed.
(** On the clean bytes the end is the same. *)
Lemma streaming_end F m w0 w l kv w' size : streaming F w0 w l -> fs_end F m w kv = (w', Ok size) -> nlen (file_of w') < 2 ^ 63 ->
  exists meta pre, file_of w' = pre ++ t_enc (f_file F) meta ++ to_le 4 (of_signed 32 (as_i32 (nlen (t_enc (f_file F) meta)))) ++ magic /\ 4 <= nlen pre /\
    Forall2 (fun x rg => Forall2 (chunk_and_index_behind F (file_of w') (snd x) (uncounted w)) (combine (sd_leaves (fw_schema w0)) (fst x)) (rg_columns rg)) l (fm_row_groups meta) /\
    (nlen (t_enc (f_file F) meta) < 2 ^ 31 -> size + uncounted w = nlen (file_of w') /\ uncounted w' = uncounted w + nlen (t_enc (f_file F) meta) + 8).
Proof.
  intros H E Hlen. unfold fs_end in E. destruct (fw_maybe_start w) as [w2 r2] eqn:Es. destruct r2 as [[]|e|]; [ | discriminate E | discriminate E ].
  destruct (started_streaming _ _ _ _ _ H Es) as (H2 & <- & Hne). clear H Es w. rename w2 into w. destruct H2 as (H1 & Hr & Ho & H4 & Hg).
  destruct (fw_state w); [ discriminate E | | discriminate E ]. destruct (total_rows m 0 (fw_groups w)) as [rows|e|]; [ | discriminate E | discriminate E ].
  destruct (fw_indexes F m w) as [w2 r2] eqn:Ei. destruct r2 as [[]|e|]; [ | discriminate E | discriminate E ].
  destruct (end_file _ _ _ _) as [s [len|e|]] eqn:Ee; [ | discriminate E | discriminate E ]. apply pair_inj in E as [<- E].
  change (file_of (set_sink w2 s)) with (sk_data s) in *.
  set (k := uncounted w). set (clean := repeat 0 (N.to_nat (fw_offset w))).
  assert (Hc : nlen clean = fw_offset w) by apply nlen_repeat.
  assert (Hk : nlen (file_of w) = nlen clean + k) by (unfold k, uncounted; lia).
  destruct (steady_indexes F m w) as (out & w3 & r3 & S & _).
  pose proof (S (file_of w)) as Sd. cbv beta in Sd. rewrite (reliable_self w Hr), Ei in Sd. apply pair_inj in Sd as [-> <-].
  pose proof (S clean) as Sc. cbv beta in Sc.
  apply end_file_ok in Ee as [Ee Ez]. cbn [set_sink fw_sink sk_data fw_offset] in *.
  set (meta := fw_thrift _ rows kv) in *.
  assert (Hg3 : fm_row_groups meta = fw_groups w3) by reflexivity.
  (* the indexes on the clean bytes *)
  unfold fw_indexes in Sc. cbn [set_sink fw_statistics fw_sink fw_offset fw_groups fw_specs] in Sc.
  destruct (if fw_statistics w then column_indexes F (mk_sink clean None) (fw_offset w) (fw_groups w) (fw_specs w) else (mk_sink clean None, fw_offset w, fw_groups w, Ok tt))
    as [[[s1 o1] rgs2] r1] eqn:E1.
  destruct r1 as [[]|e|]; [ | apply pair_inj in Sc as [_ Sc]; discriminate Sc | apply pair_inj in Sc as [_ Sc]; discriminate Sc ].
  destruct (offset_indexes F m s1 o1 rgs2 (fw_specs w)) as [[[s2 o2] rgs3] r2] eqn:E2. apply pair_inj in Sc as [Sc ->].
  assert (S1 : s2 = mk_sink (clean ++ out) None) by (apply (f_equal fw_sink) in Sc; exact Sc).
  assert (S2 : o2 = fw_offset w3) by (apply (f_equal fw_offset) in Sc; exact Sc).
  assert (S3 : rgs3 = fw_groups w3) by (apply (f_equal fw_groups) in Sc; exact Sc). clear Sc. subst s2 o2 rgs3.
  pose proof (groups_columns _ _ _ _ _ _ Hg) as Hcol.
  assert (A : o1 = nlen (sk_data s1) /\ Forall2 (fun g p => length (rg_columns g) = length p) rgs2 (fw_specs w) /\ Forall2 same_group (fw_groups w) rgs2 /\ fw_offset w <= o1).
  { destruct (fw_statistics w).
    - unfold column_indexes in E1. pose proof (index_groups_longer _ _ _ (grows_column_index F) _ _ _ _ _ _ _ _ E1) as L. apply longer_nlen in L. cbn [sk_data] in L.
      eapply index_groups_ok in E1; [ | apply writes_column_index | apply grows_column_index | symmetry; exact Hc | exact Hcol ].
      destruct E1 as [-> E1]. split; [ reflexivity | ]. split; [ eapply indexed_lengths; eassumption | ]. split; [ eapply indexed_same; [ | exact E1 ]; reflexivity | lia ].
    - injection E1; intros; subst. cbn [sk_data]. split; [ symmetry; exact Hc | ]. split; [ exact Hcol | ]. split; [ apply Forall2_refl_same | lia ]. }
  destruct A as (Ho1 & A2 & A3 & A4).
  unfold offset_indexes in E2. eapply index_groups_ok in E2; [ | apply writes_offset_index | apply grows_offset_index | exact Ho1 | exact A2 ]. destruct E2 as [Ho2 B].
  cbn [sk_data] in Ho2, B. rewrite nlen_app in Ho2.
  exists meta, (file_of w ++ out). split; [ rewrite Ee; reflexivity | ]. split. { rewrite nlen_app. destruct H4; [ contradiction | lia ]. }
  assert (Hfl : exists tail, sk_data s = file_of w ++ out ++ tail) by (eexists; rewrite Ee, <- app_assoc; reflexivity). destruct Hfl as [tail Hfl].
  split.
  - rewrite Hg3. apply (indexed_groups_cols F m _ clean (file_of w) (out ++ tail) k (sk_data s)) with (rgs1 := rgs2) (specsss := fw_specs w) (pos := o1) (hi := fw_offset w3);
      [ exact Hk | exact Hfl | exact Hlen | | | lia ].
    + eapply groups_ok_same; [ | exact A3 ]. rewrite Hfl. eapply Forall3_impl; [ | exact Hg ]. intros. apply group_ok_longer. assumption.
    + rewrite app_assoc. apply (indexed_groups_longer _ _ (mk_sink (clean ++ out) None) (mk_sink ((clean ++ out) ++ tail) None)); [ exists tail; reflexivity | exact B ].
  - intros Hm. change (2 ^ 31) with 2147483648 in Hm. rewrite as_i32_small in Ez, Ee by assumption. rewrite as_usize_nonneg in Ez by lia. rewrite N2Z.id in Ez.
    assert (Hs : nlen (sk_data s) = nlen (file_of w) + nlen out + (nlen (t_enc (f_file F) meta) + 8)).
    { rewrite Ee, !nlen_app. change (nlen magic) with 4. unfold nlen at 4. rewrite to_le_length. lia. }
    change (2 ^ 63) with 9223372036854775808 in Hlen.
    unfold uadd in Ez. replace (nlen (t_enc (f_file F) meta) + footer_size <? 2 ^ 64) with true in Ez
      by (change (2 ^ 64) with 18446744073709551616; unfold footer_size; lia).
    apply Ok_inj in Ez. subst len. unfold uadd in E.
    replace (fw_offset w3 + (nlen (t_enc (f_file F) meta) + footer_size) <? 2 ^ 64) with true in E
      by (change (2 ^ 64) with 18446744073709551616; unfold footer_size; lia).
    apply Ok_inj in E. subst size. unfold footer_size. split; [ lia | ]. unfold uncounted at 1. unfold file_of at 1. cbn [set_sink fw_sink fw_offset]. lia.
Qed.
Lemma opened_tail F m meta pre file : file = pre ++ t_enc (f_file F) meta ++ to_le 4 (of_signed 32 (as_i32 (nlen (t_enc (f_file F) meta)))) ++ magic -> 4 <= nlen pre ->
  nlen (t_enc (f_file F) meta) < 2 ^ 31 -> reads_back (f_file F) (2 * (nlen (t_enc (f_file F) meta) + 8) + 1024) meta -> read_metadata (f_file F) m file = file_from_thrift m meta.
Proof.
  intros -> Hp Hlen [_ Hback].
  assert (Hsg : of_signed 32 (as_i32 (nlen (t_enc (f_file F) meta))) = nlen (t_enc (f_file F) meta)).
  { rewrite as_i32_small by (change (2 ^ 31) with 2147483648 in Hlen; exact Hlen). unfold of_signed. change (2 ^ Z.of_N 32)%Z with 4294967296%Z.
    change (2 ^ 31) with 2147483648 in Hlen. rewrite Z.mod_small by lia. apply N2Z.id. }
  rewrite Hsg. destruct (framed_file pre (t_enc (f_file F) meta) Hp Hlen) as [Hf1 Hf2]. rewrite (with_size_exact _ _ _ Hf1), Hf2. unfold deserialize_metadata.
  replace (2 * nlen _ + 1024) with (2 * (nlen (t_enc (f_file F) meta) + 8) + 1024).
  2: { rewrite !nlen_app. change (nlen magic) with 4. unfold nlen at 3. rewrite to_le_length. lia. }
  rewrite Hback. reflexivity.
Qed.

(** ** What a dropped write leaves uncounted *)

Lemma dropped_write_uncounted F m w g n : sk_room (fw_sink w) = None -> fw_offset w <= nlen (file_of w) -> n < nlen (adds F m w (CWrite g)) ->
  uncounted (fs_dropped F m w (CWrite g) n) = uncounted w + (if (fw_offset w =? 0) && (4 <=? n) then n - 4 else n) /\
  fw_groups (fs_dropped F m w (CWrite g) n) = fw_groups w.
Proof.
  intros Hr Ho Hn. destruct (dropped_call _ _ _ _ _ Hr Hn) as (_ & Hf & _).
  assert (Hl : nlen (firstn (N.to_nat n) (adds F m w (CWrite g))) = n).
  { unfold nlen in *. rewrite firstn_length. lia. }
  assert (A : fw_offset (fs_dropped F m w (CWrite g) n) = (if (fw_offset w =? 0) && (4 <=? n) then 4 else fw_offset w) /\ fw_groups (fs_dropped F m w (CWrite g) n) = fw_groups w).
  { assert (Hnok : forall w', fs_call F m (with_room w (Some n)) (CWrite g) <> (w', Ok 0)).
    { intros w' E. destruct (steady_async_call F m (CWrite g) w) as (out & w2 & r2 & H1 & H2). specialize (H1 (file_of w)). cbv beta in H1. rewrite (reliable_self w Hr) in H1.
      destruct (reliable_call _ _ _ _ _ _ Hr H1) as [_ Ha]. unfold file_of at 1 in Ha. cbn [set_sink fw_sink sk_data] in Ha. apply app_inv_head in Ha. subst out.
      specialize (H2 (file_of w) n). replace (nlen (adds F m w (CWrite g)) <=? n) with false in H2 by lia. destruct H2 as [w3 H2]. cbv beta in H2.
      change (set_sink w (mk_sink (file_of w) (Some n))) with (with_room w (Some n)) in H2. rewrite H2 in E. apply pair_inj in E as [_ E]. discriminate E. }
    unfold fs_dropped. cbn [fs_call] in *. unfold fw_write in *.
    assert (B : forall w1 r, fw_maybe_start (with_room w (Some n)) = (w1, r) -> fw_groups w1 = fw_groups w /\
      (if (fw_offset w =? 0) && (n <? 4) then exists e, r = Err e /\ fw_offset w1 = fw_offset w else r = Ok tt /\ fw_offset w1 = if fw_offset w =? 0 then 4 else fw_offset w)).
    { intros w1 r. unfold fw_maybe_start, fw_start, write_all, with_room. cbn [set_sink fw_offset fw_sink sk_room sk_data]. change (nlen magic) with 4.
      destruct (fw_offset w =? 0); [ | intros E; apply pair_inj in E as [<- <-]; cbn [andb]; auto ].
      cbn [andb]. destruct (N.leb_spec 4 n); intros E; apply pair_inj in E as [<- <-].
      - replace (n <? 4) with false by lia. auto.
      - replace (n <? 4) with true by lia. split; [ reflexivity | ]. eexists. split; reflexivity. }
    destruct (fw_maybe_start (with_room w (Some n))) as [w1 r] eqn:Es. destruct (B w1 r eq_refl) as [B1 B2]. clear B.
    destruct (N.eqb_spec (fw_offset w) 0) as [E0|E0].
    - cbn [andb] in *. destruct (N.ltb_spec n 4) as [L|L].
      + replace (4 <=? n) with false by lia. destruct B2 as (e & -> & B2). cbn [fst]. unfold with_room. cbn [set_sink fw_offset fw_groups]. auto.
      + replace (4 <=? n) with true by lia. destruct B2 as (-> & B2).
        destruct (write_row_group _ _ _ _ _ _ _) as [s [[[rg sp] z]|e|]]; cbn [fst]; unfold with_room; cbn [set_sink fw_offset fw_groups]; [ | auto | auto ].
        exfalso. eapply Hnok. reflexivity.
    - cbn [andb] in *. destruct B2 as (-> & B2). destruct (write_row_group _ _ _ _ _ _ _) as [s [[[rg sp] z]|e|]]; cbn [fst]; unfold with_room; cbn [set_sink fw_offset fw_groups]; [ | auto | auto ].
      exfalso. eapply Hnok. reflexivity. }
  destruct A as [A1 A2]. split; [ | exact A2 ]. unfold uncounted. rewrite A1, Hf, nlen_app, Hl.
  destruct (N.eqb_spec (fw_offset w) 0) as [E0|E0]; cbn [andb]; [ | lia ]. destruct (N.leb_spec 4 n); lia.
Qed.
Lemma undisturbed_streamed F m w gs w' : undisturbed F m w gs w' -> nlen (file_of w') < 2 ^ 63 -> forall w0 l0, streaming F w0 w l0 -> uncounted w = 0 ->
  streamed F m w (map (fun g => (g, 0)) gs) w' /\ uncounted w' = 0.
Proof.
  assert (L : forall w gs w', undisturbed F m w gs w' -> sk_room (fw_sink w) = None -> nlen (file_of w) <= nlen (file_of w')).
  { clear. induction 1 as [w|w g w1 r gs w' E Hs IH|w g gs w' Hn Hs IH]; intros Hr; [ lia | | ].
    - destruct (reliable_call _ _ _ _ _ _ Hr E) as [Hr1 Hf]. specialize (IH Hr1). rewrite Hf, nlen_app in IH. lia.
    - destruct (dropped_call _ _ _ _ _ Hr Hn) as (Hr1 & Hf & _). specialize (IH Hr1). rewrite Hf, nlen_app in IH. lia. }
  induction 1 as [w|w g w1 r gs w' E Hs IH|w g gs w' Hn Hs IH]; intros Hlen w0 l0 H Hu.
  - split; [ constructor | exact Hu ].
  - destruct (reliable_call _ _ _ _ _ _ (proj1 (proj2 H)) E) as [Hr1 _]. pose proof (L _ _ _ Hs Hr1) as HL.
    pose proof E as E'. cbn [fs_call] in E'. destruct (fw_write F m w g) as [w2 r2] eqn:Ew. apply pair_inj in E' as [<- E']. destruct r2 as [[]|e|]; try discriminate E'.
    destruct (streaming_written F m w0 w l0 g w2 H Ew ltac:(lia)) as [H2 Hu2]. rewrite Hu in Hu2. destruct (IH Hlen _ _ H2 Hu2) as [A B].
    split; [ | exact B ]. cbn [map]. rewrite <- Hu. eapply streamed_written; [ exact E | rewrite Hu; exact A ].
  - destruct (dropped_call _ _ _ _ _ (proj1 (proj2 H)) Hn) as (Hr1 & _ & C). pose proof (streaming_counts _ _ _ _ _ H C Hr1) as H2.
    destruct (dropped_write_uncounted F m w g 0 (proj1 (proj2 H)) (proj1 (proj2 (proj2 H))) Hn) as [Hd _].
    assert (Hu2 : uncounted (fs_dropped F m w (CWrite g) 0) = 0) by (rewrite Hd, Hu; destruct (fw_offset w =? 0); reflexivity).
    destruct (IH Hlen _ _ H2 Hu2) as [A B]. split; [ | exact B ]. eapply streamed_dropped; [ exact Hn | exact A ].
Qed.
