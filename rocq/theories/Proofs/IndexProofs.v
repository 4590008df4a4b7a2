(** Lemmas about page indexes. *)
From Verif Require Import Base.Prelude Base.LeFacts Model.Types Model.Native Model.Thrift Model.Intervals Model.Page Model.Io Model.Statistics Model.PageWrite
  Model.ColumnWrite Model.Schema Model.PageRead Model.Metadata Model.Indexes Model.FileWrite Spec.StatsSpec Spec.PagesSpec Spec.ChunkSpec Spec.SchemaSpec Spec.MetadataSpec Spec.FileSpec
  Proofs.TypesFacts Proofs.IntervalsProofs Proofs.PageIoProofs Proofs.PageReadProofs Proofs.ColumnWriteProofs Proofs.CompressionProofs Proofs.SchemaProofs Proofs.MetadataProofs
  Proofs.FileWriteProofs Proofs.PlainProofs Props.Statistics.
Open Scope N_scope.

(** ** Offset indexes *)

Lemma page_locations_for T m : forall off l specs, specs_for T off l specs ->
  forall row locs, page_locations m (Z.of_N row) (filter is_data_page specs) = Ok locs -> row + chunk_rows l < 2 ^ 63 -> locs = locations T off row l.
Proof.
  induction 1 as [|off p spec l specs H _ IH]; intros row locs E Hlt.
  - cbn [filter page_locations] in E. apply Ok_inj in E. auto.
  - cbn [filter] in E. rewrite (is_data_page_for _ _ _ _ H) in E. cbn [chunk_rows fold_right locations] in *. fold (chunk_rows l) in *.
    destruct (is_data p) eqn:Ed.
    + cbn [page_locations] in E. pose proof H as (_ & _ & _ & Ho & Hb & _). rewrite Ho, Hb in E.
      destruct (off <? 2 ^ 63); [ | discriminate E ]. cbn [bind] in E. unfold try_i32 in E.
      destruct (nlen (page_bytes T p) <? 2147483648); [ | discriminate E ]. cbn [bind] in E.
      destruct (ps_num_rows spec) as [n|] eqn:En; [ | discriminate E ].
      apply (spec_rows _ _ _ _ _ H) in En as ->. change (2 ^ 63) with 9223372036854775808 in Hlt.
      rewrite as_i64_small in E by lia. rewrite sadd_ok in E by (unfold in_s; change (2 ^ (Z.of_N 64 - 1))%Z with 9223372036854775808%Z; lia).
      cbn [bind] in E. rewrite <- N2Z.inj_add in E.
      destruct (page_locations m (Z.of_N (row + page_rows p)) (filter is_data_page specs)) as [r| |] eqn:Er; cbn [bind] in E; try discriminate E.
      apply Ok_inj in E. subst locs. f_equal. apply IH; [ exact Er | change (2 ^ 63) with 9223372036854775808; lia ].
    + destruct p; [ discriminate Ed | ]. cbn [page_rows] in *. apply IH; [ exact E | lia ].
Qed.
Lemma page_locations_of T m : forall off l specs, specs_for T off l specs ->
  Forall (fun p => nlen (page_bytes T p) < 2 ^ 31) l -> Forall (fun d => cdp_selected d <> None) (data_pages l) ->
  forall row, row + chunk_rows l < 2 ^ 63 -> off + nlen (chunk_bytes T l) < 2 ^ 63 ->
  exists locs, page_locations m (Z.of_N row) (filter is_data_page specs) = Ok locs.
Proof.
  induction 1 as [|off p spec l specs H _ IH]; intros Hb Hsel row Hlt Hoff; [ eexists; reflexivity | ].
  cbn [filter]. rewrite (is_data_page_for _ _ _ _ H). cbn [chunk_rows fold_right] in *. fold (chunk_rows l) in *.
  rewrite chunk_bytes_cons, nlen_app in Hoff.
  pose proof (Forall_inv Hb) as Hb0. apply Forall_inv_tail in Hb. change (2 ^ 63) with 9223372036854775808 in *. change (2 ^ 31) with 2147483648 in *.
  destruct p as [d|d]; cbn [is_data data_pages flat_map app] in *.
  - cbn [page_locations]. pose proof (Forall_inv Hsel) as Hs. apply Forall_inv_tail in Hsel.
    pose proof H as (_ & _ & _ & Ho & Hw & _ & _ & Hr & _). rewrite Ho, Hw. change (2 ^ 63) with 9223372036854775808.
    replace (off <? 9223372036854775808) with true by lia. cbn [bind]. unfold try_i32. replace (nlen (page_bytes T (CData d)) <? 2147483648) with true by lia. cbn [bind].
    unfold page_num_rows in Hr. cbn [cp_selected] in Hr. cbn [page_rows] in *. destruct (cdp_selected d) as [ivs|]; [ | congruence ]. rewrite last_rev in *. destruct (rev ivs) as [|iv r]; [ discriminate Hr | ].
    apply Ok_inj in Hr. rewrite Hr.
    rewrite as_i64_small by lia. rewrite sadd_ok by (unfold in_s; change (2 ^ (Z.of_N 64 - 1))%Z with 9223372036854775808%Z; lia). cbn [bind].
    rewrite <- N2Z.inj_add. destruct (IH Hb Hsel (row + iv_length iv)) as (locs & ->); [ lia | lia | ]. cbn [bind]. eexists. reflexivity.
  - apply IH; [ assumption | assumption | cbn [page_rows] in Hlt; lia | lia ].
Qed.

Lemma decode_locations_ok T max : forall ls rest, Forall (reads_back T max) ls -> decode_locations T max (length ls) (concat (map (t_enc T) ls) ++ rest) = Ok ls.
Proof.
  induction ls as [|l ls IH]; intros rest H; [ reflexivity | ]. cbn [length map concat decode_locations]. destruct (Forall_inv H) as [_ Hr].
  rewrite <- app_assoc, Hr. cbn [bind]. rewrite IH by exact (Forall_inv_tail H). reflexivity.
Qed.

(** ** Where the indexes of a row group are *)

Lemma prepare_read_ok cs (o l : t_column_chunk -> option Z) pos lengths : cs <> [] ->
  (match cs with c :: _ => o (cmd_chunk c) = Some (Z.of_N pos) | [] => True end) ->
  map (fun c => l (cmd_chunk c)) cs = map (fun n => Some (Z.of_N n)) lengths ->
  prepare_read cs o l = Ok (pos, lengths).
Proof.
  intros Hne Ho Hl. unfold prepare_read. destruct cs as [|c cs]; [ congruence | ]. rewrite Ho, try_usize_of_N. cbn [bind].
  assert (E : forall (cs : list column_md) lengths, map (fun c => l (cmd_chunk c)) cs = map (fun n => Some (Z.of_N n)) lengths ->
    collect_res (map (fun c => match l (cmd_chunk c) with None => Err OutOfSpec | Some n => try_usize n end) cs) = Ok lengths).
  { clear. induction cs as [|c cs IH]; intros [|n ns] H; cbn [map collect_res] in *; try discriminate H; [ reflexivity | ].
    injection H as H1 H2. rewrite H1, try_usize_of_N. cbn [bind]. rewrite (IH _ H2). reflexivity. }
  rewrite (E _ _ Hl). reflexivity.
Qed.

(** The bytes of the indexes of one row group, one after the other. *)
Lemma indexed_bytes file enc set pos cs ps cs' hi : indexed file enc set pos cs ps cs' hi ->
  exists bs, Forall2 (fun p b => enc p = Ok b) ps bs /\ length bs = length cs' /\ hi = pos + nlen (concat bs) /\ (pos <= nlen file -> holds file pos (concat bs)).
Proof.
  induction 1 as [pos|pos c cs p ps b cs' hi He Hh Hi (bs & H1 & H2 & H3 & H4)].
  - exists []. split; [ constructor | ]. split; [ reflexivity | ]. split; [ cbn; lia | ]. apply holds_nil.
  - exists (b :: bs). split; [ constructor; assumption | ]. split; [ cbn [length]; congruence | ]. cbn [concat].
    split; [ rewrite nlen_app; lia | ]. intros _. apply holds_split. split; [ exact Hh | ]. apply H4. apply holds_bound in Hh. exact Hh.
Qed.
Lemma Forall2_length {A B} (R : A -> B -> Prop) l l' : Forall2 R l l' -> length l = length l'.
Proof. induction 1; cbn [length]; auto. Qed.
Lemma Forall2_det {A B} (f : A -> res B) l bs bs' : Forall2 (fun p b => f p = Ok b) l bs -> Forall2 (fun p b => f p = Ok b) l bs' -> bs = bs'.
Proof.
  intros H. revert bs'. induction H as [|p b l bs H1 H2 IH]; intros bs' H; inversion H as [|? b' ? bs'' H3 H4]; subst; [ reflexivity | ].
  f_equal; [ congruence | auto ].
Qed.
Lemma indexed_fields file enc set (o l : t_column_chunk -> option Z) : (forall c a b, o (set c a b) = a /\ l (set c a b) = b) ->
  forall pos cs ps cs' hi, indexed file enc set pos cs ps cs' hi -> forall bs, Forall2 (fun p b => enc p = Ok b) ps bs ->
  (match cs' with c :: _ => o c = Some (as_i64 pos) | [] => True end) /\ map l cs' = map (fun b => Some (as_i32 (nlen b))) bs.
Proof.
  intros Hs. induction 1 as [pos|pos c cs p ps b cs' hi He Hh Hi IH]; intros bs H; inversion H as [|? b' ? bs' H1 H2]; subst; [ auto | ].
  assert (b' = b) as -> by congruence. destruct (IH _ H2) as [_ IH2]. cbn [map]. rewrite IH2. destruct (Hs c (Some (as_i64 pos)) (Some (as_i32 (nlen b)))) as [-> ->]. auto.
Qed.
Lemma indexed_hi file enc set pos cs ps cs' hi : indexed file enc set pos cs ps cs' hi -> pos <= nlen file -> hi <= nlen file.
Proof. induction 1; [ auto | ]. intros _. apply IHindexed. match goal with H : holds _ _ _ |- _ => apply holds_bound in H end. lia. Qed.

Lemma indexed_groups_nth file enc set : forall pos gs ps gs' hi, indexed_groups file enc set pos gs ps gs' hi -> pos <= nlen file ->
  forall i g g', nth_error gs i = Some g -> nth_error gs' i = Some g' ->
  exists p lo mid, nth_error ps i = Some p /\ lo <= nlen file /\ indexed file enc set lo (rg_columns g) p (rg_columns g') mid.
Proof.
  induction 1 as [|pos g0 gs p ps mid cs' gs' hi H1 H2 IH]; intros Hp i g g' E1 E2; destruct i as [|i]; cbn [nth_error] in *; try discriminate.
  - injection E1 as ->. injection E2 as <-. exists p, pos, mid. cbn [set_columns rg_columns]. auto.
  - eapply IH; [ eapply indexed_hi; eassumption | exact E1 | exact E2 ].
Qed.
Lemma indexed_groups_length file enc set pos gs ps gs' hi : indexed_groups file enc set pos gs ps gs' hi -> length gs' = length gs /\ length ps = length gs.
Proof. induction 1 as [|pos g0 gs p ps mid cs' gs' hi H1 H2 [IH1 IH2]]; cbn [length]; auto. Qed.
Lemma indexed_groups_hi file enc set pos gs ps gs' hi : indexed_groups file enc set pos gs ps gs' hi -> pos <= nlen file -> hi <= nlen file.
Proof. induction 1 as [|pos g0 gs p ps mid cs' gs' hi H1 H2 IH]; [ auto | ]. intros H. apply IH. eapply indexed_hi; eassumption. Qed.
Lemma laid_groups_bound F m ds file pos i gs rgs specsss hi : laid_groups F m ds file pos i gs rgs specsss hi -> pos <= nlen file -> hi <= nlen file.
Proof. induction 1 as [|pos i g0 rg0 sp0 mid gs rgs spss hi Hl Hf Ha Hg IH]; [ auto | ]. intros H. apply IH. eapply laid_bound; eassumption. Qed.
Lemma laid_groups_nth F m ds file : forall pos i gs rgs specsss hi, laid_groups F m ds file pos i gs rgs specsss hi ->
  forall k g rg, nth_error gs k = Some g -> nth_error rgs k = Some rg ->
  exists specss lo mid, nth_error specsss k = Some specss /\ laid F file lo (combine ds g) (rg_columns rg) specss mid /\ group_fits m specss rg /\ group_at (i + k) rg.
Proof.
  induction 1 as [|pos i g0 rg0 sp0 mid gs rgs spss hi Hl Hf Ha Hg IH]; intros k g rg E1 E2; destruct k as [|k]; cbn [nth_error] in *; try discriminate.
  - injection E1 as ->. injection E2 as ->. exists sp0, pos, mid. rewrite Nat.add_0_r. auto.
  - destruct (IH _ _ _ E1 E2) as (sp & lo & mid' & H1 & H2 & H3 & H4). exists sp, lo, mid'. replace (i + S k)%nat with (S i + k)%nat by lia. auto.
Qed.

(** ** Adjacent columns *)

Lemma slice_map {A B} (f : A -> B) k n l : slice k n (map f l) = map f (slice k n l).
Proof. unfold slice. rewrite skipn_map, firstn_map. reflexivity. Qed.
Lemma slice_in {A} k n (l : list A) x : In x (slice k n l) -> In x l.
Proof.
  unfold slice. intros H. rewrite <- (firstn_skipn k l). apply in_or_app. right. rewrite <- (firstn_skipn n (skipn k l)). apply in_or_app. left. exact H.
Qed.
Lemma skipn_combine {A B} : forall k (a : list A) (b : list B), skipn k (combine a b) = combine (skipn k a) (skipn k b).
Proof. induction k as [|k IH]; intros [|x a] [|y b]; cbn [skipn combine]; try reflexivity; [ destruct (skipn k a); reflexivity | apply IH ]. Qed.
Lemma slice_combine {A B} k n (a : list A) (b : list B) : slice k n (combine a b) = combine (slice k n a) (slice k n b).
Proof. unfold slice. rewrite skipn_combine, List.combine_firstn. reflexivity. Qed.
Lemma Forall2_skipn {A B} (R : A -> B -> Prop) : forall k l l', Forall2 R l l' -> Forall2 R (skipn k l) (skipn k l').
Proof. induction k as [|k IH]; intros l l' H; [ exact H | ]. destruct H; cbn [skipn]; [ constructor | apply IH; assumption ]. Qed.
Lemma Forall2_firstn {A B} (R : A -> B -> Prop) : forall n l l', Forall2 R l l' -> Forall2 R (firstn n l) (firstn n l').
Proof. induction n as [|n IH]; intros l l' H; [ constructor | ]. destruct H; cbn [firstn]; constructor; auto. Qed.
Lemma Forall2_slice {A B} (R : A -> B -> Prop) k n l l' : Forall2 R l l' -> Forall2 R (slice k n l) (slice k n l').
Proof. intros H. apply Forall2_firstn, Forall2_skipn, H. Qed.
Lemma indexed_skipn file enc set : forall k pos cs ps cs' hi, indexed file enc set pos cs ps cs' hi -> pos <= nlen file ->
  exists lo, lo <= nlen file /\ indexed file enc set lo (skipn k cs) (skipn k ps) (skipn k cs') hi.
Proof.
  induction k as [|k IH]; intros pos cs ps cs' hi H Hp; [ exists pos; auto | ]. destruct H as [pos|pos c cs p ps b cs' hi H1 H2 H3]; cbn [skipn].
  - exists pos. split; [ exact Hp | constructor ].
  - apply (IH (pos + nlen b)); [ exact H3 | ]. apply holds_bound in H2. exact H2.
Qed.
Lemma indexed_firstn file enc set : forall n pos cs ps cs' hi, indexed file enc set pos cs ps cs' hi ->
  exists hi', indexed file enc set pos (firstn n cs) (firstn n ps) (firstn n cs') hi'.
Proof.
  induction n as [|n IH]; intros pos cs ps cs' hi H; [ exists pos; constructor | ]. destruct H as [pos|pos c cs p ps b cs' hi H1 H2 H3]; cbn [firstn].
  - exists pos. constructor.
  - destruct (IH _ _ _ _ _ H3) as [hi' H]. exists hi'. constructor; assumption.
Qed.
Lemma indexed_slice file enc set k n pos cs ps cs' hi : indexed file enc set pos cs ps cs' hi -> pos <= nlen file ->
  exists lo hi', lo <= nlen file /\ indexed file enc set lo (slice k n cs) (slice k n ps) (slice k n cs') hi'.
Proof.
  intros H Hp. destruct (indexed_skipn _ _ _ k _ _ _ _ _ H Hp) as (lo & Hlo & H'). destruct (indexed_firstn _ _ _ n _ _ _ _ _ H') as [hi' H''].
  exists lo, hi'. auto.
Qed.

(** ** Reading the page locations of a row group *)

Lemma laid_locations F m file : forall lo cols chunks specss mid, laid F file lo cols chunks specss mid ->
  forall bs, Forall2 (fun p b => enc_offset_index F m p = Ok b) specss bs ->
  Forall2 (fun x b => chunk_rows (pages_of_column (snd (fst x))) < 2 ^ 63 ->
                      b = t_enc (f_offsets F) (chunk_locations F (snd (fst x)) (snd x))) (combine cols chunks) bs.
Proof.
  induction 1 as [|pos d l meta chunk specs cols chunks specss hi Hm Hs Hd Hh Hl IH Hz]; intros bs H; inversion H as [|? b ? bs' H1 H2]; subst; [ constructor | ].
  cbn [combine]. constructor; [ | apply IH; assumption ]. cbn [fst snd]. rewrite pages_of_map. intros Hrows.
  unfold enc_offset_index in H1. destruct (serialize_offset_index m specs) as [locs| |] eqn:E; cbn [bind] in H1; try discriminate H1. apply Ok_inj in H1. subst b. f_equal.
  unfold chunk_locations. rewrite Hm, pages_of_map.
  unfold serialize_offset_index in E. apply (page_locations_for _ m _ _ _ Hs 0) in E; [ | exact Hrows ]. rewrite E.
  rewrite (chunk_start_describes _ _ _ _ _ Hd). destruct l; reflexivity.
Qed.
Lemma total_nlen (bs : list (list N)) : total (map nlen bs) = nlen (concat bs).
Proof. induction bs as [|b bs IH]; [ reflexivity | ]. cbn [map total fold_right concat]. fold (total (map nlen bs)). rewrite IH, nlen_app. reflexivity. Qed.
Lemma nlen_in_concat (bs : list (list N)) b : In b bs -> nlen b <= nlen (concat bs).
Proof. induction bs as [|x bs IH]; intros []; cbn [concat]; rewrite nlen_app; subst; [ lia | ]. apply IH in H. lia. Qed.

(** A group of columns whose indexes are stored from [lo] on is read as one block. *)
Lemma read_block file enc set o l lo cs ps cs' mid bs (cmds : list column_md) :
  indexed file enc set lo cs ps cs' mid -> (forall c a b, o (set c a b) = a /\ l (set c a b) = b) -> Forall2 (fun p b => enc p = Ok b) ps bs ->
  lo <= nlen file -> nlen file < 2 ^ 63 -> Forall (fun b => nlen b < 2 ^ 31) bs -> map o (map cmd_chunk cmds) = map o cs' -> map l (map cmd_chunk cmds) = map l cs' -> cmds <> [] ->
  prepare_read cmds o l = Ok (lo, map nlen bs) /\ read_at file lo (total (map nlen bs)) = concat bs /\ length cmds = length bs.
Proof.
  intros Hi Hset Hbs Hlo Hfile Hsz Ho Hl Hne. destruct (indexed_fields _ _ _ o l Hset _ _ _ _ _ Hi _ Hbs) as [F1 F2].
  destruct (indexed_bytes _ _ _ _ _ _ _ _ Hi) as (bs' & B1 & B2 & B3 & B4). pose proof (Forall2_det _ _ _ _ B1 Hbs) as ->.
  change (2 ^ 63) with 9223372036854775808 in *. change (2 ^ 31) with 2147483648 in *. split; [ | split ].
  - apply prepare_read_ok; [ exact Hne | | ].
    + destruct cmds as [|c cmds]; [ exact I | ]. destruct cs' as [|c' cs']; cbn [map] in Ho; [ discriminate Ho | ]. injection Ho as Ho _. rewrite Ho, F1. rewrite as_i64_small by lia. reflexivity.
    + rewrite <- (map_map cmd_chunk l), Hl, F2. rewrite map_map. apply map_ext_in. intros b Hb. rewrite Forall_forall in Hsz. rewrite as_i32_small by (apply Hsz; exact Hb). reflexivity.
  - rewrite total_nlen. apply holds_read. apply B4. exact Hlo.
  - rewrite B2. apply (f_equal (@length _)) in Hl. rewrite !map_length in Hl. exact Hl.
Qed.

Lemma combine_fst_snd {A B C} (f : B -> C -> list t_page_location) : forall (a : list A) (b : list B) (c : list C),
  map (fun x => f (snd (fst x)) (snd x)) (combine (combine a b) c) = map (fun x => f (fst x) (snd x)) (combine (firstn (length a) b) c).
Proof.
  induction a as [|x a IH]; intros [|y b] [|z c]; cbn [combine length firstn map fst snd]; try reflexivity. rewrite IH. reflexivity.
Qed.
Lemma in_combine_schema {A B} (a : list A) (b : list B) x : In x (combine a b) -> In (snd x) (firstn (length a) b).
Proof.
  revert b. induction a as [|y a IH]; intros [|z b] H; cbn [combine length firstn In] in *; try contradiction. destruct H as [<-|H]; [ left; reflexivity | right; apply IH; exact H ].
Qed.

Lemma ended_locations F m w0 gs kv file meta i g rg k n cmds : ended F m w0 gs kv file meta -> nlen file < 2 ^ 63 ->
  nth_error gs i = Some g -> nth_error (fm_row_groups meta) i = Some rg -> map cmd_chunk cmds = slice k n (rg_columns rg) ->
  (forall c, In c (slice k n (schema_columns (fw_schema w0) g)) -> chunk_rows (pages_of_column c) < 2 ^ 63) ->
  let locs := slice k n (map (fun x => chunk_locations F (fst x) (snd x)) (combine (schema_columns (fw_schema w0) g) (rg_columns rg))) in
  Forall (fun l => nlen (t_enc (f_offsets F) l) < 2 ^ 31) locs ->
  Forall (fun l => forall max, 2 * nlen (t_enc (f_offsets F) l) + 1024 <= max -> reads_back (f_offsets F) max l) locs ->
  read_pages_locations (f_offsets F) file cmds = Ok locs.
Proof.
  intros (rgs1 & rgs2 & specs & h1 & h2 & h3 & rows & Hmag & Hl & Hc & Ho & _ & _ & _ & _) Hs Eg Erg Ecmds Hrows locs Hsz Hback.
  destruct (list_eq_dec (fun a b : unit => match a, b with tt, tt => left eq_refl end) (map (fun _ => tt) cmds) []) as [En|En].
  { apply map_eq_nil in En. subst cmds. cbn [map] in Ecmds. unfold read_pages_locations. cbn [prepare_read bind]. unfold locs. rewrite slice_map, slice_combine, <- Ecmds.
    destruct (slice k n (schema_columns (fw_schema w0) g)); reflexivity. }
  assert (Hne : cmds <> []) by (intros ->; apply En; reflexivity). clear En.
  destruct (laid_groups_nth _ _ _ _ _ _ _ _ _ _ Hl _ _ _ Eg Erg) as (specss & lo & mid & Es & Hlaid & _).
  assert (Hh1 : h1 <= nlen file). { eapply laid_groups_bound; [ exact Hl | ]. apply holds_bound in Hmag. change (nlen magic) with 4 in Hmag. lia. }
  assert (Hh2 : h2 <= nlen file). { destruct (fw_statistics w0); [ eapply indexed_groups_hi; eassumption | destruct Hc as [_ ->]; exact Hh1 ]. }
  assert (exists rg2, nth_error rgs2 i = Some rg2) as [rg2 Erg2].
  { destruct (nth_error rgs2 i) eqn:E; [ eexists; reflexivity | ]. exfalso. apply nth_error_None in E. destruct (indexed_groups_length _ _ _ _ _ _ _ _ Ho) as [L _].
    assert (i < length (fm_row_groups meta))%nat by (apply nth_error_Some; congruence). lia. }
  destruct (indexed_groups_nth _ _ _ _ _ _ _ _ Ho Hh2 _ _ _ Erg2 Erg) as (p & lo2 & mid2 & Ep & Hlo2 & Hi).
  assert (p = specss) as -> by congruence.
  destruct (indexed_bytes _ _ _ _ _ _ _ _ Hi) as (bs0 & B0 & _).
  set (locs0 := map (fun x => chunk_locations F (fst x) (snd x)) (combine (schema_columns (fw_schema w0) g) (rg_columns rg))) in locs.
  set (bs := slice k n bs0). pose proof (Forall2_slice _ k n _ _ B0) as B1. fold bs in B1.
  destruct (indexed_slice _ _ _ k n _ _ _ _ _ Hi Hlo2) as (lo3 & mid3 & Hlo3 & Hi3).
  assert (Ebs : bs = map (t_enc (f_offsets F)) locs).
  { unfold bs, locs. pose proof (Forall2_slice _ k n _ _ (laid_locations _ _ _ _ _ _ _ _ Hlaid _ B0)) as Hf.
    assert (El0 : locs0 = map (fun x => chunk_locations F (snd (fst x)) (snd x)) (combine (combine (sd_leaves (fw_schema w0)) g) (rg_columns rg)))
      by (unfold locs0, schema_columns; symmetry; apply combine_fst_snd).
    rewrite El0, slice_map, map_map.
    assert (Hin : forall x, In x (slice k n (combine (combine (sd_leaves (fw_schema w0)) g) (rg_columns rg))) -> In (snd (fst x)) (slice k n (schema_columns (fw_schema w0) g))).
    { intros [[x1 x2] x3] Hx. cbn [fst snd]. rewrite slice_combine in Hx. apply in_combine_l in Hx. unfold schema_columns.
      rewrite <- combine_firstn, slice_combine in Hx. apply in_combine_r in Hx. exact Hx. }
    revert Hf Hin. generalize (slice k n bs0) (slice k n (combine (combine (sd_leaves (fw_schema w0)) g) (rg_columns rg))). intros bb xx Hf Hin.
    induction Hf as [|x b xx bb Hx Hf IH]; [ reflexivity | ]. cbn [map]. f_equal; [ | apply IH; intros y Hy; apply Hin; right; exact Hy ].
    pose proof (Hin x (or_introl eq_refl)) as Hi0. apply Hx. apply Hrows. exact Hi0. }
  destruct (read_block file _ _ cc_offset_index_offset cc_offset_index_length _ _ _ _ _ bs cmds Hi3 (fun c a b => conj eq_refl eq_refl) B1 Hlo3 Hs) as (R1 & R2 & R3);
    [ rewrite Ebs; apply Forall_map; exact Hsz | rewrite Ecmds; reflexivity | rewrite Ecmds; reflexivity | exact Hne | ].
  unfold read_pages_locations. rewrite R1. cbn [bind]. rewrite R2, R3, Ebs, map_length. rewrite <- (app_nil_r (concat _)).
  apply decode_locations_ok. rewrite Forall_forall in *. intros l Hin. apply Hback; [ exact Hin | ]. rewrite app_nil_r.
  pose proof (nlen_in_concat (map (t_enc (f_offsets F)) locs) (t_enc (f_offsets F) l) (in_map _ _ _ Hin)). lia.
Qed.

(** ** Column indexes *)

Lemma index_entry_ok p spec st e : ps_statistics spec = Some st -> stats_of_type p st ->
  (index_entry spec = Ok e <->
   indexable st /\ e = (match fst (stats_bounds st) with Some _ => false | None => true end, or_zero (fst (stats_bounds st)),
                        match stats_bounds st with (Some _, o) => or_zero o | (None, _) => [0] end,
                        match stats_null_count st with Some n => n | None => 0%Z end)).
Proof.
  intros Hs Ht. unfold index_entry. rewrite Hs.
  assert (E : serialize_statistics st = Ok (mk_tstats None None (stats_null_count st)
                (match st with SBool s => st_distinct_count s | SNative _ _ s => st_distinct_count s | SBinary _ s | SFixed _ s => st_distinct_count s end)
                (snd (stats_bounds st)) (fst (stats_bounds st)))).
  { destruct st as [s|t p' s|p' s|p' s]; try reflexivity. cbn [serialize_statistics]. destruct Ht as (-> & n & -> & _). reflexivity. }
  rewrite E. cbn [bind ts_null_count ts_min_value ts_max_value]. unfold indexable.
  destruct (stats_null_count st) as [n|], (stats_bounds st) as [[mn|] [mx|]]; cbn [fst snd or_zero]; split; intros H; try discriminate H;
    try (apply Ok_inj in H; subst e; split; [ split; [ discriminate | intros; congruence ] | reflexivity ]);
    destruct H as [[H1 H2] ->]; try reflexivity; exfalso; try (apply H1; reflexivity); (apply H2; [ discriminate | reflexivity ]).
Qed.
Lemma serialize_index_ok p : forall specs stats, map ps_statistics specs = map Some stats -> Forall (stats_of_type p) stats ->
  (Forall indexable stats -> collect_res (map index_entry specs) =
     Ok (map (fun st => (match fst (stats_bounds st) with Some _ => false | None => true end, or_zero (fst (stats_bounds st)),
                         match stats_bounds st with (Some _, o) => or_zero o | (None, _) => [0] end,
                         match stats_null_count st with Some n => n | None => 0%Z end)) stats)) /\
  (forall l, collect_res (map index_entry specs) = Ok l -> Forall indexable stats).
Proof.
  induction specs as [|spec specs IH]; intros [|st stats] E Ht; try discriminate E; [ split; [ reflexivity | constructor ] | ].
  injection E as E1 E2. destruct (IH _ E2 (Forall_inv_tail Ht)) as [IH1 IH2]. pose proof (index_entry_ok p spec st) as He. split.
  - intros Hi. cbn [map collect_res]. destruct (He (match fst (stats_bounds st) with Some _ => false | None => true end, or_zero (fst (stats_bounds st)),
                         match stats_bounds st with (Some _, o) => or_zero o | (None, _) => [0] end,
                         match stats_null_count st with Some n => n | None => 0%Z end) E1 (Forall_inv Ht)) as [_ He'].
    rewrite He' by (split; [ exact (Forall_inv Hi) | reflexivity ]). cbn [bind]. rewrite (IH1 (Forall_inv_tail Hi)). reflexivity.
  - intros l Hl. cbn [map collect_res] in Hl. destruct (index_entry spec) as [e| |] eqn:Ee; cbn [bind] in Hl; try discriminate Hl.
    destruct (collect_res (map index_entry specs)) as [r| |] eqn:Er; cbn [bind] in Hl; try discriminate Hl.
    constructor; [ | eapply IH2; reflexivity ]. apply (He e E1 (Forall_inv Ht)). reflexivity.
Qed.
Lemma serialize_column_index_exact p specs stats : map ps_statistics (filter is_data_page specs) = map Some stats -> Forall (stats_of_type p) stats ->
  (Forall indexable stats -> serialize_column_index specs = Ok (index_struct stats)) /\
  (forall i, serialize_column_index specs = Ok i -> Forall indexable stats).
Proof.
  intros E Ht. destruct (serialize_index_ok p _ _ E Ht) as [H1 H2]. unfold serialize_column_index. split.
  - intros Hi. rewrite (H1 Hi). cbn [bind]. unfold index_struct. rewrite !map_map. reflexivity.
  - intros i Hi. destruct (collect_res (map index_entry (filter is_data_page specs))) as [l| |] eqn:El; try discriminate Hi. eapply H2. reflexivity.
Qed.

Lemma index_pages_struct {A} (value : list N -> res A) (wrap : stats_of A -> statistics) (to : A -> list N) :
  (forall s, stats_bounds (wrap s) = (option_map to (st_min s), option_map to (st_max s)) /\ stats_null_count (wrap s) = st_null_count s) ->
  forall l, Forall (fun s => indexable (wrap s) /\ all_opt (fun v => value (to v) = Ok v) (st_min s) /\ all_opt (fun v => value (to v) = Ok v) (st_max s)) l ->
  index_pages value (index_struct (map wrap l)) = Ok (map entry_of l).
Proof.
  intros Hw l H. unfold index_pages, index_struct. cbn [ci_null_counts ci_min_values ci_max_values ci_null_pages]. rewrite !map_map.
  induction l as [|s l IH]; [ reflexivity | ]. specialize (IH (Forall_inv_tail H)). destruct (Forall_inv H) as ([Hn Hi] & Hmn & Hmx). destruct (Hw s) as [E1 E2].
  cbn [map zip_index collect_res]. rewrite E1, E2 in *. cbn [fst snd] in *. unfold entry_of at 1.
  destruct (st_null_count s) as [n|]; [ | congruence ]. destruct (st_min s) as [mn|]; cbn [option_map or_zero] in *.
  - destruct (st_max s) as [mx|]; [ | exfalso; apply Hi; [ discriminate | reflexivity ] ]. cbn [option_map or_zero all_opt] in *. rewrite Hmn, Hmx. cbn [bind].
    rewrite IH. reflexivity.
  - cbn [bind]. rewrite IH. reflexivity.
Qed.
Lemma typed_bool p : forall stats, Forall (stats_of_type p) stats -> pt_physical p = Boolean -> exists l, stats = map SBool l.
Proof.
  induction stats as [|s stats IH]; intros H E; [ exists []; reflexivity | ]. destruct (IH (Forall_inv_tail H) E) as (l & ->).
  pose proof (Forall_inv H) as Hs. destruct s as [s|t p' s|p' s|p' s]; cbn [stats_of_type] in Hs.
  - exists (s :: l). reflexivity.
  - destruct Hs as (-> & Ht & _). rewrite E in Ht. destruct t; discriminate Ht.
  - destruct Hs as (_ & Ht). congruence.
  - destruct Hs as (_ & n & Ht & _). congruence.
Qed.
Lemma typed_native p t : forall stats, Forall (stats_of_type p) stats -> pt_physical p = native_physical t ->
  exists l, stats = map (SNative t p) l /\ Forall (fun s => all_opt (native_ok t) (st_min s) /\ all_opt (native_ok t) (st_max s)) l.
Proof.
  induction stats as [|s stats IH]; intros H E; [ exists []; split; [ reflexivity | constructor ] | ]. destruct (IH (Forall_inv_tail H) E) as (l & -> & Hl).
  pose proof (Forall_inv H) as Hs. destruct s as [s|t' p' s|p' s|p' s]; cbn [stats_of_type] in Hs.
  - rewrite E in Hs. destruct t; discriminate Hs.
  - destruct Hs as (-> & Ht & H1 & H2). rewrite E in Ht. assert (t' = t) as -> by (destruct t', t; try reflexivity; discriminate Ht).
    exists (s :: l). split; [ reflexivity | constructor; auto ].
  - destruct Hs as (_ & Ht). rewrite E in Ht. destruct t; discriminate Ht.
  - destruct Hs as (_ & n & Ht & _). rewrite E in Ht. destruct t; discriminate Ht.
Qed.
Lemma typed_binary p : forall stats, Forall (stats_of_type p) stats -> pt_physical p = ByteArray -> exists l, stats = map (SBinary p) l.
Proof.
  induction stats as [|s stats IH]; intros H E; [ exists []; reflexivity | ]. destruct (IH (Forall_inv_tail H) E) as (l & ->).
  pose proof (Forall_inv H) as Hs. destruct s as [s|t p' s|p' s|p' s]; cbn [stats_of_type] in Hs.
  - congruence.
  - destruct Hs as (-> & Ht & _). rewrite E in Ht. destruct t; discriminate Ht.
  - destruct Hs as (-> & Ht). exists (s :: l). reflexivity.
  - destruct Hs as (_ & n & Ht & _). congruence.
Qed.
Lemma typed_fixed p n : forall stats, Forall (stats_of_type p) stats -> pt_physical p = FixedLenByteArray n -> exists l, stats = map (SFixed p) l.
Proof.
  induction stats as [|s stats IH]; intros H E; [ exists []; reflexivity | ]. destruct (IH (Forall_inv_tail H) E) as (l & ->).
  pose proof (Forall_inv H) as Hs. destruct s as [s|t p' s|p' s|p' s]; cbn [stats_of_type] in Hs.
  - congruence.
  - destruct Hs as (-> & Ht & _). rewrite E in Ht. destruct t; discriminate Ht.
  - destruct Hs as (_ & Ht). congruence.
  - destruct Hs as (-> & m & Ht & _). exists (s :: l). reflexivity.
Qed.

Lemma index_struct_read p stats : Forall (stats_of_type p) stats -> Forall indexable stats ->
  exists i, index_from_thrift (index_struct stats) p = Ok i /\ index_of p stats i.
Proof.
  intros Ht Hi. unfold index_from_thrift.
  assert (Hnat : forall t, pt_physical p = native_physical t ->
    exists i, (let* pages := index_pages (native_bound t) (index_struct stats) in
               let* order := boundary_order_of_thrift (ci_boundary_order (index_struct stats)) in Ok (INative t p pages order)) = Ok i /\ index_of p stats i).
  { intros t Et. destruct (typed_native p t stats Ht Et) as (l & -> & Hok).
    rewrite (index_pages_struct (native_bound t) (SNative t p) (native_to_le t) (fun s => conj eq_refl eq_refl) l).
    - cbn [bind]. eexists. split; [ reflexivity | ]. cbn [index_of]. split; [ reflexivity | ]. exists l. rewrite Et. auto.
    - rewrite Forall_map in Hi. apply Forall_and; [ exact Hi | ]. eapply Forall_impl; [ | exact Hok ]. cbn beta. intros s [H1 H2].
      assert (B : forall v, native_ok t v -> native_bound t (native_to_le t v) = Ok v).
      { intros v Hv. unfold native_bound. rewrite native_to_le_length, Nat.eqb_refl, native_from_to by exact Hv. reflexivity. }
      split; [ destruct (st_min s) | destruct (st_max s) ]; cbn [all_opt] in *; auto. }
  destruct (pt_physical p) eqn:Ep; try (match goal with |- context [native_bound ?t] => destruct (Hnat t eq_refl) as (i & H1 & H2); exists i; split; [ exact H1 | exact H2 ] end).
  - destruct (typed_bool p stats Ht Ep) as (l & ->).
    rewrite (index_pages_struct bool_bound SBool bool_bytes (fun s => conj eq_refl eq_refl) l).
    + cbn [bind]. eexists. split; [ reflexivity | ]. cbn [index_of]. exists l. auto.
    + rewrite Forall_map in Hi. eapply Forall_impl; [ | exact Hi ]. cbn beta. intros s Hs. split; [ exact Hs | ].
      split; [ destruct (st_min s) as [[|]|] | destruct (st_max s) as [[|]|] ]; cbn [all_opt]; auto.
  - destruct (typed_binary p stats Ht Ep) as (l & ->).
    rewrite (index_pages_struct Ok (SBinary p) (fun b => b)).
    + cbn [bind]. eexists. split; [ reflexivity | ]. cbn [index_of]. split; [ reflexivity | ]. exists l. auto.
    + intros s. cbn. destruct (st_min s), (st_max s); auto.
    + rewrite Forall_map in Hi. eapply Forall_impl; [ | exact Hi ]. cbn beta. intros s Hs. split; [ exact Hs | ].
      split; [ destruct (st_min s) | destruct (st_max s) ]; cbn [all_opt]; auto.
  - destruct (typed_fixed p size stats Ht Ep) as (l & ->).
    rewrite (index_pages_struct Ok (SFixed p) (fun b => b)).
    + cbn [bind]. eexists. split; [ reflexivity | ]. cbn [index_of]. split; [ reflexivity | ]. exists l, size. auto.
    + intros s. cbn. destruct (st_min s), (st_max s); auto.
    + rewrite Forall_map in Hi. eapply Forall_impl; [ | exact Hi ]. cbn beta. intros s Hs. split; [ exact Hs | ].
      split; [ destruct (st_min s) | destruct (st_max s) ]; cbn [all_opt]; auto.
Qed.

Lemma specs_statistics T : forall off l specs, specs_for T off l specs ->
  map (fun spec => Ok (ps_statistics spec)) (filter is_data_page specs) = map cdp_statistics (data_pages l).
Proof.
  induction 1 as [|off p spec l specs H _ IH]; [ reflexivity | ]. cbn [filter]. rewrite (is_data_page_for _ _ _ _ H).
  unfold data_pages in *. cbn [flat_map]. destruct p as [d|d]; cbn [is_data app map]; [ | exact IH ].
  destruct H as (_ & _ & _ & _ & _ & _ & Hs & _). rewrite Hs. f_equal. exact IH.
Qed.
Lemma column_index_specs T p off l specs i : specs_for T off l specs -> Forall (page_of_type p) (data_pages l) -> serialize_column_index specs = Ok i ->
  exists stats, Forall2 (fun d s => cdp_statistics d = Ok (Some s)) (data_pages l) stats /\ Forall (stats_of_type p) stats /\ Forall indexable stats /\
    map ps_statistics (filter is_data_page specs) = map Some stats /\ i = index_struct stats.
Proof.
  intros Hs Ht Hi. pose proof (specs_statistics _ _ _ _ Hs) as E.
  assert (exists stats, Forall2 (fun d s => cdp_statistics d = Ok (Some s)) (data_pages l) stats /\ Forall (stats_of_type p) stats /\
    map ps_statistics (filter is_data_page specs) = map Some stats) as (stats & H1 & H2 & H3).
  { unfold serialize_column_index in Hi. destruct (collect_res (map index_entry (filter is_data_page specs))) as [es| |] eqn:Ees; try discriminate Hi. clear Hi i Hs.
    revert es Ees E Ht. generalize (data_pages l). induction (filter is_data_page specs) as [|spec sp IH]; intros ds es Ees E Ht.
    - destruct ds; [ | discriminate E ]. exists []. repeat split; constructor.
    - destruct ds as [|d ds]; [ discriminate E | ]. cbn [map] in E. injection E as E1 E2. cbn [map collect_res] in Ees.
      destruct (index_entry spec) as [e| |] eqn:Ee; cbn [bind] in Ees; try discriminate Ees.
      destruct (collect_res (map index_entry sp)) as [r| |] eqn:Er; cbn [bind] in Ees; try discriminate Ees.
      destruct (IH ds r eq_refl E2 (Forall_inv_tail Ht)) as (stats & H1 & H2 & H3).
      unfold index_entry in Ee. destruct (ps_statistics spec) as [st|] eqn:Est; [ | discriminate Ee ].
      exists (st :: stats). split; [ constructor; [ symmetry; exact E1 | exact H1 ] | ]. split; [ | cbn [map]; rewrite Est, H3; reflexivity ].
      constructor; [ | exact H2 ]. destruct (Forall_inv Ht) as [Hp Hb]. unfold cdp_statistics in E1.
      destruct (header_statistics (cdp_header d)) as [v|]; [ | discriminate E1 ]. destruct Hb as [Hb1 Hb2].
      destruct (deserialize_statistics v (d_primitive (cdp_descriptor d))) as [st'| |] eqn:Ed; cbn [bind] in E1; try discriminate E1.
      injection E1 as <-. rewrite Hp in Ed. eapply statistics_read_faithful; eassumption. }
  exists stats. destruct (serialize_column_index_exact p specs stats H3 H2) as [X1 X2]. pose proof (X2 _ Hi) as X3. rewrite (X1 X3) in Hi. apply Ok_inj in Hi. auto 10.
Qed.

Lemma indexed_keeps {A} file enc set (o : t_column_chunk -> A) : (forall c a b, o (set c a b) = o c) -> forall pos cs ps cs' hi,
  indexed file enc set pos cs ps cs' hi -> map o cs' = map o cs.
Proof. intros H. induction 1; cbn [map]; [ reflexivity | ]. rewrite H. f_equal. assumption. Qed.
Lemma indexed_set_fields file enc set pos cs ps cs' hi : indexed file enc set pos cs ps cs' hi -> length ps = length cs'.
Proof. induction 1; cbn [length]; auto. Qed.

Lemma deserialize_indexes_ok T : forall (cmds : list column_md) (stats : list (list statistics)),
  Forall2 (fun c l => Forall (stats_of_type (d_primitive (cd_descriptor (cmd_descr c)))) l /\ Forall indexable l /\
             reads_back T (2 * nlen (t_enc T (index_struct l)) + 1024) (index_struct l)) cmds stats ->
  let bs := map (fun l => t_enc T (index_struct l)) stats in
  exists ix, deserialize_indexes T cmds (concat bs) (map nlen bs) = Ok ix /\
    Forall2 (fun x i => index_of (d_primitive (cd_descriptor (cmd_descr (fst x)))) (snd x) i) (combine cmds stats) ix.
Proof.
  induction 1 as [|c l cmds stats (H1 & H2 & H3) H IH]; [ exists []; split; [ reflexivity | constructor ] | ]. cbv zeta in *.
  destruct IH as (ix & E & F1). cbn [map concat deserialize_indexes combine]. rewrite nlen_app.
  replace (nlen (t_enc T (index_struct l)) + _ <? nlen (t_enc T (index_struct l))) with false by lia.
  rewrite (firstn_nlen_app _ _ _ eq_refl), (skipn_nlen_app _ _ _ eq_refl), E.
  unfold deserialize_index. destruct H3 as [_ H3]. rewrite N.mul_comm in H3. specialize (H3 []). rewrite app_nil_r in H3. rewrite H3. cbn [bind].
  destruct (index_struct_read _ _ H1 H2) as (i & Ei & Hi). rewrite Ei. cbn [bind]. exists (i :: ix). split; [ reflexivity | ]. constructor; [ exact Hi | exact F1 ].
Qed.

Lemma laid_statistics F file : forall lo cols chunks specss mid, laid F file lo cols chunks specss mid ->
  forall bs, Forall2 (fun p b => enc_column_index F p = Ok b) specss bs ->
  (forall x, In x cols -> Forall (page_of_type (d_primitive (cd_descriptor (fst x)))) (data_pages (pages_of_column (snd x)))) ->
  exists stats, bs = map (fun l => t_enc (f_index F) (index_struct l)) stats /\
    Forall2 (fun x l => Forall2 (fun d s => cdp_statistics d = Ok (Some s)) (data_pages (pages_of_column (snd x))) l /\
                        Forall (stats_of_type (d_primitive (cd_descriptor (fst x)))) l /\ Forall indexable l) cols stats.
Proof.
  induction 1 as [|pos d l meta chunk specs cols chunks specss hi Hm Hs Hd Hh Hl IH Hz]; intros bs H Hc; inversion H as [|? b ? bs' H1 H2]; subst.
  - exists []. split; [ reflexivity | constructor ].
  - destruct (IH _ H2 (fun x Hx => Hc x (or_intror Hx))) as (stats & -> & Hst). unfold enc_column_index in H1.
    destruct (serialize_column_index specs) as [i| |] eqn:E; cbn [bind] in H1; try discriminate H1. apply Ok_inj in H1. subst b.
    specialize (Hc _ (or_introl eq_refl)). cbn [fst snd] in Hc. rewrite pages_of_map in Hc.
    destruct (column_index_specs _ _ _ _ _ _ Hs Hc E) as (st & S1 & S2 & S3 & _ & ->). exists (st :: stats). split; [ reflexivity | ].
    constructor; [ | exact Hst ]. cbn [fst snd]. rewrite pages_of_map. auto.
Qed.
Lemma Forall2_map_l {A B C} (f : A -> B) (R : B -> C -> Prop) : forall l l', Forall2 R (map f l) l' -> Forall2 (fun a c => R (f a) c) l l'.
Proof. induction l as [|a l IH]; intros l' H; inversion H; subst; constructor; auto. Qed.

Lemma ended_column_indexes F m w0 gs kv file meta i g rg k n cmds : ended F m w0 gs kv file meta -> nlen file < 2 ^ 63 -> fw_statistics w0 = true ->
  nth_error gs i = Some g -> nth_error (fm_row_groups meta) i = Some rg ->
  map cmd_chunk cmds = slice k n (rg_columns rg) -> map cmd_descr cmds = slice k n (sd_leaves (fw_schema w0)) ->
  (forall x, In x (combine (sd_leaves (fw_schema w0)) g) -> Forall (page_of_type (d_primitive (cd_descriptor (fst x)))) (data_pages (pages_of_column (snd x))) /\
     forall l, Forall2 (fun d s => cdp_statistics d = Ok (Some s)) (data_pages (pages_of_column (snd x))) l ->
       nlen (t_enc (f_index F) (index_struct l)) < 2 ^ 31 /\ reads_back (f_index F) (2 * nlen (t_enc (f_index F) (index_struct l)) + 1024) (index_struct l)) ->
  exists ix, read_columns_indexes (f_index F) file cmds = Ok ix /\ Forall2 column_indexed (slice k n (combine (sd_leaves (fw_schema w0)) g)) ix.
Proof.
  intros (rgs1 & rgs2 & specs & h1 & h2 & h3 & rows & Hmag & Hl & Hc & Ho & _ & _ & _ & _) Hs Hst Eg Erg Ecmds Edescr Hpages.
  rewrite Hst in Hc.
  destruct (laid_groups_nth _ _ _ _ _ _ _ _ _ _ Hl _ _ _ Eg Erg) as (specss & lo & mid & Es & Hlaid & _).
  assert (Hh1 : h1 <= nlen file). { eapply laid_groups_bound; [ exact Hl | ]. apply holds_bound in Hmag. change (nlen magic) with 4 in Hmag. lia. }
  assert (Hh2 : h2 <= nlen file) by (eapply indexed_groups_hi; eassumption).
  destruct (indexed_groups_length _ _ _ _ _ _ _ _ Ho) as [L1 L2]. destruct (indexed_groups_length _ _ _ _ _ _ _ _ Hc) as [L3 L4].
  assert (Hi : (i < length (fm_row_groups meta))%nat) by (apply nth_error_Some; congruence).
  assert (exists rg2, nth_error rgs2 i = Some rg2) as [rg2 Erg2] by (destruct (nth_error rgs2 i) eqn:E; [ eexists; reflexivity | apply nth_error_None in E; lia ]).
  assert (exists rg1, nth_error rgs1 i = Some rg1) as [rg1 Erg1] by (destruct (nth_error rgs1 i) eqn:E; [ eexists; reflexivity | apply nth_error_None in E; lia ]).
  destruct (indexed_groups_nth _ _ _ _ _ _ _ _ Ho Hh2 _ _ _ Erg2 Erg) as (p2 & lo2 & mid2 & _ & _ & Hi2).
  destruct (indexed_groups_nth _ _ _ _ _ _ _ _ Hc Hh1 _ _ _ Erg1 Erg2) as (p1 & lo1 & mid1 & Ep1 & Hlo1 & Hi1).
  assert (p1 = specss) as -> by congruence.
  destruct (indexed_bytes _ _ _ _ _ _ _ _ Hi1) as (bs0 & B0 & _).
  destruct (laid_statistics _ _ _ _ _ _ _ Hlaid _ B0 (fun x Hx => proj1 (Hpages x Hx))) as (stats0 & Ebs0 & Hstats0).
  destruct (indexed_slice _ _ _ k n _ _ _ _ _ Hi1 Hlo1) as (lo3 & mid3 & Hlo3 & Hi3).
  pose proof (Forall2_slice _ k n _ _ B0) as B1. pose proof (Forall2_slice _ k n _ _ Hstats0) as Hstats.
  pose proof (f_equal (slice k n) Ebs0) as Ebs. rewrite slice_map in Ebs. set (bs := slice k n bs0) in *. set (stats := slice k n stats0) in *. clearbody bs stats.
  assert (Hlen : length cmds = length (slice k n (combine (sd_leaves (fw_schema w0)) g))).
  { apply laid_length in Hlaid as [Ll _]. apply (f_equal (@length _)) in Ecmds. rewrite map_length in Ecmds. rewrite Ecmds. unfold slice. rewrite !firstn_length, !skipn_length, Ll. reflexivity. }
  assert (Hpages' : forall x, In x (slice k n (combine (sd_leaves (fw_schema w0)) g)) -> forall l, Forall2 (fun d s => cdp_statistics d = Ok (Some s)) (data_pages (pages_of_column (snd x))) l ->
       nlen (t_enc (f_index F) (index_struct l)) < 2 ^ 31 /\ reads_back (f_index F) (2 * nlen (t_enc (f_index F) (index_struct l)) + 1024) (index_struct l))
    by (intros x Hx; apply (Hpages x (slice_in _ _ _ _ Hx))).
  rewrite slice_combine in *. set (leaves := slice k n (sd_leaves (fw_schema w0))) in *. set (g' := slice k n g) in *. clearbody leaves g'.
  assert (Hcols : combine leaves g' = combine (map cmd_descr cmds) g') by (rewrite Edescr; reflexivity).
  assert (Hty : Forall2 (fun c l => Forall (stats_of_type (d_primitive (cd_descriptor (cmd_descr c)))) l /\ Forall indexable l /\
             reads_back (f_index F) (2 * nlen (t_enc (f_index F) (index_struct l)) + 1024) (index_struct l)) cmds stats /\ Forall (fun b => nlen b < 2 ^ 31) bs).
  { subst bs. rewrite Forall_map. clear - Hstats Hpages' Hcols Hlen. rewrite Hcols in *. clear Hcols. revert g' stats Hstats Hpages' Hlen.
    induction cmds as [|c cmds IH]; intros g stats H1 H2 Hlen.
    - cbn [map combine] in H1. inversion H1; subst. split; constructor.
    - destruct g as [|col g]; [ discriminate Hlen | ]. cbn [map combine] in *. inversion H1 as [|? l ? stats' (S1 & S2 & S3) S4]; subst. cbn [fst snd] in *.
      destruct (IH g stats' S4 (fun x Hx => H2 x (or_intror Hx)) ltac:(cbn [length] in Hlen; lia)) as [I1 I2].
      pose proof (H2 _ (or_introl eq_refl)) as Hback. cbn [fst snd] in Hback. destruct (Hback _ S1) as [Hsz Hb].
      split; constructor; auto. }
  destruct Hty as [Hty Hsz]. destruct cmds as [|c0 cmds0] eqn:Ecm.
  { exists []. split; [ reflexivity | ]. destruct (combine leaves g'); [ constructor | discriminate Hlen ]. }
  rewrite <- Ecm in *. assert (Hne : cmds <> []) by (rewrite Ecm; discriminate). clear Ecm c0 cmds0.
  destruct (read_block file _ _ cc_column_index_offset cc_column_index_length _ _ _ _ _ bs cmds Hi3 (fun c a b => conj eq_refl eq_refl) B1 Hlo3 Hs Hsz) as (R1 & R2 & R3);
    [ rewrite Ecmds, <- !slice_map; f_equal; eapply indexed_keeps; [ | exact Hi2 ]; reflexivity | rewrite Ecmds, <- !slice_map; f_equal; eapply indexed_keeps; [ | exact Hi2 ]; reflexivity | exact Hne | ].
  unfold read_columns_indexes. rewrite R1. cbn [bind]. rewrite R2, Ebs.
  destruct (deserialize_indexes_ok (f_index F) cmds stats Hty) as (ix & E & Hix). cbv zeta in E. rewrite E. exists ix. split; [ reflexivity | ].
  rewrite Hcols in *. clear - Hstats Hix Hlen. revert g' stats ix Hstats Hix Hlen. induction cmds as [|c cmds IH]; intros g stats ix H1 H2 Hlen.
  - cbn [map combine] in *. inversion H2; subst. constructor.
  - destruct g as [|col g]; [ discriminate Hlen | ]. cbn [map combine] in *. inversion H1 as [|? l ? stats' (S1 & S2 & S3) S4]; subst. cbn [combine] in H2.
    inversion H2 as [|? i ? ix' I1 I2]; subst. constructor; [ | eapply IH; [ exact S4 | exact I2 | cbn [length] in Hlen; lia ] ].
    exists l. cbn [fst snd] in *. auto.
Qed.
