(** C22-C24, C71: row intervals of pages and page selection. *)
From Verif Require Import Base.Prelude Spec.RowsSpec Model.Types Model.Thrift Model.Intervals
  Proofs.TypesFacts Proofs.IntervalsProofs.
Open Scope N_scope.

(** [locs_ok]: the first rows are 64-bit signed integers, as in the file. *)

(** C22. Valid locations: first rows non-negative, non-decreasing, and within the row group. *)
Theorem page_row_intervals_exact : forall l n, locs_ok l ->
  (first_rows_ok 0 l n ->
     exists ivs, compute_page_row_intervals l n = Ok ivs /\ map iv_bounds ivs = pages_of l n) /\
  (~ first_rows_ok 0 l n -> compute_page_row_intervals l n = Err OutOfSpec).
Proof.
  intros [|a r] n Hok.
  - split; intro H; [exists []; now split|]. exfalso. apply H. cbn. lia.
  - destruct (page_intervals_spec (a :: r) n 0 Hok ltac:(lia) ltac:(discriminate)) as [[(q & Hq & Eq & Hf) H2]|[H1 H2]];
      unfold compute_page_row_intervals.
    + assert (first_rows_ok 0 (a :: r) n) by (cbn in *; subst q; split; [lia|apply Hf]).
      split; [intros _; exact H2|contradiction].
    + split; [|intros _; exact H2]. intros [H3 H4]. exfalso. apply H1. exists (loc_first_row a).
      split; [lia|]. split; [reflexivity|]. split; [lia|exact H4].
Qed.
Print Assumptions page_row_intervals_exact.

Lemma consecutive_pages : forall l n ivs a, first_rows_ok a l n -> l <> [] ->
  map iv_bounds ivs = pages_of l n ->
  consecutive (match l with x :: _ => Z.to_nat (loc_first_row x) | [] => 0%nat end) ivs (N.to_nat n).
Proof.
  induction l as [|x r IH]; intros n ivs a Hf Hne E; [contradiction|]. destruct Hf as [Hx Hf].
  destruct ivs as [|i ivs]; [discriminate|]. cbn [map] in E. destruct r as [|y r].
  - cbn in E. injection E as E1 E2 E3. destruct ivs; [|discriminate]. cbn. unfold first_rows_ok in Hf. lia.
  - change (pages_of (x :: y :: r) n) with ((loc_first_row x, loc_first_row y) :: pages_of (y :: r) n) in E.
    injection E as E1 E2. cbn [consecutive].
    specialize (IH n ivs (loc_first_row x) Hf ltac:(discriminate) H). cbv beta iota in IH.
    split; [lia|]. destruct Hf as [Hy _].
    replace (Z.to_nat (loc_first_row x) + N.to_nat (iv_length i))%nat with (Z.to_nat (loc_first_row y)) by lia.
    exact IH.
Qed.

(** The rows of the pages, in order, are all rows from the first page's first row to the last row. *)
Theorem page_row_intervals_partition : forall l n ivs first rest, locs_ok l ->
  l = first :: rest -> compute_page_row_intervals l n = Ok ivs ->
  length ivs = length l /\
  rows_of ivs = seq (Z.to_nat (loc_first_row first)) (N.to_nat n - Z.to_nat (loc_first_row first)).
Proof.
  intros l n ivs first rest Hok -> H.
  destruct (page_row_intervals_exact _ n Hok) as [H1 H2].
  assert (Hf : first_rows_ok 0 (first :: rest) n).
  { destruct (page_intervals_spec (first :: rest) n 0 Hok ltac:(lia) ltac:(discriminate)) as [[(q & Hq & Eq & Hf) _]|[_ He]].
    - subst q. cbn in *. split; [lia|apply Hf].
    - unfold compute_page_row_intervals in H. congruence. }
  destruct (H1 Hf) as (ivs' & E & Em). assert (ivs' = ivs) by congruence. subst ivs'. split.
  - rewrite <- (map_length iv_bounds), Em. apply pages_length.
  - apply (consecutive_rows ivs). exact (consecutive_pages _ _ _ _ Hf ltac:(discriminate) Em).
Qed.
Print Assumptions page_row_intervals_partition.

Definition three_pages := [mk_loc 4 10 0; mk_loc 14 20 5; mk_loc 34 5 7].
Example page_row_intervals_case :
  locs_ok three_pages /\ first_rows_ok 0 three_pages 10 /\
  compute_page_row_intervals three_pages 10 = Ok [mk_iv 0 5; mk_iv 5 2; mk_iv 7 3] /\
  compute_page_row_intervals three_pages 6 = Err OutOfSpec /\
  compute_page_row_intervals [mk_loc 0 1 3; mk_loc 1 1 2] 6 = Err OutOfSpec.
Proof. split; [repeat constructor; cbn; lia|]. split; [cbn; lia|]. vm_compute. repeat split. Qed.

(** C23. *)
Lemma combine_map_fst {A B} (l : list A) (l' : list B) : length l = length l' -> map fst (combine l l') = l.
Proof. revert l'. induction l as [|a l IH]; intros [|b l'] H; cbn in *; try discriminate; [reflexivity|]. f_equal. apply IH. lia. Qed.
Lemma combine_map_snd {A B} (l : list A) (l' : list B) : length l = length l' -> map snd (combine l l') = l'.
Proof. revert l'. induction l as [|a l IH]; intros [|b l'] H; cbn in *; try discriminate; [reflexivity|]. f_equal. apply IH. lia. Qed.

Lemma select_pages_list m ivs : Forall iv_ok ivs -> forall ps locs,
  length ps = length locs -> Forall iv_ok ps ->
  (Forall (fun x => 0 <= loc_offset x /\ 0 <= loc_size x)%Z locs ->
    exists sel, collect_res (map (select_page m ivs) (combine ps locs)) = Ok sel) /\
  (~ Forall (fun x => 0 <= loc_offset x /\ 0 <= loc_size x)%Z locs ->
    collect_res (map (select_page m ivs) (combine ps locs)) = Err OutOfSpec) /\
  (forall sel, collect_res (map (select_page m ivs) (combine ps locs)) = Ok sel ->
    Forall2 (fun p loc => Z.of_N (fp_start p) = loc_offset loc /\ Z.of_N (fp_length p) = loc_size loc) sel locs /\
    Forall2 (fun p pg => fp_num_rows p = iv_length pg /\
       map (Nat.add (N.to_nat (iv_start pg))) (rows_of (fp_selected p)) = filter (in_page pg) (rows_of ivs) /\
       Forall (fun i => iv_start i + iv_length i <= fp_num_rows p) (fp_selected p) /\
       (sorted_disjoint ivs -> sorted_disjoint (fp_selected p)) /\
       (non_empty pg -> Forall non_empty ivs -> Forall non_empty (fp_selected p))) sel ps).
Proof.
  intro Hi. induction ps as [|p ps IH]; intros [|loc locs] Hl Hp; cbn [length] in Hl; try discriminate.
  - cbn. split; [intros _; now exists []|]. split; [intro H; exfalso; apply H; constructor|].
    intros sel [= <-]. split; constructor.
  - injection Hl as Hl. inversion Hp as [|? ? Hp1 Hp2]; subst. destruct (IH locs Hl Hp2) as (IH1 & IH2 & IH3).
    cbn [combine map collect_res]. unfold select_page at 1 3 5.
    destruct (is_in_spec m p ivs Hp1 Hi) as (s & Es & H1 & H2 & H3 & H4). rewrite Es. cbn [bind].
    unfold try_usize. destruct (Z.ltb_spec (loc_offset loc) 0); cbn [bind].
    { split; [intro H0; inversion H0; lia|]. split; [reflexivity|]. discriminate. }
    destruct (Z.ltb_spec (loc_size loc) 0); cbn [bind].
    { split; [intro H6; inversion H6; lia|]. split; [reflexivity|]. discriminate. }
    split; [|split].
    + intro H6. inversion H6; subst. destruct (IH1 H9) as (sel & E). rewrite E. eexists. reflexivity.
    + intro H6. rewrite IH2; [reflexivity|]. intro H7. apply H6. constructor; [lia|exact H7].
    + intros sel H6. destruct (collect_res _) as [sel'| |] eqn:E; cbn [bind] in H6; try discriminate.
      injection H6 as <-. destruct (IH3 sel' eq_refl) as [F1 F2]. split; constructor; auto; cbn.
      lia.
Qed.

Lemma first_rows_all l n : forall a, (0 <= a)%Z -> first_rows_ok a l n ->
  Forall (fun x => 0 <= loc_first_row x <= Z.of_N n)%Z l /\ (a <= Z.of_N n)%Z.
Proof.
  induction l as [|x r IH]; intros a Ha H; cbn in H; [split; [constructor|exact H]|].
  destruct H as [H1 H2]. destruct (IH (loc_first_row x) ltac:(lia) H2) as [H3 H4]. split; [|lia]. constructor; [lia|exact H3].
Qed.

Lemma pages_iv_ok l n : n < 2 ^ 64 -> forall a ivs, (0 <= a)%Z -> first_rows_ok a l n ->
  map iv_bounds ivs = pages_of l n -> Forall iv_ok ivs.
Proof.
  intro Hn. induction l as [|x r IH]; intros a ivs Ha Hf E.
  - destruct ivs; [constructor|discriminate].
  - destruct ivs as [|i ivs]; [discriminate|]. destruct Hf as [H1 H2].
    pose proof (first_rows_all r n (loc_first_row x) ltac:(lia) H2) as [H3 H4].
    injection E as E1 E2 E3. constructor; [|eapply IH; [|exact H2|exact E3]; lia].
    unfold iv_ok. destruct r as [|y r]; [lia|]. inversion H3; subst. lia.
Qed.

(** One entry per location, in order, with its byte range; and over all pages, in order, the selected rows,
    shifted by the page's first row, are exactly the requested rows that lie in the pages. *)
Theorem select_pages_exact : forall m intervals l n,
  locs_ok l -> n < 2 ^ 64 -> Forall iv_ok intervals -> first_rows_ok 0 l n ->
  Forall (fun x => 0 <= loc_offset x /\ 0 <= loc_size x)%Z l ->
  exists sel, select_pages m intervals l n = Ok sel /\
    Forall2 (fun p loc => Z.of_N (fp_start p) = loc_offset loc /\ Z.of_N (fp_length p) = loc_size loc) sel l /\
    map fp_num_rows sel = map (fun b => Z.to_N (snd b - fst b)) (pages_of l n) /\
    Forall (fun p => Forall (fun i => iv_start i + iv_length i <= fp_num_rows p) (fp_selected p)) sel /\
    (sorted_disjoint intervals ->
       Forall (fun p => sorted_disjoint (fp_selected p)) sel /\
       concat (map (fun x => map (Nat.add (Z.to_nat (loc_first_row (snd x)))) (rows_of (fp_selected (fst x)))) (combine sel l)) =
       filter (fun r => match l with [] => false | a :: _ => (Z.to_nat (loc_first_row a) <=? r)%nat && (r <? N.to_nat n)%nat end) (rows_of intervals)).
Proof.
  intros m intervals l n Hok Hn Hi Hf Hpos. destruct (page_row_intervals_exact l n Hok) as [H1 _].
  destruct (H1 Hf) as (pages & E & Em). clear H1.
  assert (Hlen : length pages = length l) by (rewrite <- (map_length iv_bounds), Em; apply pages_length).
  pose proof (pages_iv_ok l n Hn 0%Z pages ltac:(lia) Hf Em) as Hpok.
  destruct (select_pages_list m intervals Hi pages l Hlen Hpok) as (S1 & _ & S3).
  destruct (S1 Hpos) as (sel & Es). destruct (S3 sel Es) as [F1 F2]. clear S1 S3.
  exists sel. split; [unfold select_pages; rewrite E; exact Es|]. split; [exact F1|].
  split; [|split].
  - rewrite <- Em, map_map. clear - F2. induction F2 as [|p pg sel ps H F IH]; [reflexivity|].
    cbn [map]. rewrite IH. f_equal. destruct H as [H _]. rewrite H. unfold iv_bounds. cbn. lia.
  - clear - F2. induction F2 as [|p pg sel ps H F IH]; constructor; auto. apply H.
  - intro Hs. split.
    + clear - F2 Hs. induction F2 as [|p pg sel ps H F IH]; constructor; auto. now apply H.
    + transitivity (concat (map (fun p => filter (in_page p) (rows_of intervals)) pages)).
      * assert (Hst : map (fun i => Z.of_N (iv_start i)) pages = map loc_first_row l).
        { clear - Em. revert pages Em. induction l as [|x r IH]; intros [|i ps] Em; try discriminate; [reflexivity|].
          injection Em as E1 E2 E3. cbn [map]. rewrite E1. f_equal. apply IH. exact E3. }
        clear - F2 Hst. f_equal. revert l Hst. induction F2 as [|p pg sel ps H F IH]; intros [|x r] Hst; try discriminate; [reflexivity|].
        injection Hst as E1 E2. cbn [combine map fst snd]. rewrite (IH r E2). f_equal.
        destruct H as (_ & H & _). rewrite <- H. apply map_ext. intro k. rewrite <- E1. lia.
      * destruct l as [|a r].
        -- destruct pages; [|discriminate]. cbn. symmetry. clear. induction (rows_of intervals) as [|y L IHL]; [reflexivity|exact IHL].
        -- apply partition_rows; [|exact Hs]. exact (consecutive_pages _ _ _ _ Hf ltac:(discriminate) Em).
Qed.
Print Assumptions select_pages_exact.

(** In particular: requested rows that all lie in the pages are returned exactly. *)
Theorem select_pages_all_rows : forall m intervals l n sel,
  locs_ok l -> n < 2 ^ 64 -> Forall iv_ok intervals -> sorted_disjoint intervals ->
  select_pages m intervals l n = Ok sel ->
  (forall r, In r (rows_of intervals) ->
     match l with [] => False | a :: _ => (Z.to_nat (loc_first_row a) <= r < N.to_nat n)%nat end) ->
  concat (map (fun x => map (Nat.add (Z.to_nat (loc_first_row (snd x)))) (rows_of (fp_selected (fst x)))) (combine sel l)) =
  rows_of intervals.
Proof.
  intros m intervals l n sel Hok Hn Hi Hs H Hin.
  assert (Hf : first_rows_ok 0 l n).
  { destruct l as [|a r]; [cbn; lia|].
    destruct (page_intervals_spec (a :: r) n 0 Hok ltac:(lia) ltac:(discriminate)) as [[(q & Hq & Eq & Hf) _]|[_ He]].
    - subst q. cbn in *. split; [lia|apply Hf].
    - unfold select_pages, compute_page_row_intervals in H. rewrite He in H. discriminate. }
  destruct (page_row_intervals_exact l n Hok) as [H1 _]. destruct (H1 Hf) as (pages & E & Em). clear H1.
  assert (Hlen : length pages = length l) by (rewrite <- (map_length iv_bounds), Em; apply pages_length).
  pose proof (pages_iv_ok l n Hn 0%Z pages ltac:(lia) Hf Em) as Hpok.
  destruct (select_pages_list m intervals Hi pages l Hlen Hpok) as (_ & S2 & S3).
  assert (Hpos : Forall (fun x => 0 <= loc_offset x /\ 0 <= loc_size x)%Z l).
  { unfold select_pages in H. rewrite E in H. cbn [bind] in H. destruct (S3 sel H) as [F1 _].
    clear - F1. induction F1 as [|p x sel l [E1 E2] F IH]; constructor; auto. lia. }
  destruct (select_pages_exact m intervals l n Hok Hn Hi Hf Hpos) as (sel' & E' & _ & _ & _ & H5).
  assert (sel' = sel) by congruence. subst sel'. destruct (H5 Hs) as [_ ->].
  clear - Hin. induction (rows_of intervals) as [|y L IH]; [reflexivity|]. cbn [filter].
  pose proof (Hin y (or_introl eq_refl)) as Hy. destruct l as [|a r]; [contradiction|].
  replace ((Z.to_nat (loc_first_row a) <=? y)%nat && (y <? N.to_nat n)%nat)%bool with true by lia.
  f_equal. apply IH. intros r' Hr'. apply Hin. now right.
Qed.
Print Assumptions select_pages_all_rows.

Example select_pages_case :
  sorted_disjoint [mk_iv 1 1; mk_iv 4 4] /\
  select_pages Checked [mk_iv 1 1; mk_iv 4 4] three_pages 10 =
    Ok [mk_fp 4 10 [mk_iv 1 1; mk_iv 4 1] 5; mk_fp 14 20 [mk_iv 0 2] 2; mk_fp 34 5 [mk_iv 0 1] 3].
Proof. split; [cbn; lia|]. vm_compute. reflexivity. Qed.

(** C24. The result is sorted and disjoint, and holds exactly the rows of the selected pages. *)
Lemma combine_sorted : forall pages selected a b, consecutive a pages b ->
  sorted_disjoint_from a (map snd (filter fst (combine selected pages))).
Proof.
  assert (W : forall s a b, (a <= b)%nat -> sorted_disjoint_from b s -> sorted_disjoint_from a s).
  { intros s a b Hab. destruct s; cbn; [trivial|]. intros [? ?]. split; [lia|assumption]. }
  induction pages as [|p ps IH]; intros [|x sel] a b H; cbn [combine filter map]; try exact I.
  destruct H as [H1 H2]. specialize (IH sel _ _ H2). destruct x; cbn [fst map snd sorted_disjoint_from].
  - split; [lia|]. rewrite H1. exact IH.
  - eapply W; [|exact IH]. lia.
Qed.

Theorem compute_rows_exact : forall selected l n pages, locs_ok l ->
  compute_page_row_intervals l n = Ok pages ->
  exists ivs, compute_rows selected l n = Ok ivs /\ sorted_disjoint ivs /\
    (forall r, In r (rows_of ivs) <->
       exists k page, nth_error pages k = Some page /\ nth_error selected k = Some true /\ In r (rows page)).
Proof.
  intros selected l n pages Hok E. unfold compute_rows. rewrite E. cbn [bind]. eexists. split; [reflexivity|]. split.
  - assert (C : exists a b, consecutive a pages b).
    { destruct l as [|a r]; [injection E as <-; now exists 0%nat, 0%nat|].
      destruct (page_intervals_spec (a :: r) n 0 Hok ltac:(lia) ltac:(discriminate)) as [[(q & Hq & Eq & Hf) (ivs & Ei & Em)]|[_ He]].
      - unfold compute_page_row_intervals in E. assert (ivs = pages) by congruence. subst ivs.
        eexists. eexists. exact (consecutive_pages (a :: r) n pages q Hf ltac:(discriminate) Em).
      - unfold compute_page_row_intervals in E. congruence. }
    destruct C as (a & b & C). pose proof (combine_sorted pages selected a b C) as H. unfold sorted_disjoint.
    destruct (map snd _); [exact I|]. destruct H as [_ H]. split; [lia|exact H].
  - clear E. revert selected. unfold rows_of. induction pages as [|p ps IH]; intros [|b sel] r; cbn [combine filter map concat].
    + split; [intros []|]. intros (k & pg & H & _). destruct k; discriminate.
    + split; [intros []|]. intros (k & pg & H & _). destruct k; discriminate.
    + split; [intros []|]. intros (k & pg & _ & H & _). destruct k; discriminate.
    + assert (T : In r (concat (map rows (map snd (filter fst (combine sel ps))))) <->
        exists k page, nth_error (p :: ps) (S k) = Some page /\ nth_error (b :: sel) (S k) = Some true /\ In r (rows page)).
      { rewrite IH. reflexivity. }
      destruct b; cbn [fst map concat snd].
      * rewrite in_app_iff, T. split.
        -- intros [H|(k & pg & H)]; [exists 0%nat, p; repeat split; exact H|exists (S k), pg; exact H].
        -- intros ([|k] & pg & H1 & H2 & H3); [left; cbn in H1; congruence|right; exists k, pg; auto].
      * rewrite T. split; [intros (k & pg & H); exists (S k), pg; exact H|].
        intros ([|k] & pg & H1 & H2 & H3); [discriminate|exists k, pg; auto].
Qed.
Print Assumptions compute_rows_exact.

Example compute_rows_case :
  compute_rows [true; false; true] three_pages 10 = Ok [mk_iv 0 5; mk_iv 7 3].
Proof. vm_compute. reflexivity. Qed.

(** C71. False: an empty page inside a requested interval gets an empty interval as selection. *)
Theorem select_pages_empty_interval_refuted : exists intervals l n sel,
  locs_ok l /\ first_rows_ok 0 l n /\ sorted_disjoint intervals /\ Forall non_empty intervals /\
  select_pages Checked intervals l n = Ok sel /\ ~ Forall (fun p => Forall non_empty (fp_selected p)) sel.
Proof.
  exists [mk_iv 0 4], [mk_loc 0 1 0; mk_loc 1 1 2; mk_loc 2 1 2], 4. eexists.
  split; [repeat constructor; cbn; lia|]. split; [cbn; lia|]. split; [cbn; lia|].
  split; [repeat constructor|]. split; [vm_compute; reflexivity|].
  intro H. apply Forall_inv_tail, Forall_inv in H. apply Forall_inv in H. unfold non_empty in H. cbn in H. lia.
Qed.
Print Assumptions select_pages_empty_interval_refuted.

(** It holds when no page is empty. *)
Theorem select_pages_non_empty : forall m intervals l n sel pages,
  locs_ok l -> n < 2 ^ 64 -> Forall iv_ok intervals -> Forall non_empty intervals ->
  compute_page_row_intervals l n = Ok pages -> Forall non_empty pages ->
  select_pages m intervals l n = Ok sel -> Forall (fun p => Forall non_empty (fp_selected p)) sel.
Proof.
  intros m intervals l n sel pages Hok Hn Hi Hne E Hpe H.
  assert (Hf : first_rows_ok 0 l n).
  { destruct l as [|a r]; [cbn; lia|].
    destruct (page_intervals_spec (a :: r) n 0 Hok ltac:(lia) ltac:(discriminate)) as [[(q & Hq & Eq & Hf) _]|[_ He]].
    - subst q. cbn in *. split; [lia|apply Hf].
    - unfold compute_page_row_intervals in E. congruence. }
  destruct (page_row_intervals_exact l n Hok) as [H1 _]. destruct (H1 Hf) as (pages' & E' & Em). clear H1.
  assert (pages' = pages) by congruence. subst pages'.
  assert (Hlen : length pages = length l) by (rewrite <- (map_length iv_bounds), Em; apply pages_length).
  pose proof (pages_iv_ok l n Hn 0%Z pages ltac:(lia) Hf Em) as Hpok.
  destruct (select_pages_list m intervals Hi pages l Hlen Hpok) as (_ & _ & S3).
  unfold select_pages in H. rewrite E in H. destruct (S3 sel H) as [_ F2]. clear - F2 Hpe Hne.
  induction F2 as [|p pg sel ps (_ & _ & _ & _ & Hx) F IH]; constructor.
  - apply Hx; [now inversion Hpe|exact Hne].
  - apply IH. now inversion Hpe.
Qed.
Print Assumptions select_pages_non_empty.
