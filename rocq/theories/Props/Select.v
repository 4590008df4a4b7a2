(** C71: what is selected inside pages, for any intervals and pages. *)
From Verif Require Import Base.Prelude Spec.RowsSpec Spec.SelectSpec Model.Types Model.Thrift Model.Intervals
  Proofs.TypesFacts Proofs.IntervalsProofs Props.Intervals.
Open Scope N_scope.

Lemma is_in_pieces m page l : iv_ok page -> Forall iv_ok l -> exists pieces, is_in m page l = Ok pieces /\ pieces_of page l pieces.
Proof.
  intros Hp. unfold iv_ok in Hp. induction 1 as [|i r Hi Hr (pieces & E & IH)]; [exists []; split; [reflexivity|constructor]|].
  unfold iv_ok in Hi. cbn [is_in]. unfold uadd at 1 2. rewrite (proj2 (N.ltb_lt _ _) Hi), (proj2 (N.ltb_lt _ _) Hp). cbn [bind]. rewrite E.
  clear Hp Hi. destruct page as [s k], i as [a b]. cbn [iv_start iv_length] in *.
  destruct (N.ltb_spec s (a + b)) as [H1|H1], (N.ltb_spec a (s + k)) as [H2|H2]; cbn [andb].
  2-4: exists pieces; split; [reflexivity|]; apply pieces_miss; [|exact IH]; unfold meet; cbn [iv_start iv_length]; lia.
  unfold usub. destruct (N.leb_spec s (N.max a s)); [|lia]. destruct (N.leb_spec (N.max a s) (N.min (a + b) (s + k))); [|lia]. cbn [bind].
  eexists. split; [reflexivity|]. apply pieces_meet; [unfold meet; cbn [iv_start iv_length]; lia | unfold common_part; cbn [iv_start iv_length]; lia | exact IH].
Qed.
Lemma select_list_pieces m intervals : Forall iv_ok intervals -> forall pages l sel, Forall iv_ok pages -> length pages = length l ->
  collect_res (map (select_page m intervals) (combine pages l)) = Ok sel -> Forall2 (fun p page => pieces_of page intervals (fp_selected p)) sel pages.
Proof.
  intros Hi. induction pages as [|p pages IH]; intros l sel Hp Hl E; destruct l as [|x l]; try discriminate.
  - apply Ok_inj in E. subst. constructor.
  - cbn [combine map collect_res] in E. destruct (is_in_pieces m p intervals (Forall_inv Hp) Hi) as (pieces & E1 & H1).
    unfold select_page at 1 in E. rewrite E1 in E. cbn [bind] in E.
    destruct (try_usize (loc_offset x)) as [a| |]; cbn [bind] in E; try discriminate.
    destruct (try_usize (loc_size x)) as [b| |]; cbn [bind] in E; try discriminate.
    destruct (collect_res _) as [sel'| |] eqn:E2; cbn [bind] in E; try discriminate. apply Ok_inj in E. subst sel.
    constructor; [exact H1|]. apply (IH l); [exact (Forall_inv_tail Hp) | cbn [length] in Hl; lia | exact E2].
Qed.

(** C71. For any intervals, in any order and overlapping ones included: each page's selection is its common parts with the intervals that meet it, in
    their order, counted from its first row. *)
Theorem selection_pieces m intervals l n sel pages :
  locs_ok l -> n < 2 ^ 64 -> Forall iv_ok intervals -> compute_page_row_intervals l n = Ok pages ->
  select_pages m intervals l n = Ok sel -> Forall2 (fun p page => pieces_of page intervals (fp_selected p)) sel pages.
Proof.
  intros Hok Hn Hi E H.
  assert (Hf : first_rows_ok 0 l n).
  { destruct l as [|a r]; [cbn; lia|].
    destruct (page_intervals_spec (a :: r) n 0 Hok ltac:(lia) ltac:(discriminate)) as [[(q & Hq & Eq & Hf) _]|[_ He]].
    - subst q. cbn in *. split; [lia|apply Hf].
    - unfold compute_page_row_intervals in E. congruence. }
  destruct (page_row_intervals_exact l n Hok) as [H1 _]. destruct (H1 Hf) as (pages' & E' & Em). clear H1.
  assert (pages' = pages) by congruence. subst pages'.
  unfold select_pages in H. rewrite E in H. cbn [bind] in H. apply (select_list_pieces m intervals Hi pages l sel); [|rewrite <- (map_length iv_bounds), Em; apply pages_length | exact H].
  exact (pages_iv_ok l n Hn 0%Z pages ltac:(lia) Hf Em).
Qed.
Print Assumptions selection_pieces.

Example selection_pieces_case :
  select_pages Checked [mk_iv 4 4; mk_iv 1 5] three_pages 10 =
    Ok [mk_fp 4 10 [mk_iv 4 1; mk_iv 1 4] 5; mk_fp 14 20 [mk_iv 0 2; mk_iv 0 1] 2; mk_fp 34 5 [mk_iv 0 1] 3].
Proof. vm_compute. reflexivity. Qed.

Lemma pieces_empty page : forall l pieces, pieces_of page l pieces ->
  (Exists (fun piece => iv_length piece = 0) pieces <-> Exists (fun i => empty_inside page i \/ empty_inside i page) l).
Proof.
  induction 1 as [|i piece l pieces Hm [C1 C2] Hp IH|i l pieces Hm Hp IH].
  - split; intros H; inversion H.
  - rewrite !Exists_cons, IH. unfold empty_inside. unfold meet in Hm. split; (intros [A|A]; [left|right; exact A]); lia.
  - rewrite Exists_cons, IH. unfold empty_inside. unfold meet in Hm. split; [intros A; right; exact A|]. intros [A|A]; [lia | exact A].
Qed.

(** C71. So the exact condition: an empty interval is selected exactly if an empty page lies strictly inside one of the intervals, or an empty interval
    strictly inside one of the pages. *)
Theorem empty_selection_exactly m intervals l n sel pages :
  locs_ok l -> n < 2 ^ 64 -> Forall iv_ok intervals -> compute_page_row_intervals l n = Ok pages ->
  select_pages m intervals l n = Ok sel ->
  (Exists (fun p => Exists (fun i => iv_length i = 0) (fp_selected p)) sel <->
   exists page i, In page pages /\ In i intervals /\ (empty_inside page i \/ empty_inside i page)).
Proof.
  intros Hok Hn Hi E H. pose proof (selection_pieces m intervals l n sel pages Hok Hn Hi E H) as F. clear - F. induction F as [|p page sel pages H F IH].
  - split; [intros H; inversion H | intros (? & ? & [] & _)].
  - rewrite Exists_cons, IH, (pieces_empty _ _ _ H). rewrite Exists_exists. split.
    + intros [(i & Hi & He)|(pg & i & H1 & H2 & H3)]; [exists page, i | exists pg, i]; (split; [|split; [|]]); auto; [left; reflexivity | right; exact H1].
    + intros (pg & i & [<-|H1] & H2 & H3); [left; exists i; auto | right; exists pg, i; auto].
Qed.
Print Assumptions empty_selection_exactly.

Example empty_selection_exactly_case :
  let pages := [mk_loc 0 1 0; mk_loc 1 1 2; mk_loc 2 1 2] in
  locs_ok pages /\ compute_page_row_intervals pages 4 = Ok [mk_iv 0 2; mk_iv 2 0; mk_iv 2 2] /\ empty_inside (mk_iv 2 0) (mk_iv 0 4) /\
  select_pages Checked [mk_iv 0 4] pages 4 = Ok [mk_fp 0 1 [mk_iv 0 2] 2; mk_fp 1 1 [mk_iv 0 0] 0; mk_fp 2 1 [mk_iv 0 2] 2] /\
  select_pages Checked [mk_iv 0 2; mk_iv 2 2] pages 4 = Ok [mk_fp 0 1 [mk_iv 0 2] 2; mk_fp 1 1 [] 0; mk_fp 2 1 [mk_iv 0 2] 2].
Proof. split; [repeat constructor; cbn; lia|]. split; [reflexivity|]. split; [split; cbn; lia|]. split; reflexivity. Qed.

(** C71. Intervals that end beyond 64 bits: with checked arithmetic the selection panics as soon as there is a page. *)
Theorem endless_interval_panics intervals l n pages :
  compute_page_row_intervals l n = Ok pages -> pages <> [] -> l <> [] -> Forall iv_ok pages -> ~ Forall iv_ok intervals ->
  select_pages Checked intervals l n = Panic.
Proof.
  intros E Hp Hl Hok Hi. unfold select_pages. rewrite E. cbn [bind]. destruct pages as [|p pages]; [contradiction|]. destruct l as [|x l]; [contradiction|].
  cbn [combine map collect_res]. unfold select_page at 1.
  assert (G : is_in Checked p intervals = Panic); [|rewrite G; reflexivity].
  apply Forall_inv in Hok. unfold iv_ok in Hok. clear - Hi Hok. induction intervals as [|i r IH]; [exfalso; apply Hi; constructor|]. cbn [is_in]. unfold uadd at 1.
  destruct (N.ltb_spec (iv_start i + iv_length i) (2 ^ 64)) as [H1|H1]; [|reflexivity]. cbn [bind].
  assert (Hr : ~ Forall iv_ok r) by (intros Hr; apply Hi; constructor; [exact H1 | exact Hr]). rewrite (IH Hr).
  unfold uadd. rewrite (proj2 (N.ltb_lt _ _) Hok). cbn [bind]. clear.
  set (s := N.max _ _). set (e := N.min _ _). destruct (_ && _); [|reflexivity]. unfold usub.
  destruct (_ <=? _); cbn [bind]; [|reflexivity]. destruct (_ <=? _); reflexivity.
Qed.
Print Assumptions endless_interval_panics.

Example endless_interval_panics_case :
  let endless := mk_iv 5 18446744073709551615 in
  compute_page_row_intervals three_pages 10 = Ok [mk_iv 0 5; mk_iv 5 2; mk_iv 7 3] /\ ~ iv_ok endless /\
  select_pages Checked [mk_iv 0 1; endless] three_pages 10 = Panic /\
  select_pages Wrapping [mk_iv 0 1; endless] three_pages 10 =
    Ok [mk_fp 4 10 [mk_iv 0 1] 5; mk_fp 14 20 [] 2; mk_fp 34 5 [] 3].
Proof. split; [reflexivity|]. split; [intros H; vm_compute in H; discriminate|]. split; reflexivity. Qed.
