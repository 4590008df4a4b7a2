(** Reducing statistics without conditions on the bounds. *)
From Verif Require Import Base.Prelude Base.LeFacts Model.Types Model.Native Model.Thrift Model.Statistics
  Spec.PlainSpec Spec.StatsSpec Spec.StatsExactSpec Proofs.TypesFacts Proofs.PlainProofs Proofs.StatsProofs.
Open Scope Z_scope.

Lemma fold_known {A} (op : A -> A -> A) : forall l acc,
  fold_left (reduce_single op) l acc = match known (acc :: l) with [] => None | x :: r => Some (fold_left op r x) end.
Proof.
  induction l as [|o l IH]; intros acc; cbn [fold_left]; [destruct acc; reflexivity|].
  rewrite IH, !known_cons. destruct acc as [x|], o as [y|]; cbn [reduce_single fold_left]; reflexivity.
Qed.

(** [reduce_chunk] without a meaning for the bounds. *)
Lemma reduce_chunk_folds {A B} m opmin opmax (wrap : B -> statistics)
  (get : B -> stats_of A) (re : B -> stats_of A -> statistics) pages first rest phys :
  known pages = first :: rest ->
  (forall b, In b (first :: rest) -> stats_physical (wrap b) = phys) ->
  reduce_by_type m phys (map wrap (first :: rest)) =
    (let* s := reduce_fold m opmin opmax (get first) (map get rest) in Ok (Some (re first s))) ->
  Forall (fun z => 0 <= z) (known (map (fun b => st_null_count (get b)) (known pages))) ->
  sum_Z (known (map (fun b => st_null_count (get b)) (known pages))) < 9223372036854775808 ->
  exists r, reduce_statistics m (map (option_map wrap) pages) = Ok (Some (re first r)) /\
    st_min r = match known (map (fun b => st_min (get b)) (known pages)) with [] => None | x :: l => Some (fold_left opmin l x) end /\
    st_max r = match known (map (fun b => st_max (get b)) (known pages)) with [] => None | x :: l => Some (fold_left opmax l x) end /\
    st_null_count r = known_sum (map (fun b => st_null_count (get b)) (known pages)).
Proof.
  intros E Hp Hd Hn Hs.
  rewrite (reduce_start m _ (wrap first) (map wrap rest) phys).
  2:{ rewrite known_map_opt, E. reflexivity. }
  2:{ intros s Hin. change (wrap first :: map wrap rest) with (map wrap (first :: rest)) in Hin.
      apply in_map_iff in Hin as (b & <- & Hb). apply Hp, Hb. }
  change (wrap first :: map wrap rest) with (map wrap (first :: rest)). rewrite Hd.
  rewrite E in *.
  rewrite <- (map_map get st_min), <- (map_map get st_max), <- (map_map get st_null_count) in *.
  cbn [map] in *.
  destruct (reduce_fold_count m opmin opmax (map get rest) (get first) Hn Hs) as (r & Hr & Hc).
  destruct (reduce_fold_min m opmin opmax (map get rest) (get first) r Hr) as (E1 & E2 & _).
  exists r. rewrite Hr. cbn [bind]. rewrite E1, E2, !fold_known. auto.
Qed.

(** Byte strings. *)
Lemma ord_go_below y x b : ord_go y x = Lt -> ord_go x b <> Gt -> ord_go y b <> Gt.
Proof.
  revert x b. induction y as [|v y IH]; intros [|u x] [|t b]; cbn [ord_go]; try discriminate.
  destruct (N.compare_spec v u) as [->|H|H]; [| |discriminate].
  - intros H1 H2. destruct (u ?= t)%N; [|discriminate|congruence]. exact (IH x b H1 H2).
  - intros _ H2. destruct (N.compare_spec u t) as [->|H'|H']; [| |congruence];
      (assert (Hl : (v < t)%N) by lia; apply N.compare_lt_iff in Hl; rewrite Hl; discriminate).
Qed.
Lemma ord_go_refl x : ord_go x x <> Gt.
Proof. induction x as [|v x IH]; cbn [ord_go]; [discriminate|]. rewrite N.compare_refl. exact IH. Qed.
Lemma ord_go_flip a b : ord_go b a = CompOpp (ord_go a b).
Proof. rewrite !ord_go_zip. apply ord_zip_antisym. Qed.

Lemma fold_low : forall l x, let v := fold_left (select_binary false) l x in
  In v (x :: l) /\ forall b, ord_go x b <> Gt \/ In b l -> ord_go v b <> Gt.
Proof.
  induction l as [|y l IH]; intros x; cbn [fold_left]; cbv zeta.
  - split; [left; reflexivity|]. intros b [H|[]]; exact H.
  - destruct (IH (select_binary false x y)) as [H1 H2]. cbv zeta in H1, H2. unfold select_binary in *.
    destruct (ord_go x y) eqn:E.
    + split; [destruct H1 as [H1|H1]; [left|right; right]; exact H1|].
      intros b [H|[<-|H]]; apply H2; [left; exact H | left; congruence | right; exact H].
    + split; [destruct H1 as [H1|H1]; [left|right; right]; exact H1|].
      intros b [H|[<-|H]]; apply H2; [left; exact H | left; congruence | right; exact H].
    + split; [destruct H1 as [H1|H1]; [right; left|right; right]; exact H1|].
      assert (E' : ord_go y x = Lt) by (rewrite ord_go_flip, E; reflexivity).
      intros b [H|[<-|H]]; apply H2; [left; exact (ord_go_below _ _ _ E' H) | left; apply ord_go_refl | right; exact H].
Qed.
Lemma fold_high : forall l x, let v := fold_left (select_binary true) l x in
  In v (x :: l) /\ forall b, ord_go b x <> Gt \/ In b l -> ord_go b v <> Gt.
Proof.
  assert (A : forall y x b, ord_go x y = Lt -> ord_go b x <> Gt -> ord_go b y <> Gt).
  { induction y as [|v y IH]; intros [|u x] [|t b]; cbn [ord_go]; try discriminate.
    destruct (N.compare_spec u v) as [->|H|H]; [| |discriminate].
    - intros H1 H2. destruct (t ?= v)%N; [|discriminate|congruence]. exact (IH x b H1 H2).
    - intros _ H2. destruct (N.compare_spec t u) as [->|H'|H']; [| |congruence];
        match goal with |- context [(?a ?= v)%N] => assert (Hl : (a < v)%N) by lia; apply N.compare_lt_iff in Hl; rewrite Hl; discriminate end. }
  induction l as [|y l IH]; intros x; cbn [fold_left]; cbv zeta.
  - split; [left; reflexivity|]. intros b [H|[]]; exact H.
  - destruct (IH (select_binary true x y)) as [H1 H2]. cbv zeta in H1, H2. unfold select_binary in *.
    destruct (ord_go x y) eqn:E.
    + split; [destruct H1 as [H1|H1]; [left|right; right]; exact H1|].
      intros b [H|[<-|H]]; apply H2; [left; exact H | left; rewrite ord_go_flip, E; discriminate | right; exact H].
    + split; [destruct H1 as [H1|H1]; [right; left|right; right]; exact H1|].
      intros b [H|[<-|H]]; apply H2; [left; exact (A _ _ _ E H) | left; apply ord_go_refl | right; exact H].
    + split; [destruct H1 as [H1|H1]; [left|right; right]; exact H1|].
      intros b [H|[<-|H]]; apply H2; [left; exact H | left; rewrite ord_go_flip, E; discriminate | right; exact H].
Qed.
Lemma ord_go_low v b : ord_go v b <> Gt <-> low_but_prefixes v b.
Proof.
  unfold low_but_prefixes, prefix_of, lex_le. rewrite ord_go_zip. destruct (ord_zip v b) eqn:E.
  - split; [intros _|discriminate]. apply ord_zip_eq in E as [(r & ->)|(r & ->)]; [|right; eexists; reflexivity].
    left. destruct r as [|a r]; [left; rewrite app_nil_r; reflexivity|right].
    induction v as [|t v IH]; cbn [app]; [apply lex_nil | apply lex_tail, IH].
  - split; [intros _; left; right; apply ord_zip_lt in E; tauto | discriminate].
  - split; [congruence|]. intros H _. assert (E' : ord_zip b v = Lt) by (rewrite ord_zip_antisym, E; reflexivity).
    apply ord_zip_lt in E' as [E1 E2].
    destruct H as [[->|H]|(r & ->)].
    + exact (lex_lt_irrefl _ E1).
    + exact (lex_lt_irrefl _ (lex_lt_trans _ _ _ H E1)).
    + apply E2. eexists. reflexivity.
Qed.

Lemma ord_go_high v b : ord_go b v <> Gt <-> high_but_prefixes v b.
Proof.
  rewrite ord_go_low. unfold low_but_prefixes, high_but_prefixes. tauto.
Qed.

(** Floats. *)
Section floats.
  Context (w inf : N).
  Definition f_gt (x y : N) : bool := match float_partial_cmp w inf x y with Some Gt => true | _ => false end.
  Definition f_min (x y : N) : N := if f_gt x y then y else x.
  Definition f_max (x y : N) : N := if f_gt x y then x else y.

  Lemma f_gt_nan_l x y : is_nan w inf x -> f_gt x y = false.
  Proof. unfold is_nan, f_gt, float_partial_cmp. intros ->. reflexivity. Qed.
  Lemma f_gt_nan_r x y : is_nan w inf y -> f_gt x y = false.
  Proof. unfold is_nan, f_gt, float_partial_cmp. intros ->. rewrite Bool.orb_true_r. reflexivity. Qed.

  Lemma fold_min_nan l x : is_nan w inf x -> fold_left f_min l x = x.
  Proof. intros H. induction l as [|y l IH]; cbn [fold_left]; [reflexivity|]. unfold f_min at 2. rewrite (f_gt_nan_l x y H). exact IH. Qed.
  Lemma fold_min_skips l : forall x, no_nan w inf x -> fold_left f_min l x = fold_left f_min (filter (fun b => negb (float_nan w inf b)) l) x.
  Proof.
    induction l as [|y l IH]; intros x Hx; cbn [fold_left filter]; [reflexivity|].
    destruct (float_nan w inf y) eqn:Ey; cbn [negb].
    - unfold f_min at 2. rewrite (f_gt_nan_r x y Ey). apply IH, Hx.
    - cbn [fold_left]. apply IH. unfold f_min. destruct (f_gt x y); assumption.
  Qed.
  Lemma fold_some (op : N -> N -> N) l x : Some (fold_left op l x) = fold_left (reduce_single op) (map Some l) (Some x).
  Proof. rewrite fold_known, known_cons. f_equal. f_equal. induction l as [|y l IH]; [reflexivity|]. cbn [map]. rewrite known_cons, <- IH. reflexivity. Qed.
  Lemma known_somes {A} (l : list A) : known (map Some l) = l.
  Proof. induction l as [|y l IH]; [reflexivity|]. cbn [map]. rewrite known_cons, IH. reflexivity. Qed.

  Lemma min_is x l : min_with_nans w inf (x :: l) (Some (fold_left f_min l x)).
  Proof.
    split; [intros H; rewrite fold_min_nan by exact H; reflexivity|]. intros H.
    rewrite fold_min_skips by exact H. cbn [filter]. unfold no_nan in H. rewrite H. cbn [negb].
    rewrite fold_some. set (k := filter _ l).
    pose proof (fold_single (not_nan w inf) _ _ (picks_float_min w inf) (map Some k) (Some x)) as F.
    rewrite known_cons, known_somes in F. apply F. constructor; [exact H|].
    apply Forall_forall. intros b Hb. apply filter_In in Hb as [_ Hb]. unfold not_nan. destruct (float_nan w inf b); [discriminate|reflexivity].
  Qed.

  Lemma max_is : forall l x, max_with_nans w inf (x :: l) (Some (fold_left f_max l x)).
  Proof.
    intros l. induction l as [|y l IH] using rev_ind; intros x.
    - cbn [fold_left]. destruct (float_nan w inf x) eqn:Ex.
      + exists [x], []. split; [reflexivity|]. split; [constructor|]. split; [right; exists [], x; auto|].
        intros [H|H]; [congruence|discriminate].
      + exists [], [x]. split; [reflexivity|]. split; [constructor; [exact Ex|constructor]|]. split; [left; reflexivity|]. intros _.
        split; [left; reflexivity|]. constructor; [lia|constructor].
    - rewrite fold_left_app. cbn [fold_left]. set (v := fold_left f_max l x) in *. destruct (IH x) as (before & after & E & Ha & Hb & Hx).
      fold v in Hb, Hx. change (x :: l ++ [y]) with ((x :: l) ++ [y]). unfold f_max. destruct (float_nan w inf y) eqn:Ey.
      + rewrite (f_gt_nan_r v y Ey). exists ((x :: l) ++ [y]), []. split; [rewrite app_nil_r; reflexivity|]. split; [constructor|].
        split; [right; exists (x :: l), y; auto|]. intros [H|H]; [congruence | destruct (x :: l); discriminate].
      + exists before, (after ++ [y]). split; [rewrite E, app_assoc; reflexivity|].
        split; [apply Forall_app; split; [exact Ha | constructor; [exact Ey | constructor]]|].
        split; [destruct Hb as [Hb|(f & n & Hb & Hn & _)]; [left; exact Hb | right; exists f, n; split; [exact Hb|]; split; [exact Hn | destruct after; discriminate]]|].
        intros _. destruct after as [|a after].
        * destruct Hb as [->|(f & n & -> & Hn & Hv)]; [discriminate E|]. specialize (Hv eq_refl). injection Hv as ->.
          rewrite (f_gt_nan_l n y Hn). cbn [app extreme]. split; [left; reflexivity|]. constructor; [lia|constructor].
        * assert (Hne : a :: after <> [] \/ before = []) by (left; discriminate). specialize (Hx Hne). destruct Hx as [Hin Hall].
          assert (Hv : no_nan w inf v) by (rewrite Forall_forall in Ha; exact (Ha v Hin)).
          unfold f_gt, float_partial_cmp. unfold no_nan in Hv. rewrite Hv, Ey. cbn [orb].
          cbn [extreme]. destruct (Z.compare_spec (float_key w v) (float_key w y)) as [Hc|Hc|Hc];
            (split; [apply in_or_app; first [ left; exact Hin | right; left; reflexivity ]|]); apply Forall_app;
            (split; [|constructor; [lia|constructor]]); [| |exact Hall];
            (eapply Forall_impl; [|exact Hall]; cbn beta; intros q Hq; lia).
  Qed.
End floats.

(** Unsigned numbers. *)
Lemma of_signed_top w z : (0 < w)%N -> - 2 ^ (Z.of_N w - 1) <= z < 2 ^ (Z.of_N w - 1) ->
  (has_top_bit w z <-> z < 0) /\ Z.of_N (of_signed w z) = (if z <? 0 then z + 2 ^ Z.of_N w else z).
Proof.
  intros Hw Hz. unfold has_top_bit, of_signed.
  assert (P : 2 ^ Z.of_N w = 2 * 2 ^ (Z.of_N w - 1)) by (rewrite <- Z.pow_succ_r by lia; f_equal; lia).
  assert (Q : Z.of_N (2 ^ (w - 1)) = 2 ^ (Z.of_N w - 1)) by (rewrite N2Z.inj_pow, N2Z.inj_sub by lia; reflexivity).
  rewrite P. set (h := 2 ^ (Z.of_N w - 1)) in *. set (hn := (2 ^ (w - 1))%N) in *. clearbody h hn. clear P.
  destruct (Z.ltb_spec z 0) as [Hn|Hn].
  - assert (E : z mod (2 * h) = z + 2 * h) by (symmetry; apply (Z.mod_unique z (2 * h) (-1)); lia).
    rewrite E. lia.
  - rewrite Z.mod_small by lia. lia.
Qed.
Lemma unsigned_min w l o : (0 < w)%N -> Forall (fun z => - 2 ^ (Z.of_N w - 1) <= z < 2 ^ (Z.of_N w - 1)) l ->
  extreme Z.le l o -> min_of_unsigned w l o.
Proof.
  intros Hw Hl. rewrite Forall_forall in Hl. unfold extreme, min_of_unsigned. destruct o as [v|]; [|auto]. intros [Hin Hall].
  rewrite Forall_forall in Hall. split; [exact Hin|]. destruct (of_signed_top w v Hw (Hl v Hin)) as [Tv Ev].
  split.
  - intros (x & Hx & Ht). destruct (of_signed_top w x Hw (Hl x Hx)) as [Tx _]. rewrite Tv. rewrite Tx in Ht. specialize (Hall x Hx). lia.
  - intros x Hx Hb. destruct (of_signed_top w x Hw (Hl x Hx)) as [Tx Ex]. rewrite Tx, Tv in Hb. specialize (Hall x Hx).
    apply N2Z.inj_le. rewrite Ex, Ev. set (h := 2 ^ Z.of_N w). clearbody h. destruct (Z.ltb_spec x 0), (Z.ltb_spec v 0); lia.
Qed.
Lemma unsigned_max w l o : (0 < w)%N -> Forall (fun z => - 2 ^ (Z.of_N w - 1) <= z < 2 ^ (Z.of_N w - 1)) l ->
  extreme Z.ge l o -> max_of_unsigned w l o.
Proof.
  intros Hw Hl. rewrite Forall_forall in Hl. unfold extreme, max_of_unsigned. destruct o as [v|]; [|auto]. intros [Hin Hall].
  rewrite Forall_forall in Hall. split; [exact Hin|]. destruct (of_signed_top w v Hw (Hl v Hin)) as [Tv Ev].
  split.
  - intros (x & Hx & Ht). destruct (of_signed_top w x Hw (Hl x Hx)) as [Tx _]. rewrite Tv. rewrite Tx in Ht. specialize (Hall x Hx). lia.
  - intros x Hx Hb. destruct (of_signed_top w x Hw (Hl x Hx)) as [Tx Ex]. rewrite Tx, Tv in Hb. specialize (Hall x Hx).
    apply N2Z.inj_le. rewrite Ex, Ev. set (h := 2 ^ Z.of_N w). clearbody h. destruct (Z.ltb_spec x 0), (Z.ltb_spec v 0); lia.
Qed.
