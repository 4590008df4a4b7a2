(** Proofs about page row intervals and page selection. *)
From Verif Require Import Base.Prelude Spec.RowsSpec Model.Types Model.Thrift Model.Intervals Proofs.TypesFacts.
Open Scope N_scope.

Lemma collect_ok {A} (l : list A) : collect_res (map Ok l) = Ok l.
Proof. induction l as [|a l IH]; cbn; [reflexivity|now rewrite IH]. Qed.

Lemma collect_inv {A} (l : list (res A)) r : collect_res l = Ok r -> l = map Ok r.
Proof.
  revert r. induction l as [|x l IH]; cbn; intros r H; [now injection H as <-|].
  destruct x as [a| |]; cbn in H; try discriminate. destruct (collect_res l) as [r'| |]; cbn in H; try discriminate.
  injection H as <-. cbn. now rewrite (IH r').
Qed.

Lemma window_spec a b :
  (- 2 ^ 63 <= a < 2 ^ 63)%Z -> (- 2 ^ 63 <= b < 2 ^ 63)%Z ->
  (0 <= a /\ a <= b)%Z /\ (exists i, window_interval a b = Ok i /\ iv_bounds i = (a, b)) \/
  ~ (0 <= a /\ a <= b)%Z /\ window_interval a b = Err OutOfSpec.
Proof.
  intros Ha Hb. unfold window_interval, try_usize, iv_bounds.
  destruct (Z.ltb_spec a 0); cbn [bind]; [right; split; [lia|reflexivity]|].
  unfold in_s. change (2 ^ (Z.of_N 64 - 1))%Z with (2 ^ 63)%Z.
  destruct (_ && _)%bool eqn:E; [|right; split; [lia|reflexivity]].
  destruct (Z.ltb_spec (b - a) 0); cbn [bind]; [right; split; [lia|reflexivity]|].
  left. split; [lia|]. eexists. split; [reflexivity|]. cbn. rewrite !Z2N.id by lia. f_equal. lia.
Qed.

Lemma last_spec a n :
  (0 <= a /\ a <= Z.of_N n)%Z /\ (exists i, last_interval a n = Ok i /\ iv_bounds i = (a, Z.of_N n)) \/
  ~ (0 <= a /\ a <= Z.of_N n)%Z /\ last_interval a n = Err OutOfSpec.
Proof.
  unfold last_interval, try_usize, iv_bounds. destruct (Z.ltb_spec a 0); cbn [bind]; [right; split; [lia|reflexivity]|].
  destruct (N.ltb_spec n (Z.to_N a)); [right; split; [lia|reflexivity]|].
  left. split; [lia|]. eexists. split; [reflexivity|]. cbn. f_equal; lia.
Qed.


Lemma page_intervals_spec l n p : locs_ok l -> (p <= 0)%Z ->
  l <> [] ->
  (exists q, (0 <= q)%Z /\ match l with a :: _ => loc_first_row a = q | [] => False end /\ first_rows_ok q l n) /\
    (exists ivs, collect_res (page_intervals l n) = Ok ivs /\ map iv_bounds ivs = pages_of l n) \/
  ~ (exists q, (0 <= q)%Z /\ match l with a :: _ => loc_first_row a = q | [] => False end /\ first_rows_ok q l n) /\
    collect_res (page_intervals l n) = Err OutOfSpec.
Proof.
  intros Hok Hp. clear p Hp. induction l as [|a r IH]; [contradiction|intros _].
  inversion Hok as [|? ? Ha Hr]; subst. destruct r as [|b r].
  - cbn [page_intervals collect_res pages_of map]. destruct (last_spec (loc_first_row a) n) as [[H (i & E & Eb)]|[H E]]; rewrite E; cbn [bind].
    + left. split.
      * exists (loc_first_row a). cbn. repeat split; lia.
      * eexists. split; [reflexivity|]. cbn. now rewrite Eb.
    + right. split; [|reflexivity]. intros (q & Hq & Eq & Hf). cbn in Hf. apply H. lia.
  - change (page_intervals (a :: b :: r) n) with
      (window_interval (loc_first_row a) (loc_first_row b) :: page_intervals (b :: r) n).
    change (pages_of (a :: b :: r) n) with ((loc_first_row a, loc_first_row b) :: pages_of (b :: r) n).
    cbn [collect_res]. inversion Hr as [|? ? Hb _]; subst.
    destruct (window_spec (loc_first_row a) (loc_first_row b) Ha Hb) as [[H (i & E & Eb)]|[H E]]; rewrite E; cbn [bind].
    + specialize (IH Hr ltac:(discriminate)). destruct IH as [[(q & Hq & Eq & Hf) (ivs & Ei & Em)]|[Hn Ee]].
      * left. split.
        -- exists (loc_first_row a). split; [lia|]. split; [reflexivity|].
           cbn [first_rows_ok] in Hf |- *. subst q. repeat split; try lia; apply Hf.
        -- rewrite Ei. cbn [bind]. eexists. split; [reflexivity|].
           cbn [map]. rewrite Em, Eb. reflexivity.
      * right. rewrite Ee. split; [|reflexivity]. intros (q & Hq & Eq & Hf). apply Hn.
        exists (loc_first_row b). cbn [first_rows_ok] in Hf |- *. split; [lia|]. split; [reflexivity|].
        repeat split; try lia; apply Hf.
    + right. split; [|reflexivity]. intros (q & Hq & Eq & Hf). cbn [first_rows_ok] in Hf. apply H. lia.
Qed.

Lemma pages_length l n : length (pages_of l n) = length l.
Proof. induction l as [|a r IH]; [reflexivity|]. cbn [pages_of length]. now rewrite IH. Qed.

(** Intervals with given bounds. *)
Lemma rows_in r i : In r (rows i) <-> (fst (iv_bounds i) <= Z.of_nat r < snd (iv_bounds i))%Z.
Proof. unfold rows, iv_bounds. rewrite in_seq. cbn. lia. Qed.

Lemma rows_bounds i a b : iv_bounds i = (a, b) -> rows i = seq (Z.to_nat a) (Z.to_nat (b - a)).
Proof. unfold iv_bounds, rows. intros [= <- <-]. f_equal; lia. Qed.

(** Clipping. *)
Lemma filter_seq_clip lo hi a n : (lo <= hi)%nat ->
  filter (fun r => (lo <=? r)%nat && (r <? hi)%nat) (seq a n) =
  seq (Nat.max lo a) (Nat.min hi (a + n) - Nat.max lo a).
Proof.
  intro H. revert a. induction n as [|n IH]; intro a.
  - cbn. replace (_ - _)%nat with 0%nat by lia. reflexivity.
  - cbn [seq filter]. rewrite IH. destruct (Nat.leb_spec lo a), (Nat.ltb_spec a hi); cbn [andb].
    + replace (Nat.max lo a) with a by lia. replace (Nat.max lo (S a)) with (S a) by lia.
      replace (Nat.min hi (a + S n) - a)%nat with (S (Nat.min hi (S a + n) - S a)) by lia. reflexivity.
    + replace (Nat.min hi (a + S n) - Nat.max lo a)%nat with 0%nat by lia.
      replace (Nat.min hi (S a + n) - Nat.max lo (S a))%nat with 0%nat by lia. reflexivity.
    + replace (Nat.max lo (S a)) with lo by lia. replace (Nat.max lo a) with lo by lia.
      replace (S a + n)%nat with (a + S n)%nat by lia. reflexivity.
    + replace (Nat.min hi (a + S n) - Nat.max lo a)%nat with 0%nat by lia.
      replace (Nat.min hi (S a + n) - Nat.max lo (S a))%nat with 0%nat by lia. reflexivity.
Qed.

Definition in_page (p : interval) (r : nat) : bool :=
  (N.to_nat (iv_start p) <=? r)%nat && (r <? N.to_nat (iv_start p) + N.to_nat (iv_length p))%nat.

Lemma map_add_seq k a n : map (Nat.add k) (seq a n) = seq (k + a) n.
Proof. revert a. induction n as [|n IH]; intro a; cbn; [reflexivity|]. f_equal. rewrite IH. f_equal. lia. Qed.

Lemma is_in_spec m probe l :
  iv_ok probe -> Forall iv_ok l ->
  exists sel, is_in m probe l = Ok sel /\
    map (Nat.add (N.to_nat (iv_start probe))) (rows_of sel) = filter (in_page probe) (rows_of l) /\
    Forall (fun i => iv_start i + iv_length i <= iv_length probe) sel /\
    (sorted_disjoint l -> sorted_disjoint sel) /\
    (non_empty probe -> Forall non_empty l -> Forall non_empty sel).
Proof.
  intros Hp. unfold iv_ok in Hp.
  assert (G : forall l, Forall iv_ok l -> exists sel, is_in m probe l = Ok sel /\
    map (Nat.add (N.to_nat (iv_start probe))) (rows_of sel) = filter (in_page probe) (rows_of l) /\
    Forall (fun i => iv_start i + iv_length i <= iv_length probe) sel /\
    (forall k, sorted_disjoint_from k l -> sorted_disjoint_from (k - N.to_nat (iv_start probe)) sel) /\
    (non_empty probe -> Forall non_empty l -> Forall non_empty sel)).
  2: { intro Hl. destruct (G l Hl) as (sel & H1 & H2 & H3 & H4 & H5). exists sel. repeat split; auto. apply (H4 0%nat). }
  induction 1 as [|i r Hi Hr IH].
  - exists []. cbn. repeat split; constructor.
  - destruct IH as (sel & E & Erows & Hb & Hs & Hne). unfold iv_ok in Hi. cbn [is_in].
    unfold uadd at 1 2. rewrite (proj2 (N.ltb_lt _ _) Hi), (proj2 (N.ltb_lt _ _) Hp). cbn [bind].
    assert (Hcl : filter (in_page probe) (rows i) =
      seq (Nat.max (N.to_nat (iv_start probe)) (N.to_nat (iv_start i)))
        (Nat.min (N.to_nat (iv_start probe) + N.to_nat (iv_length probe)) (N.to_nat (iv_start i) + N.to_nat (iv_length i)) -
         Nat.max (N.to_nat (iv_start probe)) (N.to_nat (iv_start i)))).
    { unfold in_page, rows. apply filter_seq_clip. lia. }
    unfold rows_of in *. cbn [map concat]. rewrite filter_app, Hcl.
    destruct (_ && _)%bool eqn:Eo.
    + unfold usub. replace (iv_start probe <=? N.max (iv_start i) (iv_start probe)) with true by lia.
      cbn [bind].
      replace (N.max (iv_start i) (iv_start probe) <=? N.min (iv_start i + iv_length i) (iv_start probe + iv_length probe)) with true by lia.
      cbn [bind]. rewrite E. cbn [bind]. eexists. split; [reflexivity|].
      split; [|split; [|split]].
      * cbn [map concat]. rewrite map_app, Erows. f_equal. unfold rows. cbn [iv_start iv_length].
        rewrite map_add_seq. f_equal; lia.
      * constructor; [cbn [iv_start iv_length]; lia|exact Hb].
      * intros k [H1 H2]. cbn [sorted_disjoint_from iv_start iv_length]. split; [lia|].
        specialize (Hs _ H2). 
        assert (W : forall a b s, (a <= b)%nat -> sorted_disjoint_from b s -> sorted_disjoint_from a s).
        { intros a b s Hab. destruct s; cbn; [trivial|]. intros [? ?]. split; [lia|assumption]. }
        eapply W; [|exact Hs]. lia.
      * intros Hpn Hn. inversion Hn as [|? ? H1 H2]; subst. constructor; [|now apply Hne].
        unfold non_empty in *. cbn [iv_length]. lia.
    + exists sel. split; [exact E|]. split; [|split; [exact Hb|split]].
      * rewrite Erows. replace (_ - _)%nat with 0%nat by lia. reflexivity.
      * intros k [H1 H2]. specialize (Hs _ H2).
        assert (W : forall a b s, (a <= b)%nat -> sorted_disjoint_from b s -> sorted_disjoint_from a s).
        { intros a b s Hab. destruct s; cbn; [trivial|]. intros [? ?]. split; [lia|assumption]. }
        eapply W; [|exact Hs]. lia.
      * intros Hpn Hn. inversion Hn as [|? ? H1 H2]; subst. now apply Hne.
Qed.

(** Consecutive pages partition the rows, so clipping page by page and gluing loses nothing. *)
Fixpoint consecutive (a : nat) (l : list interval) (b : nat) : Prop :=
  match l with
  | [] => a = b
  | i :: r => N.to_nat (iv_start i) = a /\ consecutive (a + N.to_nat (iv_length i)) r b
  end.

Lemma consecutive_rows l : forall a b, consecutive a l b -> (a <= b)%nat /\ rows_of l = seq a (b - a).
Proof.
  induction l as [|i r IH]; cbn [consecutive]; intros a b H.
  - subst. rewrite Nat.sub_diag. now split.
  - destruct H as [H1 H2]. destruct (IH _ _ H2) as [H3 H4]. split; [lia|].
    unfold rows_of in *. cbn [map concat]. rewrite H4. unfold rows. rewrite H1.
    rewrite <- seq_app. f_equal. lia.
Qed.

Lemma filter_split_sorted (f : nat -> bool) s t u : (s <= t <= u)%nat -> forall l k,
  sorted_disjoint_from k l ->
  filter (fun r => (s <=? r)%nat && (r <? u)%nat) (rows_of l) =
  filter (fun r => (s <=? r)%nat && (r <? t)%nat) (rows_of l) ++
  filter (fun r => (t <=? r)%nat && (r <? u)%nat) (rows_of l).
Proof.
  intros Hst. unfold rows_of.
  (* rows of a sorted list form a strictly increasing sequence *)
  assert (G : forall L : list nat, (forall i j, (i < j < length L)%nat -> (nth i L 0 < nth j L 0)%nat) ->
    filter (fun r => (s <=? r)%nat && (r <? u)%nat) L =
    filter (fun r => (s <=? r)%nat && (r <? t)%nat) L ++ filter (fun r => (t <=? r)%nat && (r <? u)%nat) L).
  { induction L as [|x L IH]; intro H; [reflexivity|]. cbn [filter].
    rewrite IH by (intros i j Hij; apply (H (S i) (S j)); cbn; lia).
    assert (Hx : forall y, In y L -> (x < y)%nat).
    { intros y Hy. destruct (In_nth _ _ 0%nat Hy) as (n & Hn & <-). apply (H 0%nat (S n)). cbn. lia. }
    destruct (Nat.ltb_spec x t).
    - replace ((t <=? x)%nat) with false by lia. cbn [andb].
      replace (x <? u)%nat with true by lia. destruct (s <=? x)%nat; cbn [andb app]; reflexivity.
    - rewrite andb_false_r. cbn [app].
      replace (filter (fun r => (s <=? r)%nat && (r <? t)%nat) L) with (@nil nat).
      + cbn [app]. replace (s <=? x)%nat with true by lia. replace (t <=? x)%nat with true by lia. reflexivity.
      + symmetry. clear IH H. induction L as [|y L IH]; [reflexivity|]. cbn [filter].
        pose proof (Hx y (or_introl eq_refl)). replace (y <? t)%nat with false by lia. rewrite andb_false_r.
        apply IH. intros z Hz. apply Hx. now right. }
  intros l k H. apply G.
  assert (K : forall l k, sorted_disjoint_from k l ->
    (forall y, In y (concat (map rows l)) -> (k <= y)%nat) /\
    (forall i j, (i < j < length (concat (map rows l)))%nat -> (nth i (concat (map rows l)) 0 < nth j (concat (map rows l)) 0)%nat)).
  { clear. induction l as [|i r IH]; intros k H; [cbn; split; [tauto|intros; lia]|]. destruct H as [H1 H2].
    destruct (IH _ H2) as [IH1 IH2]. cbn [map concat]. split.
    - intros y Hy. apply in_app_or in Hy as [Hy|Hy].
      + unfold rows in Hy. apply in_seq in Hy. lia.
      + apply IH1 in Hy. lia.
    - intros a b [Hab Hb]. rewrite app_length in Hb. unfold rows at 1 3. unfold rows at 1 in Hb. rewrite seq_length in Hb.
      destruct (Nat.lt_ge_cases b (N.to_nat (iv_length i))) as [L|L].
      + rewrite !app_nth1 by (rewrite seq_length; lia). rewrite !seq_nth by lia. lia.
      + destruct (Nat.lt_ge_cases a (N.to_nat (iv_length i))) as [L2|L2].
        * rewrite app_nth1 by (rewrite seq_length; lia). rewrite seq_nth by lia.
          rewrite app_nth2 by (rewrite seq_length; lia). rewrite seq_length.
          assert (In (nth (b - N.to_nat (iv_length i)) (concat (map rows r)) 0%nat) (concat (map rows r))) as Hin
            by (apply nth_In; lia).
          apply IH1 in Hin. lia.
        * rewrite !app_nth2 by (rewrite seq_length; lia). rewrite seq_length. apply IH2. lia. }
  apply (K l k H).
Qed.

Lemma partition_rows pages l : forall a b, consecutive a pages b -> sorted_disjoint l ->
  concat (map (fun p => filter (in_page p) (rows_of l)) pages) =
  filter (fun r => (a <=? r)%nat && (r <? b)%nat) (rows_of l).
Proof.
  induction pages as [|p r IH]; intros a b H Hs; cbn [consecutive map concat] in *.
  - subst b. symmetry. induction (rows_of l) as [|x L IHL]; [reflexivity|]. cbn [filter].
    replace ((a <=? x)%nat && (x <? a)%nat)%bool with false by lia. exact IHL.
  - destruct H as [H1 H2]. pose proof (consecutive_rows _ _ _ H2) as [H3 _]. rewrite (IH _ _ H2 Hs).
    unfold in_page. rewrite H1.
    rewrite (filter_split_sorted (fun _ => true) a (a + N.to_nat (iv_length p)) b ltac:(lia) l 0 Hs). reflexivity.
Qed.
