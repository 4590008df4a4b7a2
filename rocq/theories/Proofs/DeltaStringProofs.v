From Verif Require Import Base.Prelude Base.LeFacts Base.Iter Spec.DeltaSpec Spec.StringsSpec
  Model.DeltaBitpacked Model.DeltaByteArray Proofs.UlebProofs Proofs.HybridRleProofs Proofs.HybridEncProofs Proofs.DeltaDecProofs
  Proofs.DeltaEncProofs.
Open Scope N_scope.

Lemma cut_concat strings : cut (map (@length N) strings) (concat strings) = strings.
Proof.
  induction strings as [|s r IH]; cbn [map concat cut]; [reflexivity|].
  rewrite firstn_app_len, skipn_app_len, IH. reflexivity.
Qed.

(** Numbers below 2^31 never overflow the delta encoder. *)
Lemma small_fit items : Forall (fun z => 0 <= z < 2 ^ 31)%Z items -> differences_fit items.
Proof.
  intro H.
  assert (Hd : Forall (fun d => - 2 ^ 31 < d < 2 ^ 31)%Z (differences items)).
  { destruct items as [|x r]; [constructor|]. revert x H. induction r as [|y r IH]; intros x H; [constructor|].
    change (differences (x :: y :: r)) with ((y - x)%Z :: differences (y :: r)).
    inversion H as [|? ? Hx H']; subst. inversion H'; subst. constructor; [lia|]. apply IH; assumption. }
  split.
  - eapply Forall_impl; [|exact Hd]. cbn beta. intros d Hb. apply in_s_iff. lia.
  - intros k a b Ha Hb. rewrite Forall_forall in Hd.
    assert (Hsub : forall x, In x (firstn 128 (skipn (128 * k) (differences items))) -> In x (differences items)).
    { intros x Hx. rewrite <- (firstn_skipn (128 * k) (differences items)). apply in_or_app. right.
      rewrite <- (firstn_skipn 128 (skipn (128 * k) (differences items))). apply in_or_app. left. assumption. }
    pose proof (Hd a (Hsub a Ha)). pose proof (Hd b (Hsub b Hb)). cbn beta in *. apply in_s_iff. lia.
Qed.

Lemma small_i64s items : Forall (fun z => 0 <= z < 2 ^ 31)%Z items -> i64s items.
Proof. intro H. eapply Forall_impl; [|exact H]. cbn beta. intros; lia. Qed.

Lemma small_encode m items : Forall (fun z => 0 <= z < 2 ^ 31)%Z items -> nlen items < 2 ^ 64 ->
  exists data, delta_encode m items = Ok data /\ bytes_ok data.
Proof.
  intros H Hn.
  destruct (delta_encode_ok m items (small_i64s _ H) Hn) as [data E].
  { right. apply differences_fit_iff. apply small_fit. assumption. }
  exists data. split; [assumption|].
  destruct (delta_encode_conforms _ _ _ (small_i64s _ H) Hn E) as (bl & Hst & _).
  eapply delta_stream_bytes; eassumption.
Qed.

Lemma of_signed32 z : (0 <= z < 2 ^ 31)%Z -> of_signed 32 z = Z.to_N z.
Proof. intro H. unfold of_signed. change (Z.of_N 32) with 32%Z. rewrite Z.mod_small by lia. reflexivity. Qed.

Lemma wrap32 z : (0 <= z < 2 ^ 31)%Z -> wrap_s 32 z = z.
Proof.
  intro H. unfold wrap_s. rewrite of_signed32 by assumption. unfold to_signed.
  change (2 ^ (32 - 1)) with 2147483648. replace (Z.to_N z <? 2147483648) with true by lia. lia.
Qed.

Definition sumlen (strings : list (list N)) : nat := length (concat strings).

Definition zlens (strings : list (list N)) : list Z := map (fun x => Z.of_nat (length x)) strings.

Lemma zlens_small strings : nlen (concat strings) < 2 ^ 31 -> Forall (fun z => 0 <= z < 2 ^ 31)%Z (zlens strings).
Proof.
  intro H. apply Forall_forall. intros z Hz. apply in_map_iff in Hz as (x & <- & Hx).
  apply in_split in Hx as (a & b & ->). rewrite concat_app in H. cbn [concat] in H.
  unfold nlen in H. rewrite !app_length in H. lia.
Qed.

(** The lengths come out one by one while the running total grows to their sum. *)
Lemma dl_yields m bytes T (area : list N) : forall l s total,
  Forall (fun z => 0 <= z < 2 ^ 31)%Z l -> total + Z.to_N (fold_right Z.add 0%Z l) < 2 ^ 31 ->
  yields (delta_next m) (dd_P T) s (map inl l) ->
  slice_from T bytes = Ok (area) ->
  slice_to (N.to_nat (total + Z.to_N (fold_right Z.add 0%Z l))) area = slice_to (N.to_nat (total + Z.to_N (fold_right Z.add 0%Z l))) area ->
  yields (dl_next m)
    (fun s left => delta_size_hint (dl_lengths s) = nlen left /\
       (left = [] -> dl_values s = slice_to (N.to_nat (total + Z.to_N (fold_right Z.add 0%Z l))) area))
    (mk_dl bytes s total) (map inl l).
Proof.
  induction l as [|z l IH]; intros s total Hz Ht Hy Hs _.
  - inversion Hy as [s0 s' HP Hn|]; subst. eapply yields_nil.
    + destruct HP as [H1 H2]. split; [exact H1|]. intros _. unfold dl_values. cbn [dl_lengths dl_bytes dl_total fold_right].
      unfold delta_size_hint in *. rewrite H1. cbn [nlen length N.of_nat N.eqb negb]. rewrite (H2 eq_refl), Hs. cbn [bind].
      change (Z.to_N 0) with 0. rewrite N.add_0_r. reflexivity.
    + unfold dl_next. cbn [dl_lengths]. rewrite Hn. reflexivity.
  - cbn [map] in *. inversion Hy as [|s0 s' a l0 HP Hn Hy']; subst. inversion Hz as [|? ? Hz1 Hz2]; subst.
    assert (Hf : (0 <= fold_right Z.add 0%Z l)%Z).
    { clear - Hz2. induction Hz2; cbn [fold_right]; lia. }
    cbn [fold_right] in *.
    eapply yields_cons.
    + destruct HP as [H1 _]. split; [exact H1|discriminate].
    + unfold dl_next. cbn [dl_lengths dl_total dl_bytes]. rewrite Hn. cbn [bind].
      rewrite of_signed32, wrap32 by assumption. unfold uadd.
      replace (total + Z.to_N z <? 2 ^ 32) with true by lia. cbn [bind]. reflexivity.
    + eapply yields_weaken; [|apply (IH s' (total + Z.to_N z)); try assumption; [lia|reflexivity]].
      cbn beta. intros st left [H1 H2]. split; [assumption|]. intro Hl. rewrite (H2 Hl). do 2 f_equal. lia.
Qed.

Lemma sum_zlens strings : Z.to_N (fold_right Z.add 0%Z (zlens strings)) = nlen (concat strings).
Proof.
  unfold nlen. induction strings as [|s r IH]; cbn [zlens map fold_right concat]; [reflexivity|].
  rewrite app_length. fold (zlens r).
  assert (H : (0 <= fold_right Z.add 0%Z (zlens r))%Z).
  { clear. induction r; cbn [zlens map fold_right]; [lia|]. fold (zlens r). lia. }
  lia.
Qed.

Lemma dl_roundtrip_gen m strings data : nlen strings < 2 ^ 64 -> nlen (concat strings) < 2 ^ 31 ->
  dl_encode m strings = Ok data -> nlen data < 2 ^ 61 ->
  Forall bytes_ok strings -> forall trail, bytes_ok trail ->
  exists s, dl_try_new m (data ++ trail) = Ok s /\
    yields (dl_next m)
      (fun s left => delta_size_hint (dl_lengths s) = nlen left /\ (left = [] -> dl_values s = Ok (concat strings)))
      s (map inl (zlens strings)).
Proof.
  intros Hn Ht He Hsz Hok trail Htr. unfold dl_encode in He. fold (zlens strings) in He.
  pose proof (zlens_small _ Ht) as Hsm.
  destruct (delta_encode m (zlens strings)) as [h| |] eqn:Eh; cbn [bind] in He; try discriminate.
  apply Ok_inj in He. subst data. rewrite <- app_assoc.
  assert (Hcok : bytes_ok (concat strings)).
  { clear - Hok. induction Hok; cbn [concat]; [constructor|]. apply bytes_ok_app; split; assumption. }
  destruct (delta_roundtrip_any m (zlens strings) h (small_i64s _ Hsm)) with (trail := concat strings ++ trail) as (s & Es & Hy).
  { unfold nlen, zlens in *. rewrite map_length. assumption. } { assumption. }
  { unfold nlen in *. rewrite app_length in Hsz. lia. } { apply bytes_ok_app; split; assumption. }
  unfold dl_try_new. rewrite Es. cbn [bind]. eexists. split; [reflexivity|].
  eapply yields_weaken; [|apply (dl_yields m _ (length h) (concat strings ++ trail)); try eassumption].
  - cbn beta. intros st left [H1 H2]. split; [assumption|]. intro Hl. rewrite (H2 Hl), sum_zlens, N.add_0_l.
    unfold nlen. rewrite Nnat.Nat2N.id. rewrite slice_to_ok by (rewrite app_length; lia).
    rewrite firstn_app_len. reflexivity.
  - rewrite sum_zlens, N.add_0_l. assumption.
  - apply slice_from_app.
  - reflexivity.
Qed.

Lemma dl_encode_ok m strings : nlen strings < 2 ^ 64 -> nlen (concat strings) < 2 ^ 31 -> Forall bytes_ok strings ->
  exists data, dl_encode m strings = Ok data /\ bytes_ok data.
Proof.
  intros Hn Ht Hok. unfold dl_encode. fold (zlens strings).
  destruct (small_encode m (zlens strings) (zlens_small _ Ht)) as (h & -> & Hh).
  { unfold nlen, zlens in *. rewrite map_length. assumption. }
  cbn [bind]. eexists. split; [reflexivity|]. apply bytes_ok_app. split; [assumption|].
  clear - Hok. induction Hok; cbn [concat]; [constructor|]. apply bytes_ok_app; split; assumption.
Qed.

(** *** Incremental encoding *)

Lemma first_diff_spec a : forall b i,
  match first_diff a b i with
  | Some j => (i <= j)%nat /\ (j - i < length a)%nat /\ (j - i < length b)%nat /\ firstn (j - i) a = firstn (j - i) b
              /\ nth (j - i) a 0 <> nth (j - i) b 0
  | None => firstn (min (length a) (length b)) a = firstn (min (length a) (length b)) b
  end.
Proof.
  induction a as [|x a IH]; intros [|y b] i; cbn [first_diff]; try reflexivity.
  destruct (x =? y) eqn:E.
  - apply N.eqb_eq in E. subst y. specialize (IH b (S i)). destruct (first_diff a b (S i)) as [j|].
    + destruct IH as (H1 & H2 & H3 & H4 & H5). replace (j - i)%nat with (S (j - S i)) by lia. cbn [length firstn nth].
      repeat split; try lia. f_equal; assumption.
    + cbn [length Nat.min firstn]. f_equal. assumption.
  - rewrite Nat.sub_diag. cbn [length firstn nth]. repeat split; try lia.
Qed.

(** The prefix fits the item unless the item is a strict prefix of its predecessor. *)
Lemma prefix_length_spec item prev :
  (strict_prefix item prev /\ (length item < prefix_length item prev)%nat) \/
  (~ strict_prefix item prev /\ (prefix_length item prev <= length item)%nat /\
   (prefix_length item prev <= length prev)%nat /\
   firstn (prefix_length item prev) prev = firstn (prefix_length item prev) item).
Proof.
  unfold prefix_length. pose proof (first_diff_spec item prev 0) as H. destruct (first_diff item prev 0) as [j|].
  - destruct H as (_ & H2 & H3 & H4 & H5). rewrite Nat.sub_0_r in *. right. split.
    + intros (c & Hc & ->). apply H5. rewrite app_nth1 by assumption. reflexivity.
    + split; [lia|]. split; [lia|]. symmetry; assumption.
  - destruct (Nat.le_gt_cases (length prev) (length item)) as [Hl|Hl].
    + right. replace (min (length item) (length prev)) with (length prev) in H by lia.
      split; [|split; [lia|split; [lia|symmetry; assumption]]].
      intros (c & Hc & E). rewrite E, app_length in Hl. destruct c; [congruence|cbn [length] in Hl; lia].
    + left. split; [|assumption]. replace (min (length item) (length prev)) with (length item) in H by lia.
      exists (skipn (length item) prev). split.
      * intro E. apply (f_equal (@length N)) in E. rewrite skipn_length in E. cbn [length] in E. lia.
      * rewrite firstn_all in H. rewrite H at 1. rewrite firstn_skipn. reflexivity.
Qed.

Fixpoint no_sp (prev : list N) (strings : list (list N)) : Prop :=
  match strings with
  | [] => True
  | x :: r => ~ strict_prefix x prev /\ no_sp x r
  end.

Lemma no_sp_iff : forall strings prev, no_sp prev strings <-> ~ has_strict_prefix (prev :: strings).
Proof.
  induction strings as [|x r IH]; intro prev; cbn [no_sp].
  - split; [|trivial]. intros _ (pre & a & b & post & E & _).
    destruct pre as [|? [|? ?]]; discriminate.
  - rewrite IH. split.
    + intros [H1 H2] (pre & a & b & post & E & Hs). destruct pre as [|p pre].
      * injection E as <- <- ->. contradiction.
      * injection E as _ E. apply H2. exists pre, a, b, post. split; assumption.
    + intro H. split.
      * intro Hs. apply H. exists [], prev, x, r. split; [reflexivity|assumption].
      * intros (pre & a & b & post & E & Hs). apply H. exists (prev :: pre), a, b, post.
        split; [cbn [app]; rewrite E; reflexivity|assumption].
Qed.

Lemma no_sp_nil strings : no_sp [] strings <-> ~ has_strict_prefix strings.
Proof.
  rewrite no_sp_iff. split; intros H; intros (pre & a & b & post & E & Hs); apply H.
  - exists ([] :: pre), a, b, post. split; [cbn [app]; rewrite E; reflexivity|assumption].
  - destruct pre as [|p pre].
    + injection E as <- E. destruct Hs as (c & Hc & Ec). symmetry in Ec. apply app_eq_nil in Ec as [_ Ec]. congruence.
    + injection E as _ E. exists pre, a, b, post. split; assumption.
Qed.

Definition plens (prev : list N) (strings : list (list N)) : list nat :=
  (fix go prev strings := match strings with [] => [] | x :: r => prefix_length x prev :: go x r end) prev strings.
Definition sufs (prev : list N) (strings : list (list N)) : list (list N) :=
  (fix go prev strings := match strings with [] => [] | x :: r => skipn (prefix_length x prev) x :: go x r end) prev strings.

Lemma db_prefixes_ok m : forall strings prev sum, no_sp prev strings ->
  sum + nlen (concat strings) < 2 ^ 64 ->
  db_prefixes m prev sum strings = Ok (plens prev strings).
Proof.
  induction strings as [|x r IH]; intros prev sum Hn Hs; [reflexivity|].
  destruct Hn as [H1 H2]. cbn [db_prefixes]. destruct (prefix_length_spec x prev) as [[H _]|(_ & Hl & Hlp & Hf)]; [contradiction|].
  cbn [concat] in Hs. unfold nlen in Hs. rewrite app_length in Hs.
  unfold usub. replace (N.of_nat (prefix_length x prev) <=? nlen x) with true by (unfold nlen; lia). cbn [bind].
  unfold uadd. replace (sum + (nlen x - N.of_nat (prefix_length x prev)) <? 2 ^ 64) with true by (unfold nlen; lia).
  cbn [bind]. rewrite IH; [reflexivity|assumption|]. unfold nlen. lia.
Qed.

Lemma db_suffixes_ok : forall strings prev, no_sp prev strings ->
  db_suffixes strings (plens prev strings) = Ok (sufs prev strings) /\
  rebuild prev (plens prev strings) (sufs prev strings) = strings /\
  Forall (fun p => (p <= length (concat (prev :: strings)))%nat) (plens prev strings) /\
  (length (concat (sufs prev strings)) <= length (concat strings))%nat /\
  length (sufs prev strings) = length strings /\ length (plens prev strings) = length strings.
Proof.
  induction strings as [|x r IH]; intros prev Hn.
  - repeat split; try reflexivity. constructor.
  - destruct Hn as [H1 H2]. destruct (prefix_length_spec x prev) as [[H _]|(_ & Hl & Hlp & Hf)]; [contradiction|].
    destruct (IH x H2) as (Ha & Hb & Hc & Hd & He & Hg).
    change (plens prev (x :: r)) with (prefix_length x prev :: plens x r).
    change (sufs prev (x :: r)) with (skipn (prefix_length x prev) x :: sufs x r).
    cbn [db_suffixes rebuild]. unfold slice_from. replace (prefix_length x prev <=? length x)%nat with true by lia.
    cbn [bind]. rewrite Ha. cbn [bind]. split; [reflexivity|].
    rewrite Hf, firstn_skipn, Hb. split; [reflexivity|].
    split.
    { constructor; [cbn [concat]; rewrite app_length; lia|]. eapply Forall_impl; [|exact Hc]. cbn beta. intros p Hp.
      cbn [concat] in *. rewrite !app_length in *. lia. }
    cbn [concat length]. rewrite !app_length, skipn_length. lia.
Qed.

Lemma sufs_ok : forall strings prev, Forall bytes_ok strings -> Forall bytes_ok (sufs prev strings).
Proof.
  induction strings as [|x r IH]; intros prev H; [constructor|]. inversion H; subst.
  change (sufs prev (x :: r)) with (skipn (prefix_length x prev) x :: sufs x r).
  constructor; [apply bytes_ok_skipn; assumption|]. apply IH; assumption.
Qed.

Lemma db_prefixes_wrapping : forall strings prev sum,
  db_prefixes Wrapping prev sum strings = Ok (plens prev strings).
Proof.
  induction strings as [|x r IH]; intros prev sum; [reflexivity|]. cbn [db_prefixes].
  unfold usub. destruct (N.of_nat (prefix_length x prev) <=? nlen x); cbn [bind]; unfold uadd;
    match goal with |- context [if ?c then _ else _] => destruct c end; cbn [bind]; rewrite IH; reflexivity.
Qed.

Lemma db_prefixes_checked_panics : forall strings prev sum, ~ no_sp prev strings ->
  sum + nlen (concat strings) < 2 ^ 64 -> db_prefixes Checked prev sum strings = Panic.
Proof.
  induction strings as [|x r IH]; intros prev sum Hn Hs; [exfalso; apply Hn; exact I|].
  cbn [db_prefixes no_sp] in *. destruct (prefix_length_spec x prev) as [[_ Hl]|(H1 & Hl & Hlp & Hf)].
  - unfold usub. replace (N.of_nat (prefix_length x prev) <=? nlen x) with false by (unfold nlen; lia). reflexivity.
  - cbn [concat] in Hs. unfold nlen in Hs. rewrite app_length in Hs.
    unfold usub. replace (N.of_nat (prefix_length x prev) <=? nlen x) with true by (unfold nlen; lia). cbn [bind].
    unfold uadd. replace (sum + (nlen x - N.of_nat (prefix_length x prev)) <? 2 ^ 64) with true by (unfold nlen; lia).
    cbn [bind]. rewrite IH; [reflexivity|tauto|]. unfold nlen. lia.
Qed.

Lemma db_suffixes_panics : forall strings prev, ~ no_sp prev strings ->
  db_suffixes strings (plens prev strings) = Panic.
Proof.
  induction strings as [|x r IH]; intros prev Hn; [exfalso; apply Hn; exact I|].
  change (plens prev (x :: r)) with (prefix_length x prev :: plens x r). cbn [db_suffixes no_sp] in *.
  unfold slice_from. destruct (prefix_length_spec x prev) as [[_ Hl]|(H1 & Hl & Hlp & Hf)].
  - replace (prefix_length x prev <=? length x)%nat with false by lia. reflexivity.
  - replace (prefix_length x prev <=? length x)%nat with true by lia. cbn [bind]. rewrite IH; [reflexivity|tauto].
Qed.

Lemma plens_bound : forall strings prev,
  Forall (fun p => (p <= length (concat (prev :: strings)))%nat) (plens prev strings) /\
  length (plens prev strings) = length strings.
Proof.
  induction strings as [|x r IH]; intro prev; [split; [constructor|reflexivity]|].
  change (plens prev (x :: r)) with (prefix_length x prev :: plens x r). destruct (IH x) as [Hc Hl]. split.
  - constructor.
    + assert (prefix_length x prev <= length prev)%nat; [|cbn [concat]; rewrite app_length; lia].
      unfold prefix_length. pose proof (first_diff_spec x prev 0) as H. destruct (first_diff x prev 0); lia.
    + eapply Forall_impl; [|exact Hc]. cbn beta. intros p Hp. cbn [concat] in *. rewrite !app_length in *. lia.
  - cbn [length]. lia.
Qed.

Lemma plens_small strings : nlen (concat strings) < 2 ^ 31 ->
  Forall (fun z => 0 <= z < 2 ^ 31)%Z (map Z.of_nat (plens [] strings)).
Proof.
  intro H. destruct (plens_bound strings []) as [Hb _]. cbn [concat app] in Hb.
  apply Forall_forall. intros z Hz. apply in_map_iff in Hz as (p & <- & Hp).
  rewrite Forall_forall in Hb. specialize (Hb p Hp). cbn beta in Hb. unfold nlen in H. lia.
Qed.

Lemma db_encode_iff m strings : nlen strings < 2 ^ 64 -> nlen (concat strings) < 2 ^ 31 -> Forall bytes_ok strings ->
  (db_encode m strings = Panic <-> has_strict_prefix strings) /\
  (~ has_strict_prefix strings -> exists data, db_encode m strings = Ok data /\ bytes_ok data).
Proof.
  intros Hn Ht Hok.
  assert (Hps : Forall (fun z => 0 <= z < 2 ^ 31)%Z (map Z.of_nat (plens [] strings))) by (apply plens_small; assumption).
  assert (Hpl : nlen (map Z.of_nat (plens [] strings)) < 2 ^ 64).
  { unfold nlen in *. rewrite map_length. destruct (plens_bound strings []) as [_ ->]. assumption. }
  assert (Hgood : ~ has_strict_prefix strings -> exists data, db_encode m strings = Ok data /\ bytes_ok data).
  { intro H. apply no_sp_nil in H. unfold db_encode. rewrite db_prefixes_ok by (try assumption; lia). cbn [bind].
    destruct (small_encode m _ Hps Hpl) as (h & -> & Hh). cbn [bind].
    destruct (db_suffixes_ok strings [] H) as (-> & _ & _ & Hd & He & _). cbn [bind].
    destruct (dl_encode_ok m (sufs [] strings)) as (b & -> & Hb).
    { unfold nlen in *. rewrite He. assumption. } { unfold nlen in *. lia. } { apply sufs_ok; assumption. }
    cbn [bind]. eexists. split; [reflexivity|]. apply bytes_ok_app; split; assumption. }
  split; [|exact Hgood]. split.
  - intro H.
    assert (Hdec : no_sp [] strings \/ ~ no_sp [] strings).
    { clear. generalize (@nil N). induction strings as [|x r IH]; intro prev; cbn [no_sp]; [left; trivial|].
      destruct (prefix_length_spec x prev) as [[Hs _]|[Hs _]]; [right; tauto|]. destruct (IH x); [left|right]; tauto. }
    destruct Hdec as [Hs|Hs].
    + apply no_sp_nil in Hs. destruct (Hgood Hs) as (d & E & _). congruence.
    + rewrite no_sp_iff in Hs.
      assert (Hdne : ~ ~ has_strict_prefix ([] :: strings)) by assumption.
      (* the witness is computable *)
      clear - Hdne. assert (Hex : forall ss prev, ~ no_sp prev ss -> has_strict_prefix (prev :: ss)).
      { induction ss as [|x r IH]; intros prev Hn; [exfalso; apply Hn; exact I|]. cbn [no_sp] in Hn.
        destruct (prefix_length_spec x prev) as [[Hs _]|[Hs _]].
        - exists [], prev, x, r. split; [reflexivity|assumption].
        - destruct (IH x ltac:(tauto)) as (pre & a & b & post & E & H). exists (prev :: pre), a, b, post.
          split; [cbn [app]; rewrite E; reflexivity|assumption]. }
      assert (H : has_strict_prefix ([] :: strings)).
      { apply Hex. rewrite no_sp_iff. assumption. }
      destruct H as (pre & a & b & post & E & Hsp). destruct pre as [|p pre].
      * injection E as <- E. destruct Hsp as (c & Hc & Ec). symmetry in Ec. apply app_eq_nil in Ec as [_ Ec]. congruence.
      * injection E as _ E. exists pre, a, b, post. split; assumption.
  - intro H. assert (Hs : ~ no_sp [] strings) by (rewrite no_sp_nil; tauto).
    unfold db_encode. destruct m.
    + rewrite db_prefixes_checked_panics by (try assumption; lia). reflexivity.
    + rewrite db_prefixes_wrapping. cbn [bind]. destruct (small_encode Wrapping _ Hps Hpl) as (h & -> & Hh). cbn [bind].
      rewrite db_suffixes_panics by assumption. reflexivity.
Qed.

Lemma db_yields m bytes T : forall l s, Forall (fun p => N.of_nat p < 2 ^ 31) l ->
  yields (delta_next m) (dd_P T) s (map inl (map Z.of_nat l)) ->
  yields (db_next m)
    (fun s left => delta_size_hint (db_lengths s) = nlen left /\ db_bytes s = bytes /\ (left = [] -> delta_consumed (db_lengths s) = T))
    (mk_db bytes s) (map (fun p => inl (N.of_nat p)) l).
Proof.
  induction l as [|p l IH]; intros s Hp Hy; cbn [map] in *.
  - inversion Hy as [s0 s' [H1 H2] Hn|]; subst. eapply yields_nil; [auto|]. unfold db_next. cbn [db_lengths]. rewrite Hn. reflexivity.
  - inversion Hy as [|s0 s' a l0 [H1 H2] Hn Hy']; subst. inversion Hp as [|? ? Hp1 Hp2]; subst. eapply yields_cons.
    + split; [unfold nlen in *; cbn [db_lengths length] in *; rewrite H1, !map_length; reflexivity|].
      split; [reflexivity|discriminate].
    + unfold db_next. cbn [db_lengths]. rewrite Hn. cbn [bind].
      rewrite of_signed32 by lia. replace (Z.to_N (Z.of_nat p)) with (N.of_nat p) by lia. reflexivity.
    + apply IH; assumption.
Qed.

Lemma db_roundtrip_gen m strings data : nlen strings < 2 ^ 64 -> nlen (concat strings) < 2 ^ 31 ->
  Forall bytes_ok strings -> db_encode m strings = Ok data -> nlen data < 2 ^ 61 ->
  forall trail, bytes_ok trail ->
  exists prefixes suffixes, rebuild [] prefixes suffixes = strings /\
    length prefixes = length strings /\ length suffixes = length strings /\
    exists s1, db_try_new m (data ++ trail) = Ok s1 /\
      yields (db_next m)
        (fun s1' left1 => left1 = [] ->
           exists s2, db_into_lengths m s1' = Ok s2 /\
             yields (dl_next m) (fun s2' left2 => left2 = [] -> dl_values s2' = Ok (concat suffixes))
               s2 (map (fun x => inl (Z.of_nat (length x))) suffixes))
        s1 (map (fun p => inl (N.of_nat p)) prefixes).
Proof.
  intros Hn Ht Hok He Hsz trail Htr.
  assert (Hs : ~ has_strict_prefix strings).
  { intro H. apply (proj1 (db_encode_iff m strings Hn Ht Hok)) in H. congruence. }
  apply no_sp_nil in Hs. unfold db_encode in He. rewrite db_prefixes_ok in He by (try assumption; lia). cbn [bind] in He.
  assert (Hps : Forall (fun z => 0 <= z < 2 ^ 31)%Z (map Z.of_nat (plens [] strings))) by (apply plens_small; assumption).
  assert (Hpl : nlen (map Z.of_nat (plens [] strings)) < 2 ^ 64).
  { unfold nlen in *. rewrite map_length. destruct (plens_bound strings []) as [_ ->]. assumption. }
  destruct (small_encode m _ Hps Hpl) as (h & Eh & Hh). rewrite Eh in He. cbn [bind] in He.
  destruct (db_suffixes_ok strings [] Hs) as (Ea & Eb & _ & Hd & Hl1 & Hl2). rewrite Ea in He. cbn [bind] in He.
  assert (Hsn : nlen (sufs [] strings) < 2 ^ 64) by (unfold nlen in *; rewrite Hl1; assumption).
  assert (Hst : nlen (concat (sufs [] strings)) < 2 ^ 31) by (unfold nlen in *; lia).
  assert (Hsok : Forall bytes_ok (sufs [] strings)) by (apply sufs_ok; assumption).
  destruct (dl_encode_ok m (sufs [] strings) Hsn Hst Hsok) as (b & Eb2 & Hb). rewrite Eb2 in He. cbn [bind] in He.
  apply Ok_inj in He. subst data.
  exists (plens [] strings), (sufs [] strings). split; [assumption|]. split; [assumption|]. split; [assumption|].
  assert (Hszs : nlen h < 2 ^ 61 /\ nlen b < 2 ^ 61) by (unfold nlen in *; rewrite app_length in Hsz; lia).
  destruct (delta_roundtrip_any m _ h (small_i64s _ Hps) Hpl Eh (proj1 Hszs) (b ++ trail)) as (s & Es & Hy).
  { apply bytes_ok_app; split; assumption. }
  unfold db_try_new. rewrite <- app_assoc, Es. cbn [bind]. eexists. split; [reflexivity|].
  eapply yields_weaken; [|apply (db_yields m _ (length h)); [|exact Hy]].
  - cbn beta. intros st left (H1 & H2 & H3) Hl. unfold db_into_lengths. rewrite H1, Hl. cbn [nlen length N.of_nat N.eqb negb].
    rewrite (H3 Hl), H2, slice_from_app. cbn [bind].
    destruct (dl_roundtrip_gen m _ b Hsn Hst Eb2 (proj2 Hszs) Hsok trail Htr) as (s2 & Es2 & Hy2).
    exists s2. split; [assumption|]. unfold zlens in Hy2. rewrite map_map in Hy2.
    eapply yields_weaken; [|exact Hy2]. cbn beta. intros ? ? [_ H]. exact H.
  - apply Forall_forall. intros p Hp. rewrite Forall_forall in Hps.
    specialize (Hps (Z.of_nat p) (in_map _ _ _ Hp)). cbn beta in Hps. lia.
Qed.
