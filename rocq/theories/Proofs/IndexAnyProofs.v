(** Reading the column indexes of any columns: as if each one was right behind the one before it. *)
From Verif Require Import Base.Prelude Model.Types Model.Native Model.Thrift Model.Intervals Model.Io Model.Statistics Model.Schema Model.Metadata Model.Indexes Spec.IndexSpec
  Proofs.SchemaProofs Proofs.IndexReadProofs.
Open Scope N_scope.

Lemma read_at_first file o n t : firstn (N.to_nat n) (read_at file o (n + t)) = read_at file o n.
Proof. unfold read_at. rewrite firstn_firstn. f_equal. lia. Qed.
Lemma skipn_twice {A} : forall a b (l : list A), skipn a (skipn b l) = skipn (b + a) l.
Proof. intros a b. induction b as [|b IH]; intros [|x l]; cbn [skipn Nat.add]; [ reflexivity | reflexivity | apply skipn_nil | apply IH ]. Qed.
Lemma read_at_rest file o n t : skipn (N.to_nat n) (read_at file o (n + t)) = read_at file (o + n) t.
Proof.
  unfold read_at. rewrite !N2Nat.inj_add. rewrite skipn_firstn_comm. replace (N.to_nat n + N.to_nat t - N.to_nat n)%nat with (N.to_nat t) by lia.
  f_equal. rewrite skipn_twice. reflexivity.
Qed.
Lemma read_at_short file o n t : nlen (read_at file o (n + t)) <? n = (nlen file <? o + n) && (0 <? n).
Proof.
  unfold read_at, nlen. rewrite firstn_length, skipn_length. destruct (N.of_nat (length file) <? o + n) eqn:E1, (0 <? n) eqn:E2; cbn [andb]; lia.
Qed.

Definition one_index (T : thrift t_column_index) (file : list N) (place : N * N) (c : column_md) : res index :=
  if (nlen file <? fst place + snd place) && (0 <? snd place) then Panic
  else deserialize_index T (read_at file (fst place) (snd place)) (d_primitive (cd_descriptor (cmd_descr c))).
Lemma try_usize_N n : try_usize (Z.of_N n) = Ok n.
Proof. unfold try_usize. replace (Z.of_N n <? 0)%Z with false by lia. f_equal. lia. Qed.
Lemma read_moved T file place c : read_columns_indexes T file [moved_to place c] = let* i := one_index T file place c in Ok [i].
Proof.
  unfold read_columns_indexes, prepare_read, moved_to. cbn [map cmd_chunk cc_column_index_offset cc_column_index_length]. rewrite !try_usize_N. cbn [bind collect_res total fold_right deserialize_indexes cmd_descr].
  rewrite N.add_0_r. destruct place as [o n]. unfold one_index. cbn [fst snd]. rewrite <- (N.add_0_r n) at 1. rewrite read_at_short.
  destruct ((nlen file <? o + n) && (0 <? n)); [ reflexivity | ]. rewrite <- (N.add_0_r n) at 2. rewrite read_at_first.
  destruct (deserialize_index T (read_at file o n) (d_primitive (cd_descriptor (cmd_descr c)))); reflexivity.
Qed.
Lemma deserialize_placed T file : forall chunks sizes, length chunks = length sizes -> forall o,
  deserialize_indexes T chunks (read_at file o (total sizes)) sizes =
  collect_res (map (fun x => one_index T file (fst x) (snd x)) (combine (one_behind_the_other o sizes) chunks)).
Proof.
  induction chunks as [|c chunks IH]; intros [|n sizes] El o; try discriminate; [ reflexivity | ].
  cbn [deserialize_indexes one_behind_the_other combine map collect_res total fold_right fst snd]. fold (total sizes).
  rewrite read_at_short. unfold one_index at 1. cbn [fst snd]. destruct ((nlen file <? o + n) && (0 <? n)); [ reflexivity | ].
  rewrite read_at_first, read_at_rest, IH by (injection El as El; exact El). reflexivity.
Qed.
Lemma collect_concat {A} (l : list (res A)) : (let* ls := collect_res (map (fun r => let* a := r in Ok [a]) l) in Ok (concat ls)) = collect_res l.
Proof.
  induction l as [|x l IH]; [ reflexivity | ]. cbn [map collect_res]. destruct x as [a|e|]; cbn [bind]; [ | reflexivity | reflexivity ]. rewrite <- IH.
  destruct (collect_res (map (fun r => let* a0 := r in Ok [a0]) l)) as [ls|e|]; reflexivity.
Qed.
Lemma prepare_known chunks o sizes : first_index_at chunks o -> index_sizes chunks sizes ->
  prepare_read chunks cc_column_index_offset cc_column_index_length = Ok (o, sizes).
Proof.
  intros (c & r & -> & Ho) Hs. unfold prepare_read. rewrite Ho, try_usize_N. cbn [bind].
  assert (E : forall l n, index_sizes l n -> collect_res (map (fun c => match cc_column_index_length (cmd_chunk c) with None => Err OutOfSpec | Some n => try_usize n end) l) = Ok n).
  { clear. induction 1 as [|c n l ns H _ IH]; [ reflexivity | ]. cbn [map collect_res]. rewrite H, try_usize_N. cbn [bind]. rewrite IH. reflexivity. }
  rewrite (E _ _ Hs). reflexivity.
Qed.
Lemma prepare_unknown chunks o sizes : prepare_read chunks cc_column_index_offset cc_column_index_length = Ok (o, sizes) ->
  (o = 0 /\ sizes = []) \/ (first_index_at chunks o /\ index_sizes chunks sizes).
Proof.
  unfold prepare_read. destruct chunks as [|c chunks]; [ intros [= <- <-]; auto | ]. destruct (cc_column_index_offset (cmd_chunk c)) as [z|] eqn:Eo; [ | intros [= <- <-]; auto ].
  intros H. apply bind_ok in H as (o' & H1 & H). apply bind_ok in H as (ls & H2 & H). injection H as -> ->. right. split.
  - exists c, chunks. split; [ reflexivity | ]. rewrite Eo. unfold try_usize in H1. destruct (z <? 0)%Z eqn:E; [ discriminate | ]. injection H1 as <-. f_equal. lia.
  - revert sizes H2. generalize (c :: chunks). clear. unfold index_sizes. induction l as [|c l IH]; intros sizes H; cbn [map collect_res] in H; [ injection H as <-; constructor | ].
    apply bind_ok in H as (n & H1 & H). apply bind_ok in H as (r & H2 & H). injection H as <-. constructor; [ | apply IH; exact H2 ].
    destruct (cc_column_index_length (cmd_chunk c)) as [z|]; [ | discriminate ]. unfold try_usize in H1. destruct (z <? 0)%Z eqn:E; [ discriminate | ]. injection H1 as <-. f_equal. lia.
Qed.
Lemma sizes_length chunks sizes : index_sizes chunks sizes -> length chunks = length sizes.
Proof. induction 1; cbn [length]; congruence. Qed.

Lemma read_indexes_placed T file chunks o sizes : first_index_at chunks o -> index_sizes chunks sizes ->
  read_columns_indexes T file chunks = collect_res (map (fun x => one_index T file (fst x) (snd x)) (combine (one_behind_the_other o sizes) chunks)).
Proof.
  intros H1 H2. unfold read_columns_indexes. rewrite (prepare_known _ _ _ H1 H2). cbn [bind]. apply deserialize_placed. apply sizes_length. exact H2.
Qed.
Lemma columns_placed T file chunks o sizes : first_index_at chunks o -> index_sizes chunks sizes ->
  read_columns_indexes T file chunks =
  let* ls := collect_res (map (fun x => read_columns_indexes T file [moved_to (fst x) (snd x)]) (combine (one_behind_the_other o sizes) chunks)) in Ok (concat ls).
Proof.
  intros H1 H2. rewrite (read_indexes_placed _ _ _ _ _ H1 H2), <- collect_concat, map_map.
  erewrite (map_ext (fun x => read_columns_indexes T file [moved_to (fst x) (snd x)])); [ reflexivity | ]. intros x. apply read_moved.
Qed.

(** * Panics *)
Lemma collect_panic {A} (l : list (res A)) : collect_res l = Panic <-> exists before after xs, l = before ++ Panic :: after /\ collect_res before = Ok xs.
Proof.
  induction l as [|x l IH]; cbn [collect_res].
  { split; [ discriminate | ]. intros (b & a & xs & E & _). destruct b; discriminate. }
  destruct x as [a|e|]; cbn [bind].
  - split.
    + intros H. destruct (collect_res l) as [r|e|] eqn:E; cbn [bind] in H; try discriminate. destruct (proj1 IH eq_refl) as (b & af & xs & -> & Hb).
      exists (Ok a :: b), af, (a :: xs). cbn [collect_res bind]. rewrite Hb. auto.
    + intros (b & af & xs & E & Hb). destruct b as [|y b]; [ discriminate | ]. injection E as <- ->. cbn [collect_res bind] in Hb.
      apply bind_ok in Hb as (xs' & Hb & _). rewrite (proj2 IH (ex_intro _ b (ex_intro _ af (ex_intro _ xs' (conj eq_refl Hb))))). reflexivity.
  - split; [ discriminate | ]. intros (b & af & xs & E & Hb). destruct b as [|y b]; [ discriminate | ]. injection E as <- ->. discriminate.
  - split; [ | reflexivity ]. intros _. exists [], l, []. auto.
Qed.
Lemma zip_nth : forall mins maxs nulls counts x, In x (zip_index mins maxs nulls counts) <->
  exists k a b c d, x = (a, b, c, d) /\ nth_error mins k = Some a /\ nth_error maxs k = Some b /\ nth_error nulls k = Some c /\ nth_error counts k = Some d.
Proof.
  induction mins as [|a0 mins IH]; intros maxs nulls counts x.
  { split; [ intros [] | ]. intros (k & a & b & c & d & _ & E & _). destruct k; discriminate. }
  destruct maxs as [|b0 maxs]; [ split; [ intros [] | intros (k & a & b & c & d & _ & _ & E & _); destruct k; discriminate ] | ].
  destruct nulls as [|c0 nulls]; [ split; [ intros [] | intros (k & a & b & c & d & _ & _ & _ & E & _); destruct k; discriminate ] | ].
  destruct counts as [|d0 counts]; [ split; [ intros [] | intros (k & a & b & c & d & _ & _ & _ & _ & E); destruct k; discriminate ] | ].
  cbn [zip_index In]. rewrite IH. split.
  - intros [<-|(k & a & b & c & d & H)]; [ exists 0%nat, a0, b0, c0, d0; repeat split | exists (S k), a, b, c, d; exact H ].
  - intros ([|k] & a & b & c & d & -> & E1 & E2 & E3 & E4); cbn [nth_error] in *; [ left; congruence | right; exists k, a, b, c, d; auto ].
Qed.
Lemma bool_pages_panic i : index_pages bool_bound i = Panic <-> empty_bound i.
Proof.
  unfold index_pages. rewrite collect_panic.
  set (counts := match ci_null_counts i with Some l => map Some l | None => repeat None (length (ci_min_values i)) end).
  set (f := fun x : list N * list N * bool * option Z => let '(min, max, is_null, count) := x in if (is_null : bool) then Ok (mk_pi None None count) else
        let* min := bool_bound min in let* max := bool_bound max in Ok (mk_pi (Some min) (Some max) count)).
  assert (Hf : forall x, f x = Panic <-> snd (fst x) = false /\ (fst (fst (fst x)) = [] \/ snd (fst (fst x)) = [])).
  { intros [[[a b] c] d]. cbn [fst snd f]. destruct c; [ split; [ discriminate | intros [H _]; discriminate ] | ]. destruct a as [|a0 a]; cbn [bool_bound bind]; [ split; auto | ].
    destruct b as [|b0 b]; cbn [bool_bound bind]; [ split; auto | ]. split; [ discriminate | intros [_ [H|H]]; discriminate ]. }
  assert (Hf2 : forall x, f x = Panic \/ exists y, f x = Ok y).
  { intros [[[a b] c] d]. cbn [f]. destruct c; [ right; eexists; reflexivity | ]. destruct a; [ left; reflexivity | ]. destruct b; [ left; reflexivity | right; eexists; reflexivity ]. }
  assert (Hc : forall k, (exists mn, nth_error (ci_min_values i) k = Some mn) -> ((exists d, nth_error counts k = Some d) <-> (forall l, ci_null_counts i = Some l -> (k < length l)%nat))).
  { intros k [mn Hk]. unfold counts. destruct (ci_null_counts i) as [l|].
    - split.
      + intros [d Hd] l' [= <-]. assert (k < length (map Some l))%nat by (apply nth_error_Some; congruence). rewrite map_length in *. assumption.
      + intros H. specialize (H _ eq_refl). destruct (nth_error (map Some l) k) eqn:E; [ eexists; reflexivity | ]. apply nth_error_None in E. rewrite map_length in E. lia.
    - split; [ intros _ l [=] | ]. intros _. assert (k < length (ci_min_values i))%nat by (apply nth_error_Some; congruence).
      destruct (nth_error (repeat (@None Z) (length (ci_min_values i))) k) eqn:E; [ eexists; reflexivity | ]. apply nth_error_None in E. rewrite repeat_length in E. lia. }
  set (l := zip_index (ci_min_values i) (ci_max_values i) (ci_null_pages i) counts).
  assert (Hl : (exists before after xs, map f l = before ++ Panic :: after /\ collect_res before = Ok xs) <-> exists x, In x l /\ f x = Panic).
  { clear - Hf2. induction l as [|x l IH]; cbn [map].
    - split; [ intros (b & a & xs & E & _); destruct b; discriminate | intros (x & [] & _) ].
    - split.
      + intros (b & a & xs & E & Hb). destruct b as [|y b]; injection E as E1 E2; [ exists x; cbn; auto | ].
        cbn [collect_res] in Hb. apply bind_ok in Hb as (? & _ & Hb). apply bind_ok in Hb as (xs' & Hb & _).
        destruct (proj1 IH) as (z & Hz & E3); [ exists b, a, xs'; auto | ]. exists z. cbn. auto.
      + intros (z & [<-|Hz] & E); [ exists [], (map f l), []; rewrite E; auto | ]. destruct (Hf2 x) as [Hx|[y Hx]]; [ exists [], (map f l), []; rewrite Hx; auto | ].
        destruct (proj2 IH (ex_intro _ z (conj Hz E))) as (b & a & xs & E1 & E2). exists (f x :: b), a, (y :: xs). rewrite E1. cbn [collect_res app]. rewrite Hx, E2. auto. }
  rewrite Hl. unfold empty_bound. split.
  - intros (x & Hx & E). apply Hf in E as [E1 E2]. apply zip_nth in Hx as (k & a & b & c & d & -> & N1 & N2 & N3 & N4). cbn [fst snd] in *. subst c.
    exists k, a, b. repeat (split; [ assumption | ]). split; [ apply Hc; eauto | exact E2 ].
  - intros (k & mn & mx & N1 & N2 & N3 & N4 & E). destruct (proj2 (Hc k (ex_intro _ mn N1)) N4) as [d Hd].
    exists (mn, mx, false, d). split; [ apply zip_nth; exists k, mn, mx, false, d; auto 10 | ]. apply Hf. cbn [fst snd]. auto.
Qed.
Lemma index_panics i p : index_from_thrift i p = Panic <-> pt_physical p = Boolean /\ empty_bound i.
Proof.
  split.
  - intros H. assert (Hb : pt_physical p = Boolean).
    { destruct (pt_physical p) eqn:E; [ reflexivity | .. ]; exfalso; apply (index_from_thrift_total i p); congruence. }
    split; [ exact Hb | ]. unfold index_from_thrift in H. rewrite Hb in H. apply bool_pages_panic.
    destruct (index_pages bool_bound i) as [pages|e|]; cbn [bind] in H; [ | discriminate | reflexivity ].
    pose proof (boundary_order_total (ci_boundary_order i)). destruct (boundary_order_of_thrift (ci_boundary_order i)); cbn [bind] in H; congruence.
  - intros [Hb H]. unfold index_from_thrift. rewrite Hb. apply bool_pages_panic in H. rewrite H. reflexivity.
Qed.
Lemma one_index_panics T file place c : (forall max s, t_dec T max s <> Panic) ->
  one_index T file place c = Panic <->
  cut_off file place \/ (pt_physical (d_primitive (cd_descriptor (cmd_descr c))) = Boolean /\
    exists i r, t_dec T (nlen (read_at file (fst place) (snd place)) * 2 + 1024) (read_at file (fst place) (snd place)) = Ok (i, r) /\ empty_bound i /\ ~ cut_off file place).
Proof.
  intros HT. destruct place as [o n]. unfold one_index, cut_off, deserialize_index. cbn [fst snd]. destruct ((nlen file <? o + n) && (0 <? n)) eqn:E.
  { split; [ intros _; left; lia | reflexivity ]. }
  assert (Hn : ~ (nlen file < o + n /\ 0 < n)) by lia. split.
  - intros H. right. destruct (t_dec T _ (read_at file o n)) as [[i r]|e|] eqn:Ed; cbn [bind] in H; [ | discriminate | exfalso; exact (HT _ _ Ed) ].
    apply index_panics in H as [H1 H2]. split; [ exact H1 | ]. exists i, r. auto.
  - intros [H|(H1 & i & r & H2 & H3 & _)]; [ contradiction | ]. rewrite H2. cbn [bind]. apply index_panics. auto.
Qed.
