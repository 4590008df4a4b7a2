(** Proofs about runs of definition levels: cutting at the page's row count, and filtering by rows. *)
From Verif Require Import Base.Prelude Base.LeFacts Base.Iter Spec.Bits Spec.UlebSpec Spec.RleSpec Spec.RowsSpec Spec.LevelsSpec
  Model.Uleb128 Model.Bitpacked Model.HybridRle Model.Intervals Model.Deserialize
  Proofs.BitsFacts Proofs.HybridRleProofs Proofs.HybridEncProofs Proofs.BitmapProofs Proofs.SliceProofs.
Open Scope N_scope.

Lemma run_levels_length r : run_ok r -> length (run_levels r) = N.to_nat (run_len r).
Proof.
  destruct r as [bytes n|b n]; intros [_ H]; cbn [run_levels run_len].
  - rewrite firstn_length, bit_stream_length. lia.
  - apply repeat_length.
Qed.

Lemma count_true_app a b : count_true (a ++ b) = (count_true a + count_true b)%nat.
Proof. induction a as [|x a IH]; cbn; [reflexivity|]. rewrite IH. lia. Qed.

Lemma count_true_repeat b n : count_true (repeat b n) = if b then n else 0%nat.
Proof. induction n as [|n IH]; cbn [repeat count_true]; [now destruct b|]. rewrite IH. destruct b; lia. Qed.

Lemma assign_app a b : forall c, assign c (a ++ b) = assign c a ++ assign (c + count_true a) b.
Proof.
  induction a as [|x a IH]; intro c; cbn [app assign count_true].
  - now rewrite Nat.add_0_r.
  - destruct x; cbn [app]; rewrite IH; do 2 f_equal; f_equal; lia.
Qed.

Lemma assign_length a : forall c, length (assign c a) = length a.
Proof. induction a as [|[] a IH]; intro c; cbn; [reflexivity| |]; now rewrite IH. Qed.

(** The rows of a selection, taken from levels that start at row [p] with [c] stored values used. *)
Definition at_row (p c : nat) (L : list bool) (r : nat) : option nat :=
  if nth (r - p) L false then Some (c + count_true (firstn (r - p) L))%nat else None.

Lemma at_row_shift d p c L r : (p + d <= r)%nat ->
  at_row p c L r = at_row (p + d) (c + count_true (firstn d L)) (skipn d L) r.
Proof.
  intro H. unfold at_row. replace (r - p)%nat with (d + (r - (p + d)))%nat by lia.
  generalize (r - (p + d))%nat as k. clear H. intro k.
  assert (E1 : nth (d + k) L false = nth k (skipn d L) false).
  { revert L. induction d as [|d IH]; intro L; [reflexivity|]. destruct L; cbn; [now destruct k|apply IH]. }
  assert (E2 : firstn (d + k) L = firstn d L ++ firstn k (skipn d L)).
  { revert L E1. induction d as [|d IH]; intros L E1; [reflexivity|]. destruct L; cbn; [now destruct k|]. f_equal. now apply IH. }
  rewrite E1, E2, count_true_app, Nat.add_assoc. reflexivity.
Qed.

Lemma at_row_seq n : forall p c L, (n <= length L)%nat -> map (at_row p c L) (seq p n) = assign c (firstn n L).
Proof.
  induction n as [|n IH]; intros p c L H; [reflexivity|]. destruct L as [|b L]; [cbn in H; lia|]. cbn [seq map].
  cbn [firstn]. assert (E : map (at_row p c (b :: L)) (seq (S p) n) = assign (c + if b then 1 else 0) (firstn n L)).
  { rewrite <- (IH (S p)) by (cbn in H; lia). apply map_ext_in. intros r Hr. apply in_seq in Hr.
    rewrite (at_row_shift 1 p c (b :: L)) by lia. cbn [firstn skipn count_true].
    replace (p + 1)%nat with (S p) by lia. f_equal. lia. }
  rewrite E. unfold at_row. rewrite Nat.sub_diag. cbn [nth firstn count_true]. destruct b; cbn [assign].
  - rewrite Nat.add_0_r. f_equal. now rewrite Nat.add_1_r.
  - now rewrite Nat.add_0_r.
Qed.

(** Counting set bits. *)
Lemma count_set_spec P l : forall fuel s, (length l <= fuel)%nat -> yields bm_next P s l ->
  count_set fuel s = Ok (N.of_nat (count_true l)).
Proof.
  induction l as [|b l IH]; intros fuel s Hf Hy; inversion Hy as [? s' HP E|? s' x l' HP E Hy']; subst.
  - destruct fuel; [reflexivity|]. cbn. rewrite E. reflexivity.
  - destruct fuel; [cbn in Hf; lia|]. cbn [count_set]. rewrite E. cbn [bind].
    rewrite (IH fuel s') by (try assumption; cbn in Hf; lia). cbn [bind count_true]. f_equal. destruct b; lia.
Qed.

Lemma is_set_count_spec bytes o n : (N.to_nat o + N.to_nat n <= 8 * length bytes)%nat ->
  is_set_count bytes o n = Ok (N.of_nat (count_true (firstn (N.to_nat n) (skipn (N.to_nat o) (bit_stream bytes))))).
Proof.
  intro H. unfold is_set_count. destruct (bm_new_spec bytes (N.to_nat o) (N.to_nat n) H) as (s & E & Hy).
  rewrite N2Nat.id in E. rewrite E. cbn [bind].
  eapply count_set_spec; [|exact Hy]. rewrite firstn_length. lia.
Qed.

Lemma firstn_skipn_firstn {A} a b k (l : list A) : (a + b <= k)%nat ->
  firstn b (skipn a (firstn k l)) = firstn b (skipn a l).
Proof.
  intro H. rewrite !firstn_skipn_comm, firstn_firstn. do 2 f_equal. lia.
Qed.

Lemma firstn_repeat {A} (x : A) n k : firstn n (repeat x k) = repeat x (Nat.min n k).
Proof. revert k. induction n as [|n IH]; intros [|k]; cbn; try reflexivity. now rewrite IH. Qed.
Lemma skipn_repeat {A} (x : A) n k : skipn n (repeat x k) = repeat x (k - n).
Proof. revert k. induction n as [|n IH]; intros [|k]; cbn; try reflexivity. apply IH. Qed.

(** One step of the filter on a run and an interval. *)
Definition cur_levels (c : option (level_run * N)) : list bool :=
  match c with None => [] | Some (r, o) => skipn (N.to_nat o) (run_levels r) end.
Definition cur_ok (c : option (level_run * N)) : Prop :=
  match c with None => True | Some (r, o) => run_ok r /\ o < run_len r end.

Inductive stepped {S} (s : filtered_iter S) (iv : interval) (L : list bool) (ev : filtered_run) (s' : filtered_iter S) : Prop :=
| st_skip d :
    ev = FSkipped (N.of_nat (count_true (firstn (N.to_nat d) L))) -> (N.to_nat d <= length L)%nat ->
    fh_interval s' = Some iv -> fh_rows s' = fh_rows s -> fh_total s' = fh_total s ->
    fh_items s' = fh_items s + d -> fh_items s' <= iv_start iv ->
    cur_levels (fh_current s') = skipn (N.to_nat d) L ->
    (fh_current s' = None \/ (fh_current s' <> None /\ fh_items s < iv_start iv /\ fh_items s' = iv_start iv)) ->
    stepped s iv L ev s'
| st_inside :
    fh_items s = iv_start iv -> (N.to_nat (iv_length iv) < length L)%nat ->
    filtered_levels ev = firstn (N.to_nat (iv_length iv)) L -> filtered_len ev = iv_length iv ->
    (forall c r, assign_filtered c (ev :: r) = assign c (filtered_levels ev) ++ assign_filtered (c + count_true (filtered_levels ev)) r) ->
    fh_interval s' = fst (pop (fh_rows s)) -> fh_rows s' = snd (pop (fh_rows s)) ->
    fh_total s' + iv_length iv = fh_total s -> fh_items s' = fh_items s + iv_length iv ->
    cur_levels (fh_current s') = skipn (N.to_nat (iv_length iv)) L -> fh_current s' <> None ->
    stepped s iv L ev s'
| st_across iv' :
    fh_items s = iv_start iv -> (length L <= N.to_nat (iv_length iv))%nat ->
    filtered_levels ev = L -> filtered_len ev = N.of_nat (length L) ->
    (forall c r, assign_filtered c (ev :: r) = assign c (filtered_levels ev) ++ assign_filtered (c + count_true (filtered_levels ev)) r) ->
    fh_interval s' = Some iv' -> iv_start iv' = iv_start iv + N.of_nat (length L) ->
    iv_length iv' = iv_length iv - N.of_nat (length L) ->
    fh_rows s' = fh_rows s -> fh_total s' + N.of_nat (length L) = fh_total s ->
    fh_items s' = fh_items s + N.of_nat (length L) -> fh_current s' = None ->
    stepped s iv L ev s'.

Lemma fh_body_spec {S} m (s : filtered_iter S) iv run off :
  run_ok run -> off <= run_len run -> iv_ok iv -> fh_items s <= iv_start iv -> iv_length iv <= fh_total s -> fh_total s < 2 ^ 64 ->
  let L := skipn (N.to_nat off) (run_levels run) in
  exists ev s', fh_body m s iv run off = Ok (Some (inl ev), s') /\ fh_iter s' = fh_iter s /\
    cur_ok (fh_current s') /\ stepped s iv L ev s'.
Proof.
  intros Hr Ho Hiv Hit Htot Ht64 L. pose proof (run_levels_length run Hr) as HRL. pose proof Hr as [Hr64 Hrb].
  unfold iv_ok in Hiv.
  assert (HL : length L = N.to_nat (run_len run - off)) by (unfold L; rewrite skipn_length, HRL; lia).
  (* the two arms of the match *)
  assert (G : forall count skip_all emit,
    (forall n, n <= run_len run - off -> count off n = Ok (N.of_nat (count_true (firstn (N.to_nat n) L)))) ->
    (forall n, n <= run_len run - off ->
       filtered_levels (emit off n) = firstn (N.to_nat n) L /\ filtered_len (emit off n) = n /\
       (forall c r, assign_filtered c (emit off n :: r) = assign c (filtered_levels (emit off n)) ++ assign_filtered (c + count_true (filtered_levels (emit off n))) r)) ->
    exists ev s', fh_step m s iv run off (run_len run) count skip_all emit = Ok (Some (inl ev), s') /\ fh_iter s' = fh_iter s /\
      cur_ok (fh_current s') /\ stepped s iv L ev s').
  { intros count skip_all emit Hcount Hemit. unfold fh_step.
    unfold usub at 1. replace (off <=? run_len run) with true by lia. cbn [bind].
    unfold usub at 1. replace (fh_items s <=? iv_start iv) with true by lia. cbn [bind].
    destruct (N.ltb_spec 0 (iv_start iv - fh_items s)) as [Hst|Hst].
    - unfold usub. replace (off <=? run_len run) with true by lia. cbn [bind].
      set (d := N.min (iv_start iv - fh_items s) (run_len run - off)).
      assert (Hd : d <= run_len run - off) by lia. rewrite (Hcount d Hd). cbn [bind].
      unfold uadd. replace (fh_items s + d <? 2 ^ 64) with true by lia. cbn [bind].
      replace (off + d <? 2 ^ 64) with true by lia. cbn [bind].
      do 2 eexists. split; [reflexivity|]. cbn [fh_iter fh_current fh_interval fh_rows fh_items fh_total].
      split; [reflexivity|]. destruct (N.eqb_spec d (run_len run - off)) as [E|E].
      + split; [exact I|]. apply (st_skip _ _ _ _ _ d); cbn [fh_iter fh_current fh_interval fh_rows fh_items fh_total cur_levels]; try reflexivity; try lia.
        * rewrite skipn_all2 by lia. reflexivity.
        * left. reflexivity.
      + split; [cbn; split; [exact Hr|lia]|]. apply (st_skip _ _ _ _ _ d); cbn [fh_iter fh_current fh_interval fh_rows fh_items fh_total cur_levels]; try reflexivity; try lia.
        * unfold L. rewrite skipn_skipn_add. f_equal. lia.
        * right. split; [discriminate|]. lia.
    - assert (E0 : iv_start iv - fh_items s = 0) by lia. rewrite E0.
      unfold uadd at 1. rewrite N.add_0_r. replace (off <? 2 ^ 64) with true by lia. cbn [bind].
      replace (run_len run - off <? 0) with false by lia.
      destruct (N.ltb_spec (iv_length iv) (run_len run - off)) as [Hl|Hl].
      + unfold uadd. replace (fh_items s + iv_length iv <? 2 ^ 64) with true by lia. cbn [bind].
        unfold usub. replace (iv_length iv <=? fh_total s) with true by lia. cbn [bind].
        replace (off + iv_length iv <? 2 ^ 64) with true by lia. cbn [bind].
        destruct (Hemit (iv_length iv) ltac:(lia)) as (He1 & He2 & He3).
        destruct (pop (fh_rows s)) as [niv nrows] eqn:Ep.
        do 2 eexists. split; [reflexivity|]. split; [reflexivity|]. split; [cbn; split; [exact Hr|lia]|].
        apply st_inside; cbn [fh_iter fh_current fh_interval fh_rows fh_items fh_total cur_levels];
          try rewrite Ep; try reflexivity; try assumption; try lia; [|discriminate].
        unfold L. rewrite skipn_skipn_add. f_equal. lia.
      + unfold uadd. replace (fh_items s + (run_len run - off) <? 2 ^ 64) with true by lia. cbn [bind].
        unfold usub at 1. replace (off <=? run_len run) with true by lia. cbn [bind]. rewrite N.min_id.
        unfold advance_interval, uadd, usub.
        replace (iv_start iv + (run_len run - off) <? 2 ^ 64) with true by lia. cbn [bind].
        replace (run_len run - off <=? iv_length iv) with true by lia. cbn [bind].
        replace (run_len run - off <=? fh_total s) with true by lia. cbn [bind].
        destruct (Hemit (run_len run - off) ltac:(lia)) as (He1 & He2 & He3).
        do 2 eexists. split; [reflexivity|]. split; [reflexivity|]. split; [exact I|].
        eapply st_across; cbn [fh_iter fh_current fh_interval fh_rows fh_items fh_total cur_levels iv_start iv_length];
          try reflexivity; try assumption; cbn [iv_start iv_length]; try lia.
        rewrite He1. apply firstn_all2. lia. }
  unfold fh_body. destruct run as [bytes full|is_set full]; cbn [run_len] in *.
  - assert (EL : forall n, n <= full - off -> firstn (N.to_nat n) L = firstn (N.to_nat n) (skipn (N.to_nat off) (bit_stream bytes))).
    { intros n Hn. unfold L. cbn [run_levels]. apply firstn_skipn_firstn. lia. }
    apply G.
    + intros n Hn. rewrite is_set_count_spec by lia. now rewrite EL.
    + intros n Hn. cbn [filtered_levels filtered_len]. rewrite EL by exact Hn. repeat split.
  - assert (EL : forall n, n <= full - off -> firstn (N.to_nat n) L = repeat is_set (N.to_nat n)).
    { intros n Hn. unfold L. cbn [run_levels]. rewrite skipn_repeat, firstn_repeat. f_equal. lia. }
    apply G.
    + intros n Hn. rewrite EL by exact Hn. rewrite count_true_repeat. destruct is_set; [now rewrite N2Nat.id|reflexivity].
    + intros n Hn. cbn [filtered_levels filtered_len]. rewrite EL by exact Hn. repeat split.
Qed.

Section Filter.
Context {S : Type} (next : S -> res (option (level_run + error) * S)) (P : S -> list (level_run + error) -> Prop) (m : mode).

Definition iv_list (o : option interval) : list interval := match o with None => [] | Some i => [i] end.

Fixpoint sum_filtered (l : list (filtered_run + error)) : N :=
  match l with
  | [] => 0
  | inl r :: l => filtered_len r + sum_filtered l
  | inr _ :: l => sum_filtered l
  end.

Definition filter_state_ok (s : filtered_iter S) (runs : list level_run) : Prop :=
  let L := cur_levels (fh_current s) ++ concat (map run_levels runs) in
  let ivs := iv_list (fh_interval s) ++ fh_rows s in
  Forall run_ok runs /\ cur_ok (fh_current s) /\ Forall iv_ok ivs /\
  sorted_disjoint_from (N.to_nat (fh_items s)) ivs /\
  Forall (fun r => (r < N.to_nat (fh_items s) + length L)%nat) (rows_of ivs) /\
  Forall (fun i => (N.to_nat (iv_start i) + N.to_nat (iv_length i) <= N.to_nat (fh_items s) + length L)%nat) ivs /\
  fh_total s = N.of_nat (total_len ivs) /\ fh_total s < 2 ^ 64.

Definition filter_measure (s : filtered_iter S) (runs : list level_run) : nat :=
  (2 * length (iv_list (fh_interval s) ++ fh_rows s) + length runs + (match fh_current s with None => 0 | _ => 1 end) +
   (match iv_list (fh_interval s) ++ fh_rows s with i :: _ => if N.ltb (fh_items s) (iv_start i) then 1 else 0 | [] => 0 end))%nat.

Lemma sorted_weaken a b l : (a <= b)%nat -> sorted_disjoint_from b l -> sorted_disjoint_from a l.
Proof. intro H. destruct l; cbn; [trivial|]. intros [? ?]. split; [lia|assumption]. Qed.

Lemma count_true_split n l : (count_true (firstn n l) + count_true (skipn n l) = count_true l)%nat.
Proof. rewrite <- count_true_app, firstn_skipn. reflexivity. Qed.
(** A run that is not a skip moves past as many stored values as it has set levels. *)
Lemma moved_past_run ev out :
  (forall c r, assign_filtered c (ev :: r) = assign c (filtered_levels ev) ++ assign_filtered (c + count_true (filtered_levels ev)) r) ->
  moved_past (ev :: out) = (count_true (filtered_levels ev) + moved_past out)%nat.
Proof.
  intros H. destruct ev as [bytes o n|b n|k]; [reflexivity|reflexivity|]. specialize (H 0%nat [FRepeated true 1]). cbn in H. injection H as H.
  cbn [moved_past filtered_levels count_true]. lia.
Qed.

Lemma fh_yields k : forall s runs c,
  (filter_measure s runs <= k)%nat -> filter_state_ok s runs ->
  yields next P (fh_iter s) (map inl runs) ->
  exists out, yields (fh_next m next) (fun s l => fh_len s = sum_filtered l) s (map inl out) /\
    assign_filtered c out =
      map (at_row (N.to_nat (fh_items s)) c (cur_levels (fh_current s) ++ concat (map run_levels runs)))
        (rows_of (iv_list (fh_interval s) ++ fh_rows s)) /\
    (moved_past out <= count_true (cur_levels (fh_current s) ++ concat (map run_levels runs)))%nat.
Proof.
  induction k as [k IH] using lt_wf_ind. intros s runs c Hk Hok Hy.
  destruct s as [it cur ivo rws items total]. unfold filter_state_ok, filter_measure in *.
  cbn [fh_iter fh_current fh_interval fh_rows fh_items fh_total] in *.
  destruct (iv_list ivo ++ rws) as [|iv rws'] eqn:Eiv.
  { (* no interval left *)
    exists []. assert (ivo = None) by (destruct ivo; [discriminate|reflexivity]). subst ivo. cbn in Eiv. subst rws.
    split; [|split; [reflexivity|cbn [moved_past]; lia]]. cbn [map]. eapply yields_nil.
    - destruct Hok as (_ & _ & _ & _ & _ & _ & -> & _). reflexivity.
    - unfold fh_next. cbn. reflexivity. }
  destruct Hok as (Hruns & Hcur & Hivok & Hsort & Hin & Hends & Htot & Ht64).
  assert (Enext : fh_next m next (mk_fh it cur ivo rws items total) =
    match cur with
    | Some (run, offset) => fh_body m (mk_fh it cur (Some iv) rws' items total) iv run offset
    | None =>
        let* (o, i) := next it in
        match o with
        | None => Ok (None, mk_fh i None (Some iv) rws' items total)
        | Some (inr e) => Ok (Some (inr e), mk_fh i None (Some iv) rws' items total)
        | Some (inl run) => fh_body m (mk_fh i (Some (run, 0)) (Some iv) rws' items total) iv run 0
        end
    end).
  { unfold fh_next. cbn [fh_iter fh_current fh_interval fh_rows fh_items fh_total].
    destruct ivo as [i|]; cbn [iv_list app] in Eiv.
    - injection Eiv as -> ->. reflexivity.
    - subst rws. cbn [pop]. reflexivity. }
  (* the step proper *)
  assert (Step : forall it2 run off runs2,
    run_ok run -> off <= run_len run -> Forall run_ok runs2 ->
    fh_next m next (mk_fh it cur ivo rws items total) = fh_body m (mk_fh it2 (Some (run, off)) (Some iv) rws' items total) iv run off ->
    yields next P it2 (map inl runs2) ->
    cur_levels cur ++ concat (map run_levels runs) = skipn (N.to_nat off) (run_levels run) ++ concat (map run_levels runs2) ->
    (length runs + (match cur with None => 0 | _ => 1 end) = length runs2 + 1)%nat ->
    exists out, yields (fh_next m next) (fun s l => fh_len s = sum_filtered l) (mk_fh it cur ivo rws items total) (map inl out) /\
      assign_filtered c out = map (at_row (N.to_nat items) c (cur_levels cur ++ concat (map run_levels runs))) (rows_of (iv :: rws')) /\
      (moved_past out <= count_true (cur_levels cur ++ concat (map run_levels runs)))%nat).
  { intros it2 run off runs2 Hrun Hoff Hruns2 E Hy2 EL Hlen.
    set (s2 := mk_fh it2 (Some (run, off)) (Some iv) rws' items total) in *.
    rewrite EL in *. set (L := skipn (N.to_nat off) (run_levels run)) in *. set (R := concat (map run_levels runs2)) in *.
    destruct Hsort as [Hs1 Hs2]. pose proof (Forall_inv Hivok) as Hiv. pose proof (Forall_inv_tail Hivok) as Hivok'.
    pose proof (Forall_inv Hends) as He1. pose proof (Forall_inv_tail Hends) as He2. cbn beta in He1.
    rewrite total_len_cons in Htot.
    destruct (fh_body_spec m s2 iv run off Hrun Hoff Hiv) as (ev & s' & Eb & Eit & Hcur' & Hst);
      [subst s2; cbn; lia|subst s2; cbn; lia|subst s2; cbn; lia|].
    rewrite Eb in E. fold L in Hst.
    assert (Eits : fh_iter s' = it2) by exact Eit.
    destruct Hst as [d Hev Hd Hi Hrw Htt Hii Hle Hcl Hprog | Hal HlL Hfl Hfn Hasg Hi Hrw Htt Hii Hcl Hcn
                    | iv' Hal HlL Hfl Hfn Hasg Hi Hst' Hln' Hrw Htt Hii Hcn];
      subst s2; cbn [fh_iter fh_current fh_interval fh_rows fh_items fh_total] in *.
    - (* skip *)
      destruct (IH (filter_measure s' runs2)) with (s := s') (runs := runs2) (c := (c + count_true (firstn (N.to_nat d) L))%nat)
        as (out & Hyo & Ho & Hmp).
      + unfold filter_measure. rewrite Hi, Hrw. cbn [iv_list app length] in *. 
        destruct Hprog as [->|(Hne & Hlt & Heq)].
        * destruct (fh_items s' <? iv_start iv) eqn:?; destruct (items <? iv_start iv) eqn:?; lia.
        * rewrite Heq, N.ltb_irrefl. replace (items <? iv_start iv) with true in Hk by lia.
          destruct (fh_current s'); lia.
      + apply Nat.le_refl.
      + unfold filter_state_ok. rewrite Hi, Hrw, Htt, Hcl, Hii. cbn [iv_list app].
        fold R. assert (Hlen2 : (N.to_nat (items + d) + length (skipn (N.to_nat d) L ++ R) = N.to_nat items + length (L ++ R))%nat)
          by (rewrite !app_length, skipn_length; lia).
        refine (conj Hruns2 (conj _ (conj _ (conj _ (conj _ (conj _ (conj _ _))))))).
        * exact Hcur'.
        * exact Hivok.
        * cbn [sorted_disjoint_from]. split; [lia|exact Hs2].
        * eapply Forall_impl; [|exact Hin]. intros r Hr. cbn beta in *. lia.
        * constructor; [lia|]. eapply Forall_impl; [|exact He2]. intros r Hr. cbn beta in *. lia.
        * rewrite total_len_cons. lia.
        * exact Ht64.
      + rewrite Eits. exact Hy2.
      + exists (ev :: out). split; [|split].
        * cbn [map]. eapply yields_cons; [|exact E|exact Hyo]. subst ev. cbn [sum_filtered filtered_len].
          inversion Hyo as [? ? HP0|? ? ? ? HP0]; subst; unfold fh_len in *; cbn [fh_total]; rewrite <- Htt; try (rewrite HP0); reflexivity.
        * subst ev. cbn [assign_filtered]. rewrite Nat2N.id, Ho, Hi, Hrw, Hcl, Hii. cbn [iv_list app].
          apply map_ext_in. intros r Hr.
          assert (Hrr : (N.to_nat items + N.to_nat d <= r)%nat).
          { pose proof (rows_ge (iv :: rws') (N.to_nat (iv_start iv)) ltac:(cbn; split; [lia|exact Hs2])) as Hg.
            rewrite Forall_forall in Hg. specialize (Hg r Hr). lia. }
          rewrite (at_row_shift (N.to_nat d) (N.to_nat items) c (L ++ R)) by exact Hrr.
          replace (N.to_nat (items + d)) with (N.to_nat items + N.to_nat d)%nat by lia.
          rewrite firstn_app, skipn_app. replace (N.to_nat d - length L)%nat with 0%nat by lia.
          cbn [firstn skipn]. now rewrite app_nil_r.
        * subst ev. cbn [moved_past]. rewrite Hcl in Hmp. fold R in Hmp. rewrite count_true_app in *. pose proof (count_true_split (N.to_nat d) L). lia.
    - (* the interval ends inside the run *)
      set (n := N.to_nat (iv_length iv)) in *.
      assert (Hnew : iv_list (fh_interval s') ++ fh_rows s' = rws').
      { rewrite Hi, Hrw. destruct rws'; reflexivity. }
      destruct (IH (filter_measure s' runs2)) with (s := s') (runs := runs2) (c := (c + count_true (firstn n L))%nat)
        as (out & Hyo & Ho & Hmp).
      + unfold filter_measure. rewrite Hnew. cbn [length] in Hk.
        assert (Hc1 : (match fh_current s' with None => 0 | _ => 1 end = 1)%nat) by (destruct (fh_current s'); [reflexivity|congruence]).
        rewrite Hc1. destruct rws' as [|i2 rws'']; [|destruct (fh_items s' <? iv_start i2)]; 
          destruct (items <? iv_start iv) eqn:?; cbn [length] in *; lia.
      + apply Nat.le_refl.
      + unfold filter_state_ok. rewrite Hnew, Hcl, Hii.
        fold R. assert (Hlen2 : (N.to_nat (items + iv_length iv) + length (skipn n L ++ R) = N.to_nat items + length (L ++ R))%nat)
          by (rewrite !app_length, skipn_length; lia).
        refine (conj Hruns2 (conj _ (conj _ (conj _ (conj _ (conj _ (conj _ _))))))).
        * exact Hcur'.
        * exact Hivok'.
        * eapply sorted_weaken; [|exact Hs2]. lia.
        * unfold rows_of in Hin. cbn [map concat] in Hin. apply Forall_app in Hin as [_ Hin].
          eapply Forall_impl; [|exact Hin]. intros r Hr. cbn beta in *. lia.
        * eapply Forall_impl; [|exact He2]. intros r Hr. cbn beta in *. lia.
        * lia.
        * lia.
      + rewrite Eits. exact Hy2.
      + exists (ev :: out). split; [|split].
        * cbn [map]. eapply yields_cons; [|exact E|exact Hyo]. cbn [sum_filtered]. rewrite Hfn.
          inversion Hyo as [? ? HP0|? ? ? ? HP0]; subst; unfold fh_len in *; cbn [fh_total];
            rewrite <- Htt, HP0; apply N.add_comm.
        * rewrite Hasg, Hfl, Ho, Hnew, Hcl, Hii. unfold rows_of. cbn [map concat]. rewrite map_app. f_equal.
          -- unfold rows. fold n. rewrite <- Hal. rewrite at_row_seq by (rewrite app_length; lia).
             rewrite firstn_app. replace (n - length L)%nat with 0%nat by lia. cbn [firstn]. now rewrite app_nil_r.
          -- apply map_ext_in. intros r Hr.
             assert (Hrr : (N.to_nat items + n <= r)%nat).
             { pose proof (rows_ge rws' _ Hs2) as Hg. rewrite Forall_forall in Hg. specialize (Hg r Hr). lia. }
             rewrite (at_row_shift n (N.to_nat items) c (L ++ R)) by exact Hrr.
             replace (N.to_nat (items + iv_length iv)) with (N.to_nat items + n)%nat by lia.
             rewrite firstn_app, skipn_app. replace (n - length L)%nat with 0%nat by lia.
             cbn [firstn skipn]. now rewrite app_nil_r.
        * rewrite moved_past_run by exact Hasg. rewrite Hfl. rewrite Hcl in Hmp. fold R in Hmp. rewrite count_true_app in *. pose proof (count_true_split n L). lia.
    - (* the run ends inside the interval *)
      set (n := length L) in *.
      destruct (IH (filter_measure s' runs2)) with (s := s') (runs := runs2) (c := (c + count_true L)%nat)
        as (out & Hyo & Ho & Hmp).
      + unfold filter_measure. rewrite Hi, Hrw, Hcn. cbn [iv_list app length] in *.
        replace (fh_items s' <? iv_start iv') with false by lia. lia.
      + apply Nat.le_refl.
      + unfold filter_state_ok. rewrite Hi, Hrw, Hcn, Hii. cbn [iv_list app cur_levels].
        fold R. assert (Hlen2 : (N.to_nat (items + N.of_nat n) + length R = N.to_nat items + length (L ++ R))%nat)
          by (rewrite !app_length; lia).
        assert (Hse : iv_start iv' + iv_length iv' = iv_start iv + iv_length iv) by lia.
        unfold rows_of in Hin. cbn [map concat] in Hin. apply Forall_app in Hin as [_ Hin].
        refine (conj Hruns2 (conj _ (conj _ (conj _ (conj _ (conj _ (conj _ _))))))).
        * exact I.
        * constructor; [unfold iv_ok in *; lia|exact Hivok'].
        * split; [lia|]. replace (N.to_nat (iv_start iv') + N.to_nat (iv_length iv'))%nat with (N.to_nat (iv_start iv) + N.to_nat (iv_length iv))%nat by lia.
          exact Hs2.
        * unfold rows_of. cbn [map concat]. apply Forall_app. split.
          -- apply Forall_forall. intros r Hr. unfold rows in Hr. apply in_seq in Hr. lia.
          -- eapply Forall_impl; [|exact Hin]. intros r Hr. cbn beta in *. lia.
        * constructor; [lia|]. eapply Forall_impl; [|exact He2]. intros r Hr. cbn beta in *. lia.
        * rewrite total_len_cons. lia.
        * lia.
      + rewrite Eits. exact Hy2.
      + exists (ev :: out). split; [|split].
        * cbn [map]. eapply yields_cons; [|exact E|exact Hyo]. cbn [sum_filtered]. rewrite Hfn.
          inversion Hyo as [? ? HP0|? ? ? ? HP0]; subst; unfold fh_len in *; cbn [fh_total];
            rewrite <- Htt, HP0; apply N.add_comm.
        * rewrite Hasg, Hfl, Ho, Hi, Hrw, Hcn, Hii. cbn [iv_list app cur_levels]. unfold rows_of. cbn [map concat].
          replace (rows iv) with (seq (N.to_nat items) n ++ rows iv')
            by (unfold rows; rewrite <- Hal; replace (N.to_nat (iv_length iv)) with (n + N.to_nat (iv_length iv'))%nat by lia;
                rewrite seq_app; do 2 f_equal; lia).
          rewrite <- app_assoc, (map_app _ (seq _ _)). f_equal.
          -- rewrite at_row_seq by (rewrite app_length; lia).
             rewrite firstn_app. fold n. rewrite Nat.sub_diag, firstn_O, app_nil_r. unfold n. now rewrite firstn_all.
          -- apply map_ext_in. intros r Hr.
             assert (Hrr : (N.to_nat items + n <= r)%nat).
             { apply in_app_or in Hr as [Hr|Hr].
               - unfold rows in Hr. apply in_seq in Hr. lia.
               - pose proof (rows_ge rws' _ Hs2) as Hg. rewrite Forall_forall in Hg. specialize (Hg r Hr). lia. }
             rewrite (at_row_shift n (N.to_nat items) c (L ++ R)) by exact Hrr.
             replace (N.to_nat (items + N.of_nat n)) with (N.to_nat items + n)%nat by lia.
             rewrite firstn_app, skipn_app. fold n. rewrite Nat.sub_diag. cbn [firstn skipn].
             unfold n. rewrite firstn_all, skipn_all, app_nil_r. reflexivity.
        * rewrite moved_past_run by exact Hasg. rewrite Hfl. rewrite Hcn in Hmp. cbn [cur_levels app] in Hmp. fold R in Hmp. rewrite count_true_app in *. lia. }
  destruct cur as [[run off]|].
  - destruct Hcur as [Hrun Hoff]. apply (Step it run off runs); try assumption; try lia.
    reflexivity.
  - destruct runs as [|run runs]; cbn [map] in Hy.
    + (* no run left: only empty intervals *)
      inversion Hy as [? it' HP0 E0 E1 E2|]. exists []. split; [|split; [|cbn [moved_past]; lia]].
      * cbn [map]. eapply yields_nil; [|rewrite Enext, E0; reflexivity].
        unfold fh_len. cbn [fh_total sum_filtered]. rewrite Htot. f_equal.
        assert (Hz : rows_of (iv :: rws') = []).
        { pose proof (rows_ge _ _ Hsort) as Hg. destruct (rows_of (iv :: rws')) as [|r rr]; [reflexivity|].
          pose proof (Forall_inv Hg). pose proof (Forall_inv Hin). cbn in *. lia. }
        unfold total_len. now rewrite Hz.
      * pose proof (rows_ge _ _ Hsort) as Hg. destruct (rows_of (iv :: rws')) as [|r rr]; [reflexivity|].
        pose proof (Forall_inv Hg). pose proof (Forall_inv Hin). cbn in *. lia.
    + inversion Hy as [|? it' x l' HP0 E0 Hy' E1 E2]. pose proof (Forall_inv Hruns) as Hrun. pose proof (Forall_inv_tail Hruns) as Hruns'.
      apply (Step it' run 0 runs); try assumption; try lia.
      * rewrite Enext, E0. reflexivity.
      * reflexivity.
      * cbn [length]. lia.
Qed.
End Filter.
