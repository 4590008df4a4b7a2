(** Lemmas about following the runs of levels of a page. *)
From Verif Require Import Base.Prelude Base.LeFacts Base.Iter Spec.Bits Spec.RleSpec Spec.RowsSpec Spec.LevelsSpec
  Spec.PageSpec Spec.PlainSpec Spec.ValuesSpec Spec.SelectedSpec Spec.RunsSpec
  Model.Types Model.Native Model.Thrift Model.Intervals Model.Uleb128 Model.Bitpacked Model.HybridRle Model.Plain Model.Page Model.Deserialize
  Proofs.BitsFacts Proofs.BitpackedProofs Proofs.HybridRleProofs Proofs.HybridEncProofs Proofs.BitmapProofs Proofs.PageProofs Proofs.PlainProofs
  Proofs.SliceProofs Proofs.FilteredProofs Proofs.LevelsProofs Proofs.ValuesProofs Proofs.LaidProofs Proofs.SelectedProofs Props.HybridRle Props.Plain Props.Deserialize.
Open Scope N_scope.

Section Follow.
  Context {V I : Type} (next : V -> res (option I * V)) (Q : V -> list I -> Prop).

  Lemma take_levels_spec : forall levels s vals, yields next Q s vals -> (count_true levels <= length vals)%nat ->
    exists s', take_levels next levels s = Ok (pair_values levels vals, s') /\ yields next Q s' (skipn (count_true levels) vals).
  Proof.
    induction levels as [|[] levels IH]; intros s vals Hy Hc; cbn [take_levels pair_values count_true Nat.add] in *.
    - exists s. split; [reflexivity|exact Hy].
    - inversion Hy as [|? s1 v l HP E Hy']; subst; [cbn in Hc; lia|]. rewrite E. cbn [bind].
      destruct (IH s1 l Hy') as (s' & -> & H); [cbn in Hc; lia|]. exists s'. split; [reflexivity|exact H].
    - destruct (IH s vals Hy Hc) as (s' & -> & H). exists s'. split; [reflexivity|exact H].
  Qed.
  Lemma skip_values_spec : forall k s vals, yields next Q s vals -> (k <= length vals)%nat ->
    exists s', skip_values next k s = Ok s' /\ yields next Q s' (skipn k vals).
  Proof.
    induction k as [|k IH]; intros s vals Hy Hc; cbn [skip_values].
    - exists s. split; [reflexivity|exact Hy].
    - inversion Hy as [|? s1 v l HP E Hy']; subst; [cbn in Hc; lia|]. rewrite E. cbn [bind skipn]. apply IH; [exact Hy'|cbn in Hc; lia].
  Qed.

  Lemma pair_values_split a b : forall vals : list I, (count_true a <= length vals)%nat ->
    pair_values (a ++ b) vals = pair_values a vals ++ pair_values b (skipn (count_true a) vals).
  Proof.
    induction a as [|[] a IH]; intros vals H; cbn [app pair_values count_true Nat.add] in *; [reflexivity| |rewrite IH by exact H; reflexivity].
    destruct vals as [|v vals]; [cbn in H; lia|]. cbn [skipn app]. rewrite IH by (cbn in H; lia). reflexivity.
  Qed.
  Lemma follow_runs_spec : forall runs s vals, yields next Q s vals -> (count_true (concat (map run_levels runs)) <= length vals)%nat ->
    follow_runs next runs s = Ok (pair_values (concat (map run_levels runs)) vals).
  Proof.
    induction runs as [|r runs IH]; intros s vals Hy Hc; cbn [follow_runs map concat]; [reflexivity|]. cbn [map concat] in Hc. rewrite count_true_app in Hc.
    destruct (take_levels_spec (run_levels r) s vals Hy) as (s' & -> & Hy'); [lia|]. cbn [bind]. rewrite (IH s' _ Hy') by (rewrite skipn_length; lia). cbn [bind].
    rewrite pair_values_split by lia. reflexivity.
  Qed.

  (** The stored value at a position. *)
  Definition stored_at (vals : list I) (o : option nat) : option I := match o with None => None | Some i => nth_error vals i end.
  Lemma pair_values_assign levels vals : forall c, (c + count_true levels <= length vals)%nat ->
    pair_values levels (skipn c vals) = map (stored_at vals) (assign c levels).
  Proof.
    induction levels as [|[] levels IH]; intros c H; cbn [pair_values assign map stored_at count_true] in *; [reflexivity| |f_equal; apply IH; lia].
    destruct (skipn c vals) as [|v l] eqn:E; [apply (f_equal (@length _)) in E; rewrite skipn_length in E; cbn in E; lia|].
    assert (E1 : nth_error vals c = Some v). { rewrite <- (firstn_skipn c vals), E, nth_error_app2 by (rewrite firstn_length; lia). rewrite firstn_length, Nat.min_l by lia. rewrite Nat.sub_diag. reflexivity. }
    assert (E2 : l = skipn (S c) vals). { replace (S c) with (1 + c)%nat by lia. rewrite <- (Nat.add_comm c 1). rewrite <- skipn_skipn_add, E. reflexivity. }
    rewrite E1, E2. f_equal. apply IH. lia.
  Qed.
  Lemma follow_filtered_spec vals : forall runs c s, yields next Q s (skipn c vals) -> (c + moved_past runs <= length vals)%nat ->
    follow_filtered next runs s = Ok (map (stored_at vals) (assign_filtered c runs)).
  Proof.
    induction runs as [|r runs IH]; intros c s Hy Hc; [reflexivity|].
    assert (Hrun : forall x, (forall k, x <> FSkipped k) -> (c + moved_past (x :: runs) <= length vals)%nat ->
      (let* (l, s) := take_levels next (filtered_levels x) s in let* rest := follow_filtered next runs s in Ok (l ++ rest)) =
      Ok (map (stored_at vals) (assign_filtered c (x :: runs)))).
    { intros x Hx Hm. assert (E : moved_past (x :: runs) = (count_true (filtered_levels x) + moved_past runs)%nat) by (destruct x; [reflexivity|reflexivity|destruct (Hx set eq_refl)]).
      rewrite E in Hm. destruct (take_levels_spec (filtered_levels x) s _ Hy) as (s' & -> & Hy'); [rewrite skipn_length; lia|]. cbn [bind].
      rewrite skipn_skipn_add in Hy'. rewrite (IH _ s' Hy') by lia. cbn [bind]. f_equal. rewrite pair_values_assign by lia. rewrite <- map_app. f_equal.
      destruct x; [reflexivity|reflexivity|destruct (Hx set eq_refl)]. }
    destruct r as [bytes o n|b n|k]; [apply Hrun; [discriminate|exact Hc]|apply Hrun; [discriminate|exact Hc]|].
    clear Hrun. cbn [follow_filtered moved_past assign_filtered] in *. destruct (skip_values_spec (N.to_nat k) s _ Hy) as (s' & -> & Hy'); [rewrite skipn_length; lia|]. cbn [bind].
    rewrite skipn_skipn_add in Hy'. apply IH; [exact Hy'|lia].
  Qed.

End Follow.
Lemma count_true_below r levels : nth r levels false = true -> (count_true (firstn r levels) < count_true levels)%nat.
Proof.
  revert r. induction levels as [|b levels IH]; intros [|r] H; cbn [nth firstn count_true] in *; try discriminate; [subst b; lia|]. specialize (IH r H). lia.
Qed.
Lemma pick_stored {I} levels (vals : list I) rows : (count_true levels <= length vals)%nat -> Forall (fun r => (r < length levels)%nat) rows ->
  map (fun r => stored_at vals (if nth r levels false then Some (count_true (firstn r levels)) else None)) rows = pick (pair_values levels vals) rows.
Proof.
  intros Hc. assert (G : forall i, (i < length levels)%nat -> nth_error (pair_values levels vals) i =
    if nth i levels false then option_map Some (nth_error vals (count_true (firstn i levels))) else Some None).
  { clear -Hc. revert vals Hc. induction levels as [|b k IH]; intros vs Hc i Hi; [cbn in Hi; lia|]. cbn [count_true] in Hc. destruct b.
    - destruct vs as [|x vs]; [cbn in Hc; lia|]. cbn [pair_values]. destruct i as [|i]; [reflexivity|]. cbn [nth_error nth firstn count_true Nat.add]. apply IH; cbn in *; lia.
    - cbn [pair_values]. destruct i as [|i]; [reflexivity|]. cbn [nth_error nth firstn count_true Nat.add]. apply IH; cbn in *; lia. }
  induction 1 as [|r rows Hr _ IH]; [reflexivity|]. unfold pick in *. cbn [map flat_map]. rewrite IH, (G r Hr). destruct (nth r levels false) eqn:E; cbn [stored_at]; [|reflexivity].
  pose proof (count_true_below r levels E) as Hb. destruct (nth_error vals (count_true (firstn r levels))) as [v|] eqn:Ev; [reflexivity|].
  apply nth_error_None in Ev. lia.
Qed.

(** ** The rows that are wanted *)

Lemma has_rows_ok n rows : has_rows n (Rows rows) -> N.of_nat n < 2 ^ 31 ->
  Forall iv_ok rows /\ nlen (rows_of rows) < 2 ^ 64 /\ Forall (fun r => (r < n)%nat) (rows_of rows).
Proof.
  intros (Hs & Hne & He) Hn. change (2 ^ 31) with 2147483648 in Hn. 
  assert (He' : Forall (fun i => iv_start i + iv_length i <= N.of_nat n) rows) by (eapply Forall_impl; [|exact He]; intros i Hi; cbn beta in Hi; lia).
  destruct (rows_bound (N.of_nat n) rows 0 Hs He') as (H1 & H2). rewrite Nat2N.id in *. split; [|split; [|exact H1]].
  - eapply Forall_impl; [|exact He']. intros i Hi. unfold iv_ok. cbn beta in Hi. change (2 ^ 64) with 18446744073709551616. lia.
  - unfold nlen. change (2 ^ 64) with 18446744073709551616. destruct H2 as [-> |H2]; [cbn; lia|lia].
Qed.

Lemma wanted_rows_map {A B} (f : A -> B) w l : wanted_rows w (map f l) = map f (wanted_rows w l).
Proof. destruct w; [reflexivity|]. apply pick_map. Qed.
Lemma wanted_rows_in {A} w (l : list A) x : In x (wanted_rows w l) -> In x l.
Proof. destruct w; [auto|]. apply pick_in. Qed.
Lemma wanted_rows_forall2 {A B} (P : A -> B -> Prop) w la lb : Forall2 P la lb -> Forall2 P (wanted_rows w la) (wanted_rows w lb).
Proof. destruct w; [auto|]. intros H. apply pick_forall2. exact H. Qed.

Lemma required_gives_wanted {V I} w m (next : V -> res (option I * V)) P it items : yields next P it items -> has_rows (length items) w -> nlen items < 2 ^ 31 ->
  required_gives w m next it (wanted_rows w items).
Proof.
  intros Hy Hw Hn. destruct w as [|rows]; cbn [required_gives wanted_rows].
  - eapply yields_weaken; [|exact Hy]. trivial.
  - destruct (has_rows_ok _ _ Hw Hn) as (H1 & H2 & _). destruct Hw as (Hs & Hne & _). exact (sliced_pick m rows Hs Hne H1 H2 next P it items Hy).
Qed.

Lemma optional_gives_wanted {V I} w m (next : V -> res (option I * V)) Q P ri runs it vals :
  yields (ri_next m) P ri (map inl runs) -> Forall run_ok runs -> let levels := concat (map run_levels runs) in
  yields next Q it vals -> (count_true levels <= length vals)%nat -> has_rows (length levels) w -> nlen levels < 2 ^ 31 ->
  optional_gives w m next ri it (wanted_rows w (pair_values levels vals)).
Proof.
  intros Hr Hok levels Hy Hc Hw Hn. destruct w as [|rows]; cbn [optional_gives wanted_rows].
  - exists runs. split; [eapply yields_weaken; [|exact Hr]; trivial|]. eapply follow_runs_spec; eassumption.
  - destruct (has_rows_ok _ _ Hw Hn) as (H1 & H2 & H3). destruct Hw as (Hs & Hne & He).
    destruct (filtered_levels_select _ _ P m ri runs rows Hr Hok Hs H1 H2 He) as (fh & out & Ef & Hf & _ & Ha & Hm). fold levels in Ha, Hm.
    exists fh, out. split; [exact Ef|]. split; [eapply yields_weaken; [|exact Hf]; trivial|].
    rewrite (follow_filtered_spec next Q vals out 0 it Hy) by (cbn [Nat.add]; lia). f_equal. rewrite Ha, map_map. apply pick_stored; assumption.
Qed.

(** ** Pages *)

Lemma levels_runs m p levels rep def values : page_parts p rep def values -> levels_laid levels def -> d_max_def (dp_descriptor p) = 1%Z -> dp_num_values p = nlen levels -> nlen levels < 2 ^ 31 ->
  exists ri runs, dl_try_new m p = Ok (DBitmap ri) /\ yields (ri_next m) (fun _ _ => True) ri (map inl runs) /\ concat (map run_levels runs) = levels /\ Forall run_ok runs.
Proof.
  intros Hp (rs & extra & Hc & E) Hm Hn H31. unfold dl_try_new. rewrite (split_parts m p _ _ _ Hp). cbn [bind]. rewrite Hm. cbn [Z.eqb Pos.eqb].
  assert (Hd : nlen def < 2 ^ 61).
  { destruct Hp as (Hb & Hp). destruct (dp_header p) as [h|h].
    - destruct Hp as (_ & _ & Hp). rewrite Hm in Hp. cbn [Z.ltb Z.compare v1_part] in Hp. change (2 ^ 61) with 2305843009213693952. change (2 ^ 32) with 4294967296 in Hp. lia.
    - destruct Hp as (_ & _ & _ & _ & Hp). change (2 ^ 61) with 2305843009213693952. change (2 ^ 31) with 2147483648 in Hp. lia. }
  change (2 ^ 31) with 2147483648 in H31.
  destruct (level_runs_exact m rs def (length levels) Hc Hd) as (out & Hy & Ho & Hok); [unfold nlen in H31; change (2 ^ 64) with 18446744073709551616; lia|].
  rewrite E, firstn_app, Nat.sub_diag, firstn_all in Ho. cbn [firstn] in Ho. rewrite app_nil_r in Ho. rewrite Hn.
  exists (ri_new (mk_rle def 1) (nlen levels)), out. split; [reflexivity|]. split; [eapply yields_weaken; [|exact Hy]; trivial|]. split; [exact Ho|exact Hok].
Qed.

Lemma cells_laid_cases {A} m d (cells : list (option A)) values p : cells_laid d cells values p ->
  (is_optional p = true /\ exists ri runs, dl_try_new m p = Ok (DBitmap ri) /\ yields (ri_next m) (fun _ _ => True) ri (map inl runs) /\ concat (map run_levels runs) = levels_of cells /\ Forall run_ok runs) \/
  (is_optional p = false /\ cells = map Some (present cells) /\ dp_num_values p = nlen (present cells)).
Proof.
  intros (Hd & Hr & Hn & H31 & H61 & def & Hp & Hdef). unfold is_optional. rewrite Hd.
  destruct (fi_repetition (pt_info (d_primitive d))) eqn:E; [right|left|destruct Hdef].
  - destruct Hdef as (_ & -> & Hin). pose proof (present_required _ Hin) as Ec. split; [reflexivity|]. split; [exact Ec|].
    rewrite Hn. rewrite Ec at 1. unfold nlen. rewrite map_length. reflexivity.
  - destruct Hdef as (Hm & Hl). split; [reflexivity|]. assert (En : nlen (levels_of cells) = nlen cells) by (unfold nlen; rewrite levels_length; reflexivity).
    apply (levels_runs m p (levels_of cells) [] def values); [exact Hp|exact Hl|rewrite Hd; exact Hm|rewrite En; exact Hn|rewrite En; exact H31].
Qed.
Lemma cells_laid_split {A} m d (cells : list (option A)) values p : cells_laid d cells values p -> exists rep def, split_buffer m p = Ok (rep, def, values).
Proof. intros (_ & _ & _ & _ & _ & def & H & _). exists [], def. apply split_parts. exact H. Qed.

Section Pages.
  Variable w : wanted.
  Variable m : mode.

  (** The iterators of a page of plain values; an optional page may have more values than it has set levels (booleans do). *)
  Lemma plain_gives {V A I P} (next : V -> res (option I * V)) (item : A -> I) (Q : V -> list I -> Prop) d (cells : list (option A)) values p it extra (st : P) :
    cells_laid d cells values p -> yields next Q it (map item (present cells) ++ extra) -> has_rows (length cells) w ->
    (is_optional p = true -> exists ri, dl_try_new m p = Ok (DBitmap ri) /\ optional_gives w m next ri it (map (option_map item) (wanted_rows w cells))) /\
    (is_optional p = false -> extra = [] -> exists vs, wanted_rows w cells = map Some vs /\ required_gives w m next it (map item vs)).
  Proof.
    intros Hc Hy Hw. pose proof Hc as (_ & _ & _ & H31 & _). destruct (cells_laid_cases m _ _ _ _ Hc) as [(Ho & ri & runs & Ev & Hr & El & Hok)|(Ho & Ec & _)]; rewrite Ho; split; try discriminate; intros _.
    - exists ri. split; [exact Ev|]. rewrite <- wanted_rows_map.
      pose proof (optional_gives_wanted w m next Q _ ri runs it _ Hr Hok Hy) as G. cbn zeta in G. rewrite El in G.
      rewrite pair_values_app, pair_values_map, levels_pair in G by (rewrite map_length, levels_count; lia). apply G.
      + rewrite app_length, map_length, levels_count. lia.
      + rewrite levels_length. exact Hw.
      + unfold nlen in *. rewrite levels_length. exact H31.
    - intros ->. rewrite app_nil_r in Hy. exists (wanted_rows w (present cells)). rewrite <- !wanted_rows_map. split; [rewrite <- Ec; reflexivity|].
      eapply required_gives_wanted; [exact Hy| |]; [rewrite map_length|unfold nlen; rewrite map_length]; replace (length (present cells)) with (length cells) by (rewrite Ec at 1; apply map_length); [exact Hw|exact H31].
  Qed.

  Lemma positions_gives {V A I} (next : V -> res (option I * V)) (item : A -> I) d (cells : list (option A)) entries positions width bytes p :
    map (fun i => nth_error entries (N.to_nat i)) positions = map Some (present cells) -> positions_laid width positions bytes ->
    cells_laid d cells (N.of_nat width :: bytes) p -> has_rows (length cells) w ->
    exists dy, dy_try_new m p entries = Ok dy /\
      ((is_optional p = true /\ exists ri, dl_try_new m p = Ok (DBitmap ri) /\ gives w m next item (PsOptionalDictionary (DBitmap ri) dy) (wanted_rows w cells)) \/
       (is_optional p = false /\ gives w m next item (PsRequiredDictionary dy) (wanted_rows w cells))).
  Proof.
    intros Hpos Hl Hc Hw. pose proof Hc as (_ & _ & Hn & H31 & H61 & def & Hparts & _).
    assert (Hlen : length positions = length (present cells)) by (pose proof (f_equal (@length _) Hpos) as E; rewrite !map_length in E; exact E).
    pose proof (present_le cells) as Hle. assert (H31' := H31). change (2 ^ 31) with 2147483648 in H31.
    destruct (laid_decoder m p [] def width positions bytes Hl Hparts) as (s & extra & Es & Hx & Hy);
      [rewrite Hn; unfold nlen; lia|rewrite Hn; change (2 ^ 56) with 72057594037927936; lia|].
    exists (mk_dictionary s entries). unfold dy_try_new. rewrite Es. split; [reflexivity|]. cbn [gives dy_indexes dy_dict].
    destruct (cells_laid_cases m _ _ _ _ Hc) as [(Ho & ri & runs & Ev & Hr & El & Hok)|(Ho & Ec & Hnp)]; [left|right]; (split; [exact Ho|]).
    - exists ri. split; [exact Ev|]. exists (wanted_rows w (pair_values (levels_of cells) positions)). split.
      + pose proof (optional_gives_wanted w m (hr_next m) _ _ ri runs s _ Hr Hok Hy) as G. cbn zeta in G. rewrite El in G.
        rewrite pair_values_app in G by (rewrite levels_count; lia). apply G.
        * rewrite app_length, levels_count. lia.
        * rewrite levels_length. exact Hw.
        * unfold nlen in *. rewrite levels_length. exact H31'.
      + apply wanted_rows_forall2. clear - Hpos. revert positions Hpos.
        induction cells as [|[v|] l IH]; intros positions Hpos; cbn [levels_of map pair_values present flat_map app] in *;
          [constructor|fold (levels_of l) in *; fold (present l) in *|fold (levels_of l) in *; fold (present l) in *].
        * destruct positions as [|i positions]; [discriminate Hpos|]. cbn [map] in Hpos. injection Hpos as Hi Hpos. constructor; [rewrite Hi; split; [reflexivity|discriminate]|apply IH; exact Hpos].
        * constructor; [reflexivity|apply IH; exact Hpos].
    - exists (wanted_rows w positions). rewrite <- wanted_rows_map, Hpos, <- Ec. split; [reflexivity|].
      split; [intros H; apply wanted_rows_in in H; rewrite Ec in H; apply in_map_iff in H as (? & H & _); discriminate H|].
      assert (extra = []) as ->. { apply length_zero_iff_nil. rewrite Hnp in Hx. unfold nlen in Hx. rewrite app_length in Hx. lia. }
      rewrite app_nil_r in Hy.
      eapply required_gives_wanted; [exact Hy| |]; [|unfold nlen]; rewrite Hlen; replace (length (present cells)) with (length cells) by (rewrite Ec at 1; apply map_length); [exact Hw|exact H31'].
  Qed.

  Lemma holds_reads k d dict p cells : column_of k d -> holds k d dict p cells -> has_rows (length cells) w -> reads w k m dict p (wanted_rows w cells).
  Proof.
    intros Hk [bytes He Hb Hc|entries positions width bytes Hnb Hd He Hpos Hl Hc] Hw; unfold reads.
    - pose proof Hc as (Hqd & _ & _ & H31 & H61 & _). destruct (cells_laid_split m _ _ _ _ Hc) as (rep & def & Esp). destruct k as [t| |size|].
      + destruct Hb as (Hv & ->). destruct (native_page_roundtrip t _ Hv) as (it & Ei & Hy).
        rewrite <- (map_id (present cells)), <- (app_nil_r (map _ _)) in Hy. destruct (plain_gives _ (fun v => v) _ _ _ _ _ _ _ tt Hc Hy Hw) as [H1 H2].
        unfold native_try_new, native_cast. rewrite He, Esp. cbn [bind]. rewrite Ei. destruct (is_optional p).
        * destruct (H1 eq_refl) as (ri & -> & Hz). cbn [bind]. eexists. split; [reflexivity|]. exact Hz.
        * eexists. split; [reflexivity|]. exact (H2 eq_refl eq_refl).
      + destruct Hb as (Hv & ->). destruct (plain_byte_array_roundtrip _ Hv) as (Hy1 & Hy2). rewrite <- (app_nil_r (map _ _)) in Hy1, Hy2. unfold binary_try_new. rewrite He, Esp. cbn [bind].
        destruct (cells_laid_cases m _ _ _ _ Hc) as [(Ho & _)|(Ho & _ & Hnp)]; rewrite Ho.
        * destruct (plain_gives _ inl _ _ _ _ _ _ _ tt Hc Hy2 Hw) as [H1 _]. destruct (H1 Ho) as (ri & -> & Hz). cbn [bind]. eexists. split; [reflexivity|]. exact Hz.
        * destruct (plain_gives _ inl _ _ _ _ _ _ _ tt Hc Hy1 Hw) as [_ H2]. eexists. split; [reflexivity|]. rewrite Hnp. exact (H2 Ho eq_refl).
      + destruct Hb as (Hsz & Hv & ->). destruct (fixed_yields size _ Hsz Hv) as (Ei & Hy). cbn [value] in *.
        assert (Hy' : yields fl_next (fun _ _ => True) (concat (present cells), N.to_nat size) (map (fun v => v) (present cells) ++ [])) by (rewrite map_id, app_nil_r; exact Hy).
        clear Hy. rename Hy' into Hy. destruct (plain_gives _ (fun v => v) _ _ _ _ _ _ _ tt Hc Hy Hw) as [H1 H2].
        unfold fixed_try_new. rewrite Hqd, Hk, He, Esp. cbn [bind]. rewrite Ei. destruct (is_optional p).
        * destruct (H1 eq_refl) as (ri & -> & Hz). cbn [bind]. eexists. split; [reflexivity|]. exact Hz.
        * eexists. split; [reflexivity|]. exact (H2 eq_refl eq_refl).
      + destruct Hb as (fill & Hfill & Hb). cbn [value] in *. unfold boolean_try_new. rewrite He. cbn [bind].
        assert (Hlen : (8 * length bytes = length (present cells) + fill)%nat) by (rewrite <- bit_stream_length, Hb, app_length, repeat_length; reflexivity).
        destruct (cells_laid_cases m _ _ _ _ Hc) as [(Ho & _)|(Ho & Ec & Hnp)]; rewrite Ho.
        * destruct (bm_new_spec bytes 0 (8 * length bytes)) as (it & Ei & Hy); [lia|]. cbn [skipn] in Hy. rewrite firstn_all2 in Hy by (rewrite bit_stream_length; lia).
          rewrite Hb, <- (map_id (present cells)) in Hy. destruct (plain_gives _ (fun v => v) _ _ _ _ _ _ _ tt Hc Hy Hw) as [H1 _].
          destruct (H1 Ho) as (ri & -> & Hz). cbn [bind]. rewrite Esp. cbn [bind]. unfold umul. change (2 ^ 61) with 2305843009213693952 in H61.
          replace (nlen bytes * 8 <? 2 ^ 64) with true by (change (2 ^ 64) with 18446744073709551616; lia). cbn [bind].
          replace (nlen bytes * 8) with (N.of_nat (8 * length bytes)) by (unfold nlen; lia). rewrite Ei. cbn [bind]. eexists. split; [reflexivity|].
          cbn [gives_boolean]. rewrite (map_ext _ (fun x => x)), map_id in Hz; [exact Hz|]. intros [x|]; reflexivity.
        * rewrite Esp. cbn [bind]. eexists. split; [reflexivity|]. cbn [gives_boolean].
          destruct (bm_new_spec bytes 0 (length (present cells))) as (it & Ei & Hy); [lia|]. cbn [skipn] in Hy. rewrite Hb, firstn_app, Nat.sub_diag, firstn_all in Hy. cbn [firstn] in Hy.
          rewrite app_nil_r in Hy. rewrite Hnp. exists it. rewrite <- (map_id (present cells)), <- (app_nil_r (map _ _)) in Hy.
          destruct (plain_gives _ (fun v => v) _ _ _ _ _ _ _ tt Hc Hy Hw) as [_ H2]. destruct (H2 Ho eq_refl) as (vs & E & Hz). exists vs. split; [exact Ei|]. split; [exact E|].
          rewrite map_id in Hz. exact Hz.
    - pose proof Hc as (Hqd & _). subst dict. destruct k as [t| |size|]; [| | |congruence]; cbn [value] in *.
      + destruct (positions_gives (cast_next t) (fun v => v) _ _ _ _ _ _ _ Hpos Hl Hc Hw) as (dy & Ed & [(Ho & ri & Ev & Hz)|(Ho & Hz)]);
          unfold native_try_new; rewrite Ho; destruct He as [-> | ->]; cbn [bind]; try rewrite Ev; cbn [bind]; rewrite Ed; cbn [bind]; eexists; (split; [reflexivity|exact Hz]).
      + destruct (positions_gives bi_next inl _ _ _ _ _ _ _ Hpos Hl Hc Hw) as (dy & Ed & [(Ho & ri & Ev & Hz)|(Ho & Hz)]);
          unfold binary_try_new; rewrite Ho; destruct He as [-> | ->]; cbn [bind]; try rewrite Ev; cbn [bind]; rewrite Ed; cbn [bind]; eexists; (split; [reflexivity|exact Hz]).
      + destruct (positions_gives fl_next (fun v => v) _ _ _ _ _ _ _ Hpos Hl Hc Hw) as (dy & Ed & [(Ho & ri & Ev & Hz)|(Ho & Hz)]);
          unfold fixed_try_new; rewrite Hqd, Hk, Ho; destruct He as [-> | ->]; cbn [bind]; try rewrite Ev; cbn [bind]; rewrite Ed; cbn [bind]; eexists; (split; [reflexivity|exact Hz]).
  Qed.
End Pages.
