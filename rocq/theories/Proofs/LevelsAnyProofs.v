(** Levels read from any bytes: the runs of the hybrid encoding at one bit, and the booleans of the first run. *)
From Verif Require Import Base.Prelude Base.LeFacts Base.Iter Spec.Bits Spec.UlebSpec Spec.RleSpec Spec.LevelsSpec Spec.DeltaAnySpec
  Model.Uleb128 Model.Bitpacked Model.HybridRle Model.Deserialize
  Proofs.BitsFacts Proofs.UlebProofs Proofs.HybridRleProofs Proofs.HybridAnyProofs Proofs.HybridBrokenProofs Proofs.BitmapProofs Proofs.FilteredProofs Proofs.LevelsProofs.
Open Scope N_scope.

Lemma readable_bytes w vals data : readable w vals data -> bytes_ok data.
Proof.
  induction 1 as [|v h Hh|h Hne Hl Hf|count h body rest vals Hh Hb Hl Hc IH|g h body rest vals Hh H64 Hb Hne Hmin Hc IH].
  - constructor.
  - eapply varint_bytes; eassumption.
  - eapply Forall_impl; [|exact Hf]. intros b Hx. unfold byte_ok; cbn beta in *; lia.
  - apply bytes_ok_app; split; [eapply varint_bytes; eassumption|]. apply bytes_ok_app; split; assumption.
  - apply bytes_ok_app; split; [eapply varint_bytes; eassumption|]. apply bytes_ok_app; split; assumption.
Qed.

(** The one-bit values of a bit-packed body, as levels. *)
Lemma fields_levels body : map (N.eqb 1) (map (fun i => bit_field 1 i body) (seq 0 (8 * length body / 1))) = bit_stream body.
Proof.
  rewrite Nat.div_1_r, map_map. pose proof (bit_stream_length body) as Hl.
  rewrite <- Hl. clear Hl. unfold bit_field. generalize (bit_stream body). intro l.
  induction l as [|b l IH]; [reflexivity|]. cbn [length seq map]. f_equal.
  - destruct b; reflexivity.
  - rewrite <- seq_shift, map_map. rewrite <- IH at 2. apply map_ext. intro i.
    rewrite !Nat.mul_1_r. reflexivity.
Qed.

(** One step over a complete run; [c] of [n] levels were given before. *)
Lemma ri_step_rle m n c count h body rest : c < n -> varint (2 * N.of_nat count) h ->
  bytes_ok body -> bytes_ok rest -> length body = ceil8 1 ->
  let a := N.min (N.of_nat count) (n - c) in
  let r := RRepeated (le body =? 1) a in
  ri_next m (mk_ri (mk_rle (h ++ body ++ rest) 1) n c) = Ok (Some (inl r), mk_ri (mk_rle rest 1) n (c + a)).
Proof.
  intros Hlt Hh Hb Hr Hl a r. change (ceil8 1) with 1%nat in Hl. destruct body as [|b [|]]; try discriminate Hl.
  unfold ri_next. cbn [ri_consumed ri_length ri_iter]. replace (c =? n) with false by lia.
  rewrite (rle_next_rle m h [b] rest 1 (N.of_nat count)) by (try assumption; try reflexivity; lia).
  cbn [bind]. unfold ri_len. cbn [ri_consumed ri_length]. unfold r. cbn [le].
  replace (b + 256 * 0) with b by lia. reflexivity.
Qed.

Lemma ri_step_packed m n c g h body rest : c < n -> varint (2 * g + 1) h ->
  g * N.of_nat 1 < 2 ^ 64 -> bytes_ok body -> bytes_ok rest -> nlen body < 2 ^ 61 ->
  nlen body = N.min (g * N.of_nat 1) (nlen (body ++ rest)) -> body ++ rest <> [] ->
  let a := N.min (8 * nlen body) (n - c) in
  ri_next m (mk_ri (mk_rle (h ++ body ++ rest) 1) n c) = Ok (Some (inl (RBitmap body a)), mk_ri (mk_rle rest 1) n (c + a)).
Proof.
  intros Hlt Hh H64 Hb Hr Hs Hmin Hne a.
  unfold ri_next. cbn [ri_consumed ri_length ri_iter]. replace (c =? n) with false by lia.
  rewrite (rle_next_packed m h body rest 1 g) by (try assumption; lia).
  cbn [bind]. unfold umul. replace (nlen body * 8 <? 2 ^ 64) with true by lia. cbn [bind].
  unfold ri_len. cbn [ri_consumed ri_length]. rewrite (N.mul_comm (nlen body)). reflexivity.
Qed.

Lemma repeat_levels v count (vals : list N) n c : c <= n ->
  let a := N.min (N.of_nat count) (n - c) in
  run_levels (RRepeated (v =? 1) a) ++ firstn (N.to_nat (n - (c + a))) (map (N.eqb 1) vals) =
  firstn (N.to_nat (n - c)) (map (N.eqb 1) (repeat v count ++ vals)).
Proof.
  intros Hle a. cbn [run_levels]. rewrite map_app, map_repeat, firstn_app, firstn_repeat, repeat_length.
  f_equal; [|f_equal; lia]. f_equal; [apply N.eqb_sym|lia].
Qed.

Lemma bitmap_levels body (vals : list N) n c : c <= n ->
  let a := N.min (8 * nlen body) (n - c) in
  run_levels (RBitmap body a) ++ firstn (N.to_nat (n - (c + a))) (map (N.eqb 1) vals) =
  firstn (N.to_nat (n - c)) (map (N.eqb 1) (map (fun i => bit_field 1 i body) (seq 0 (8 * length body / 1)) ++ vals)).
Proof.
  intros Hle a. cbn [run_levels]. rewrite map_app, fields_levels, firstn_app.
  pose proof (bit_stream_length body) as Hbs. unfold a, nlen. f_equal.
  - destruct (N.le_gt_cases (8 * N.of_nat (length body)) (n - c)) as [H|H].
    + rewrite !firstn_all2 by lia. reflexivity.
    + f_equal. lia.
  - f_equal. lia.
Qed.

Lemma ri_done m d n : ri_next m (mk_ri d n n) = Ok (None, mk_ri d n n).
Proof. unfold ri_next. cbn [ri_consumed ri_length]. now rewrite N.eqb_refl. Qed.

Lemma ri_readable m vals data : readable 1 vals data -> forall n c, c <= n -> n < 2 ^ 64 -> nlen data < 2 ^ 61 ->
  exists out, yields (ri_next m) (fun _ _ => True) (mk_ri (mk_rle data 1) n c) (map inl out) /\
    concat (map run_levels out) = firstn (N.to_nat (n - c)) (map (N.eqb 1) vals) /\ Forall run_ok out.
Proof.
  assert (Z : forall d n l, exists out, yields (ri_next m) (fun _ _ => True) (mk_ri d n n) (map inl out) /\
    concat (map run_levels out) = firstn (N.to_nat (n - n)) (map (N.eqb 1) l) /\ Forall run_ok out).
  { intros d n l. exists []. rewrite N.sub_diag. split; [|split; [reflexivity|constructor]].
    eapply yields_nil; [exact I|apply ri_done]. }
  assert (T : forall data n c, rle_next m (mk_rle data 1) = Ok (None, mk_rle [] 1) ->
    exists out, yields (ri_next m) (fun _ _ => True) (mk_ri (mk_rle data 1) n c) (map inl out) /\
    concat (map run_levels out) = firstn (N.to_nat (n - c)) (map (N.eqb 1) []) /\ Forall run_ok out).
  { intros d n c E. exists []. split; [|split; [now rewrite firstn_nil|constructor]]. cbn [map].
    destruct (N.eq_dec c n) as [->|Hne]; [eapply yields_nil; [exact I|apply ri_done]|].
    eapply yields_nil; [exact I|]. unfold ri_next. cbn [ri_consumed ri_length ri_iter].
    replace (c =? n) with false by lia. rewrite E. reflexivity. }
  induction 1 as [|v h Hh|h Hne Hl Hf|count h body rest vals Hh Hb Hl Hc IH|g h body rest vals Hh H64 Hb Hne Hmin Hc IH];
    intros n c Hle Hn Hd.
  - apply T. reflexivity.
  - apply T. apply (rle_next_header_only m h 1 v Hh). lia.
  - apply T. apply rle_next_cut; try assumption. lia.
  - pose proof (readable_bytes _ _ _ Hc) as Hr. destruct (N.eq_dec c n) as [->|Hne]; [apply Z|].
    set (a := N.min (N.of_nat count) (n - c)).
    destruct (IH n (c + a) ltac:(lia) Hn ltac:(unfold nlen in *; rewrite !app_length in Hd; lia)) as (out & Hy & Hout & Hok).
    exists (RRepeated (le body =? 1) a :: out). split; [|split].
    + cbn [map]. eapply yields_cons; [exact I| |exact Hy]. apply ri_step_rle; try assumption. lia.
    + cbn [map concat]. rewrite Hout. now apply repeat_levels.
    + constructor; [split; [cbn; lia|exact I]|exact Hok].
  - pose proof (readable_bytes _ _ _ Hc) as Hr. destruct (N.eq_dec c n) as [->|Hne']; [apply Z|].
    set (a := N.min (8 * nlen body) (n - c)).
    assert (Hdl : nlen body < 2 ^ 61 /\ nlen rest < 2 ^ 61) by (unfold nlen in *; rewrite !app_length in Hd; lia).
    destruct (IH n (c + a) ltac:(lia) Hn ltac:(lia)) as (out & Hy & Hout & Hok).
    exists (RBitmap body a :: out). split; [|split].
    + cbn [map]. eapply yields_cons; [exact I| |exact Hy]. eapply ri_step_packed; try eassumption; lia.
    + cbn [map concat]. rewrite Hout. now apply bitmap_levels.
    + constructor; [split; cbn [run_len]; [lia|unfold nlen in *; lia]|exact Hok].
Qed.

(** At one bit only a header of more than 64 bits breaks the decoder. *)
Lemma rle_next_broken_1 m vals data : broken m 1 0 vals data -> nlen data < 2 ^ 61 ->
  vals = [] /\ rle_next m (mk_rle data 1) = Panic.
Proof.
  intros Hc Hd. destruct (read_next_broken_0 m 1 vals data 1 ltac:(lia) Hd Hc) as [-> E]. split; [reflexivity|].
  unfold read_next in E. destruct (rle_next m (mk_rle data 1)) as [[[[p|p n]|] d]|e|] eqn:En; cbn [bind] in E;
    [| |discriminate E|discriminate E|reflexivity]; exfalso; revert En.
  2: { destruct (n =? 1); discriminate E. }
  inversion Hc as [init last rest' Hl Hf Hb Hr E0 E1 E2|count h body Hh Hb Hne Hl E0 E1 E2|g h body Hm Hh Hb Hne H64 E0 E1 E2| |].
  - destruct (broken_ok _ _ _ _ _ Hc) as [Hok Hne]. rewrite E2. unfold rle_next. cbn [rd_num_bits rd_values Nat.eqb].
    destruct data as [|x y] eqn:Ed; [congruence|]. rewrite <- Ed in *. clear Ed.
    assert (uleb_decode data = Panic) as ->; [|discriminate].
    destruct (uleb_decode_total data Hok) as [Hp _]. apply Hp. subst data. split.
    + replace (uleb_lead (init ++ last :: rest')) with (init ++ uleb_lead (last :: rest')).
      * rewrite app_length, Hl. cbn [uleb_lead]. destruct (last <? 128); cbn [length]; lia.
      * clear - Hf. induction Hf as [|b init Hb Hf IH]; [reflexivity|]. cbn [app uleb_lead].
        replace (b <? 128) with false by lia. rewrite <- IH. reflexivity.
    + rewrite app_nth2 by lia. rewrite Hl. cbn. lia.
  - change (ceil8 1) with 1%nat in Hl. destruct body; [contradiction|cbn in Hl; lia].
  - destruct Hh as (Hh & _). lia.
Qed.

Lemma ri_broken m r vals data : broken m 1 r vals data -> forall n c, c <= n -> n < 2 ^ 64 -> nlen data < 2 ^ 61 ->
  exists out s', returns (ri_next m) (mk_ri (mk_rle data 1) n c) (map inl out) s' /\
    concat (map run_levels out) = firstn (N.to_nat (n - c)) (map (N.eqb 1) vals) /\ Forall run_ok out /\
    ri_next m s' = if n - c <=? nlen vals then Ok (None, s') else Panic.
Proof.
  assert (Z : forall d n l, exists out s', returns (ri_next m) (mk_ri d n n) (map inl out) s' /\
    concat (map run_levels out) = firstn (N.to_nat (n - n)) (map (N.eqb 1) l) /\ Forall run_ok out /\
    ri_next m s' = if n - n <=? nlen l then Ok (None, s') else Panic).
  { intros d n l. exists [], (mk_ri d n n). rewrite N.sub_diag. split; [constructor|]. split; [reflexivity|]. split; [constructor|].
    rewrite ri_done. replace (0 <=? nlen l) with true by lia. reflexivity. }
  assert (B : forall vals data n c, broken m 1 0 vals data -> c <= n -> nlen data < 2 ^ 61 ->
    exists out s', returns (ri_next m) (mk_ri (mk_rle data 1) n c) (map inl out) s' /\
    concat (map run_levels out) = firstn (N.to_nat (n - c)) (map (N.eqb 1) vals) /\ Forall run_ok out /\
    ri_next m s' = if n - c <=? nlen vals then Ok (None, s') else Panic).
  { intros l d n c Hb Hle Hd. destruct (N.eq_dec c n) as [->|Hne]; [apply Z|].
    destruct (rle_next_broken_1 m l d Hb Hd) as [-> E].
    exists [], (mk_ri (mk_rle d 1) n c). split; [constructor|]. split; [now rewrite firstn_nil|]. split; [constructor|].
    unfold ri_next. cbn [ri_consumed ri_length ri_iter]. replace (c =? n) with false by lia. rewrite E.
    replace (n - c <=? nlen []) with false; [reflexivity|]. unfold nlen. cbn [length]. lia. }
  induction 1 as [init last rest Hl Hf Hb Hr|count h body Hh Hb Hne Hl|g h body Hm Hh Hb Hne H64
                  |count h body rest r vals Hh Hb Hl Hc IH|g h body rest r vals Hh H64 Hb Hmin Hc IH];
    intros n c Hle Hn Hd.
  - apply B; try assumption. now constructor.
  - apply B; try assumption. eapply bk_value; eassumption.
  - apply B; try assumption. eapply bk_groups; eassumption.
  - destruct (broken_ok _ _ _ _ _ Hc) as [Hr Hner]. destruct (N.eq_dec c n) as [->|Hne]; [apply Z|].
    set (a := N.min (N.of_nat count) (n - c)).
    destruct (IH n (c + a) ltac:(lia) Hn ltac:(unfold nlen in *; rewrite !app_length in Hd; lia)) as (out & s' & Hy & Hout & Hok & Hend).
    exists (RRepeated (le body =? 1) a :: out), s'. split; [|split; [|split]].
    + cbn [map]. eapply returns_cons; [|exact Hy]. apply ri_step_rle; try assumption. lia.
    + cbn [map concat]. rewrite Hout. now apply repeat_levels.
    + constructor; [split; [cbn; lia|exact I]|exact Hok].
    + rewrite Hend. assert (E : (n - (c + a) <=? nlen vals) = (n - c <=? nlen (repeat (le body) count ++ vals))); [|now rewrite E].
      unfold nlen. rewrite app_length, repeat_length. unfold a. lia.
  - destruct (broken_ok _ _ _ _ _ Hc) as [Hr Hner]. destruct (N.eq_dec c n) as [->|Hne']; [apply Z|].
    set (a := N.min (8 * nlen body) (n - c)).
    assert (Hdl : nlen body < 2 ^ 61 /\ nlen rest < 2 ^ 61) by (unfold nlen in *; rewrite !app_length in Hd; lia).
    destruct (IH n (c + a) ltac:(lia) Hn ltac:(lia)) as (out & s' & Hy & Hout & Hok & Hend).
    exists (RBitmap body a :: out), s'. split; [|split; [|split]].
    + cbn [map]. eapply returns_cons; [|exact Hy]. eapply ri_step_packed; try eassumption; try lia.
      * unfold nlen in *. rewrite app_length. lia.
      * intro E. apply app_eq_nil in E as [_ E]. contradiction.
    + cbn [map concat]. rewrite Hout. now apply bitmap_levels.
    + constructor; [split; cbn [run_len]; [lia|unfold nlen in *; lia]|exact Hok].
    + rewrite Hend. clear - Hle. rewrite Nat.div_1_r. assert (E : (n - (c + a) <=? nlen vals) = (n - c <=? nlen (map (fun i => bit_field 1 i body) (seq 0 (8 * length body)) ++ vals))); [|now rewrite E].
      unfold a, nlen. rewrite app_length, map_length, seq_length. lia.
Qed.

Lemma broken_1_any m m' r vals data : broken m 1 r vals data -> broken m' 1 r vals data.
Proof.
  induction 1 as [init last rest Hl Hf Hb Hr|count h body Hh Hb Hne Hl|g h body Hm Hh Hb Hne H64
                  |count h body rest r vals Hh Hb Hl Hc IH|g h body rest r vals Hh H64 Hb Hmin Hc IH].
  - now constructor.
  - eapply bk_value; eassumption.
  - destruct Hh as (Hh & _). lia.
  - eapply bk_after_rle; eassumption.
  - eapply bk_after_packed; eassumption.
Qed.

(** The boolean iterator follows the first run. *)
Lemma bl_first_step {S} (next : S -> res (option (level_run + error) * S)) i i' run :
  next i = Ok (Some (inl run), i') -> run_ok run ->
  yields (bl_next next) (fun _ _ => True) (bl_new i) (map inl (run_levels run)).
Proof.
  intros E [_ Hok].
  assert (G : exists r, bool_run_of run = Ok r /\
    match r with
    | BBitmap b => yields bm_next (fun s r => bm_size_hint s = nlen r) b (run_levels run)
    | BRepeated v k => run_levels run = repeat v (N.to_nat k)
    end).
  { destruct run as [bytes n|v n]; cbn [bool_run_of run_levels].
    - destruct (bm_new_spec bytes 0 (N.to_nat n)) as (s & Es & Hys); [lia|]. rewrite N2Nat.id in Es. rewrite Es.
      eexists. split; [reflexivity|]. exact Hys.
    - eexists. split; reflexivity. }
  destruct G as (r & Er & Hr).
  assert (En : bl_next next (bl_new i) = bl_next next (mk_bli i' (Some r))).
  { unfold bl_next at 1. cbn [bl_new bl_current bl_iter]. rewrite E. cbn [bind]. rewrite Er. reflexivity. }
  pose proof (bl_run_yields next i' r _ _ Hr eq_refl) as H.
  inversion H as [? s' ? E2|? s' ? ? ? E2 H2]; subst.
  - eapply yields_nil; [exact I|]. rewrite En. exact E2.
  - eapply yields_cons; [exact I| |exact H2]. rewrite En. exact E2.
Qed.
