(** Proofs about definition levels of optional columns: runs cut at the row count, booleans, page values. *)
From Verif Require Import Base.Prelude Base.LeFacts Base.Iter Spec.Bits Spec.UlebSpec Spec.RleSpec Spec.LevelsSpec
  Model.Uleb128 Model.Bitpacked Model.HybridRle Model.Deserialize
  Proofs.BitsFacts Proofs.HybridRleProofs Proofs.HybridEncProofs Proofs.BitmapProofs Proofs.SliceProofs Proofs.FilteredProofs.
Open Scope N_scope.

Lemma lsb1_levels vs : Forall (fits 1) vs -> flat_map (lsb_bits 1) vs = map (N.eqb 1) vs.
Proof.
  induction 1 as [|v vs Hv _ IH]; [reflexivity|]. cbn [flat_map map]. rewrite IH.
  unfold fits in Hv. change (2 ^ N.of_nat 1) with 2 in Hv.
  assert (v = 0 \/ v = 1) as [-> | ->] by lia; reflexivity.
Qed.

Lemma map_repeat {A B} (f : A -> B) x n : map f (repeat x n) = repeat (f x) n.
Proof. induction n as [|n IH]; cbn; [reflexivity|]. now rewrite IH. Qed.

Fixpoint sum_runs (l : list (level_run + error)) : N :=
  match l with
  | [] => 0
  | inl r :: l => run_len r + sum_runs l
  | inr _ :: l => sum_runs l
  end.

Lemma ri_yields m runs data : conforming 1 runs data -> forall n c, c <= n -> n < 2 ^ 64 -> nlen data < 2 ^ 61 ->
  let levels := map (N.eqb 1) (flat_map run_values runs) in
  exists out, yields (ri_next m)
      (fun s l => sum_runs l <= ri_len s /\ (n - c <= nlen levels -> sum_runs l = ri_len s))
      (mk_ri (mk_rle data 1) n c) (map inl out) /\
    concat (map run_levels out) = firstn (N.to_nat (n - c)) levels /\ Forall run_ok out.
Proof.
  intro H. induction H as [|count v h body rest runs Hh Hf Hb Hl Hle Hc IH|groups vs h body rest runs Hh Hlv Hf Hb Hl Hs Hc IH];
    intros n c Hcn Hn Hd levels.
  - exists []. split; [|split; [now rewrite firstn_nil|constructor]]. cbn [map]. unfold levels, nlen. cbn.
    eapply yields_nil.
    + unfold ri_len. cbn. split; [lia|]. intro. lia.
    + unfold ri_next. cbn. destruct (c =? n); reflexivity.
  - pose proof (conforming_ok _ _ _ Hc) as Hokr.
    destruct (N.eq_dec c n) as [->|Hne].
    { exists []. rewrite N.sub_diag. split; [|split; [reflexivity|constructor]]. cbn [map].
      eapply yields_nil; [unfold ri_len; cbn; split; [lia|intro; lia]|]. unfold ri_next. cbn [ri_consumed ri_length].
      rewrite N.eqb_refl. reflexivity. }
    set (a := N.min (N.of_nat count) (n - c)).
    assert (Hrest : nlen rest < 2 ^ 61) by (unfold nlen in *; rewrite !app_length in Hd; lia).
    destruct (IH n (c + a) ltac:(lia) Hn Hrest) as (out & Hy & Hout & Hok).
    change (ceil8 1) with 1%nat in Hl. destruct body as [|b [|]]; try discriminate Hl.
    assert (Eb : b = v) by (cbn [le] in Hle; lia). subst b.
    assert (Hlev : levels = repeat (1 =? v) count ++ map (N.eqb 1) (flat_map run_values runs)).
    { unfold levels. cbn [flat_map run_values]. rewrite map_app, map_repeat. reflexivity. }
    exists (RRepeated (v =? 1) a :: out). split; [|split].
    + cbn [map]. eapply yields_cons with (s' := mk_ri (mk_rle rest 1) n (c + a)).
      * assert (HP : sum_runs (map inl out) <= n - (c + a) /\
                     (n - (c + a) <= nlen (map (N.eqb 1) (flat_map run_values runs)) -> sum_runs (map inl out) = n - (c + a)))
          by (inversion Hy as [? ? HP|? ? ? ? HP]; subst; exact HP).
        unfold ri_len. cbn [sum_runs run_len ri_length ri_consumed]. split; [lia|]. intro Hlong.
        rewrite (proj2 HP); [lia|]. rewrite Hlev in Hlong. unfold nlen in *. rewrite app_length, repeat_length in Hlong. lia.
      * unfold ri_next. cbn [ri_consumed ri_length ri_iter]. replace (c =? n) with false by lia.
        rewrite (rle_next_rle m h [v] rest 1 (N.of_nat count)) by (try assumption; try reflexivity; lia).
        cbn [bind]. unfold ri_len. cbn [ri_consumed ri_length]. reflexivity.
      * revert Hy. apply yields_weaken. intros s l [H1 H2]. split; [exact H1|]. intro H3. apply H2.
        rewrite Hlev in H3. unfold nlen in *. rewrite app_length, repeat_length in H3. lia.
    + cbn [map concat run_levels]. rewrite Hout, Hlev. rewrite firstn_app, firstn_repeat, repeat_length.
      f_equal; [|f_equal; lia]. f_equal; [apply N.eqb_sym|lia].
    + constructor; [|exact Hok]. split; [cbn; lia|exact I].
  - pose proof (conforming_ok _ _ _ Hc) as Hokr. rewrite Nat.mul_1_r in Hl.
    destruct (N.eq_dec c n) as [->|Hne].
    { exists []. rewrite N.sub_diag. split; [|split; [reflexivity|constructor]]. cbn [map].
      eapply yields_nil; [unfold ri_len; cbn; split; [lia|intro; lia]|]. unfold ri_next. cbn [ri_consumed ri_length].
      rewrite N.eqb_refl. reflexivity. }
    assert (Hbl : nlen body = N.of_nat groups) by (unfold nlen; lia).
    assert (Hlev : levels = bit_stream body ++ map (N.eqb 1) (flat_map run_values runs)).
    { unfold levels. cbn [flat_map run_values]. etransitivity; [apply map_app|]. f_equal. rewrite Hs. symmetry. now apply lsb1_levels. }
    pose proof (bit_stream_length body) as Hbs.
    assert (Hdl : nlen body < 2 ^ 61 /\ nlen rest < 2 ^ 61) by (unfold nlen in *; rewrite !app_length in Hd; lia).
    destruct (list_eq_dec N.eq_dec (body ++ rest) []) as [Enil|Enil].
    { apply app_eq_nil in Enil as [-> ->]. exists []. 
      assert (runs = [] \/ flat_map run_values runs = []) as Hrv.
      { left. inversion Hc as [|? ? h2 b2 r2 ? Hh2 ? ? ? ? ? E1 E2|? ? h2 b2 r2 ? Hh2 ? ? ? ? ? ? E1 E2]; subst; [reflexivity| |];
        apply varint_pos in Hh2; apply (f_equal (@length N)) in E2; rewrite !app_length in E2; cbn in E2; lia. }
      assert (Hrv' : flat_map run_values runs = []) by (destruct Hrv as [->|E]; [reflexivity|exact E]).
      rewrite Hrv' in Hlev. clearbody levels. cbn in Hlev. subst levels. split; [|split; [now rewrite firstn_nil|constructor]].
      cbn [map]. eapply yields_nil with (s' := mk_ri (mk_rle [] 1) n c).
      - unfold ri_len, nlen. cbn. split; [lia|intro; lia].
      - unfold ri_next. cbn [ri_consumed ri_length ri_iter]. replace (c =? n) with false by lia.
        rewrite !app_nil_r. rewrite (rle_next_header_only m h 1 _ Hh) by lia. reflexivity. }
    set (a := N.min (8 * nlen body) (n - c)).
    destruct (IH n (c + a) ltac:(lia) Hn ltac:(lia)) as (out & Hy & Hout & Hok).
    exists (RBitmap body a :: out). split; [|split].
    + cbn [map]. eapply yields_cons with (s' := mk_ri (mk_rle rest 1) n (c + a)).
      * assert (HP : sum_runs (map inl out) <= n - (c + a) /\
                     (n - (c + a) <= nlen (map (N.eqb 1) (flat_map run_values runs)) -> sum_runs (map inl out) = n - (c + a)))
          by (inversion Hy as [? ? HP|? ? ? ? HP]; subst; exact HP).
        unfold ri_len. cbn [sum_runs run_len ri_length ri_consumed]. split; [lia|]. intro Hlong.
        rewrite (proj2 HP); [lia|]. rewrite Hlev in Hlong. unfold nlen in *. rewrite app_length in Hlong. lia.
      * unfold ri_next. cbn [ri_consumed ri_length ri_iter]. replace (c =? n) with false by lia.
        rewrite (rle_next_packed m h body rest 1 (N.of_nat groups)); try assumption; try lia.
        -- cbn [bind]. unfold umul. replace (nlen body * 8 <? 2 ^ 64) with true by lia. cbn [bind].
           unfold ri_len. cbn [ri_consumed ri_length]. rewrite (N.mul_comm (nlen body)). reflexivity.
        -- unfold nlen in *. rewrite app_length. lia.
      * revert Hy. apply yields_weaken. intros s l [H1 H2]. split; [exact H1|]. intro H3. apply H2.
        rewrite Hlev in H3. unfold nlen in *. rewrite app_length in H3. lia.
    + cbn [map concat run_levels]. rewrite Hout, Hlev, firstn_app. f_equal.
      * destruct (N.le_gt_cases (8 * nlen body) (n - c)) as [H|H].
        -- rewrite !firstn_all2 by (unfold nlen in *; lia). reflexivity.
        -- f_equal. lia.
      * f_equal. unfold nlen in *. lia.
    + constructor; [|exact Hok]. split; cbn [run_len]; [lia|]. unfold nlen in *. lia.
Qed.

(** Any bytes: never more levels than declared. *)
Lemma ri_bound m fuel : forall s items s', ri_consumed s <= ri_length s ->
  drain_st (ri_next m) fuel s = Ok (items, s') -> sum_runs items + ri_len s' = ri_len s.
Proof.
  induction fuel as [|fuel IH]; intros s items s' Hle E; cbn [drain_st] in E.
  - apply Ok_inj in E. injection E as <- <-. reflexivity.
  - destruct (ri_next m s) as [[o s1]|e|] eqn:En; try discriminate E. cbn [bind] in E.
    unfold ri_next in En. destruct (N.eqb_spec (ri_consumed s) (ri_length s)) as [Heq|Hne].
    { apply Ok_inj in En. injection En as <- <-. apply Ok_inj in E. injection E as <- <-. reflexivity. }
    destruct (rle_next m (ri_iter s)) as [[o' d]|e|]; try discriminate En. cbn [bind] in En.
    assert (G : forall r a, a <= ri_len s -> run_len r = a ->
      o = Some (inl r) -> s1 = mk_ri d (ri_length s) (ri_consumed s + a) -> sum_runs items + ri_len s' = ri_len s).
    { intros r a Ha Hr -> ->. destruct (drain_st _ fuel _) as [[l s2]|e|] eqn:Ed; try discriminate E. cbn [bind] in E.
      apply Ok_inj in E. injection E as <- <-. unfold ri_len in *.
      assert (Hc : ri_consumed (mk_ri d (ri_length s) (ri_consumed s + a)) <= ri_length (mk_ri d (ri_length s) (ri_consumed s + a)))
        by (cbn [ri_consumed ri_length]; lia).
      specialize (IH _ _ _ Hc Ed). cbn [ri_consumed ri_length sum_runs] in *. lia. }
    destruct o' as [[pack|value n]|].
    + destruct (umul m 64 (nlen pack) 8) as [ps|e|]; try discriminate En. cbn [bind] in En.
      apply Ok_inj in En. injection En as <- <-. eapply G; [|reflexivity|reflexivity|reflexivity]. cbn [run_len]. lia.
    + destruct value as [|b value]; [discriminate En|]. apply Ok_inj in En. injection En as <- <-.
      eapply G; [|reflexivity|reflexivity|reflexivity]. cbn [run_len]. lia.
    + apply Ok_inj in En. injection En as <- <-. apply Ok_inj in E. injection E as <- <-. reflexivity.
Qed.

(** The boolean iterator: exactly the first run. *)
Lemma bl_run_yields {S} (next : S -> res (option (level_run + error) * S)) i r n l :
  (match r with
   | BBitmap b => yields bm_next (fun s r => bm_size_hint s = nlen r) b l
   | BRepeated v k => l = repeat v (N.to_nat k)
   end) -> n = length l ->
  yields (bl_next next) (fun _ _ => True) (mk_bli i (Some r)) (map inl l).
Proof.
  revert r l. induction n as [|n IH]; intros r l Hr Hn.
  - destruct l; [|discriminate Hn]. cbn [map]. destruct r as [b|v k].
    + inversion Hr as [? s' ? E|]; subst. eapply yields_nil; [exact I|]. unfold bl_next. cbn. rewrite E. reflexivity.
    + destruct (N.to_nat k) eqn:Ek; [|discriminate Hr]. assert (k = 0) by lia. subst k.
      eapply yields_nil; [exact I|]. reflexivity.
  - destruct l as [|x l]; [discriminate Hn|]. cbn [map]. destruct r as [b|v k].
    + inversion Hr as [|? s' ? ? ? E Hy]; subst. eapply yields_cons; [exact I| |].
      * unfold bl_next. cbn. rewrite E. reflexivity.
      * apply IH; [exact Hy|]. now injection Hn.
    + destruct (N.to_nat k) as [|k'] eqn:Ek; [discriminate Hr|]. cbn [repeat] in Hr. injection Hr as -> ->.
      eapply yields_cons; [exact I| |].
      * unfold bl_next. cbn. replace (k =? 0) with false by lia. reflexivity.
      * apply (IH (BRepeated v (k - 1))); [|now injection Hn]. cbn. f_equal. lia.
Qed.

Lemma bl_yields_first {S} (next : S -> res (option (level_run + error) * S)) P i run rest :
  yields next P i (inl run :: rest) -> run_ok run ->
  yields (bl_next next) (fun _ _ => True) (bl_new i) (map inl (run_levels run)).
Proof.
  intros Hy [_ Hok]. inversion Hy as [|? i' ? ? _ E _]; subst.
  assert (G : exists r, bool_run_of run = Ok r /\
    match r with
    | BBitmap b => yields bm_next (fun s r => bm_size_hint s = nlen r) b (run_levels run)
    | BRepeated v k => run_levels run = repeat v (N.to_nat k)
    end).
  { destruct run as [bytes n|v n]; cbn [bool_run_of run_levels].
    - destruct (bm_new_spec bytes 0 (N.to_nat n)) as (s & Es & Hys); [lia|]. rewrite N2Nat.id in Es. rewrite Es.
      eexists. split; [reflexivity|]. exact Hys.
    - eexists. split; reflexivity. }
  destruct G as (r & Er & Hr).
  assert (En : bl_next next (bl_new i) = bl_next next (mk_bli i' (Some r))).
  { unfold bl_next at 1. cbn [bl_new bl_current bl_iter]. rewrite E. cbn [bind]. rewrite Er. reflexivity. }
  pose proof (bl_run_yields next i' r _ _ Hr eq_refl) as H.
  inversion H as [? s' ? E2|? s' ? ? ? E2 H2]; subst.
  - eapply yields_nil; [exact I|]. rewrite En. exact E2.
  - eapply yields_cons; [exact I| |exact H2]. rewrite En. exact E2.
Qed.

Lemma bl_yields_none {S} (next : S -> res (option (level_run + error) * S)) P i :
  yields next P i [] -> yields (bl_next next) (fun _ _ => True) (bl_new i) [].
Proof.
  intro Hy. inversion Hy as [? i' _ E|]; subst. eapply yields_nil; [exact I|].
  unfold bl_next. cbn [bl_new bl_current bl_iter]. rewrite E. reflexivity.
Qed.

(** The levels written by the crate's own boolean encoder are one bit-packed run. *)
Lemma encode_bool_conforming l : nlen l < 2 ^ 61 ->
  exists out pad, encode_bool l = Ok out /\ conforming 1 [PackedRun (map N.b2n (l ++ pad))] out /\
    (length out <= 10 + length l)%nat.
Proof.
  intro Hn. unfold encode_bool, nlen in *.
  destruct (bitpacked_header_spec (length l) Hn) as (h & -> & Hh). cbn [bind].
  destruct (bitmap_encode_spec l) as (out & -> & Hlo & Hok & Hs). cbn [bind].
  pose proof (ceil8_ge (length l)) as [Hd1 Hd2].
  eexists _, _. split; [reflexivity|]. split.
  - rewrite <- Hs. replace (h ++ out) with (h ++ out ++ []) by now rewrite app_nil_r.
    eapply conf_packed with (groups := ceil8 (length l)); try exact Hok.
    + exact Hh.
    + rewrite map_length, bit_stream_length. lia.
    + apply Forall_forall. intros x Hx. apply in_map_iff in Hx as (b & <- & _). destruct b; reflexivity.
    + lia.
    + clear. induction (bit_stream out) as [|b s IH]; [reflexivity|].
      cbn [map flat_map]. rewrite <- IH. destruct b; reflexivity.
    + constructor.
  - destruct Hh as (_ & Hh & _). rewrite app_length. lia.
Qed.

Lemma levels_b2n l : map (N.eqb 1) (map N.b2n l) = l.
Proof. induction l as [|[] l IH]; cbn; [reflexivity| |]; now rewrite IH. Qed.

(** The boolean levels of a stream: those of its first run. *)
Lemma bl_ri_first m r runs data n : conforming 1 (r :: runs) data ->
  N.of_nat n < 2 ^ 64 -> nlen data < 2 ^ 61 ->
  yields (bl_next (ri_next m)) (fun _ _ => True) (bl_new (ri_new (mk_rle data 1) (N.of_nat n)))
    (map inl (firstn n (map (N.eqb 1) (run_values r)))).
Proof.
  intros Hc Hn Hd. destruct n as [|n'].
  { cbn [firstn map]. eapply yields_nil; [exact I|]. reflexivity. }
  assert (G : (exists run, run_ok run /\ run_levels run = firstn (S n') (map (N.eqb 1) (run_values r)) /\
      exists s', ri_next m (ri_new (mk_rle data 1) (N.of_nat (S n'))) = Ok (Some (inl run), s')) \/
    (run_values r = [] /\ exists s', ri_next m (ri_new (mk_rle data 1) (N.of_nat (S n'))) = Ok (None, s'))).
  { unfold ri_next, ri_new. cbn [ri_consumed ri_length ri_iter]. replace (0 =? N.of_nat (S n')) with false by lia.
    inversion Hc as [|count v h body rest ? Hh Hf Hb Hl Hle Hc'|groups vs h body rest ? Hh Hlv Hf Hb Hl Hs Hc']; subst.
    - pose proof (conforming_ok _ _ _ Hc') as Hokr. change (ceil8 1) with 1%nat in Hl.
      destruct body as [|b [|]]; try discriminate Hl.
      rewrite (rle_next_rle m h [b] rest 1 (N.of_nat count)) by (try assumption; try reflexivity; lia). cbn [bind].
      left. exists (RRepeated (b =? 1) (N.min (N.of_nat count) (N.of_nat (S n')))). split; [split; [cbn; lia|exact I]|].
      split; [|eexists; unfold ri_len; cbn [ri_length ri_consumed]; rewrite N.sub_0_r; reflexivity].
      cbn [run_levels run_values le]. rewrite map_repeat, firstn_repeat. f_equal; [|lia].
      rewrite N.mul_0_r, N.add_0_r. apply N.eqb_sym.
    - pose proof (conforming_ok _ _ _ Hc') as Hokr. rewrite Nat.mul_1_r in Hl. cbn [run_values] in *.
      destruct (Nat.eq_dec (length (body ++ rest)) 0) as [Hz|Hne].
      { right. rewrite app_length in Hz. destruct body; [|discriminate Hz]. destruct rest; [|discriminate Hz]. cbn [length] in Hl. subst groups.
        destruct vs; [|discriminate Hlv]. split; [reflexivity|]. rewrite app_nil_r. rewrite (rle_next_header_only m h 1 _ Hh) by lia. eexists. reflexivity. }
      left.
      assert (Hbl : nlen body = N.of_nat groups) by (unfold nlen; lia).
      assert (Hdl : nlen body < 2 ^ 61) by (unfold nlen in *; rewrite !app_length in Hd; lia).
      rewrite (rle_next_packed m h body rest 1 (N.of_nat groups)); try assumption; try lia.
      + cbn [bind]. unfold umul. replace (nlen body * 8 <? 2 ^ 64) with true by lia. cbn [bind].
        exists (RBitmap body (N.min (nlen body * 8) (N.of_nat (S n')))). split; [split; cbn [run_len]; unfold nlen in *; lia|].
        split; [|eexists; unfold ri_len; cbn [ri_length ri_consumed]; rewrite N.sub_0_r; reflexivity].
        cbn [run_levels]. rewrite <- lsb1_levels by assumption. rewrite <- Hs.
        pose proof (bit_stream_length body) as Hbs. unfold nlen in *.
        destruct (Nat.le_gt_cases (8 * length body) (S n')) as [L|L]; [rewrite !firstn_all2 by lia; reflexivity|f_equal; lia].
      + unfold nlen in *. rewrite app_length. lia.
      + intro E. apply Hne. rewrite E. reflexivity. }
  destruct G as [(run & Hok & Hlev & s' & E)|(Hz & s' & E)].
  2: { rewrite Hz. cbn [map firstn]. eapply yields_nil; [exact I|]. unfold bl_next. cbn [bl_new bl_current bl_iter]. rewrite E. reflexivity. }
  rewrite <- Hlev.
  destruct Hok as [_ Hok].
  assert (G : exists r', bool_run_of run = Ok r' /\
    match r' with
    | BBitmap b => yields bm_next (fun s r => bm_size_hint s = nlen r) b (run_levels run)
    | BRepeated v k => run_levels run = repeat v (N.to_nat k)
    end).
  { destruct run as [bytes k|v k]; cbn [bool_run_of run_levels].
    - destruct (bm_new_spec bytes 0 (N.to_nat k)) as (s & Es & Hys); [lia|]. rewrite N2Nat.id in Es. rewrite Es.
      eexists. split; [reflexivity|]. exact Hys.
    - eexists. split; reflexivity. }
  destruct G as (r' & Er & Hr).
  assert (En : bl_next (ri_next m) (bl_new (ri_new (mk_rle data 1) (N.of_nat (S n')))) = bl_next (ri_next m) (mk_bli s' (Some r'))).
  { unfold bl_next at 1. cbn [bl_new bl_current bl_iter]. rewrite E. cbn [bind]. rewrite Er. reflexivity. }
  pose proof (bl_run_yields (ri_next m) s' r' _ _ Hr eq_refl) as H.
  inversion H as [? s2 ? E2|? s2 ? ? ? E2 H2]; subst.
  - eapply yields_nil; [exact I|]. rewrite En. exact E2.
  - eapply yields_cons; [exact I| |exact H2]. rewrite En. exact E2.
Qed.

(** Levels written by the crate's encoder. *)
Lemma bl_encoded m l : nlen l < 2 ^ 60 -> exists out, encode_bool l = Ok out /\
  yields (bl_next (ri_next m)) (fun _ _ => True) (bl_new (ri_new (mk_rle out 1) (nlen l))) (map inl l).
Proof.
  intro Hn. change (2 ^ 60) with 1152921504606846976 in Hn.
  destruct (encode_bool_conforming l) as (out & pad & E & Hc & Hlen); [change (2 ^ 61) with 2305843009213693952; lia|].
  exists out. split; [exact E|]. destruct l as [|b l].
  - eapply yields_nil; [exact I|]. reflexivity.
  - pose proof (bl_ri_first m _ _ _ (length (b :: l)) Hc) as H.
    cbn [run_values] in H. rewrite levels_b2n in H. rewrite firstn_app, Nat.sub_diag, firstn_all, firstn_O, app_nil_r in H.
    apply H.
    + unfold nlen in Hn. change (2 ^ 64) with 18446744073709551616. lia.
    + unfold nlen in *. change (2 ^ 61) with 2305843009213693952. lia.
Qed.

Lemma pair_values_app {A} levels (values extra : list A) : (count_true levels <= length values)%nat ->
  pair_values levels (values ++ extra) = pair_values levels values.
Proof.
  revert values. induction levels as [|b levels IH]; intros values H; [reflexivity|]. cbn [count_true] in H.
  destruct b; cbn [pair_values].
  - destruct values as [|v values]; [cbn in H; lia|]. cbn [app]. f_equal. apply IH. cbn in H. lia.
  - f_equal. apply IH. lia.
Qed.
