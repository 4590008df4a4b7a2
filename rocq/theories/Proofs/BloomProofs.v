(** Split-block bloom filters: the model sets and tests exactly the specified bits. *)
From Verif Require Import Base.Prelude Base.LeFacts Base.Iter Model.Types Model.Bloom Spec.Bits Spec.BloomSpec
  Proofs.BitsFacts.
Open Scope N_scope.

Lemma filter_bit_le l k : bytes_ok l -> filter_bit l k = N.testbit (le l) k.
Proof.
  intro H. unfold filter_bit. rewrite bit_stream_le by assumption. unfold lsb_bits.
  destruct (N.lt_ge_cases k (8 * nlen l)) as [Hk|Hk].
  - assert (Hn : (N.to_nat k < 8 * length l)%nat) by (unfold nlen in Hk; lia).
    rewrite (nth_indep _ false (N.testbit (le l) (N.of_nat 0))) by (rewrite map_length, seq_length; exact Hn).
    rewrite (map_nth (fun i => N.testbit (le l) (N.of_nat i)) (seq 0 (8 * length l)) 0%nat (N.to_nat k)).
    rewrite seq_nth by exact Hn. cbn [Nat.add]. rewrite N2Nat.id. reflexivity.
  - rewrite nth_overflow by (rewrite map_length, seq_length; unfold nlen in Hk; lia).
    symmetry. apply (testbit_small _ (8 * nlen l)); [apply le_bound; assumption|assumption].
Qed.

Lemma filter_bit_ext a b : bytes_ok a -> bytes_ok b -> length a = length b ->
  (forall k, filter_bit a k = filter_bit b k) -> a = b.
Proof.
  intros Ha Hb Hl He. apply le_inj; try assumption.
  apply N.bits_inj; intro k. rewrite <- !filter_bit_le by assumption. apply He.
Qed.

Lemma testbit_le_app a b k : bytes_ok a ->
  N.testbit (le (a ++ b)) k =
  if k <? 8 * nlen a then N.testbit (le a) k else N.testbit (le b) (k - 8 * nlen a).
Proof.
  intro Ha. rewrite le_app. pose proof (le_bound a Ha) as B.
  rewrite N.mul_comm, <- lor_shift_add by assumption. rewrite N.lor_spec.
  destruct (N.ltb_spec k (8 * nlen a)) as [Hk|Hk].
  - rewrite N.shiftl_spec_low by assumption. apply orb_false_r.
  - rewrite (testbit_small _ _ _ B Hk). cbn [orb]. apply N.shiftl_spec_high'. assumption.
Qed.

Lemma testbit_unload ws k : Forall (fun w => w < 2 ^ 32) ws ->
  N.testbit (le (unload_block ws)) k = N.testbit (nth (N.to_nat (k / 32)) ws 0) (k mod 32).
Proof.
  intro H. unfold unload_block. revert k. induction H as [|w ws Hw Hws IH]; intro k.
  - cbn [flat_map le]. rewrite N.bits_0. destruct (N.to_nat (k / 32)); cbn [nth]; rewrite N.bits_0; reflexivity.
  - cbn [flat_map]. rewrite testbit_le_app by apply to_le_ok.
    unfold nlen. rewrite to_le_length. change (8 * N.of_nat 4) with 32.
    destruct (N.ltb_spec k 32) as [Hk|Hk].
    + rewrite N.div_small by assumption. rewrite N.mod_small by assumption. cbn [N.to_nat nth].
      rewrite le_to_le_small by exact Hw. reflexivity.
    + rewrite IH.
      replace (k / 32) with (N.succ ((k - 32) / 32)).
      2:{ replace k with (k - 32 + 1 * 32) at 2 by lia. rewrite N.div_add by lia. lia. }
      rewrite N2Nat.inj_succ. cbn [nth].
      replace (k mod 32) with ((k - 32) mod 32); [reflexivity|].
      replace k with (k - 32 + 1 * 32) at 2 by lia. rewrite N.mod_add by lia. reflexivity.
Qed.

Lemma chunk4 n l : (4 * n <= length l)%nat -> flat_map (to_le 4) (map le (chunk_list n 4 l)) = firstn (4 * n) l
  \/ ~ bytes_ok l.
Proof.
  revert l; induction n as [|n IH]; intros l Hl; [left; reflexivity|].
  destruct (bytes_okb l) eqn:E; [|right; intro A; apply bytes_okb_ok in A; congruence].
  apply bytes_okb_ok in E. left.
  cbn [chunk_list map flat_map].
  destruct (IH (skipn 4 l)) as [IH'|IH'].
  - rewrite skipn_length. lia.
  - rewrite IH'. pose proof (to_le_le (firstn 4 l) (bytes_ok_firstn 4 l E)) as T.
    rewrite firstn_length_le in T by lia. rewrite T.
    replace (4 * S n)%nat with (4 + 4 * n)%nat by lia.
    clear. generalize (4 * n)%nat as q. intro q.
    do 4 (destruct l as [|? l]; [cbn; rewrite ?firstn_nil; reflexivity|]). reflexivity.
  - exfalso. apply IH', bytes_ok_skipn, E.
Qed.

Lemma load_block_32 s : length s = 32%nat -> load_block s = map le (chunk_list 8 4 s).
Proof.
  intro H. unfold load_block, chunks_exact. rewrite H. reflexivity.
Qed.

Lemma load_unload s : bytes_ok s -> length s = 32%nat -> unload_block (load_block s) = s.
Proof.
  intros Hs H. rewrite load_block_32 by assumption. unfold unload_block.
  destruct (chunk4 8 s) as [E|E]; [lia| |contradiction].
  rewrite E. apply firstn_all2. lia.
Qed.

Lemma chunk_words n l : bytes_ok l -> Forall (fun w => w < 2 ^ 32) (map le (chunk_list n 4 l)).
Proof.
  revert l; induction n as [|n IH]; intros l Hl; [constructor|].
  cbn [chunk_list map]. constructor; [|apply IH, bytes_ok_skipn, Hl].
  eapply N.lt_le_trans; [apply le_bound, bytes_ok_firstn, Hl|].
  apply N.pow_le_mono_r; [discriminate|]. unfold nlen. rewrite firstn_length. lia.
Qed.

Lemma load_words s : bytes_ok s -> length s = 32%nat -> Forall (fun w => w < 2 ^ 32) (load_block s).
Proof. intros Hs H. rewrite load_block_32 by assumption. apply chunk_words, Hs. Qed.

Lemma load_length s : length s = 32%nat -> length (load_block s) = 8%nat.
Proof. intro H. rewrite load_block_32 by assumption. reflexivity. Qed.

Lemma load_bit s i j : bytes_ok s -> length s = 32%nat -> j < 32 ->
  N.testbit (nth (N.to_nat i) (load_block s) 0) j = N.testbit (le s) (32 * i + j).
Proof.
  intros Hs H Hj. rewrite <- (load_unload s Hs H) at 2.
  rewrite testbit_unload by (apply load_words; assumption).
  replace ((32 * i + j) / 32) with i.
  2:{ rewrite N.mul_comm, N.div_add_l by lia. rewrite N.div_small by assumption. lia. }
  replace ((32 * i + j) mod 32) with j; [reflexivity|].
  rewrite N.add_comm, N.mul_comm, N.mod_add by lia. symmetry. apply N.mod_small. assumption.
Qed.

(** The mask of a hash. *)
Lemma bloom_bit_lt hash i : bloom_bit hash i < 32.
Proof.
  unfold bloom_bit. apply N.div_lt_upper_bound; [discriminate|].
  change (2 ^ 27 * 32) with (2 ^ 32). apply N.mod_lt. discriminate.
Qed.

Lemma new_mask_spec hash :
  new_mask (hash mod two32) = map (fun i => 2 ^ bloom_bit hash i) [0; 1; 2; 3; 4; 5; 6; 7].
Proof.
  unfold new_mask. change salt with (map bloom_salt [0; 1; 2; 3; 4; 5; 6; 7]).
  rewrite map_map. apply map_ext. intro i. rewrite N.shiftl_1_l. unfold bloom_bit.
  rewrite N.shiftr_div_pow2. reflexivity.
Qed.

Lemma land_pow2_zero p w : (N.land (2 ^ p) w =? 0) = negb (N.testbit w p).
Proof.
  destruct (N.testbit w p) eqn:E; cbn [negb].
  - apply N.eqb_neq. intro H.
    assert (B : N.testbit (N.land (2 ^ p) w) p = false) by (rewrite H; apply N.bits_0).
    rewrite N.land_spec, E, N.pow2_bits_true in B. discriminate.
  - apply N.eqb_eq. apply N.bits_inj_0; intro i. rewrite N.land_spec.
    destruct (N.eq_dec p i) as [->|Hn]; [rewrite E; apply andb_false_r|].
    rewrite N.pow2_bits_false by assumption. reflexivity.
Qed.

Lemma all_hit_spec hash block : length block = 8%nat ->
  all_hit (new_mask (hash mod two32)) block =
  forallb (fun i => N.testbit (nth (N.to_nat i) block 0) (bloom_bit hash i)) [0; 1; 2; 3; 4; 5; 6; 7].
Proof.
  intro H. rewrite new_mask_spec.
  do 8 (destruct block as [|? block]; [discriminate|]). destruct block; [|discriminate].
  cbn [map all_hit forallb].
  rewrite !land_pow2_zero.
  change (N.to_nat 0) with 0%nat; change (N.to_nat 1) with 1%nat; change (N.to_nat 2) with 2%nat;
  change (N.to_nat 3) with 3%nat; change (N.to_nat 4) with 4%nat; change (N.to_nat 5) with 5%nat;
  change (N.to_nat 6) with 6%nat; change (N.to_nat 7) with 7%nat. cbn [nth].
  repeat match goal with
  | |- context [if negb ?b then _ else _] => destruct b; cbn [negb andb]
  end; reflexivity.
Qed.

(** Storing the block. *)
Lemma write32_twice start x y bitset b : length x = 32%nat ->
  write32 start x bitset = Ok b -> write32 start y b = write32 start y bitset.
Proof.
  unfold write32. intros Hx. destruct (N.leb_spec (start + 32) (nlen bitset)) as [H|H]; [|discriminate].
  intro E. apply Ok_inj in E. subst b. unfold nlen in *.
  assert (L : length (firstn (N.to_nat start) bitset) = N.to_nat start) by (rewrite firstn_length_le; lia).
  rewrite !app_length, L, Hx, skipn_length.
  replace (start + 32 <=? N.of_nat (N.to_nat start + (32 + (length bitset - (N.to_nat start + 32))))) with true
    by lia.
  f_equal. f_equal.
  - rewrite firstn_app, L, Nat.sub_diag. cbn [firstn]. rewrite app_nil_r. apply firstn_all2. lia.
  - f_equal. rewrite app_assoc, skipn_app, app_length, L, Hx.
    rewrite skipn_all2 by (rewrite app_length; lia).
    rewrite Nat.sub_diag. reflexivity.
Qed.

Definition upd (mask : list N) (block : list N) (i : nat) : list N :=
  firstn i block ++ N.lor (nth i block 0) (nth i mask 0) :: skipn (S i) block.

Lemma upd_length mask block i : (i < length block)%nat -> length (upd mask block i) = length block.
Proof.
  intro H. unfold upd. rewrite app_length. cbn [length]. rewrite firstn_length_le, skipn_length by lia. lia.
Qed.

Lemma unload_length ws : length (unload_block ws) = (4 * length ws)%nat.
Proof.
  unfold unload_block. induction ws as [|w ws IH]; [reflexivity|].
  cbn [flat_map length]. rewrite app_length, to_le_length, IH. lia.
Qed.

Lemma insert_loop_write is start mask : forall block bitset, length block = 8%nat ->
  start + 32 <= nlen bitset -> Forall (fun i => (i < 8)%nat) is -> is <> [] ->
  insert_loop is start mask block bitset = write32 start (unload_block (fold_left (upd mask) is block)) bitset.
Proof.
  induction is as [|i is IH]; intros block bitset Hb Hs Hi Hne; [congruence|].
  cbn [insert_loop fold_left]. fold (upd mask block i).
  pose proof (Forall_inv Hi) as Hi0. apply Forall_inv_tail in Hi. cbn beta in Hi0.
  assert (Hlen : length (upd mask block i) = 8%nat) by (rewrite upd_length; lia).
  assert (Hul : length (unload_block (upd mask block i)) = 32%nat) by (rewrite unload_length; lia).
  destruct (write32 start (unload_block (upd mask block i)) bitset) as [b| |] eqn:E.
  2,3: unfold write32 in E; destruct (N.leb_spec (start + 32) (nlen bitset)); [discriminate|lia].
  cbn [bind].
  destruct is as [|j is].
  - cbn [insert_loop fold_left]. symmetry. exact E.
  - rewrite IH; try assumption.
    + apply (write32_twice _ _ _ _ _ Hul E).
    + unfold write32 in E. destruct (N.leb_spec (start + 32) (nlen bitset)); [|discriminate].
      apply Ok_inj in E. subst b. unfold nlen in *. rewrite !app_length, Hul, firstn_length_le, skipn_length; lia.
    + discriminate.
Qed.

Lemma fold_upd mask block : length block = 8%nat -> length mask = 8%nat ->
  fold_left (upd mask) (seq 0 8) block = map (fun p => N.lor (fst p) (snd p)) (combine block mask).
Proof.
  intros Hb Hm.
  do 8 (destruct block as [|? block]; [discriminate|]). destruct block; [|discriminate].
  do 8 (destruct mask as [|? mask]; [discriminate|]). destruct mask; [|discriminate].
  reflexivity.
Qed.

Lemma index8 (P : N -> Prop) i : i < 8 -> P 0 -> P 1 -> P 2 -> P 3 -> P 4 -> P 5 -> P 6 -> P 7 -> P i.
Proof.
  intros H P0 P1 P2 P3 P4 P5 P6 P7.
  assert (D : i = 0 \/ i = 1 \/ i = 2 \/ i = 3 \/ i = 4 \/ i = 5 \/ i = 6 \/ i = 7) by lia.
  repeat (destruct D as [D|D]; [subst; assumption|]). subst; assumption.
Qed.

Lemma or_mask_nth hash block i : length block = 8%nat -> i < 8 ->
  nth (N.to_nat i) (map (fun p => N.lor (fst p) (snd p)) (combine block (new_mask (hash mod two32)))) 0 =
  N.lor (nth (N.to_nat i) block 0) (2 ^ bloom_bit hash i).
Proof.
  intros Hb Hi. rewrite new_mask_spec.
  do 8 (destruct block as [|? block]; [discriminate|]). destruct block; [|discriminate].
  cbn [map combine fst snd]. pattern i.
  apply (index8 _ i Hi); reflexivity.
Qed.

Lemma lor_mask_words hash block : length block = 8%nat -> Forall (fun w => w < 2 ^ 32) block ->
  Forall (fun w => w < 2 ^ 32)
    (map (fun p => N.lor (fst p) (snd p)) (combine block (new_mask (hash mod two32)))).
Proof.
  intros Hb H. apply Forall_forall. intros w Hw. apply in_map_iff in Hw as ((a & b) & <- & Hp).
  cbn [fst snd]. apply lor_bound.
  - rewrite Forall_forall in H. apply H. apply in_combine_l in Hp. exact Hp.
  - apply in_combine_r in Hp. rewrite new_mask_spec in Hp. apply in_map_iff in Hp as (i & <- & _).
    apply N.pow_lt_mono_r; [lia|apply bloom_bit_lt].
Qed.

(** Positions of a hash in block [b]. *)
Lemma existsb_positions b hash k :
  existsb (N.eqb k) (bloom_positions_in b hash) =
  (256 * b <=? k) && (k <? 256 * b + 256) && (bloom_bit hash ((k - 256 * b) / 32) =? (k - 256 * b) mod 32).
Proof.
  apply eq_true_iff_eq. rewrite existsb_exists. unfold bloom_positions_in. split.
  - intros (p & Hp & E). apply N.eqb_eq in E. subst p. apply in_map_iff in Hp as (i & <- & Hi).
    pose proof (bloom_bit_lt hash i) as B.
    assert (Hi8 : i < 8) by (cbn [In] in Hi; clear B; intuition lia).
    replace (256 * b + 32 * i + bloom_bit hash i - 256 * b) with (bloom_bit hash i + i * 32) by lia.
    rewrite N.div_add, N.mod_add, N.div_small, N.mod_small by lia.
    rewrite N.add_0_l, N.eqb_refl.
    apply andb_true_intro; split; [apply andb_true_intro; split|reflexivity]; lia.
  - intro H. apply andb_prop in H as [H H3]. apply andb_prop in H as [H1 H2].
    apply N.eqb_eq in H3.
    set (i := (k - 256 * b) / 32) in *.
    assert (Hi : i < 8) by (apply N.div_lt_upper_bound; lia).
    exists k. split; [|apply N.eqb_refl].
    apply in_map_iff. exists i. split.
    + rewrite H3. pose proof (N.div_mod (k - 256 * b) 32 ltac:(discriminate)) as D. fold i in D. lia.
    + cbn [In]. lia.
Qed.

(** The whole of [insert] and [is_in_set] for a hash in block [b]. *)
Lemma split3 (bitset : list N) start : (start + 32 <= length bitset)%nat ->
  bitset = firstn start bitset ++ firstn 32 (skipn start bitset) ++ skipn (start + 32) bitset.
Proof.
  intro H. rewrite <- (firstn_skipn start bitset) at 1. f_equal.
  rewrite <- (firstn_skipn 32 (skipn start bitset)) at 1. f_equal.
  revert bitset H. induction start as [|s IH]; intros bitset H; [reflexivity|].
  destruct bitset as [|x bitset]; [reflexivity|]. cbn [skipn Nat.add]. apply IH. cbn [length] in H. lia.
Qed.

Lemma block_bit bitset b k : bytes_ok bitset -> b < nlen bitset / 32 -> k < 256 ->
  N.testbit (le (firstn 32 (skipn (N.to_nat (b * 32)) bitset))) k = N.testbit (le bitset) (256 * b + k).
Proof.
  intros Hok Hb Hk.
  assert (Hl : (N.to_nat (b * 32) + 32 <= length bitset)%nat).
  { pose proof (N.mul_div_le (nlen bitset) 32 ltac:(discriminate)). unfold nlen in *. lia. }
  rewrite (split3 bitset (N.to_nat (b * 32)) Hl) at 2.
  rewrite testbit_le_app by (apply bytes_ok_firstn, Hok).
  unfold nlen. rewrite firstn_length_le by lia.
  replace (256 * b + k <? 8 * N.of_nat (N.to_nat (b * 32))) with false by lia.
  rewrite testbit_le_app by (apply bytes_ok_firstn, bytes_ok_skipn, Hok).
  unfold nlen. rewrite firstn_length_le by (rewrite skipn_length; lia).
  replace (256 * b + k - 8 * N.of_nat (N.to_nat (b * 32))) with k by lia.
  replace (k <? 8 * N.of_nat 32) with true by lia. reflexivity.
Qed.

Lemma insert_in_block m bitset hash b : bytes_ok bitset ->
  hash_to_block_index m hash (nlen bitset) = Ok b -> b < nlen bitset / 32 ->
  exists bitset', insert m bitset hash = Ok bitset' /\ length bitset' = length bitset /\ bytes_ok bitset' /\
    forall k, filter_bit bitset' k = filter_bit bitset k || existsb (N.eqb k) (bloom_positions_in b hash).
Proof.
  intros Hok Hidx Hb.
  assert (Hl : (N.to_nat (b * 32) + 32 <= length bitset)%nat).
  { pose proof (N.mul_div_le (nlen bitset) 32 ltac:(discriminate)). unfold nlen in *. lia. }
  assert (Hle : b * 32 + 32 <= nlen bitset) by (unfold nlen; lia).
  unfold insert. rewrite Hidx. cbn [bind]. unfold slice32.
  replace (b * 32 + 32 <=? nlen bitset) with true by lia. cbn [bind].
  set (s := firstn 32 (skipn (N.to_nat (b * 32)) bitset)).
  assert (Hs : bytes_ok s) by (apply bytes_ok_firstn, bytes_ok_skipn, Hok).
  assert (Hsl : length s = 32%nat).
  { unfold s. rewrite firstn_length_le; [reflexivity|]. rewrite skipn_length. lia. }
  rewrite insert_loop_write; [|apply load_length; assumption|assumption| |discriminate].
  2:{ repeat constructor. }
  rewrite fold_upd; [|apply load_length; assumption|rewrite new_mask_spec; reflexivity].
  set (ws := map (fun p => N.lor (fst p) (snd p)) (combine (load_block s) (new_mask (hash mod two32)))).
  assert (Hws : Forall (fun w => w < 2 ^ 32) ws).
  { apply lor_mask_words; [apply load_length; assumption|apply load_words; assumption]. }
  assert (Hwl : length ws = 8%nat).
  { unfold ws. rewrite map_length, combine_length, load_length, new_mask_spec by assumption. reflexivity. }
  unfold write32. replace (b * 32 + 32 <=? nlen bitset) with true by lia.
  assert (Hul : length (unload_block ws) = 32%nat) by (rewrite unload_length, Hwl; reflexivity).
  assert (Huo : bytes_ok (unload_block ws)).
  { unfold unload_block. clear. induction ws as [|w ws IH]; [constructor|]. cbn [flat_map].
    apply bytes_ok_app. split; [apply to_le_ok|exact IH]. }
  eexists. split; [reflexivity|]. split; [|split].
  - rewrite !app_length, Hul, firstn_length_le, skipn_length by lia. lia.
  - rewrite !bytes_ok_app. split; [apply bytes_ok_firstn, Hok|].
    split; [exact Huo|apply bytes_ok_skipn, Hok].
  - intro k.
    assert (Hnew : bytes_ok (firstn (N.to_nat (b * 32)) bitset ++ unload_block ws ++
      skipn (N.to_nat (b * 32) + 32) bitset)).
    { rewrite !bytes_ok_app. split; [apply bytes_ok_firstn, Hok|].
      split; [exact Huo|apply bytes_ok_skipn, Hok]. }
    rewrite (filter_bit_le _ k Hnew), (filter_bit_le _ k Hok), existsb_positions.
    rewrite (split3 bitset (N.to_nat (b * 32)) Hl) at 3. fold s.
    assert (Hf : bytes_ok (firstn (N.to_nat (b * 32)) bitset)) by (apply bytes_ok_firstn, Hok).
    rewrite !testbit_le_app by assumption.
    unfold nlen. rewrite !firstn_length_le, Hul, Hsl by lia.
    replace (8 * N.of_nat (N.to_nat (b * 32))) with (256 * b) by lia.
    change (8 * N.of_nat 32) with 256.
    destruct (N.ltb_spec k (256 * b)) as [H1|H1].
    + replace (256 * b <=? k) with false by lia. cbn [andb]. symmetry. apply orb_false_r.
    + replace (256 * b <=? k) with true by lia. cbn [andb].
      destruct (N.ltb_spec (k - 256 * b) 256) as [H2|H2].
      * replace (k <? 256 * b + 256) with true by lia. cbn [andb].
        rewrite testbit_unload by exact Hws.
        set (j := k - 256 * b) in *.
        assert (Hi : j / 32 < 8) by (apply N.div_lt_upper_bound; lia).
        assert (Hj : j mod 32 < 32) by (apply N.mod_lt; discriminate).
        unfold ws. rewrite or_mask_nth by (try exact Hi; apply load_length; assumption).
        rewrite N.lor_spec, load_bit by assumption.
        rewrite <- N.div_mod by discriminate. f_equal.
        destruct (N.eqb_spec (bloom_bit hash (j / 32)) (j mod 32)) as [E|E].
        -- rewrite <- E. apply N.pow2_bits_true.
        -- apply N.pow2_bits_false. exact E.
      * replace (k <? 256 * b + 256) with false by lia. cbn [andb]. symmetry. apply orb_false_r.
Qed.

Lemma is_in_set_block m bitset hash b : bytes_ok bitset ->
  hash_to_block_index m hash (nlen bitset) = Ok b -> b < nlen bitset / 32 ->
  is_in_set m bitset hash = Ok (forallb (filter_bit bitset) (bloom_positions_in b hash)).
Proof.
  intros Hok Hidx Hb.
  assert (Hl : (N.to_nat (b * 32) + 32 <= length bitset)%nat).
  { pose proof (N.mul_div_le (nlen bitset) 32 ltac:(discriminate)). unfold nlen in *. lia. }
  unfold is_in_set. rewrite Hidx. cbn [bind]. unfold slice32.
  replace (b * 32 + 32 <=? nlen bitset) with true by (unfold nlen; lia). cbn [bind]. f_equal.
  set (s := firstn 32 (skipn (N.to_nat (b * 32)) bitset)).
  assert (Hs : bytes_ok s) by (apply bytes_ok_firstn, bytes_ok_skipn, Hok).
  assert (Hsl : length s = 32%nat).
  { unfold s. rewrite firstn_length_le; [reflexivity|]. rewrite skipn_length. lia. }
  rewrite all_hit_spec by (apply load_length; assumption).
  unfold bloom_positions_in.
  assert (E : forall is, Forall (fun i => i < 8) is ->
    forallb (fun i => N.testbit (nth (N.to_nat i) (load_block s) 0) (bloom_bit hash i)) is =
    forallb (filter_bit bitset) (map (fun i => 256 * b + 32 * i + bloom_bit hash i) is)).
  { induction 1 as [|i is Hi His IH]; [reflexivity|]. cbn [forallb map]. rewrite IH. f_equal.
    rewrite filter_bit_le by assumption.
    pose proof (bloom_bit_lt hash i) as B.
    rewrite load_bit by assumption. unfold s. rewrite block_bit by (try assumption; lia).
    f_equal. lia. }
  apply E. repeat constructor.
Qed.

(** The block index. *)
Lemma block_index_lt m hash len b : hash < 2 ^ 64 -> 0 < len / 32 ->
  hash_to_block_index m hash len = Ok b -> b < len / 32.
Proof.
  intros Hh Hz. unfold hash_to_block_index.
  rewrite N.shiftr_div_pow2. set (h := hash / 2 ^ 32).
  assert (Hh32 : h < 2 ^ 32) by (apply N.div_lt_upper_bound; [discriminate|exact Hh]).
  set (z := len / 32) in *. clearbody z h. unfold umul.
  destruct (N.ltb_spec (h * z) (2 ^ 64)) as [H|H].
  - cbn [bind]. intro E. apply Ok_inj in E. subst b. rewrite N.shiftr_div_pow2.
    eapply N.le_lt_trans; [apply N.mod_le; discriminate|].
    apply N.div_lt_upper_bound; [discriminate|]. clear H. nia.
  - destruct m; cbn [bind]; intro E; [discriminate|]. apply Ok_inj in E. subst b.
    assert (2 ^ 32 < z).
    { destruct (N.le_gt_cases z (2 ^ 32)) as [A|A]; [|exact A]. exfalso.
      change (2 ^ 64) with (2 ^ 32 * 2 ^ 32) in H.
      assert (h * z < 2 ^ 32 * 2 ^ 32); [|lia]. clear H Hh hash.
      apply N.le_lt_trans with (h * 2 ^ 32); [apply N.mul_le_mono_l; exact A|].
      apply N.mul_lt_mono_pos_r; [reflexivity|exact Hh32]. }
    eapply N.lt_trans; [apply N.mod_lt; discriminate|]. exact H0.
Qed.

Lemma block_index_spec m hash len : hash < 2 ^ 64 -> len / 32 <= 2 ^ 32 -> 0 < len / 32 ->
  hash_to_block_index m hash len = Ok (bloom_block (len / 32) hash).
Proof.
  intros Hh Hz Hp. unfold hash_to_block_index, bloom_block.
  rewrite N.shiftr_div_pow2. set (h := hash / 2 ^ 32).
  assert (Hh32 : h < 2 ^ 32) by (apply N.div_lt_upper_bound; [discriminate|exact Hh]).
  set (z := len / 32) in *. clearbody z h.
  assert (B : h * z < 2 ^ 32 * 2 ^ 32).
  { apply N.le_lt_trans with (h * 2 ^ 32); [apply N.mul_le_mono_l; exact Hz|].
    apply N.mul_lt_mono_pos_r; [reflexivity|exact Hh32]. }
  unfold umul. change (2 ^ 64) with (2 ^ 32 * 2 ^ 32).
  destruct (N.ltb_spec (h * z) (2 ^ 32 * 2 ^ 32)) as [_|C]; [|lia]. cbn [bind].
  rewrite N.shiftr_div_pow2. f_equal. apply N.mod_small.
  apply N.div_lt_upper_bound; [discriminate|]. exact B.
Qed.

Lemma block_index_wrapping hash len : exists b, hash_to_block_index Wrapping hash len = Ok b.
Proof.
  unfold hash_to_block_index, umul. destruct (_ <? _); cbn [bind]; eexists; reflexivity.
Qed.

Lemma block_index_dec m hash len b : hash_to_block_index m hash len = Ok b \/ hash_to_block_index m hash len <> Ok b.
Proof.
  destruct (hash_to_block_index m hash len) as [x| |]; [|right; discriminate|right; discriminate].
  destruct (N.eq_dec x b); [left; congruence|right; congruence].
Qed.

(** Histories. *)
Definition touched (m : mode) (len : N) (hs : list N) (k : N) : bool :=
  existsb (fun h => match hash_to_block_index m h len with
                    | Ok b => existsb (N.eqb k) (bloom_positions_in b h) | _ => false end) hs.

Lemma insert_all_spec m hs : forall bitset bitset', bytes_ok bitset -> (32 <= length bitset)%nat ->
  Forall (fun h => h < 2 ^ 64) hs -> insert_all m bitset hs = Ok bitset' ->
  length bitset' = length bitset /\ bytes_ok bitset' /\
  (forall k, filter_bit bitset' k = filter_bit bitset k || touched m (nlen bitset) hs k) /\
  (forall h, In h hs -> exists b, hash_to_block_index m h (nlen bitset) = Ok b).
Proof.
  induction hs as [|h hs IH]; intros bitset bitset' Hok Hl Hhs E.
  - cbn [insert_all] in E. apply Ok_inj in E. subst. repeat split; auto.
    + intro k. cbn. symmetry. apply orb_false_r.
    + intros h [].
  - cbn [insert_all] in E. pose proof (Forall_inv Hhs) as Hh. apply Forall_inv_tail in Hhs. cbn beta in Hh.
    assert (Hz : 0 < nlen bitset / 32).
    { apply N.div_str_pos. unfold nlen. lia. }
    destruct (hash_to_block_index m h (nlen bitset)) as [b|e|] eqn:Ei.
    2,3: unfold insert in E; rewrite Ei in E; discriminate.
    destruct (insert_in_block m bitset h b Hok Ei (block_index_lt m h _ b Hh Hz Ei)) as (b1 & E1 & L1 & O1 & B1).
    rewrite E1 in E. cbn [bind] in E.
    destruct (IH b1 bitset' O1 ltac:(lia) Hhs E) as (L2 & O2 & B2 & I2).
    assert (EL : nlen b1 = nlen bitset) by (unfold nlen; rewrite L1; reflexivity).
    rewrite EL in B2, I2.
    split; [lia|]. split; [exact O2|]. split.
    + intro k. rewrite B2, B1. cbn [touched existsb]. rewrite Ei. symmetry. apply orb_assoc.
    + intros h' [<-|Hin]; [exists b; exact Ei|apply I2, Hin].
Qed.

Lemma bloom_present m hs bitset bitset' : bytes_ok bitset -> (32 <= length bitset)%nat ->
  Forall (fun h => h < 2 ^ 64) hs -> insert_all m bitset hs = Ok bitset' ->
  forall h, In h hs -> is_in_set m bitset' h = Ok true.
Proof.
  intros Hok Hl Hhs E h Hin.
  destruct (insert_all_spec m hs bitset bitset' Hok Hl Hhs E) as (L & O & B & I).
  destruct (I h Hin) as (b & Eb).
  assert (EL : nlen bitset' = nlen bitset) by (unfold nlen; rewrite L; reflexivity).
  assert (Hh : h < 2 ^ 64) by (rewrite Forall_forall in Hhs; apply Hhs, Hin).
  assert (Hz : 0 < nlen bitset / 32) by (apply N.div_str_pos; unfold nlen; lia).
  rewrite (is_in_set_block m bitset' h b O).
  - f_equal. apply forallb_forall. intros k Hk. rewrite B. apply orb_true_iff. right.
    unfold touched. apply existsb_exists. exists h. split; [exact Hin|]. rewrite Eb.
    apply existsb_exists. exists k. split; [exact Hk|apply N.eqb_refl].
  - rewrite EL. exact Eb.
  - rewrite EL. apply (block_index_lt m h _ b Hh Hz Eb).
Qed.

Lemma insert_all_ok m hs : forall bitset, bytes_ok bitset -> (32 <= length bitset)%nat ->
  m = Wrapping \/ nlen bitset / 32 <= 2 ^ 32 ->
  Forall (fun h => h < 2 ^ 64) hs -> exists bitset', insert_all m bitset hs = Ok bitset'.
Proof.
  induction hs as [|h hs IH]; intros bitset Hok Hl Hm Hhs; [eexists; reflexivity|].
  pose proof (Forall_inv Hhs) as Hh. apply Forall_inv_tail in Hhs. cbn beta in Hh.
  assert (Hz : 0 < nlen bitset / 32) by (apply N.div_str_pos; unfold nlen; lia).
  assert (Hi : exists b, hash_to_block_index m h (nlen bitset) = Ok b).
  { destruct Hm as [->|Hm]; [apply block_index_wrapping|]. eexists. apply block_index_spec; assumption. }
  destruct Hi as (b & Ei).
  destruct (insert_in_block m bitset h b Hok Ei (block_index_lt m h _ b Hh Hz Ei)) as (b1 & E1 & L1 & O1 & B1).
  cbn [insert_all]. rewrite E1. cbn [bind]. apply IH; try assumption; [lia|].
  unfold nlen in *. rewrite L1. exact Hm.
Qed.

Lemma touched_same m len hs hs' k : (forall h, In h hs <-> In h hs') -> touched m len hs k = touched m len hs' k.
Proof.
  intro H. unfold touched. apply eq_true_iff_eq. rewrite !existsb_exists.
  split; intros (h & Hin & E); exists h; split; try apply H; assumption.
Qed.

Lemma insert_all_same m hs hs' bitset a b : bytes_ok bitset -> (32 <= length bitset)%nat ->
  Forall (fun h => h < 2 ^ 64) hs -> (forall h, In h hs <-> In h hs') ->
  insert_all m bitset hs = Ok a -> insert_all m bitset hs' = Ok b -> a = b.
Proof.
  intros Hok Hl Hhs Hs Ea Eb.
  assert (Hhs' : Forall (fun h => h < 2 ^ 64) hs').
  { rewrite Forall_forall in *. intros h Hin. apply Hhs, Hs, Hin. }
  destruct (insert_all_spec m hs bitset a Hok Hl Hhs Ea) as (La & Oa & Ba & _).
  destruct (insert_all_spec m hs' bitset b Hok Hl Hhs' Eb) as (Lb & Ob & Bb & _).
  apply filter_bit_ext; try assumption; [lia|].
  intro k. rewrite Ba, Bb. f_equal. apply touched_same, Hs.
Qed.

Lemma small_panics m bitset hash : (length bitset < 32)%nat -> hash < 2 ^ 64 ->
  is_in_set m bitset hash = Panic /\ insert m bitset hash = Panic.
Proof.
  intros Hl Hh.
  assert (E : hash_to_block_index m hash (nlen bitset) = Ok 0).
  { unfold hash_to_block_index. rewrite (N.div_small (nlen bitset) 32) by (unfold nlen; lia).
    unfold umul. rewrite N.mul_0_r. reflexivity. }
  unfold is_in_set, insert. rewrite E. cbn [bind]. unfold slice32.
  replace (0 * 32 + 32 <=? nlen bitset) with false by (unfold nlen; lia). split; reflexivity.
Qed.
