(** Lemmas about pages of columns of any nesting. *)
From Verif Require Import Base.Prelude Base.LeFacts Base.Iter Spec.Bits Spec.UlebSpec Spec.RleSpec Spec.RowsSpec Spec.LevelsSpec
  Spec.PageSpec Spec.PlainSpec Spec.CompressionSpec Spec.ValuesSpec Spec.NestedSpec
  Model.Types Model.Native Model.Thrift Model.Intervals Model.Uleb128 Model.Bitpacked Model.HybridRle Model.Plain Model.Page Model.Deserialize
  Proofs.BitsFacts Proofs.BitpackedProofs Proofs.HybridRleProofs Proofs.HybridEncProofs Proofs.BitmapProofs Proofs.PageProofs Proofs.PlainProofs
  Proofs.SliceProofs Proofs.FilteredProofs Proofs.LevelsProofs Proofs.ValuesProofs Proofs.LaidProofs Props.HybridRle Props.Plain Props.Deserialize Props.LevelsAny.
Open Scope N_scope.

Lemma bit_width_bits z : (0 <= z < 2 ^ 15)%Z -> N.to_nat (get_bit_width z) = bits_for z.
Proof.
  intros Hz. change (2 ^ 15)%Z with 32768%Z in Hz. unfold bits_for. f_equal.
  unfold get_bit_width, leading_zeros16, of_signed. change (2 ^ Z.of_N 16)%Z with 65536%Z. rewrite Z.mod_small by lia.
  assert (N.size (Z.to_N z) <= 15); [|lia]. destruct (N.eq_dec (Z.to_N z) 0) as [->|Hn]; [cbn; lia|].
  rewrite N.size_log2 by exact Hn. assert (N.log2 (Z.to_N z) < 15); [|lia]. apply N.log2_lt_pow2; [lia|]. change (2 ^ 15) with 32768. lia.
Qed.
Lemma bits_for_range z : (0 < z < 2 ^ 15)%Z -> (0 < bits_for z <= 15)%nat.
Proof.
  intros Hz. change (2 ^ 15)%Z with 32768%Z in Hz. unfold bits_for. assert (Hn : Z.to_N z <> 0) by lia. rewrite N.size_log2 by exact Hn.
  assert (N.log2 (Z.to_N z) < 15) by (apply N.log2_lt_pow2; [lia|]; change (2 ^ 15) with 32768; lia). lia.
Qed.
Lemma bits_for_fits z v : (0 <= z)%Z -> (Z.of_N v <= z)%Z -> fits (bits_for z) v.
Proof. intros Hz Hv. unfold fits, bits_for. rewrite N2Nat.id. pose proof (N.size_gt (Z.to_N z)) as H. lia. Qed.

Lemma level_bytes_read m max levels bytes : (0 <= max < 2 ^ 15)%Z -> Forall (fun v => (Z.of_N v <= max)%Z) levels -> nlen levels < 2 ^ 31 -> nlen bytes < 2 ^ 61 ->
  level_bytes max levels bytes -> levels_read m bytes max (nlen levels) levels.
Proof.
  intros Hm Hv Hn Hb H. unfold levels_read. rewrite bit_width_bits by exact Hm. unfold level_bytes in H.
  assert (Hf : Forall (fits (bits_for max)) levels) by (eapply Forall_impl; [|exact Hv]; intros v Hx; apply bits_for_fits; [lia|exact Hx]).
  assert (Hlen : nlen levels < 2 ^ 56) by (change (2 ^ 31) with 2147483648 in Hn; change (2 ^ 56) with 72057594037927936; lia).
  destruct (Z.eqb_spec max 0) as [-> |Hmax].
  - subst bytes. destruct (hr_zero_bits m [] (length levels)) as (s & Es & Hy). exists s. split; [exact Es|]. eapply yields_weaken; [|].
    2:{ replace levels with (repeat 0 (length levels)); [exact Hy|]. clear - Hv. induction Hv as [|v l Hx _ IH]; [reflexivity|]. cbn [length repeat]. rewrite IH. f_equal. lia. }
    trivial.
  - pose proof (bits_for_range max ltac:(lia)) as Hr.
    assert (G : exists extra, readable (bits_for max) (levels ++ extra) bytes).
    { destruct H as [H|(runs & padding & Hc & Hl)].
      - destruct (encode_u32_readable (bits_for max) levels bytes ltac:(lia) Hf Hlen H) as (extra & Hx & _). exists extra. exact Hx.
      - exists padding. rewrite <- Hl. apply conforming_readable; [lia|exact Hc|exact Hb]. }
    destruct G as (extra & Hx). destruct (hr_decodes_readable m (bits_for max) _ _ (length levels) ltac:(lia) Hx Hb) as (s & Es & Hy). exists s. split; [exact Es|].
    rewrite <- app_assoc, firstn_app, Nat.sub_diag, firstn_all, app_nil_r in Hy. eapply yields_weaken; [|exact Hy]. trivial.
Qed.
Lemma level_runs_read m levels bytes : Forall (fun v => (Z.of_N v <= 1)%Z) levels -> nlen levels < 2 ^ 31 -> nlen bytes < 2 ^ 61 ->
  level_bytes 1 levels bytes -> exists runs, yields (ri_next m) (fun _ _ => True) (ri_new (mk_rle bytes 1) (nlen levels)) (map inl runs) /\ concat (map run_levels runs) = map (N.eqb 1) levels.
Proof.
  intros Hv Hn Hb H. unfold level_bytes in H. cbn [Z.eqb] in H. change (bits_for 1) with 1%nat in H.
  assert (Hf : Forall (fits 1) levels) by (eapply Forall_impl; [|exact Hv]; intros v Hx; cbn beta in Hx; unfold fits; change (2 ^ N.of_nat 1) with 2; lia).
  change (2 ^ 31) with 2147483648 in Hn.
  assert (G : exists extra, readable 1 (levels ++ extra) bytes).
  { destruct H as [H|(runs & padding & Hc & Hl)].
    - destruct (encode_u32_readable 1 levels bytes ltac:(lia) Hf ltac:(change (2 ^ 56) with 72057594037927936; lia) H) as (extra & Hx & _). exists extra. exact Hx.
    - exists padding. rewrite <- Hl. apply conforming_readable; [lia|exact Hc|exact Hb]. }
  destruct G as (extra & Hx). destruct (level_runs_readable m _ _ (nlen levels) Hx Hb) as (out & Hy & Ho & _); [change (2 ^ 64) with 18446744073709551616; lia|].
  exists out. split; [exact Hy|]. rewrite Ho. unfold nlen. rewrite Nat2N.id, map_app, firstn_app, map_length, Nat.sub_diag. cbn [firstn].
  rewrite app_nil_r. apply firstn_all2. rewrite map_length. lia.
Qed.

Lemma assemble_entries {A} d (entries : list (entry A)) : Forall (entry_ok d) entries ->
  entries = assemble (d_max_def d) (combine (map en_rep entries) (map en_def entries)) (stored_values entries).
Proof.
  induction 1 as [|e l (_ & _ & He) _ IH]; [reflexivity|]. destruct e as [r df v]. cbn [en_rep en_def en_value map combine assemble] in *. unfold stored_values in *. cbn [map en_value].
  destruct (Z.eqb_spec (Z.of_N df) (d_max_def d)) as [E|E].
  - destruct v as [v|]; [|exfalso; apply (proj2 He E); reflexivity]. cbn [present flat_map app nth_error skipn]. fold (present (map en_value l)). rewrite <- IH. reflexivity.
  - destruct v as [v|]; [exfalso; apply E, (proj1 He); discriminate|]. cbn [present flat_map app]. fold (present (map en_value l)). rewrite <- IH. reflexivity.
Qed.
Lemma stored_le {A} (entries : list (entry A)) : (length (stored_values entries) <= length entries)%nat.
Proof. unfold stored_values. pose proof (present_le (map en_value entries)) as H. rewrite map_length in H. exact H. Qed.

(** What the levels of a page give. *)
Lemma nested_levels {A} m d (entries : list (entry A)) values q : nested_page d entries values q ->
  exists rep def, split_buffer m q = Ok (rep, def, values) /\ levels_read m rep (d_max_rep d) (dp_num_values q) (map en_rep entries) /\
    levels_read m def (d_max_def d) (dp_num_values q) (map en_def entries) /\
    exists v, dl_try_new m q = Ok v /\ levels_handed m (d_max_def d) v (map en_def entries).
Proof.
  intros (Hd & Hr & Hf & He & Hn & H31 & rep & def & Hp & Lr & Ld).
  pose proof (split_parts m q _ _ _ Hp) as Es.
  assert (Hsz : nlen rep < 2 ^ 61 /\ nlen def < 2 ^ 61).
  { destruct Hp as (_ & Hp). change (2 ^ 61) with 2305843009213693952. unfold v1_part in Hp. change (2 ^ 32) with 4294967296 in Hp. change (2 ^ 31) with 2147483648 in Hp.
    destruct (dp_header q).
    - destruct Hp as (_ & P1 & P2). split; [destruct (0 <? _)%Z in P1; [lia|subst rep; cbn; lia]|]. clear P1. destruct (0 <? _)%Z; [lia|subst def; cbn; lia].
    - lia. }
  destruct Hsz as [Sr Sd].
  assert (Br : Forall (fun v => (Z.of_N v <= d_max_rep d)%Z) (map en_rep entries)) by (apply Forall_map; eapply Forall_impl; [|exact He]; intros e (H & _); exact H).
  assert (Bd : Forall (fun v => (Z.of_N v <= d_max_def d)%Z) (map en_def entries)) by (apply Forall_map; eapply Forall_impl; [|exact He]; intros e (_ & H & _); exact H).
  assert (Nr : nlen (map en_rep entries) = nlen entries) by (unfold nlen; rewrite map_length; reflexivity).
  assert (Nd : nlen (map en_def entries) = nlen entries) by (unfold nlen; rewrite map_length; reflexivity).
  assert (Rr : levels_read m rep (d_max_rep d) (dp_num_values q) (map en_rep entries)) by (rewrite Hn, <- Nr; apply level_bytes_read; try assumption; rewrite Nr; exact H31).
  assert (Rd : levels_read m def (d_max_def d) (dp_num_values q) (map en_def entries)) by (rewrite Hn, <- Nd; apply level_bytes_read; try assumption; rewrite Nd; exact H31).
  exists rep, def. split; [exact Es|]. split; [exact Rr|]. split; [exact Rd|].
  unfold dl_try_new. rewrite Es, Hd. cbn [bind]. destruct (Z.eqb_spec (d_max_def d) 1) as [E|E].
  - eexists. split; [reflexivity|]. cbn [levels_handed]. split; [exact E|]. rewrite Hn, <- Nd. rewrite E in Bd, Ld. apply level_runs_read; try assumption. rewrite Nd. exact H31.
  - destruct Rd as (s & -> & Hy). cbn [bind]. eexists. split; [reflexivity|]. cbn [levels_handed]. split; [|exact Hy].
    change (2 ^ 15)%Z with 32768%Z in Hf. unfold of_signed. change (2 ^ Z.of_N 32)%Z with 4294967296%Z. rewrite Z.mod_small by lia. lia.
Qed.

Lemma bi_roundtrip_any l : Forall (fun s => nlen s < 2 ^ 32) l -> forall n, yields bi_next (fun _ _ => True) (mk_bi (plain_strings l) n) (map inl l).
Proof.
  induction 1 as [|s l Hs Hl IH]; intros n.
  - eapply yields_nil; [exact I|reflexivity].
  - cbn [map]. unfold plain_strings. cbn [map concat]. fold (plain_strings l). eapply yields_cons; [exact I|apply bi_next_string; exact Hs|]. apply IH.
Qed.

Lemma nested_page_rows {A} d (entries : list (entry A)) values p rows : nested_page d entries values p -> nested_page d entries values (mk_dp (dp_header p) (dp_buffer p) d rows).
Proof.
  intros (Hd & H1 & H2 & H3 & H4 & H5 & rep & def & Hp & H6). split; [reflexivity|]. do 5 (split; [assumption|]). exists rep, def. split; [|exact H6].
  unfold page_parts in *. cbn [dp_header dp_buffer dp_descriptor]. rewrite Hd in Hp. exact Hp.
Qed.

Lemma nested_dict_page m d (A : Type) (entries : list (entry A)) words positions w bytes q : nested_page d entries (N.of_nat w :: bytes) q ->
  map (fun i => nth_error words (N.to_nat i)) positions = map Some (stored_values entries) -> positions_laid w positions bytes ->
  exists dy, dy_try_new m q words = Ok dy /\ exists positions unused, yields (hr_next m) (fun _ _ => True) (dy_indexes dy) (positions ++ unused) /\
        map (fun i => nth_error (dy_dict dy) (N.to_nat i)) positions = map Some (stored_values entries).
Proof.
  intros (_ & _ & _ & _ & Hn & H31 & rep & def & Hparts & _) Hpos Hl.
  assert (Hlen : length positions = length (stored_values entries)) by (pose proof (f_equal (@length _) Hpos) as E; rewrite !map_length in E; exact E).
  pose proof (stored_le entries) as Hle. change (2 ^ 31) with 2147483648 in H31.
  destruct (laid_decoder m q rep def w positions bytes Hl Hparts) as (s & extra & Es & Hx & Hy);
    [rewrite Hn; unfold nlen; lia | rewrite Hn; change (2 ^ 56) with 72057594037927936; lia|].
  exists (mk_dictionary s words). unfold dy_try_new. rewrite Es. split; [reflexivity|]. exists positions, extra. split; [|exact Hpos]. eapply yields_weaken; [|exact Hy]. trivial.
Qed.

Lemma nested_decodes k m d dict p entries : column_of k d -> stores_nested k d dict p entries -> decodes_nested k m dict (page_as_read d p) entries.
Proof.
  intros Hk Hs. destruct Hs as [p entries bytes He Hb Hc|p entries words positions w bytes Hnb Hd He Hpos Hl Hc|p words Hd Hb Hn]; cbn [page_as_read decodes_nested di_buffer di_num_values].
  - apply nested_page_rows with (rows := None) in Hc. set (q := mk_dp (dp_header p) (dp_buffer p) d None) in *.
    assert (Hq : dp_encoding q = Ok EPlain) by exact He. assert (Hqd : dp_descriptor q = d) by reflexivity. clearbody q. clear He p. rewrite Hqd.
    destruct (nested_levels m _ _ _ _ Hc) as (rep & def & Es & Rr & Rd & v & Ev & Hv).
    exists rep, def, bytes, (map en_rep entries), (map en_def entries), (stored_values entries).
    split; [exact Es|]. split; [exact Rr|]. split; [exact Rd|]. split; [rewrite !map_length; reflexivity|].
    pose proof Hc as (_ & _ & _ & Hok & Hnum & H31 & _). split; [apply assemble_entries; exact Hok|]. split; [exact Hok|].
    destruct k as [t| |size|].
    + destruct Hb as (Hv' & ->). destruct (native_page_roundtrip t _ Hv') as (it & Ei & Hy). unfold native_try_new, native_cast. rewrite Hq, Es. cbn [bind]. rewrite Ei.
      assert (Hy' : yields (cast_next t) (fun _ _ => True) it (map (fun v => v) (stored_values entries))) by (rewrite map_id; eapply yields_weaken; [|exact Hy]; trivial).
      destruct (is_optional q); [rewrite Ev; cbn [bind]|]; eexists; (split; [reflexivity|]); cbn [handed_out]; [split; [exact Hv|exact Hy']|exact Hy'].
    + destruct Hb as (Hv' & ->). unfold binary_try_new. rewrite Hq, Es. cbn [bind].
      destruct (is_optional q); [rewrite Ev; cbn [bind]|]; eexists; (split; [reflexivity|]); cbn [handed_out]; [split; [exact Hv|]|]; apply bi_roundtrip_any; exact Hv'.
    + destruct Hb as (Hsz & Hv' & ->). destruct (fixed_yields size _ Hsz Hv') as (Ei & Hy). unfold fixed_try_new. rewrite Hqd, Hk, Hq, Es. cbn [bind]. rewrite Ei.
      assert (Hy' : yields fl_next (fun _ _ => True) (concat (stored_values entries), N.to_nat size) (map (fun v => v) (stored_values entries))) by (rewrite map_id; exact Hy).
      destruct (is_optional q); [rewrite Ev; cbn [bind]|]; eexists; (split; [reflexivity|]); cbn [handed_out]; [split; [exact Hv|exact Hy']|exact Hy'].
    + destruct Hb as (fill & Hfill & Hb). cbn [value] in *. unfold boolean_try_new. rewrite Hq, Es. cbn [bind]. destruct (is_optional q).
      * rewrite Ev. cbn [bind]. unfold umul.
        assert (Hlen : (8 * length bytes = length (stored_values entries) + fill)%nat) by (rewrite <- bit_stream_length, Hb, app_length, repeat_length; reflexivity).
        pose proof (stored_le entries) as Hle. change (2 ^ 31) with 2147483648 in H31.
        replace (nlen bytes * 8 <? 2 ^ 64) with true by (unfold nlen in *; change (2 ^ 64) with 18446744073709551616; lia). cbn [bind].
        replace (nlen bytes * 8) with (N.of_nat (8 * length bytes)) by (unfold nlen; lia).
        destruct (bm_new_spec bytes 0 (8 * length bytes)) as (it & Ei & Hy); [lia|]. cbn [skipn] in Hy. rewrite firstn_all2 in Hy by (rewrite bit_stream_length; lia).
        rewrite Ei. cbn [bind]. eexists. split; [reflexivity|]. cbn [handed_out_boolean]. split; [exact Hv|]. exists (repeat false fill). rewrite <- Hb. eapply yields_weaken; [|exact Hy]. trivial.
      * eexists. split; [reflexivity|]. cbn [handed_out_boolean]. exists (repeat false fill). exact Hb.
  - apply nested_page_rows with (rows := None) in Hc. set (q := mk_dp (dp_header p) (dp_buffer p) d None) in *.
    assert (Hq : dp_encoding q = Ok EPlainDictionary \/ dp_encoding q = Ok ERleDictionary) by exact He. assert (Hqd : dp_descriptor q = d) by reflexivity.
    clearbody q. clear He p. subst dict. rewrite Hqd.
    destruct (nested_levels m _ _ _ _ Hc) as (rep & def & Es & Rr & Rd & v & Ev & Hv).
    destruct (nested_dict_page m d _ entries words positions w bytes q Hc Hpos Hl) as (dy & Ed & Hdy).
    eexists rep, def, _, (map en_rep entries), (map en_def entries), (stored_values entries).
    split; [exact Es|]. split; [exact Rr|]. split; [exact Rd|]. split; [rewrite !map_length; reflexivity|].
    pose proof Hc as (_ & _ & _ & Hok & _). split; [apply assemble_entries; exact Hok|]. split; [exact Hok|].
    destruct k as [t| |size|]; [| | |congruence]; cbn [value] in *;
      [unfold native_try_new | unfold binary_try_new | unfold fixed_try_new; rewrite Hqd, Hk];
      (destruct (is_optional q); destruct Hq as [-> | ->]; cbn [bind]; try rewrite Ev; cbn [bind]; rewrite Ed; cbn [bind]; eexists; (split; [reflexivity|]); cbn [handed_out]; [split; [exact Hv|exact Hdy]..|exact Hdy|exact Hdy]).
  - split; [reflexivity|]. exists words. auto.
Qed.

(** ** What the iterators give is unique *)
Lemma yields_fun {S A} (next : S -> res (option A * S)) P Q s a : yields next P s a -> forall b, yields next Q s b -> a = b.
Proof.
  induction 1 as [s s' _ E|s s' x l _ E _ IH]; intros b Hb; inversion Hb as [t t' _ E' |t t' y r _ E' Hr]; subst; rewrite E in E'; [reflexivity|discriminate E'|discriminate E'|].
  apply Ok_inj in E'. injection E' as <- <-. f_equal. apply IH, Hr.
Qed.
Lemma levels_read_fun m bytes max n a b : levels_read m bytes max n a -> levels_read m bytes max n b -> a = b.
Proof. intros (s & E & Ha) (t & E' & Hb). rewrite E in E'. apply Ok_inj in E'. subst t. eapply yields_fun; eassumption. Qed.
Lemma assemble_more {A} d levels : forall (a r : list A), Forall (entry_ok d) (assemble (d_max_def d) levels a) -> assemble (d_max_def d) levels (a ++ r) = assemble (d_max_def d) levels a.
Proof.
  induction levels as [|[rl dl] levels IH]; intros a r; [reflexivity|]. cbn [assemble]. destruct (Z.eqb_spec (Z.of_N dl) (d_max_def d)) as [E|E]; intros H; inversion H as [|? ? H1 H2]; subst.
  - destruct H1 as (_ & _ & H1). cbn [en_value en_def] in H1. destruct a as [|x a]; [exfalso; apply (proj2 H1 E); reflexivity|]. cbn [app nth_error skipn] in *. f_equal. apply IH, H2.
  - f_equal. apply IH, H2.
Qed.
Lemma map_some_inj {A} : forall a b : list A, map Some a = map Some b -> a = b.
Proof. induction a as [|x a IH]; intros [|y b] H; try discriminate H; [reflexivity|]. injection H as -> H. f_equal. apply IH, H. Qed.
Lemma prefix_split {A} (a b u v : list A) : a ++ u = b ++ v -> exists r, b = a ++ r \/ a = b ++ r.
Proof.
  revert b. induction a as [|x a IH]; intros [|y b] H; cbn [app] in *.
  - exists []. left. reflexivity.
  - exists (y :: b). left. reflexivity.
  - exists (x :: a). right. reflexivity.
  - injection H as -> H. destruct (IH b H) as (r & [-> | ->]); exists r; [left|right]; reflexivity.
Qed.
Lemma map_some_split {A B} (f : B -> option A) p r : forall a c, map f p = map Some a -> map f (p ++ r) = map Some c -> exists q, c = a ++ q.
Proof.
  intros a c Ha Hc. rewrite map_app, Ha in Hc. exists (skipn (length a) c).
  assert (E : a = firstn (length a) c).
  { apply map_some_inj. rewrite <- firstn_map, <- Hc, firstn_app, map_length, Nat.sub_diag. cbn [firstn]. rewrite app_nil_r. symmetry. apply firstn_all2. rewrite map_length. lia. }
  rewrite E at 1. symmetry. apply firstn_skipn.
Qed.
Definition comparable {A} (a b : list A) := exists r, b = a ++ r \/ a = b ++ r.
Lemma positions_comparable {A} m (dy : dictionary (list A)) a b :
  (exists positions unused, yields (hr_next m) (fun _ _ => True) (dy_indexes dy) (positions ++ unused) /\ map (fun i => nth_error (dy_dict dy) (N.to_nat i)) positions = map Some a) ->
  (exists positions unused, yields (hr_next m) (fun _ _ => True) (dy_indexes dy) (positions ++ unused) /\ map (fun i => nth_error (dy_dict dy) (N.to_nat i)) positions = map Some b) -> comparable a b.
Proof.
  intros (p & u & Hy & Ha) (q & v & Hy' & Hb). pose proof (yields_fun _ _ _ _ _ Hy _ Hy') as E. destruct (prefix_split _ _ _ _ E) as (r & [-> | ->]).
  - destruct (map_some_split _ _ _ _ _ Ha Hb) as (t & ->). exists t. left. reflexivity.
  - destruct (map_some_split _ _ _ _ _ Hb Ha) as (t & ->). exists t. right. reflexivity.
Qed.
Lemma handed_comparable {V A I} m max defs (next : V -> res (option I * V)) (item : A -> I) (st : page_state V (list A)) a b :
  (forall x y, item x = item y -> x = y) -> handed_out m max defs next item st a -> handed_out m max defs next item st b -> comparable a b.
Proof.
  intros Hi. assert (Hm : forall a b : list A, map item a = map item b -> comparable a b).
  { intros x y E. exists []. left. rewrite app_nil_r. revert x E. induction y as [|y0 y IH]; intros [|x0 x] E; try discriminate E; [reflexivity|]. injection E as E0 E. f_equal; [symmetry; apply Hi, E0|apply IH, E]. }
  destruct st as [v it|it|dy|v dy]; cbn [handed_out].
  - intros [_ Ha] [_ Hb]. apply Hm. eapply yields_fun; eassumption.
  - intros Ha Hb. apply Hm. eapply yields_fun; eassumption.
  - apply positions_comparable.
  - intros [_ Ha] [_ Hb]. eapply positions_comparable; eassumption.
Qed.
Lemma assemble_comparable {A} d levels (a b : list A) : comparable a b -> Forall (entry_ok d) (assemble (d_max_def d) levels a) -> Forall (entry_ok d) (assemble (d_max_def d) levels b) ->
  assemble (d_max_def d) levels a = assemble (d_max_def d) levels b.
Proof. intros (r & [-> | ->]) Ha Hb; [symmetry|]; apply assemble_more; assumption. Qed.
Lemma decodes_nested_fun k m dict p e1 e2 : decodes_nested k m dict p e1 -> decodes_nested k m dict p e2 -> e1 = e2.
Proof.
  destruct p as [q|q]; cbn [decodes_nested]; [|intros [-> _] [-> _]; reflexivity].
  intros (rep & def & vals & reps & defs & vs & Es & Rr & Rd & _ & E & Hok & H) (rep' & def' & vals' & reps' & defs' & vs' & Es' & Rr' & Rd' & _ & E' & Hok' & H').
  rewrite Es in Es'. apply Ok_inj in Es'. injection Es' as <- <- <-. rewrite <- (levels_read_fun _ _ _ _ _ _ Rr Rr') in *. rewrite <- (levels_read_fun _ _ _ _ _ _ Rd Rd') in *.
  subst e1 e2. apply assemble_comparable; [|assumption|assumption]. destruct k as [t| |size|].
  - destruct H as (st & Hst & H), H' as (st' & Hst' & H'). rewrite Hst in Hst'. apply Ok_inj in Hst'. subst st'. eapply handed_comparable; [|exact H|exact H']. trivial.
  - destruct H as (st & Hst & H), H' as (st' & Hst' & H'). rewrite Hst in Hst'. apply Ok_inj in Hst'. subst st'. eapply handed_comparable; [|exact H|exact H']. intros x y [=]. assumption.
  - destruct H as (st & Hst & H), H' as (st' & Hst' & H'). rewrite Hst in Hst'. apply Ok_inj in Hst'. subst st'. eapply handed_comparable; [|exact H|exact H']. trivial.
  - destruct H as (st & Hst & H), H' as (st' & Hst' & H'). rewrite Hst in Hst'. apply Ok_inj in Hst'. subst st'. destruct st as [v it|bytes n]; cbn [handed_out_boolean] in *.
    + destruct H as (_ & u & H), H' as (_ & u' & H'). eapply prefix_split, yields_fun; eassumption.
    + destruct H as (u & H), H' as (u' & H'). rewrite H in H'. eapply prefix_split, H'.
Qed.
