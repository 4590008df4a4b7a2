(** Lemmas about pages of values. *)
From Verif Require Import Base.Prelude Base.LeFacts Base.Iter Spec.Bits Spec.RleSpec Spec.RowsSpec Spec.LevelsSpec
  Spec.PageSpec Spec.PlainSpec Spec.CompressionSpec Spec.ValuesSpec
  Model.Types Model.Native Model.Thrift Model.Intervals Model.Uleb128 Model.Bitpacked Model.HybridRle Model.Plain Model.Page Model.Deserialize
  Proofs.BitsFacts Proofs.BitpackedProofs Proofs.HybridRleProofs Proofs.HybridEncProofs Proofs.BitmapProofs Proofs.PageProofs Proofs.PlainProofs
  Proofs.SliceProofs Proofs.FilteredProofs Proofs.LevelsProofs Props.HybridRle Props.Plain Props.Deserialize.
Open Scope N_scope.

(** ** Cells *)

Lemma levels_length {A} (cells : list (option A)) : length (levels_of cells) = length cells.
Proof. apply map_length. Qed.
Lemma levels_count {A} (cells : list (option A)) : count_true (levels_of cells) = length (present cells).
Proof. induction cells as [|[v|] l IH]; cbn [levels_of map count_true present flat_map app length]; [ reflexivity | | ]; fold (levels_of l); fold (present l); rewrite IH; reflexivity. Qed.
Lemma levels_pair {A} (cells : list (option A)) : pair_values (levels_of cells) (present cells) = cells.
Proof. induction cells as [|[v|] l IH]; cbn [levels_of map pair_values present flat_map app]; [ reflexivity | | ]; fold (levels_of l); fold (present l); rewrite IH; reflexivity. Qed.
Lemma pair_values_map {A B} (f : A -> B) levels vs : pair_values levels (map f vs) = map (option_map f) (pair_values levels vs).
Proof. revert vs. induction levels as [|[] l IH]; intros vs; cbn [pair_values map]; [ reflexivity | | rewrite IH; reflexivity ]. destruct vs; cbn [map pair_values option_map]; [ rewrite <- IH; reflexivity | rewrite IH; reflexivity ]. Qed.
Lemma present_required {A} (cells : list (option A)) : ~ In None cells -> cells = map Some (present cells).
Proof.
  induction cells as [|[v|] l IH]; intros H; [ reflexivity | | exfalso; apply H; left; reflexivity ].
  cbn [present flat_map app map]. f_equal. apply IH. intros Hin. apply H. right. exact Hin.
Qed.
Lemma present_le {A} (cells : list (option A)) : (length (present cells) <= length cells)%nat.
Proof. rewrite <- levels_count, <- levels_length. induction (levels_of cells) as [|[] l IH]; cbn [count_true length]; lia. Qed.

(** ** Positions in a dictionary *)

Lemma encode_u32_readable w l out : (0 < w <= 32)%nat -> Forall (fits w) l -> nlen l < 2 ^ 56 -> encode_u32 l (N.of_nat w) = Ok out ->
  exists extra, readable w (l ++ extra) out /\ nlen out < 2 ^ 61.
Proof.
  intros Hw Hf Hn H. unfold nlen in Hn. change (2 ^ 56) with 72057594037927936 in Hn. change (2 ^ 61) with 2305843009213693952.
  unfold encode_u32 in H. destruct (bitpacked_header_spec (length l)) as (h & Eh & Hh); [ change (2 ^ 61) with 2305843009213693952; lia | ].
  rewrite Eh in H. cbn [bind] in H. rewrite N.mod_small in H by lia. rewrite Nat2N.id in H.
  destruct (bitpacked_encode_u32_spec w l Hw Hf) as (body & Eo & Hlo & Hoo & Hle). rewrite Eo in H. cbn [bind] in H. apply Ok_inj in H. subst out.
  pose proof (ceil8_ge (length l * w)) as [Hc1 Hc2]. pose proof (ceil8_ge (length l)) as [Hd1 Hd2].
  assert (Hh10 : (length h <= 10)%nat) by (destruct Hh as (_ & Hh & _); exact Hh).
  assert (Hlw : (length l * w <= length l * 32)%nat) by (apply Nat.mul_le_mono_l; lia).
  assert (Hsz : nlen (h ++ body) < 2305843009213693952) by (rewrite nlen_app; unfold nlen; lia).
  destruct (Nat.eq_dec (length body) 0) as [E0|E0].
  - assert (l = []) as -> by (destruct l; [ reflexivity | cbn [length] in *; lia ]). apply length_zero_iff_nil in E0. subst body.
    exists []. cbn [app]. rewrite app_nil_r in *. split; [ eapply rb_header; exact Hh | exact Hsz ].
  - assert (Hg : readable w (map (fun i => bit_field w i body) (seq 0 (8 * length body / w)) ++ []) (h ++ body ++ [])).
    { assert (Hgw : N.of_nat (ceil8 (length l)) * N.of_nat w <= N.of_nat (ceil8 (length l)) * 32) by (apply N.mul_le_mono_l; lia).
      apply rb_packed with (groups := N.of_nat (ceil8 (length l))).
      - exact Hh.
      - change (2 ^ 64) with 18446744073709551616. lia.
      - exact Hoo.
      - rewrite app_nil_r. intros E. apply E0. rewrite E. reflexivity.
      - rewrite app_nil_r. rewrite N.min_r; [ reflexivity | ]. unfold nlen. rewrite Hlo. clear - Hc2 Hd1 Hw.
        assert (length l * w <= 8 * ceil8 (length l) * w)%nat by (apply Nat.mul_le_mono_r; lia). nia.
      - constructor. }
    rewrite !app_nil_r in Hg.
    assert (Hlen : (length l <= 8 * length body / w)%nat) by (apply Nat.div_le_lower_bound; lia).
    exists (map (fun i => bit_field w i body) (seq (length l) (8 * length body / w - length l))). split; [ | exact Hsz ].
    replace (l ++ _) with (map (fun i => bit_field w i body) (seq 0 (8 * length body / w))); [ exact Hg | ].
    replace (8 * length body / w)%nat with (length l + (8 * length body / w - length l))%nat at 1 by lia. rewrite seq_app, map_app. f_equal.
    apply nth_ext with 0 0; [ rewrite map_length, seq_length; reflexivity | ]. intros i Hi. rewrite map_length, seq_length in Hi.
    rewrite (nth_indep _ 0 (bit_field w (8 * length body) body)) by (rewrite map_length, seq_length; exact Hi).
    rewrite (map_nth (fun i => bit_field w i body)). 
    rewrite nth_indep with (d' := 0%nat) by (rewrite seq_length; exact Hi). rewrite seq_nth by exact Hi. cbn [Nat.add].
    rewrite bit_field_le by assumption. rewrite <- (mod_div_field (le body) w i (length l * w)) by nia. rewrite Hle.
    rewrite <- (pval_nth w l i 0 Hf Hi). rewrite N.mul_0_r, N.add_0_r. reflexivity.
Qed.

Lemma positions_decoder m p rep def w positions bytes : encode_u32 positions (N.of_nat w) = Ok bytes -> page_parts p rep def (N.of_nat w :: bytes) ->
  (w <= 32)%nat -> Forall (fits w) positions -> nlen positions <= dp_num_values p -> dp_num_values p < 2 ^ 56 ->
  exists s extra, dict_indices_decoder m p = Ok s /\ nlen (positions ++ extra) = dp_num_values p /\
    yields (hr_next m) (fun s rest => hr_size_hint s = nlen rest) s (positions ++ extra).
Proof.
  intros He Hp Hw Hf Hn H56. unfold dict_indices_decoder. rewrite (split_parts m p _ _ _ Hp). cbn [bind]. replace (32 <? N.of_nat w) with false by lia. rewrite Nat2N.id.
  set (n := N.to_nat (dp_num_values p)). replace (dp_num_values p) with (N.of_nat n) by (unfold n; lia).
  assert (Hn' : (length positions <= n)%nat) by (unfold n, nlen in *; lia).
  destruct (Nat.eq_dec w 0) as [-> |Hw0].
  - destruct (hr_zero_bits m bytes n) as (s & Es & Hy). exists s, (repeat 0 (n - length positions)). split; [ exact Es | ].
    assert (E : repeat 0 n = positions ++ repeat 0 (n - length positions)).
    { replace n with (length positions + (n - length positions))%nat at 1 by lia. rewrite repeat_app. f_equal.
      clear - Hf. induction Hf as [|x l Hx _ IH]; [ reflexivity | ]. cbn [length repeat]. rewrite IH. unfold fits in Hx. cbn in Hx. f_equal. lia. }
    rewrite <- E. split; [ unfold nlen; rewrite repeat_length; reflexivity | exact Hy ].
  - destruct (encode_u32_readable w positions bytes) as (extra & Hr & Hsz); [ lia | exact Hf | lia | exact He | ].
    destruct (hr_decodes_readable m w _ bytes n ltac:(lia) Hr Hsz) as (s & Es & Hy).
    rewrite <- app_assoc, firstn_app in Hy. rewrite (firstn_all2 (n := n)) in Hy by lia.
    exists s, (firstn (n - length positions) (extra ++ repeat 0 n)). split; [ exact Es | ]. split; [ | exact Hy ].
    unfold nlen. rewrite app_length, firstn_length, app_length, repeat_length. lia.
Qed.

(** ** Pages of cells *)

Lemma cells_page_as_read {A} d (cells : list (option A)) values p : cells_page d cells values p -> cells_page d cells values (mk_dp (dp_header p) (dp_buffer p) d None).
Proof.
  intros (Hd & Hr & Hn & H31 & def & Hp & Hdef). split; [ reflexivity | ]. split; [ exact Hr | ]. split; [ exact Hn | ]. split; [ exact H31 | ].
  exists def. split; [ | exact Hdef ]. unfold page_parts in *. cbn [dp_header dp_buffer dp_descriptor]. rewrite Hd in Hp. exact Hp.
Qed.
Lemma cells_page_cases {A} d (cells : list (option A)) values p : cells_page d cells values p ->
  (fi_repetition (pt_info (d_primitive d)) = Optional /\ is_optional p = true /\ optional_page p (levels_of cells) values) \/
  (fi_repetition (pt_info (d_primitive d)) = Required /\ is_optional p = false /\ required_page p values /\ cells = map Some (present cells) /\ dp_num_values p = nlen (present cells)).
Proof.
  intros (Hd & Hr & Hn & H31 & def & Hp & Hdef). unfold is_optional. rewrite Hd.
  destruct (fi_repetition (pt_info (d_primitive d))) eqn:E; [ right | left | destruct Hdef ].
  - destruct Hdef as (_ & -> & Hin). pose proof (present_required _ Hin) as Ec. split; [ reflexivity | ]. split; [ reflexivity | ]. split; [ | split; [ exact Ec | ] ].
    + split; [ unfold is_optional; rewrite Hd, E; reflexivity | ]. exists [], []. exact Hp.
    + rewrite Hn. rewrite Ec at 1. unfold nlen. rewrite map_length. reflexivity.
  - destruct Hdef as (Hm & Hdef). split; [ reflexivity | ]. split; [ reflexivity | ].
    exists [], def. split; [ exact Hp | ]. split; [ exact Hdef | ]. rewrite Hd. split; [ exact Hm | ]. split; [ unfold is_optional; rewrite Hd, E; reflexivity | ].
    assert (En : nlen (levels_of cells) = nlen cells) by (unfold nlen; rewrite levels_length; reflexivity). rewrite En. split; [ exact Hn | ].
    change (2 ^ 60) with 1152921504606846976. change (2 ^ 31) with 2147483648 in H31. lia.
Qed.

(** The iterators of a page of plain values, once the values are split off. *)
Lemma plain_followed {V A I P} m (next : V -> res (option I * V)) (item : A -> I) (Q : V -> list I -> Prop) d (cells : list (option A)) values p it (st : def_levels -> page_state V P) :
  cells_page d cells values p -> yields next Q it (map item (present cells)) ->
  (is_optional p = true -> exists ri, dl_try_new m p = Ok (DBitmap ri) /\
     yields (ov_next (bl_next (ri_next m)) next) (fun _ _ => True) (bl_new ri, it) (map (fun c => inl (option_map item c)) cells)) /\
  (is_optional p = false -> exists vs, cells = map Some vs /\ yields next (fun _ _ => True) it (map item vs)).
Proof.
  intros Hc Hy. destruct (cells_page_cases _ _ _ _ Hc) as [(_ & Ho & Hp)|(_ & Ho & Hp & Ec & _)]; rewrite Ho; split; try discriminate; intros _.
  - destruct (validity_of m p _ _ Hp) as (ri & Ev & Hv). exists ri. split; [ exact Ev | ].
    destruct (optional_values _ _ _ _ next _ _ _ _ _ _ Hv Hy) as (Hz & _); [ rewrite map_length, levels_count; lia | ].
    rewrite pair_values_map, levels_pair, map_map in Hz. exact Hz.
  - exists (present cells). split; [ exact Ec | ]. eapply yields_weaken; [ | exact Hy ]. trivial.
Qed.

Lemma required_split m p values : required_page p values -> exists rep def, split_buffer m p = Ok (rep, def, values).
Proof. intros (_ & rep & def & H). exists rep, def. apply split_parts. exact H. Qed.
Lemma cells_split {A} m d (cells : list (option A)) values p : cells_page d cells values p -> exists rep def, split_buffer m p = Ok (rep, def, values).
Proof. intros (_ & _ & _ & _ & def & H & _). exists [], def. apply split_parts. exact H. Qed.

(** Dictionary pages, for the three kinds of pages that can be dictionary-encoded. *)
Lemma positions_followed {V A I} m (next : V -> res (option I * V)) (item : A -> I) d (cells : list (option A)) entries positions w bytes p :
  map (fun i => nth_error entries (N.to_nat i)) positions = map Some (present cells) -> (w <= 32)%nat -> Forall (fits w) positions ->
  encode_u32 positions (N.of_nat w) = Ok bytes -> cells_page d cells (N.of_nat w :: bytes) p ->
  exists dy, dy_try_new m p entries = Ok dy /\
    ((is_optional p = true /\ exists ri, dl_try_new m p = Ok (DBitmap ri) /\ followed m next item (PsOptionalDictionary (DBitmap ri) dy) cells) \/
     (is_optional p = false /\ followed m next item (PsRequiredDictionary dy) cells)).
Proof.
  intros Hpos Hw Hf He Hc. pose proof Hc as (_ & _ & Hn & H31 & def & Hparts & _).
  assert (Hlen : length positions = length (present cells)) by (pose proof (f_equal (@length _) Hpos) as E; rewrite !map_length in E; exact E).
  pose proof (present_le cells) as Hle. change (2 ^ 31) with 2147483648 in H31.
  destruct (positions_decoder m p [] def w positions bytes He Hparts Hw Hf) as (s & extra & Es & Hx & Hy);
    [ rewrite Hn; unfold nlen; lia | rewrite Hn; change (2 ^ 56) with 72057594037927936; lia | ].
  exists (mk_dictionary s entries). unfold dy_try_new. rewrite Es. split; [ reflexivity | ]. cbn [followed dy_indexes dy_dict].
  destruct (cells_page_cases _ _ _ _ Hc) as [(_ & Ho & Hp)|(_ & Ho & Hp & Ec & Hnp)]; [ left | right ]; (split; [ exact Ho | ]).
  - destruct (validity_of m p _ _ Hp) as (ri & Ev & Hv). exists ri. split; [ exact Ev | ]. exists (pair_values (levels_of cells) positions). split.
    + rewrite <- (pair_values_app (levels_of cells) positions extra) by (rewrite levels_count; lia).
      apply (optional_values _ _ _ _ (hr_next m) _ _ _ _ _ _ Hv Hy). rewrite levels_count, app_length. lia.
    + clear - Hpos. revert positions Hpos. induction cells as [|[v|] l IH]; intros positions Hpos; cbn [levels_of map pair_values present flat_map app] in *;
        [ constructor | fold (levels_of l) in *; fold (present l) in * | fold (levels_of l) in *; fold (present l) in * ].
      * destruct positions as [|i positions]; [ discriminate Hpos | ]. cbn [map] in Hpos. injection Hpos as Hi Hpos. constructor; [ rewrite Hi; split; [ reflexivity | discriminate ] | apply IH; exact Hpos ].
      * constructor; [ reflexivity | apply IH; exact Hpos ].
  - exists positions. rewrite Hpos. split; [ exact Ec | ]. split; [ rewrite Ec; intros H; apply in_map_iff in H as (? & H & _); discriminate H | ].
    assert (extra = []) as ->. { apply length_zero_iff_nil. rewrite Hnp in Hx. unfold nlen in Hx. rewrite app_length in Hx. lia. }
    rewrite app_nil_r in Hy. eapply yields_weaken; [ | exact Hy ]. trivial.
Qed.

Lemma fixed_yields size vs : 0 < size -> Forall (fun s => nlen s = size) vs ->
  fl_new (concat vs) size = Ok (concat vs, N.to_nat size) /\ yields fl_next (fun _ _ => True) (concat vs, N.to_nat size) vs.
Proof.
  intros Hs Hv. unfold fl_new, ce_new. destruct (Nat.eqb_spec (N.to_nat size) 0); [ lia | ]. split; [ reflexivity | ].
  pose proof (ce_yields (N.to_nat size) vs []) as H. rewrite app_nil_r in H. unfold fl_next. eapply yields_weaken; [ | apply H ]; [ trivial | lia | | cbn [length]; lia ].
  eapply Forall_impl; [ | exact Hv ]. intros x E. cbn beta in E. unfold nlen in E. lia.
Qed.

Lemma boolean_decodes m d cells bytes p : dp_encoding p = Ok EPlain -> plain_bytes KBoolean (present cells) bytes -> cells_page d cells bytes p ->
  exists st, boolean_try_new m p = Ok st /\ followed_boolean m st cells.
Proof.
  intros He (fill & Hfill & Hb) Hc. cbn [value] in *. destruct (cells_split m _ _ _ _ Hc) as (rep & def & Esp). unfold boolean_try_new. rewrite He. cbn [bind].
  pose proof Hc as (_ & _ & Hn & H31 & _). change (2 ^ 31) with 2147483648 in H31. pose proof (present_le cells) as Hple.
  assert (Hlen : (8 * length bytes = length (present cells) + fill)%nat) by (rewrite <- bit_stream_length, Hb, app_length, repeat_length; reflexivity).
  destruct (cells_page_cases _ _ _ _ Hc) as [(_ & Ho & Hp)|(_ & Ho & Hp & Ec & Hnp)]; rewrite Ho.
  - destruct (validity_of m p _ _ Hp) as (ri & Ev & Hv). rewrite Ev. cbn [bind]. rewrite Esp. cbn [bind]. unfold umul.
    replace (nlen bytes * 8 <? 2 ^ 64) with true by (unfold nlen in *; change (2 ^ 64) with 18446744073709551616; lia). cbn [bind].
    replace (nlen bytes * 8) with (N.of_nat (8 * length bytes)) by (unfold nlen; lia).
    destruct (bm_new_spec bytes 0 (8 * length bytes)) as (it & Ei & Hy); [ lia | ]. cbn [skipn] in Hy. rewrite firstn_all2 in Hy by (rewrite bit_stream_length; lia).
    rewrite Ei. cbn [bind]. eexists. split; [ reflexivity | ]. cbn [followed_boolean]. rewrite Hb in Hy.
    rewrite <- (levels_pair cells) at 1. rewrite <- (pair_values_app _ _ (repeat false fill)) by (rewrite levels_count; lia).
    apply (optional_values _ _ _ _ bm_next _ _ _ _ _ _ Hv Hy). rewrite levels_count, app_length. lia.
  - rewrite Esp. cbn [bind]. eexists. split; [ reflexivity | ]. cbn [followed_boolean]. rewrite Hnp, Hb. unfold nlen. rewrite Nat2N.id.
    rewrite firstn_app, Nat.sub_diag, firstn_all. cbn [firstn]. rewrite app_nil_r, app_length. split; [ exact Ec | lia ].
Qed.

Lemma stored_decodes k m d dict p cells : column_of k d -> stores k d dict p cells -> decodes k m dict (page_as_read d p) cells.
Proof.
  intros Hk Hs. destruct Hs as [p cells bytes He Hb Hc|p cells entries positions w bytes Hnb Hd He Hpos Hw Hf Hen Hc|p entries Hd Hb Hn]; cbn [page_as_read decodes di_buffer di_num_values].
  - apply cells_page_as_read in Hc. set (q := mk_dp (dp_header p) (dp_buffer p) d None) in *.
    assert (Hq : dp_encoding q = Ok EPlain) by exact He. assert (Hqd : dp_descriptor q = d) by reflexivity. clearbody q. clear He p.
    destruct (cells_split m _ _ _ _ Hc) as (rep & def & Esp). destruct k as [t| |size|].
    + destruct Hb as (Hv & ->). destruct (native_page_roundtrip t _ Hv) as (it & Ei & Hy).
      rewrite <- (map_id (present cells)) in Hy. destruct (plain_followed (P := unit) m _ (fun v => v) _ _ _ _ _ _ (fun v => PsOptional v it) Hc Hy) as [H1 H2].
      unfold native_try_new, native_cast. rewrite Hq, Esp. cbn [bind]. rewrite Ei. destruct (is_optional q).
      * destruct (H1 eq_refl) as (ri & -> & Hz). cbn [bind]. eexists. split; [ reflexivity | ]. exact Hz.
      * eexists. split; [ reflexivity | ]. exact (H2 eq_refl).
    + destruct Hb as (Hv & ->). destruct (plain_byte_array_roundtrip _ Hv) as (Hy1 & Hy2). unfold binary_try_new. rewrite Hq, Esp. cbn [bind].
      destruct (cells_page_cases _ _ _ _ Hc) as [(_ & Ho & _)|(_ & Ho & _ & _ & Hnp)]; rewrite Ho.
      * destruct (plain_followed (P := unit) m _ inl _ _ _ _ _ _ (fun v => PsOptional v (mk_bi [] None)) Hc Hy2) as [H1 _].
        destruct (H1 Ho) as (ri & -> & Hz). cbn [bind]. eexists. split; [ reflexivity | ]. exact Hz.
      * destruct (plain_followed (P := unit) m _ inl _ _ _ _ _ _ (fun v => PsOptional v (mk_bi [] None)) Hc Hy1) as [_ H2].
        eexists. split; [ reflexivity | ]. rewrite Hnp. exact (H2 Ho).
    + destruct Hb as (Hsz & Hv & ->). destruct (fixed_yields size _ Hsz Hv) as (Ei & Hy). cbn [value] in *.
      rewrite <- (map_id (present cells)) in Hy at 2. destruct (plain_followed (P := unit) m _ (fun v => v) _ _ _ _ _ _ (fun v => PsOptional v (concat (present cells), N.to_nat size)) Hc Hy) as [H1 H2].
      unfold fixed_try_new. rewrite Hqd, Hk, Hq, Esp. cbn [bind]. rewrite Ei. destruct (is_optional q).
      * destruct (H1 eq_refl) as (ri & -> & Hz). cbn [bind]. eexists. split; [ reflexivity | ]. exact Hz.
      * eexists. split; [ reflexivity | ]. exact (H2 eq_refl).
    + eapply boolean_decodes; eassumption.
  - apply cells_page_as_read in Hc. set (q := mk_dp (dp_header p) (dp_buffer p) d None) in *.
    assert (Hq : dp_encoding q = Ok EPlainDictionary \/ dp_encoding q = Ok ERleDictionary) by exact He. assert (Hqd : dp_descriptor q = d) by reflexivity.
    clearbody q. clear He p. subst dict. destruct k as [t| |size|]; [ | | | congruence ]; cbn [value] in *.
    + destruct (positions_followed m (cast_next t) (fun v => v) _ _ _ _ _ _ _ Hpos Hw Hf Hen Hc) as (dy & Ed & [(Ho & ri & Ev & Hz)|(Ho & Hz)]);
        unfold native_try_new; rewrite Ho; destruct Hq as [-> | ->]; cbn [bind]; try rewrite Ev; cbn [bind]; rewrite Ed; cbn [bind]; eexists; (split; [ reflexivity | exact Hz ]).
    + destruct (positions_followed m bi_next inl _ _ _ _ _ _ _ Hpos Hw Hf Hen Hc) as (dy & Ed & [(Ho & ri & Ev & Hz)|(Ho & Hz)]);
        unfold binary_try_new; rewrite Ho; destruct Hq as [-> | ->]; cbn [bind]; try rewrite Ev; cbn [bind]; rewrite Ed; cbn [bind]; eexists; (split; [ reflexivity | exact Hz ]).
    + destruct (positions_followed m fl_next (fun v => v) _ _ _ _ _ _ _ Hpos Hw Hf Hen Hc) as (dy & Ed & [(Ho & ri & Ev & Hz)|(Ho & Hz)]);
        unfold fixed_try_new; rewrite Hqd, Hk, Ho; destruct Hq as [-> | ->]; cbn [bind]; try rewrite Ev; cbn [bind]; rewrite Ed; cbn [bind]; eexists; (split; [ reflexivity | exact Hz ]).
  - split; [ reflexivity | ]. exists entries. auto.
Qed.
