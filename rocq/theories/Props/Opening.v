(** C93: opening data pages for decoding. *)
From Verif Require Import Base.Prelude Base.LeFacts Base.Iter Spec.Bits Spec.UlebSpec Spec.PageSpec Spec.OpeningSpec
  Model.Types Model.Thrift Model.Native Model.Plain Model.Page Model.HybridRle Model.Schema Model.Deserialize
  Proofs.TypesFacts Proofs.PageProofs Proofs.OpeningProofs Props.Page.
Open Scope N_scope.

(** C93 is false in two ways. First, whether a page has nulls is decided by the leaf's own repetition, not by the column's levels.
    (So a repeated leaf is read as one without nulls, too.) Below, [optional group a { required int32 b }]: a page of three rows whose second is null is opened as a page without nulls,
    and its iterator returns two values. *)
Definition nested_leaf : column_descriptor :=
  mk_cdescr (mk_descr (mk_prim (mk_fi [98] Required None) None None Int32) 1 0) [[97]; [98]]
    (Group (mk_fi [97] Optional None) None None [Primitive (mk_prim (mk_fi [98] Required None) None None Int32)]).
Definition nested_page : data_page :=
  dp_new (HV1 (mk_tdh 3 0 3 3 None)) ([2; 0; 0; 0; 3; 5] ++ [7; 0; 0; 0; 9; 0; 0; 0]) (cd_descriptor nested_leaf) None.
Theorem nested_nulls_lost_refuted :
  sd_new Checked [114] [cd_base nested_leaf] = Ok (mk_sd [114] [cd_base nested_leaf] [nested_leaf]) /\
  page_parts nested_page [] [3; 5] [7; 0; 0; 0; 9; 0; 0; 0] /\ encode_bool [true; false; true] = Ok [3; 5] /\
  forall m, let it := ([7; 0; 0; 0; 9; 0; 0; 0], 4%nat) in native_try_new (P := unit) m NI32 nested_page None = Ok (PsRequired it) /\ drain (cast_next NI32) 3 it = Ok [7; 9]%Z.
Proof.
  split; [vm_compute; reflexivity|]. split; [vm_compute; repeat split|]. split; [vm_compute; reflexivity|].
  intros []; split; vm_compute; reflexivity.
Qed.
Print Assumptions nested_nulls_lost_refuted.

(** Second, opening can panic: an encoding the format does not know, a dictionary-encoded page without the width of its
    indices, an index section that ends within its first run, a column of strings of no bytes. *)
Definition an_int_page (code : Z) (buffer : list N) : data_page :=
  dp_new (HV1 (mk_tdh 3 code 3 3 None)) buffer (mk_descr (mk_prim (mk_fi [98] Required None) None None Int32) 0 0) None.
Theorem opening_panics_refuted : forall m,
  native_try_new (P := unit) m NI32 (an_int_page 1 []) None = Panic /\
  native_try_new m NI32 (an_int_page 8 []) (Some tt) = Panic /\
  native_try_new m NI32 (an_int_page 8 [9; 4; 1]) (Some tt) = Panic /\
  fixed_try_new (P := unit) m (dp_new (HV1 (mk_tdh 3 0 3 3 None)) [] (mk_descr (mk_prim (mk_fi [98] Required None) None None (FixedLenByteArray 0)) 0 0) None) None = Panic.
Proof. intros []; repeat split; vm_compute; reflexivity. Qed.
Print Assumptions opening_panics_refuted.

(** What opening comes to, for every page that splits into levels and values, every column and each of the four views
    ([page_opening] in Spec/OpeningSpec.v): opened with or without nulls and dictionary, refused, or a panic. *)
Theorem page_opens_exactly : forall D m k p (dict : option D) rep levels values,
  page_parts p rep levels values -> bytes_ok (dp_buffer p) -> nlen (dp_buffer p) < 2 ^ 61 ->
  (0 <= d_max_def (dp_descriptor p) < 2 ^ 15)%Z ->
  view_opened m k p dict = page_opening m k p (match dict with Some _ => true | None => false end) levels values.
Proof.
  intros D m k p dict rep levels values Hp Hok Hlen Hmax.
  assert (H : exists a b c, dp_buffer p = a ++ levels ++ b ++ values ++ c \/ (levels = [] /\ dp_buffer p = a ++ values)).
  { destruct Hp as [_ Hp]. destruct (dp_header p) as [h|h].
    - destruct Hp as (E & _ & Hd). unfold v1_layout, v1_levels, v1_part in *. destruct (0 <? d_max_def (dp_descriptor p))%Z.
      + exists ((if (0 <? d_max_rep (dp_descriptor p))%Z then to_le 4 (nlen rep) ++ rep else []) ++ to_le 4 (nlen levels)), [], []. left.
        rewrite E, app_nil_r. cbn [app]. rewrite <- !app_assoc. reflexivity.
      + exists (if (0 <? d_max_rep (dp_descriptor p))%Z then to_le 4 (nlen rep) ++ rep else []), [], []. right. split; [exact Hd|]. rewrite E. reflexivity.
    - destruct Hp as (E & _). exists rep, [], []. left. rewrite E, app_nil_r. reflexivity. }
  destruct H as (a & b & c & [E|[-> E]]); rewrite E in Hok, Hlen; unfold nlen in Hlen; rewrite !app_length in Hlen; apply bytes_ok_app in Hok as [_ Hok].
  - apply bytes_ok_app in Hok as [H1 Hok]. apply bytes_ok_app in Hok as [_ Hok]. apply bytes_ok_app in Hok as [H2 _].
    change (2 ^ 61) with 2305843009213693952 in Hlen.
    apply (view_opening m p rep levels values Hp H1 H2); [| |exact Hmax]; change (2 ^ 61) with 2305843009213693952; unfold nlen; clear - Hlen; lia.
  - change (2 ^ 61) with 2305843009213693952 in Hlen.
    apply (view_opening m p rep [] values Hp (Forall_nil _) Hok); [reflexivity| |exact Hmax]; change (2 ^ 61) with 2305843009213693952; unfold nlen; clear - Hlen; lia.
Qed.
Print Assumptions page_opens_exactly.

Example page_opens_exactly_case :
  let p := a_v1_page ([2; 0; 0; 0; 3; 13] ++ [3; 18; 5]) in
  let p := dp_new (HV1 (mk_tdh 4 8 3 3 None)) (dp_buffer p) (dp_descriptor p) None in
  page_parts p [] [3; 13] [3; 18; 5] /\ page_opening Checked (AsNative NI32) p true [3; 13] [3; 18; 5] = Opens true true /\
  page_opening Checked AsBinary p false [3; 13] [3; 18; 5] = Refuses FeatureNotSupported /\
  page_opening Checked AsFixed p true [3; 13] [3; 18; 5] = Refuses InvalidParameter /\
  page_opening Checked AsBoolean p true [3; 13] [3; 18; 5] = Refuses InvalidParameter /\
  page_opening Checked (AsNative NI32) (an_int_page 0 [1; 2; 3]) true [] [1; 2; 3] = Refuses OutOfSpec /\
  page_opening Checked (AsNative NI32) (an_int_page 8 [33; 2; 3]) true [] [33; 2; 3] = Refuses OutOfSpec /\
  page_opening Checked (AsNative NI32) (an_int_page 8 [9; 4; 1]) true [] [9; 4; 1] = Crashes.
Proof. vm_compute. repeat split. Qed.

(** A page that does not split into levels and values is not opened: plain pages, and dictionary-encoded pages with a dictionary, are
    refused with the error of splitting, or panic as splitting does (C38, C39). *)
Theorem unsplit_page_not_opened : forall D m k p (dict : option D),
  let code := header_encoding (dp_header p) in
  (code = 0 \/ ((code = 2 \/ code = 8) /\ dict <> None /\ k <> AsBoolean))%Z ->
  (k = AsFixed -> exists size, pt_physical (d_primitive (dp_descriptor p)) = FixedLenByteArray size) ->
  (forall e, split_buffer m p = Err e -> view_opened m k p dict = Refuses e) /\
  (split_buffer m p = Panic -> view_opened m k p dict = Crashes).
Proof.
  intros D m k p dict code Hc Hk.
  assert (G : forall (r : forall A, res A) (o : opening), (forall A B (f : A -> res B), bind (r A) f = r B) -> (forall V, opened (r (page_state V D)) = o) -> opened_boolean (r _) = o ->
      split_buffer m p = r _ -> view_opened m k p dict = o).
  { intros r o Hr Ho Hb Hs.
    assert (H1 : dl_try_new m p = r _) by (unfold dl_try_new; rewrite Hs; apply Hr).
    assert (H2 : forall t, native_cast m t p = r _) by (intro t; unfold native_cast; rewrite Hs; apply Hr).
    assert (H3 : forall d : D, dy_try_new m p d = r _) by (intro d; unfold dy_try_new, dict_indices_decoder; rewrite Hs, !Hr; reflexivity).
    destruct Hc as [Hc|([Hc|Hc] & Hd & Hkb)].
    - assert (He : dp_encoding p = Ok EPlain) by (unfold dp_encoding; fold code; rewrite Hc; reflexivity).
      unfold view_opened, native_try_new, binary_try_new, fixed_try_new, boolean_try_new. rewrite He. cbn [bind].
      destruct k; [| |destruct (Hk eq_refl) as [size ->]|]; (destruct (is_optional p); rewrite ?Hs, ?H1, ?H2, ?Hr; try apply Ho; apply Hb).
    - assert (He : dp_encoding p = Ok EPlainDictionary) by (unfold dp_encoding; fold code; rewrite Hc; reflexivity). destruct dict as [d|]; [|congruence].
      unfold view_opened, native_try_new, binary_try_new, fixed_try_new, boolean_try_new. rewrite He. cbn [bind].
      destruct k; [| |destruct (Hk eq_refl) as [size ->]|congruence]; (destruct (is_optional p); rewrite ?H1, ?H3, ?Hr; apply Ho).
    - assert (He : dp_encoding p = Ok ERleDictionary) by (unfold dp_encoding; fold code; rewrite Hc; reflexivity). destruct dict as [d|]; [|congruence].
      unfold view_opened, native_try_new, binary_try_new, fixed_try_new, boolean_try_new. rewrite He. cbn [bind].
      destruct k; [| |destruct (Hk eq_refl) as [size ->]|congruence]; (destruct (is_optional p); rewrite ?H1, ?H3, ?Hr; apply Ho). }
  split.
  - intros e Hs. apply (G (fun A => Err e) (Refuses e)); [reflexivity|reflexivity|reflexivity|exact Hs].
  - intros Hs. apply (G (fun A => Panic) Crashes); [reflexivity|reflexivity|reflexivity|exact Hs].
Qed.
Print Assumptions unsplit_page_not_opened.
Example unsplit_page_case :
  split_buffer Checked (a_v1_page [9; 0; 0; 0; 3; 13; 7; 0; 0; 0]) = Err OutOfSpec /\ header_encoding (dp_header (a_v1_page [9])) = 0%Z.
Proof. vm_compute. repeat split. Qed.
