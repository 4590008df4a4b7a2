(** Kinds of errors. *)
From Verif Require Import Base.Prelude Base.Iter Model.Compression Model.Types Model.Native Model.Thrift Model.Intervals Model.Uleb128 Model.Bitpacked
  Model.HybridRle Model.DeltaBitpacked Model.DeltaByteArray Model.Plain Model.Page Model.Io Model.Schema Model.Message Model.Statistics
  Model.Deserialize Model.PageRead Model.Metadata Model.Indexes
  Spec.ErrorsSpec Proofs.SchemaProofs.
Open Scope N_scope.

Lemma fails_bind {A B} K (x : res A) (f : A -> res B) : fails_as K x -> (forall a, fails_as K (f a)) -> fails_as K (let* a := x in f a).
Proof. intros Hx Hf e. destruct x as [a|e'|]; cbn [bind]; [apply Hf | intros [= <-]; apply Hx; reflexivity | discriminate]. Qed.
Lemma fails_ok {A} K (a : A) : fails_as K (Ok a).
Proof. intros e H. discriminate. Qed.
Lemma fails_panic {A} K : fails_as K (@Panic A).
Proof. intros e H. discriminate. Qed.
Lemma fails_err {A} (K : error -> Prop) e : K e -> fails_as K (@Err A e).
Proof. intros H e' [= <-]. exact H. Qed.
Lemma fails_weaken {A} (K L : error -> Prop) (r : res A) : (forall e, K e -> L e) -> fails_as K r -> fails_as L r.
Proof. intros H Hr e He. apply H, Hr, He. Qed.

Create HintDb mal.
#[export] Hint Resolve fails_ok fails_panic : mal.
Ltac mal :=
  repeat first
    [ progress (unfold malformed in *)
    | solve [ auto with mal ]
    | solve [ match goal with |- fails_as _ ?r => change (malformed r) end; auto with mal ]
    | apply fails_bind; [ | intros ? ]
    | apply fails_err; reflexivity
    | match goal with
      | |- fails_as _ (match ?x with _ => _ end) => destruct x
      | |- fails_as _ (if ?x then _ else _) => destruct x
      end
    | progress (cbv zeta) ].

Lemma m_collect {A} (K : error -> Prop) (l : list (res A)) : Forall (fails_as K) l -> fails_as K (collect_res l).
Proof. induction 1 as [|x l Hx Hl IH]; cbn [collect_res]; mal; assumption. Qed.
Lemma m_collect_map {A B} (K : error -> Prop) (f : A -> res B) l : (forall a, fails_as K (f a)) -> fails_as K (collect_res (map f l)).
Proof. intros H. apply m_collect. apply Forall_forall. intros x Hx. apply in_map_iff in Hx as (a & <- & _). apply H. Qed.

(** Machine arithmetic and slices have no errors. *)
Lemma f_uadd K m w a b : fails_as K (uadd m w a b).
Proof. unfold uadd. mal. Qed.
Lemma f_usub K m w a b : fails_as K (usub m w a b).
Proof. unfold usub. mal. Qed.
Lemma f_umul K m w a b : fails_as K (umul m w a b).
Proof. unfold umul. mal. Qed.
Lemma f_sadd K m w a b : fails_as K (sadd m w a b).
Proof. unfold sadd. mal. Qed.
Lemma f_slice_from {A} K n (l : list A) : fails_as K (slice_from n l).
Proof. unfold slice_from. mal. Qed.
Lemma f_slice_to {A} K n (l : list A) : fails_as K (slice_to n l).
Proof. unfold slice_to. mal. Qed.
Lemma f_split_at {A} K n (l : list A) : fails_as K (split_at n l).
Proof. unfold split_at. mal. Qed.
Lemma f_slice_range K a b l : fails_as K (slice_range a b l).
Proof. unfold slice_range. mal. Qed.
Lemma f_uleb_go K l : forall r s c, fails_as K (uleb_decode_go l r s c).
Proof. induction l as [|b l IH]; intros r s c; cbn [uleb_decode_go]; mal; apply IH. Qed.
Lemma f_uleb K l : fails_as K (uleb_decode l).
Proof. apply f_uleb_go. Qed.
#[export] Hint Resolve f_uadd f_usub f_umul f_sadd f_slice_from f_slice_to f_split_at f_slice_range f_uleb : mal.
Lemma f_zigzag K l : fails_as K (zigzag_decode l).
Proof. unfold zigzag_decode. mal. Qed.
Lemma f_transpose {A} K (x : option (res A)) : (forall r, x = Some r -> fails_as K r) -> fails_as K (transpose x).
Proof. intros H. destruct x; cbn [transpose]; mal; apply H; reflexivity. Qed.
#[export] Hint Resolve f_zigzag : mal.

(** Numbers that name types. *)
Lemma m_try_usize z : malformed (try_usize z).
Proof. unfold try_usize. mal. Qed.
Lemma m_encoding z : malformed (encoding_of_thrift z).
Proof. unfold encoding_of_thrift. mal. Qed.
Lemma m_repetition z : malformed (repetition_of_thrift z).
Proof. unfold repetition_of_thrift. mal. Qed.
Lemma m_compression z : malformed (compression_of_thrift z).
Proof. unfold compression_of_thrift. mal. Qed.
Lemma m_page_type z : malformed (page_type_of_thrift z).
Proof. unfold page_type_of_thrift. mal. Qed.
Lemma m_order z : malformed (boundary_order_of_thrift z).
Proof. unfold boundary_order_of_thrift. mal. Qed.
#[export] Hint Resolve m_try_usize m_encoding m_repetition m_compression m_page_type m_order : mal.
Lemma m_converted z d : malformed (converted_of_thrift z d).
Proof. unfold converted_of_thrift. mal. Qed.
Lemma m_group_converted z : malformed (group_converted_of_thrift z).
Proof. unfold group_converted_of_thrift. mal. Qed.
Lemma m_logical z : malformed (logical_of_thrift z).
Proof. unfold logical_of_thrift. mal. Qed.
Lemma m_group_logical z : malformed (group_logical_of_thrift z).
Proof. unfold group_logical_of_thrift. mal. Qed.
Lemma m_physical z l : malformed (physical_of_thrift z l).
Proof. unfold physical_of_thrift. mal. Qed.
#[export] Hint Resolve m_converted m_group_converted m_logical m_group_logical m_physical : mal.

(** Schemas. *)
Lemma m_max_precision n : malformed (max_precision n).
Proof. unfold max_precision. mal. Qed.
#[export] Hint Resolve m_max_precision : mal.
Lemma m_decimal t p s : malformed (check_decimal t p s).
Proof. unfold check_decimal. mal. Qed.
Lemma m_require b : malformed (require b).
Proof. unfold require. mal. Qed.
#[export] Hint Resolve m_decimal m_require : mal.
Lemma m_check_converted t c : malformed (check_converted t c).
Proof. unfold check_converted. mal. Qed.
Lemma m_check_logical t l : malformed (check_logical t l).
Proof. unfold check_logical. mal. Qed.
#[export] Hint Resolve m_check_converted m_check_logical : mal.
Lemma m_try_from_primitive n t r c l i : malformed (try_from_primitive n t r c l i).
Proof. unfold try_from_primitive. mal. Qed.
#[export] Hint Resolve m_try_from_primitive : mal.
Lemma m_primitive_from_thrift e : malformed (primitive_from_thrift e).
Proof.
  unfold primitive_from_thrift. mal; apply f_transpose; intros r Hr;
  match type of Hr with option_map _ ?x = Some r => destruct x; [injection Hr as <-; mal | discriminate] end.
Qed.
Lemma m_group_from_thrift e b l : malformed (group_from_thrift e b l).
Proof.
  unfold group_from_thrift. mal; apply f_transpose; intros r Hr;
  match type of Hr with option_map _ ?x = Some r => destruct x; [injection Hr as <-; mal | discriminate] end.
Qed.
#[export] Hint Resolve m_primitive_from_thrift m_group_from_thrift : mal.
Lemma m_read_children step n : (forall i, malformed (step i)) -> forall i, malformed (read_children step n i).
Proof. intros H. induction n as [|n IH]; intros i; cbn [read_children]; mal; first [apply H | apply IH]. Qed.
Lemma m_helper f l : forall i, malformed (from_thrift_helper f l i).
Proof.
  induction f as [|f IH]; intros i; cbn [from_thrift_helper]; mal; apply m_read_children, IH.
Qed.
#[export] Hint Resolve m_helper : mal.
Lemma m_read_roots f l : forall i, malformed (read_roots f l i).
Proof. induction f as [|f IH]; intros i; cbn [read_roots]; mal; apply IH. Qed.
#[export] Hint Resolve m_read_roots : mal.
Lemma m_type_from_thrift l : malformed (type_from_thrift l).
Proof. unfold type_from_thrift. mal. Qed.
#[export] Hint Resolve m_type_from_thrift : mal.

Lemma f_build_tree K m : forall tp base r d leaves path, fails_as K (build_tree m tp base r d leaves path).
Proof.
  fix IH 1. intros tp base r d leaves path. destruct tp as [p|info lg cv fields]; cbn [build_tree]; mal.
  revert leaves. match goal with |- forall leaves, fails_as K (_ fields leaves ?p) => generalize p end.
  induction fields as [|f fs IHf]; intros pth leaves; mal; first [apply IH | apply IHf].
Qed.
#[export] Hint Resolve f_build_tree : mal.
Lemma f_build_all K m fields : forall leaves, fails_as K (build_all m fields leaves).
Proof. induction fields as [|f r IH]; intros leaves; cbn [build_all]; mal; apply IH. Qed.
#[export] Hint Resolve f_build_all : mal.
Lemma f_sd_new K m n f : fails_as K (sd_new m n f).
Proof. unfold sd_new. mal. Qed.
#[export] Hint Resolve f_sd_new : mal.
Lemma m_sd_try_from_type m t : malformed (sd_try_from_type m t).
Proof. unfold sd_try_from_type. mal. Qed.
#[export] Hint Resolve m_sd_try_from_type : mal.
Lemma m_sd_try_from_thrift m l : malformed (sd_try_from_thrift m l).
Proof. unfold sd_try_from_thrift. mal. Qed.
#[export] Hint Resolve m_sd_try_from_thrift : mal.

(** Texts. *)
Lemma f_backtrack K i : fails_as K (backtrack i).
Proof. unfold backtrack. mal. Qed.
Lemma m_assert_token t x : malformed (assert_token t x).
Proof. unfold assert_token. mal. Qed.
Lemma m_parse_i32 t : malformed (parse_i32 t).
Proof. unfold parse_i32. mal. Qed.
Lemma m_parse_bool U t : malformed (parse_bool U t).
Proof. unfold parse_bool. mal. Qed.
Lemma m_parse_timeunit U t : malformed (parse_timeunit U t).
Proof. unfold parse_timeunit. mal. Qed.
Lemma m_group_from_str s : malformed (converted_group_from_str s).
Proof. unfold converted_group_from_str. mal. Qed.
Lemma m_repetition_str s : malformed (repetition_from_str s).
Proof. unfold repetition_from_str. mal. Qed.
Lemma m_type_str s : malformed (type_from_str s).
Proof. unfold type_from_str. mal. Qed.
#[export] Hint Resolve f_backtrack m_assert_token m_parse_i32 m_parse_bool m_parse_timeunit m_group_from_str m_repetition_str m_type_str : mal.
Lemma m_parse_scale T i : malformed (parse_scale T i).
Proof. unfold parse_scale. mal. Qed.
Lemma m_parse_utc U T i : malformed (parse_utc U T i).
Proof. unfold parse_utc. mal. Qed.
#[export] Hint Resolve m_parse_scale m_parse_utc : mal.
Lemma m_parse_cdec T i : malformed (parse_converted_decimal T i).
Proof. unfold parse_converted_decimal. mal. Qed.
Lemma m_parse_unit U T i : malformed (parse_unit U T i).
Proof. unfold parse_unit. mal. Qed.
Lemma m_parse_decimal T i : malformed (parse_decimal T i).
Proof. unfold parse_decimal. mal. Qed.
#[export] Hint Resolve m_parse_cdec m_parse_unit m_parse_decimal : mal.
Lemma m_parse_logical U T s i : malformed (parse_logical_type U T s i).
Proof. unfold parse_logical_type. mal. Qed.
Lemma m_parse_id T i : malformed (parse_id T i).
Proof. unfold parse_id. mal. Qed.
#[export] Hint Resolve m_parse_logical m_parse_id : mal.
Lemma m_parse_annotation U T i : malformed (parse_annotation U T i).
Proof. unfold parse_annotation. mal. Qed.
Lemma m_parse_length T p i : malformed (parse_length T p i).
Proof. unfold parse_length. mal. Qed.
#[export] Hint Resolve m_parse_annotation m_parse_length : mal.
Lemma m_add_primitive U T r p i : malformed (add_primitive_type U T r p i).
Proof. unfold add_primitive_type. mal. Qed.
Lemma m_group_conv U T i : malformed (parse_group_converted U T i).
Proof. unfold parse_group_converted. mal. Qed.
#[export] Hint Resolve m_add_primitive m_group_conv : mal.
Lemma m_child_types f step T : (forall i, malformed (step i)) -> forall i, malformed (child_types f step T i).
Proof. intros H. unfold malformed in *. induction f as [|f IH]; intros i; cbn [child_types]; mal. Qed.
Lemma m_parse_child step T i : (forall i, malformed (step i)) -> malformed (parse_child_types step T i).
Proof. intros H. unfold parse_child_types. mal; apply m_child_types, H. Qed.
Lemma m_add_group U step T r i : (forall i, malformed (step i)) -> malformed (add_group_type U step T r i).
Proof. intros H. unfold add_group_type. mal; apply m_parse_child, H. Qed.
Lemma m_add_type U T f : forall i, malformed (add_type f U T i).
Proof. induction f as [|f IH]; intros i; cbn [add_type]; mal; apply m_add_group, IH. Qed.
Lemma m_from_message U text : malformed (from_message U text).
Proof. unfold from_message, parse_message_type. mal; apply m_parse_child, m_add_type. Qed.

(** Metadata. *)
Lemma m_column d c : malformed (column_from_thrift d c).
Proof. unfold column_from_thrift. mal. Qed.
#[export] Hint Resolve m_column : mal.
Lemma m_row_group s g : malformed (row_group_from_thrift s g).
Proof. unfold row_group_from_thrift. mal; apply m_collect_map; intros [c d]; apply m_column. Qed.
#[export] Hint Resolve m_row_group : mal.
Lemma m_file m t : malformed (file_from_thrift m t).
Proof. unfold file_from_thrift. mal; apply m_collect_map, m_row_group. Qed.
#[export] Hint Resolve m_file : mal.
Lemma m_seek f n : malformed (seek_end_read f n).
Proof. unfold seek_end_read. mal. Qed.
Lemma f_metadata_len K b n : fails_as K (metadata_len b n).
Proof. unfold metadata_len. mal. Qed.
#[export] Hint Resolve m_seek f_metadata_len : mal.
Lemma m_deserialize T m b max : thrift_malformed T -> malformed (deserialize_metadata T m b max).
Proof. intros HT. unfold deserialize_metadata. mal; apply HT. Qed.
Lemma m_with_size T m f n : thrift_malformed T -> malformed (read_metadata_with_size T m f n).
Proof. intros HT. unfold read_metadata_with_size. mal; apply m_deserialize, HT. Qed.
Lemma f_cmd_meta K c : fails_as K (cmd_meta c).
Proof. unfold cmd_meta. mal. Qed.
#[export] Hint Resolve f_cmd_meta : mal.
Lemma f_byte_range K c : fails_as K (byte_range c).
Proof. unfold byte_range. mal. Qed.
Lemma f_cmd_compression K c : fails_as K (cmd_compression c).
Proof. unfold cmd_compression. mal. Qed.
#[export] Hint Resolve f_byte_range f_cmd_compression : mal.

(** Indexes. *)
Lemma m_index_pages {A} (value : list N -> res A) i : (forall b, malformed (value b)) -> malformed (index_pages value i).
Proof. intros H. unfold index_pages. mal; apply m_collect_map; intros [[[a b] c] d]; mal; apply H. Qed.
Lemma m_native_bound t b : malformed (native_bound t b).
Proof. unfold native_bound. mal. Qed.
Lemma f_bool_bound K b : fails_as K (bool_bound b).
Proof. unfold bool_bound. mal. Qed.
Lemma m_index i p : malformed (index_from_thrift i p).
Proof. unfold index_from_thrift. mal; apply m_index_pages; intros b; first [apply m_native_bound | apply f_bool_bound | apply fails_ok]. Qed.
Lemma m_prepare chunks o l : malformed (prepare_read chunks o l).
Proof. unfold prepare_read. mal; apply m_collect_map; intros c1; mal. Qed.
#[export] Hint Resolve m_index m_prepare : mal.
Lemma m_deserialize_index T d p : thrift_malformed T -> malformed (deserialize_index T d p).
Proof. intros HT. unfold deserialize_index. mal; first [apply HT | apply m_index]. Qed.
Lemma m_indexes T : thrift_malformed T -> forall chunks d l, malformed (deserialize_indexes T chunks d l).
Proof.
  intros HT. induction chunks as [|c chunks IH]; intros d [|n l]; cbn [deserialize_indexes]; mal; first [apply HT | apply m_deserialize_index, HT | apply IH].
Qed.
Lemma m_read_indexes T f chunks : thrift_malformed T -> malformed (read_columns_indexes T f chunks).
Proof. intros HT. unfold read_columns_indexes. mal; first [apply m_prepare | apply m_indexes, HT]. Qed.
Lemma m_locations T max : thrift_malformed T -> forall n d, malformed (decode_locations T max n d).
Proof. intros HT. induction n as [|n IH]; intros d; cbn [decode_locations]; mal; first [apply HT | apply IH]. Qed.
Lemma m_read_locations T f chunks : thrift_malformed T -> malformed (read_pages_locations T f chunks).
Proof. intros HT. unfold read_pages_locations. mal; first [apply m_prepare | apply m_locations, HT]. Qed.

(** Row selection. *)
Lemma m_intervals l n : malformed (compute_page_row_intervals l n).
Proof.
  unfold compute_page_row_intervals. destruct l as [|a l]; [apply fails_ok|]. apply m_collect. revert a.
  assert (Hw : forall a b, malformed (window_interval a b)) by (intros; unfold window_interval; mal).
  induction l as [|b l IH]; intros a; cbn [page_intervals]; constructor; [unfold last_interval; mal | constructor | apply Hw | apply IH].
Qed.
#[export] Hint Resolve m_intervals : mal.
Lemma m_compute_rows s l n : malformed (compute_rows s l n).
Proof. unfold compute_rows. mal. Qed.
Lemma f_is_in K m p l : fails_as K (is_in m p l).
Proof. induction l as [|i l IH]; cbn [is_in]; mal. Qed.
#[export] Hint Resolve f_is_in : mal.
Lemma m_select_pages m i l n : malformed (select_pages m i l n).
Proof. unfold select_pages. mal. apply m_collect_map. intros [iv loc]. unfold select_page. mal. Qed.

(** Statistics. *)
Lemma m_check_len n v : malformed (check_len n v).
Proof. unfold check_len. mal. Qed.
Lemma f_native_decode K t b : fails_as K (native_decode t b).
Proof. unfold native_decode. mal. Qed.
#[export] Hint Resolve m_check_len f_native_decode : mal.
Lemma f_decode_opt K t b : fails_as K (decode_opt t b).
Proof. unfold decode_opt. mal. Qed.
#[export] Hint Resolve f_decode_opt : mal.
Lemma m_deserialize_statistics v p : malformed (deserialize_statistics v p).
Proof. unfold deserialize_statistics, boolean_read, primitive_read, binary_read, fixed_read. mal. Qed.

(** Page contents. *)
Lemma m_split_level b l : malformed (split_level b l).
Proof. unfold split_level. mal. Qed.
#[export] Hint Resolve m_split_level : mal.
Lemma m_split_buffer m p : malformed (split_buffer m p).
Proof. unfold split_buffer, split_buffer_v1, split_buffer_v2. mal. Qed.
#[export] Hint Resolve m_split_buffer : mal.
Lemma f_unpack_step K B w inp i : fails_as K (unpack_step B w inp i).
Proof.
  assert (H : forall j, fails_as K (word_at B inp j)) by (intros j; unfold word_at; mal).
  unfold unpack_step. cbv zeta. destruct (_ && _); mal.
Qed.
#[export] Hint Resolve f_unpack_step : mal.
Lemma f_unpack_loop K B w inp is : fails_as K (unpack_loop B w inp is).
Proof. induction is as [|i is IH]; cbn [unpack_loop]; mal. Qed.
#[export] Hint Resolve f_unpack_loop : mal.
Lemma f_decode_pack K B l w : fails_as K (decode_pack B l w).
Proof. unfold decode_pack, unpack. mal. Qed.
#[export] Hint Resolve f_decode_pack : mal.
Lemma m_bp_try_new m B l w n : malformed (bp_try_new m B l w n).
Proof. unfold bp_try_new. mal. Qed.
Lemma f_bp_next K B s : fails_as K (bp_next B s).
Proof. unfold bp_next. mal. Qed.
#[export] Hint Resolve m_bp_try_new f_bp_next : mal.
Lemma f_rle_next K m d : fails_as K (rle_next m d).
Proof. unfold rle_next. mal. Qed.
#[export] Hint Resolve f_rle_next : mal.
Lemma m_read_next m d n : malformed (read_next m d n).
Proof. unfold read_next. mal. Qed.
#[export] Hint Resolve m_read_next : mal.
Lemma m_hr_try_new m d w n : malformed (hr_try_new m d w n).
Proof. unfold hr_try_new. mal. Qed.
#[export] Hint Resolve m_hr_try_new : mal.
Lemma m_dict_indices m p : malformed (dict_indices_decoder m p).
Proof. unfold dict_indices_decoder. mal. Qed.
#[export] Hint Resolve m_dict_indices : mal.
Lemma m_cast_new t l : malformed (cast_new t l).
Proof. unfold cast_new, ce_new. mal. Qed.
#[export] Hint Resolve m_cast_new : mal.
Lemma m_def_levels m p : malformed (dl_try_new m p).
Proof. unfold dl_try_new. mal. Qed.
#[export] Hint Resolve m_def_levels : mal.
Lemma m_dy_try_new {P} m p (d : P) : malformed (dy_try_new m p d).
Proof. unfold dy_try_new. mal. Qed.
Lemma m_native_cast m t p : malformed (native_cast m t p).
Proof. unfold native_cast. mal. Qed.
#[export] Hint Resolve m_dy_try_new m_native_cast : mal.
Lemma f_dp_encoding K p : fails_as K (dp_encoding p).
Proof. unfold dp_encoding. mal. Qed.
Lemma f_ce_new K n l : fails_as K (ce_new n l).
Proof. unfold ce_new. mal. Qed.
Lemma f_fl_new K l n : fails_as K (fl_new l n).
Proof. apply f_ce_new. Qed.
Lemma f_bm_new K l o n : fails_as K (bm_new l o n).
Proof. unfold bm_new. mal. Qed.
#[export] Hint Resolve f_dp_encoding f_ce_new f_fl_new f_bm_new : mal.

(** Delta. *)
Lemma f_block_advance K m b : fails_as K (block_advance m b).
Proof. unfold block_advance. mal. Qed.
Lemma block_advance_says m b e b' : block_advance m b = Ok (Some e, b') -> e = OutOfSpec.
Proof.
  unfold block_advance. intros H. destruct (bl_widths b) as [|n r]; [discriminate|]. destruct (0 <? n); [|congruence].
  apply bind_ok in H as (bits & _ & H). destruct (_ <? _); [congruence|]. apply bind_ok in H as ([x y] & _ & H).
  destruct (bp_try_new _ _ _ _ _); congruence.
Qed.
Lemma m_block_try_new m l a b c : malformed (block_try_new m l a b c).
Proof.
  unfold block_try_new. apply fails_bind; [mal | intros total]. cbv zeta. apply fails_bind; [mal | intros [mn consumed]].
  apply fails_bind; [mal | intros values]. destruct (_ <? _); [mal|]. apply fails_bind; [mal | intros [bw vs]].
  destruct (block_advance m _) as [[[e|] b']|e|] eqn:E; cbn [bind].
  - apply fails_err. exact (block_advance_says _ _ _ _ E).
  - apply fails_ok.
  - apply fails_err. exact (f_block_advance (fun e => e = OutOfSpec) _ _ _ E).
  - apply fails_panic.
Qed.
#[export] Hint Resolve m_block_try_new : mal.
Lemma m_delta_try_new m l : malformed (delta_try_new m l).
Proof. unfold delta_try_new. mal. Qed.
#[export] Hint Resolve m_delta_try_new : mal.

Lemma block_next_says m b e b' : block_next m b = Ok (Some (inr e), b') -> e = OutOfSpec.
Proof.
  unfold block_next. intros H. destruct (_ =? 0); [discriminate|]. apply bind_ok in H as ([x mini] & _ & H).
  apply bind_ok in H as (r & _ & H). cbv zeta in H. destruct (_ && _); [|discriminate].
  apply bind_ok in H as ([[e'|] b1] & E & H); [|discriminate]. apply block_advance_says in E. congruence.
Qed.
Lemma load_delta_says m d e d' : load_delta m d = Ok (inr e, d') -> e = OutOfSpec.
Proof.
  unfold load_delta. intros H. destruct (dd_block d) as [b|]; [|discriminate].
  apply bind_ok in H as ([[x|] b1] & E & H).
  - apply Ok_inj in H. injection H as -> _. exact (block_next_says _ _ _ _ E).
  - apply bind_ok in H as (v & _ & H). destruct (block_try_new _ _ _ _ _) as [nb|e'|] eqn:Et; [| |discriminate].
    + apply bind_ok in H as ([[x|] b2] & E2 & H); apply Ok_inj in H.
      * injection H as -> _. exact (block_next_says _ _ _ _ E2).
      * congruence.
    + apply Ok_inj in H. injection H as <- _. exact (m_block_try_new _ _ _ _ _ _ Et).
Qed.
Lemma delta_next_says m d e d' : delta_next m d = Ok (Some (inr e), d') -> e = OutOfSpec.
Proof.
  unfold delta_next. intros H. destruct (_ =? 0); [discriminate|]. cbv zeta in H. destruct (_ =? 0); [discriminate|].
  apply bind_ok in H as ([[x|e'] d1] & E & H).
  - apply bind_ok in H as (v & _ & H). discriminate.
  - apply load_delta_says in E. congruence.
Qed.
Lemma bi_next_says s e s' : bi_next s = Ok (Some (inr e), s') -> e = OutOfSpec.
Proof.
  unfold bi_next. intros H. destruct (_ <? _)%nat; [discriminate|]. cbv zeta in H. apply bind_ok in H as (h & _ & H).
  apply bind_ok in H as (v & _ & H). destruct (_ <? _); [congruence|]. apply bind_ok in H as ([a b] & _ & H). discriminate.
Qed.

(** Pages. *)
Lemma m_get_page_header h : malformed (get_page_header h).
Proof. unfold get_page_header. mal. Qed.
Lemma m_finish_page h d c p s : malformed (finish_page h d c p s).
Proof. unfold finish_page. mal. Qed.
#[export] Hint Resolve m_get_page_header m_finish_page : mal.

(** Reading pages: out of specification, or a header that announces more than the limit. *)
Lemma oversized (T : thrift t_page_header) max source h rest n : t_dec T max source = Ok (h, rest) -> try_usize (ph_compressed_size h) = Ok n ->
  (max <? n) = true -> announces_more T max.
Proof.
  intros Et En El. exists source, h, rest. split; [exact Et|]. apply N.ltb_lt in El.
  unfold try_usize in En. destruct (ph_compressed_size h <? 0)%Z eqn:Ez; [discriminate|]. apply Z.ltb_ge in Ez. apply Ok_inj in En. subst n. lia.
Qed.
Lemma build_page_says T m r source seen e : thrift_malformed T -> build_page T m r = (source, seen, Err e) -> page_complaint T (pr_max r) e.
Proof.
  intros HT. unfold build_page, page_complaint. destruct (t_dec T (pr_max r) (pr_source r)) as [[h rest]|e1|] eqn:Et; [| |discriminate].
  2:{ intros [= _ _ <-]. left. exact (HT _ _ _ Et). }
  destruct (get_page_header h) as [dh|e1|] eqn:Eh; [| |discriminate].
  2:{ intros [= _ _ <-]. left. exact (m_get_page_header _ _ Eh). }
  destruct (sadd m 64 (pr_seen r) (counted dh)) as [s1|e1|] eqn:Es; [| |discriminate].
  2:{ intros [= _ _ <-]. left. exact (f_sadd (fun e => e = OutOfSpec) _ _ _ _ _ Es). }
  destruct (try_usize (ph_compressed_size h)) as [n|e1|] eqn:En; [| |discriminate].
  2:{ intros [= _ _ <-]. left. exact (m_try_usize _ _ En). }
  destruct (pr_max r <? n) eqn:El.
  - intros [= _ _ <-]. right. split; [reflexivity|]. exact (oversized T _ _ _ _ _ Et En El).
  - destruct (_ =? _); [|intros [= _ _ <-]; left; reflexivity]. intros [= _ _ H]. left. exact (m_finish_page _ _ _ _ _ _ H).
Qed.
Lemma pr_next_says T m : thrift_malformed T -> forall f r e r', pr_next_fuel T m f r = Ok (Some (inr e), r') -> page_complaint T (pr_max r) e.
Proof.
  intros HT. induction f as [|f IH]; intros r e r' H; cbn [pr_next_fuel] in H; [discriminate|].
  destruct (_ <=? _)%Z; [discriminate|]. destruct (build_page T m r) as [[source seen] x] eqn:E. cbv zeta in H.
  destruct x as [[p|p]|e1|]; try discriminate.
  - destruct (pr_filter r _ _); [discriminate|]. exact (IH _ _ _ H).
  - apply Ok_inj in H. injection H as <- _. exact (build_page_says _ _ _ _ _ _ HT E).
Qed.
Lemma stream_next_says T m : thrift_malformed T -> forall f r e r', stream_next_fuel T m f r = Ok (Some (inr e), r') -> page_complaint T (pr_max r) e.
Proof.
  intros HT. unfold page_complaint. induction f as [|f IH]; intros r e r' H; cbn [stream_next_fuel] in H; [discriminate|].
  destruct (_ <? _)%Z; [|discriminate]. destruct (t_dec T (pr_max r) (pr_source r)) as [[h rest]|e1|] eqn:Et; [| |discriminate].
  2:{ apply Ok_inj in H. injection H as <- _. left. exact (HT _ _ _ Et). }
  destruct (get_page_header h) as [dh|e1|] eqn:Eh; [| |discriminate].
  2:{ apply Ok_inj in H. injection H as <- _. left. exact (m_get_page_header _ _ Eh). }
  destruct (sadd m 64 (pr_seen r) (counted dh)) as [s1|e1|] eqn:Es; [| |discriminate].
  2:{ apply Ok_inj in H. injection H as <- _. left. exact (f_sadd (fun e => e = OutOfSpec) _ _ _ _ _ Es). }
  destruct (try_usize (ph_compressed_size h)) as [n|e1|] eqn:En; [| |discriminate].
  2:{ apply Ok_inj in H. injection H as <- _. left. exact (m_try_usize _ _ En). }
  destruct (match dh with Some dh => negb (pr_filter r (pr_descriptor r) dh) | None => false end).
  { exact (IH _ _ _ H). }
  destruct (pr_max r <? n) eqn:El.
  - apply Ok_inj in H. injection H as <- _. right. split; [reflexivity|]. exact (oversized T _ _ _ _ _ Et En El).
  - cbv zeta in H. destruct (_ =? _); [|apply Ok_inj in H; injection H as <- _; left; reflexivity].
    destruct (finish_page _ _ _ _ _) as [p|e1|] eqn:Ef; try discriminate.
    apply Ok_inj in H. injection H as <- _. left. exact (m_finish_page _ _ _ _ _ _ Ef).
Qed.
Lemma item_says {S} (x : res compressed_page) (s : S) e s' : malformed x -> item x s = Ok (Some (inr e), s') -> e = OutOfSpec.
Proof. intros Hx H. destruct x as [p|e1|]; cbn [item] in H; try discriminate. apply Ok_inj in H. injection H as <- _. apply Hx. reflexivity. Qed.
Lemma ir_next_data_says T : thrift_malformed T -> forall pages r e r', ir_next_data T r pages = Ok (Some (inr e), r') -> e = OutOfSpec.
Proof.
  intros HT. induction pages as [|p pages IH]; intros r e r' H; cbn [ir_next_data] in H; [discriminate|].
  destruct (fp_selected p) as [|i l]; [exact (IH _ _ _ H)|]. revert H. apply item_says. mal. apply HT.
Qed.
Lemma ir_next_says T m r e r' : thrift_malformed T -> ir_next T m r = Ok (Some (inr e), r') -> e = OutOfSpec.
Proof.
  intros HT. unfold ir_next. destruct (ir_state r); [|apply ir_next_data_says, HT].
  intros H. apply bind_ok in H as (d & E & H). destruct d as [x|]; [|revert H; apply ir_next_data_says, HT].
  revert H. apply item_says. unfold read_dict in E. destruct (ir_pages r) as [|p l]; [discriminate|].
  apply bind_ok in E as (n & _ & E). destruct (0 <? n); [|discriminate]. apply Ok_inj in E. injection E as <-.
  apply fails_bind; [apply HT|]. intros [h data]. mal.
Qed.

(** Decompression. *)
Lemma block_into_says w out : malformed (snd (block_into w out)).
Proof. unfold block_into. cbn [snd]. mal. Qed.
Lemma unit_res_says x : malformed (snd x) -> malformed (snd (unit_res x)).
Proof. intros H e. unfold unit_res. cbn [snd]. destruct (snd x) as [a|e1|] eqn:E; cbn [rmap]; try discriminate. intros [= <-]. apply H. reflexivity. Qed.
Lemma block_into_panic w out : snd (unit_res (block_into w out)) <> Panic.
Proof. unfold unit_res, block_into. cbn [fst snd]. destruct (snd w); discriminate. Qed.
Lemma hadoop_panic C : forall f input n done output, snd (hadoop_loop C f input n done output) <> Panic.
Proof.
  induction f as [|f IH]; intros input n done output; cbn [hadoop_loop]; [discriminate|]. cbv zeta.
  destruct (8 <=? n); [|cbn [snd]; destruct (n =? 0); discriminate]. destruct (_ <? _); [discriminate|]. destruct (_ <? _); [discriminate|].
  destruct (block_into _ _) as [o [s|e|]] eqn:E; [|discriminate|].
  - destruct (_ =? _); [|discriminate]. destruct (_ <? _); [apply IH|]. cbn [snd]. destruct (_ =? _); discriminate.
  - unfold block_into in E. injection E as _ E. destruct (snd _) in E; discriminate.
Qed.
Lemma decompress_bytes_says C c input out :
  snd (decompress_bytes C c input out) <> Panic /\
  (forall e, snd (decompress_bytes C c input out) = Err e ->
     e = match c with Uncompressed => InvalidParameter | Lzo => FeatureNotSupported | _ => OutOfSpec end).
Proof.
  assert (Hs : forall w, snd (read_exact_into w out) <> Panic /\ malformed (snd (read_exact_into w out))).
  { intros w. unfold read_exact_into. destruct (_ <=? _)%nat; cbn [snd]; split; try discriminate; mal. }
  assert (Hb : forall w o, snd (unit_res (block_into w o)) <> Panic /\ malformed (snd (unit_res (block_into w o)))).
  { intros w o. split; [apply block_into_panic | apply unit_res_says, block_into_says]. }
  destruct c; cbn [decompress_bytes]; try (apply Hs); try (apply Hb).
  - split; [discriminate | cbn [snd]; intros e [= <-]; reflexivity].
  - destruct (snappy_len C input) as [len|]; [|split; [discriminate | intros e [= <-]; reflexivity]].
    destruct (_ <? _); [split; [discriminate | intros e [= <-]; reflexivity] | apply Hb].
  - split; [discriminate | cbn [snd]; intros e [= <-]; reflexivity].
  - pose proof (hadoop_panic C (S (length input)) input (nlen input) [] out) as Hh. fold (try_decompress_hadoop C input out) in Hh.
    destruct (try_decompress_hadoop C input out) as [o [[]|e|]]; cbn [snd] in *; [split; discriminate | apply Hb | exfalso; apply Hh; reflexivity].
Qed.

(** Opening pages. *)
Definition opens_as {A} (enc : encoding) (has_dict : bool) (r : res A) : Prop :=
  fails_as (fun e => e = OutOfSpec \/ e = FeatureNotSupported) r /\ (r = Err FeatureNotSupported <-> ~ supported enc has_dict).
Lemma opens_yes {A} enc d (r : res A) : malformed r -> supported enc d -> opens_as enc d r.
Proof.
  intros H Hs. split; [intros e He; left; exact (H _ He)|]. split; [intros E; specialize (H _ E); discriminate | intros Hn; contradiction].
Qed.
Lemma opens_no {A} enc d : ~ supported enc d -> opens_as enc d (@Err A FeatureNotSupported).
Proof. intros H. split; [apply fails_err; right; reflexivity|]. split; [intros _; exact H | reflexivity]. Qed.
Ltac sup := first [ left; reflexivity | right; split; [ first [left; reflexivity | right; reflexivity] | reflexivity ] ].
Ltac unsup := let H := fresh in intros H; unfold supported in H; intuition discriminate.
Ltac opening := first [ apply opens_no; unsup | apply opens_yes; [ mal | sup ] ].
Definition given {P} (d : option P) : bool := match d with Some _ => true | None => false end.
Lemma native_opens {P} m t p (dict : option P) enc : dp_encoding p = Ok enc -> opens_as enc (given dict) (native_try_new m t p dict).
Proof. intros He. unfold native_try_new. rewrite He. cbn [bind]. destruct enc, dict as [d|], (is_optional p); cbn [given]; opening. Qed.
Lemma binary_opens {P} m p (dict : option P) enc : dp_encoding p = Ok enc -> opens_as enc (given dict) (binary_try_new m p dict).
Proof. intros He. unfold binary_try_new. rewrite He. cbn [bind]. destruct enc, dict as [d|], (is_optional p); cbn [given]; opening. Qed.
Lemma fixed_opens {P} m p (dict : option P) enc n : dp_encoding p = Ok enc -> pt_physical (d_primitive (dp_descriptor p)) = FixedLenByteArray n ->
  opens_as enc (given dict) (fixed_try_new m p dict).
Proof. intros He Hn. unfold fixed_try_new. rewrite Hn, He. cbn [bind]. destruct enc, dict as [d|], (is_optional p); cbn [given]; opening. Qed.

Definition unpacking (c : compression) (e : error) : Prop := e = OutOfSpec \/ (e = FeatureNotSupported /\ c = Lzo).
Lemma bytes_unpack C c input out : c <> Uncompressed ->
  fails_as (unpacking c) (snd (decompress_bytes C c input out)) /\ snd (decompress_bytes C c input out) <> Panic.
Proof.
  intros Hc. destruct (decompress_bytes_says C c input out) as [H1 H2]. split; [|exact H1]. intros e He. specialize (H2 _ He).
  unfold unpacking. destruct c; auto. contradiction.
Qed.
Lemma v2_unpacks C m data h c out : c <> Uncompressed ->
  fails_as (unpacking c) (snd (decompress_v2 C m data h c out)) /\
  (snd (decompress_v2 C m data h c out) = Panic <-> m = Checked /\ in_s 32 (dh2_rep_length h + dh2_def_length h) = false).
Proof.
  intros Hc. unfold decompress_v2.
  destruct (levels_length m h) as [n|e|] eqn:E.
  - assert (Hn : ~ (m = Checked /\ in_s 32 (dh2_rep_length h + dh2_def_length h) = false)).
    { intros [-> Hi]. unfold levels_length, sadd in E. rewrite Hi in E. discriminate. }
    assert (H : forall A (x : list A * res unit), fails_as (unpacking c) (snd x) /\ snd x <> Panic ->
      fails_as (unpacking c) (snd x) /\ (snd x = Panic <-> m = Checked /\ in_s 32 (dh2_rep_length h + dh2_def_length h) = false)).
    { intros A x [H1 H2]. split; [exact H1|]. split; intros H; contradiction. }
    apply H. destruct (match dh2_is_compressed h with Some b => b | None => true end).
    + destruct (_ || _); [split; [apply fails_err; left; reflexivity | discriminate]|]. cbv zeta.
      match goal with |- context [decompress_bytes C ?c ?i ?o] => pose proof (bytes_unpack C c i o Hc) as Hp; destruct (decompress_bytes C c i o) as [v x] end. exact Hp.
    + destruct (_ =? _); [split; [apply fails_ok | discriminate] | split; [apply fails_err; left; reflexivity | discriminate]].
  - exfalso. unfold levels_length, sadd in E. destruct (in_s _ _); [discriminate|]. destruct m; discriminate.
  - split; [apply fails_panic|]. split; [intros _ | reflexivity]. unfold levels_length, sadd in E. destruct (in_s _ _); [discriminate|].
    destruct m; [split; reflexivity | discriminate].
Qed.
Lemma decompress_compressed C m cap p buffer c : cp_compression p = c -> c <> Uncompressed ->
  let b := prepare cap (cp_uncompressed_size p) buffer in
  decompress_buffer C m cap p buffer =
    (let (out, r) := match p with
                     | CData d => match cdp_header d with HV1 _ => decompress_bytes C c (cdp_buffer d) b | HV2 h => decompress_v2 C m (cdp_buffer d) h c b end
                     | CDict d => decompress_bytes C c (cdi_buffer d) b
                     end in (p, out, rmap (fun _ => true) r)).
Proof. intros E Hc b. unfold decompress_buffer. rewrite E. destruct c; first [contradiction | reflexivity]. Qed.
Lemma decompress_says C m cap p buffer :
  fails_as (unpacking (cp_compression p)) (decompress C m cap p buffer) /\
  (decompress C m cap p buffer = Panic <->
   m = Checked /\ cp_compression p <> Uncompressed /\
   exists d h, p = CData d /\ cdp_header d = HV2 h /\ in_s 32 (dh2_rep_length h + dh2_def_length h) = false).
Proof.
  unfold decompress. destruct (compression_eqb (cp_compression p) Uncompressed) eqn:Eu.
  { assert (Hu : cp_compression p = Uncompressed) by (destruct (cp_compression p); first [reflexivity | discriminate Eu]).
    unfold decompress_buffer. rewrite Hu. split; [apply fails_ok|]. split; [discriminate | intros (_ & H & _); contradiction]. }
  assert (Hu : cp_compression p <> Uncompressed) by (intros E; rewrite E in Eu; discriminate).
  rewrite (decompress_compressed C m cap p buffer _ eq_refl Hu). cbv zeta. set (b := prepare _ _ _).
  match goal with |- context [let (out, r) := ?x in (p, out, rmap _ r)] => set (q := x) end.
  assert (Hq : fails_as (unpacking (cp_compression p)) (snd q) /\
    (snd q = Panic <-> m = Checked /\ exists d h, p = CData d /\ cdp_header d = HV2 h /\ in_s 32 (dh2_rep_length h + dh2_def_length h) = false)).
  { subst q. destruct p as [d|d].
    - destruct (cdp_header d) as [h|h] eqn:Eh.
      + destruct (bytes_unpack C _ (cdp_buffer d) b Hu) as [H1 H2]. split; [exact H1|]. split; [contradiction|].
        intros (_ & d' & h' & [= <-] & E & _). congruence.
      + destruct (v2_unpacks C m (cdp_buffer d) h _ b Hu) as [H1 H2]. split; [exact H1|]. rewrite H2. split.
        * intros [-> Hi]. split; [reflexivity|]. exists d, h. auto.
        * intros (-> & d' & h' & [= <-] & E & Hi). split; [reflexivity|]. congruence.
    - destruct (bytes_unpack C _ (cdi_buffer d) b Hu) as [H1 H2]. split; [exact H1|]. split; [contradiction|].
      intros (_ & d' & h' & E & _). discriminate. }
  clearbody q. destruct Hq as [H1 H2]. destruct q as [out r]. cbn [snd] in *. destruct r as [[]|e|]; cbn [rmap].
  - split; [apply fails_ok|]. split; [discriminate|]. intros (Hm & _ & H). exfalso. assert (Hp : Ok tt = Panic) by (apply H2; auto). discriminate.
  - split; [apply fails_err, H1; reflexivity|]. split; [discriminate|]. intros (Hm & _ & H). exfalso. assert (Hp : @Err unit e = Panic) by (apply H2; auto). discriminate.
  - split; [apply fails_panic|]. split; [intros _ | reflexivity]. destruct (proj1 H2 eq_refl) as [Hm H]. auto.
Qed.
Lemma compress_says C m p out o :
  fails_as (fun e => (e = FeatureNotSupported /\ (o = OLzo \/ o = OLz4)) \/ exists x, enc C o x = Err e) (compress C m p out o).
Proof.
  set (K := fun e => (e = FeatureNotSupported /\ (o = OLzo \/ o = OLz4)) \/ exists x, enc C o x = Err e).
  assert (Hb : forall input out, o <> OUncompressed -> fails_as K (compress_bytes C o input out)).
  { intros input out' Ho. assert (He : fails_as K (let* y := enc C o input in Ok (out' ++ y))).
    { apply fails_bind; [|intros y; apply fails_ok]. intros e He. right. exists input. exact He. }
    unfold compress_bytes. destruct o; try exact He; try contradiction; apply fails_err; left; auto. }
  assert (Hr : forall A B (f : A -> B) r, fails_as K r -> fails_as K (rmap f r)).
  { intros A B f r H e. destruct r; cbn [rmap]; try discriminate. intros [= <-]. apply H. reflexivity. }
  unfold compress. destruct p as [p|p]; apply Hr.
  - unfold compress_data. cbv zeta. apply fails_bind; [|intros x; apply fails_ok].
    destruct (dp_header p) as [h|h] eqn:Eh.
    + destruct o; try apply fails_ok; apply Hb; discriminate.
    + assert (Hv : o <> OUncompressed -> fails_as K (let* n := levels_length m h in let* levels := slice_range 0 n (dp_buffer p) in
         let* values := slice_range n (nlen (dp_buffer p)) (dp_buffer p) in compress_bytes C o values (out ++ levels))).
      { intros Ho. apply fails_bind; [unfold levels_length; mal|]. intros n. apply fails_bind; [mal|]. intros levels. apply fails_bind; [mal|].
        intros values. apply Hb, Ho. }
      destruct o; try apply fails_ok; apply Hv; discriminate.
  - unfold compress_dict. apply fails_bind; [|intros x; apply fails_ok]. destruct o; try apply fails_ok; apply Hb; discriminate.
Qed.
Lemma deserialize_no_panic v p : deserialize_statistics v p <> Panic.
Proof.
  assert (Hc : forall n o, check_len n o <> Panic).
  { intros n [b|]; cbn [check_len]; [destruct (_ =? _)%nat; discriminate | discriminate]. }
  assert (Hd : forall t o, check_len (native_size t) o = Ok tt -> decode_opt t o <> Panic).
  { intros t [b|] H; cbn [check_len decode_opt] in *; [|discriminate]. unfold native_decode. destruct (_ =? _)%nat; discriminate. }
  assert (Hp : forall t, primitive_read t v p <> Panic).
  { intros t. unfold primitive_read. apply bind_no_panic; [apply Hc|]. intros [] H1. apply bind_no_panic; [apply Hc|]. intros [] H2.
    apply bind_no_panic; [apply Hd, H1|]. intros a _. apply bind_no_panic; [apply Hd, H2|]. discriminate. }
  unfold deserialize_statistics. destruct (pt_physical p); try apply Hp; try discriminate.
  - unfold boolean_read. apply bind_no_panic; [apply Hc|]. intros [] _. apply bind_no_panic; [apply Hc|]. discriminate.
  - unfold fixed_read. apply bind_no_panic; [apply Hc|]. intros [] _. apply bind_no_panic; [apply Hc|]. discriminate.
Qed.
