(** Proofs about the metadata model. *)
From Verif Require Import Base.Prelude Base.LeFacts Model.Types Model.Thrift Model.Intervals Model.Page Model.Io Model.Schema Model.PageRead Model.Metadata
  Spec.SchemaSpec Spec.MetadataSpec Proofs.TypesFacts Proofs.IntervalsProofs Proofs.HybridEncProofs Proofs.CompressionProofs Proofs.SchemaProofs.
Open Scope N_scope.

Lemma codec_round c : compression_of_thrift (compression_to_thrift c) = Ok c.
Proof. destruct c; reflexivity. Qed.

Lemma try_usize_ok z : (0 <= z)%Z -> try_usize z = Ok (Z.to_N z).
Proof. intros H. unfold try_usize. destruct (Z.ltb_spec z 0); [ lia | reflexivity ]. Qed.

Lemma column_from_thrift_ok c d : chunk_located c -> column_from_thrift d c = Ok (mk_cmd c d).
Proof.
  unfold chunk_located, column_from_thrift. destruct (cc_meta c) as [meta|]; [ | intros [] ].
  intros ([Ha _] & [Hb _] & Hc & codec & Hd). rewrite !try_usize_ok by assumption. rewrite Hd, codec_round.
  destruct (cm_dictionary_page_offset meta) as [o|]; cbn [bind on_some] in *; [ destruct Hc; rewrite try_usize_ok by assumption | ]; reflexivity.
Qed.

Lemma columns_from_thrift_ok l : Forall (fun c => chunk_located (cmd_chunk c)) l ->
  collect_res (map (fun x => column_from_thrift (snd x) (fst x)) (combine (map cmd_chunk l) (map cmd_descr l))) = Ok l.
Proof.
  induction l as [|c l IH]; intros H; [ reflexivity | ]. cbn [map combine fst snd collect_res].
  rewrite column_from_thrift_ok by (apply (Forall_inv H)). cbn [bind]. rewrite (IH (Forall_inv_tail H)). cbn [bind].
  destruct c; reflexivity.
Qed.

Lemma group_compressed_nonneg l : Forall (fun c => chunk_located (cmd_chunk c)) l -> (0 <= group_compressed l)%Z.
Proof.
  induction l as [|c l IH]; intros H; cbn [group_compressed fold_right]; [ lia | ].
  pose proof (Forall_inv H) as Hc. unfold chunk_located in Hc. specialize (IH (Forall_inv_tail H)). unfold group_compressed in IH.
  destruct (cc_meta (cmd_chunk c)) as [meta|]; [ destruct Hc as [[Hc _] _]; lia | destruct Hc ].
Qed.

Lemma compressed_size_ok m : forall l, Forall (fun c => chunk_located (cmd_chunk c)) l -> (group_compressed l < 2 ^ 63)%Z ->
  (let* sizes := collect_res (map (fun c => let* meta := cmd_meta c in Ok (as_usize (cm_compressed_size meta))) l) in usum m sizes) =
  Ok (Z.to_N (group_compressed l)).
Proof.
  change (2 ^ 63)%Z with 9223372036854775808%Z.
  induction l as [|c l IH]; intros H Hs; [ reflexivity | ].
  pose proof (Forall_inv H) as Hc. pose proof (Forall_inv_tail H) as Hl. pose proof (group_compressed_nonneg l Hl) as Hp.
  cbn [group_compressed fold_right] in Hs |- *. fold (group_compressed l) in *. unfold chunk_located in Hc. cbn [map collect_res].
  unfold cmd_meta at 1. destruct (cc_meta (cmd_chunk c)) as [meta|] eqn:Em; [ | destruct Hc ]. destruct Hc as [[Hc Hc'] _]. cbn [bind].
  change (2 ^ 63)%Z with 9223372036854775808%Z in Hc'. specialize (IH Hl). apply bind_ok in IH as (sizes & E1 & E2); [ | lia ]. rewrite E1. cbn [bind usum].
  rewrite E2. cbn [bind]. rewrite as_usize_nonneg by lia. unfold uadd. change (2 ^ 64) with 18446744073709551616.
  replace (Z.to_N (cm_compressed_size meta) + Z.to_N (group_compressed l)) with (Z.to_N (cm_compressed_size meta + group_compressed l)) by lia.
  match goal with |- context [if ?b then _ else _] => destruct b eqn:E end; [ reflexivity | lia ].
Qed.

Lemma row_group_round m s g : good_group s g ->
  exists t, row_group_into_thrift m g = Ok t /\ row_group_from_thrift s t = Ok g.
Proof.
  change good_group with good_group. intros (Hd & Hc & Hr & Hb & Hs). change (2 ^ 63) with 9223372036854775808 in *. unfold row_group_into_thrift, rgm_compressed_size.
  rewrite (compressed_size_ok m _ Hc Hs).
  assert (Ho : exists o, match rgm_columns g with [] => Ok None | c :: _ => let* _ := cmd_meta c in Ok (chunk_file_offset (cmd_chunk c)) end = Ok o).
  { destruct (rgm_columns g) as [|c l]; [ eexists; reflexivity | ]. pose proof (Forall_inv Hc) as Hx. unfold chunk_located in Hx. unfold cmd_meta.
    destruct (cc_meta (cmd_chunk c)); [ eexists; reflexivity | destruct Hx ]. }
  destruct Ho as [o ->]. cbn [bind]. eexists. split; [ reflexivity | ]. unfold row_group_from_thrift.
  cbn [rg_columns rg_total_byte_size rg_num_rows]. rewrite <- Hd, !map_length, Nat.eqb_refl. cbn [negb].
  rewrite !try_usize_as_i64 by assumption. cbn [bind]. rewrite columns_from_thrift_ok by exact Hc. cbn [bind]. destruct g; reflexivity.
Qed.

Lemma row_groups_round m s l : Forall (good_group s) l ->
  exists t, collect_res (map (row_group_into_thrift m) l) = Ok t /\ collect_res (map (row_group_from_thrift s) t) = Ok l.
Proof.
  induction l as [|g l IH]; intros H; [ exists []; split; reflexivity | ].
  destruct (IH (Forall_inv_tail H)) as (t & E1 & E2). destruct (row_group_round m s g (Forall_inv H)) as (x & F1 & F2).
  exists (x :: t). cbn [map collect_res]. rewrite E1, E2, F1, F2. split; reflexivity.
Qed.

Lemma row_group_summarised m s g rg : good_group s g -> row_group_into_thrift m g = Ok rg ->
  summarises rg /\ rg_columns rg = map cmd_chunk (rgm_columns g) /\ rg_num_rows rg = Z.of_N (rgm_num_rows g) /\ rg_total_byte_size rg = Z.of_N (rgm_total_byte_size g).
Proof.
  intros (Hd & Hc & Hr & Hb & Hs) H. change (2 ^ 63) with 9223372036854775808 in *. unfold row_group_into_thrift, rgm_compressed_size in H.
  rewrite (compressed_size_ok m _ Hc Hs) in H.
  assert (Hm : exists metas, Forall2 (fun c meta => cc_meta (cmd_chunk c) = Some meta) (rgm_columns g) metas /\
    group_compressed (rgm_columns g) = fold_right (fun meta z => (cm_compressed_size meta + z)%Z) 0%Z metas).
  { clear - Hc. induction (rgm_columns g) as [|c l IH]; [ exists []; split; [ constructor | reflexivity ] | ].
    destruct (IH (Forall_inv_tail Hc)) as (metas & E1 & E2). pose proof (Forall_inv Hc) as Hx. cbn beta in Hx. unfold chunk_located in Hx.
    destruct (cc_meta (cmd_chunk c)) as [meta|] eqn:E; [ | destruct Hx ]. exists (meta :: metas). split; [ constructor; assumption | ].
    cbn [group_compressed fold_right]. fold (group_compressed l). rewrite E, E2. reflexivity. }
  destruct Hm as (metas & F2 & Esum).
  assert (Hnn := group_compressed_nonneg _ Hc).
  assert (Hi : forall n, n < 9223372036854775808 -> as_i64 n = Z.of_N n).
  { clear. intros n Hn. pose proof (try_usize_as_i64 n Hn) as E. unfold try_usize in E. destruct (as_i64 n <? 0)%Z eqn:E0; [ discriminate | ].
    apply Ok_inj in E. lia. }
  destruct (match rgm_columns g with [] => Ok None | c :: _ => let* _ := cmd_meta c in Ok (chunk_file_offset (cmd_chunk c)) end) as [o| |] eqn:Eo; cbn [bind] in H; try discriminate H.
  apply Ok_inj in H. subst rg. cbn [rg_columns rg_num_rows rg_total_byte_size].
  split; [ | split; [ reflexivity | split; apply Hi; assumption ] ].
  exists metas. cbn [rg_columns rg_file_offset rg_compressed_size]. split; [ | split ].
  - clear - F2. induction F2; [ constructor | ]. cbn [map]. constructor; assumption.
  - destruct F2 as [|c meta l metas E F2]; [ apply Ok_inj in Eo; congruence | ]. unfold cmd_meta in Eo. rewrite E in Eo. cbn [bind] in Eo.
    apply Ok_inj in Eo. subst o. unfold chunk_file_offset, first_page. rewrite E. destruct (cm_dictionary_page_offset meta) as [o|]; [ | reflexivity ].
    destruct (Z.leb_spec o 0), (Z.ltb_spec 0 o); try reflexivity; lia.
  - rewrite Hi by (change (2 ^ 63)%Z with 9223372036854775808%Z in Hs; lia). rewrite Z2N.id by assumption. rewrite Esum. reflexivity.
Qed.

Lemma good_schema_round m s : good_schema s -> sd_try_from_thrift m (sd_into_thrift s) = Ok s.
Proof.
  intros (Hne & Hlen & Hsh & Hlv & Hok & Hfull). unfold sd_try_from_thrift, sd_into_thrift. rewrite (type_round_trip _ _ Hlen Hok).
  assert (is_nil (sd_fields s) = false) as -> by (destruct (sd_fields s); [ congruence | reflexivity ]).
  assert (forallb full (sd_fields s) = true) as ->.
  { apply forallb_forall. intros f Hin. apply full_spec. intros i l c fs. apply Hfull. exact Hin. }
  cbn [negb andb bind sd_try_from_type new_root fi_name]. rewrite (sd_new_ok m _ _ Hsh), <- Hlv. destruct s; reflexivity.
Qed.

Lemma file_round m f : good_file f -> exists t, file_into_thrift m f = Ok t /\ file_from_thrift m t = Ok (without_orders f).
Proof.
  intros (Hs & Hg & Hn). destruct (row_groups_round m _ _ Hg) as (t & E1 & E2). unfold file_into_thrift. rewrite E1. cbn [bind].
  eexists. split; [ reflexivity | ]. unfold file_from_thrift. cbn [fm_schema fm_row_groups fm_column_orders fm_num_rows fm_version fm_created_by fm_key_value].
  rewrite (good_schema_round m _ Hs). cbn [bind]. rewrite E2. cbn [bind]. change (2 ^ 63) with 9223372036854775808 in Hn. rewrite (try_usize_as_i64 _ Hn). reflexivity.
Qed.

(** * The end of a file *)
Lemma last_bytes_length n file : n <= nlen file -> nlen (last_bytes n file) = n.
Proof. intros H. unfold last_bytes. unfold nlen in *. rewrite skipn_length. lia. Qed.
Lemma last_bytes_last k n file : k <= n -> n <= nlen file -> last_bytes k (last_bytes n file) = last_bytes k file.
Proof.
  intros Hk Hn. unfold last_bytes at 1. rewrite last_bytes_length by exact Hn. unfold last_bytes. rewrite skipn_skipn_add. f_equal. unfold nlen in *. lia.
Qed.
Lemma seek_end_ok file n : n <= nlen file -> seek_end_read file n = Ok (last_bytes n file).
Proof.
  intros H. unfold seek_end_read. destruct (N.ltb_spec (nlen file) n); [ lia | ]. unfold read_end, last_bytes. do 2 f_equal. unfold nlen in *. lia.
Qed.
Lemma slice_last n file : n <= nlen file -> slice_from (N.to_nat (nlen file - n)) file = Ok (last_bytes n file).
Proof. intros H. unfold slice_from. destruct (Nat.leb_spec (N.to_nat (nlen file - n)) (length file)); [ reflexivity | unfold nlen in *; lia ]. Qed.

Lemma metadata_len_last file n : 8 <= n -> n <= nlen file ->
  metadata_len (last_bytes n file) (N.to_nat n) = Ok (declared_length file).
Proof.
  intros H8 Hn. unfold metadata_len, declared_length. pose proof (last_bytes_length n file Hn) as Hl.
  replace ((8 <=? N.to_nat n)%nat && (N.to_nat n - 4 <=? length (last_bytes n file))%nat) with true by (unfold nlen in Hl; lia).
  rewrite <- (last_bytes_last 8 n file) by assumption. unfold last_bytes at 2. rewrite Hl.
  replace (N.to_nat (n - 8)) with (N.to_nat n - 8)%nat by lia. reflexivity.
Qed.

Lemma with_size_exact T m file : framed file ->
  read_metadata T m file = deserialize_metadata T m (footer file) (2 * nlen (footer file) + 1024).
Proof.
  intros (H12 & Hm & H0 & Hlen). unfold read_metadata, read_metadata_with_size. set (n := N.min default_footer_read_size (nlen file)).
  assert (Hn : 8 <= n <= nlen file) by (unfold n, default_footer_read_size; lia).
  destruct (N.ltb_spec (nlen file) 12); [ lia | ]. cbv zeta. rewrite seek_end_ok by lia. cbn [bind].
  pose proof (last_bytes_length n file ltac:(lia)) as Hbl.
  replace (N.to_nat n - 4)%nat with (N.to_nat (nlen (last_bytes n file) - 4)) by lia. rewrite slice_last by lia. cbn [bind].
  rewrite last_bytes_last by lia. rewrite Hm. cbn [bytes_eqb magic N.eqb Pos.eqb andb negb].
  rewrite metadata_len_last by lia. cbn [bind]. rewrite (try_usize_ok _ H0). cbn [bind]. unfold footer_size.
  destruct (N.ltb_spec (nlen file) (8 + Z.to_N (declared_length file))); [ lia | ].
  assert (E : (if 8 + Z.to_N (declared_length file) <? nlen (last_bytes n file)
     then slice_from (N.to_nat (nlen (last_bytes n file) - (8 + Z.to_N (declared_length file)))) (last_bytes n file)
     else seek_end_read file (8 + Z.to_N (declared_length file))) = Ok (footer file)).
  { unfold footer. rewrite (N.add_comm (Z.to_N (declared_length file)) 8). destruct (N.ltb_spec (8 + Z.to_N (declared_length file)) (nlen (last_bytes n file))) as [Hlt|Hge].
    - rewrite slice_last by lia. rewrite last_bytes_last by lia. reflexivity.
    - rewrite seek_end_ok by lia. reflexivity. }
  rewrite E. cbn [bind]. rewrite (N.mul_comm (nlen (footer file)) 2). reflexivity.
Qed.

Lemma not_framed T m file : ~ framed file -> read_metadata T m file = Err OutOfSpec.
Proof.
  intros Hf. unfold read_metadata, read_metadata_with_size. set (n := N.min default_footer_read_size (nlen file)).
  destruct (N.ltb_spec (nlen file) 12); [ reflexivity | ].
  assert (Hn : 8 <= n <= nlen file) by (unfold n, default_footer_read_size; lia).
  cbv zeta. rewrite seek_end_ok by lia. cbn [bind].
  pose proof (last_bytes_length n file ltac:(lia)) as Hbl.
  replace (N.to_nat n - 4)%nat with (N.to_nat (nlen (last_bytes n file) - 4)) by lia. rewrite slice_last by lia. cbn [bind].
  rewrite last_bytes_last by lia. destruct (bytes_eqb (last_bytes 4 file) magic) eqn:Em; [ | reflexivity ]. apply bytes_eqb_ok in Em. cbn [negb].
  rewrite metadata_len_last by lia. cbn [bind]. unfold try_usize. destruct (Z.ltb_spec (declared_length file) 0); [ reflexivity | ]. cbn [bind]. unfold footer_size.
  destruct (N.ltb_spec (nlen file) (8 + Z.to_N (declared_length file))); [ reflexivity | ].
  exfalso. apply Hf. unfold framed. split; [ assumption | ]. split; [ exact Em | ]. lia.
Qed.

(** A file that ends in some bytes, their length and the magic. *)
Lemma framed_file pre enc : 4 <= nlen pre -> nlen enc < 2 ^ 31 ->
  framed (pre ++ enc ++ to_le 4 (nlen enc) ++ magic) /\
  footer (pre ++ enc ++ to_le 4 (nlen enc) ++ magic) = enc ++ to_le 4 (nlen enc) ++ magic.
Proof.
  change (2 ^ 31) with 2147483648. intros Hpre Hlen. set (file := pre ++ enc ++ to_le 4 (nlen enc) ++ magic).
  assert (Hfl : nlen file = nlen pre + nlen enc + 8).
  { unfold file, nlen. rewrite !app_length, to_le_length. cbn [length magic]. lia. }
  assert (H8 : last_bytes 8 file = to_le 4 (nlen enc) ++ magic).
  { unfold last_bytes. rewrite Hfl. unfold file. rewrite app_assoc. apply skipn_nlen_app. rewrite nlen_app. lia. }
  assert (H4 : last_bytes 4 file = magic).
  { rewrite <- (last_bytes_last 4 8) by lia. rewrite H8. unfold last_bytes. apply skipn_nlen_app. rewrite nlen_app. change (nlen magic) with 4. lia. }
  assert (Hdl : declared_length file = Z.of_N (nlen enc)).
  { unfold declared_length. rewrite H8.
    replace (firstn 4 (to_le 4 (nlen enc) ++ magic)) with (to_le 4 (nlen enc)) by reflexivity.
    rewrite le_to_le_small by (change (2 ^ (8 * N.of_nat 4)) with 4294967296; lia).
    unfold to_signed. change (2 ^ (Z.of_N 32 - 1))%Z with 2147483648%Z. change (2 ^ (32 - 1)) with 2147483648.
    match goal with |- (if ?b then _ else _) = _ => destruct b eqn:E end; lia. }
  split.
  - split; [ lia | ]. split; [ exact H4 | ]. lia.
  - unfold footer. rewrite Hdl, N2Z.id. unfold last_bytes. rewrite Hfl. unfold file. apply skipn_nlen_app. lia.
Qed.

(** * Panics *)
Lemma collect_no_panic {A} (l : list (res A)) : Forall (fun x => x <> Panic) l -> collect_res l <> Panic.
Proof.
  induction l as [|x l IH]; intros H; [ discriminate | ]. cbn [collect_res]. apply bind_no_panic; [ exact (Forall_inv H) | ].
  intros a _. apply bind_no_panic; [ exact (IH (Forall_inv_tail H)) | discriminate ].
Qed.
Lemma try_usize_no_panic z : try_usize z <> Panic.
Proof. unfold try_usize. destruct (z <? 0)%Z; discriminate. Qed.
Lemma codec_no_panic z : compression_of_thrift z <> Panic.
Proof. destruct z as [|p|p]; cbn; try discriminate. repeat (destruct p as [p|p|]; cbn; try discriminate). Qed.
Lemma column_no_panic d c : column_from_thrift d c <> Panic.
Proof.
  unfold column_from_thrift. destruct (cc_meta c); [ | discriminate ].
  repeat (apply bind_no_panic; [ first [ apply try_usize_no_panic | apply codec_no_panic | idtac ] | intros ? _; try discriminate ]).
  destruct (cm_dictionary_page_offset _); [ apply bind_no_panic; [ apply try_usize_no_panic | discriminate ] | discriminate ].
Qed.
Lemma row_group_no_panic s g : row_group_from_thrift s g <> Panic.
Proof.
  unfold row_group_from_thrift. destruct (negb _); [ discriminate | ].
  do 2 (apply bind_no_panic; [ apply try_usize_no_panic | intros ? _ ]).
  apply bind_no_panic; [ | discriminate ]. apply collect_no_panic. apply Forall_forall. intros x Hx. apply in_map_iff in Hx as (y & <- & _).
  apply column_no_panic.
Qed.
Lemma file_no_panic m t : sd_try_from_thrift m (fm_schema t) <> Panic -> file_from_thrift m t <> Panic.
Proof.
  intros Hs. unfold file_from_thrift. apply bind_no_panic; [ exact Hs | ]. intros s _. apply bind_no_panic.
  - apply collect_no_panic. apply Forall_forall. intros x Hx. apply in_map_iff in Hx as (y & <- & _). apply row_group_no_panic.
  - intros gs _. apply bind_no_panic; [ apply try_usize_no_panic | discriminate ].
Qed.

Lemma build_tree_wraps : forall t base rep def leaves path, build_tree Wrapping t base rep def leaves path <> Panic.
Proof.
  assert (Hw : forall a b, exists c, sadd Wrapping 16 a b = Ok c).
  { intros a b. unfold sadd. destruct (in_s 16 (a + b)); eexists; reflexivity. }
  induction t as [p|i l c fields IH] using parquet_ind; intros base rep def leaves path; cbn [build_tree].
  - apply bind_no_panic; [ | intros ? _; apply bind_no_panic; [ | discriminate ] ]; destruct (fi_repetition _); try discriminate;
      match goal with |- sadd _ _ ?a ?b <> _ => destruct (Hw a b) as [x ->]; discriminate end.
  - apply bind_no_panic; [ | intros d _; apply bind_no_panic; [ | intros r _ ] ].
    1, 2: destruct (fi_repetition _); try discriminate; match goal with |- sadd _ _ ?a ?b <> _ => destruct (Hw a b) as [x ->]; discriminate end.
    generalize (path ++ [type_name (Group i l c fields)]). generalize leaves. clear leaves path. induction fields as [|f fields IHf]; intros leaves path; [ discriminate | ].
    apply bind_no_panic; [ exact (Forall_inv IH base r d leaves path) | ]. intros [lv pa] _. apply IHf. exact (Forall_inv_tail IH).
Qed.
Lemma sd_new_wraps name fields : sd_new Wrapping name fields <> Panic.
Proof.
  unfold sd_new. apply bind_no_panic; [ | discriminate ]. generalize (@nil column_descriptor).
  induction fields as [|f fields IH]; intros lv; cbn [build_all]; [ discriminate | ].
  apply bind_no_panic; [ apply build_tree_wraps | ]. intros [a b] _. apply IH.
Qed.
Lemma schema_wraps e : sd_try_from_thrift Wrapping e <> Panic.
Proof.
  unfold sd_try_from_thrift. apply bind_no_panic; [ apply type_from_thrift_no_panic | ]. intros [p|i l c fields] _; [ discriminate | ].
  apply sd_new_wraps.
Qed.
Lemma schema_shallow m e : (forall i l c fields, type_from_thrift e = Ok (Group i l c fields) -> Forall shallow fields) ->
  sd_try_from_thrift m e <> Panic.
Proof.
  intros H. unfold sd_try_from_thrift. apply bind_no_panic; [ apply type_from_thrift_no_panic | ]. intros [p|i l c fields] E; [ discriminate | ].
  cbn [sd_try_from_type]. rewrite sd_new_ok by (exact (H _ _ _ _ E)). discriminate.
Qed.

(** Reading with a claimed size that may be wrong. *)
Lemma with_size_no_panic T m file size :
  (forall max b, t_dec T max b <> Panic) ->
  (m = Checked -> forall max b t r i l c fields, t_dec T max b = Ok (t, r) -> (length b <= length file)%nat ->
     type_from_thrift (fm_schema t) = Ok (Group i l c fields) -> Forall shallow fields) ->
  read_metadata_with_size T m file size <> Panic.
Proof.
  intros HT Hm. unfold read_metadata_with_size. destruct (N.ltb_spec size 12); [ discriminate | ]. cbv zeta.
  set (n := N.min default_footer_read_size size). assert (Hn : 12 <= n) by (unfold n, default_footer_read_size; lia).
  destruct (N.leb_spec n (nlen file)) as [Hf|Hf]; [ | unfold seek_end_read; destruct (N.ltb_spec (nlen file) n); [ discriminate | lia ] ].
  rewrite seek_end_ok by lia. cbn [bind]. pose proof (last_bytes_length n file ltac:(lia)) as Hbl.
  replace (N.to_nat n - 4)%nat with (N.to_nat (nlen (last_bytes n file) - 4)) by lia. rewrite slice_last by lia. cbn [bind].
  destruct (negb _); [ discriminate | ]. rewrite metadata_len_last by lia. cbn [bind]. apply bind_no_panic; [ apply try_usize_no_panic | ].
  intros len _. destruct (size <? footer_size + len); [ discriminate | ].
  assert (Hd : forall b max, (length b <= length file)%nat -> deserialize_metadata T m b max <> Panic).
  { intros b max Hb. unfold deserialize_metadata. apply bind_no_panic; [ apply HT | ]. intros [t r] E. apply file_no_panic.
    destruct m; [ | apply schema_wraps ]. apply schema_shallow. intros i l c fields Et. exact (Hm eq_refl _ _ _ _ _ _ _ _ E Hb Et). }
  assert (Hlb : forall k, (length (last_bytes k file) <= length file)%nat) by (intros k; unfold last_bytes; rewrite skipn_length; lia).
  destruct (N.ltb_spec (footer_size + len) (nlen (last_bytes n file))) as [Hlt|Hge].
  - rewrite slice_last by lia. rewrite last_bytes_last by lia. cbn [bind]. apply Hd. apply Hlb.
  - unfold seek_end_read. destruct (N.ltb_spec (nlen file) (footer_size + len)); [ discriminate | ]. cbn [bind].
    replace (read_end file (footer_size + len)) with (last_bytes (footer_size + len) file) by (unfold read_end, last_bytes; f_equal; unfold nlen in *; lia).
    apply Hd. apply Hlb.
Qed.

(** * Row groups *)
Lemma filter_from_ok p : forall l i, filter_from p i l = map snd (filter (fun x => p (snd x) (fst x)) (combine (seq i (length l)) l)).
Proof.
  induction l as [|g l IH]; intros i; [ reflexivity | ]. cbn [filter_from length seq combine filter fst snd]. rewrite (IH (S i)).
  destruct (p g i); reflexivity.
Qed.

(** * Columns *)
Lemma get_page_iterator_ok c file filter scratch max : chunk_located (cmd_chunk c) ->
  exists r, get_page_iterator c file filter scratch max = Ok r /\ reader_of file filter max scratch c r.
Proof.
  unfold chunk_located, get_page_iterator, byte_range, cmd_compression, cmd_meta, reader_of.
  destruct (cc_meta (cmd_chunk c)) as [meta|]; [ | intros [] ].
  intros ([H1 H2] & [H3 H4] & H5 & codec & H6). change (2 ^ 63)%Z with 9223372036854775808%Z in *. cbn [bind]. rewrite H6, codec_round. cbn [bind].
  eexists. split; [ reflexivity | ]. exists meta, codec. split; [ reflexivity | ]. split; [ exact H6 | ].
  unfold pr_new, chunk_start. f_equal. f_equal. f_equal. destruct (cm_dictionary_page_offset meta); [ destruct H5 | ]; rewrite as_usize_nonneg; try reflexivity; lia.
Qed.

Lemma pop_last {A} (l : list A) a : pop (l ++ [a]) = Some (a, l).
Proof. unfold pop. rewrite rev_app_distr. cbn [rev app]. rewrite rev_involutive. reflexivity. Qed.

Lemma ci_visits file : forall cs uses it, ci_columns it = rev cs -> length uses = length cs ->
  Forall (fun c => chunk_located (cmd_chunk c)) cs ->
  exists l b, visits (ci_advance file) ci_current ci_put it uses l b /\
    in_order file (ci_filter it) (ci_max it) (match ci_current it with Some (r, _) => pr_scratch r | None => ci_scratch it end) cs uses l b.
Proof.
  induction cs as [|c cs IH]; intros uses it Hc Hl Hok.
  - destruct uses; [ | discriminate Hl ]. exists [], (match ci_current it with Some (r, _) => pr_scratch r | None => ci_scratch it end).
    split; [ | constructor ]. constructor. unfold ci_advance. rewrite Hc. reflexivity.
  - destruct uses as [|u uses]; [ discriminate Hl | ]. cbn [length] in Hl. cbn [rev] in Hc.
    set (scratch := match ci_current it with Some (r, _) => pr_scratch r | None => ci_scratch it end) in *.
    destruct (get_page_iterator_ok c file (ci_filter it) scratch (ci_max it) (Forall_inv Hok)) as (r & Er & Hr).
    assert (Ea : ci_advance file it = Ok (inl (mk_ci (rev cs) (ci_filter it) (Some (r, c)) [] (ci_max it)))).
    { unfold ci_advance. fold scratch. rewrite Hc, pop_last, Er. reflexivity. }
    set (it1 := mk_ci (rev cs) (ci_filter it) (Some (r, c)) [] (ci_max it)) in *.
    destruct (IH uses (ci_put it1 (u (r, c))) eq_refl ltac:(lia) (Forall_inv_tail Hok)) as (l & b & Hv & Ho).
    exists ((r, c) :: l), b. split; [ econstructor; [ exact Ea | reflexivity | exact Hv ] | ].
    constructor; [ exact Hr | ]. cbn [ci_put ci_filter ci_max ci_current it1] in Ho. destruct (u (r, c)) as [r' c']. exact Ho.
Qed.

Lemma rci_visits : forall cs uses it, rci_chunks it = rev cs -> length uses = length cs ->
  visits rci_advance rci_current rci_put it uses cs [].
Proof.
  induction cs as [|c cs IH]; intros uses it Hc Hl.
  - destruct uses; [ | discriminate Hl ]. constructor. unfold rci_advance. rewrite Hc. reflexivity.
  - destruct uses as [|u uses]; [ discriminate Hl | ]. cbn [length] in Hl. cbn [rev] in Hc.
    econstructor; [ unfold rci_advance; rewrite Hc, pop_last; reflexivity | reflexivity | ]. apply IH; [ reflexivity | lia ].
Qed.

Lemma get_field_columns_ok name : forall l, Forall (fun c => cd_path (cmd_descr c) <> []) l ->
  get_field_columns l name = Ok (filter (fun c => match cd_path (cmd_descr c) with n :: _ => bytes_eqb n name | [] => false end) l).
Proof.
  induction l as [|c l IH]; intros H; [ reflexivity | ]. cbn [get_field_columns filter]. pose proof (Forall_inv H) as Hc. cbn beta in Hc.
  destruct (cd_path (cmd_descr c)) as [|n p]; [ congruence | ]. rewrite (IH (Forall_inv_tail H)). cbn [bind]. destruct (bytes_eqb n name); reflexivity.
Qed.
