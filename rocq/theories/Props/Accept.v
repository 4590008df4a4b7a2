(** C97 and additions to C63, C65, C79: accepted metadata, the bytes of columns, sort orders, and metadata sidecars. *)
From Verif Require Import Base.Prelude Base.Codec Base.LeFacts Model.Types Model.Thrift Model.Intervals Model.Page Model.Io Model.Schema Model.Metadata Model.FileWrite
  Spec.SchemaSpec Spec.MetadataSpec Spec.AcceptSpec Proofs.TypesFacts Proofs.SchemaProofs Proofs.MetadataProofs Proofs.AcceptProofs Proofs.ThriftCodec
  Props.Schema Props.Metadata.
Open Scope N_scope.

(** * C63: of a file whose schema is read as [s], the metadata is accepted exactly if no size, offset or count is negative, the codecs are known and
    each row group has a chunk for each column; all of it is then kept, and each chunk goes with the column at its position. *)
Theorem metadata_accepted_exactly m s t : sd_try_from_thrift m (fm_schema t) = Ok s ->
  (file_acceptable s t -> file_from_thrift m t = Ok (metadata_of s t)) /\
  (~ file_acceptable s t -> file_from_thrift m t = Err OutOfSpec).
Proof. intro Hs. destruct (file_exact m s t Hs) as [[H1 H2]|[H1 H2]]; split; intro H; [exact H2|contradiction|contradiction|exact H2]. Qed.
Print Assumptions metadata_accepted_exactly.
Definition ax_meta (chunk : t_column_chunk) : t_file_meta :=
  mk_tfm 1 (sd_into_thrift sx_descriptor) 5 [mk_trg [mx_chunk 4 None; chunk; mx_chunk 90 None] 120 5 None None None None] None None (Some [TTypeOrder]) None None.
Example metadata_accepted_exactly_case :
  sd_try_from_thrift Checked (fm_schema (ax_meta (mx_chunk 60 (Some 44%Z)))) = Ok sx_descriptor /\
  file_acceptable sx_descriptor (ax_meta (mx_chunk 60 (Some 44%Z))) /\
  file_from_thrift Checked (ax_meta (mx_chunk 60 (Some 44%Z))) =
    Ok (mk_fmd 1 5 None [mk_rgm mx_columns 5 120] None sx_descriptor (Some [TypeDefined SSigned])) /\
  (~ file_acceptable sx_descriptor (ax_meta (mx_chunk (-1) None)) /\ ~ file_acceptable sx_descriptor (ax_meta (mx_chunk 60 (Some (-44)%Z)))).
Proof.
  split; [vm_compute; reflexivity|]. split; [|split; [vm_compute; reflexivity|]].
  - split; [|cbn; lia]. apply Forall_cons; [|apply Forall_nil]. split; [reflexivity|]. split; [cbn; lia|]. split; [cbn; lia|].
    repeat (apply Forall_cons; [split; [cbn; lia|]; cbn; intros o [= <-] || intros o H; try discriminate H; lia|]). apply Forall_nil.
  - split; intros [H _]; apply Forall_inv in H; destruct H as (_ & _ & _ & H); apply Forall_inv_tail, Forall_inv in H; destruct H as [H1 H2].
    + cbn in H1. lia.
    + specialize (H2 _ eq_refl). lia.
Qed.

(** * C65: reading a chunk gives its bytes, and reading the columns of a field gives the bytes of each, in order. *)
Theorem column_bytes_read file c bytes : chunk_located (cmd_chunk c) -> chunk_at file c bytes -> read_column file c = Ok bytes.
Proof. apply read_at_chunk. Qed.
Print Assumptions column_bytes_read.
Theorem field_bytes_read file columns name chunks :
  Forall (fun c => cd_path (cmd_descr c) <> [] /\ chunk_located (cmd_chunk c)) columns -> Forall2 (chunk_at file) columns chunks ->
  read_columns file columns name =
    Ok (filter (fun x => match cd_path (cmd_descr (fst x)) with n :: _ => bytes_eqb n name | [] => false end) (combine columns chunks)).
Proof.
  intros Hl Hc. unfold read_columns. induction Hc as [|c b columns chunks Hcb Hrest IH]; [reflexivity|].
  pose proof (Forall_inv Hl) as [Hp Hloc]. apply Forall_inv_tail in Hl. specialize (IH Hl). cbn [get_field_columns combine filter fst].
  destruct (cd_path (cmd_descr c)) as [|n path] eqn:Ep; [congruence|]. revert IH. destruct (get_field_columns columns name) as [l| |]; cbn [bind]; intro IH; try discriminate IH.
  destruct (bytes_eqb n name); [|exact IH]. cbn [map collect_res]. rewrite (read_at_chunk file c b Hloc Hcb). cbn [bind]. rewrite IH. reflexivity.
Qed.
Print Assumptions field_bytes_read.
(** A file that ends within the chunk is not reported: the bytes there are returned. *)
Theorem cut_column_refuted : exists file c meta bytes,
  cc_meta (cmd_chunk c) = Some meta /\ chunk_located (cmd_chunk c) /\ read_column file c = Ok bytes /\ nlen bytes < chunk_length meta /\
  nlen file < chunk_start meta + chunk_length meta.
Proof.
  exists [1; 2; 3; 4; 5; 6], (mk_cmd (mx_chunk 4 None) (hd (mk_cdescr (mk_descr (mk_prim (mk_fi [] Required None) None None Int32) 0 0) [] sx_int) (columns_of sx_fields))), (mx_meta 4 None), [5; 6].
  split; [reflexivity|]. split; [refine (conj (conj _ _) (conj (conj _ _) (conj _ (ex_intro _ Snappy eq_refl)))); cbn; try lia; exact I|]. vm_compute. repeat split.
Qed.
Print Assumptions cut_column_refuted.
Example field_bytes_read_case :
  let file := repeat 7 4 ++ repeat 1 30 ++ repeat 7 10 ++ repeat 2 30 ++ repeat 7 16 ++ repeat 3 30 ++ [9; 9] in
  Forall (fun c => cd_path (cmd_descr c) <> [] /\ chunk_located (cmd_chunk c)) mx_columns /\
  Forall2 (chunk_at file) mx_columns [repeat 1 30; repeat 2 30; repeat 3 30] /\
  map (fun c => hd [] (cd_path (cmd_descr c))) mx_columns = [[97]; [98]; [100]] /\
  read_columns file mx_columns [98] = Ok [(nth 1 mx_columns (mk_cmd (mx_chunk 0 None) (mk_cdescr (mk_descr (mk_prim (mk_fi [] Required None) None None Int32) 0 0) [] sx_int)), repeat 2 30)].
Proof.
  cbv zeta. split; [|split; [|split; [reflexivity|vm_compute; reflexivity]]].
  - pose proof (proj1 (proj2 (Forall_inv (proj1 (proj2 mx_good))))) as H. rewrite Forall_forall in *. intros c Hc. split; [|exact (H c Hc)].
    destruct Hc as [<-|[<-|[<-|[]]]]; discriminate.
  - unfold mx_columns. cbn [combine columns_of map]. repeat apply Forall2_cons; try apply Forall2_nil; cbn [cmd_chunk fst]; unfold chunk_at.
    + exists (mx_meta 4 None), (repeat 7 4), (repeat 7 10 ++ repeat 2 30 ++ repeat 7 16 ++ repeat 3 30 ++ [9; 9]). repeat split.
    + exists (mx_meta 60 (Some 44%Z)), (repeat 7 4 ++ repeat 1 30 ++ repeat 7 10), (repeat 7 16 ++ repeat 3 30 ++ [9; 9]). repeat split.
    + exists (mx_meta 90 None), (repeat 7 4 ++ repeat 1 30 ++ repeat 7 10 ++ repeat 2 30 ++ repeat 7 16), [9; 9]. repeat split.
Qed.

(** * C79: the sort order of every type, as the format defines it; a column of a file that declares no orders is taken to be of signed order. *)
Theorem sort_order_table l c p :
  (get_sort_order l c p = SUndefined <-> unordered l c p) /\ (get_sort_order l c p = SUnsigned <-> unsigned_order l c p) /\
  order_sort (TypeDefined (get_sort_order l c p)) = get_sort_order l c p /\ order_sort UndefinedOrder = SSigned.
Proof.
  split; [|split; [|split; reflexivity]]; unfold unordered, unsigned_order, get_sort_order.
  - destruct l as [l|].
    + split; [intro H; left; destruct l; try discriminate H; try reflexivity; match goal with k : integer_type |- _ => destruct k end; discriminate H|].
      intros [[= ->]|[H _]]; [reflexivity|discriminate H].
    + destruct c as [c|].
      * split; [intro H; right; split; [reflexivity|left]; destruct c; try discriminate H; reflexivity|].
        intros [H|[_ [[= ->]|[H _]]]]; [discriminate H|reflexivity|discriminate H].
      * split; [intro H; right; split; [reflexivity|right]; split; [reflexivity|]; destruct p; try discriminate H; reflexivity|].
        intros [H|[_ [H|[_ ->]]]]; [discriminate H|discriminate H|reflexivity].
  - destruct l as [l|]; [|destruct c as [c|]].
    + split; [intro H; destruct l; try discriminate H; try (match goal with k : integer_type |- _ => destruct k end; try discriminate H); cbn [In]; tauto|].
      cbn [In]. intro H. repeat destruct H as [H|H]; subst; try reflexivity; destruct H.
    + split; [intro H; destruct c; try discriminate H; cbn [In]; tauto|].
      cbn [In]. intro H. repeat destruct H as [H|H]; subst; try reflexivity; destruct H.
    + split; [intro H; destruct p; try discriminate H; eauto|]. intros [->|[->|[n ->]]]; reflexivity.
Qed.
Print Assumptions sort_order_table.
Example sort_order_table_case :
  unordered None (Some CInterval) (FixedLenByteArray 12) /\ unsigned_order (Some LUuid) None (FixedLenByteArray 16) /\
  ~ unordered None None Double /\ ~ unsigned_order None None Double.
Proof. unfold unordered, unsigned_order. split; [auto 6|]. split; [cbn; auto 9|]. split; [intuition discriminate|]. intros [H|[H|[n H]]]; discriminate H. Qed.

(** * C97 *)

Lemma sidecar_bytes T m meta data :
  write_metadata_sidecar T m meta (mk_sink data None) =
    (mk_sink (data ++ magic ++ t_enc T meta ++ to_le 4 (of_signed 32 (as_i32 (nlen (t_enc T meta)))) ++ magic) None,
     let* n := uadd m 64 (as_usize (as_i32 (nlen (t_enc T meta)))) footer_size in uadd m 64 4 n).
Proof.
  unfold write_metadata_sidecar, end_file, write_struct, wbind, wres, wret, write_all. cbn [sk_room sk_data].
  rewrite <- !app_assoc. destruct (uadd m 64 (as_usize (as_i32 (nlen (t_enc T meta)))) footer_size); reflexivity.
Qed.

(** A sidecar begins with the magic bytes, has the length that is returned, and is opened to the metadata it was written from. *)
Theorem sidecar_readable T m meta data : (forall max, reads_back T max meta) -> nlen (t_enc T meta) < 2 ^ 31 ->
  exists bytes, write_metadata_sidecar T m meta (mk_sink data None) = (mk_sink (data ++ bytes) None, Ok (nlen bytes)) /\
    firstn 4 bytes = [80; 65; 82; 49] /\ read_metadata T m bytes = file_from_thrift m meta.
Proof.
  intros HT Hlen. exists (magic ++ t_enc T meta ++ to_le 4 (nlen (t_enc T meta)) ++ magic).
  assert (E : of_signed 32 (as_i32 (nlen (t_enc T meta))) = nlen (t_enc T meta) /\ as_usize (as_i32 (nlen (t_enc T meta))) = nlen (t_enc T meta)).
  { change (2 ^ 31) with 2147483648 in Hlen. rewrite as_i32_small by (change (2 ^ 31)%Z with 2147483648%Z; lia). unfold as_usize, of_signed.
    change (2 ^ Z.of_N 32)%Z with 4294967296%Z. change (2 ^ Z.of_N 64)%Z with 18446744073709551616%Z. rewrite !Z.mod_small, !N2Z.id by lia. split; reflexivity. }
  destruct E as [E1 E2]. rewrite sidecar_bytes, E1, E2. split; [|split; [reflexivity|]].
  - f_equal. unfold uadd, footer_size. change (2 ^ 31) with 2147483648 in Hlen. change (2 ^ 64) with 18446744073709551616.
    replace (nlen (t_enc T meta) + 8 <? 18446744073709551616) with true by lia. cbn [bind].
    replace (4 + (nlen (t_enc T meta) + 8) <? 18446744073709551616) with true by lia. f_equal.
    unfold nlen. rewrite !app_length, to_le_length. cbn [length magic]. lia.
  - destruct (framed_file magic (t_enc T meta) ltac:(cbv; discriminate) Hlen) as [Hfr Hft].
    rewrite (open_exact T m _ Hfr), Hft. rewrite (proj2 (HT _)). reflexivity.
Qed.
Print Assumptions sidecar_readable.
Example sidecar_readable_case :
  (forall max, reads_back ex_file_meta max mx_thrift) /\ nlen (t_enc ex_file_meta mx_thrift) < 2 ^ 31 /\ file_from_thrift Checked mx_thrift = Ok mx_file.
Proof.
  split; [|split; vm_compute; reflexivity]. intro max. apply of_codec_reads_back.
  apply (csound c_file_meta (cenc c_file_meta mx_thrift) mx_thrift []). vm_compute. reflexivity.
Qed.

(** Not for metadata of 2 GiB or more (and less than 4 GiB): the sidecar is written without an error, the length that is returned is wrong and it cannot be opened. *)
Theorem sidecar_large_refuted T m meta data : 2 ^ 31 <= nlen (t_enc T meta) < 2 ^ 32 - 12 ->
  exists bytes n, write_metadata_sidecar T m meta (mk_sink data None) = (mk_sink (data ++ bytes) None, Ok n) /\
    n <> nlen bytes /\ read_metadata T m bytes = Err OutOfSpec.
Proof.
  intro H. change (2 ^ 31) with 2147483648 in H. change (2 ^ 32 - 12) with 4294967284 in H.
  set (k := nlen (t_enc T meta)) in *.
  assert (E0 : as_i32 k = (Z.of_N k - 4294967296)%Z).
  { unfold as_i32, wrap_s, of_signed, to_signed. change (2 ^ Z.of_N 32)%Z with 4294967296%Z. change (2 ^ (32 - 1)) with 2147483648.
    rewrite Z.mod_small, N2Z.id by lia. replace (k <? 2147483648) with false by lia. reflexivity. }
  assert (E1 : of_signed 32 (as_i32 k) = k).
  { rewrite E0. unfold of_signed. change (2 ^ Z.of_N 32)%Z with 4294967296%Z. replace ((Z.of_N k - 4294967296) mod 4294967296)%Z with (Z.of_N k); [apply N2Z.id|].
    apply (Z.mod_unique_pos _ _ (-1)); lia. }
  assert (E2 : as_usize (as_i32 k) = k + 18446744069414584320).
  { rewrite E0. unfold as_usize, of_signed. change (2 ^ Z.of_N 64)%Z with 18446744073709551616%Z.
    replace ((Z.of_N k - 4294967296) mod 18446744073709551616)%Z with (Z.of_N (k + 18446744069414584320)); [apply N2Z.id|].
    apply (Z.mod_unique_pos _ _ (-1)); lia. }
  exists (magic ++ t_enc T meta ++ to_le 4 k ++ magic), (4 + (k + 18446744069414584320 + 8)).
  rewrite sidecar_bytes. fold k. rewrite E1, E2. split; [|split].
  - f_equal. unfold uadd, footer_size. change (2 ^ 64) with 18446744073709551616.
    replace (k + 18446744069414584320 + 8 <? 18446744073709551616) with true by lia. cbn [bind].
    replace (4 + (k + 18446744069414584320 + 8) <? 18446744073709551616) with true by lia. reflexivity.
  - unfold nlen. rewrite !app_length, to_le_length. cbn [length magic]. fold (nlen (t_enc T meta)). unfold k, nlen in *. lia.
  - apply not_framed. intros (_ & _ & Hd & _). revert Hd. unfold declared_length.
    assert (El : last_bytes 8 (magic ++ t_enc T meta ++ to_le 4 k ++ magic) = to_le 4 k ++ magic).
    { unfold last_bytes. rewrite app_assoc, skipn_app.
      replace (N.to_nat (nlen ((magic ++ t_enc T meta) ++ to_le 4 k ++ magic) - 8)) with (length (magic ++ t_enc T meta)).
      2: { unfold nlen. rewrite (app_length (magic ++ _)), (app_length (to_le 4 k)), to_le_length. cbn [length magic]. lia. }
      rewrite skipn_all, Nat.sub_diag. reflexivity. }
    rewrite El. rewrite firstn_app, to_le_length, Nat.sub_diag, firstn_O, app_nil_r. rewrite firstn_all2 by (rewrite to_le_length; lia).
    rewrite le_to_le. change (2 ^ (8 * N.of_nat 4)) with 4294967296. rewrite N.mod_small by lia. unfold to_signed. change (2 ^ (32 - 1)) with 2147483648.
    replace (k <? 2147483648) with false by lia. change (2 ^ Z.of_N 32)%Z with 4294967296%Z. lia.
Qed.
Print Assumptions sidecar_large_refuted.
Example sidecar_large_case : exists (T : thrift t_file_meta) meta, 2 ^ 31 <= nlen (t_enc T meta) < 2 ^ 32 - 12.
Proof.
  exists (mk_thrift (fun _ => repeat 0 (N.to_nat (2 ^ 31))) (fun _ _ => Err OutOfSpec)), mx_thrift. cbn [t_enc]. unfold nlen. rewrite repeat_length, N2Nat.id.
  split; [apply N.le_refl|reflexivity].
Qed.
