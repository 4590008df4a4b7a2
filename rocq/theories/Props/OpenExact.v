(** C49: exactly which files make opening panic. *)
From Verif Require Import Base.Prelude Base.LeFacts Model.Types Model.Thrift Model.Intervals Model.Page Model.Io Model.Schema Model.PageRead Model.Metadata
  Spec.SchemaSpec Spec.MetadataSpec Proofs.TypesFacts Proofs.HybridEncProofs Proofs.SchemaProofs Proofs.MetadataProofs Proofs.ThriftCodec Props.Schema Props.Metadata.
Open Scope N_scope.

Lemma sadd16_over a : (32767 <= a)%Z -> sadd Checked 16 a 1 = Panic.
Proof.
  intros H. unfold sadd, in_s. change (Z.of_N 16 - 1)%Z with 15%Z. change (2 ^ 15)%Z with 32768%Z.
  replace ((- (32768) <=? a + 1) && (a + 1 <? 32768))%Z with false by (symmetry; lia). reflexivity.
Qed.
Lemma list_max_in l k : (k <= list_max l)%nat -> (0 < k)%nat -> exists x, In x l /\ (k <= x)%nat.
Proof.
  induction l as [|x l IH]; cbn [list_max fold_right]; [lia|]. intros H Hk. change (fold_right Nat.max 0%nat l) with (list_max l) in H.
  destruct (Nat.le_gt_cases k x) as [Hx|Hx]; [exists x; split; [left; reflexivity | exact Hx]|].
  destruct (IH ltac:(lia) Hk) as (y & Hy & Hle). exists y. split; [right; exact Hy | exact Hle].
Qed.
Lemma build_tree_panics base : forall t rep def leaves path,
  (0 <= rep)%Z -> (rep <= def)%Z -> (def <= 32767)%Z -> (32768 <= def + Z.of_nat (nesting t))%Z ->
  build_tree Checked t base rep def leaves path = Panic.
Proof.
  induction t as [p|i l c fields IH] using parquet_ind; intros rep def leaves path H0 H1 H2 H3.
  - cbn [build_tree get_field_info nesting] in *. unfold optional_or_repeated in H3.
    destruct (fi_repetition (pt_info p)); [lia | | ]; rewrite sadd16_over by lia; reflexivity.
  - cbn [build_tree get_field_info nesting] in *.
    assert (G : forall rep' def', (0 <= rep')%Z -> (rep' <= def')%Z -> (def' <= 32767)%Z -> (32768 <= def' + Z.of_nat (list_max (map nesting fields)))%Z ->
      forall lv path', (fix go (fields : list parquet_type) (leaves : list column_descriptor) (path : list (list N)) :=
         match fields with
         | [] => Ok (leaves, path)
         | f :: r => let* (leaves, path) := build_tree Checked f base rep' def' leaves path in go r leaves (removelast path)
         end) fields lv path' = Panic).
    { intros rep' def' A0 A1 A2 A3. destruct (list_max_in (map nesting fields) (Z.to_nat (32768 - def')) ltac:(lia) ltac:(lia)) as (k & Hk & Hle).
      apply in_map_iff in Hk as (f & <- & Hf). clear H3 A3. induction fields as [|g fields IHf]; [destruct Hf|]. intros lv path'.
      destruct (Z.le_gt_cases 32768 (def' + Z.of_nat (nesting g))) as [Hg|Hg].
      - rewrite (Forall_inv IH) by lia. reflexivity.
      - destruct Hf as [->|Hf]; [lia|]. rewrite build_tree_ok by lia. cbn [bind]. apply IHf; [exact (Forall_inv_tail IH) | exact Hf]. }
    unfold optional_or_repeated in H3. destruct (fi_repetition i) eqn:Er; cbn [bind].
    + apply G; lia.
    + destruct (Z.le_gt_cases 32767 def) as [Hd|Hd]; [rewrite sadd16_over by lia; reflexivity|]. rewrite sadd16 by lia. cbn [bind]. apply G; lia.
    + destruct (Z.le_gt_cases 32767 def) as [Hd|Hd]; [rewrite sadd16_over by lia; reflexivity|]. rewrite sadd16 by lia. cbn [bind]. rewrite sadd16 by lia. cbn [bind].
      apply G; lia.
Qed.

(** C49, C58. With checked arithmetic the columns of a schema are found exactly if no field nests more than 32767 optional or repeated levels. *)
Theorem schema_columns_panic name fields : sd_new Checked name fields = Panic <-> ~ Forall shallow fields.
Proof.
  split; [intros H Hs; rewrite sd_new_ok in H by exact Hs; discriminate|]. intros H. unfold sd_new.
  assert (G : forall lv, build_all Checked fields lv = Panic); [|rewrite G; reflexivity]. clear name.
  induction fields as [|f fields IH]; intros lv; [exfalso; apply H; constructor|]. cbn [build_all].
  destruct (Z.le_gt_cases 32768 (Z.of_nat (nesting f))) as [Hf|Hf].
  - rewrite build_tree_panics by lia. reflexivity.
  - rewrite build_tree_ok by lia. cbn [bind]. apply IH. intros Hs. apply H. constructor; [exact Hf | exact Hs].
Qed.
Print Assumptions schema_columns_panic.

(** C49. For all bytes, provided that the thrift decoder itself does not panic: with checked arithmetic, opening panics exactly if the file is well framed
    and its metadata decodes to a schema with a field that nests more than 32767 optional or repeated levels. (With wrapping arithmetic it never does:
    [open_total_partial].) *)
Theorem open_panics_exactly T file : (forall max b, t_dec T max b <> Panic) ->
  read_metadata T Checked file = Panic <->
  framed file /\ exists t r i l c fields, t_dec T (2 * nlen (footer file) + 1024) (footer file) = Ok (t, r) /\
    type_from_thrift (fm_schema t) = Ok (Group i l c fields) /\ ~ Forall shallow fields.
Proof.
  intros HT. split.
  - intros H. assert (Hf : framed file).
    { assert (Heq : last_bytes 4 file = [80; 65; 82; 49] \/ last_bytes 4 file <> [80; 65; 82; 49])
        by (destruct (bytes_eqb (last_bytes 4 file) [80; 65; 82; 49]) eqn:E; [ left; apply bytes_eqb_ok; exact E | right; intros F; apply bytes_eqb_ok in F; congruence ]).
      assert (Hd : framed file \/ ~ framed file).
      { unfold framed. destruct Heq; [ | tauto ]. destruct (N.le_gt_cases 12 (nlen file)); [ | right; lia ].
        destruct (Z.le_gt_cases 0 (declared_length file)); [ | right; lia ].
        destruct (Z.le_gt_cases (declared_length file + 8) (Z.of_N (nlen file))); [ tauto | right; lia ]. }
      destruct Hd as [Hd|Hd]; [exact Hd|]. rewrite (open_rejects T Checked file Hd) in H. discriminate. }
    split; [exact Hf|]. rewrite (open_exact T Checked file Hf) in H.
    destruct (t_dec T (2 * nlen (footer file) + 1024) (footer file)) as [[t r]| |] eqn:E; cbn [bind] in H; [|discriminate|exfalso; exact (HT _ _ E)].
    destruct (type_from_thrift (fm_schema t)) as [[p|i l c fields]|e|] eqn:Et.
    + exfalso. apply (file_no_panic Checked t); [|exact H]. unfold sd_try_from_thrift. rewrite Et. discriminate.
    + exists t, r, i, l, c, fields. split; [reflexivity|]. split; [exact Et|]. intros Hs. apply (file_no_panic Checked t); [|exact H].
      unfold sd_try_from_thrift. rewrite Et. cbn [bind sd_try_from_type]. rewrite sd_new_ok by exact Hs. discriminate.
    + exfalso. apply (file_no_panic Checked t); [|exact H]. unfold sd_try_from_thrift. rewrite Et. discriminate.
    + exfalso. exact (type_from_thrift_no_panic _ Et).
  - intros (Hf & t & r & i & l & c & fields & E & Et & Hs). rewrite (open_exact T Checked file Hf), E. cbn [bind].
    unfold file_from_thrift, sd_try_from_thrift. rewrite Et. cbn [bind sd_try_from_type]. rewrite (proj2 (schema_columns_panic _ _) Hs). reflexivity.
Qed.
Print Assumptions open_panics_exactly.

(** The condition is met by a schema of nested optional groups ([open_total_refuted]); fields of less depth, as in this file, are fine. *)
Example open_panics_exactly_case :
  ~ Forall shallow [nested (Z.to_nat 32768)] /\ Forall shallow sx_fields /\ framed mx_bytes /\ read_metadata ex_file_meta Checked mx_bytes = Ok mx_file.
Proof.
  split; [|split; [exact (proj1 schema_columns_witness) | split; apply open_witness]].
  intros H. apply Forall_inv in H. unfold shallow in H. change (2 ^ 15)%Z with 32768%Z in H.
  assert (E : forall n, nesting (nested n) = n).
  { induction n as [|n IH]; [reflexivity|]. cbn [nested nesting get_field_info map list_max fold_right]. rewrite IH. cbn. lia. }
  rewrite E in H. lia.
Qed.
