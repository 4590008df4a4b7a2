(** C56: the elements a schema is stored as. *)
From Verif Require Import Base.Prelude Model.Types Model.Thrift Model.Schema Spec.SchemaSpec Spec.ElementsSpec Proofs.TypesFacts Proofs.SchemaProofs Props.Schema.
Open Scope Z_scope.

Lemma to_helper_stored : forall t, stored t (to_thrift_helper t false).
Proof.
  induction t as [p|i l c fields IH] using parquet_ind; cbn [to_thrift_helper].
  - destruct (physical_to_thrift (pt_physical p)) as [ty len] eqn:Ep.
    destruct (match pt_converted p with Some c => let (a, b) := converted_to_thrift c in (Some a, b) | None => (None, None) end) as [cv dec] eqn:Ec.
    apply stored_leaf; cbn [se_type se_type_length se_repetition se_name se_num_children se_field_id se_converted se_logical].
    + destruct (pt_physical p); apply pair_equal_spec in Ep as [<- _]; reflexivity.
    + intros n Hn Hb. destruct (pt_physical p); try discriminate Hn. injection Hn as ->. apply pair_equal_spec in Ep as [_ <-].
      f_equal. apply as_i32_small. change (2 ^ 31)%N with 2147483648%N in Hb. lia.
    + intros Hn. destruct (pt_physical p); try discriminate Hn; apply pair_equal_spec in Ep as [_ <-]; reflexivity.
    + destruct (fi_repetition (pt_info p)); reflexivity.
    + reflexivity. + reflexivity. + reflexivity.
    + destruct (pt_converted p) as [k|]; [destruct (converted_to_thrift k) as [a b]|]; apply pair_equal_spec in Ec as [<- _]; split; intros X; try discriminate X; reflexivity.
    + destruct (pt_logical p); split; intros X; try discriminate X; reflexivity.
  - rewrite flat_map_concat_map. apply stored_group.
    + destruct (fi_repetition i); reflexivity.
    + constructor; cbn [se_type se_type_length se_repetition se_name se_num_children se_field_id se_converted se_logical]; try reflexivity.
      * intros Hb. f_equal. apply as_i32_small. change (2 ^ 31)%N with 2147483648%N in Hb. lia.
      * destruct c; split; intros X; try discriminate X; reflexivity.
      * destruct l; split; intros X; try discriminate X; reflexivity.
    + clear - IH. induction IH as [|f fields Hf _ IHf]; [constructor|]. cbn [map]. constructor; assumption.
Qed.

(** A schema is stored as the depth-first list of its types: each group with the number of its children, each type with its name,
    repetition and identifier, and the root with its name, the number of fields and no repetition. *)
Theorem schema_stored : forall s, stored_schema (sd_name s) (sd_fields s) (sd_into_thrift s).
Proof.
  intros [name fields leaves]. unfold sd_into_thrift, to_thrift, new_root. cbn [sd_name sd_fields to_thrift_helper]. rewrite flat_map_concat_map.
  apply stored_root; cbn [se_type se_type_length se_repetition se_name se_num_children se_field_id se_converted se_logical fi_name fi_id option_map]; try reflexivity.
  - intros Hb. f_equal. apply as_i32_small. change (2 ^ 31)%N with 2147483648%N in Hb. lia.
  - induction fields as [|f fields IH]; [constructor|]. cbn [map]. constructor; [apply to_helper_stored|exact IH].
Qed.
Print Assumptions schema_stored.
Example schema_stored_case :
  map se_repetition (sd_into_thrift sx_descriptor) <> [] /\ hd (Some 0) (map se_repetition (sd_into_thrift sx_descriptor)) = None /\
  (length (sd_into_thrift sx_descriptor) > 3)%nat.
Proof. vm_compute. repeat split; try discriminate; repeat constructor. Qed.
