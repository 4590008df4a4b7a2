(** C56, C57, C58, C59, C77, C78: schemas. *)
From Verif Require Import Base.Prelude Model.Types Model.Thrift Model.Schema Spec.SchemaSpec Proofs.TypesFacts Proofs.SchemaProofs.
Open Scope N_scope.

(** A schema for the examples: a required integer, a list of strings and a decimal. *)
Definition sx_int := Primitive (mk_prim (mk_fi [97] Required None) None None Int32).
Definition sx_string := Primitive (mk_prim (mk_fi [101] Optional (Some 7%Z)) (Some LString) (Some CUtf8) ByteArray).
Definition sx_list := Group (mk_fi [108] Repeated None) None None [sx_string].
Definition sx_outer := Group (mk_fi [98] Optional (Some 2%Z)) (Some LList) (Some GList) [sx_list].
Definition sx_decimal := Primitive (mk_prim (mk_fi [100] Optional None) (Some (LDecimal 9 2)) (Some (CDecimal 9 2)) (FixedLenByteArray 4)).
Definition sx_fields := [sx_int; sx_outer; sx_decimal].
Definition sx_descriptor := mk_sd [114] sx_fields (columns_of sx_fields).
Ltac within_inv Hw :=
  let Hin := fresh "Hin" in
  inversion Hw as [|? ? ? ? ? ? Hin ?]; subst; clear Hw;
  [ | repeat (destruct Hin as [Hin|Hin]; [ subst | ]); try (destruct Hin) ].
Lemma sx_storable f u : In f sx_fields -> within f u -> storable u.
Proof.
  unfold sx_fields, sx_decimal, sx_outer, sx_list, sx_string, sx_int. intros Hf Hw. destruct Hf as [<-|[<-|[<-|[]]]].
  - inversion Hw; subst. split; [ reflexivity | repeat constructor ].
  - within_inv Hw; [ reflexivity | ]. within_inv H; [ reflexivity | ].
    inversion H0; subst. split; [ reflexivity | repeat constructor ].
  - inversion Hw; subst. split; [ vm_compute; reflexivity | repeat constructor ].
Qed.

(** * C56 *)

(** A schema whose groups all have fields is the same after being flattened and parsed. *)
Theorem schema_round_trip m name fields s :
  sd_new m name fields = Ok s -> fields <> [] -> i32_size (nlen fields) ->
  (forall f u, In f fields -> within f u -> storable u) ->
  (forall f i l c fs, In f fields -> within f (Group i l c fs) -> fs <> []) ->
  sd_try_from_thrift m (sd_into_thrift s) = Ok s.
Proof.
  intros Hs Hne Hlen Hok Hfull. unfold sd_try_from_thrift.
  assert (Hf : sd_name s = name /\ sd_fields s = fields).
  { unfold sd_new in Hs. apply bind_ok in Hs as (lv & _ & Hs). apply Ok_inj in Hs. subst s. split; reflexivity. }
  destruct Hf as [Hn Hf]. unfold sd_into_thrift. rewrite Hn, Hf. rewrite (type_round_trip name fields Hlen Hok).
  assert (is_nil fields = false) as -> by (destruct fields; [ congruence | reflexivity ]).
  assert (forallb full fields = true) as ->.
  { apply forallb_forall. intros f Hin. apply full_spec. intros i l c fs. apply Hfull. exact Hin. }
  cbn [negb andb bind]. exact Hs.
Qed.
Print Assumptions schema_round_trip.

Example schema_round_trip_witness :
  sd_new Checked [114] sx_fields = Ok sx_descriptor /\ length (sd_into_thrift sx_descriptor) = 6%nat /\
  sd_try_from_thrift Checked (sd_into_thrift sx_descriptor) = Ok sx_descriptor.
Proof. split; [ vm_compute; reflexivity | ]. split; vm_compute; reflexivity. Qed.
Example schema_round_trip_hypotheses :
  (forall f u, In f sx_fields -> within f u -> storable u) /\
  (forall f i l c fs, In f sx_fields -> within f (Group i l c fs) -> fs <> []).
Proof.
  split; [ exact sx_storable | ]. intros f i l c fs Hf. destruct Hf as [<-|[<-|[<-|[]]]]; apply full_spec; reflexivity.
Qed.

(** * C57 *)

(** A schema with an empty group cannot be read back: neither the empty schema nor one with an empty field. *)
Theorem empty_groups_refuted :
  exists s s', sd_new Checked [114] [] = Ok s /\ sd_try_from_thrift Checked (sd_into_thrift s) = Err OutOfSpec /\
    sd_new Checked [114] [sx_int; Group (mk_fi [98] Optional None) None None []] = Ok s' /\
    sd_try_from_thrift Checked (sd_into_thrift s') = Err OutOfSpec.
Proof. do 2 eexists. split; [ reflexivity | ]. split; [ vm_compute; reflexivity | ]. split; [ reflexivity | ]. vm_compute. reflexivity. Qed.
Print Assumptions empty_groups_refuted.

(** Exactly the schemas with an empty group anywhere (or without fields) fail, all of them with an error. *)
Theorem empty_groups_exact m name fields s :
  sd_new m name fields = Ok s -> i32_size (nlen fields) -> (forall f u, In f fields -> within f u -> storable u) ->
  (fields = [] \/ exists f i l c, In f fields /\ within f (Group i l c [])) <->
  sd_try_from_thrift m (sd_into_thrift s) = Err OutOfSpec.
Proof.
  intros Hs Hlen Hok. unfold sd_try_from_thrift.
  assert (Hf : sd_name s = name /\ sd_fields s = fields).
  { unfold sd_new in Hs. apply bind_ok in Hs as (lv & _ & Hs). apply Ok_inj in Hs. subst s. split; reflexivity. }
  destruct Hf as [Hn Hf]. unfold sd_into_thrift. rewrite Hn, Hf. rewrite (type_round_trip name fields Hlen Hok).
  destruct (is_nil fields) eqn:En.
  { destruct fields; [ | discriminate En ]. cbn. split; auto. }
  cbn [negb andb]. destruct (forallb full fields) eqn:Ef; cbn [bind].
  - split; [ | unfold sd_try_from_type, new_root; intros H; cbn [fi_name] in H; rewrite Hs in H; discriminate H ].
    intros [->|(f & i & l & c & Hin & Hw)]; [ discriminate En | ]. rewrite forallb_forall in Ef.
    apply (proj1 (full_spec f) (Ef f Hin)) in Hw. congruence.
  - split; [ reflexivity | ]. intros _. right.
    assert (Hex : exists f, In f fields /\ full f = false).
    { clear - Ef. induction fields as [|f fields IH]; [ discriminate | ]. cbn [forallb] in Ef. destruct (full f) eqn:E.
      - destruct (IH Ef) as (g & Hg & Hg'). exists g. split; [ right | ]; assumption.
      - exists f. split; [ left; reflexivity | exact E ]. }
    destruct Hex as (f & Hin & Hnf). exists f.
    assert (Hw : exists i l c, within f (Group i l c [])).
    { clear - Hnf. induction f as [p|i l c fs IH] using parquet_ind; [ discriminate Hnf | ]. cbn [full] in Hnf.
      destruct fs as [|g fs]; [ exists i, l, c; constructor | ]. cbn [is_nil negb andb] in Hnf. rewrite Forall_forall in IH.
      set (all := g :: fs) in *. clearbody all.
      assert (Hex : exists f, In f all /\ full f = false).
      { clear - Hnf. induction all as [|f fields IH]; [ discriminate | ]. cbn [forallb] in Hnf. destruct (full f) eqn:E.
        - destruct (IH Hnf) as (g & Hg & Hg'). exists g. split; [ right | ]; assumption.
        - exists f. split; [ left; reflexivity | exact E ]. }
      destruct Hex as (h & Hh & Hhf). destruct (IH h Hh Hhf) as (i' & l' & c' & Hw). exists i', l', c'. econstructor; eassumption. }
    destruct Hw as (i & l & c & Hw). exists i, l, c. auto.
Qed.
Print Assumptions empty_groups_exact.

(** * C58 *)

(** The columns of a schema are its leaves from left to right, with their paths and levels. *)
Theorem schema_columns m name fields : Forall shallow fields ->
  sd_new m name fields = Ok (mk_sd name fields (columns_of fields)).
Proof. apply sd_new_ok. Qed.
Print Assumptions schema_columns.

Example schema_columns_witness :
  Forall shallow sx_fields /\
  map (fun c => (cd_path c, (d_max_def (cd_descriptor c), d_max_rep (cd_descriptor c)))) (columns_of sx_fields) =
    [([[97]], (0, 0)%Z); ([[98]; [108]; [101]], (3, 1)%Z); ([[100]], (1, 0)%Z)].
Proof. split; [ repeat (apply Forall_cons; [ reflexivity | ]); apply Forall_nil | reflexivity ]. Qed.

(** * C59 *)

(** A primitive field is accepted exactly when its annotations are valid for its physical type. This is for fixed lengths up to 128
    bytes; see [annotations_refuted] for longer ones. *)
Theorem annotations_partial name t r c l id u :
  on_some precise_converted c -> on_some precise_logical l -> moderate t ->
  try_from_primitive name t r c l id = Ok u <-> annotated t c l /\ u = Primitive (mk_prim (mk_fi name r id) l c t).
Proof. apply try_from_primitive_ok. Qed.
Print Assumptions annotations_partial.

(** Everything that is not accepted is an error. *)
Theorem annotations_total name t r c l id : try_from_primitive name t r c l id <> Panic.
Proof.
  unfold try_from_primitive. apply bind_no_panic; [ apply (check_no_panic _ _ None) | ].
  intros. apply bind_no_panic; [ apply (check_no_panic _ None _) | discriminate ].
Qed.
Print Assumptions annotations_total.

(** Of 129 bytes every precision is accepted, though [10^400] does not fit; a length of [2^28] bytes or more is an error (or taken
    for its low 32 bits) even if the precision fits. *)
Theorem annotations_refuted :
  (exists u, try_from_primitive [97] (FixedLenByteArray 129) Required (Some (CDecimal 400 0)) None None = Ok u) /\
  ~ annotated (FixedLenByteArray 129) (Some (CDecimal 400 0)) None /\
  try_from_primitive [97] (FixedLenByteArray 268435456) Required (Some (CDecimal 5 0)) None None = Err OutOfSpec /\
  annotated (FixedLenByteArray 268435456) (Some (CDecimal 5 0)) None.
Proof.
  split; [ eexists; vm_compute; reflexivity | ]. split.
  - intros [(_ & _ & _ & H) _]. apply H. vm_compute. reflexivity.
  - split; [ vm_compute; reflexivity | ]. split; [ | exact I ]. cbn [on_some converted_on]. split; [ lia | ]. split; [ lia | ].
    cbn [decimal_fits]. split; [ lia | ]. transitivity (2 ^ 20); [ cbv; discriminate | ]. apply N.pow_le_mono_r; lia.
Qed.
Print Assumptions annotations_refuted.

(** What is accepted for any fixed length (as the low 32 bits of it, signed). *)
Theorem fixed_decimal_exact n p s : p <= u64max ->
  check_decimal (FixedLenByteArray n) p s = Ok tt <->
  1 <= p /\ s <= p /\ (1 <= as_i32 n < 2 ^ 28)%Z /\ ((129 <= as_i32 n)%Z \/ 10 ^ p <= 2 ^ (8 * Z.to_N (as_i32 n) - 1)).
Proof. apply check_decimal_fixed. Qed.
Print Assumptions fixed_decimal_exact.

(** Every primitive field of a schema read from a file is valid. *)
Theorem read_schemas_valid_partial m elements s f p :
  sd_try_from_thrift m elements = Ok s -> In f (sd_fields s) -> within f (Primitive p) ->
  on_some precise_converted (pt_converted p) -> on_some precise_logical (pt_logical p) -> moderate (pt_physical p) ->
  annotated (pt_physical p) (pt_converted p) (pt_logical p).
Proof.
  intros H Hin Hw Hc Hl Hm. unfold sd_try_from_thrift in H. apply bind_ok in H as (t & Ht & H).
  apply type_from_thrift_accepted in Ht. destruct t as [q|i l c fields]; [ discriminate H | ]. cbn [sd_try_from_type] in H.
  unfold sd_new in H. apply bind_ok in H as (lv & _ & H). apply Ok_inj in H. subst s. cbn [sd_fields] in Hin.
  assert (Ha : accepted p) by (apply Ht; econstructor; eassumption).
  unfold accepted in Ha. apply try_from_primitive_ok in Ha as [Ha _]; assumption.
Qed.
Print Assumptions read_schemas_valid_partial.

Example annotations_witness :
  annotated (FixedLenByteArray 4) (Some (CDecimal 9 2)) (Some (LDecimal 9 2)) /\
  ~ annotated (FixedLenByteArray 4) (Some (CDecimal 10 2)) None /\ ~ annotated Int64 (Some CDate) None /\
  annotated Int32 (Some CTimeMillis) (Some (LTime Milliseconds true)) /\ ~ annotated Int64 None (Some (LTime Milliseconds true)).
Proof.
  split; [ split; (split; [ lia | split; [ lia | split; [ lia | cbv; discriminate ] ] ]) | ].
  split; [ intros [(_ & _ & _ & H) _]; apply H; reflexivity | ].
  split; [ intros [H _]; discriminate H | ]. split; [ split; reflexivity | ]. intros [_ H]. discriminate H.
Qed.

(** * C77 *)

(** In a schema whose groups have distinct field names, [check_contains] accepts exactly the schemas that select from it. *)
Theorem contains_exactly sub self :
  (forall i l c fields, within self (Group i l c fields) -> NoDup (map type_name fields)) ->
  check_contains sub self = true <-> contained sub self.
Proof. apply check_contains_ok. Qed.
Print Assumptions contains_exactly.

(** In particular every such schema contains itself, and dropping fields keeps that. *)
Theorem contains_itself t :
  (forall i l c fields, within t (Group i l c fields) -> NoDup (map type_name fields)) -> check_contains t t = true.
Proof. intros H. apply check_contains_ok; [ exact H | apply contained_refl ]. Qed.
Print Assumptions contains_itself.
Theorem contains_fewer_fields i l c fields i' l' c' others :
  (forall a b d fs, within (Group i l c fields) (Group a b d fs) -> NoDup (map type_name fs)) ->
  (forall f, In f others -> In f fields) ->
  check_contains (Group i' l' c' others) (Group i l c fields) = true.
Proof.
  intros Hnd Hsub. apply check_contains_ok; [ exact Hnd | ]. constructor. intros f Hf. exists f. split; [ exact (Hsub f Hf) | ].
  split; [ reflexivity | apply contained_refl ].
Qed.
Print Assumptions contains_fewer_fields.

(** With two fields of the same name even the schema itself may be rejected. *)
Theorem contains_itself_refuted : exists t, check_contains t t = false.
Proof.
  exists (Group (mk_fi [114] Optional None) None None
    [Primitive (mk_prim (mk_fi [97] Required None) None None Int32); Primitive (mk_prim (mk_fi [97] Required None) None None Int64)]).
  reflexivity.
Qed.
Print Assumptions contains_itself_refuted.

Example contains_witness :
  let root := new_root [114] sx_fields in
  (forall i l c fields, within root (Group i l c fields) -> NoDup (map type_name fields)) /\
  check_contains (new_root [114] [sx_outer]) root = true /\ check_contains (new_root [114] [sx_list]) root = false.
Proof.
  cbn zeta. split; [ | split; reflexivity ]. unfold sx_fields, sx_decimal, sx_outer, sx_list, sx_string, sx_int. intros i l c fields Hw.
  within_inv Hw.
  - repeat constructor; cbn; intuition discriminate.
  - inversion H.
  - within_inv H; [ repeat constructor; intros [] | ]. within_inv H0; [ repeat constructor; intros [] | ]. inversion H.
  - inversion H.
Qed.

(** * C78 *)

(** Whatever the elements, parsing them returns a schema or an error: it terminates and does not panic. *)
Theorem parse_schema_total elements : type_from_thrift elements <> Panic.
Proof. apply type_from_thrift_no_panic. Qed.
Print Assumptions parse_schema_total.

Example parse_schema_total_witness :
  type_from_thrift [] = Err OutOfSpec /\
  type_from_thrift [mk_tse None None None [114] (Some 5%Z) None None None None None] = Err OutOfSpec /\
  type_from_thrift [mk_tse None None None [114] (Some (-5)%Z) None None None None None] = Ok (new_root [114] []).
Proof. vm_compute. auto. Qed.
