(** C59: annotations on fields of any physical type. *)
From Verif Require Import Base.Prelude Model.Types Model.Thrift Model.Schema Spec.SchemaSpec Spec.AnnotationsSpec Proofs.TypesFacts Proofs.SchemaProofs Props.Schema.
Open Scope N_scope.

Lemma check_decimal_any t p s : p <= u64max -> (check_decimal t p s = Ok tt <-> decimal_accepted p s t).
Proof.
  intros Hp. destruct t as [| | | | | | |n]; try (apply check_decimal_ok; [exact Hp | exact I]). apply check_decimal_fixed, Hp.
Qed.

(** C59. For any physical type (and precisions in the range of their type): a primitive field is accepted exactly if its annotations are those of
    the format, except that decimals on fixed-length arrays are judged as [decimal_accepted] says. *)
Theorem annotations_exactly name t r c l id u : on_some precise_converted c -> on_some precise_logical l ->
  try_from_primitive name t r c l id = Ok u <-> annotations_accepted t c l /\ u = Primitive (mk_prim (mk_fi name r id) l c t).
Proof.
  intros Hc Hl. unfold try_from_primitive. rewrite !bind_unit.
  assert (A : check_converted t c = Ok tt <-> on_some (fun c => converted_accepted c t) c).
  { destruct c as [c|]; [|split; reflexivity]. destruct c; cbn [check_converted on_some converted_accepted converted_on]; try (apply require_ok).
    apply check_decimal_any. exact Hc. }
  assert (B : check_logical t l = Ok tt <-> on_some (fun l => logical_accepted l t) l).
  { destruct l as [l|]; [|split; reflexivity]. destruct l as [| |p s| |v utc|v utc|k| | | |];
      cbn [check_logical on_some logical_accepted logical_on];
      try (apply check_decimal_any; exact Hl);
      try destruct v; try destruct k; destruct t; try (split; [ discriminate | congruence ]); try (split; reflexivity).
    destruct (N.eqb_spec size 16) as [->|]; split; try reflexivity; try discriminate. congruence. }
  rewrite A, B. unfold annotations_accepted. split; [ intros (? & ? & C); apply Ok_inj in C; auto | intros [[? ?] ->]; auto ].
Qed.
Print Assumptions annotations_exactly.

(** Up to 128 bytes this is what the format says. *)
Theorem annotations_accepted_moderate t c l : moderate t -> (annotations_accepted t c l <-> annotated t c l).
Proof.
  intros Hm. assert (D : forall p s, decimal_accepted p s t <-> decimal_on p s t).
  { intros p s. destruct t as [| | | | | | |n]; try reflexivity. cbn [moderate] in Hm. cbn [decimal_accepted]. rewrite as_i32_small by lia.
    unfold decimal_on. cbn [decimal_fits]. rewrite N2Z.id. change (2 ^ 28)%Z with 268435456%Z.
    split; [ intros (A & B & C & [D|D]); [ lia | ] | intros (A & B & C & D) ]; [ repeat split; try lia; exact D | ].
    split; [ exact A | ]. split; [ exact B | ]. split; [ lia | ]. right. exact D. }
  unfold annotations_accepted, annotated. destruct c as [c|], l as [l|]; try destruct c; try destruct l;
    cbn [on_some converted_accepted converted_on logical_accepted logical_on]; rewrite ?D; reflexivity.
Qed.
Print Assumptions annotations_accepted_moderate.

(** Witnesses: lengths at both ends of the range, and one behind it. *)
Example annotations_exactly_case :
  annotations_accepted (FixedLenByteArray 129) (Some (CDecimal 400 0)) None /\
  ~ annotations_accepted (FixedLenByteArray 1) (Some (CDecimal 3 0)) None /\
  ~ annotations_accepted (FixedLenByteArray 268435456) None (Some (LDecimal 5 0)) /\
  annotations_accepted Int32 (Some (CDecimal 9 2)) (Some (LDecimal 9 2)).
Proof.
  split; [|split; [|split]].
  - split; [|exact I]. cbn [on_some converted_accepted decimal_accepted]. change (as_i32 129) with 129%Z.
    change (2 ^ 28)%Z with 268435456%Z. split; [lia|]. split; [lia|]. split; [lia|]. left. lia.
  - intros [(_ & _ & _ & [H|H]) _]; vm_compute in H; apply H; reflexivity.
  - intros [_ (_ & _ & H & _)]. destruct H as [_ H]. vm_compute in H. discriminate.
  - split; (split; [lia|split; [lia|vm_compute; discriminate]]).
Qed.

(** C59. Every primitive field of a schema read from a file carries annotations that are accepted. *)
Theorem read_schemas_valid_any m elements s f p :
  sd_try_from_thrift m elements = Ok s -> In f (sd_fields s) -> within f (Primitive p) ->
  on_some precise_converted (pt_converted p) -> on_some precise_logical (pt_logical p) ->
  annotations_accepted (pt_physical p) (pt_converted p) (pt_logical p).
Proof.
  intros H Hin Hw Hc Hl. unfold sd_try_from_thrift in H. apply bind_ok in H as (t & Ht & H).
  apply type_from_thrift_accepted in Ht. destruct t as [q|i l c fields]; [ discriminate H | ]. cbn [sd_try_from_type] in H.
  unfold sd_new in H. apply bind_ok in H as (lv & _ & H). apply Ok_inj in H. subst s. cbn [sd_fields] in Hin.
  assert (Ha : accepted p) by (apply Ht; econstructor; eassumption).
  unfold accepted in Ha. apply annotations_exactly in Ha as [Ha _]; assumption.
Qed.
Print Assumptions read_schemas_valid_any.

Example read_schemas_valid_any_case :
  let e := mk_tse (Some 7%Z) (Some 200%Z) (Some 0%Z) [97] None (Some 5%Z) (Some 0%Z) (Some 400%Z) None None in
  let root := mk_tse None None None [114] (Some 1%Z) None None None None None in
  match sd_try_from_thrift Checked [root; e] with
  | Ok s => sd_fields s = [Primitive (mk_prim (mk_fi [97] Required None) None (Some (CDecimal 400 0)) (FixedLenByteArray 200))]
  | _ => False
  end.
Proof. reflexivity. Qed.
