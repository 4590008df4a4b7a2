(** C77: schema containment for any schemas. *)
From Verif Require Import Base.Prelude Model.Types Model.Schema Spec.SchemaSpec Spec.ContainsSpec Proofs.TypesFacts Proofs.SchemaProofs Props.Schema.
Open Scope N_scope.

Lemma last_named_split name fields t :
  last_named name fields = Some t <->
  exists before after, fields = before ++ t :: after /\ type_name t = name /\ forall h, In h after -> type_name h <> name.
Proof.
  unfold last_named. induction fields as [|f fields IH] using rev_ind.
  - cbn. split; [discriminate|]. intros (before & after & E & _). destruct before; discriminate.
  - rewrite rev_app_distr. cbn [rev app find]. destruct (bytes_eqb (type_name f) name) eqn:E.
    + apply bytes_eqb_ok in E. split.
      * intros [= <-]. exists fields, []. split; [reflexivity|]. split; [exact E|]. intros h [].
      * intros (before & after & H & H1 & H2). destruct after as [|a after] using rev_ind.
        -- apply app_inj_tail in H as [_ ->]. reflexivity.
        -- exfalso. change (t :: after ++ [a]) with ((t :: after) ++ [a]) in H. rewrite app_assoc in H. apply app_inj_tail in H as [_ ->].
           apply (H2 a); [apply in_or_app; right; left; reflexivity | exact E].
    + assert (Hne : type_name f <> name) by (intros H; apply bytes_eqb_ok in H; congruence).
      rewrite IH. split.
      * intros (before & after & -> & H1 & H2). exists before, (after ++ [f]). split; [rewrite <- app_assoc; reflexivity|]. split; [exact H1|].
        intros h Hh. apply in_app_or in Hh as [Hh|[<-|[]]]; [exact (H2 h Hh) | exact Hne].
      * intros (before & after & H & H1 & H2). destruct after as [|a after] using rev_ind.
        -- apply app_inj_tail in H as [_ ->]. contradiction.
        -- change (t :: after ++ [a]) with ((t :: after) ++ [a]) in H. rewrite app_assoc in H. apply app_inj_tail in H as [-> _].
           exists before, after. split; [reflexivity|]. split; [exact H1|]. intros h Hh. apply H2. apply in_or_app. left. exact Hh.
Qed.

(** C77. For all schemas, names that repeat included: [check_contains] accepts exactly those that select from the schema with, in each group,
    the last field of each name. *)
Theorem contains_any sub self : check_contains sub self = true <-> contained_last sub self.
Proof.
  revert self. induction sub as [q|i l c others IH] using parquet_ind; intros [p|i' l' c' fields]; cbn [check_contains].
  - rewrite andb_true_iff, field_info_eqb_ok, physical_eqb_spec. split; [ intros [H1 H2]; constructor; assumption | ].
    intros H. inversion H; subst. auto.
  - split; [ discriminate | ]. intros H. inversion H.
  - split; [ discriminate | ]. intros H. inversion H.
  - rewrite forallb_forall. rewrite Forall_forall in IH. split.
    + intros H. constructor. intros f Hin. specialize (H f Hin). destruct (last_named (type_name f) fields) as [g|] eqn:E; [ | discriminate ].
      apply last_named_split in E as (before & after & E1 & E2 & E3). exists before, g, after. repeat split; auto. apply IH; assumption.
    + intros H. inversion H as [|? ? ? ? ? ? ? ? HH]; subst. intros f Hin. destruct (HH f Hin) as (before & g & after & E1 & E2 & E3 & Hc).
      rewrite (proj2 (last_named_split (type_name f) fields g)) by (exists before, after; auto). apply IH; assumption.
Qed.
Print Assumptions contains_any.

(** Two fields named "a": only the second one counts. *)
Example contains_any_case :
  let a t := Primitive (mk_prim (mk_fi [97] Required None) None None t) in
  let group fields := Group (mk_fi [114] Optional None) None None fields in
  check_contains (group [a Int64]) (group [a Int32; a Int64]) = true /\ check_contains (group [a Int32]) (group [a Int32; a Int64]) = false.
Proof. split; reflexivity. Qed.

(** C77. So the schema itself is accepted exactly if fields of the same name in a group select from the last of them. *)
Theorem contains_itself_exactly i l c fields :
  check_contains (Group i l c fields) (Group i l c fields) = true <->
  forall f, In f fields -> exists before g after, fields = before ++ g :: after /\ type_name g = type_name f /\
    (forall h, In h after -> type_name h <> type_name f) /\ contained_last f g.
Proof.
  rewrite contains_any. split.
  - intros H. inversion H as [|? ? ? ? ? ? ? ? HH]; subst. exact HH.
  - intros H. constructor. exact H.
Qed.
Print Assumptions contains_itself_exactly.

Example contains_itself_exactly_case :
  let a t := Primitive (mk_prim (mk_fi [97] Required None) None None t) in
  let group fields := Group (mk_fi [114] Optional None) None None fields in
  check_contains (group [a Int32; a Int32]) (group [a Int32; a Int32]) = true /\
  check_contains (group [a Int32; a Int64]) (group [a Int32; a Int64]) = false.
Proof. split; reflexivity. Qed.
