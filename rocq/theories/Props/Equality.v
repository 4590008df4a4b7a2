(** C104, C105: comparing statistics and indexes with [==]; what merging the statistics of pages comes to. *)
From Verif Require Import Base.Prelude Spec.PlainSpec Spec.NumbersSpec Spec.StatsSpec Spec.EqualitySpec Model.Types Model.Native Model.Thrift Model.Statistics
  Model.Indexes Model.Equality Proofs.StatsProofs Proofs.EqualityProofs Props.Statistics.
Open Scope N_scope.

Definition eq_prim (t : physical_type) : primitive_type := mk_prim (mk_fi [97] Optional None) None None t.

(** C104 is false: statistics or an index with a NaN differ from themselves (although indexes are declared to have a total equality);
    the two zeros are equal although the statistics are stored with different bytes; and statistics of fixed-length values that are given the type of
    another column panic. *)
Theorem equality_refuted :
  (let s := SNative NF64 (eq_prim Double) (mk_st None None (Some 9221120237041090560) (Some 0)) in
   f64_value 9221120237041090560 = NaN /\ statistics_eq s s = Ok false) /\
  (let i := INative NF32 (eq_prim Float) [mk_pi (Some 0) (Some 2143289344) None] Ascending in
   f32_value 2143289344 = NaN /\ index_eq i i = Ok false) /\
  (let s z := SNative NF32 (eq_prim Float) (mk_st None None (Some z) None) in
   statistics_eq (s 0) (s 2147483648) = Ok true /\ serialize_statistics (s 0) <> serialize_statistics (s 2147483648)) /\
  (let s := SFixed (eq_prim Int32) (mk_st None None None None) in statistics_eq s s = Panic /\ serialize_statistics s = Panic).
Proof. vm_compute. repeat split. discriminate. Qed.
Print Assumptions equality_refuted.

(** Statistics that are not labelled with the type of another column are compared, and are equal exactly if they say the same. *)
Theorem statistics_equality_exact : forall a b, stats_values_ok a -> stats_values_ok b ->
  ~ mislabelled_statistics a -> ~ mislabelled_statistics b ->
  exists r, statistics_eq a b = Ok r /\ (r = true <-> same_statistics a b).
Proof. exact statistics_eq_spec. Qed.
Print Assumptions statistics_equality_exact.
Theorem index_equality_exact : forall a b, index_values_ok a -> index_values_ok b ->
  ~ mislabelled_index a -> ~ mislabelled_index b ->
  exists r, index_eq a b = Ok r /\ (r = true <-> same_index a b).
Proof. exact index_eq_spec. Qed.
Print Assumptions index_equality_exact.
Example equality_exact_case :
  let s n x := SNative NF32 (eq_prim Float) (mk_st (Some n) None (Some x) (Some 0)) in
  (stats_values_ok (s 3%Z 1065353216) /\ ~ mislabelled_statistics (s 3%Z 1065353216)) /\
  statistics_eq (s 3%Z 1065353216) (s 3%Z 1065353216) = Ok true /\ statistics_eq (s 3%Z 1065353216) (s 4%Z 1065353216) = Ok false /\
  statistics_eq (s 3%Z 1065353216) (s 3%Z 1073741824) = Ok false /\
  statistics_eq (s 3%Z 1065353216) (SBinary (eq_prim ByteArray) (mk_st None None None None)) = Ok false /\
  let i l := IFixed (eq_prim (FixedLenByteArray 2)) (map (fun x => mk_pi (Some x) (Some [9; 9]) None) l) Unordered in
  (index_values_ok (i [[1; 2]]) /\ ~ mislabelled_index (i [[1; 2]])) /\
  index_eq (i [[1; 2]]) (i [[1; 2]]) = Ok true /\ index_eq (i [[1; 2]]) (i [[1; 2]; [1; 2]]) = Ok false /\ index_eq (i [[1; 2]]) (i [[1; 3]]) = Ok false.
Proof. cbv zeta. repeat split; try (vm_compute; reflexivity); try (exact (fun f => f)). intro F. apply F. exists 2. reflexivity. Qed.

(** Comparing, and storing, panic exactly for fixed-length statistics labelled with another type: comparing, if the other operand is about the same type. *)
Theorem equality_panics :
  (forall a b, statistics_eq a b = Panic <-> statistics_about a = statistics_about b /\ (mislabelled_statistics a \/ mislabelled_statistics b)) /\
  (forall a b, index_eq a b = Panic <-> index_about a = index_about b /\ (mislabelled_index a \/ mislabelled_index b)) /\
  (forall s, serialize_statistics s = Panic <-> mislabelled_statistics s) /\ (forall s e, serialize_statistics s <> Err e).
Proof.
  split; [exact statistics_eq_panic|]. split; [exact index_eq_panic|]. split.
  - intros [s|t p s|p s|p s]; cbn [serialize_statistics mislabelled_statistics]; try (split; [discriminate|tauto]).
    destruct (pt_physical p) eqn:E; split; intro H; try reflexivity; try discriminate H; try (intros [n Hn]; congruence).
    exfalso. apply H. exists size. exact E.
  - intros [s|t p s|p s|p s] e; cbn [serialize_statistics]; try discriminate. destruct (pt_physical p); discriminate.
Qed.
Print Assumptions equality_panics.
Example equality_panics_case :
  mislabelled_statistics (SFixed (eq_prim Int32) (mk_st None None None None)) /\
  statistics_eq (SFixed (eq_prim Int32) (mk_st None None None None)) (SNative NI32 (eq_prim Int32) (mk_st None None (Some 3%Z) None)) = Panic /\
  statistics_eq (SFixed (eq_prim Int32) (mk_st None None None None)) (SNative NI64 (eq_prim Int64) (mk_st None None (Some 3%Z) None)) = Ok false.
Proof. split; [intros [n H]; discriminate H|]. vm_compute. repeat split. Qed.

(** It is symmetric and transitive; and reflexive but for NaNs. *)
Theorem equality_relation :
  (forall a b, stats_values_ok a -> stats_values_ok b -> statistics_eq a b = Ok true -> statistics_eq b a = Ok true) /\
  (forall a b c, stats_values_ok a -> stats_values_ok b -> stats_values_ok c ->
     statistics_eq a b = Ok true -> statistics_eq b c = Ok true -> statistics_eq a c = Ok true) /\
  (forall s, stats_values_ok s -> statistics_eq s s = Ok true <-> ~ mislabelled_statistics s /\ ~ nan_statistics s) /\
  (forall a b, index_values_ok a -> index_values_ok b -> index_eq a b = Ok true -> index_eq b a = Ok true) /\
  (forall a b c, index_values_ok a -> index_values_ok b -> index_values_ok c ->
     index_eq a b = Ok true -> index_eq b c = Ok true -> index_eq a c = Ok true) /\
  (forall i, index_values_ok i -> index_eq i i = Ok true <-> ~ mislabelled_index i /\ ~ nan_index i).
Proof.
  assert (S : forall a b, stats_values_ok a -> stats_values_ok b ->
    statistics_eq a b = Ok true <-> ~ mislabelled_statistics a /\ ~ mislabelled_statistics b /\ same_statistics a b).
  { intros a b Ha Hb. split.
    - intro E. assert (M : ~ (mislabelled_statistics a \/ mislabelled_statistics b)).
      { intro M. destruct (physical_eqb (stats_physical a) (stats_physical b)) eqn:P.
        - apply physical_eqb_spec in P. rewrite (proj2 (statistics_eq_panic a b)) in E; [discriminate E|]. auto.
        - unfold statistics_eq in E. rewrite P in E. discriminate E. }
      destruct (statistics_eq_spec a b Ha Hb) as (r & Er & Hr); [tauto|tauto|]. rewrite E in Er. apply Ok_inj in Er. subst r.
      split; [tauto|]. split; [tauto|]. apply Hr. reflexivity.
    - intros (M1 & M2 & H). destruct (statistics_eq_spec a b Ha Hb M1 M2) as (r & Er & Hr). rewrite Er. apply Hr in H. subst r. reflexivity. }
  assert (I : forall a b, index_values_ok a -> index_values_ok b ->
    index_eq a b = Ok true <-> ~ mislabelled_index a /\ ~ mislabelled_index b /\ same_index a b).
  { intros a b Ha Hb. split.
    - intro E. assert (M : ~ (mislabelled_index a \/ mislabelled_index b)).
      { intro M. destruct (physical_eqb (index_physical a) (index_physical b)) eqn:P.
        - apply physical_eqb_spec in P. rewrite (proj2 (index_eq_panic a b)) in E; [discriminate E|]. auto.
        - unfold index_eq in E. rewrite P in E. discriminate E. }
      destruct (index_eq_spec a b Ha Hb) as (r & Er & Hr); [tauto|tauto|]. rewrite E in Er. apply Ok_inj in Er. subst r.
      split; [tauto|]. split; [tauto|]. apply Hr. reflexivity.
    - intros (M1 & M2 & H). destruct (index_eq_spec a b Ha Hb M1 M2) as (r & Er & Hr). rewrite Er. apply Hr in H. subst r. reflexivity. }
  destruct statistics_per as [S1 S2]. destruct index_per as [I1 I2].
  split; [|split; [|split; [|split; [|split]]]].
  - intros a b Ha Hb. rewrite !S by assumption. intros (? & ? & H). auto.
  - intros a b c Ha Hb Hc. rewrite !S by assumption. intros (? & ? & H) (? & ? & H'). eauto.
  - intros s Hs. rewrite S by assumption. rewrite statistics_refl. tauto.
  - intros a b Ha Hb. rewrite !I by assumption. intros (? & ? & H). auto.
  - intros a b c Ha Hb Hc. rewrite !I by assumption. intros (? & ? & H) (? & ? & H'). eauto.
  - intros s Hs. rewrite I by assumption. rewrite index_refl. tauto.
Qed.
Print Assumptions equality_relation.

(** Whatever is read from a file can be compared without panics, and equals itself exactly if it has no NaN. *)
Theorem read_equality :
  (forall v p s w q r, all_opt bytes_ok (ts_max_value v) -> all_opt bytes_ok (ts_min_value v) -> deserialize_statistics v p = Ok s ->
     all_opt bytes_ok (ts_max_value w) -> all_opt bytes_ok (ts_min_value w) -> deserialize_statistics w q = Ok r ->
     (exists e, statistics_eq s r = Ok e /\ (e = true <-> same_statistics s r)) /\ (statistics_eq s s = Ok true <-> ~ nan_statistics s)) /\
  (forall v p s w q r, Forall bytes_ok (ci_min_values v) -> Forall bytes_ok (ci_max_values v) -> index_from_thrift v p = Ok s ->
     Forall bytes_ok (ci_min_values w) -> Forall bytes_ok (ci_max_values w) -> index_from_thrift w q = Ok r ->
     (exists e, index_eq s r = Ok e /\ (e = true <-> same_index s r)) /\ (index_eq s s = Ok true <-> ~ nan_index s)).
Proof.
  destruct equality_relation as (_ & _ & R1 & _ & _ & R2). split.
  - intros v p s w q r H1 H2 E H3 H4 F.
    destruct (typed_values p s) as [A1 A2]; [apply (statistics_read_faithful v p s H1 H2 E)|].
    destruct (typed_values q r) as [B1 B2]; [apply (statistics_read_faithful w q r H3 H4 F)|].
    split; [apply statistics_eq_spec; assumption|]. rewrite R1 by assumption. tauto.
  - intros v p s w q r H1 H2 E H3 H4 F.
    destruct (index_read_values v p s H1 H2 E) as [A1 A2]. destruct (index_read_values w q r H3 H4 F) as [B1 B2].
    split; [apply index_eq_spec; assumption|]. rewrite R2 by assumption. tauto.
Qed.
Print Assumptions read_equality.
Example read_equality_case :
  let v := mk_tstats None None (Some 1%Z) None (Some [0; 0; 128; 63]) None in
  (all_opt bytes_ok (ts_max_value v) /\ all_opt bytes_ok (ts_min_value v)) /\
  deserialize_statistics v (eq_prim Float) = Ok (SNative NF32 (eq_prim Float) (mk_st (Some 1%Z) None (Some 1065353216) None)) /\
  f32_value 1065353216 = Finite (2 ^ 149) /\
  index_from_thrift (mk_tci [false] [[0; 0; 128; 63]] [[0; 0; 128; 63]] 0 None) (eq_prim Float) =
    Ok (INative NF32 (eq_prim Float) [mk_pi (Some 1065353216) (Some 1065353216) None] Unordered).
Proof. cbv zeta. split; [split; [|exact I]|]. { cbn. repeat constructor. } vm_compute. repeat split. Qed.

(** C105 is false: merging panics for timestamps of 96 bits, and may for null counts that add up to more than 2^63. *)
Theorem merging_refuted :
  reduce_statistics Wrapping [Some (SNative NI96 (eq_prim Int96) (mk_st (Some 0%Z) None None None))] = Panic /\
  (let s n := Some (SNative NI32 (eq_prim Int32) (mk_st (Some n) None (Some 1%Z) (Some 1%Z))) in
   reduce_statistics Checked [s (2 ^ 62)%Z; s (2 ^ 62)%Z] = Panic /\
   reduce_statistics Wrapping [s (2 ^ 62)%Z; s (2 ^ 62)%Z] = Ok (Some (SNative NI32 (eq_prim Int32) (mk_st (Some (- 2 ^ 63)%Z) None (Some 1%Z) (Some 1%Z))))).
Proof. vm_compute. repeat split. Qed.
Print Assumptions merging_refuted.

(** Every list of page statistics: nothing comes of none; statistics of different types are refused; INT96 statistics, fixed-length ones labelled
    with another type and (with overflow checks) a running sum of null counts outside of [i64] panic; all else gives statistics of the same type. *)
Theorem merging_outcome : forall m pages,
  Forall (fun s => forall z, nulls_told s = Some z -> in_s 64 z = true) (known pages) ->
  (known pages = [] -> reduce_statistics m pages = Ok None) /\
  ((exists a b, In a (known pages) /\ In b (known pages) /\ statistics_about a <> statistics_about b) -> reduce_statistics m pages = Err OutOfSpec) /\
  (forall t, known pages <> [] -> Forall (fun s => statistics_about s = t) (known pages) ->
     (t = Int96 \/ Exists mislabelled_statistics (known pages) \/ (m = Checked /\ count_overflows (map nulls_told (known pages))) ->
      reduce_statistics m pages = Panic) /\
     (t <> Int96 -> ~ Exists mislabelled_statistics (known pages) -> ~ (m = Checked /\ count_overflows (map nulls_told (known pages))) ->
      exists s, reduce_statistics m pages = Ok (Some s) /\ statistics_about s = t /\ ~ mislabelled_statistics s)).
Proof.
  intros m pages Hf.
  assert (E : reduce_statistics m pages = match known pages with
     | [] => Ok None
     | first :: r => if forallb (fun x => physical_eqb (stats_physical x) (stats_physical first)) r
                     then reduce_by_type m (stats_physical first) (first :: r) else Err OutOfSpec end).
  { unfold reduce_statistics. rewrite known_filter. destruct pages; reflexivity. }
  rewrite E. clear E. destruct (known pages) as [|first r].
  { split; [reflexivity|]. split; [intros (a & b & [] & _)|]. intros t H. congruence. }
  split; [discriminate|]. split.
  - intros (a & b & Ha & Hb & D). destruct (forallb _ r) eqn:F; [|reflexivity]. exfalso. apply D.
    assert (X : forall x, In x (first :: r) -> statistics_about x = statistics_about first).
    { intros x [->|Hx]; [reflexivity|]. rewrite forallb_forall in F. apply physical_eqb_spec. apply F. exact Hx. }
    rewrite (X a Ha), (X b Hb). reflexivity.
  - intros t _ Ht. assert (T : stats_physical first = t) by (inversion Ht; assumption).
    assert (F : forallb (fun x => physical_eqb (stats_physical x) (stats_physical first)) r = true).
    { apply forallb_forall. intros x Hx. apply physical_eqb_spec. rewrite T. rewrite Forall_forall in Ht. apply Ht. right. exact Hx. }
    rewrite F, T. split.
    + intros H. assert (D : t = Int96 \/ t <> Int96) by (destruct t; auto; right; discriminate). destruct D as [->|D]; [reflexivity|].
      destruct H as [H|H]; [contradiction|]. apply (by_type_outcome m (first :: r) t); try assumption; discriminate.
    + intros D. apply (by_type_outcome m (first :: r) t); try assumption; discriminate.
Qed.
Print Assumptions merging_outcome.
Example merging_outcome_case :
  let s n x := SNative NI32 (eq_prim Int32) (mk_st n None (Some x) (Some x)) in
  let pages := [Some (s (Some 2%Z) 5%Z); None; Some (s None 7%Z); Some (s (Some 4%Z) 1%Z)] in
  Forall (fun s => forall z, nulls_told s = Some z -> in_s 64 z = true) (known pages) /\ known pages <> [] /\
  Forall (fun s => statistics_about s = Int32) (known pages) /\ ~ Exists mislabelled_statistics (known pages) /\
  reduce_statistics Checked pages = Ok (Some (SNative NI32 (eq_prim Int32) (mk_st (Some 6%Z) None (Some 7%Z) (Some 1%Z)))) /\
  count_overflows [Some (2 ^ 62)%Z; Some (2 ^ 62)%Z] /\
  reduce_statistics Checked [Some (s None 5%Z); Some (SNative NI64 (eq_prim Int64) (mk_st None None None None))] = Err OutOfSpec.
Proof.
  cbv zeta. split; [|split; [|split; [|split; [|split; [|split]]]]].
  - cbn. repeat constructor; intros z [= <-]; reflexivity.
  - discriminate.
  - repeat constructor.
  - cbn [known flat_map app]. rewrite !Exists_cons, Exists_nil. cbn. tauto.
  - vm_compute. reflexivity.
  - exists 2%nat. vm_compute. reflexivity.
  - vm_compute. reflexivity.
Qed.
