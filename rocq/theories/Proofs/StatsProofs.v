(** Reducing and converting statistics. *)
From Verif Require Import Base.Prelude Base.LeFacts Model.Types Model.Native Model.Thrift Model.Statistics
  Spec.PlainSpec Spec.StatsSpec Proofs.TypesFacts Proofs.PlainProofs.
Open Scope Z_scope.

Lemma known_filter {A} (l : list (option A)) : filter_some l = known l.
Proof. reflexivity. Qed.

Lemma known_cons {A} (o : option A) l :
  known (o :: l) = match o with Some a => a :: known l | None => known l end.
Proof. destruct o; reflexivity. Qed.

(** An operation that picks the smaller of two elements. *)
Record picks {A} (P : A -> Prop) (le : A -> A -> Prop) (op : A -> A -> A) : Prop := mk_picks {
  pk_one : forall x y, P x -> P y -> op x y = x \/ op x y = y;
  pk_left : forall x y, P x -> P y -> le (op x y) x;
  pk_right : forall x y, P x -> P y -> le (op x y) y;
  pk_refl : forall x, P x -> le x x;
  pk_trans : forall x y z, P x -> P y -> P z -> le x y -> le y z -> le x z
}.

Lemma fold_single {A} (P : A -> Prop) le op (K : picks P le op) : forall l acc,
  Forall P (known (acc :: l)) ->
  extreme le (known (acc :: l)) (fold_left (reduce_single op) l acc).
Proof.
  induction l as [|o l IH]; intros acc H.
  - cbn [fold_left]. destruct acc as [x|]; cbn; [|reflexivity].
    pose proof (Forall_inv H) as Hx. split; [left; reflexivity|]. constructor; [|constructor].
    apply (pk_refl _ _ _ K), Hx.
  - cbn [fold_left]. rewrite known_cons in *. rewrite known_cons in H |- *.
    destruct acc as [x|], o as [y|]; cbn [reduce_single].
    + pose proof (Forall_inv H) as Hx. apply Forall_inv_tail in H.
      pose proof (Forall_inv H) as Hy. pose proof (Forall_inv_tail H) as Hl.
      assert (Ho : P (op x y)) by (destruct (pk_one _ _ _ K x y Hx Hy) as [->| ->]; assumption).
      specialize (IH (Some (op x y))). rewrite known_cons in IH.
      specialize (IH ltac:(constructor; assumption)).
      destruct (fold_left (reduce_single op) l (Some (op x y))) as [v|]; cbn [extreme] in *; [|discriminate].
      destruct IH as [Hin Hall].
      assert (Hv : P v).
      { destruct Hin as [<-|Hin]; [exact Ho|]. rewrite Forall_forall in Hl. apply Hl, Hin. }
      pose proof (Forall_inv Hall) as Hvo. apply Forall_inv_tail in Hall.
      split.
      * destruct Hin as [<-|Hin]; [|right; right; exact Hin].
        destruct (pk_one _ _ _ K x y Hx Hy) as [->| ->]; [left|right; left]; reflexivity.
      * constructor; [|constructor; [|exact Hall]].
        -- apply (pk_trans _ _ _ K _ (op x y)); try assumption. apply (pk_left _ _ _ K); assumption.
        -- apply (pk_trans _ _ _ K _ (op x y)); try assumption. apply (pk_right _ _ _ K); assumption.
    + specialize (IH (Some x)). rewrite known_cons in IH. apply IH, H.
    + specialize (IH (Some y)). rewrite known_cons in IH. apply IH, H.
    + specialize (IH None). rewrite known_cons in IH. apply IH, H.
Qed.

Lemma reduce_fold_min {A} m opmin opmax : forall (l : list (stats_of A)) acc r,
  reduce_fold m opmin opmax acc l = Ok r ->
  st_min r = fold_left (reduce_single opmin) (map st_min l) (st_min acc) /\
  st_max r = fold_left (reduce_single opmax) (map st_max l) (st_max acc) /\
  (l <> [] -> st_distinct_count r = None).
Proof.
  induction l as [|s l IH]; intros acc r H; cbn [reduce_fold map fold_left] in *.
  - apply Ok_inj in H. subst. repeat split. congruence.
  - unfold reduce_step in H. destruct (reduce_count m (st_null_count acc) (st_null_count s)) as [nc| |];
      cbn [bind] in H; try discriminate.
    destruct (IH _ _ H) as (H1 & H2 & H3). cbn [st_min st_max] in H1, H2.
    repeat split; try assumption. intros _.
    destruct l as [|s' l]; [|apply H3; discriminate].
    cbn [reduce_fold] in H. apply Ok_inj in H. subst r. reflexivity.
Qed.

Lemma sum_Z_nonneg l : Forall (fun z => 0 <= z) l -> 0 <= sum_Z l.
Proof. induction 1; cbn [sum_Z fold_right]; [lia|]. fold (sum_Z l). lia. Qed.

Lemma reduce_fold_count {A} m opmin opmax : forall (l : list (stats_of A)) acc,
  Forall (fun z => 0 <= z) (known (map st_null_count (acc :: l))) ->
  sum_Z (known (map st_null_count (acc :: l))) < 9223372036854775808 ->
  exists r, reduce_fold m opmin opmax acc l = Ok r /\
    st_null_count r = known_sum (map st_null_count (acc :: l)).
Proof.
  induction l as [|s l IH]; intros acc Hn Hs.
  - exists acc. split; [reflexivity|]. unfold known_sum. cbn [map]. rewrite known_cons.
    destruct (st_null_count acc) as [z|]; [|reflexivity]. cbn. f_equal. lia.
  - cbn [reduce_fold]. unfold reduce_step.
    assert (E : exists nc, reduce_count m (st_null_count acc) (st_null_count s) = Ok nc /\
      known_sum (map st_null_count (acc :: s :: l)) =
        known_sum (nc :: map st_null_count l) /\
      Forall (fun z => 0 <= z) (known (nc :: map st_null_count l)) /\
      sum_Z (known (nc :: map st_null_count l)) = sum_Z (known (map st_null_count (acc :: s :: l)))).
    { cbn [map] in *. unfold known_sum. rewrite !known_cons in *.
      destruct (st_null_count acc) as [x|], (st_null_count s) as [y|]; cbn [reduce_count reduce_single].
      - pose proof (Forall_inv Hn) as Hx. apply Forall_inv_tail in Hn.
        pose proof (Forall_inv Hn) as Hy. pose proof (Forall_inv_tail Hn) as Hl. cbn beta in *.
        cbn [sum_Z fold_right] in Hs. fold (sum_Z (known (map st_null_count l))) in Hs.
        pose proof (sum_Z_nonneg _ Hl) as Hp.
        unfold sadd, in_s. change (2 ^ (Z.of_N 64 - 1)) with 9223372036854775808.
        match goal with |- context [if ?b then _ else _] => destruct b eqn:Eb end; [|exfalso; lia].
        cbn [bind]. exists (Some (x + y)). split; [reflexivity|]. rewrite !known_cons.
        cbn [sum_Z fold_right]. fold (sum_Z (known (map st_null_count l))).
        repeat split; try (f_equal; lia); try lia. constructor; [lia|exact Hl].
      - exists (Some x). rewrite !known_cons. repeat split; try reflexivity. exact Hn.
      - exists (Some y). rewrite !known_cons. repeat split; try reflexivity. exact Hn.
      - exists None. rewrite !known_cons. repeat split; try reflexivity. exact Hn. }
    destruct E as (nc & E1 & E2 & E3 & E4). rewrite E1. cbn [bind].
    destruct (IH (mk_st nc None (reduce_single opmax (st_max acc) (st_max s))
      (reduce_single opmin (st_min acc) (st_min s)))) as (r & Hr & Hc).
    + exact E3.
    + cbn [map st_null_count] in *. rewrite E4. exact Hs.
    + exists r. split; [exact Hr|]. rewrite Hc, E2. reflexivity.
Qed.

(** The choices made by the code. *)
Lemma picks_int_min : picks (fun _ : Z => True) Z.le (fun x y => if y <? x then y else x).
Proof. constructor; intros; try (destruct (Z.ltb_spec y x)); lia. Qed.
Lemma picks_int_max : picks (fun _ : Z => True) Z.ge (fun x y => if y <? x then x else y).
Proof. constructor; intros; try (destruct (Z.ltb_spec y x)); lia. Qed.
Lemma picks_bool_min : picks (fun _ : bool => True) bool_le bool_min.
Proof.
  constructor; intros; unfold bool_le, bool_min in *;
    try destruct x; try destruct y; cbn; auto.
Qed.
Lemma picks_bool_max : picks (fun _ : bool => True) (fun a b => bool_le b a) bool_max.
Proof.
  constructor; intros; unfold bool_le, bool_max in *;
    try destruct x; try destruct y; cbn; auto.
Qed.

Definition not_nan (w inf b : N) : Prop := float_nan w inf b = false.
Lemma picks_float_min w inf :
  picks (not_nan w inf) (fun a b => float_key w a <= float_key w b)
    (fun x y => if match float_partial_cmp w inf x y with Some Gt => true | _ => false end then y else x).
Proof.
  unfold not_nan, float_partial_cmp.
  constructor; intros; try lia; rewrite ?H, ?H0; cbn [orb];
    destruct (Z.compare_spec (float_key w x) (float_key w y)); solve [lia | left; reflexivity | right; reflexivity].
Qed.
Lemma picks_float_max w inf :
  picks (not_nan w inf) (fun a b => float_key w a >= float_key w b)
    (fun x y => if match float_partial_cmp w inf x y with Some Gt => true | _ => false end then x else y).
Proof.
  unfold not_nan, float_partial_cmp.
  constructor; intros; try lia; rewrite ?H, ?H0; cbn [orb];
    destruct (Z.compare_spec (float_key w x) (float_key w y)); solve [lia | left; reflexivity | right; reflexivity].
Qed.

(** Byte strings no one of which is a strict prefix of another. *)
Definition prefix_free (l : list (list N)) : Prop :=
  forall x y c, In x l -> In y l -> y = x ++ c -> c = [].

Lemma ord_go_zip a b : ord_go a b = ord_zip a b.
Proof. reflexivity. Qed.

Lemma ord_go_cases l x y : prefix_free l -> In x l -> In y l ->
  (ord_go x y = Eq /\ x = y) \/ (ord_go x y = Lt /\ lex_lt x y) \/ (ord_go x y = Gt /\ lex_lt y x).
Proof.
  intros H Hx Hy. rewrite ord_go_zip. destruct (ord_zip x y) eqn:E.
  - left. split; [reflexivity|]. apply ord_zip_eq in E as [(r & E)|(r & E)].
    + specialize (H x y r Hx Hy E). subst r. now rewrite app_nil_r in E.
    + specialize (H y x r Hy Hx E). subst r. now rewrite app_nil_r in E.
  - right; left. split; [reflexivity|]. apply ord_zip_lt in E. tauto.
  - right; right. split; [reflexivity|].
    assert (E' : ord_zip y x = Lt) by (rewrite (ord_zip_antisym x y), E; reflexivity).
    apply ord_zip_lt in E'. tauto.
Qed.

Lemma lex_le_trans a b c : lex_le a b -> lex_le b c -> lex_le a c.
Proof.
  intros [->|H1]; [auto|]. intros [->|H2]; [right; exact H1|]. right. eapply lex_lt_trans; eassumption.
Qed.

Lemma picks_binary_min l : prefix_free l ->
  picks (fun x => In x l) lex_le (select_binary false).
Proof.
  intro H. constructor.
  - intros x y Hx Hy. unfold select_binary. destruct (ord_go x y); auto.
  - intros x y Hx Hy. unfold select_binary.
    destruct (ord_go_cases l x y H Hx Hy) as [(-> & E)|[(-> & E)|(-> & E)]]; [left; reflexivity|left; reflexivity|].
    right; exact E.
  - intros x y Hx Hy. unfold select_binary.
    destruct (ord_go_cases l x y H Hx Hy) as [(-> & E)|[(-> & E)|(-> & E)]]; [left; exact E|right; exact E|].
    left; reflexivity.
  - intros x _. left; reflexivity.
  - intros x y z _ _ _. apply lex_le_trans.
Qed.
Lemma picks_binary_max l : prefix_free l ->
  picks (fun x => In x l) (fun a b => lex_le b a) (select_binary true).
Proof.
  intro H. constructor.
  - intros x y Hx Hy. unfold select_binary. destruct (ord_go x y); auto.
  - intros x y Hx Hy. unfold select_binary.
    destruct (ord_go_cases l x y H Hx Hy) as [(-> & E)|[(-> & E)|(-> & E)]]; [left; reflexivity| |left; reflexivity].
    right; exact E.
  - intros x y Hx Hy. unfold select_binary.
    destruct (ord_go_cases l x y H Hx Hy) as [(-> & E)|[(-> & E)|(-> & E)]]; [left; congruence|left; reflexivity|].
    right; exact E.
  - intros x _. left; reflexivity.
  - intros x y z _ _ _ H1 H2. eapply lex_le_trans; eassumption.
Qed.

(** One element list at least: the fold and its meaning together. *)
Lemma reduce_fold_all {A} m opmin opmax lemin lemax P Q (l : list (stats_of A)) acc :
  picks P lemin opmin -> picks Q lemax opmax ->
  Forall P (known (map st_min (acc :: l))) -> Forall Q (known (map st_max (acc :: l))) ->
  Forall (fun z => 0 <= z) (known (map st_null_count (acc :: l))) ->
  sum_Z (known (map st_null_count (acc :: l))) < 9223372036854775808 ->
  exists r, reduce_fold m opmin opmax acc l = Ok r /\
    extreme lemin (known (map st_min (acc :: l))) (st_min r) /\
    extreme lemax (known (map st_max (acc :: l))) (st_max r) /\
    st_null_count r = known_sum (map st_null_count (acc :: l)) /\
    (l <> [] -> st_distinct_count r = None).
Proof.
  intros K1 K2 H1 H2 Hn Hs.
  destruct (reduce_fold_count m opmin opmax l acc Hn Hs) as (r & Hr & Hc).
  destruct (reduce_fold_min m opmin opmax l acc r Hr) as (E1 & E2 & E3).
  exists r. split; [exact Hr|]. rewrite E1, E2.
  split; [|split; [|split; [exact Hc|exact E3]]].
  - cbn [map]. apply (fold_single P); assumption.
  - cbn [map]. apply (fold_single Q); assumption.
Qed.

(** Dispatch. *)
Lemma downcast_map {A B} (f : statistics -> option A) (g : B -> statistics) (h : B -> A) l :
  (forall b, f (g b) = Some (h b)) -> downcast_all f (map g l) = Ok (map h l).
Proof.
  intro H. induction l as [|b l IH]; [reflexivity|]. cbn [map downcast_all]. rewrite H, IH. reflexivity.
Qed.

Lemma known_map_opt {A B} (f : A -> B) l : known (map (option_map f) l) = map f (known l).
Proof.
  induction l as [|[a|] l IH]; cbn [map option_map]; rewrite ?known_cons; cbn [map]; [reflexivity| |exact IH].
  rewrite IH. reflexivity.
Qed.

Lemma forallb_same phys (l : list statistics) : (forall s, In s l -> stats_physical s = phys) ->
  forallb (fun x => physical_eqb (stats_physical x) phys) l = true.
Proof. intro H. apply forallb_forall. intros s Hs. apply physical_eqb_spec, H, Hs. Qed.

Lemma reduce_start m stats first r phys :
  known stats = first :: r -> (forall s, In s (first :: r) -> stats_physical s = phys) ->
  reduce_statistics m stats = reduce_by_type m phys (first :: r).
Proof.
  intros E H. unfold reduce_statistics. destruct stats as [|o stats]; [discriminate|].
  change (@filter_some statistics) with (@known statistics). rewrite E.
  rewrite (H first (or_introl eq_refl)).
  rewrite (forallb_same phys) by (intros s Hs; apply H; right; exact Hs). reflexivity.
Qed.

Lemma reduce_chunk {A B} m opmin opmax lemin lemax (P Q : A -> Prop) (wrap : B -> statistics)
  (get : B -> stats_of A) (re : B -> stats_of A -> statistics) pages first rest phys :
  known pages = first :: rest ->
  (forall b, In b (first :: rest) -> stats_physical (wrap b) = phys) ->
  reduce_by_type m phys (map wrap (first :: rest)) =
    (let* s := reduce_fold m opmin opmax (get first) (map get rest) in Ok (Some (re first s))) ->
  picks P lemin opmin -> picks Q lemax opmax ->
  Forall P (known (map (fun b => st_min (get b)) (known pages))) ->
  Forall Q (known (map (fun b => st_max (get b)) (known pages))) ->
  Forall (fun z => 0 <= z) (known (map (fun b => st_null_count (get b)) (known pages))) ->
  sum_Z (known (map (fun b => st_null_count (get b)) (known pages))) < 9223372036854775808 ->
  exists r, reduce_statistics m (map (option_map wrap) pages) = Ok (Some (re first r)) /\
    extreme lemin (known (map (fun b => st_min (get b)) (known pages))) (st_min r) /\
    extreme lemax (known (map (fun b => st_max (get b)) (known pages))) (st_max r) /\
    st_null_count r = known_sum (map (fun b => st_null_count (get b)) (known pages)).
Proof.
  intros E Hp Hd K1 K2 H1 H2 Hn Hs.
  rewrite (reduce_start m _ (wrap first) (map wrap rest) phys).
  2:{ rewrite known_map_opt, E. reflexivity. }
  2:{ intros s Hin. change (wrap first :: map wrap rest) with (map wrap (first :: rest)) in Hin.
      apply in_map_iff in Hin as (b & <- & Hb). apply Hp, Hb. }
  change (wrap first :: map wrap rest) with (map wrap (first :: rest)). rewrite Hd.
  rewrite E in *.
  rewrite <- (map_map get st_min), <- (map_map get st_max), <- (map_map get st_null_count) in *.
  cbn [map] in *.
  destruct (reduce_fold_all m opmin opmax lemin lemax P Q (map get rest) (get first) K1 K2 H1 H2 Hn Hs)
    as (r & Er & A1 & A2 & A3 & _).
  exists r. rewrite Er. cbn [bind]. auto.
Qed.

Lemma reduce_native_fold m t (l : list (primitive_type * stats_of (carrier t))) first :
  reduce_native m t (map (fun b => SNative t (fst b) (snd b)) (first :: l)) =
  (let* s := reduce_fold m (native_min t) (native_max t) (snd first) (map snd l) in
   Ok (Some (SNative t (fst first) s))).
Proof.
  unfold reduce_native. rewrite (downcast_map _ _ (fun s => s)).
  2:{ intros [p s]. destruct t; reflexivity. }
  rewrite map_id. destruct first as [p1 s1]. cbn [bind reduce_typed fst snd].
  destruct (reduce_fold _ _ _ s1 (map snd l)); reflexivity.
Qed.
