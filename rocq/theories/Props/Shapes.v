(** C98: column indexes of any shape. *)
From Verif Require Import Base.Prelude Model.Types Model.Thrift Model.Intervals Model.Native Model.Schema Model.Indexes Spec.ShapesSpec Proofs.ShapesProofs.
Open Scope N_scope.

(** C98 is false: lists of different lengths are cut to the shortest without an error, so pages are lost; a boolean bound of no bytes panics. *)
Definition sh_prim (p : physical_type) : primitive_type := mk_prim (mk_fi [97] Required None) None None p.
Theorem index_shape_refuted :
  index_from_thrift (mk_tci [false; false] [[1]; [2]; [3]] [[4]; [5]; [6]] 1 (Some [0; 0; 0]%Z)) (sh_prim ByteArray) =
    Ok (IBytes (sh_prim ByteArray) [mk_pi (Some [1]) (Some [4]) (Some 0%Z); mk_pi (Some [2]) (Some [5]) (Some 0%Z)] Ascending) /\
  index_from_thrift (mk_tci [false] [[1]] [[4]] 1 (Some [])) (sh_prim ByteArray) = Ok (IBytes (sh_prim ByteArray) [] Ascending) /\
  index_from_thrift (mk_tci [false] [[]] [[1]] 1 None) (sh_prim Boolean) = Panic.
Proof. vm_compute. repeat split. Qed.
Print Assumptions index_shape_refuted.

(** Every stored index: if the bounds of the described pages have the right sizes and the boundary order is known it is read, and says of each described
    page what is stored; otherwise it is refused, or panics if it is one of booleans. *)
Theorem any_index_exact i p :
  (bounds_ok (pt_physical p) i -> (0 <= ci_boundary_order i <= 2)%Z -> exists x, index_from_thrift i p = Ok x /\ index_says i p x) /\
  (bounds_ok (pt_physical p) i -> ~ (0 <= ci_boundary_order i <= 2)%Z -> index_from_thrift i p = Err OutOfSpec) /\
  (~ bounds_ok (pt_physical p) i -> index_from_thrift i p = if number_type (pt_physical p) then Err OutOfSpec else Panic).
Proof.
  assert (Hnat : forall t b, length b = native_size t -> native_bound t b = Ok (native_from_le t b)).
  { intros t b H. unfold native_bound. rewrite (proj2 (Nat.eqb_eq _ _) H). reflexivity. }
  assert (Hbool : forall b, b <> [] -> bool_bound b = Ok (hd 0 b =? 1)) by (intros [|x b] H; [congruence|reflexivity]).
  assert (Hnat2 : forall t b, (length b = native_size t /\ native_bound t b = Ok (native_from_le t b)) \/ (length b <> native_size t /\ native_bound t b = Err OutOfSpec)).
  { intros t b. unfold native_bound. destruct (Nat.eqb_spec (length b) (native_size t)); [left|right]; auto. }
  assert (Hbool2 : forall b, (b <> [] /\ bool_bound b = Ok (hd 0 b =? 1)) \/ (~ b <> [] /\ bool_bound b = Panic)).
  { intros [|x b]; [right|left]; split; try reflexivity; [tauto|discriminate]. }
  assert (Hn1 : forall t, all_ok (fun b => length b = native_size t) i -> exists pages, index_pages (native_bound t) i = Ok pages /\ faithful (native_from_le t) i pages)
    by (intros t H; apply (pages_good _ _ _ i (Hnat t)); exact H).
  assert (Hn2 : forall t, ~ all_ok (fun b => length b = native_size t) i -> index_pages (native_bound t) i = Err OutOfSpec).
  { intros t H. apply (pages_bad (native_bound t) (native_from_le t) (fun b => length b = native_size t) i (fun _ => Err OutOfSpec)); [reflexivity|exact (Hnat2 t)|exact H]. }
  assert (Hb1 : all_ok (fun b => Boolean = Boolean -> b <> []) i -> exists pages, index_pages bool_bound i = Ok pages /\ faithful (fun b => hd 0 b =? 1) i pages).
  { intro H. apply (pages_good _ _ (fun b => Boolean = Boolean -> b <> []) i); [intros b Hb; apply Hbool, Hb; reflexivity|exact H]. }
  assert (Hb2 : ~ all_ok (fun b => Boolean = Boolean -> b <> []) i -> index_pages bool_bound i = Panic).
  { intros H. apply (pages_bad bool_bound (fun b => hd 0 b =? 1) (fun b => Boolean = Boolean -> b <> []) i (fun _ => Panic)); [reflexivity| |exact H].
    intro b. destruct (Hbool2 b) as [[H1 H2]|[H1 H2]]; [left|right]; split; auto. }
  assert (Hs : exists pages, index_pages Ok i = Ok pages /\ faithful (fun b : list N => b) i pages)
    by (apply (pages_good Ok (fun b => b) (fun _ => True) i); [reflexivity|intros k mn mx _ _ _ _; split; exact I]).
  pose proof (order_known (ci_boundary_order i)) as Ho1. pose proof (order_unknown (ci_boundary_order i)) as Ho2.
  unfold index_from_thrift. destruct p as [fi l c ph]. cbn [pt_physical]. change (bounds_ok ph i) with (all_ok (bound_ok ph) i).
  destruct ph; unfold bound_ok; cbn [number_type].
  2-6: split; [|split];
    [intros H Hr; destruct (Ho1 Hr) as (o & E & Eo); destruct (Hn1 _ H) as (pages & -> & Hf); rewrite E; cbn [bind]; eexists; split; [reflexivity|]; cbn; auto
    |intros H Hr; destruct (Hn1 _ H) as (pages & -> & _); rewrite (Ho2 Hr); reflexivity|intro H; rewrite (Hn2 _ H); reflexivity].
  - split; [|split].
    + intros H Hr; destruct (Ho1 Hr) as (o & E & Eo); destruct (Hb1 H) as (pages & -> & Hf); rewrite E; cbn [bind]; eexists; split; [reflexivity|]; cbn; auto.
    + intros H Hr; destruct (Hb1 H) as (pages & -> & _); rewrite (Ho2 Hr); reflexivity.
    + intro H; rewrite (Hb2 H); reflexivity.
  - destruct Hs as (pages & -> & Hf). split; [|split].
    + intros H Hr; destruct (Ho1 Hr) as (o & E & Eo); rewrite E; cbn [bind]; eexists; split; [reflexivity|]; cbn; auto.
    + intros H Hr; rewrite (Ho2 Hr); reflexivity.
    + intro H. exfalso. apply H. intros k mn mx _ _ _ _. split; intros [=].
  - destruct Hs as (pages & -> & Hf). split; [|split].
    + intros H Hr; destruct (Ho1 Hr) as (o & E & Eo); rewrite E; cbn [bind]; eexists; split; [reflexivity|]; cbn; eauto.
    + intros H Hr; rewrite (Ho2 Hr); reflexivity.
    + intro H. exfalso. apply H. intros k mn mx _ _ _ _. split; intros [=].
Qed.
Print Assumptions any_index_exact.
(** Booleans stored as 0, 1 and (by other writers) 255; a page of nulls; a number of the wrong size. *)
Example any_index_exact_case :
  let i := mk_tci [false; true; false] [[0]; []; [255]] [[1]; []; [1; 7]] 0 None in
  bounds_ok Boolean i /\ pages_described i = 3%nat /\
  index_from_thrift i (sh_prim Boolean) =
    Ok (IBool [mk_pi (Some false) (Some true) None; mk_pi None None None; mk_pi (Some false) (Some true) None] Unordered) /\
  ~ bounds_ok Int32 (mk_tci [false] [[1; 0; 0; 0]] [[1; 0; 0]] 0 None) /\
  index_from_thrift (mk_tci [false] [[1; 0; 0; 0]] [[1; 0; 0]] 0 None) (sh_prim Int32) = Err OutOfSpec /\
  index_from_thrift (mk_tci [false] [[1; 0; 0; 0]] [[1; 0; 0]] 3 None) (sh_prim ByteArray) = Err OutOfSpec.
Proof.
  cbv zeta. split; [|split; [reflexivity|split; [vm_compute; reflexivity|split; [|split; vm_compute; reflexivity]]]].
  - intros [|[|[|k]]] mn mx Hk E1 E2 E3; cbn in *; try lia; try discriminate E1; injection E2 as <-; injection E3 as <-; split; discriminate.
  - intro H. destruct (H 0%nat [1; 0; 0; 0] [1; 0; 0] ltac:(cbn; lia) eq_refl eq_refl eq_refl) as [_ H2]. discriminate H2.
Qed.
