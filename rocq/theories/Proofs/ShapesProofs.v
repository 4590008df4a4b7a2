(** Proofs about reading column indexes of any shape. *)
From Verif Require Import Base.Prelude Model.Types Model.Thrift Model.Intervals Model.Native Model.Schema Model.Indexes Spec.ShapesSpec Proofs.SchemaProofs Proofs.AcceptProofs.
Open Scope N_scope.

Definition counts_of (i : t_column_index) : list (option Z) :=
  match ci_null_counts i with Some l => map Some l | None => repeat None (length (ci_min_values i)) end.
Lemma zip_length a b c d : length (zip_index a b c d) = Nat.min (length a) (Nat.min (length b) (Nat.min (length c) (length d))).
Proof.
  revert b c d. induction a as [|x a IH]; intros b c d; [reflexivity|].
  destruct b; [reflexivity|]. destruct c; [reflexivity|]. destruct d; [cbn; lia|]. cbn [zip_index length Nat.min]. rewrite IH. reflexivity.
Qed.
Lemma zip_nth a b c d : forall k, nth_error (zip_index a b c d) k =
  match nth_error a k, nth_error b k, nth_error c k, nth_error d k with
  | Some x, Some y, Some z, Some w => Some (x, y, z, w)
  | _, _, _, _ => None
  end.
Proof.
  revert b c d. induction a as [|x a IH]; intros b c d k; [destruct k; reflexivity|].
  destruct b as [|y b]; [cbn; destruct k; cbn; [reflexivity|destruct (nth_error a k); reflexivity]|].
  destruct c as [|z c]; [cbn; destruct k; cbn; [reflexivity|destruct (nth_error a k), (nth_error b k); reflexivity]|].
  destruct d as [|w d]; [cbn; destruct k; cbn; [reflexivity|destruct (nth_error a k), (nth_error b k), (nth_error c k); reflexivity]|].
  destruct k; cbn [zip_index nth_error]; [reflexivity|apply IH].
Qed.
Lemma described_length i : length (zip_index (ci_min_values i) (ci_max_values i) (ci_null_pages i) (counts_of i)) = pages_described i.
Proof. rewrite zip_length. unfold counts_of, pages_described. destruct (ci_null_counts i); [rewrite map_length|rewrite repeat_length]; lia. Qed.
Lemma counts_nth i k w : nth_error (counts_of i) k = Some w -> w = match ci_null_counts i with Some l => nth_error l k | None => None end.
Proof.
  unfold counts_of. destruct (ci_null_counts i) as [l|].
  - rewrite nth_error_map. destruct (nth_error l k); cbn [option_map]; congruence.
  - intro H. apply nth_error_In, repeat_spec in H. exact H.
Qed.

Section Value.
Context {A : Type} (value : list N -> res A) (dec : list N -> A) (ok : list N -> Prop).
Definition entry_of (x : list N * list N * bool * option Z) : page_index A :=
  let '(mn, mx, null, count) := x in if (null : bool) then mk_pi None None count else mk_pi (Some (dec mn)) (Some (dec mx)) count.
Definition entry_ok (x : list N * list N * bool * option Z) : Prop := let '(mn, mx, null, _) := x in null = false -> ok mn /\ ok mx.
Definition all_ok (i : t_column_index) : Prop :=
  forall k mn mx, (k < pages_described i)%nat -> nth_error (ci_null_pages i) k = Some false ->
    nth_error (ci_min_values i) k = Some mn -> nth_error (ci_max_values i) k = Some mx -> ok mn /\ ok mx.
Lemma all_ok_iff i : all_ok i <-> Forall entry_ok (zip_index (ci_min_values i) (ci_max_values i) (ci_null_pages i) (counts_of i)).
Proof.
  split.
  - intro H. rewrite Forall_forall. intros [[[mn mx] null] w] Hin. apply In_nth_error in Hin as [k Hk].
    pose proof (described_length i) as Hl. assert (Hlt : (k < pages_described i)%nat) by (rewrite <- Hl; apply nth_error_Some; congruence).
    rewrite zip_nth in Hk. cbn [entry_ok]. intros ->.
    destruct (nth_error (ci_min_values i) k) eqn:E1; [|discriminate]. destruct (nth_error (ci_max_values i) k) eqn:E2; [|discriminate].
    destruct (nth_error (ci_null_pages i) k) eqn:E3; [|discriminate]. destruct (nth_error (counts_of i) k) eqn:E4; [|discriminate].
    injection Hk as -> -> -> ->. apply (H k); assumption.
  - intros H k mn mx Hk E3 E1 E2. rewrite Forall_forall in H. pose proof (described_length i) as Hl.
    assert (Hz : nth_error (zip_index (ci_min_values i) (ci_max_values i) (ci_null_pages i) (counts_of i)) k <> None) by (apply nth_error_Some; lia).
    pose proof (zip_nth (ci_min_values i) (ci_max_values i) (ci_null_pages i) (counts_of i) k) as Hn. rewrite E1, E2, E3 in Hn.
    destruct (nth_error (counts_of i) k) as [w|]; [|congruence]. apply nth_error_In in Hn. exact (H _ Hn eq_refl).
Qed.

Lemma pages_good i : (forall b, ok b -> value b = Ok (dec b)) -> all_ok i ->
  exists pages, index_pages value i = Ok pages /\ faithful dec i pages.
Proof.
  intros Hv H. apply all_ok_iff in H. unfold index_pages. fold (counts_of i). set (z := zip_index _ _ _ _) in *.
  exists (map entry_of z). split.
  - apply collect_good. intros [[[mn mx] null] w] Hin. rewrite Forall_forall in H. specialize (H _ Hin). cbn [entry_ok entry_of] in *.
    destruct null; [reflexivity|]. destruct (H eq_refl) as [H1 H2]. rewrite (Hv _ H1), (Hv _ H2). reflexivity.
  - split; [rewrite map_length; apply described_length|]. intros k x Hx. rewrite nth_error_map in Hx. unfold z in Hx. rewrite zip_nth in Hx.
    destruct (nth_error (ci_min_values i) k) as [mn|] eqn:E1; [|discriminate]. destruct (nth_error (ci_max_values i) k) as [mx|] eqn:E2; [|discriminate].
    destruct (nth_error (ci_null_pages i) k) as [null|] eqn:E3; [|discriminate]. destruct (nth_error (counts_of i) k) as [w|] eqn:E4; [|discriminate].
    apply counts_nth in E4. injection Hx as <-. exists mn, mx, null. repeat (split; [assumption|]). subst w. cbn [entry_of].
    destruct null; cbn [pi_min pi_max pi_null_count]; auto.
Qed.
(** The first bad bound decides. *)
Lemma pages_bad i (bad : forall X, res X) :
  (forall X Y (f : X -> res Y), bind (bad X) f = bad Y) ->
  (forall b, (ok b /\ value b = Ok (dec b)) \/ (~ ok b /\ value b = bad A)) -> ~ all_ok i -> index_pages value i = bad _.
Proof.
  intros Hb Hv H. rewrite all_ok_iff in H. unfold index_pages. fold (counts_of i). set (z := zip_index _ _ _ _) in *. clearbody z.
  induction z as [|[[[mn mx] null] w] z IH]; [exfalso; apply H; constructor|]. cbn [map collect_res].
  assert (Hrest : entry_ok (mn, mx, null, w) -> ~ Forall entry_ok z) by (intros H1 H2; apply H; constructor; assumption).
  destruct null.
  - cbn [bind]. rewrite IH; [apply Hb|]. apply Hrest. intros [=].
  - destruct (Hv mn) as [[H1 ->]|[H1 ->]]; [|rewrite !Hb; reflexivity]. cbn [bind].
    destruct (Hv mx) as [[H2 ->]|[H2 ->]]; [|rewrite !Hb; reflexivity]. cbn [bind]. rewrite IH; [apply Hb|]. apply Hrest. intros _. split; assumption.
Qed.
End Value.

Lemma order_known z : (0 <= z <= 2)%Z -> exists o, boundary_order_of_thrift z = Ok o /\ boundary_order_to_thrift o = z.
Proof. intro H. assert (z = 0 \/ z = 1 \/ z = 2)%Z as [->|[->| ->]] by lia; eexists; split; reflexivity. Qed.
Lemma order_unknown z : ~ (0 <= z <= 2)%Z -> boundary_order_of_thrift z = Err OutOfSpec.
Proof.
  intro H. destruct z as [|p|p]; [lia| |reflexivity]. destruct p as [p|p|]; [reflexivity| |lia]. destruct p; [reflexivity..|lia].
Qed.
