(** Splitting page buffers into repetition levels, definition levels and values: C38, C39.
    The layout is [page_parts] in Spec/PageSpec.v. *)
From Verif Require Import Base.Prelude Base.LeFacts Spec.PageSpec Model.Types Model.Thrift Model.Plain Model.Page
  Proofs.TypesFacts Proofs.PageProofs.
Open Scope N_scope.

Definition is_v1 (p : data_page) : Prop := exists h, dp_header p = HV1 h.

(** C38. *)
Theorem split_v1_exact : forall m p,
  is_v1 p -> bytes_ok (dp_buffer p) -> nlen (dp_buffer p) < 2 ^ 64 ->
  (forall rep def values, split_buffer m p = Ok (rep, def, values) <-> page_parts p rep def values) /\
  (split_buffer m p = Err OutOfSpec <-> forall rep def values, ~ page_parts p rep def values) /\
  split_buffer m p <> Panic.
Proof.
  intros m p [h Eh] Hok Hlen. 
  assert (HU : forall rep def values, page_parts p rep def values -> split_buffer m p = Ok (rep, def, values))
    by (intros; now apply split_parts).
  assert (HC : (exists rep def values, split_buffer m p = Ok (rep, def, values) /\ page_parts p rep def values) \/
               (split_buffer m p = Err OutOfSpec /\ forall rep def values, ~ page_parts p rep def values)).
  { unfold split_buffer, page_parts. rewrite Eh.
    destruct (split_v1_spec (dp_buffer p) (0 <? d_max_rep (dp_descriptor p))%Z (0 <? d_max_def (dp_descriptor p))%Z Hok)
      as [(rep & def & values & E & Eb & Hr & Hd)|[E Hn]].
    - left. exists rep, def, values. repeat split; assumption.
    - right. split; [exact E|]. intros rep def values (_ & Eb & Hr & Hd). now apply (Hn rep def values). }
  destruct HC as [(rep & def & values & E & Hp)|[E Hn]]; rewrite E in *.
  - split; [|split].
    + intros rep' def' values'. split; intro H; [apply Ok_inj in H; injection H as <- <- <-; exact Hp|now apply HU].
    + split; [discriminate|]. intro H. now apply H in Hp.
    + discriminate.
  - split; [|split].
    + intros rep def values. split; [discriminate|]. intro H. now apply Hn in H.
    + split; [intros _; exact Hn|reflexivity].
    + discriminate.
Qed.
Print Assumptions split_v1_exact.

(** A buffer assembled from levels and values splits into exactly those parts (both page versions). *)
Theorem split_assembled : forall m p rep def values,
  page_parts p rep def values -> split_buffer m p = Ok (rep, def, values).
Proof. exact split_parts. Qed.
Print Assumptions split_assembled.

Definition optional_int32 : descriptor :=
  mk_descr (mk_prim (mk_fi [97] Optional None) None None Int32) 1 0.
Definition a_v1_page (buffer : list N) : data_page := dp_new (HV1 (mk_tdh 4 0 3 3 None)) buffer optional_int32 None.
Definition a_v2_page (rep def : Z) (buffer : list N) : data_page :=
  dp_new (HV2 (mk_tdh2 4 1 4 0 def rep None None)) buffer optional_int32 None.

Example split_v1_case :
  page_parts (a_v1_page [2; 0; 0; 0; 3; 13; 7; 0; 0; 0]) [] [3; 13] [7; 0; 0; 0] /\
  split_buffer Checked (a_v1_page [2; 0; 0; 0; 3; 13; 7; 0; 0; 0]) = Ok ([], [3; 13], [7; 0; 0; 0]) /\
  split_buffer Checked (a_v1_page [9; 0; 0; 0; 3; 13; 7; 0; 0; 0]) = Err OutOfSpec.
Proof. vm_compute. repeat split. Qed.

(** C39 as stated is false: lengths beyond the buffer panic. *)
Theorem split_v2_overlong_refuted : exists p,
  ~ is_v1 p /\ bytes_ok (dp_buffer p) /\ forall m, split_buffer m p = Panic.
Proof.
  exists (a_v2_page 0 9 [3; 13]). split; [intros [h H]; discriminate H|]. split; [repeat constructor; reflexivity|].
  intros []; vm_compute; reflexivity.
Qed.
Print Assumptions split_v2_overlong_refuted.

(** What holds: the three consecutive pieces when the lengths fit in the buffer, an error for a negative length,
    and a panic exactly for non-negative lengths beyond the buffer. The header fields are 32-bit. *)
Theorem split_v2_exact : forall m p h,
  dp_header p = HV2 h -> in_s 32 (dh2_rep_length h) = true -> in_s 32 (dh2_def_length h) = true ->
  nlen (dp_buffer p) < 2 ^ 63 ->
  let rep_length := dh2_rep_length h in let def_length := dh2_def_length h in
  (split_buffer m p = Err OutOfSpec <-> (rep_length < 0 \/ def_length < 0)%Z) /\
  (split_buffer m p = Panic <->
     (0 <= rep_length /\ 0 <= def_length /\ Z.of_N (nlen (dp_buffer p)) < rep_length + def_length)%Z) /\
  (forall rep def values, split_buffer m p = Ok (rep, def, values) <-> page_parts p rep def values).
Proof.
  intros m p h Eh Hr32 Hd32 Hlen rep_length def_length.
  assert (HU : forall rep def values, page_parts p rep def values -> split_buffer m p = Ok (rep, def, values))
    by (intros; now apply split_parts).
  unfold in_s in Hr32, Hd32. apply andb_true_iff in Hr32 as [_ Hr32]. apply andb_true_iff in Hd32 as [_ Hd32].
  fold rep_length in Hr32. fold def_length in Hd32.
  assert (Hr : (rep_length < 2147483648)%Z) by (clear - Hr32; change (2 ^ (Z.of_N 32 - 1))%Z with 2147483648%Z in *; lia).
  assert (Hd : (def_length < 2147483648)%Z) by (clear - Hd32; change (2 ^ (Z.of_N 32 - 1))%Z with 2147483648%Z in *; lia).
  clear Hr32 Hd32.
  assert (HC :
    (split_buffer m p = Err OutOfSpec /\ (rep_length < 0 \/ def_length < 0)%Z) \/
    (split_buffer m p = Panic /\ (0 <= rep_length /\ 0 <= def_length /\ Z.of_N (nlen (dp_buffer p)) < rep_length + def_length)%Z) \/
    (exists rep def values, split_buffer m p = Ok (rep, def, values) /\ page_parts p rep def values /\
       (0 <= rep_length /\ 0 <= def_length /\ rep_length + def_length <= Z.of_N (nlen (dp_buffer p)))%Z)).
  { unfold split_buffer, page_parts. rewrite Eh. fold rep_length def_length. unfold try_usize.
    destruct (Z.ltb_spec def_length 0) as [Hd0|Hd0]; cbn [bind]; [left; split; [reflexivity|lia]|].
    destruct (Z.ltb_spec rep_length 0) as [Hr0|Hr0]; cbn [bind]; [left; split; [reflexivity|lia]|].
    destruct (split_v2_spec m (dp_buffer p) (Z.to_N rep_length) (Z.to_N def_length)) as [H1 H2];
      [change (2 ^ 63) with 9223372036854775808 in *; change (2 ^ 64) with 18446744073709551616; lia
      |change (2 ^ 63) with 9223372036854775808 in *; lia|change (2 ^ 63) with 9223372036854775808 in *; lia|].
    destruct (N.le_gt_cases (Z.to_N rep_length + Z.to_N def_length) (nlen (dp_buffer p))) as [L|L].
    - right; right. destruct (H1 L) as (a & b & c & E & Eb & Ha & Hb). exists a, b, c. split; [exact E|].
      change (2 ^ 63) with 9223372036854775808 in *; change (2 ^ 64) with 18446744073709551616 in *.
      change (2 ^ 31) with 2147483648. repeat split; try assumption; lia.
    - right; left. split; [now apply H2|]. lia. }
  destruct HC as [[E HP]|[[E HP]|(rep & def & values & E & Hp & HP)]]; rewrite E in *.
  - split; [|split].
    + tauto.
    + split; [discriminate|]. intros; lia.
    + intros rep def values. split; [discriminate|apply HU].
  - split; [|split].
    + split; [discriminate|]. intros; lia.
    + tauto.
    + intros rep def values. split; [discriminate|apply HU].
  - split; [|split].
    + split; [discriminate|]. intros; lia.
    + split; [discriminate|]. intros; lia.
    + intros rep' def' values'. split; intro H; [apply Ok_inj in H; injection H as <- <- <-; exact Hp|now apply HU].
Qed.
Print Assumptions split_v2_exact.

Example split_v2_case :
  page_parts (a_v2_page 1 2 [9; 3; 13; 7; 0]) [9] [3; 13] [7; 0] /\
  split_buffer Checked (a_v2_page 1 2 [9; 3; 13; 7; 0]) = Ok ([9], [3; 13], [7; 0]) /\
  split_buffer Checked (a_v2_page (-1) 2 [9; 3; 13; 7; 0]) = Err OutOfSpec.
Proof. vm_compute. repeat split. Qed.
