(** C36, C74, C75: the bounds of a column chunk without any condition on the bounds of its pages. *)
From Verif Require Import Base.Prelude Base.LeFacts Model.Types Model.Native Model.Thrift Model.Statistics
  Spec.PlainSpec Spec.StatsSpec Spec.StatsExactSpec Proofs.TypesFacts Proofs.PlainProofs Proofs.StatsProofs Proofs.StatsExactProofs Props.Statistics.
Open Scope Z_scope.

(** C36. Byte arrays, any bounds: the chunk's minimum is one of the pages' minima, and every page minimum is at or above it in the unsigned
    lexicographic order or is a prefix of it; its maximum is one of the pages' maxima, and every page maximum is at or below it or
    continues it. *)
Theorem chunk_statistics_binary_any m (pages : list (option (primitive_type * stats_of (list N)))) first rest :
  known pages = first :: rest ->
  counts_fit (map (fun s => st_null_count (snd s)) (known pages)) ->
  exists r, reduce_statistics m (map (option_map (fun s => SBinary (fst s) (snd s))) pages) =
      Ok (Some (SBinary (fst first) r)) /\
    extreme low_but_prefixes (known (map (fun s => st_min (snd s)) (known pages))) (st_min r) /\
    extreme high_but_prefixes (known (map (fun s => st_max (snd s)) (known pages))) (st_max r) /\
    st_null_count r = known_sum (map (fun s => st_null_count (snd s)) (known pages)).
Proof.
  intros E [Hn Hs].
  destruct (reduce_chunk_folds m (select_binary false) (select_binary true) (fun s => SBinary (fst s) (snd s)) snd (fun b r => SBinary (fst b) r)
    pages first rest ByteArray E ltac:(reflexivity)) as (r & Hr & H1 & H2 & H3); [|exact Hn|exact Hs|].
  - cbn [reduce_by_type]. rewrite (downcast_map _ _ (fun s => s)) by (intros []; reflexivity). rewrite map_id.
    destruct first as [p1 s1]. cbn [bind reduce_typed fst snd].
    destruct (reduce_fold _ _ _ s1 (map snd rest)); reflexivity.
  - exists r. split; [exact Hr|]. rewrite H1, H2. split; [|split; [|exact H3]].
    + destruct (known (map (fun s => st_min (snd s)) (known pages))) as [|x l]; [reflexivity|]. destruct (fold_low l x) as [A B]. split; [exact A|].
      apply Forall_forall. intros b [<-|Hb]; apply ord_go_low, B; [left; apply ord_go_refl | right; exact Hb].
    + destruct (known (map (fun s => st_max (snd s)) (known pages))) as [|x l]; [reflexivity|]. destruct (fold_high l x) as [A B]. split; [exact A|].
      apply Forall_forall. intros b [<-|Hb]; apply ord_go_high, B; [left; apply ord_go_refl | right; exact Hb].
Qed.
Print Assumptions chunk_statistics_binary_any.

Example chunk_statistics_binary_any_case :
  let page v := Some (example_type, mk_st (Some 2) None (Some v) (Some v)) in
  let pages := [page [97; 98]%N; page [97]%N; page [97; 97]%N; page [97; 98; 1]%N] in
  counts_fit (map (fun s => st_null_count (snd s)) (known pages)) /\
  reduce_statistics Checked (map (option_map (fun s => SBinary (fst s) (snd s))) pages) =
    Ok (Some (SBinary example_type (mk_st (Some 8) None (Some [97; 98]%N) (Some [97; 97]%N)))).
Proof. split; [split; cbn; [repeat constructor; lia|lia]|vm_compute; reflexivity]. Qed.

(** C74. Doubles, NaNs included: the minimum is the first bound if that is a NaN, and otherwise the least of the bounds that are no NaNs; the
    maximum is the greatest of those behind the last NaN, or that NaN if there are none. *)
Theorem chunk_statistics_double_any m (pages : list (option (primitive_type * stats_of N))) first rest :
  known pages = first :: rest ->
  counts_fit (map (fun s => st_null_count (snd s)) (known pages)) ->
  exists r, reduce_statistics m (map (option_map (fun s => SNative NF64 (fst s) (snd s))) pages) =
      Ok (Some (SNative NF64 (fst first) r)) /\
    min_with_nans 64 inf64 (known (map (fun s => st_min (snd s)) (known pages))) (st_min r) /\
    max_with_nans 64 inf64 (known (map (fun s => st_max (snd s)) (known pages))) (st_max r) /\
    st_null_count r = known_sum (map (fun s => st_null_count (snd s)) (known pages)).
Proof.
  intros E [Hn Hs].
  destruct (reduce_chunk_folds m (f_min 64 inf64) (f_max 64 inf64) (fun s => SNative NF64 (fst s) (snd s)) snd (fun b r => SNative NF64 (fst b) r)
    pages first rest Double E ltac:(reflexivity) (reduce_native_fold m NF64 rest first) Hn Hs) as (r & Hr & H1 & H2 & H3).
  exists r. split; [exact Hr|].
  change (@st_min N r = match known (map (fun s => @st_min N (snd s)) (known pages)) with [] => None | x :: l => Some (fold_left (f_min 64 inf64) l x) end) in H1.
  change (@st_max N r = match known (map (fun s => @st_max N (snd s)) (known pages)) with [] => None | x :: l => Some (fold_left (f_max 64 inf64) l x) end) in H2.
  cbn [carrier] in *. rewrite H1, H2. split; [|split; [|exact H3]].
  - destruct (known (map (fun s => st_min (snd s)) (known pages))) as [|x l]; [reflexivity | apply min_is].
  - destruct (known (map (fun s => st_max (snd s)) (known pages))) as [|x l]; [|apply max_is].
    exists [], []. split; [reflexivity|]. split; [constructor|]. split; [left; reflexivity | intros _; reflexivity].
Qed.
Print Assumptions chunk_statistics_double_any.

(** C74. Floats, NaNs included: the minimum is the first bound if that is a NaN, and otherwise the least of the bounds that are no NaNs; the
    maximum is the greatest of those behind the last NaN, or that NaN if there are none. *)
Theorem chunk_statistics_float_any m (pages : list (option (primitive_type * stats_of N))) first rest :
  known pages = first :: rest ->
  counts_fit (map (fun s => st_null_count (snd s)) (known pages)) ->
  exists r, reduce_statistics m (map (option_map (fun s => SNative NF32 (fst s) (snd s))) pages) =
      Ok (Some (SNative NF32 (fst first) r)) /\
    min_with_nans 32 inf32 (known (map (fun s => st_min (snd s)) (known pages))) (st_min r) /\
    max_with_nans 32 inf32 (known (map (fun s => st_max (snd s)) (known pages))) (st_max r) /\
    st_null_count r = known_sum (map (fun s => st_null_count (snd s)) (known pages)).
Proof.
  intros E [Hn Hs].
  destruct (reduce_chunk_folds m (f_min 32 inf32) (f_max 32 inf32) (fun s => SNative NF32 (fst s) (snd s)) snd (fun b r => SNative NF32 (fst b) r)
    pages first rest Float E ltac:(reflexivity) (reduce_native_fold m NF32 rest first) Hn Hs) as (r & Hr & H1 & H2 & H3).
  exists r. split; [exact Hr|].
  change (@st_min N r = match known (map (fun s => @st_min N (snd s)) (known pages)) with [] => None | x :: l => Some (fold_left (f_min 32 inf32) l x) end) in H1.
  change (@st_max N r = match known (map (fun s => @st_max N (snd s)) (known pages)) with [] => None | x :: l => Some (fold_left (f_max 32 inf32) l x) end) in H2.
  cbn [carrier] in *. rewrite H1, H2. split; [|split; [|exact H3]].
  - destruct (known (map (fun s => st_min (snd s)) (known pages))) as [|x l]; [reflexivity | apply min_is].
  - destruct (known (map (fun s => st_max (snd s)) (known pages))) as [|x l]; [|apply max_is].
    exists [], []. split; [reflexivity|]. split; [constructor|]. split; [left; reflexivity | intros _; reflexivity].
Qed.
Print Assumptions chunk_statistics_float_any.

Example chunk_statistics_double_any_case :
  let page v := Some (example_type, mk_st None None (Some v) (Some v)) in
  let pages := [page f64_5; page f64_nan; page f64_3] in
  counts_fit (map (fun s => st_null_count (snd s)) (known pages)) /\ is_nan 64 inf64 f64_nan /\ no_nan 64 inf64 f64_5 /\
  reduce_statistics Checked (map (option_map (fun s => SNative NF64 (fst s) (snd s))) pages) =
    Ok (Some (SNative NF64 example_type (mk_st None None (Some f64_3) (Some f64_3)))).
Proof. split; [split; cbn; [constructor|lia]|]. split; [reflexivity|]. split; [reflexivity|]. vm_compute. reflexivity. Qed.

(** C75. Unsigned numbers of 32 bits, any bounds: numbers with the top bit set come before those without it. So the minimum is the least of the
    bounds with the top bit set if there are any, and otherwise the least of all; the maximum is the greatest of those without it if there
    are any, and otherwise the greatest of all. *)
Theorem chunk_statistics_unsigned32_any m (pages : list (option (primitive_type * stats_of Z))) first rest :
  known pages = first :: rest ->
  Forall (fun z => - 2 ^ (32 - 1) <= z < 2 ^ (32 - 1)) (known (map (fun s => st_min (snd s)) (known pages))) ->
  Forall (fun z => - 2 ^ (32 - 1) <= z < 2 ^ (32 - 1)) (known (map (fun s => st_max (snd s)) (known pages))) ->
  counts_fit (map (fun s => st_null_count (snd s)) (known pages)) ->
  exists r, reduce_statistics m (map (option_map (fun s => SNative NI32 (fst s) (snd s))) pages) =
      Ok (Some (SNative NI32 (fst first) r)) /\
    min_of_unsigned 32 (known (map (fun s => st_min (snd s)) (known pages))) (st_min r) /\
    max_of_unsigned 32 (known (map (fun s => st_max (snd s)) (known pages))) (st_max r) /\
    st_null_count r = known_sum (map (fun s => st_null_count (snd s)) (known pages)).
Proof.
  intros E H1 H2 Hf. destruct (chunk_statistics_int32 m pages first rest E Hf) as (r & Er & A & B & C).
  exists r. split; [exact Er|]. split; [apply unsigned_min; [reflexivity | exact H1 | exact A]|].
  split; [apply unsigned_max; [reflexivity | exact H2 | exact B] | exact C].
Qed.
Print Assumptions chunk_statistics_unsigned32_any.

(** C75. Unsigned numbers of 64 bits, any bounds: numbers with the top bit set come before those without it. So the minimum is the least of the
    bounds with the top bit set if there are any, and otherwise the least of all; the maximum is the greatest of those without it if there
    are any, and otherwise the greatest of all. *)
Theorem chunk_statistics_unsigned64_any m (pages : list (option (primitive_type * stats_of Z))) first rest :
  known pages = first :: rest ->
  Forall (fun z => - 2 ^ (64 - 1) <= z < 2 ^ (64 - 1)) (known (map (fun s => st_min (snd s)) (known pages))) ->
  Forall (fun z => - 2 ^ (64 - 1) <= z < 2 ^ (64 - 1)) (known (map (fun s => st_max (snd s)) (known pages))) ->
  counts_fit (map (fun s => st_null_count (snd s)) (known pages)) ->
  exists r, reduce_statistics m (map (option_map (fun s => SNative NI64 (fst s) (snd s))) pages) =
      Ok (Some (SNative NI64 (fst first) r)) /\
    min_of_unsigned 64 (known (map (fun s => st_min (snd s)) (known pages))) (st_min r) /\
    max_of_unsigned 64 (known (map (fun s => st_max (snd s)) (known pages))) (st_max r) /\
    st_null_count r = known_sum (map (fun s => st_null_count (snd s)) (known pages)).
Proof.
  intros E H1 H2 Hf. destruct (chunk_statistics_int64 m pages first rest E Hf) as (r & Er & A & B & C).
  exists r. split; [exact Er|]. split; [apply unsigned_min; [reflexivity | exact H1 | exact A]|].
  split; [apply unsigned_max; [reflexivity | exact H2 | exact B] | exact C].
Qed.
Print Assumptions chunk_statistics_unsigned64_any.

Example chunk_statistics_unsigned_any_case :
  let page v := Some (uint_type, mk_st (Some 0) None (Some v) (Some v)) in
  let pages := [page 5; page (-1); page 7; page (-9)] in
  counts_fit (map (fun s => st_null_count (snd s)) (known pages)) /\ has_top_bit 32 (-1) /\ ~ has_top_bit 32 5 /\
  reduce_statistics Checked (map (option_map (fun s => SNative NI32 (fst s) (snd s))) pages) =
    Ok (Some (SNative NI32 uint_type (mk_st (Some 0) None (Some 7) (Some (-9))))).
Proof.
  split; [split; cbn; [repeat constructor; lia|lia]|]. split; [vm_compute; discriminate|]. split; [intros H; vm_compute in H; congruence|].
  vm_compute. reflexivity.
Qed.
