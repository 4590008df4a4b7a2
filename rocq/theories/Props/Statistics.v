(** C34-C37, C74-C76: statistics. *)
From Verif Require Import Base.Prelude Base.LeFacts Model.Types Model.Native Model.Thrift Model.Statistics
  Spec.PlainSpec Spec.StatsSpec Proofs.TypesFacts Proofs.PlainProofs Proofs.StatsProofs.
Open Scope Z_scope.

(** C34. Round trip, for every physical type and every combination of present fields. *)
Theorem statistics_roundtrip p s : stats_of_type p s ->
  exists t, serialize_statistics s = Ok t /\ deserialize_statistics t p = Ok s.
Proof.
  destruct s as [s|t p' s|p' s|p' s]; cbn [stats_of_type].
  - intro E. eexists. split; [reflexivity|]. unfold deserialize_statistics. rewrite E.
    destruct s as [n d mx mn]. unfold boolean_read, boolean_write. cbn.
    destruct mx as [[|]|], mn as [[|]|]; reflexivity.
  - intros (-> & E & Hmin & Hmax). eexists. split; [reflexivity|]. unfold deserialize_statistics. rewrite <- E.
    destruct s as [n d mx mn]. cbn [st_min st_max] in *.
    assert (C : forall o, all_opt (native_ok t) o ->
      check_len (native_size t) (option_map (native_to_le t) o) = Ok tt /\
      decode_opt t (option_map (native_to_le t) o) = Ok o).
    { intros [v|] Hv; cbn [option_map check_len decode_opt]; [|split; reflexivity].
      unfold native_decode. rewrite native_to_le_length, Nat.eqb_refl. cbn [bind].
      rewrite native_from_to by exact Hv. split; reflexivity. }
    destruct (C mx Hmax) as [A1 A2]. destruct (C mn Hmin) as [B1 B2].
    assert (R : primitive_read t (primitive_write t (mk_st n d mx mn)) p =
      Ok (SNative t p (mk_st n d mx mn))).
    { unfold primitive_read, primitive_write.
      cbn [ts_max_value ts_min_value ts_null_count ts_distinct_count st_min st_max st_null_count
        st_distinct_count].
      rewrite A1, B1. cbn [bind]. rewrite A2, B2. reflexivity. }
    destruct t; exact R.
  - intros (-> & E). eexists. split; [reflexivity|]. unfold deserialize_statistics. rewrite E.
    destruct s as [n d mx mn]. reflexivity.
  - intros (-> & n & E & Hmin & Hmax). cbn [serialize_statistics]. rewrite E. eexists. split; [reflexivity|].
    unfold deserialize_statistics. rewrite E. destruct s as [nc d mx mn]. cbn [st_min st_max] in *.
    unfold fixed_read, binary_write.
    cbn [ts_max_value ts_min_value ts_null_count ts_distinct_count st_min st_max st_null_count st_distinct_count].
    assert (C : forall o, all_opt (fun v => nlen v = n) o -> check_len (N.to_nat n) o = Ok tt /\
      option_map (firstn (N.to_nat n)) o = o).
    { intros [v|] Hv; cbn [check_len option_map all_opt] in *; [|split; reflexivity].
      assert (El : length v = N.to_nat n) by (unfold nlen in Hv; lia).
      rewrite <- El, Nat.eqb_refl, firstn_all. split; reflexivity. }
    destruct (C mx Hmax) as [A1 A2]. destruct (C mn Hmin) as [B1 B2].
    rewrite A1, B1. cbn [bind]. rewrite A2, B2. reflexivity.
Qed.
Print Assumptions statistics_roundtrip.

(** The PLAIN width of a value of each physical type, from the Parquet format; byte arrays have none. *)
Definition plain_width (t : physical_type) : option N :=
  match t with
  | Boolean => Some 1 | Int32 | Float => Some 4 | Int64 | Double => Some 8 | Int96 => Some 12
  | FixedLenByteArray n => Some n
  | ByteArray => None
  end%N.
Definition width_ok (t : physical_type) (v : option (list N)) : Prop :=
  match plain_width t with
  | Some n => all_opt (fun v => nlen v = n) v
  | None => True
  end.

(** C34. Whatever the thrift statistics are, deserialization does not panic; it succeeds exactly when
    both bounds have the width of the type, and is an "out of spec" error otherwise. When it succeeds the
    statistics keep the counts, and (except for booleans, see below) the same bytes. *)
Theorem statistics_rejects_widths v p :
  (width_ok (pt_physical p) (ts_max_value v) /\ width_ok (pt_physical p) (ts_min_value v) ->
     exists s, deserialize_statistics v p = Ok s) /\
  (~ (width_ok (pt_physical p) (ts_max_value v) /\ width_ok (pt_physical p) (ts_min_value v)) ->
     deserialize_statistics v p = Err OutOfSpec).
Proof.
  assert (C : forall n o, (all_opt (fun v => nlen v = n) o -> check_len (N.to_nat n) o = Ok tt) /\
    (~ all_opt (fun v => nlen v = n) o -> check_len (N.to_nat n) o = Err OutOfSpec)).
  { intros n [x|]; cbn [all_opt check_len]; [|split; [reflexivity|tauto]].
    unfold nlen. destruct (Nat.eqb_spec (length x) (N.to_nat n)); split; intro H; try reflexivity; lia. }
  assert (D : forall t o, all_opt (fun v => nlen v = N.of_nat (native_size t)) o -> exists x, decode_opt t o = Ok x).
  { intros t [x|]; cbn [all_opt decode_opt]; [|eexists; reflexivity].
    unfold native_decode, nlen. intro H.
    destruct (Nat.eqb_spec (length x) (native_size t)); [|lia]. eexists. reflexivity. }
  assert (B : forall n (o : option (list N)), all_opt (fun v => nlen v = n) o \/ ~ all_opt (fun v => nlen v = n) o).
  { intros n [x|]; cbn [all_opt]; [|auto]. destruct (N.eq_dec (nlen x) n); auto. }
  assert (P : forall t, plain_width (pt_physical p) = Some (N.of_nat (native_size t)) ->
    (width_ok (pt_physical p) (ts_max_value v) /\ width_ok (pt_physical p) (ts_min_value v) ->
       exists s, primitive_read t v p = Ok s) /\
    (~ (width_ok (pt_physical p) (ts_max_value v) /\ width_ok (pt_physical p) (ts_min_value v)) ->
       primitive_read t v p = Err OutOfSpec)).
  { intros t Ew. unfold width_ok. rewrite Ew. unfold primitive_read.
    destruct (C (N.of_nat (native_size t)) (ts_max_value v)) as [C1 C2].
    destruct (C (N.of_nat (native_size t)) (ts_min_value v)) as [C3 C4].
    rewrite Nat2N.id in C1, C2, C3, C4. split.
    - intros [H1 H2]. rewrite C1, C3 by assumption. cbn [bind].
      destruct (D t _ H1) as (x & ->). destruct (D t _ H2) as (y & ->). eexists; reflexivity.
    - intro H. destruct (B (N.of_nat (native_size t)) (ts_max_value v)) as [H1|H1].
      + rewrite C1 by assumption. cbn [bind]. rewrite C4 by tauto. reflexivity.
      + rewrite C2 by assumption. reflexivity. }
  unfold deserialize_statistics. destruct (pt_physical p) eqn:Ep; try (apply P; reflexivity).
  - unfold width_ok, boolean_read. cbn [plain_width].
    destruct (C 1%N (ts_max_value v)) as [C1 C2]. destruct (C 1%N (ts_min_value v)) as [C3 C4].
    change (N.to_nat 1) with 1%nat in *. split.
    + intros [H1 H2]. rewrite C1, C3 by assumption. eexists; reflexivity.
    + intro H. destruct (B 1%N (ts_max_value v)) as [H1|H1].
      * rewrite C1 by assumption. cbn [bind]. rewrite C4 by tauto. reflexivity.
      * rewrite C2 by assumption. reflexivity.
  - unfold width_ok, binary_read. cbn [plain_width]. split; [|tauto]. intros _. eexists; reflexivity.
  - unfold width_ok, fixed_read. cbn [plain_width].
    destruct (C size (ts_max_value v)) as [C1 C2]. destruct (C size (ts_min_value v)) as [C3 C4]. split.
    + intros [H1 H2]. rewrite C1, C3 by assumption. eexists; reflexivity.
    + intro H. destruct (B size (ts_max_value v)) as [H1|H1].
      * rewrite C1 by assumption. cbn [bind]. rewrite C4 by tauto. reflexivity.
      * rewrite C2 by assumption. reflexivity.
Qed.
Print Assumptions statistics_rejects_widths.

(** C34. What is read means what the bytes say: writing it again gives the same bytes and counts (the
    deprecated fields min and max are dropped); a boolean bound is read as "byte is not zero". *)
Theorem statistics_read_faithful v p s : all_opt bytes_ok (ts_max_value v) -> all_opt bytes_ok (ts_min_value v) ->
  deserialize_statistics v p = Ok s ->
  stats_of_type p s /\
  match s with
  | SBool b => st_null_count b = ts_null_count v /\ st_distinct_count b = ts_distinct_count v /\
      (forall x, ts_max_value v = Some [x] -> st_max b = Some (negb (x =? 0)%N)) /\
      (forall x, ts_min_value v = Some [x] -> st_min b = Some (negb (x =? 0)%N)) /\
      (ts_max_value v = None -> st_max b = None) /\ (ts_min_value v = None -> st_min b = None)
  | _ => serialize_statistics s =
      Ok (mk_tstats None None (ts_null_count v) (ts_distinct_count v) (ts_max_value v) (ts_min_value v))
  end.
Proof.
  intros Hx Hn.
  assert (D : forall t o x, all_opt bytes_ok o -> check_len (native_size t) o = Ok tt ->
    decode_opt t o = Ok x -> all_opt (native_ok t) x /\ option_map (native_to_le t) x = o).
  { intros t [l|] x Hb Hc; cbn [decode_opt check_len all_opt] in *.
    - unfold native_decode. destruct (Nat.eqb_spec (length l) (native_size t)) as [El|El]; [|discriminate].
      cbn [bind]. intro E. apply Ok_inj in E. subst x. cbn [all_opt option_map].
      destruct (native_to_from t l Hb El) as [A B]. split; [exact A|f_equal; exact B].
    - intro E. apply Ok_inj in E. subst x. split; [exact I|reflexivity]. }
  assert (P : forall t, native_physical t = pt_physical p -> primitive_read t v p = Ok s ->
    exists st, s = SNative t p st /\ stats_of_type p s /\ serialize_statistics s =
      Ok (mk_tstats None None (ts_null_count v) (ts_distinct_count v) (ts_max_value v) (ts_min_value v))).
  { intros t Et. unfold primitive_read.
    destruct (check_len (native_size t) (ts_max_value v)) as [[]| |] eqn:E1; try discriminate. cbn [bind].
    destruct (check_len (native_size t) (ts_min_value v)) as [[]| |] eqn:E2; try discriminate. cbn [bind].
    destruct (decode_opt t (ts_max_value v)) as [x| |] eqn:E3; try discriminate. cbn [bind].
    destruct (decode_opt t (ts_min_value v)) as [y| |] eqn:E4; try discriminate. cbn [bind].
    intro E. apply Ok_inj in E. subst s. eexists. split; [reflexivity|].
    destruct (D t _ _ Hx E1 E3) as [O1 M1]. destruct (D t _ _ Hn E2 E4) as [O2 M2]. split.
    - cbn [stats_of_type st_min st_max]. auto.
    - cbn [serialize_statistics]. unfold primitive_write.
      cbn [st_null_count st_distinct_count st_max st_min]. rewrite M1, M2. reflexivity. }
  unfold deserialize_statistics. destruct (pt_physical p) eqn:Ep; intro E.
  2,3,4,5,6: match type of E with primitive_read ?t _ _ = _ =>
    destruct (P t eq_refl E) as (st & -> & A & B); split; [exact A|exact B] end.
  - unfold boolean_read in E.
    destruct (check_len 1 (ts_max_value v)) as [[]| |] eqn:E1; try discriminate. cbn [bind] in E.
    destruct (check_len 1 (ts_min_value v)) as [[]| |] eqn:E2; try discriminate. cbn [bind] in E.
    apply Ok_inj in E. subst s. split; [exact Ep|]. cbn [st_null_count st_distinct_count st_max st_min].
    repeat split; intros; rewrite H; reflexivity.
  - unfold binary_read in E. apply Ok_inj in E. subst s. split; [split; [reflexivity|exact Ep]|reflexivity].
  - unfold fixed_read in E.
    destruct (check_len (N.to_nat size) (ts_max_value v)) as [[]| |] eqn:E1; try discriminate. cbn [bind] in E.
    destruct (check_len (N.to_nat size) (ts_min_value v)) as [[]| |] eqn:E2; try discriminate. cbn [bind] in E.
    apply Ok_inj in E. subst s.
    assert (C : forall o, check_len (N.to_nat size) o = Ok tt ->
      all_opt (fun v => nlen v = size) (option_map (firstn (N.to_nat size)) o) /\
      option_map (firstn (N.to_nat size)) o = o).
    { intros [l|]; cbn [check_len option_map all_opt]; [|auto].
      destruct (Nat.eqb_spec (length l) (N.to_nat size)) as [El|]; [|discriminate]. intros _.
      rewrite <- El, firstn_all. split; [unfold nlen; lia|reflexivity]. }
    destruct (C _ E1) as [A1 B1]. destruct (C _ E2) as [A2 B2]. split.
    + cbn [stats_of_type st_min st_max]. split; [reflexivity|]. exists size. auto.
    + cbn [serialize_statistics]. rewrite Ep. unfold binary_write.
      cbn [st_null_count st_distinct_count st_max st_min]. rewrite B1, B2. reflexivity.
Qed.
Print Assumptions statistics_read_faithful.

Definition example_type : primitive_type := mk_prim (mk_fi [97]%N Optional None) None None Int32.
Example statistics_case :
  let s := SNative NI32 example_type (mk_st (Some 3) None (Some 7) (Some (-5))) in
  stats_of_type example_type s /\
  serialize_statistics s =
    Ok (mk_tstats None None (Some 3) None (Some [7; 0; 0; 0]%N) (Some [251; 255; 255; 255]%N)).
Proof. split; [|vm_compute; reflexivity]. cbn. repeat split; lia. Qed.

(** The null counts of all pages are non-negative and their sum is an [i64]. *)
Definition counts_fit (l : list (option Z)) : Prop :=
  Forall (fun z => 0 <= z) (known l) /\ sum_Z (known l) < 2 ^ 63.

(** C35. Integers. [pages] lists for each page its statistics, if it has any (the primitive type and the
    fields). If some page has statistics, the chunk has; its minimum is the least of the known minima (present
    if any is known), its maximum the greatest of the known maxima, its null count the sum of the known null
    counts. *)
Theorem chunk_statistics_int64 m (pages : list (option (primitive_type * stats_of Z))) first rest :
  known pages = first :: rest ->
  counts_fit (map (fun s => st_null_count (snd s)) (known pages)) ->
  exists r, reduce_statistics m (map (option_map (fun s => SNative NI64 (fst s) (snd s))) pages) =
      Ok (Some (SNative NI64 (fst first) r)) /\
    extreme Z.le (known (map (fun s => st_min (snd s)) (known pages))) (st_min r) /\
    extreme Z.ge (known (map (fun s => st_max (snd s)) (known pages))) (st_max r) /\
    st_null_count r = known_sum (map (fun s => st_null_count (snd s)) (known pages)).
Proof.
  intros E [Hn Hs].
  refine (reduce_chunk m _ _ _ _ _ _ (fun s => SNative NI64 (fst s) (snd s)) snd (fun b r => SNative NI64 (fst b) r)
    pages first rest Int64 E _ (reduce_native_fold m NI64 rest first) picks_int_min picks_int_max _ _ Hn Hs);
  try reflexivity; apply Forall_forall; auto.
Qed.
Print Assumptions chunk_statistics_int64.
Theorem chunk_statistics_int32 m (pages : list (option (primitive_type * stats_of Z))) first rest :
  known pages = first :: rest ->
  counts_fit (map (fun s => st_null_count (snd s)) (known pages)) ->
  exists r, reduce_statistics m (map (option_map (fun s => SNative NI32 (fst s) (snd s))) pages) =
      Ok (Some (SNative NI32 (fst first) r)) /\
    extreme Z.le (known (map (fun s => st_min (snd s)) (known pages))) (st_min r) /\
    extreme Z.ge (known (map (fun s => st_max (snd s)) (known pages))) (st_max r) /\
    st_null_count r = known_sum (map (fun s => st_null_count (snd s)) (known pages)).
Proof.
  intros E [Hn Hs].
  refine (reduce_chunk m _ _ _ _ _ _ (fun s => SNative NI32 (fst s) (snd s)) snd (fun b r => SNative NI32 (fst b) r)
    pages first rest Int32 E _ (reduce_native_fold m NI32 rest first) picks_int_min picks_int_max _ _ Hn Hs);
  try reflexivity; apply Forall_forall; auto.
Qed.
Print Assumptions chunk_statistics_int32.

(** C35. Booleans, false before true. *)
Theorem chunk_statistics_boolean m (pages : list (option (stats_of bool))) first rest :
  known pages = first :: rest ->
  counts_fit (map st_null_count (known pages)) ->
  exists r, reduce_statistics m (map (option_map SBool) pages) = Ok (Some (SBool r)) /\
    extreme bool_le (known (map st_min (known pages))) (st_min r) /\
    extreme (fun a b => bool_le b a) (known (map st_max (known pages))) (st_max r) /\
    st_null_count r = known_sum (map st_null_count (known pages)).
Proof.
  intros E [Hn Hs].
  refine (reduce_chunk m _ _ _ _ _ _ SBool (fun s => s) (fun _ r => SBool r)
    pages first rest Boolean E _ _ picks_bool_min picks_bool_max _ _ Hn Hs);
  try reflexivity; try (apply Forall_forall; auto).
  cbn [reduce_by_type]. rewrite (downcast_map _ _ (fun s => s)) by reflexivity. rewrite map_id.
  cbn [bind]. rewrite map_id. reflexivity.
Qed.
Print Assumptions chunk_statistics_boolean.

Example chunk_statistics_case :
  let st a b n := Some (example_type, mk_st n None (Some b) (Some a)) in
  let pages := [st 3 9 (Some 1); None; st (-4) 2 (Some 5)] in
  counts_fit (map (fun s => st_null_count (snd s)) (known pages)) /\
  reduce_statistics Checked (map (option_map (fun s => SNative NI32 (fst s) (snd s))) pages) =
    Ok (Some (SNative NI32 example_type (mk_st (Some 6) None (Some 9) (Some (-4))))).
Proof. split; [split; cbn; [repeat constructor; lia|lia]|vm_compute; reflexivity]. Qed.

(** C74. Floats: the same, in the numeric order, when no bound is a NaN. The numeric order is that of the
    integers obtained from sign and magnitude of the bit patterns. *)
Theorem chunk_statistics_double m (pages : list (option (primitive_type * stats_of N))) first rest :
  known pages = first :: rest ->
  Forall (not_nan 64 inf64) (known (map (fun s => st_min (snd s)) (known pages))) ->
  Forall (not_nan 64 inf64) (known (map (fun s => st_max (snd s)) (known pages))) ->
  counts_fit (map (fun s => st_null_count (snd s)) (known pages)) ->
  exists r, reduce_statistics m (map (option_map (fun s => SNative NF64 (fst s) (snd s))) pages) =
      Ok (Some (SNative NF64 (fst first) r)) /\
    extreme (fun a b => float_key 64 a <= float_key 64 b) (known (map (fun s => st_min (snd s)) (known pages)))
      (st_min r) /\
    extreme (fun a b => float_key 64 a >= float_key 64 b) (known (map (fun s => st_max (snd s)) (known pages)))
      (st_max r) /\
    st_null_count r = known_sum (map (fun s => st_null_count (snd s)) (known pages)).
Proof.
  intros E H1 H2 [Hn Hs].
  refine (reduce_chunk m _ _ _ _ _ _ (fun s => SNative NF64 (fst s) (snd s)) snd (fun b r => SNative NF64 (fst b) r)
    pages first rest Double E _ (reduce_native_fold m NF64 rest first)
    (picks_float_min 64 inf64) (picks_float_max 64 inf64) H1 H2 Hn Hs); reflexivity.
Qed.
Print Assumptions chunk_statistics_double.
Theorem chunk_statistics_float m (pages : list (option (primitive_type * stats_of N))) first rest :
  known pages = first :: rest ->
  Forall (not_nan 32 inf32) (known (map (fun s => st_min (snd s)) (known pages))) ->
  Forall (not_nan 32 inf32) (known (map (fun s => st_max (snd s)) (known pages))) ->
  counts_fit (map (fun s => st_null_count (snd s)) (known pages)) ->
  exists r, reduce_statistics m (map (option_map (fun s => SNative NF32 (fst s) (snd s))) pages) =
      Ok (Some (SNative NF32 (fst first) r)) /\
    extreme (fun a b => float_key 32 a <= float_key 32 b) (known (map (fun s => st_min (snd s)) (known pages)))
      (st_min r) /\
    extreme (fun a b => float_key 32 a >= float_key 32 b) (known (map (fun s => st_max (snd s)) (known pages)))
      (st_max r) /\
    st_null_count r = known_sum (map (fun s => st_null_count (snd s)) (known pages)).
Proof.
  intros E H1 H2 [Hn Hs].
  refine (reduce_chunk m _ _ _ _ _ _ (fun s => SNative NF32 (fst s) (snd s)) snd (fun b r => SNative NF32 (fst b) r)
    pages first rest Float E _ (reduce_native_fold m NF32 rest first)
    (picks_float_min 32 inf32) (picks_float_max 32 inf32) H1 H2 Hn Hs); reflexivity.
Qed.
Print Assumptions chunk_statistics_float.

(** C74 is false when a bound is a NaN: pages with maxima 5.0, NaN and 3.0 give the chunk maximum 3.0. *)
Definition f64_5 : N := 4617315517961601024.  (* 0x4014000000000000 *)
Definition f64_3 : N := 4613937818241073152.  (* 0x4008000000000000 *)
Definition f64_nan : N := 9221120237041090560. (* 0x7ff8000000000000 *)
Theorem chunk_statistics_nan_refuted :
  let page v := Some (SNative NF64 example_type (mk_st (Some 0) None (Some v) (Some v))) in
  exists r, reduce_statistics Checked [page f64_5; page f64_nan; page f64_3] =
      Ok (Some (SNative NF64 example_type r)) /\
    st_max r = Some f64_3 /\ native_gt NF64 f64_5 f64_3 = true.
Proof. eexists. split; [vm_compute; reflexivity|]. split; vm_compute; reflexivity. Qed.
Print Assumptions chunk_statistics_nan_refuted.

(** C36 is false of the code: the minimum of the pages "ab" and "a" is reported as "ab". *)
Theorem chunk_statistics_binary_refuted :
  let page v := Some (SBinary example_type (mk_st (Some 0) None (Some v) (Some v))) in
  exists r, reduce_statistics Checked [page [97; 98]%N; page [97]%N] = Ok (Some (SBinary example_type r)) /\
    st_min r = Some [97; 98]%N /\ lex_lt [97]%N [97; 98]%N.
Proof. eexists. split; [vm_compute; reflexivity|]. split; [reflexivity|]. apply lex_tail, lex_nil. Qed.
Print Assumptions chunk_statistics_binary_refuted.

(** C36. The bounds are right, in the unsigned lexicographic order, when no page minimum is a strict prefix
    of another page minimum, and likewise for the maxima. *)
Theorem chunk_statistics_binary m (pages : list (option (primitive_type * stats_of (list N)))) first rest :
  known pages = first :: rest ->
  prefix_free (known (map (fun s => st_min (snd s)) (known pages))) ->
  prefix_free (known (map (fun s => st_max (snd s)) (known pages))) ->
  counts_fit (map (fun s => st_null_count (snd s)) (known pages)) ->
  exists r, reduce_statistics m (map (option_map (fun s => SBinary (fst s) (snd s))) pages) =
      Ok (Some (SBinary (fst first) r)) /\
    extreme lex_le (known (map (fun s => st_min (snd s)) (known pages))) (st_min r) /\
    extreme (fun a b => lex_le b a) (known (map (fun s => st_max (snd s)) (known pages))) (st_max r) /\
    st_null_count r = known_sum (map (fun s => st_null_count (snd s)) (known pages)).
Proof.
  intros E H1 H2 [Hn Hs].
  refine (reduce_chunk m _ _ _ _ _ _ (fun s => SBinary (fst s) (snd s)) snd (fun b r => SBinary (fst b) r)
    pages first rest ByteArray E _ _ (picks_binary_min _ H1) (picks_binary_max _ H2) _ _ Hn Hs);
  try reflexivity; try (apply Forall_forall; auto).
  cbn [reduce_by_type]. rewrite (downcast_map _ _ (fun s => s)) by (intros []; reflexivity). rewrite map_id.
  destruct first as [p1 s1]. cbn [bind reduce_typed fst snd].
  destruct (reduce_fold _ _ _ s1 (map snd rest)); reflexivity.
Qed.
Print Assumptions chunk_statistics_binary.

(** C36. For fixed-length columns this condition always holds. *)
Theorem chunk_statistics_fixed m n (pages : list (option (primitive_type * stats_of (list N)))) first rest :
  known pages = first :: rest ->
  Forall (fun s => pt_physical (fst s) = FixedLenByteArray n) (known pages) ->
  Forall (fun v => nlen v = n) (known (map (fun s => st_min (snd s)) (known pages))) ->
  Forall (fun v => nlen v = n) (known (map (fun s => st_max (snd s)) (known pages))) ->
  counts_fit (map (fun s => st_null_count (snd s)) (known pages)) ->
  exists r, reduce_statistics m (map (option_map (fun s => SFixed (fst s) (snd s))) pages) =
      Ok (Some (SFixed (fst first) r)) /\
    extreme lex_le (known (map (fun s => st_min (snd s)) (known pages))) (st_min r) /\
    extreme (fun a b => lex_le b a) (known (map (fun s => st_max (snd s)) (known pages))) (st_max r) /\
    st_null_count r = known_sum (map (fun s => st_null_count (snd s)) (known pages)).
Proof.
  intros E Hp H1 H2 [Hn Hs].
  assert (F : forall l, Forall (fun v : list N => nlen v = n) l -> prefix_free l).
  { intros l Hl x y c Hx Hy ->. rewrite Forall_forall in Hl. apply Hl in Hx. apply Hl in Hy.
    unfold nlen in *. rewrite app_length in Hy. destruct c; [reflexivity|cbn [length] in Hy; lia]. }
  refine (reduce_chunk m _ _ _ _ _ _ (fun s => SFixed (fst s) (snd s)) snd (fun b r => SFixed (fst b) r)
    pages first rest (FixedLenByteArray n) E _ _ (picks_binary_min _ (F _ H1)) (picks_binary_max _ (F _ H2))
    _ _ Hn Hs);
  try (apply Forall_forall; auto; fail).
  - rewrite E in Hp. rewrite Forall_forall in Hp. exact Hp.
  - cbn [reduce_by_type]. rewrite (downcast_map _ _ (fun s => s)) by (intros []; reflexivity). rewrite map_id.
    destruct first as [p1 s1]. cbn [bind reduce_typed fst snd].
    destruct (reduce_fold _ _ _ s1 (map snd rest)); reflexivity.
Qed.
Print Assumptions chunk_statistics_fixed.

Example chunk_statistics_binary_case :
  let page a b := Some (example_type, mk_st (Some 2) None (Some b) (Some a)) in
  let pages := [page [98]%N [100; 1]%N; page [97; 1]%N [100; 2]%N] in
  prefix_free (known (map (fun s => st_min (snd s)) (known pages))) /\
  reduce_statistics Wrapping (map (option_map (fun s => SBinary (fst s) (snd s))) pages) =
    Ok (Some (SBinary example_type (mk_st (Some 4) None (Some [100; 2]%N) (Some [97; 1]%N)))).
Proof.
  split; [|vm_compute; reflexivity].
  intros x y c Hx Hy ->. cbn in Hx, Hy.
  repeat match goal with H : _ \/ _ |- _ => destruct H as [H|H] | H : False |- _ => destruct H end; subst; cbn in *;
    try congruence.
Qed.

(** C37 is false of the code: a page without statistics, or without a null count or bounds, is ignored and
    the chunk claims a null count and bounds anyway. *)
Theorem chunk_statistics_unknown_refuted :
  let page n := Some (SNative NI32 example_type (mk_st n None (Some 7) (Some 7))) in
  reduce_statistics Checked [page (Some 2); None] = reduce_statistics Checked [page (Some 2)] /\
  reduce_statistics Checked [page (Some 2); page None] =
    Ok (Some (SNative NI32 example_type (mk_st (Some 2) None (Some 7) (Some 7)))).
Proof. split; vm_compute; reflexivity. Qed.
Print Assumptions chunk_statistics_unknown_refuted.

(** C37. In general pages without statistics make no difference to the chunk's statistics. *)
Theorem chunk_statistics_ignores_unknown m pages pages' : known pages = known pages' ->
  reduce_statistics m pages = reduce_statistics m pages'.
Proof.
  intro E. unfold reduce_statistics. change (@filter_some statistics) with (@known statistics). rewrite E.
  destruct pages, pages'; try reflexivity; cbn in E |- *; rewrite <- ?E; try rewrite E; reflexivity.
Qed.
Print Assumptions chunk_statistics_ignores_unknown.

(** C37. They are therefore right when every page has statistics with a null count: the chunk's null count is
    then the sum over all pages (stated for INT64; the same follows for the other types from the theorems
    above). *)
Theorem chunk_null_count_complete m (pages : list (primitive_type * stats_of Z)) first rest : pages = first :: rest ->
  Forall (fun s => st_null_count (snd s) <> None) pages ->
  counts_fit (map (fun s => st_null_count (snd s)) pages) ->
  exists r, reduce_statistics m (map (fun s => Some (SNative NI64 (fst s) (snd s))) pages) =
      Ok (Some (SNative NI64 (fst first) r)) /\
    st_null_count r = Some (sum_Z (map (fun s => match st_null_count (snd s) with Some z => z | None => 0 end) pages)).
Proof.
  intros -> Hk Hf.
  assert (K : forall l, known (map (@Some (primitive_type * stats_of Z)) l) = l).
  { induction l as [|a l IH]; [reflexivity|]. cbn [map]. rewrite known_cons, IH. reflexivity. }
  destruct (chunk_statistics_int64 m (map Some (first :: rest)) first rest) as (r & Er & _ & _ & Hc).
  - apply K.
  - rewrite K. exact Hf.
  - exists r. rewrite map_map in Er. cbn [option_map] in Er. split; [exact Er|]. rewrite K in Hc. rewrite Hc.
    assert (L : forall l, Forall (fun s : primitive_type * stats_of Z => st_null_count (snd s) <> None) l ->
      known (map (fun s => st_null_count (snd s)) l) =
      map (fun s => match st_null_count (snd s) with Some z => z | None => 0 end) l).
    { induction 1 as [|a l Ha Hl IH]; [reflexivity|]. cbn [map]. rewrite known_cons, <- IH.
      destruct (st_null_count (snd a)); [reflexivity|congruence]. }
    unfold known_sum. rewrite (L _ Hk). reflexivity.
Qed.
Print Assumptions chunk_null_count_complete.

(** C75 is false of the code: bounds of unsigned columns are compared as signed integers, so that pages
    holding 5 and 2^32 - 1 (a negative [i32]) give the chunk maximum 5. *)
Definition uint_type : primitive_type :=
  mk_prim (mk_fi [97]%N Optional None) (Some (LInteger IUInt32)) (Some CUint32) Int32.
Theorem chunk_statistics_unsigned_refuted :
  let page v := Some (SNative NI32 uint_type (mk_st (Some 0) None (Some v) (Some v))) in
  exists r, reduce_statistics Checked [page 5; page (-1)] = Ok (Some (SNative NI32 uint_type r)) /\
    st_max r = Some 5 /\ (of_signed 32 5 < of_signed 32 (-1))%N.
Proof. eexists. split; [vm_compute; reflexivity|]. split; vm_compute; reflexivity. Qed.
Print Assumptions chunk_statistics_unsigned_refuted.

(** C75. They are right when all bounds are below 2^31 as unsigned numbers. *)
Theorem chunk_statistics_unsigned m (pages : list (option (primitive_type * stats_of Z))) first rest :
  known pages = first :: rest ->
  Forall (fun z => 0 <= z < 2 ^ 31) (known (map (fun s => st_min (snd s)) (known pages))) ->
  Forall (fun z => 0 <= z < 2 ^ 31) (known (map (fun s => st_max (snd s)) (known pages))) ->
  counts_fit (map (fun s => st_null_count (snd s)) (known pages)) ->
  exists r, reduce_statistics m (map (option_map (fun s => SNative NI32 (fst s) (snd s))) pages) =
      Ok (Some (SNative NI32 (fst first) r)) /\
    extreme (fun a b => (of_signed 32 a <= of_signed 32 b)%N)
      (known (map (fun s => st_min (snd s)) (known pages))) (st_min r) /\
    extreme (fun a b => (of_signed 32 a >= of_signed 32 b)%N)
      (known (map (fun s => st_max (snd s)) (known pages))) (st_max r).
Proof.
  intros E H1 H2 Hf. destruct (chunk_statistics_int32 m pages first rest E Hf) as (r & Er & A & B & _).
  exists r. split; [exact Er|].
  assert (S : forall z, 0 <= z < 2 ^ 31 -> of_signed 32 z = Z.to_N z).
  { intros z Hz. unfold of_signed. rewrite Z.mod_small; [reflexivity|].
    change (2 ^ Z.of_N 32) with 4294967296. change (2 ^ 31) with 2147483648 in Hz. lia. }
  split.
  - unfold extreme in *. destruct (st_min r) as [v|]; [|exact A]. destruct A as [Hin Hall].
    split; [exact Hin|]. rewrite Forall_forall in *. intros x Hx.
    rewrite (S v (H1 v Hin)), (S x (H1 x Hx)). specialize (Hall x Hx). lia.
  - unfold extreme in *. destruct (st_max r) as [v|]; [|exact B]. destruct B as [Hin Hall].
    split; [exact Hin|]. rewrite Forall_forall in *. intros x Hx.
    rewrite (S v (H2 v Hin)), (S x (H2 x Hx)). specialize (Hall x Hx). pose proof (H2 x Hx). lia.
Qed.
Print Assumptions chunk_statistics_unsigned.

(** C76 is false of the code: the statistics of INT96 pages cannot be reduced, it panics ([todo!()]). *)
Theorem chunk_statistics_int96_refuted m p s rest : known rest = [] ->
  reduce_statistics m (Some (SNative NI96 p s) :: rest) = Panic.
Proof.
  intro E. unfold reduce_statistics. change (@filter_some statistics) with (@known statistics).
  rewrite known_cons, E. reflexivity.
Qed.
Print Assumptions chunk_statistics_int96_refuted.

(** C76. Otherwise: statistics of pages of different physical types are an error, and no page statistics
    give no chunk statistics. *)
Theorem chunk_statistics_mixed m pages first rest : known pages = first :: rest ->
  (exists s, In s rest /\ stats_physical s <> stats_physical first) ->
  reduce_statistics m pages = Err OutOfSpec.
Proof.
  intros E (s & Hin & Hs). unfold reduce_statistics. destruct pages as [|o pages]; [discriminate|].
  change (@filter_some statistics) with (@known statistics). rewrite E.
  destruct (forallb _ rest) eqn:F; [|reflexivity]. rewrite forallb_forall in F.
  specialize (F s Hin). apply physical_eqb_spec in F. congruence.
Qed.
Print Assumptions chunk_statistics_mixed.
Theorem chunk_statistics_none m pages : known pages = [] -> reduce_statistics m pages = Ok None.
Proof.
  intro E. unfold reduce_statistics. change (@filter_some statistics) with (@known statistics).
  rewrite E. destruct pages; reflexivity.
Qed.
Print Assumptions chunk_statistics_none.
