(** Proofs about statistics of column chunks of any writer. *)
From Verif Require Import Base.Prelude Model.Types Model.Native Model.Thrift Model.Statistics Model.Page Model.Io Model.Metadata Model.ColumnMeta
  Spec.PlainSpec Spec.ValuesSpec Spec.SkipSpec Spec.SearchSpec Spec.ForeignSearchSpec Spec.ForeignSkipSpec Proofs.TypesFacts Proofs.PlainProofs.
Open Scope N_scope.

Lemma check_len_ok size b : length b = size -> check_len size (Some b) = Ok tt.
Proof. intros <-. cbn [check_len]. rewrite Nat.eqb_refl. reflexivity. Qed.
Lemma check_len_cases size v : check_len size v = Ok tt /\ (forall b, v = Some b -> length b = size) \/ check_len size v = Err OutOfSpec.
Proof.
  destruct v as [b|]; [|left; split; [reflexivity|discriminate]]. cbn [check_len]. destruct (Nat.eqb_spec (length b) size) as [E|E]; [left; split; [reflexivity|intros ? [= <-]; exact E]|right; reflexivity].
Qed.
Lemma native_stored t x bytes : bound_stored (KNative t) x bytes -> check_len (native_size t) bytes = Ok tt /\ decode_opt t bytes = Ok x.
Proof.
  destruct x as [v|], bytes as [b|]; cbn [bound_stored]; [|intros []|intros []|split; reflexivity]. intros [[Hv ->] _].
  split; [apply check_len_ok, native_to_le_length|]. cbn [decode_opt]. unfold native_decode. rewrite native_to_le_length, Nat.eqb_refl. cbn [bind]. rewrite native_from_to by exact Hv. reflexivity.
Qed.
Lemma binary_stored x bytes : bound_stored KBinary x bytes -> bytes = x.
Proof. destruct x as [v|], bytes as [b|]; cbn [bound_stored bound_bytes]; [|intros []|intros []|reflexivity]. intros [-> _]. reflexivity. Qed.
Lemma fixed_stored size x bytes : bound_stored (KFixed size) x bytes -> check_len (N.to_nat size) bytes = Ok tt /\ option_map (firstn (N.to_nat size)) bytes = x.
Proof.
  destruct x as [v|], bytes as [b|]; cbn [bound_stored bound_bytes]; [|intros []|intros []|split; reflexivity]. intros [-> H].
  assert (L : length v = N.to_nat size) by (unfold nlen in H; lia). split; [apply check_len_ok; exact L|]. cbn [option_map]. rewrite <- L, firstn_all. reflexivity.
Qed.
Lemma boolean_stored x bytes : bound_stored KBoolean x bytes -> check_len 1 bytes = Ok tt /\ bool_of bytes = x.
Proof.
  destruct x as [v|], bytes as [b|]; cbn [bound_stored bound_bytes]; [|intros []|intros []|split; reflexivity]. intros [-> _]. destruct v; split; reflexivity.
Qed.

(** Statistics that say bounds are decoded with these bounds. *)
Lemma statistics_said k s p b : pt_physical p = match k with KNative t => native_physical t | KBinary => ByteArray | KFixed size => FixedLenByteArray size | KBoolean => Boolean end ->
  statistics_say k s b -> exists st, deserialize_statistics s p = Ok st /\ bounds_stated k st b.
Proof.
  intros Hp [Hlo Hhi]. unfold deserialize_statistics. rewrite Hp. destruct b as [lo hi]. cbn [fst snd] in *. destruct k as [t| |size|]; cbn [bounds_stated].
  - apply native_stored in Hlo as [L1 L2]. apply native_stored in Hhi as [H1 H2].
    assert (E : primitive_read t s p = Ok (SNative t p (mk_st (ts_null_count s) (ts_distinct_count s) hi lo))) by (unfold primitive_read; rewrite L1, H1; cbn [bind]; rewrite L2, H2; reflexivity).
    exists (SNative t p (mk_st (ts_null_count s) (ts_distinct_count s) hi lo)). split; [destruct t; exact E|]. eexists _, _. split; reflexivity.
  - apply binary_stored in Hlo, Hhi. unfold binary_read. eexists. split; [reflexivity|]. eexists _, _. split; [reflexivity|]. cbn [st_min st_max]. rewrite Hlo, Hhi. reflexivity.
  - apply fixed_stored in Hlo as [L1 L2]. apply fixed_stored in Hhi as [H1 H2]. unfold fixed_read. rewrite L1, H1. cbn [bind]. eexists. split; [reflexivity|].
    eexists _, _. split; [reflexivity|]. cbn [st_min st_max]. rewrite L2, H2. reflexivity.
  - apply boolean_stored in Hlo as [L1 L2]. apply boolean_stored in Hhi as [H1 H2]. unfold boolean_read. rewrite L1, H1. cbn [bind]. eexists. split; [reflexivity|].
    eexists. split; [reflexivity|]. cbn [st_min st_max]. rewrite L2, H2. reflexivity.
Qed.
Lemma checks_fail (size : nat) s b {A} (f : res A) : (ts_min_value s = Some b \/ ts_max_value s = Some b) -> length b <> size ->
  (let* _ := check_len size (ts_max_value s) in let* _ := check_len size (ts_min_value s) in f) = Err OutOfSpec.
Proof.
  intros Hb Hn. destruct (check_len_cases size (ts_max_value s)) as [[-> H1]| ->]; [|reflexivity]. cbn [bind].
  destruct (check_len_cases size (ts_min_value s)) as [[-> H2]| ->]; [|reflexivity]. destruct Hb as [E|E]; [specialize (H2 _ E)|specialize (H1 _ E)]; congruence.
Qed.
Lemma statistics_broken k s p : pt_physical p = match k with KNative t => native_physical t | KBinary => ByteArray | KFixed size => FixedLenByteArray size | KBoolean => Boolean end ->
  broken_statistics k s -> deserialize_statistics s p = Err OutOfSpec.
Proof.
  intros Hp (size & b & Hs & Hb & Hn). unfold deserialize_statistics. rewrite Hp. unfold nlen in Hn. destruct k as [t| |n|]; cbn [bound_size] in Hs; try discriminate Hs; injection Hs as <-.
  - assert (E : primitive_read t s p = Err OutOfSpec) by (unfold primitive_read; apply checks_fail with (b := b); [exact Hb|lia]). destruct t; exact E.
  - unfold fixed_read. apply checks_fail with (b := b); [exact Hb|lia].
  - unfold boolean_read. apply checks_fail with (b := b); [exact Hb|lia].
Qed.

(** Leaving out lists without hits. *)
Lemma filter_from_cells {A} (h : A -> bool) (passes : row_group_md -> nat -> bool) (R : row_group_md -> list A -> Prop) : forall groups cells i,
  Forall2 (fun g l => R g l /\ forall i, passes g i = false -> filter h l = []) groups cells ->
  exists kept, Forall2 R (filter_from passes i groups) kept /\ filter h (concat kept) = filter h (concat cells).
Proof.
  intros groups cells i H. revert i. induction H as [|g l groups cells [Hr Hno] _ IH]; intros i; [exists []; split; [constructor|reflexivity]|].
  destruct (IH (S i)) as (kept & K1 & K2). cbn [filter_from concat]. destruct (passes g i) eqn:E.
  - exists (l :: kept). split; [apply Forall2_cons; assumption|]. cbn [concat]. rewrite !filter_app, K2. reflexivity.
  - exists kept. split; [exact K1|]. rewrite filter_app, (Hno i E). exact K2.
Qed.
