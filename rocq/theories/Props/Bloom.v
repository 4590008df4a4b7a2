(** C31, C32, C72, C73: bloom filters. *)
From Coq Require Import Permutation.
From Verif Require Import Base.Prelude Base.LeFacts Base.Iter Model.Types Model.Bloom Spec.Bits Spec.BloomSpec
  Proofs.BloomProofs.
Open Scope N_scope.

(** C31/C32. Insertion sets exactly the eight bits the Parquet format assigns to the hash, and a lookup tests
    exactly these bits; for every filter of 1 to 2^32 blocks (128 GiB), whatever it contains. *)
Theorem bloom_insert_exact m bitset hash : bytes_ok bitset -> hash < 2 ^ 64 ->
  0 < nlen bitset / 32 <= 2 ^ 32 ->
  exists bitset', insert m bitset hash = Ok bitset' /\ length bitset' = length bitset /\ bytes_ok bitset' /\
    forall k, filter_bit bitset' k =
      filter_bit bitset k || existsb (N.eqb k) (bloom_positions (nlen bitset / 32) hash).
Proof.
  intros Hok Hh [Hp Hz].
  pose proof (block_index_spec m hash (nlen bitset) Hh Hz Hp) as E.
  exact (insert_in_block m bitset hash _ Hok E (block_index_lt m hash _ _ Hh Hp E)).
Qed.
Print Assumptions bloom_insert_exact.

Theorem bloom_lookup_exact m bitset hash : bytes_ok bitset -> hash < 2 ^ 64 ->
  0 < nlen bitset / 32 <= 2 ^ 32 ->
  is_in_set m bitset hash = Ok (forallb (filter_bit bitset) (bloom_positions (nlen bitset / 32) hash)).
Proof.
  intros Hok Hh [Hp Hz].
  pose proof (block_index_spec m hash (nlen bitset) Hh Hz Hp) as E.
  exact (is_in_set_block m bitset hash _ Hok E (block_index_lt m hash _ _ Hh Hp E)).
Qed.
Print Assumptions bloom_lookup_exact.

(** C31. After any history of insertions into a filter with any content, every inserted hash is present. The
    history succeeds for every filter of at least one block (up to 2^32 blocks when overflow is checked). *)
Theorem bloom_no_false_negatives m bitset hashes : bytes_ok bitset -> (32 <= length bitset)%nat ->
  m = Wrapping \/ nlen bitset / 32 <= 2 ^ 32 -> Forall (fun h => h < 2 ^ 64) hashes ->
  exists bitset', insert_all m bitset hashes = Ok bitset' /\
    forall h, In h hashes -> is_in_set m bitset' h = Ok true.
Proof.
  intros Hok Hl Hm Hh. destruct (insert_all_ok m hashes bitset Hok Hl Hm Hh) as (b & E).
  exists b. split; [exact E|]. exact (bloom_present m hashes bitset b Hok Hl Hh E).
Qed.
Print Assumptions bloom_no_false_negatives.

(** C32. Insertions only add bits and keep the length; the result depends only on the set of inserted
    hashes, not on order or repetition. *)
Theorem bloom_monotone m bitset hashes bitset' : bytes_ok bitset -> (32 <= length bitset)%nat ->
  Forall (fun h => h < 2 ^ 64) hashes -> insert_all m bitset hashes = Ok bitset' ->
  length bitset' = length bitset /\ forall k, filter_bit bitset k = true -> filter_bit bitset' k = true.
Proof.
  intros Hok Hl Hh E. destruct (insert_all_spec m hashes bitset bitset' Hok Hl Hh E) as (L & _ & B & _).
  split; [exact L|]. intros k Hk. rewrite B, Hk. reflexivity.
Qed.
Print Assumptions bloom_monotone.

Theorem bloom_order_irrelevant m bitset hashes hashes' a b : bytes_ok bitset -> (32 <= length bitset)%nat ->
  Forall (fun h => h < 2 ^ 64) hashes -> (forall h, In h hashes <-> In h hashes') ->
  insert_all m bitset hashes = Ok a -> insert_all m bitset hashes' = Ok b -> a = b.
Proof. exact (insert_all_same m hashes hashes' bitset a b). Qed.
Print Assumptions bloom_order_irrelevant.

(** C32. Bytes outside one 32-byte block are untouched. *)
Theorem bloom_insert_local m bitset hash bitset' : bytes_ok bitset -> hash < 2 ^ 64 ->
  0 < nlen bitset / 32 <= 2 ^ 32 -> insert m bitset hash = Ok bitset' ->
  forall i, N.of_nat i / 32 <> bloom_block (nlen bitset / 32) hash -> nth i bitset' 0 = nth i bitset 0.
Proof.
  intros Hok Hh Hz E i Hi.
  destruct (bloom_insert_exact m bitset hash Hok Hh Hz) as (b & E' & L & O & B).
  rewrite E in E'. apply Ok_inj in E'. subst b.
  assert (D : forall l k, bytes_ok l -> N.testbit (nth i l 0) k =
    if k <? 8 then N.testbit (le l) (8 * N.of_nat i + k) else false).
  { clear. intros l k Hok. destruct (N.ltb_spec k 8) as [Hk|Hk].
    - revert l Hok. induction i as [|i IH]; intros l Hok.
      + destruct l as [|x l]; [cbn [nth le]; rewrite !N.bits_0; reflexivity|].
        apply bytes_ok_cons in Hok as [Hx Hl].
        change (x :: l) with ([x] ++ l). rewrite testbit_le_app by (constructor; [exact Hx|constructor]).
        unfold nlen. cbn [length app nth]. replace (8 * N.of_nat 0 + k <? 8 * N.of_nat 1) with true by lia.
        cbn [le]. f_equal; lia.
      + destruct l as [|x l]; [cbn [nth le]; rewrite !N.bits_0; reflexivity|].
        apply bytes_ok_cons in Hok as [Hx Hl].
        change (x :: l) with ([x] ++ l). rewrite testbit_le_app by (constructor; [exact Hx|constructor]).
        unfold nlen. cbn [length app nth].
        replace (8 * N.of_nat (S i) + k <? 8 * N.of_nat 1) with false by lia.
        rewrite IH by assumption. f_equal. lia.
    - apply (testbit_small _ 8); [|exact Hk].
      destruct (Nat.lt_ge_cases i (length l)) as [Hi|Hi].
      + unfold bytes_ok in Hok. rewrite Forall_forall in Hok. apply Hok, nth_In, Hi.
      + rewrite nth_overflow by lia. reflexivity. }
  apply N.bits_inj; intro k. rewrite !D by assumption.
  destruct (N.ltb_spec k 8) as [Hk|Hk]; [|reflexivity].
  rewrite <- !filter_bit_le by assumption. rewrite B.
  unfold bloom_positions. rewrite existsb_positions.
  set (b := bloom_block (nlen bitset / 32) hash) in *. clearbody b.
  replace ((256 * b <=? 8 * N.of_nat i + k) && (8 * N.of_nat i + k <? 256 * b + 256)) with false.
  - apply orb_false_r.
  - symmetry. apply andb_false_iff.
    destruct (N.lt_ge_cases (N.of_nat i / 32) b) as [A|A].
    + left. apply N.leb_gt. pose proof (N.div_mod (N.of_nat i) 32 ltac:(discriminate)).
      pose proof (N.mod_lt (N.of_nat i) 32 ltac:(discriminate)). lia.
    + right. apply N.ltb_ge. pose proof (N.div_mod (N.of_nat i) 32 ltac:(discriminate)). lia.
Qed.
Print Assumptions bloom_insert_local.

Definition bloom_case : list N := [0; 12345678901234567890; 18446744073709551615; 987654321].
Example bloom_example :
  bytes_okb (repeat 0 64) = true /\ forallb (fun h => h <? two64) bloom_case = true /\
  map (fun h => let* b := insert_all Checked (repeat 0 64) bloom_case in is_in_set Checked b h)
    [987654321; 0; 5] = [Ok true; Ok true; Ok false].
Proof. repeat split; vm_compute; reflexivity. Qed.

(** C72. Reading the bloom filter of a column whose header and bitset are stored at the recorded offset
    returns that bitset, for any thrift codec of the header that decodes what it encoded and whatever
    surrounds the filter. *)
Theorem bloom_read_back (encode : bloom_header -> list N) (decode : list N -> res (bloom_header * list N))
  before bitset after :
  (forall h rest, decode (encode h ++ rest) = Ok (h, rest)) ->
  nlen before < 2 ^ 63 -> nlen bitset < 2 ^ 31 ->
  let header := mk_bh (Z.of_N (nlen bitset)) true true in
  bloom_read decode (Some (Z.of_N (nlen before))) (before ++ encode header ++ bitset ++ after) = Ok bitset.
Proof.
  intros Hlaw Hb Hl header. unfold bloom_read.
  assert (E : as_usize (Z.of_N (nlen before)) = nlen before).
  { unfold as_usize, of_signed. change (2 ^ Z.of_N 64)%Z with (Z.of_N (2 ^ 64)).
    rewrite <- N2Z.inj_mod, N2Z.id. apply N.mod_small.
    eapply N.lt_trans; [exact Hb|reflexivity]. }
  rewrite E. unfold nlen at 1. rewrite Nat2N.id, skipn_app, skipn_all, Nat.sub_diag. cbn [skipn app].
  rewrite Hlaw. cbn [bind]. unfold header. cbn [bh_block bh_uncompressed bh_num_bytes negb].
  unfold try_usize. replace (Z.of_N (nlen bitset) <? 0)%Z with false by lia. cbn [bind].
  replace (Z.to_N (Z.of_N (nlen bitset))) with (nlen bitset) by lia.
  unfold nlen. rewrite Nat2N.id, firstn_app, firstn_all, Nat.sub_diag. cbn [firstn].
  rewrite app_nil_r. reflexivity.
Qed.
Print Assumptions bloom_read_back.

(** Whatever is stored: no bitset when there is no filter or it is of an unsupported kind, an error for a
    negative size, otherwise at most the declared number of bytes, as many as the source still has. *)
Theorem bloom_read_exact decode offset source :
  bloom_read decode offset source =
  match offset with
  | None => Ok []
  | Some o =>
      match decode (skipn (N.to_nat (as_usize o)) source) with
      | Ok (h, rest) =>
          if negb (bh_block h && bh_uncompressed h) then Ok []
          else if (bh_num_bytes h <? 0)%Z then Err OutOfSpec
          else Ok (firstn (Z.to_nat (bh_num_bytes h)) rest)
      | Err e => Err e
      | Panic => Panic
      end
  end.
Proof.
  unfold bloom_read. destruct offset as [o|]; [|reflexivity].
  destruct (decode _) as [(h & rest)|e|]; cbn [bind]; [|reflexivity|reflexivity].
  destruct (bh_block h), (bh_uncompressed h); cbn [negb andb]; try reflexivity.
  unfold try_usize. destruct (bh_num_bytes h <? 0)%Z; cbn [bind]; [reflexivity|].
  rewrite Z_N_nat. reflexivity.
Qed.
Print Assumptions bloom_read_exact.

(** A one-byte header codec, used as a witness. *)
Definition byte_header (l : list N) : res (bloom_header * list N) :=
  match l with b :: rest => Ok (mk_bh (Z.of_N b) true true, rest) | [] => Err OutOfSpec end.

(** C73 is false of the code: a truncated bitset is returned as if it were complete, and looking up a hash
    in it panics; the same for the empty bitset returned when the column has no filter. *)
Theorem bloom_truncated_refuted : exists source,
  bloom_read byte_header (Some 0%Z) source = Ok [1; 2; 3] /\ nth 0 source 0 = 32 /\
  is_in_set Checked [1; 2; 3] 77 = Panic /\
  bloom_read byte_header None source = Ok [] /\ is_in_set Checked [] 77 = Panic.
Proof. exists [32; 1; 2; 3]. repeat split; vm_compute; reflexivity. Qed.
Print Assumptions bloom_truncated_refuted.

(** Lookups and insertions panic on every bitset shorter than a block, and on no longer one (release
    builds, or up to 2^32 blocks). *)
Theorem bloom_panics_iff m bitset hash : bytes_ok bitset -> hash < 2 ^ 64 ->
  m = Wrapping \/ nlen bitset / 32 <= 2 ^ 32 ->
  (is_in_set m bitset hash = Panic <-> (length bitset < 32)%nat) /\
  (insert m bitset hash = Panic <-> (length bitset < 32)%nat).
Proof.
  intros Hok Hh Hm. destruct (Nat.lt_ge_cases (length bitset) 32) as [Hl|Hl].
  - destruct (small_panics m bitset hash Hl Hh) as [A B]. rewrite A, B. tauto.
  - assert (Hz : 0 < nlen bitset / 32) by (apply N.div_str_pos; unfold nlen; lia).
    assert (Hi : exists b, hash_to_block_index m hash (nlen bitset) = Ok b).
    { destruct Hm as [->|Hm]; [apply block_index_wrapping|]. eexists. apply block_index_spec; assumption. }
    destruct Hi as (b & Ei).
    destruct (insert_in_block m bitset hash b Hok Ei (block_index_lt m hash _ b Hh Hz Ei)) as (b1 & E1 & _).
    rewrite E1, (is_in_set_block m bitset hash b Hok Ei (block_index_lt m hash _ b Hh Hz Ei)).
    split; split; intro H; solve [discriminate | lia].
Qed.
Print Assumptions bloom_panics_iff.
