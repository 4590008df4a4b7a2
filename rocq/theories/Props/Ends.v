(** C102. Iteration ends, also for a consumer that passes over errors. *)
From Verif Require Import Base.Prelude Base.Iter Model.Types Model.Native Model.Thrift Model.Intervals Model.Uleb128 Model.Bitpacked
  Model.HybridRle Model.DeltaBitpacked Model.DeltaByteArray Model.Plain Model.Page Model.Deserialize Model.PageRead Model.Io
  Spec.PagesSpec Spec.EndsSpec Proofs.EndsProofs Proofs.ThriftCodec Proofs.SchemaProofs Props.PageIo.
Open Scope N_scope.

(** C102. The decoders of delta-encoded numbers, of string lengths and of prefix lengths give at most as many items as they announce,
    whatever bytes they read. *)
Theorem delta_iteration_ends : forall m,
  (forall d, ends_within (delta_next m) d (N.to_nat (delta_size_hint d))) /\
  (forall d, ends_within (DeltaByteArray.dl_next m) d (N.to_nat (delta_size_hint (dl_lengths d)))) /\
  (forall d, ends_within (db_next m) d (N.to_nat (delta_size_hint (db_lengths d)))).
Proof. intros m. split; [exact (delta_ends m) | split; [exact (dl_ends m) | exact (db_ends m)]]. Qed.
Print Assumptions delta_iteration_ends.

(** Twelve numbers announced, with a mini block missing: an error among them. *)
Example delta_iteration_ends_witness : exists d s,
  delta_try_new Checked ([128; 1; 16; 12; 0; 0; 0; 8; 8; 8] ++ repeat 0 13) = Ok d /\ delta_size_hint d = 12 /\
  drain_st (delta_next Checked) 30 d = Ok (repeat (inl 0%Z) 7 ++ [inr OutOfSpec] ++ repeat (inl 0%Z) 4, s).
Proof. do 2 eexists. split; [ vm_compute; reflexivity | ]. split; [ reflexivity | vm_compute; reflexivity ]. Qed.

(** C102. Reading plain strings gives at most one item for every four bytes. *)
Theorem string_iteration_ends : forall bytes n, ends_within bi_next (mk_bi bytes n) (length bytes / 4).
Proof. intros bytes n. exact (bi_ends (mk_bi bytes n)). Qed.
Print Assumptions string_iteration_ends.

Example string_iteration_ends_witness :
  drain_st bi_next 10 (mk_bi [255; 0; 0; 0; 9; 0; 0; 0; 0; 0; 0; 0; 1] None) =
    Ok ([inr OutOfSpec; inr OutOfSpec; inl []], mk_bi [1] None).
Proof. vm_compute. reflexivity. Qed.

(** C102. Reading numbers and strings of one length gives at most one item for each of them that the bytes hold. *)
Theorem fixed_iteration_ends :
  (forall t bytes s, cast_new t bytes = Ok s -> ends_within (cast_next t) s (length bytes / native_size t)) /\
  (forall bytes size s, fl_new bytes size = Ok s -> ends_within fl_next s (length bytes / N.to_nat size)).
Proof.
  assert (Hce : forall w l s, ce_new w l = Ok s -> s = (l, w) /\ (0 < w)%nat).
  { intros w l s H. unfold ce_new in H. destruct (w =? 0)%nat eqn:E; [discriminate|]. apply Nat.eqb_neq in E.
    apply Ok_inj in H. split; [congruence | lia]. }
  split.
  - intros t bytes s H. unfold cast_new in H. destruct (negb _); [discriminate|]. apply Hce in H as [-> Hp].
    apply bounded_ends, cast_bounded, ends_bounded. exact (ce_ends (bytes, native_size t) Hp).
  - intros bytes size s H. apply Hce in H as [-> Hp]. exact (ce_ends (bytes, N.to_nat size) Hp).
Qed.
Print Assumptions fixed_iteration_ends.

Example fixed_iteration_ends_witness :
  fl_new [1; 2; 3; 4; 5] 2 = Ok ([1; 2; 3; 4; 5], 2%nat) /\
  drain_st fl_next 9 ([1; 2; 3; 4; 5], 2%nat) = Ok ([[1; 2]; [3; 4]], ([5], 2%nat)).
Proof. split; reflexivity. Qed.

(** C102. Bit-packed numbers, bitmaps and run-length encoded numbers: at most as many items as announced. Their runs: at most one for
    each byte. *)
Theorem level_iteration_ends : forall m,
  (forall B d, ends_within (bp_next B) d (N.to_nat (bp_remaining d))) /\
  (forall b, ends_within bm_next b (N.to_nat (bm_size_hint b))) /\
  (forall d, ends_within (hr_next m) d (N.to_nat (hr_size_hint d))) /\
  (forall bytes w, ends_within (rle_next m) (mk_rle bytes w) (length bytes)) /\
  (forall bytes w n, ends_within (ri_next m) (ri_new (mk_rle bytes w) n) (length bytes)) /\
  (forall bytes w n, ends_within (bl_next (ri_next m)) (bl_new (ri_new (mk_rle bytes w) n)) (N.to_nat n)).
Proof.
  intros m. split; [exact bp_ends|]. split; [exact bm_ends|]. split; [exact (hr_ends m)|].
  split; [intros bytes w; exact (rle_ends m (mk_rle bytes w))|].
  split; [intros bytes w n; exact (ri_ends m (ri_new (mk_rle bytes w) n))|].
  intros bytes w n. pose proof (bl_ends m (ri_new (mk_rle bytes w) n)) as H. unfold ri_new, ri_len in *. cbn [ri_length ri_consumed] in H.
  rewrite N.sub_0_r in H. exact H.
Qed.
Print Assumptions level_iteration_ends.

(** Runs of no levels at all are given out, one for every two bytes here. *)
Example level_iteration_ends_witness :
  drain_st (ri_next Checked) 9 (ri_new (mk_rle [0; 1; 0; 1; 4; 1] 1) 2) =
    Ok ([inl (RRepeated true 0); inl (RRepeated true 0); inl (RRepeated true 2)], mk_ri (mk_rle [] 1) 2 2).
Proof. vm_compute. reflexivity. Qed.

(** C102. What is built on other iterators ends with them: pairing values with their validity and taking the rows of intervals give at
    most as many items as the iterator underneath, and filtering runs by intervals at most three times as many and two for each
    interval, whatever the intervals are. *)
Theorem adapter_iteration_ends :
  (forall S T A (vnext : S -> res (option (bool + error) * S)) (next : T -> res (option A * T)) v t n,
     ends_within vnext v n -> ends_within (ov_next vnext next) (v, t) n) /\
  (forall S A m (next : S -> res (option A * S)) it rows n s,
     ends_within next it n -> sl_new m it rows = Ok s -> ends_within (sl_next m next) s n) /\
  (forall S m (next : S -> res (option (level_run + error) * S)) it rows n s,
     words_ok rows -> ends_within next it n -> fh_new m it rows = Ok s ->
     ends_within (fh_next m next) s (3 * n + 2 * length rows + 1)).
Proof.
  split; [|split].
  - intros S T A vnext next v t n H. apply bounded_ends, ov_bounded, ends_bounded, H.
  - intros S A m next it rows n s H Hs. unfold sl_new in Hs. apply bind_ok in Hs as (x & _ & Hs). apply Ok_inj in Hs. subst s.
    apply bounded_ends, sl_bounded, ends_bounded, H.
  - intros S m next it rows n s. apply fh_ends.
Qed.
Print Assumptions adapter_iteration_ends.

(** Intervals out of order: in a build without overflow checks the filter skips the rest and ends. *)
Example adapter_iteration_ends_witness : exists s s',
  words_ok [mk_iv 4 1; mk_iv 0 2] /\
  fh_new Wrapping (ri_new (mk_rle [12; 1; 4; 0] 1) 8) [mk_iv 4 1; mk_iv 0 2] = Ok s /\
  drain_st (fh_next Wrapping (ri_next Wrapping)) 20 s =
    Ok ([inl (FSkipped 4); inl (FRepeated true 1); inl (FSkipped 1); inl (FSkipped 0)], s').
Proof.
  do 2 eexists. split; [ repeat constructor | ]. split; [ vm_compute; reflexivity | vm_compute; reflexivity ].
Qed.

(** C102. The reader that uses page locations and the asynchronous stream of pages end. *)
Theorem page_iteration_ends : forall T m,
  (forall file start c d pages, ends_within (ir_next T m) (ir_new file start c d pages) (length pages + 1)) /\
  (takes_a_byte T -> forall r, ends_within (stream_poll T m) (Some r) (length (pr_source r) + 1)).
Proof.
  intros T m. split.
  - intros file start c d pages. exact (ir_ends T m (ir_new file start c d pages)).
  - intros HT r. rewrite Nat.add_1_r. apply stream_ends, HT.
Qed.
Print Assumptions page_iteration_ends.

Lemma ex_takes_a_byte : takes_a_byte ex_header.
Proof. intros max s h rest H. exact (of_codec_shrink _ _ _ _ _ H). Qed.

(** A chunk that ends within its pages: the stream gives the pages, one error, and ends. *)
Example page_iteration_ends_witness : takes_a_byte ex_header /\
  drain_st (stream_poll ex_header Checked) 9 (Some (io_reader (page_bytes ex_header io_dict ++ page_bytes ex_header io_v1) 50 (fun _ _ => true) 100)) =
    Ok ([inl (read_page_of Snappy io_desc None false io_dict); inl (read_page_of Snappy io_desc None false io_v1); inr OutOfSpec], None).
Proof. split; [ exact ex_takes_a_byte | vm_compute; reflexivity ]. Qed.

(** C102 (full statement, refuted for the synchronous page reader): on a chunk that ends early it fails on every further call, so that a
    consumer that passes over errors never comes to an end. *)
Theorem reader_iteration_ends_refuted :
  exists pages r r',
    r = io_reader (page_bytes ex_header io_dict ++ page_bytes ex_header io_v1) 50 (fun _ _ => true) 100 /\
    drain_st (pr_next ex_header Checked) 2 r = Ok (map inl pages, r') /\ length pages = 2%nat /\
    fails_forever (pr_next ex_header Checked) r' /\
    ~ exists n, ends_within (pr_next ex_header Checked) r n.
Proof.
  set (r := io_reader (page_bytes ex_header io_dict ++ page_bytes ex_header io_v1) 50 (fun _ _ => true) 100).
  assert (Hd : exists r', drain_st (pr_next ex_header Checked) 2 r =
     Ok (map inl [read_page_of Snappy io_desc None false io_dict; read_page_of Snappy io_desc None false io_v1], r') /\
     (pr_seen r' < pr_total r')%Z /\ pr_source r' = [] /\ t_dec ex_header (pr_max r') [] = Err OutOfSpec /\ pr_scratch r' = []).
  { eexists. split; [ vm_compute; reflexivity | ]. repeat split; vm_compute; reflexivity. }
  destruct Hd as (r' & Hd & H1 & H2 & H3 & H4).
  pose proof (reader_stuck ex_header Checked r' OutOfSpec H1 H2 H3 H4) as Hs.
  exists [read_page_of Snappy io_desc None false io_dict; read_page_of Snappy io_desc None false io_v1], r, r'.
  split; [ reflexivity | ]. split; [ exact Hd | ]. split; [ reflexivity | ]. split.
  - intros k. exists (repeat (inr OutOfSpec) k), r'. split; [ apply Hs | ]. split; [ apply repeat_length | ].
    apply Forall_forall. intros x Hx. apply repeat_spec in Hx. eauto.
  - intros [n Hn].
    assert (Happ : forall S A (next : S -> res (option A * S)) a s l s' b l2 s2, drain_st next a s = Ok (l, s') -> length l = a ->
      drain_st next b s' = Ok (l2, s2) -> drain_st next (a + b) s = Ok (l ++ l2, s2)).
    { clear. induction a as [|a IH]; intros s l s' b l2 s2 H Hl H2; cbn [drain_st] in H.
      - injection H as <- <-. exact H2.
      - apply bind_ok in H as ([o t] & Hn & H). destruct o as [x|]; [|injection H as <- <-; discriminate].
        apply bind_ok in H as ([l1 t1] & Hr & H). injection H as <- <-. cbn [Nat.add drain_st]. rewrite Hn. cbn [bind].
        rewrite (IH _ _ _ _ _ _ Hr ltac:(cbn [length] in Hl; lia) H2). reflexivity. }
    specialize (Hn _ _ _ (Happ _ _ _ _ _ _ _ _ _ _ Hd eq_refl (Hs n))).
    rewrite app_length, repeat_length in Hn. cbn [map length] in Hn. lia.
Qed.
Print Assumptions reader_iteration_ends_refuted.

(** C102. What holds of the synchronous reader: it gives at most one page for each byte of its source; and once the source is used up with
    values outstanding, every call fails, for ever. *)
Theorem reader_iteration_exact : forall T m r, takes_a_byte T ->
  (forall k items r', drain_st (pr_next T m) k r = Ok (items, r') -> (pages_among items + length (pr_source r') <= length (pr_source r))%nat) /\
  (forall e, (pr_seen r < pr_total r)%Z -> pr_source r = [] -> t_dec T (pr_max r) [] = Err e -> fails_forever (pr_next T m) r) /\
  ((pr_total r <= pr_seen r)%Z -> ends_within (pr_next T m) r 0).
Proof.
  intros T m r HT. split; [ exact (fun k => reader_pages T m HT k r) | ]. split.
  - intros e H1 H2 H3. set (r1 := pr_at r [] (pr_seen r) []).
    assert (Hs : forall k, drain_st (pr_next T m) k r1 = Ok (repeat (inr e) k, r1)) by (apply reader_stuck; [exact H1 | reflexivity | exact H3 | reflexivity]).
    intros [|k].
    + exists [], r. split; [ reflexivity | ]. split; [ reflexivity | constructor ].
    + exists (repeat (inr e) (S k)), r1. split.
      * cbn [drain_st]. unfold pr_next at 1. rewrite H2. cbn [length pr_next_fuel]. apply Z.leb_gt in H1. rewrite H1.
        unfold build_page. rewrite H2, H3. cbn [bind]. fold r1. rewrite Hs. reflexivity.
      * split; [ apply repeat_length | ]. apply Forall_forall. intros x Hx. apply repeat_spec in Hx. eauto.
  - intros Hle. apply bounded_ends. cbn [bounded]. intros a s' H. unfold pr_next in H. cbn [pr_next_fuel] in H.
    apply Z.leb_le in Hle. rewrite Hle in H. discriminate.
Qed.
Print Assumptions reader_iteration_exact.

Example reader_iteration_exact_witness :
  takes_a_byte ex_header /\ t_dec ex_header 100 [] = Err OutOfSpec /\
  (exists r', drain_st (pr_next ex_header Checked) 5 (io_reader (page_bytes ex_header io_dict ++ page_bytes ex_header io_v1) 50 (fun _ _ => true) 100) =
     Ok ([inl (read_page_of Snappy io_desc None false io_dict); inl (read_page_of Snappy io_desc None false io_v1);
          inr OutOfSpec; inr OutOfSpec; inr OutOfSpec], r')).
Proof. split; [ exact ex_takes_a_byte | ]. split; [ reflexivity | ]. eexists. vm_compute. reflexivity. Qed.
