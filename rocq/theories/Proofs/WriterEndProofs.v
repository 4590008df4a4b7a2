(** Proofs for C115. *)
From Verif Require Import Base.Prelude Base.LeFacts Model.Types Model.Thrift Model.Io Model.Schema Model.PageWrite Model.ColumnWrite Model.Metadata Model.FileWrite Model.WriterEnd
  Spec.WriterEndSpec Spec.FileSpec Proofs.SchemaProofs Proofs.FileWriteProofs Proofs.TroubledProofs Proofs.CrashProofs.
Open Scope N_scope.

Lemma calls_snoc step w l c : calls step w (l ++ [c]) =
  let (w1, rs) := calls step w l in let (w2, x) := step w1 c in (w2, rs ++ [x]).
Proof.
  revert w. induction l as [|d l IH]; intros w; cbn [calls app].
  - destruct (step w c); reflexivity.
  - destruct (step w d) as [w1 y]. rewrite IH. destruct (calls step w1 l) as [w2 rs]. destruct (step w2 c); reflexivity.
Qed.

(** What never changes. *)
Definition same_options (w w' : file_writer) : Prop :=
  fw_schema w' = fw_schema w /\ fw_statistics w' = fw_statistics w /\ fw_version w' = fw_version w /\ fw_created_by w' = fw_created_by w.
Lemma same_trans a b c : same_options a b -> same_options b c -> same_options a c.
Proof. unfold same_options. intuition congruence. Qed.
Lemma maybe_start_same w w' r : fw_maybe_start w = (w', r) -> same_options w w' /\ fw_groups w' = fw_groups w /\ fw_metadata w' = fw_metadata w.
Proof.
  unfold fw_maybe_start, fw_start. intros H. destruct (fw_offset w =? 0); [ | injection H as <- _; repeat split ].
  destruct (write_all magic (fw_sink w)) as [s x]. destruct x; injection H as <- _; repeat split.
Qed.
Lemma indexes_same_options F m w w' r : fw_indexes F m w = (w', r) -> same_options w w' /\ fw_metadata w' = fw_metadata w.
Proof.
  unfold fw_indexes. destruct (if fw_statistics w then _ else _) as [[[s o] gs] r1].
  destruct r1; intros H; [ | injection H as <- _; repeat split | injection H as <- _; repeat split ].
  destruct (offset_indexes F m s o gs (fw_specs w)) as [[[s2 o2] g2] r2]. injection H as <- _. repeat split.
Qed.
Lemma Forall2_len {A B} (R : A -> B -> Prop) a b : Forall2 R a b -> length b = length a.
Proof. induction 1; cbn [length]; congruence. Qed.

Lemma write_step F m w g w' r : fw_write F m w g = (w', r) ->
  same_options w w' /\ fw_metadata w' = fw_metadata w /\
  length (fw_groups w') = (match r with Ok _ => S (length (fw_groups w)) | _ => length (fw_groups w) end).
Proof.
  unfold fw_write. destruct (fw_maybe_start w) as [w1 r1] eqn:E. apply maybe_start_same in E as (S & G & M).
  destruct r1 as [u|e|]; intros H; [ | injection H as <- <-; rewrite G; auto | injection H as <- <-; rewrite G; auto ].
  destruct (write_row_group F m (fw_offset w1) (sd_leaves (fw_schema w1)) g (length (fw_groups w1)) (fw_sink w1)) as [s [[[rg sp] n]|e|]];
    injection H as <- <-; (split; [ eapply same_trans; [ exact S | repeat split ] | ]); cbn; rewrite ?app_length, G; cbn; (split; [ exact M | lia ]).
Qed.

Lemma footer_number n : of_signed 32 (as_i32 n) = n mod 2 ^ 32.
Proof.
  unfold as_i32, wrap_s, to_signed, of_signed. change (32 - 1) with 31. change (Z.of_N 32) with 32%Z. change (2 ^ 32) with 4294967296. change (2 ^ 32)%Z with 4294967296%Z.
  change (2 ^ 31) with 2147483648.
  rewrite <- (N2Z.id (n mod 4294967296)). f_equal. rewrite N2Z.inj_mod. change (Z.of_N 4294967296) with 4294967296%Z.
  pose proof (Z.mod_pos_bound (Z.of_N n) 4294967296 eq_refl) as B. set (x := (Z.of_N n mod 4294967296)%Z) in *. clearbody x.
  destruct (N.ltb_spec (Z.to_N x) 2147483648); rewrite Z2N.id by lia; [ apply Z.mod_small; lia | ].
  symmetry. apply Z.mod_unique with (q := (-1)%Z); lia.
Qed.
Lemma footer_ends T m x s s' n : end_file T m x s = (s', Ok n) -> ends_with_footer (sk_data s') (t_enc T x).
Proof.
  intros H. apply end_file_ok in H as [H _]. rewrite footer_number in H. exists (sk_data s). revert H.
  set (k := nlen (t_enc T x)). set (v := k mod 2 ^ 32). assert (L : le (to_le 4 v) = v).
  { rewrite le_to_le. change (8 * N.of_nat 4) with 32. apply N.mod_mod. discriminate. }
  pose proof (to_le_ok 4 v) as B. pose proof (to_le_length 4 v) as W. destruct (to_le 4 v) as [|a [|b [|c [|d [|]]]]]; try discriminate W.
  intros H. exists a, b, c, d. split; [ exact H | ]. inversion B as [|? ? ? B1]; subst. inversion B1 as [|? ? ? B2]; subst. inversion B2 as [|? ? ? B3]; subst. inversion B3; subst.
  repeat (split; [ assumption | ]). cbn [le] in L. change (256 ^ 4) with (2 ^ 32). fold v. change (256 ^ 2) with 65536. change (256 ^ 3) with 16777216. lia.
Qed.

Definition given (schema : schema_descriptor) (v : Z) (cb : option (list N)) (kv : option (list t_key_value)) (meta : t_file_meta) : Prop :=
  fm_version meta = v /\ fm_schema meta = sd_into_thrift schema /\ fm_key_value meta = kv /\ fm_created_by meta = cb /\
  fm_column_orders meta = None /\ fm_encryption meta = None /\ fm_footer_key meta = None.

Lemma end_step F m w kv w' r : fw_end F m w kv = (w', r) -> r <> Panic ->
  same_options w w' /\ length (fw_groups w') = length (fw_groups w) /\
  match r with
  | Ok _ => exists meta, fw_metadata w' = Some meta /\ given (fw_schema w) (fw_version w) (fw_created_by w) kv meta /\
      length (fm_row_groups meta) = length (fw_groups w) /\ ends_with_footer (sk_data (fw_sink w')) (t_enc (f_file F) meta)
  | _ => fw_metadata w' = fw_metadata w
  end.
Proof.
  unfold fw_end. destruct (fw_maybe_start w) as [w1 r1] eqn:E1. apply maybe_start_same in E1 as (S1 & G1 & M1).
  intros H P. destruct r1 as [u|e|]; [ | injection H as <- <-; rewrite G1; auto | injection H as <- <-; congruence ].
  assert (Q : w' = w1 -> forall e, r = Err e -> same_options w w' /\ length (fw_groups w') = length (fw_groups w) /\
    match r with
    | Ok _ => exists meta, fw_metadata w' = Some meta /\ given (fw_schema w) (fw_version w) (fw_created_by w) kv meta /\
        length (fm_row_groups meta) = length (fw_groups w) /\ ends_with_footer (sk_data (fw_sink w')) (t_enc (f_file F) meta)
    | _ => fw_metadata w' = fw_metadata w
    end).
  { intros -> e ->. rewrite G1. auto. }
  destruct (fw_state w1); try (injection H as H1 H2; exact (Q (eq_sym H1) _ (eq_sym H2))).
  destruct (total_rows m 0 (fw_groups w1)) as [rows|e|]; [ | injection H as H1 H2; exact (Q (eq_sym H1) _ (eq_sym H2)) | injection H as _ <-; congruence ].
  clear Q. destruct (fw_indexes F m w1) as [w2 r2] eqn:E2. pose proof (fw_indexes_same _ _ _ _ _ E2) as G2. apply Forall2_len in G2.
  apply indexes_same_options in E2 as (S2 & M2). pose proof (same_trans _ _ _ S1 S2) as S. rewrite M1 in M2.
  destruct r2 as [u2|e|]; [ | injection H as <- <-; rewrite G2, G1; auto | injection H as _ <-; congruence ].
  destruct (end_file (f_file F) m (fw_thrift w2 rows kv) (fw_sink w2)) as [s r3] eqn:E3.
  destruct r3 as [len|e|]; [ | injection H as <- <-; cbn; rewrite G2, G1; auto | injection H as _ <-; congruence ].
  injection H as <- <-. cbn [fw_groups fw_metadata fw_sink]. split; [ exact S | ]. split; [ congruence | ].
  destruct (uadd m 64 (fw_offset w2) len) as [z|e|] eqn:E4.
  - exists (fw_thrift w2 rows kv). split; [ reflexivity | ]. split; [ destruct S as (A & B & C & D); unfold given, fw_thrift; cbn; rewrite A, C, D; repeat split | ].
    split; [ cbn; congruence | ]. eapply footer_ends; exact E3.
  - exfalso. unfold uadd in E4. destruct (fw_offset w2 + len <? 2 ^ 64); [ | destruct m ]; discriminate E4.
  - congruence.
Qed.

Lemma gw_snoc l rs n c r k : groups_written l rs n -> groups_written [c] [r] k -> groups_written (l ++ [c]) (rs ++ [r]) (n + k).
Proof. intros H K. induction H; cbn [app Nat.add]; [ exact K | constructor; assumption ..]. Qed.
Lemma combine_snoc {A B} (l : list A) (rs : list B) c r : length rs = length l -> combine (l ++ [c]) (rs ++ [r]) = combine l rs ++ [(c, r)].
Proof. revert rs. induction l as [|x l IH]; intros [|y rs] H; try discriminate H; [ reflexivity | ]. cbn [app combine]. rewrite IH by (injection H as H; exact H). reflexivity. Qed.

Section History.
  Variables (F : formats) (m : mode) (w0 : file_writer).
  Hypothesis fresh : fw_metadata w0 = None.
  Hypothesis empty : fw_groups w0 = [].

  (** The file was ended by one of the calls, and its metadata is kept. *)
  Definition was_ended (l : list call) (results : list (res N)) (w : file_writer) : Prop :=
    exists l1 kv l2 r1 size r2 w1 meta n, l = l1 ++ CEnd kv :: l2 /\ results = r1 ++ Ok size :: r2 /\ length r1 = length l1 /\
      calls (fw_call F m) w0 (l1 ++ [CEnd kv]) = (w1, r1 ++ [Ok size]) /\
      no_end l1 r1 /\ ends_refused l2 r2 /\
      fw_metadata w = Some meta /\ given (fw_schema w0) (fw_version w0) (fw_created_by w0) kv meta /\
      groups_written l1 r1 n /\ length (fm_row_groups meta) = n /\
      ends_with_footer (sk_data (fw_sink w1)) (t_enc (f_file F) meta) /\ longer (fw_sink w1) (fw_sink w).

  Lemma history_ends : forall l w results, calls (fw_call F m) w0 l = (w, results) -> ~ In Panic results ->
    same_options w0 w /\ groups_written l results (length (fw_groups w)) /\
    ((fw_metadata w = None /\ no_end l results) \/ (fw_state w = WFinished /\ fw_offset w <> 0 /\ was_ended l results w)).
  Proof.
    induction l as [|c l IH] using rev_ind; intros w results H P.
    { cbn [calls] in H. injection H as <- <-. rewrite empty. split; [ repeat split | ]. split; [ constructor | ]. left. split; [ exact fresh | ]. intros ? ? []. }
    rewrite calls_snoc in H. destruct (calls (fw_call F m) w0 l) as [w1 rs] eqn:E. destruct (fw_call F m w1 c) as [w2 x] eqn:E2. injection H as <- <-.
    destruct (IH _ _ eq_refl) as (S & G & K). { intros I. apply P. apply in_or_app. left. exact I. }
    assert (X : x <> Panic). { intros ->. apply P. apply in_or_app. right. left. reflexivity. }
    pose proof (calls_length _ _ _ _ _ E) as L. destruct c as [g|kv]; cbn [fw_call] in E2.
    - destruct (fw_write F m w1 g) as [w3 r] eqn:E3. injection E2 as -> <-. pose proof (fw_write_longer _ _ _ _ _ _ E3) as Lo.
      pose proof (fun a b => finished_write _ _ _ _ _ _ a b E3) as Fi. apply write_step in E3 as (S3 & M3 & G3).
      split; [ eapply same_trans; eassumption | ]. split.
      { rewrite G3. destruct r as [u|e|].
        - rewrite <- Nat.add_1_r. apply gw_snoc; [ exact G | cbn; repeat constructor ].
        - rewrite <- Nat.add_0_r at 1. apply gw_snoc; [ exact G | ]. cbn. constructor; [ discriminate | constructor ].
        - exfalso. apply X. reflexivity. }
      destruct K as [[K1 K2] | (K1 & K2 & K3)].
      + left. split; [ congruence | ]. intros c y I. rewrite combine_snoc in I by exact L. apply in_app_or in I as [I | [I | []]]; [ exact (K2 _ _ I) | ].
        injection I as <- _. intros (? & ? & A & _). discriminate A.
      + right. destruct (Fi K1 K2) as [Fi1 Fi2]. split; [ exact Fi1 | ]. split; [ exact Fi2 | ].
        destruct K3 as (l1 & kv & l2 & r1 & size & r2 & wa & meta & n & -> & -> & L1 & C & N1 & N2 & Me & Gi & Gw & Gl & En & Lo1).
        exists l1, kv, (l2 ++ [CWrite g]), r1, size, (r2 ++ [let* _ := r in Ok 0]), wa, meta, n.
        rewrite <- !app_assoc. repeat (split; [ try reflexivity; assumption | ]).
        split. { intros kv' r' I. rewrite combine_snoc in I. 2:{ rewrite !app_length in L. cbn [length] in L. lia. }
                 apply in_app_or in I as [I | [I | []]]; [ exact (N2 _ _ I) | discriminate I ]. }
        split; [ congruence | ]. repeat (split; [ assumption | ]). eapply longer_trans; eassumption.
    - destruct K as [[K1 K2] | (K1 & K2 & K3)].
      + pose proof (end_step _ _ _ _ _ _ E2 X) as (S3 & G3 & M3).
        split; [ eapply same_trans; eassumption | ].
        split. { rewrite G3, <- Nat.add_0_r. apply gw_snoc; [ exact G | repeat constructor ]. }
        destruct x as [size|e|]; [ right | left | exfalso; apply X; reflexivity ].
        * destruct (fw_end_finished _ _ _ _ _ _ E2) as [Fi1 Fi2]. split; [ exact Fi1 | ]. split; [ exact Fi2 | ].
          destruct M3 as (meta & Me & Gi & Gl & En). exists l, kv, [], rs, size, [], w2, meta, (length (fw_groups w1)).
          repeat (split; [ try reflexivity; assumption | ]). split. { rewrite calls_snoc, E. cbn [fw_call]. rewrite E2. reflexivity. }
          split; [ exact K2 | ]. split; [ intros ? ? [] | ]. split; [ exact Me | ].
          split. { destruct S as (A & B & C & D). rewrite <- A, <- C, <- D. exact Gi. }
          split; [ exact G | ]. split; [ exact Gl | ]. split; [ exact En | apply longer_refl ].
        * split; [ congruence | ]. intros c y I. rewrite combine_snoc in I by exact L. apply in_app_or in I as [I | [I | []]]; [ exact (K2 _ _ I) | ].
          injection I as _ <-. intros (? & ? & _ & A). discriminate A.
      + rewrite finished_end in E2 by assumption. injection E2 as <- <-. split; [ exact S | ].
        split. { rewrite <- Nat.add_0_r. apply gw_snoc; [ exact G | repeat constructor ]. }
        right. split; [ exact K1 | ]. split; [ exact K2 | ].
        destruct K3 as (l1 & kv1 & l2 & r1 & size & r2 & wa & meta & n & -> & -> & L1 & C & N1 & N2 & Me & Gi & Gw & Gl & En & Lo1).
        exists l1, kv1, (l2 ++ [CEnd kv]), r1, size, (r2 ++ [Err InvalidParameter]), wa, meta, n.
        rewrite <- !app_assoc. repeat (split; [ try reflexivity; assumption | ]).
        split. { intros kv' r' I. rewrite combine_snoc in I. 2:{ rewrite !app_length in L. cbn [length] in L. lia. }
                 apply in_app_or in I as [I | [I | []]]; [ exact (N2 _ _ I) | injection I as _ <-; reflexivity ]. }
        repeat (split; [ assumption | ]). assumption.
  Qed.
End History.
