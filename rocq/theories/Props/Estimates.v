(** C114. The encoders and iterators whose estimates are not exact. *)
From Verif Require Import Base.Prelude Base.Iter Model.Uleb128 Model.Bitpacked Model.HybridRle Model.DeltaBitpacked Model.Estimates Spec.Bits Spec.EstimatesSpec
  Proofs.EstimatesProofs.
Open Scope N_scope.

(** The encoder of numbers is not affected: from any iterator whose estimate is not below what it returns, for instance a filter, the numbers come back. *)
Theorem estimated_numbers : forall m w it h, (w <= 32)%nat -> Forall (fits w) (es_items it) -> lawful it -> es_upper it 0 = Some h -> N.of_nat h < 2 ^ 56 ->
  exists out s, encode_u32_est it (N.of_nat w) = Ok out /\ hr_try_new m out w (nlen (es_items it)) = Ok s /\
    yields (hr_next m) (fun s r => hr_size_hint s = nlen r) s (es_items it).
Proof.
  intros m w it h Hw Hf Hla Hu Hn. apply (encode_u32_est_roundtrip m w it h); try assumption. specialize (Hla 0%nat h Hu). lia.
Qed.
Print Assumptions estimated_numbers.

(** The odd numbers among 0..=4, through [filter]: two of them, announced as "at most five". *)
Definition ex_odd : estimated N := mk_es [1; 3] (fun k => nth k [Some 5; Some 3; Some 1; Some 0]%nat (Some 0%nat)).
Example estimated_numbers_case :
  lawful ex_odd /\ es_upper ex_odd 0 = Some 5%nat /\ encode_u32_est ex_odd 2 = Ok [3; 13; 0] /\ encode_u32 [1; 3] 2 = Ok [3; 13].
Proof.
  split; [ | vm_compute; repeat split ]. intros calls n H. unfold ex_odd in *. cbn [es_items es_upper] in *.
  destruct calls as [|[|[|[|calls]]]]; cbn [nth] in H; try (injection H as <-; cbn [length]; lia). destruct calls; injection H as <-; cbn [length]; lia.
Qed.

(** The encoder of booleans panics as soon as the items do not reach the last full byte that the estimate announces; otherwise the booleans come back. *)
Theorem estimated_booleans : forall m it h, lawful it -> es_upper it 0 = Some h -> N.of_nat h < 2 ^ 61 ->
  (encode_bool_est it = Panic <-> length (es_items it) / 8 < h / 8)%nat /\
  ((length (es_items it) / 8 = h / 8)%nat ->
     exists out s, encode_bool_est it = Ok out /\ hr_try_new m out 1 (nlen (es_items it)) = Ok s /\
       yields (hr_next m) (fun s r => hr_size_hint s = nlen r) s (map N.b2n (es_items it))).
Proof.
  intros m it h Hla Hu Hn. specialize (Hla 0%nat h Hu). rewrite Nat.sub_0_r in Hla. pose proof (Nat.div_le_mono _ _ 8 ltac:(lia) Hla) as Hd.
  assert (Hok : (length (es_items it) / 8 = h / 8)%nat -> exists out s, encode_bool_est it = Ok out /\ hr_try_new m out 1 (nlen (es_items it)) = Ok s /\
       yields (hr_next m) (fun s r => hr_size_hint s = nlen r) s (map N.b2n (es_items it))).
  { intros He. apply (encode_bool_est_roundtrip m it h); assumption. }
  split; [ | exact Hok ]. split.
  - intros E. destruct (Nat.lt_ge_cases (length (es_items it) / 8) (h / 8)) as [H|H]; [ exact H | ].
    destruct Hok as (out & s & E2 & _); [ apply Nat.le_antisymm; assumption | ]. rewrite E in E2. discriminate.
  - intros H. exact (encode_bool_est_panics it h Hu Hn H).
Qed.
Print Assumptions estimated_booleans.

(** Ten booleans are announced and three are returned: a panic. *)
Example estimated_booleans_case :
  let it n := mk_es [true; false; true] (fun k => Some (n - k)%nat) in
  lawful (it 10%nat) /\ encode_bool_est (it 10%nat) = Panic /\ encode_bool_est (it 7%nat) = Ok [3; 5].
Proof.
  cbv beta zeta. split; [ | split; vm_compute; reflexivity ]. intros calls n H. cbn [es_upper es_items length] in *. apply (f_equal (fun x => match x with Some k => k | None => 0%nat end)) in H. lia.
Qed.

(** The encoder of integers: with exact estimates it is the one of C12. *)
Theorem estimated_integers_exact : forall m fuel it, exact it -> nlen (es_items it) < 2 ^ 64 -> (length (es_items it) <= fuel)%nat ->
  delta_encode_est m fuel it = Some (delta_encode m (es_items it)).
Proof. exact delta_encode_exact. Qed.
Print Assumptions estimated_integers_exact.

Example estimated_integers_exact_case :
  exact (mk_es [5; 3; 9]%Z (fun k => Some (3 - k)%nat)) /\
  delta_encode_est Checked 3 (mk_es [5; 3; 9]%Z (fun k => Some (3 - k)%nat)) = Some (delta_encode Checked [5; 3; 9]%Z).
Proof. split; [ intros calls; reflexivity | vm_compute; reflexivity ]. Qed.

(** Whatever the iterator returns, what is written announces the first estimate as the number of integers: when it differs from the number of items, they are
    not what a decoder returns. *)
Theorem estimated_integers_announced : forall m m' fuel it h out d, es_upper it 0 = Some h -> N.of_nat h < 2 ^ 64 ->
  delta_encode_est m fuel it = Some (Ok out) -> delta_try_new m' out = Ok d ->
  delta_size_hint d = N.of_nat h /\
  (length (es_items it) <> h -> ~ yields (delta_next m') (fun s r => delta_size_hint s = nlen r) d (map inl (es_items it))).
Proof.
  intros m m' fuel it h out d Hu H64 E Ed. pose proof (delta_announces _ _ _ _ _ _ _ Hu H64 E Ed) as H. split; [ exact H | ].
  intros Hne Hy. apply Hne. assert (Hs : delta_size_hint d = nlen (map (@inl Z error) (es_items it))) by (inversion Hy; assumption).
  rewrite H in Hs. unfold nlen in Hs. rewrite map_length in Hs. lia.
Qed.
Print Assumptions estimated_integers_announced.

(** So what goes in does not come back: the odd numbers among 0..=4 are read back as 1, 3, 5, 7, 9. *)
Theorem estimated_integers_refuted : forall m,
  exists it out, lawful it /\ es_items it = [1; 3]%Z /\ delta_encode_est m 1 it = Some (Ok out) /\
    (let* d := delta_try_new m out in drain (delta_next m) 6 d) = Ok (map inl [1; 3; 5; 7; 9]%Z).
Proof.
  intros m. exists (mk_es [1; 3]%Z (fun k => nth k [Some 5; Some 3; Some 1; Some 0]%nat (Some 0%nat))), [128; 1; 1; 5; 2; 4; 0].
  split; [ | split; [ reflexivity | destruct m; split; vm_compute; reflexivity ] ].
  intros calls n H. cbn [es_items es_upper] in *.
  destruct calls as [|[|[|[|calls]]]]; cbn [nth] in H; try (injection H as <-; cbn [length]; lia). destruct calls; injection H as <-; cbn [length]; lia.
Qed.
Print Assumptions estimated_integers_refuted.

(** And it may never return: an estimate that stays at one, which the standard library allows, makes it write blocks for ever. *)
Theorem estimated_integers_endless_refuted : exists it : estimated Z, lawful it /\ es_items it = [] /\ forall m fuel, delta_encode_est m fuel it = None.
Proof.
  exists (mk_es [] (fun _ => Some 1%nat)). split; [ intros calls n H; injection H as <-; cbn [es_items length]; lia | ]. split; [ reflexivity | ].
  exact never_ends_encode.
Qed.
Print Assumptions estimated_integers_endless_refuted.

(** Iterators that announce no upper bound make all three panic. *)
Theorem no_estimate : forall m fuel w (numbers : estimated N) (booleans : estimated bool) (integers : estimated Z),
  es_upper numbers 0 = None -> es_upper booleans 0 = None -> es_upper integers 0 = None ->
  encode_u32_est numbers w = Panic /\ encode_bool_est booleans = Panic /\ delta_encode_est m fuel integers = Some Panic.
Proof.
  intros m fuel w a b c Ha Hb Hc. unfold encode_u32_est, encode_bool_est, delta_encode_est, upper. rewrite Ha, Hb, Hc. split; [ reflexivity | ]. split; [ reflexivity | ].
  replace (uleb_bytes 128) with (Ok [128; 1]) by (vm_compute; reflexivity). replace (uleb_bytes 1) with (Ok [1]) by (vm_compute; reflexivity). reflexivity.
Qed.
Print Assumptions no_estimate.

Example no_estimate_case : delta_encode_est Checked 4 (mk_es [1; 2; 3]%Z (fun _ => None)) = Some Panic.
Proof. vm_compute. reflexivity. Qed.
