(** Proofs about skipping pages by their bounds. *)
From Verif Require Import Base.Prelude Model.Types Model.Native Model.Thrift Model.Intervals Model.Statistics Model.Page Model.PageWrite Model.Indexes Spec.RowsSpec Spec.PagesSpec Spec.LevelsSpec Spec.ValuesSpec Spec.FileSpec
  Spec.PruneSpec.
Open Scope N_scope.

(** The intervals of kept pages. *)
Lemma kept_intervals T : forall data start row flags pages, Forall (fun p => is_data p = true) data -> Forall (fun p => 0 < page_rows p) data ->
  row + chunk_rows data < 2 ^ 64 -> map iv_bounds pages = pages_of (locations T start row data) (row + chunk_rows data) ->
  let ivs := map snd (filter fst (combine flags pages)) in
  rows_of ivs = rows_kept (N.to_nat row) flags (map (fun p => N.to_nat (page_rows p)) data) /\ Forall non_empty ivs /\ Forall iv_ok ivs.
Proof.
  induction data as [|p data IH]; intros start row flags pages Hd Hpos Hb E.
  - destruct pages; [|discriminate E]. destruct flags as [|f flags]; cbn; repeat split; constructor.
  - cbn [locations] in E. rewrite (Forall_inv Hd) in E. cbn [chunk_rows fold_right] in E, Hb. fold (chunk_rows data) in E, Hb. cbn [pages_of] in E.
    destruct pages as [|i pages]; [discriminate E|]. cbn [map] in E.
    assert (Ei : iv_bounds i = (Z.of_N row, Z.of_N (row + page_rows p))).
    { clear - E Hd. destruct data as [|q data]; cbn [locations] in E; [|rewrite (Forall_inv (Forall_inv_tail Hd)) in E].
      - injection E as E1 E2 _. unfold iv_bounds. cbn [loc_first_row chunk_rows fold_right] in *. f_equal; lia.
      - cbn [loc_first_row] in E. injection E as E1 E2 _. unfold iv_bounds. f_equal; lia. }
    assert (Er : map iv_bounds pages = pages_of (locations T (start + nlen (page_bytes T p)) (row + page_rows p) data) (row + page_rows p + chunk_rows data)).
    { replace (row + page_rows p + chunk_rows data) with (row + (page_rows p + chunk_rows data)) by lia. injection E as _ _ E. exact E. }
    unfold iv_bounds in Ei. injection Ei as E1 E2. assert (E3 : iv_start i = row) by lia. assert (E4 : iv_length i = page_rows p) by lia. clear E1 E2 E.
    assert (Hb' : row + page_rows p + chunk_rows data < 2 ^ 64) by (set (b := 2 ^ 64) in *; clearbody b; lia).
    destruct flags as [|f flags]; [repeat split; constructor|].
    destruct (IH _ _ flags pages (Forall_inv_tail Hd) (Forall_inv_tail Hpos) Hb' Er) as (I1 & I2 & I3).
    pose proof (Forall_inv Hpos) as Hp. cbn beta in Hp. cbn [combine filter fst map rows_kept]. rewrite N2Nat.inj_add in I1.
    destruct f; cbn [map snd app]; [|repeat split; assumption]. split; [|split].
    + unfold rows_of in *. cbn [map concat]. rewrite I1. unfold rows. rewrite E3, E4. reflexivity.
    + constructor; [unfold non_empty; lia|exact I2].
    + constructor; [unfold iv_ok; rewrite E3, E4; set (b := 2 ^ 64) in *; clearbody b; lia|exact I3].
Qed.

(** A row whose page is kept is among the rows of kept pages. *)
Lemma rows_kept_in {A B} (P : A -> list B -> Prop) (keep : A -> bool) (good : B -> Prop) : (forall a cells x, P a cells -> In x cells -> good x -> keep a = true) ->
  forall l cellss start, Forall2 P l cellss -> forall r x, nth_error (concat cellss) r = Some x -> good x -> In (start + r)%nat (rows_kept start (map keep l) (map (@length B) cellss)).
Proof.
  intros H l cellss start HF. revert start. induction HF as [|a cells l cellss Ha HF IH]; intros start r x Hr Hx; [destruct r; discriminate Hr|].
  cbn [concat] in Hr. cbn [map rows_kept]. apply in_or_app. destruct (Nat.lt_ge_cases r (length cells)) as [Hl|Hl].
  - left. rewrite nth_error_app1 in Hr by exact Hl. rewrite (H a cells x Ha (nth_error_In _ _ Hr) Hx). apply in_seq. lia.
  - right. rewrite nth_error_app2 in Hr by exact Hl. specialize (IH (start + length cells)%nat _ _ Hr Hx). replace (start + r)%nat with (start + length cells + (r - length cells))%nat by lia. exact IH.
Qed.

(** The index of truly described pages tells true bounds. *)
Lemma described_index k truth p cps cellss stats i : Forall2 (truly_described k truth) cps cellss ->
  Forall2 (fun d s => cdp_statistics d = Ok (Some s)) (data_pages cps) stats -> index_of p stats i -> stats <> [] ->
  exists bounds, bounds_found k i bounds /\ Forall2 (fun b cells => forall v, In (Some v) cells -> truth b v) bounds cellss.
Proof.
  intros HF Hs Hi Hne.
  assert (Hb : Forall2 (fun s cells => exists b, bounds_told k s b /\ forall v, In (Some v) cells -> truth b v) stats cellss).
  { clear - HF Hs. revert stats Hs. induction HF as [|cp cells cps cellss (_ & _ & d & s & b & -> & E & Hb & Ht) HF IH]; intros stats Hs; cbn [data_pages flat_map app] in Hs.
    - inversion Hs; subst. constructor.
    - inversion Hs as [|? s' ? stats' E' Hs']; subst. constructor; [|apply IH; exact Hs']. assert (s' = s) by congruence. subst s'. exists b. auto. }
  clear HF Hs.
  assert (Hdep : forall t (x y : stats_of (carrier t)) p q, SNative t p x = SNative t q y -> x = y).
  { intros t x y p0 q E. injection E as _ E. apply Eqdep_dec.inj_pair2_eq_dec in E; [exact E|]. intros a b. decide equality. }
  assert (G : forall (A : Type) (build : stats_of A -> statistics)
                (back : option A * option A -> option (value k) * option (value k)) (s : list (stats_of A)),
    (forall x b, bounds_told k (build x) b -> b = back (told x)) -> stats = map build s ->
    Forall2 (fun b cells => forall v, In (Some v) cells -> truth b v) (map (fun e => back (pi_min e, pi_max e)) (map entry_of s)) cellss).
  { intros A build back s HA ->. clear - Hb HA. revert cellss Hb. induction s as [|x s IH]; intros cellss Hb; inversion Hb as [|? cells ? cellss' (b & B1 & B2) Hb']; subst; [constructor|].
    cbn [map]. constructor; [|apply IH; exact Hb']. rewrite (HA x b B1) in B2. unfold told in B2. unfold entry_of. destruct (st_min x); exact B2. }
  destruct stats as [|s0 stats]; [congruence|]. inversion Hb as [|? c0 ? cs (b0 & B0 & _) _]; subst.
  destruct k as [t| |n|]; cbn [bounds_told] in B0.
  - destruct B0 as (q & x0 & -> & _). destruct i as [pages o|t' p' pages o|p' pages o|p' pages o]; cbn [index_of] in Hi.
    + destruct Hi as (s & E & _). destruct s; discriminate E.
    + destruct Hi as (-> & s & E & -> & _ & _). assert (t' = t) as -> by (destruct s; [discriminate E|]; cbn [map] in E; injection E; congruence).
      eexists. split; [exists p, (map entry_of s), o; split; reflexivity|]. refine (G _ (SNative t p) (fun b => b) s _ E).
      intros x b (q' & y & E' & ->). apply Hdep in E'. subst y. reflexivity.
    + destruct Hi as (_ & s & E & _). destruct s; discriminate E.
    + destruct Hi as (_ & s & n & E & _). destruct s; discriminate E.
  - destruct B0 as (q & x0 & -> & _). destruct i as [pages o|t' p' pages o|p' pages o|p' pages o]; cbn [index_of] in Hi.
    + destruct Hi as (s & E & _). destruct s; discriminate E.
    + destruct Hi as (_ & s & E & _). destruct s; discriminate E.
    + destruct Hi as (-> & s & E & -> & _ & _). eexists. split; [exists p, (map entry_of s), o; split; reflexivity|]. refine (G _ (SBinary p) (fun b => b) s _ E).
      intros x b (q' & y & E' & ->). injection E' as _ ->. reflexivity.
    + destruct Hi as (_ & s & n & E & _). destruct s; discriminate E.
  - destruct B0 as (q & x0 & -> & _). destruct i as [pages o|t' p' pages o|p' pages o|p' pages o]; cbn [index_of] in Hi.
    + destruct Hi as (s & E & _). destruct s; discriminate E.
    + destruct Hi as (_ & s & E & _). destruct s; discriminate E.
    + destruct Hi as (_ & s & E & _). destruct s; discriminate E.
    + destruct Hi as (-> & s & n' & E & -> & _ & _). eexists. split; [exists p, (map entry_of s), o; split; reflexivity|]. refine (G _ (SFixed p) (fun b => b) s _ E).
      intros x b (q' & y & E' & ->). injection E' as _ ->. reflexivity.
  - destruct B0 as (x0 & -> & _). destruct i as [pages o|t' p' pages o|p' pages o|p' pages o]; cbn [index_of] in Hi.
    + destruct Hi as (s & E & -> & _ & _). eexists. split; [exists (map entry_of s), o; split; reflexivity|]. refine (G _ SBool (fun b => b) s _ E).
      intros x b (y & E' & ->). injection E' as ->. reflexivity.
    + destruct Hi as (_ & s & E & _). destruct s; discriminate E.
    + destruct Hi as (_ & s & E & _). destruct s; discriminate E.
    + destruct Hi as (_ & s & n & E & _). destruct s; discriminate E.
Qed.
