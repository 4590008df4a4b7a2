(** Proofs about column indexes of any writer. *)
From Verif Require Import Base.Prelude Model.Types Model.Native Model.Thrift Model.Intervals Model.Page Model.Io Model.Metadata Model.Indexes Spec.PlainSpec Spec.RowsSpec Spec.ValuesSpec Spec.PruneSpec
  Spec.ForeignSpec Spec.ForeignIndexSpec Spec.ForeignSearchSpec Proofs.TypesFacts Proofs.PlainProofs Proofs.PageIoProofs Proofs.ForeignIndexProofs.
Open Scope N_scope.

Lemma entries_read {A} (value : list N -> res A) (to : A -> list N -> Prop) nulls los his bounds : (forall v b, to v b -> value b = Ok v) -> entries_say to nulls los his bounds ->
  length los = length bounds /\
  forall counts, length counts = length bounds ->
  exists pages, collect_res (map (fun x => let '(min, max, is_null, count) := x in
      if (is_null : bool) then Ok (mk_pi None None count) else let* min := value min in let* max := value max in Ok (mk_pi (Some min) (Some max) count))
    (zip_index los his nulls counts)) = Ok pages /\ map (fun e => (pi_min e, pi_max e)) pages = bounds.
Proof.
  intros Hv. induction 1 as [|lo hi nulls los his bounds H [L IH]|x y lo hi nulls los his bounds Hx Hy H [L IH]]; (split; [cbn [length]; congruence|]); intros counts Hc.
  - exists []. destruct counts; split; reflexivity.
  - destruct counts as [|n counts]; [discriminate Hc|]. injection Hc as Hc. destruct (IH counts Hc) as (pages & E & Em).
    exists (mk_pi None None n :: pages). cbn [zip_index map collect_res bind]. rewrite E. split; [reflexivity|]. cbn [map]. rewrite Em. reflexivity.
  - destruct counts as [|n counts]; [discriminate Hc|]. injection Hc as Hc. destruct (IH counts Hc) as (pages & E & Em).
    exists (mk_pi (Some x) (Some y) n :: pages). cbn [zip_index map collect_res]. rewrite (Hv x lo Hx), (Hv y hi Hy). cbn [bind]. rewrite E. split; [reflexivity|]. cbn [map]. rewrite Em. reflexivity.
Qed.
Lemma index_pages_say {A} (value : list N -> res A) (to : A -> list N -> Prop) i bounds : (forall v b, to v b -> value b = Ok v) ->
  entries_say to (ci_null_pages i) (ci_min_values i) (ci_max_values i) bounds -> (forall l, ci_null_counts i = Some l -> length l = length bounds) ->
  exists pages, index_pages value i = Ok pages /\ map (fun e => (pi_min e, pi_max e)) pages = bounds.
Proof.
  intros Hv He Hc. destruct (entries_read value to _ _ _ _ Hv He) as [L H]. apply H. destruct (ci_null_counts i) as [l|]; [rewrite map_length; apply Hc; reflexivity|rewrite repeat_length; exact L].
Qed.
Lemma boundary_order_ok z : (0 <= z <= 2)%Z -> exists o, boundary_order_of_thrift z = Ok o.
Proof. intros H. assert (z = 0 \/ z = 1 \/ z = 2)%Z as [-> |[-> | ->]] by lia; eexists; reflexivity. Qed.

Lemma foreign_index k i p bounds : pt_physical p = match k with KNative t => native_physical t | KBinary => ByteArray | KFixed size => FixedLenByteArray size | KBoolean => Boolean end ->
  (0 <= ci_boundary_order i <= 2)%Z -> (forall l, ci_null_counts i = Some l -> length l = length bounds) ->
  entries_say (bound_bytes k) (ci_null_pages i) (ci_min_values i) (ci_max_values i) bounds ->
  exists ix, index_from_thrift i p = Ok ix /\ bounds_found k ix bounds.
Proof.
  intros Hp Ho Hc He. destruct (boundary_order_ok _ Ho) as (o & Eo). unfold index_from_thrift. rewrite Hp. destruct k as [t| |size|]; cbn [bounds_found].
  - destruct (index_pages_say (native_bound t) (bound_bytes (KNative t)) i bounds) as (pages & Ep & Em); [|exact He|exact Hc|].
    { intros v b [Hv ->]. unfold native_bound. rewrite native_to_le_length, Nat.eqb_refl, native_from_to by exact Hv. reflexivity. }
    exists (INative t p pages o). split; [destruct t; cbn [native_physical]; rewrite Ep; cbn [bind]; rewrite Eo; reflexivity|]. exists p, pages, o. split; [reflexivity|symmetry; exact Em].
  - destruct (index_pages_say (@Ok (list N)) (bound_bytes KBinary) i bounds) as (pages & Ep & Em); [intros v b ->; reflexivity|exact He|exact Hc|].
    exists (IBytes p pages o). split; [rewrite Ep; cbn [bind]; rewrite Eo; reflexivity|]. exists p, pages, o. split; [reflexivity|symmetry; exact Em].
  - destruct (index_pages_say (@Ok (list N)) (bound_bytes (KFixed size)) i bounds) as (pages & Ep & Em); [intros v b ->; reflexivity|exact He|exact Hc|].
    exists (IFixed p pages o). split; [rewrite Ep; cbn [bind]; rewrite Eo; reflexivity|]. exists p, pages, o. split; [reflexivity|symmetry; exact Em].
  - destruct (index_pages_say bool_bound (bound_bytes KBoolean) i bounds) as (pages & Ep & Em); [intros [] b ->; reflexivity|exact He|exact Hc|].
    exists (IBool pages o). split; [rewrite Ep; cbn [bind]; rewrite Eo; reflexivity|]. exists pages, o. split; [reflexivity|symmetry; exact Em].
Qed.

(** The rows of the pages that are kept. *)
Lemma kept_listed {A} T file row pages (cellss : list (list A)) locs : listed T file row pages cellss locs -> forall flags ivs,
  row + nlen (concat cellss) < 2 ^ 64 -> map iv_bounds ivs = RowsSpec.pages_of locs (row + nlen (concat cellss)) ->
  let kept := map snd (filter fst (combine flags ivs)) in
  rows_of kept = rows_kept (N.to_nat row) flags (map (@length A) cellss) /\ Forall non_empty kept /\ Forall iv_ok kept.
Proof.
  induction 1 as [row|row x pages cells cellss locs before after Hf Hne H IH]; intros flags ivs Hb E.
  - destruct ivs; [|discriminate E]. destruct flags as [|f flags]; cbn; repeat split; constructor.
  - destruct (listed_rows _ _ _ _ _ _ H) as (_ & _ & _ & _ & _ & R6 & _). rewrite nlen_concat_cons in Hb, E.
    cbn [RowsSpec.pages_of loc_first_row] in E. destruct ivs as [|i ivs]; [discriminate E|]. cbn [map] in E. injection E as E1 E2 E3.
    assert (E4 : iv_start i = row) by lia.
    assert (E5 : iv_length i = nlen cells). { destruct locs as [|a r]; [subst cellss; change (nlen (concat [])) with 0 in E2; lia|]. rewrite R6 in E2. lia. }
    replace (row + (nlen cells + nlen (concat cellss))) with (row + nlen cells + nlen (concat cellss)) in E3 by lia.
    assert (Hb' : row + nlen cells + nlen (concat cellss) < 2 ^ 64) by (set (b := 2 ^ 64) in *; clearbody b; lia).
    destruct flags as [|f flags]; [repeat split; constructor|].
    destruct (IH flags ivs Hb' E3) as (I1 & I2 & I3). rewrite N2Nat.inj_add in I1. replace (N.to_nat (nlen cells)) with (length cells) in I1 by (unfold nlen; lia).
    cbn [combine filter fst map rows_kept]. destruct f; cbn [map snd app]; [|repeat split; assumption]. split; [|split].
    + unfold rows_of in *. cbn [map concat]. rewrite I1. unfold rows. rewrite E4, E5. f_equal. f_equal. unfold nlen. lia.
    + constructor; [|exact I2]. unfold non_empty. rewrite E5. destruct cells; [congruence|]. unfold nlen. cbn [length]. lia.
    + constructor; [|exact I3]. unfold iv_ok. rewrite E4, E5. set (b := 2 ^ 64) in *. clearbody b. lia.
Qed.

Lemma indexed_locations {A} T O file c codec dictionary pages (cellss : list (list A)) locs : indexed_column T O file c codec dictionary pages cellss locs ->
  read_pages_locations O file [c] = Ok [locs] /\ listed T file 0 pages cellss locs.
Proof.
  intros (meta & start & before & after & _ & _ & _ & _ & _ & Hl & Ei & En & Ef & Hback). split; [|exact Hl].
  unfold read_pages_locations, prepare_read. rewrite Ei, try_usize_of. cbn [bind map collect_res]. rewrite En, try_usize_of. cbn [bind total fold_right]. rewrite N.add_0_r, Ef, read_at_app.
  cbn [length decode_locations]. rewrite <- (app_nil_r (t_enc O locs)) at 2. rewrite (proj2 Hback). reflexivity.
Qed.
Lemma foreign_index_read k IX file c bounds : column_of k (cd_descriptor (cmd_descr c)) -> column_index_of k IX file c bounds ->
  exists ix, read_columns_indexes IX file [c] = Ok [ix] /\ bounds_found k ix bounds.
Proof.
  intros Hk (i & before & after & Eo & El & Ef & Hback & Ho & Hc & He). destruct (foreign_index k i _ bounds Hk Ho Hc He) as (ix & Ei & Hb). exists ix. split; [|exact Hb].
  unfold read_columns_indexes, prepare_read. rewrite Eo, try_usize_of. cbn [bind map collect_res]. rewrite El, try_usize_of. cbn [bind total fold_right]. rewrite N.add_0_r, Ef, read_at_app.
  cbn [deserialize_indexes]. rewrite N.ltb_irrefl. unfold deserialize_index. rewrite firstn_all2 by (unfold nlen; lia).
  rewrite <- (app_nil_r (t_enc IX i)) at 2. rewrite (proj2 Hback). cbn [bind]. rewrite Ei. reflexivity.
Qed.
