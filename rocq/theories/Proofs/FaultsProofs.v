(** Proofs about sources that fail. *)
From Verif Require Import Base.Prelude Base.Iter Model.Types Model.Thrift Model.Intervals Model.Page Model.Io Model.Schema Model.PageRead Model.Metadata
  Model.Indexes Model.Bloom Model.Faults Spec.PagesSpec Spec.ResumeSpec Spec.FaultsSpec Proofs.PageReadProofs.
Open Scope N_scope.

Definition working (fs : faults) : Prop := Forall (fun f => f = None) fs.

(** [f] with failures: an error, or all as without. *)
Definition steady {A} (f : reader A) : Prop :=
  forall file pos fs,
    let (d, x) := f (mk_drive file pos fs) in
    let (d0, x0) := f (mk_drive file pos []) in
    dv_file d = file /\ dv_file d0 = file /\ dv_faults d0 = [] /\ (working fs -> working (dv_faults d)) /\
    ((x = Err OutOfSpec /\ ~ working fs) \/ (x = x0 /\ dv_pos d = dv_pos d0)).

Lemma next_fault_working fs f r : next_fault fs = (f, r) -> working fs -> f = None /\ working r.
Proof.
  unfold next_fault. destruct fs as [|a fs]; intros E W; injection E as <- <-.
  - split; [reflexivity | constructor].
  - inversion W; subst. split; [reflexivity | assumption].
Qed.

Lemma steady_res {A} (x : res A) : steady (rres x).
Proof. intros file pos fs. cbn. repeat split; auto. Qed.

Lemma steady_bind {A B} (x : reader A) (f : A -> reader B) : steady x -> (forall a, steady (f a)) -> steady (rbind x f).
Proof.
  intros Hx Hf file pos fs. unfold rbind. specialize (Hx file pos fs).
  destruct (x (mk_drive file pos fs)) as [[f1 p1 w1] y1]. destruct (x (mk_drive file pos [])) as [[f0 p0 w0] y0].
  cbn [dv_file dv_pos dv_faults] in Hx. destruct Hx as (-> & -> & -> & Hw & [[-> Hn] | [-> ->]]).
  - destruct y0 as [a|e|]; cbn [dv_file dv_faults dv_pos]; try (repeat split; [exact Hw | left; split; [reflexivity | exact Hn]]).
    specialize (Hf a file p0 []). destruct (f a (mk_drive file p0 [])) as [[f2 p2 w2] y2]. cbn [dv_file dv_faults dv_pos] in *.
    destruct Hf as (_ & -> & -> & _). repeat split; [exact Hw | left; split; [reflexivity | exact Hn]].
  - destruct y0 as [a|e|]; cbn [dv_file dv_faults dv_pos]; try (repeat split; [exact Hw | right; split; reflexivity]).
    specialize (Hf a file p0 w1). destruct (f a (mk_drive file p0 w1)) as [[f2 p2 w2] y2].
    destruct (f a (mk_drive file p0 [])) as [[f3 p3 w3] y3]. cbn [dv_file dv_faults dv_pos] in *.
    destruct Hf as (-> & -> & -> & Hw2 & [[-> Hn] | [-> ->]]); repeat split; try (intros W; apply Hw2, Hw, W).
    + left. split; [reflexivity|]. intros W. apply Hn, Hw, W.
    + right. split; reflexivity.
Qed.

Lemma steady_seek at_ : (forall file pos fs, at_ (mk_drive file pos fs) = at_ (mk_drive file pos [])) -> steady (seek at_).
Proof.
  intros H file pos fs. unfold seek. cbn [dv_faults dv_file dv_pos]. destruct (next_fault fs) as [f r] eqn:E.
  cbn [next_fault]. rewrite (H file pos fs). pose proof (next_fault_working _ _ _ E) as W. destruct f as [j|].
  - destruct (at_ (mk_drive file pos [])); cbn [dv_file dv_faults dv_pos]; (repeat split; [intros Hw; destruct (W Hw); discriminate|]);
      left; (split; [reflexivity|]); intros Hw; destruct (W Hw); discriminate.
  - destruct (at_ (mk_drive file pos [])); cbn [dv_file dv_faults dv_pos]; repeat split; auto; intros Hw; apply (W Hw).
Qed.

Lemma take_read_cases n fs source :
  match take_read n fs source with
  | (fs', source', x) => (working fs -> working fs') /\
      ((x = Err OutOfSpec /\ ~ working fs) \/ (x = Ok (firstn (N.to_nat n) source) /\ source' = skipn (N.to_nat n) source))
  end.
Proof.
  unfold take_read. destruct (next_fault fs) as [f r] eqn:E. pose proof (next_fault_working _ _ _ E) as W. destruct f as [j|].
  - assert (Hn : ~ working fs) by (intros Hw; destruct (W Hw); discriminate). destruct (j <? _); split; auto; intros Hw; contradiction.
  - split; auto. intros Hw. apply (W Hw).
Qed.

Lemma decode_read_cases {X} (T : thrift X) max fs source :
  match decode_read T max fs source with
  | (fs', source', x) => (working fs -> working fs') /\
      ((x = Err OutOfSpec /\ ~ working fs) \/
       match t_dec T max source with
       | Ok (h, rest) => x = Ok h /\ source' = rest
       | Err e => x = Err e /\ source' = source
       | Panic => x = Panic /\ source' = source
       end)
  end.
Proof.
  unfold decode_read. destruct (next_fault fs) as [f r] eqn:E. pose proof (next_fault_working _ _ _ E) as W. destruct f as [j|].
  - assert (Hn : ~ working fs) by (intros Hw; destruct (W Hw); discriminate).
    destruct (t_dec T max source) as [[h rest]|e|]; [destruct (j <? _)| |]; split; auto; intros Hw; contradiction.
  - destruct (t_dec T max source) as [[h rest]|e|]; split; auto; intros Hw; apply (W Hw).
Qed.

Lemma steady_read_some n : steady (read_some n).
Proof.
  intros file pos fs. unfold read_some. cbn [dv_faults dv_file dv_pos].
  pose proof (take_read_cases n fs (skipn (N.to_nat pos) file)) as H.
  destruct (take_read n fs _) as [[fs' source'] x]. cbn [take_read next_fault dv_file dv_faults dv_pos]. destruct H as (W & [[-> Hn] | [-> ->]]); repeat split; auto.
Qed.

Lemma steady_read_struct {X} (T : thrift X) max : steady (read_struct T max).
Proof.
  intros file pos fs. unfold read_struct. cbn [dv_faults dv_file dv_pos]. set (src := skipn (N.to_nat pos) file).
  pose proof (decode_read_cases T max fs src) as H. destruct (decode_read T max fs src) as [[fs' source'] x].
  assert (E : decode_read T max [] src = match t_dec T max src with Ok (h, rest) => ([], rest, Ok h) | Err e => ([], src, Err e) | Panic => ([], src, Panic) end)
    by (unfold decode_read; cbn [next_fault]; destruct (t_dec T max src) as [[? ?]|?|]; reflexivity).
  rewrite E. clear E. destruct (t_dec T max src) as [[h rest]|e|]; cbn [dv_file dv_faults dv_pos];
    destruct H as (W & [[-> Hn] | [-> ->]]); repeat split; auto.
Qed.

Lemma steady_seek_start n : steady (seek_start n).
Proof. apply steady_seek. reflexivity. Qed.
Lemma steady_seek_end n : steady (seek_end n).
Proof. apply steady_seek. reflexivity. Qed.
Lemma steady_seek_here : steady seek_here.
Proof. apply steady_seek. reflexivity. Qed.

Lemma steady_honest {A} (f : reader A) expected :
  steady f -> (forall file pos, snd (f (mk_drive file pos [])) = expected file) -> honest expected f.
Proof.
  intros H E file pos fs. cbn zeta. specialize (H file pos fs). specialize (E file pos).
  destruct (f (mk_drive file pos fs)) as [d x]. destruct (f (mk_drive file pos [])) as [d0 x0]. cbn [snd] in *.
  destruct H as (_ & _ & _ & _ & [[-> Hn] | [-> _]]); split; auto. intros W. contradiction.
Qed.

Ltac steady :=
  repeat first
    [ apply steady_bind; [ | intros ] | apply steady_res | apply steady_seek_start | apply steady_seek_end | apply steady_seek_here
    | apply steady_read_some | apply steady_read_struct
    | match goal with
      | |- steady (let (_, _) := ?p in _) => destruct p
      | |- steady (if ?b then _ else _) => destruct b
      | |- steady (match ?o with Some _ => _ | None => _ end) => destruct o
      end ].

(** Without failures. *)
Lemma bind_res {A B} (x : res A) (f : A -> reader B) d :
  rbind (rres x) f d = match x with Ok a => f a d | Err e => (d, Err e) | Panic => (d, Panic) end.
Proof. destruct x; reflexivity. Qed.
Lemma bind_start {B} n (f : N -> reader B) file pos : rbind (seek_start n) f (mk_drive file pos []) = f n (mk_drive file n []).
Proof. reflexivity. Qed.
Lemma bind_end {B} n (f : N -> reader B) file pos : rbind (seek_end n) f (mk_drive file pos []) =
  if nlen file <? n then (mk_drive file pos [], Err OutOfSpec) else f (nlen file - n) (mk_drive file (nlen file - n) []).
Proof. unfold rbind, seek_end, seek. cbn [dv_faults dv_file dv_pos next_fault]. destruct (nlen file <? n); reflexivity. Qed.
Lemma bind_here {B} (f : N -> reader B) file pos : rbind seek_here f (mk_drive file pos []) = f pos (mk_drive file pos []).
Proof. reflexivity. Qed.
Lemma read_some_result n file pos : exists p, read_some n (mk_drive file pos []) = (mk_drive file p [], Ok (read_at file pos n)).
Proof. eexists. reflexivity. Qed.
Lemma bind_some {B} n (f : list N -> reader B) file pos : exists p, rbind (read_some n) f (mk_drive file pos []) = f (read_at file pos n) (mk_drive file p []).
Proof. eexists. reflexivity. Qed.

Lemma read_at_end file n : n <= nlen file -> read_at file (nlen file - n) n = read_end file n.
Proof.
  intros H. unfold read_at, read_end, nlen in *. replace (N.to_nat (N.of_nat (length file) - n)) with (length file - N.to_nat n)%nat by lia.
  apply firstn_all2. rewrite skipn_length. lia.
Qed.

Lemma steady_stream_len : steady stream_len_f.
Proof. unfold stream_len_f. steady. Qed.
Lemma stream_len_result file pos : exists p, stream_len_f (mk_drive file pos []) = (mk_drive file p [], Ok (nlen file)).
Proof.
  unfold stream_len_f. rewrite bind_here, bind_end. assert (E : nlen file <? 0 = false) by (apply N.ltb_ge; lia). rewrite E, N.sub_0_r.
  destruct (pos =? nlen file); eexists; reflexivity.
Qed.

Lemma steady_with_size T m size : steady (read_metadata_with_size_f T m size).
Proof. unfold read_metadata_with_size_f. cbn zeta. steady. Qed.
Lemma with_size_result T m size file pos : snd (read_metadata_with_size_f T m size (mk_drive file pos [])) = read_metadata_with_size T m file size.
Proof.
  unfold read_metadata_with_size_f, read_metadata_with_size. destruct (size <? 12); [reflexivity|]. cbn zeta.
  set (n := N.min default_footer_read_size size). rewrite bind_end. unfold seek_end_read at 1. destruct (nlen file <? n) eqn:En; [reflexivity|].
  apply N.ltb_ge in En.
  match goal with |- snd (rbind (read_some n) ?F _) = _ => destruct (bind_some n F file (nlen file - n)) as [q Hq] end. rewrite Hq. clear Hq.
  rewrite (read_at_end file n En). cbn [bind]. set (buffer := read_end file n). rewrite bind_res.
  destruct (slice_from (N.to_nat n - 4) buffer) as [tail|e|]; cbn [bind]; [|reflexivity|reflexivity].
  destruct (negb (bytes_eqb tail magic)); [reflexivity|]. rewrite bind_res.
  destruct (metadata_len buffer (N.to_nat n)) as [len|e|]; cbn [bind]; [|reflexivity|reflexivity]. rewrite bind_res.
  destruct (try_usize len) as [len'|e|]; cbn [bind]; [|reflexivity|reflexivity].
  destruct (size <? footer_size + len'); [reflexivity|]. unfold rbind at 1.
  destruct (footer_size + len' <? nlen buffer).
  - cbn [rres]. destruct (slice_from _ buffer); reflexivity.
  - rewrite bind_end. unfold seek_end_read. destruct (nlen file <? footer_size + len') eqn:Ef; [reflexivity|]. apply N.ltb_ge in Ef.
    destruct (read_some_result (footer_size + len') file (nlen file - (footer_size + len'))) as [p ->]. cbn [bind rres snd].
    rewrite (read_at_end file _ Ef). reflexivity.
Qed.

Lemma metadata_result T m file pos : snd (read_metadata_f T m (mk_drive file pos [])) = read_metadata T m file.
Proof.
  unfold read_metadata_f, rbind. destruct (stream_len_result file pos) as [p ->]. apply with_size_result.
Qed.

Lemma column_result c file pos : exists p, read_column_f c (mk_drive file pos []) = (mk_drive file p [], read_column file c).
Proof.
  unfold read_column_f, read_column. rewrite bind_res. destruct (byte_range c) as [[start len]|e|]; cbn [bind]; try (eexists; reflexivity).
Qed.

Lemma steady_column c : steady (read_column_f c).
Proof. unfold read_column_f. steady. Qed.
Lemma steady_collect {A B} (f : A -> reader B) l : (forall a, steady (f a)) -> steady (collect_f f l).
Proof. intros H. induction l as [|a l IH]; cbn [collect_f]; steady; [apply H | apply IH]. Qed.

Lemma bind_by {A B} (x : reader A) (f : A -> reader B) d d' y : x d = (d', y) ->
  rbind x f d = match y with Ok a => f a d' | Err e => (d', Err e) | Panic => (d', Panic) end.
Proof. intros E. unfold rbind. rewrite E. destruct y; reflexivity. Qed.

Lemma collect_result file l : forall pos, exists p,
  collect_f (fun c => do+ b := read_column_f c in rres (Ok (c, b))) l (mk_drive file pos []) =
    (mk_drive file p [], collect_res (map (fun c => let* b := read_column file c in Ok (c, b)) l)).
Proof.
  induction l as [|c l IH]; intros pos; cbn [collect_f map collect_res]; [eexists; reflexivity|].
  destruct (column_result c file pos) as [p Hp].
  assert (H1 : rbind (read_column_f c) (fun b => rres (Ok (c, b))) (mk_drive file pos []) = (mk_drive file p [], let* b := read_column file c in Ok (c, b))).
  { rewrite (bind_by _ _ _ _ _ Hp). destruct (read_column file c); reflexivity. }
  rewrite (bind_by _ _ _ _ _ H1). destruct (let* b := read_column file c in Ok (c, b)) as [x|e|]; cbn [bind]; try (eexists; reflexivity).
  destruct (IH p) as [q Hq]. rewrite (bind_by _ _ _ _ _ Hq). destruct (collect_res _); cbn [bind]; eexists; reflexivity.
Qed.

(** The page reader. *)
Lemma build_page_f_cases T m fs r :
  match build_page_f T m fs r, build_page T m r with
  | (fs', source', seen', x), (source, seen, y) => (working fs -> working fs') /\
      ((x = Err OutOfSpec /\ ~ working fs) \/ (x = y /\ source' = source /\ seen' = seen))
  end.
Proof.
  unfold build_page_f, build_page. pose proof (decode_read_cases T (pr_max r) fs (pr_source r)) as H.
  destruct (decode_read T (pr_max r) fs (pr_source r)) as [[fs1 s1] x1]. destruct H as (W & [[-> Hn] | H]).
  { destruct (t_dec T (pr_max r) (pr_source r)) as [[h rest]|e|]; [|split; auto|split; auto].
    destruct (get_page_header h) as [dh|e|]; [|split; auto|split; auto].
    destruct (sadd m 64 (pr_seen r) (counted dh)) as [seen|e|]; [|split; auto|split; auto].
    destruct (try_usize (ph_compressed_size h)) as [n|e|]; [|split; auto|split; auto].
    destruct (pr_max r <? n); [split; auto|]. destruct (nlen (firstn (N.to_nat n) rest) =? n); split; auto. }
  destruct (t_dec T (pr_max r) (pr_source r)) as [[h rest]|e|]; destruct H as [-> ->]; [|split; auto|split; auto].
  destruct (get_page_header h) as [dh|e|]; [|split; auto|split; auto].
  destruct (sadd m 64 (pr_seen r) (counted dh)) as [seen|e|]; [|split; auto|split; auto].
  destruct (try_usize (ph_compressed_size h)) as [n|e|]; [|split; auto|split; auto].
  destruct (pr_max r <? n); [split; auto|].
  pose proof (take_read_cases n fs1 rest) as H. destruct (take_read n fs1 rest) as [[fs2 s2] x2]. destruct H as (W2 & [[-> Hn] | [-> ->]]).
  - destruct (nlen (firstn (N.to_nat n) rest) =? n); (split; [auto | left; split; [reflexivity | tauto]]).
  - destruct (nlen (firstn (N.to_nat n) rest) =? n); split; auto.
Qed.

(** One call: an error, or the same. *)
Definition one_call {S} (fs : faults) (x : res (option (compressed_page + error) * (faults * S))) (y : res (option (compressed_page + error) * S)) : Prop :=
  (exists s', x = Ok (Some (inr OutOfSpec), s') /\ ~ working fs) \/
  match y with
  | Ok (o, r') => exists fs', x = Ok (o, (fs', r')) /\ (working fs -> working fs')
  | Err e => x = Err e
  | Panic => x = Panic
  end.

Lemma pr_next_fuel_f_cases T m : forall fuel fs r, one_call fs (pr_next_fuel_f T m fuel (fs, r)) (pr_next_fuel T m fuel r).
Proof.
  induction fuel as [|fuel IH]; intros fs r; cbn [pr_next_fuel_f pr_next_fuel]; [right; reflexivity|].
  destruct (pr_total r <=? pr_seen r)%Z; [right; eauto|].
  pose proof (build_page_f_cases T m fs r) as H. destruct (build_page_f T m fs r) as [[[fs1 s1] n1] x]. destruct (build_page T m r) as [[s0 n0] y].
  destruct H as (W & [[-> Hn] | (-> & -> & ->)]); [left; eauto|].
  destruct y as [[p|p]|e|]; try (right; eauto; fail).
  destruct (pr_filter r (pr_descriptor r) (cdp_header p)); [right; eauto|].
  destruct (IH fs1 (pr_at r s0 n0 [])) as [(s' & E & Hn) | H].
  - left. exists s'. split; [exact E|]. intros Hw. apply Hn. auto.
  - right. destruct (pr_next_fuel T m fuel (pr_at r s0 n0 [])) as [[o r']|e|]; auto.
    destruct H as (fs' & E & W'). exists fs'. split; auto.
Qed.

Lemma stream_next_fuel_f_cases T m : forall fuel fs r, one_call fs (stream_next_fuel_f T m fuel (fs, r)) (stream_next_fuel T m fuel r).
Proof.
  induction fuel as [|fuel IH]; intros fs r; cbn [stream_next_fuel_f stream_next_fuel]; [right; reflexivity|].
  destruct (pr_seen r <? pr_total r)%Z; [|right; eauto].
  pose proof (decode_read_cases T (pr_max r) fs (pr_source r)) as H.
  destruct (decode_read T (pr_max r) fs (pr_source r)) as [[fs1 s1] x1]. destruct H as (W & [[-> Hn] | H]); [left; eauto|].
  destruct (t_dec T (pr_max r) (pr_source r)) as [[h rest]|e|]; destruct H as [-> ->]; [| |right; reflexivity].
  2:{ right. exists fs1. split; auto. destruct r; reflexivity. }
  destruct (get_page_header h) as [dh|e|]; try (right; eauto; fail).
  destruct (sadd m 64 (pr_seen r) (counted dh)) as [seen|e|]; try (right; eauto; fail).
  destruct (try_usize (ph_compressed_size h)) as [n|e|]; try (right; eauto; fail).
  destruct (match dh with Some dh => negb (pr_filter r (pr_descriptor r) dh) | None => false end).
  - pose proof (take_read_cases n fs1 rest) as H. destruct (take_read n fs1 rest) as [[fs2 s2] x2]. destruct H as (W2 & [[-> Hn] | [-> ->]]); [left; eexists; split; [reflexivity | tauto]|].
    destruct (IH fs2 (pr_at r (skipn (N.to_nat n) rest) seen [])) as [(s' & E & Hn) | H].
    + left. exists s'. split; [exact E|]. intros Hw. apply Hn. auto.
    + right. destruct (stream_next_fuel T m fuel _) as [[o r']|e|]; auto. destruct H as (fs' & E & W'). exists fs'. split; auto.
  - destruct (pr_max r <? n); [right; eauto|].
    pose proof (take_read_cases n fs1 rest) as H. destruct (take_read n fs1 rest) as [[fs2 s2] x2]. destruct H as (W2 & [[-> Hn] | [-> ->]]); [left; eexists; split; [reflexivity | tauto]|].
    destruct (nlen (firstn (N.to_nat n) rest) =? n); [|right; eauto].
    destruct (finish_page h _ _ _ None); right; eauto.
Qed.

(** Pages and no error: all as without failures. *)
Lemma calls_steps {S} (f : faults * S -> res (option (compressed_page + error) * (faults * S))) (g : S -> res (option (compressed_page + error) * S)) :
  (forall fs r, one_call fs (f (fs, r)) (g r)) ->
  forall pages fs r s', steps f (fs, r) (map inl pages) s' -> steps g r (map inl pages) (snd s').
Proof.
  intros H. induction pages as [|p pages IH]; intros fs r s' Hs; cbn [map] in *; inversion Hs as [|? [fs1 r1] ? ? ? Hn Hr]; subst; [constructor|].
  specialize (H fs r). destruct H as [(s1 & E & _) | H]; [congruence|].
  destruct (g r) as [[o r2]|e|] eqn:Eg; [|congruence|congruence]. destruct H as (fs' & E & _). rewrite E in Hn. apply Ok_inj in Hn. injection Hn as -> -> ->.
  econstructor; [exact Eg | eauto].
Qed.

(** Working sources: all as without failures. *)
Lemma calls_working {S} (f : faults * S -> res (option (compressed_page + error) * (faults * S))) (g : S -> res (option (compressed_page + error) * S)) :
  (forall fs r, one_call fs (f (fs, r)) (g r)) ->
  forall n fs r, working fs -> drain f n (fs, r) = drain g n r.
Proof.
  intros H. induction n as [|n IH]; intros fs r W; [reflexivity|]. cbn [drain]. destruct (H fs r) as [(s1 & _ & Hn) | K]; [contradiction|].
  destruct (g r) as [[o r2]|e|]; [|rewrite K; reflexivity|rewrite K; reflexivity]. destruct K as (fs' & -> & W'). cbn [bind].
  destruct o as [a|]; [|reflexivity]. rewrite IH by auto. reflexivity.
Qed.

(** All calls, from the other side. *)
Lemma calls_runs {S} (f : faults * S -> res (option (compressed_page + error) * (faults * S))) (g : S -> res (option (compressed_page + error) * S)) :
  (forall fs r, one_call fs (f (fs, r)) (g r)) ->
  forall r items r', runs g r items r' -> forall fs,
    (exists fs', runs f (fs, r) items (fs', r')) \/
    (~ working fs /\ exists k s', (k <= length items)%nat /\ steps f (fs, r) (firstn k items ++ [inr OutOfSpec]) s').
Proof.
  intros H. induction 1 as [r r' Hn | r r1 a l r' Hn Hr IH]; intros fs; destruct (H fs r) as [(s1 & E & W) | K]; try rewrite Hn in K.
  - right. split; [exact W|]. exists 0%nat, s1. split; [auto|]. cbn [firstn app]. econstructor; [exact E | constructor].
  - left. destruct K as (fs' & E & _). exists fs'. constructor. exact E.
  - right. split; [exact W|]. exists 0%nat, s1. split; [cbn; lia|]. cbn [firstn app]. econstructor; [exact E | constructor].
  - destruct K as (fs1 & E & W). destruct (IH fs1) as [(fs' & R) | (Hn1 & k & s' & Hk & R)].
    + left. exists fs'. econstructor; [exact E | exact R].
    + right. split; [tauto|]. exists (Datatypes.S k), s'. split; [cbn; lia|]. cbn [firstn app]. econstructor; [exact E | exact R].
Qed.

Lemma pr_next_f_cases T m fs r : one_call fs (pr_next_f T m (fs, r)) (pr_next T m r).
Proof. apply pr_next_fuel_f_cases. Qed.

(** The stream, whose state is gone at its end. *)
Definition with_faults {S} (fs : faults) (s : option S) : option (faults * S) := option_map (fun r => (fs, r)) s.

Lemma stream_poll_f_cases T m fs s :
  (exists s', stream_poll_f T m (with_faults fs s) = Ok (Some (inr OutOfSpec), s') /\ ~ working fs) \/
  match stream_poll T m s with
  | Ok (o, r') => exists fs', stream_poll_f T m (with_faults fs s) = Ok (o, with_faults fs' r') /\ (working fs -> working fs')
  | Err e => stream_poll_f T m (with_faults fs s) = Err e
  | Panic => stream_poll_f T m (with_faults fs s) = Panic
  end.
Proof.
  destruct s as [r|]; cbn [stream_poll stream_poll_f with_faults option_map]; [|right; exists fs; split; auto].
  unfold stream_next. cbn [snd].
  destruct (stream_next_fuel_f_cases T m (S (length (pr_source r))) fs r) as [(s' & -> & Hn) | H].
  - left. eexists. split; [reflexivity | exact Hn].
  - right. destruct (stream_next_fuel T m _ r) as [[o r']|e|]; cbn [bind]; [|rewrite H; reflexivity|rewrite H; reflexivity].
    destruct H as (fs' & -> & W). exists fs'. split; [|exact W]. cbn [bind]. destruct o as [[p|e]|]; reflexivity.
Qed.

Lemma poll_runs T m : forall s items s', runs (stream_poll T m) s items s' -> forall fs,
    (exists fs', runs (stream_poll_f T m) (with_faults fs s) items (with_faults fs' s')) \/
    (~ working fs /\ exists k t, (k <= length items)%nat /\ runs (stream_poll_f T m) (with_faults fs s) (firstn k items ++ [inr OutOfSpec]) t).
Proof.
  assert (Hend : forall s e t, stream_poll_f T m s = Ok (Some (inr e), t) -> t = None).
  { intros [s|] e t E; cbn [stream_poll_f] in E; [|discriminate].
    destruct (stream_next_fuel_f T m _ s) as [[o s1]|e1|]; cbn [bind] in E; try discriminate. apply Ok_inj in E. injection E as -> <-. reflexivity. }
  induction 1 as [s s' Hn | s s1 a l s' Hn Hr IH]; intros fs; destruct (stream_poll_f_cases T m fs s) as [(t & E & W) | K]; try rewrite Hn in K.
  - right. split; [exact W|]. exists 0%nat. rewrite (Hend _ _ _ E) in E. exists None. split; [auto|]. cbn [firstn app].
    econstructor; [exact E | constructor; reflexivity].
  - left. destruct K as (fs' & E & _). exists fs'. constructor. exact E.
  - right. split; [exact W|]. exists 0%nat. rewrite (Hend _ _ _ E) in E. exists None. split; [cbn; lia|]. cbn [firstn app].
    econstructor; [exact E | constructor; reflexivity].
  - destruct K as (fs1 & E & W). destruct (IH fs1) as [(fs' & R) | (Hn1 & k & t & Hk & R)].
    + left. exists fs'. econstructor; [exact E | exact R].
    + right. split; [tauto|]. exists (S k), t. split; [cbn; lia|]. cbn [firstn app]. econstructor; [exact E | exact R].
Qed.

(** The reader with an index. *)
Lemma page_at_result T start n file pos : exists p, read_page_at_f T start n (mk_drive file pos []) = (mk_drive file p [], read_page_at T file start n).
Proof.
  unfold read_page_at_f. rewrite bind_start.
  match goal with |- context [rbind (read_some n) ?F _] => destruct (bind_some n F file start) as [q ->] end. eexists. reflexivity.
Qed.
Lemma steady_page_at T start n : steady (read_page_at_f T start n).
Proof. unfold read_page_at_f. steady. Qed.

(** One item read from a place. *)
Lemma item_read {A} (f : reader A) file pos fs y : steady f -> (exists p, f (mk_drive file pos []) = (mk_drive file p [], y)) ->
  exists d' x, f (mk_drive file pos fs) = (d', x) /\ dv_file d' = file /\ (working fs -> working (dv_faults d')) /\
    ((x = Err OutOfSpec /\ ~ working fs) \/ x = y).
Proof.
  intros H (p & E). specialize (H file pos fs). rewrite E in H. destruct (f (mk_drive file pos fs)) as [d' x].
  destruct H as (H1 & _ & _ & H2 & [H3 | [H3 _]]); exists d', x; auto.
Qed.

Definition indexed_call (fs : faults) (file : list N) (x : res (option (compressed_page + error) * (drive * indexed_reader)))
  (y : res (option (compressed_page + error) * indexed_reader)) : Prop :=
  match y with
  | Ok (None, r') => exists d', x = Ok (None, (d', r')) /\ dv_file d' = file /\ ir_file r' = file /\ (working fs -> working (dv_faults d'))
  | Ok (Some b, r') => exists a d', x = Ok (Some a, (d', r')) /\ dv_file d' = file /\ ir_file r' = file /\ same_or_error a b /\
      (working fs -> a = b /\ working (dv_faults d'))
  | Err e => x = Err e
  | Panic => x = Panic
  end.

Lemma item_call {fs file d' r'} {x y : res compressed_page} : y <> Panic -> dv_file d' = file -> ir_file r' = file ->
  (working fs -> working (dv_faults d')) -> ((x = Err OutOfSpec /\ ~ working fs) \/ x = y) -> indexed_call fs file (item x (d', r')) (item y r').
Proof.
  intros Hp Hd Hr W [[-> Hn] | ->]; destruct y as [p|e|]; cbn [item indexed_call]; try contradiction;
    eexists _, d'; (split; [reflexivity|]); (split; [exact Hd|]); (split; [exact Hr|]); split; try (left; reflexivity); try (right; reflexivity);
    intros Hw; try contradiction; auto.
Qed.

Lemma page_at_total T file start n : (forall max s, t_dec T max s <> Panic) -> read_page_at T file start n <> Panic.
Proof. intros H. apply H. Qed.

Lemma ir_next_data_f_cases T file pos fs r : (forall max s, t_dec T max s <> Panic) -> ir_file r = file ->
  forall pages, indexed_call fs file (ir_next_data_f T (mk_drive file pos fs) r pages) (ir_next_data T r pages).
Proof.
  intros HT Hr. induction pages as [|page rest IH]; cbn [ir_next_data_f ir_next_data].
  - exists (mk_drive file pos fs). repeat split; auto.
  - destruct (fp_selected page) as [|i sel]; [exact IH|].
    match goal with |- context [rbind (read_page_at_f T ?a ?b) ?F _] =>
      destruct (item_read (rbind (read_page_at_f T a b) F) file pos fs
        (let* (h, data) := read_page_at T (ir_file r) a b in finish_page h data (ir_compression r) (ir_descriptor r) (Some (i :: sel)))) as (d' & x & E & Hd & W & K)
    end.
    + apply steady_bind; [apply steady_page_at | intros [h data]; apply steady_res].
    + destruct (page_at_result T (fp_start page) (fp_length page) file pos) as [p Hp]. exists p. rewrite (bind_by _ _ _ _ _ Hp), Hr.
      destruct (read_page_at T file (fp_start page) (fp_length page)) as [[h data]|e|]; reflexivity.
    + rewrite E. apply item_call; auto. pose proof (page_at_total T (ir_file r) (fp_start page) (fp_length page) HT) as Hp.
      destruct (read_page_at T (ir_file r) (fp_start page) (fp_length page)) as [[h data]|e|]; cbn [bind]; try discriminate; try contradiction.
      apply finish_page_total.
Qed.

Lemma ir_next_f_cases T m file pos fs r : (forall max s, t_dec T max s <> Panic) -> ir_file r = file ->
  indexed_call fs file (ir_next_f T m (mk_drive file pos fs, r)) (ir_next T m r).
Proof.
  intros HT Hr. unfold ir_next_f, ir_next. destruct (ir_state r); [|apply ir_next_data_f_cases; assumption].
  unfold read_dict_f, read_dict. destruct (ir_pages r) as [|page rest] eqn:Ep.
  - cbn [bind]. apply ir_next_data_f_cases; assumption.
  - destruct (usub m 64 (fp_start page) (ir_column_start r)) as [n|e|]; cbn [bind]; [|reflexivity|reflexivity].
    destruct (0 <? n); cbn [bind]; [|apply ir_next_data_f_cases; assumption].
    match goal with |- context [rbind (read_page_at_f T ?a ?b) ?F ?d] =>
      destruct (item_read (rbind (read_page_at_f T a b) F) file pos fs
        (let* (h, data) := read_page_at T (ir_file r) (ir_column_start r) n in
         let* p := finish_page h data (ir_compression r) (ir_descriptor r) None in
         match p with CDict p => Ok (CDict p) | CData _ => Err OutOfSpec end)) as (d' & x & E & Hd & W & K)
    end.
    + apply steady_bind; [apply steady_page_at | intros [h data]]. apply steady_bind; [apply steady_res | intros p; apply steady_res].
    + destruct (page_at_result T (ir_column_start r) n file pos) as [p Hp]. exists p. rewrite (bind_by _ _ _ _ _ Hp), Hr.
      destruct (read_page_at T file (ir_column_start r) n) as [[h data]|e|]; cbn [bind]; [|reflexivity|reflexivity].
      rewrite bind_res. destruct (finish_page h data _ _ None); reflexivity.
    + rewrite E. apply item_call; auto. pose proof (page_at_total T (ir_file r) (ir_column_start r) n HT) as Hp.
      destruct (read_page_at T (ir_file r) (ir_column_start r) n) as [[h data]|e|]; cbn [bind]; try discriminate; try contradiction.
      pose proof (finish_page_total h data (ir_compression r) (ir_descriptor r) None) as Hf.
      destruct (finish_page h data (ir_compression r) (ir_descriptor r) None) as [[p|p]|e|]; cbn [bind]; congruence.
Qed.

Lemma indexed_runs T m file : (forall max s, t_dec T max s <> Panic) ->
  forall r items r', runs (ir_next T m) r items r' -> ir_file r = file -> forall pos fs,
    exists items' d', runs (ir_next_f T m) (mk_drive file pos fs, r) items' (d', r') /\ Forall2 same_or_error items' items /\
      (working fs -> items' = items).
Proof.
  intros HT. induction 1 as [r r' Hn | r r1 b l r' Hn Hr IH]; intros Hf pos fs; pose proof (ir_next_f_cases T m file pos fs r HT Hf) as K; rewrite Hn in K; cbn [indexed_call] in K.
  - destruct K as (d' & E & _). exists [], d'. split; [constructor; exact E|]. split; [constructor | reflexivity].
  - destruct K as (a & [f1 p1 fs1] & E & Hd & Hi & Hs & W). cbn [dv_file dv_faults] in *. subst f1.
    destruct (IH Hi p1 fs1) as (items' & d' & R & F2 & W'). exists (a :: items'), d'. split; [econstructor; [exact E | exact R]|].
    split; [constructor; assumption|]. intros Hw. destruct (W Hw) as [-> Hw1]. rewrite (W' Hw1). reflexivity.
Qed.

(** The scratch buffer does not matter. *)
Lemma next_scratch T m fuel fs r :
  match pr_next_fuel_f T m fuel (fs, r) with
  | Ok (None, _) => exists s, pr_next_fuel_f T m fuel (fs, pr_at r (pr_source r) (pr_seen r) []) = Ok (None, s)
  | x => pr_next_fuel_f T m fuel (fs, pr_at r (pr_source r) (pr_seen r) []) = x
  end.
Proof.
  destruct fuel as [|fuel]; cbn [pr_next_fuel_f]; [reflexivity|].
  replace (pr_total (pr_at r (pr_source r) (pr_seen r) [])) with (pr_total r) by reflexivity.
  replace (pr_seen (pr_at r (pr_source r) (pr_seen r) [])) with (pr_seen r) by reflexivity.
  destruct (pr_total r <=? pr_seen r)%Z; [eexists; reflexivity|].
  replace (build_page_f T m fs (pr_at r (pr_source r) (pr_seen r) [])) with (build_page_f T m fs r) by reflexivity.
  replace (pr_filter (pr_at r (pr_source r) (pr_seen r) [])) with (pr_filter r) by reflexivity.
  replace (pr_descriptor (pr_at r (pr_source r) (pr_seen r) [])) with (pr_descriptor r) by reflexivity.
  destruct (build_page_f T m fs r) as [[[fs1 s1] n1] x].
  replace (pr_at (pr_at r (pr_source r) (pr_seen r) []) s1 n1 []) with (pr_at r s1 n1 []) by reflexivity.
  destruct x as [[p|p]|e|]; try reflexivity. destruct (pr_filter r (pr_descriptor r) (cdp_header p)); [reflexivity|].
  match goal with |- match ?x with _ => _ end => destruct x as [[[?|] ?]|?|] end; try reflexivity. eexists; reflexivity.
Qed.

Lemma drain_scratch T m fs r n : drain (pr_next_f T m) n (fs, pr_at r (pr_source r) (pr_seen r) []) = drain (pr_next_f T m) n (fs, r).
Proof.
  destruct n as [|n]; [reflexivity|]. cbn [drain]. unfold pr_next_f. cbn [snd].
  replace (pr_source (pr_at r (pr_source r) (pr_seen r) [])) with (pr_source r) by reflexivity.
  pose proof (next_scratch T m (S (length (pr_source r))) fs r) as H.
  destruct (pr_next_fuel_f T m (S (length (pr_source r))) (fs, r)) as [[[a|] s]|e|]; try (rewrite H; reflexivity).
  destruct H as [s' ->]. reflexivity.
Qed.
