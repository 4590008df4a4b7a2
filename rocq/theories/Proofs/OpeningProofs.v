(** Proofs about opening data pages. *)
From Verif Require Import Base.Prelude Base.LeFacts Spec.Bits Spec.UlebSpec Spec.PageSpec Spec.OpeningSpec
  Model.Types Model.Thrift Model.Native Model.Plain Model.Page Model.HybridRle Model.Deserialize
  Proofs.TypesFacts Proofs.PageProofs Proofs.HybridRleProofs Proofs.HybridAnyProofs.
Open Scope N_scope.

Lemma ceil8_div w : ceil8 w = ((w + 7) / 8)%nat.
Proof. unfold ceil8. destruct (w mod 8 =? 0)%nat eqn:E; Z.to_euclidean_division_equations; lia. Qed.

Lemma hr_open m data w n : (w <= 32)%nat -> bytes_ok data -> nlen data < 2 ^ 61 ->
  if first_run_bad m w data then hr_try_new m data w n = Panic else exists s, hr_try_new m data w n = Ok s.
Proof.
  intros Hw Hok Hsz. destruct w as [|w].
  - change (first_run_bad m 0 data) with false. cbn iota. destruct (hr_zero_bits m data (N.to_nat n)) as (s & E & _). rewrite N2Nat.id in E. exists s. exact E.
  - pose proof (hr_try_new_panics m data (S w) (N.to_nat n) ltac:(lia) Hok Hsz) as H. cbv zeta in H. rewrite N2Nat.id in H.
    pose proof (proj1 (hr_try_new_any m data (S w) n)) as Hne.
    assert (E : first_run_bad m (S w) data = true <-> hr_try_new m data (S w) n = Panic).
    { rewrite H, ceil8_div. unfold first_run_bad. change (0 <? S w)%nat with true. cbn [andb].
      set (lead := uleb_lead data). set (v := base128 lead). set (body := skipn (length lead) data). clearbody v body.
      destruct ((10 <=? length lead)%nat && (1 <? nth 9 data 0)) eqn:E1.
      - apply andb_true_iff in E1 as [E1 E2]. apply Nat.leb_le in E1. apply N.ltb_lt in E2. split; [intros _; left; split; assumption|reflexivity].
      - assert (Hn : ~ ((10 <= length lead)%nat /\ 1 < nth 9 data 0)).
        { intros [H1 H2]. apply Nat.leb_le in H1. apply N.ltb_lt in H2. rewrite H1, H2 in E1. discriminate. }
        assert (Hb : (0 <? length body)%nat = true <-> body <> []) by (destruct body; cbn; split; congruence).
        rewrite andb_true_iff, Hb. destruct (N.odd v) eqn:Ev.
        + destruct m.
          * rewrite N.leb_le. split; [intros [H1 H2]; right; split; [exact Hn|]; split; [exact H1|]; right; auto|].
            intros [H1|(_ & H1 & [[H2 _]|(_ & _ & H2)])]; [contradiction|discriminate|auto].
          * split; [intros [_ H1]; discriminate|]. intros [H1|(_ & H1 & [[H2 _]|(_ & H2 & _)])]; [contradiction|discriminate|discriminate].
        + rewrite Nat.ltb_lt. split; [intros [H1 H2]; right; split; [exact Hn|]; split; [exact H1|]; left; auto|].
          intros [H1|(_ & H1 & [[_ H2]|(H2 & _)])]; [contradiction|auto|discriminate]. }
    destruct (first_run_bad m (S w) data); [apply E; reflexivity|].
    destruct (hr_try_new m data (S w) n) as [s|e|]; [exists s; reflexivity|exfalso; eapply Hne; reflexivity|]. destruct E as [_ E]. discriminate (E eq_refl).
Qed.

Lemma get_bit_width_size z : (0 <= z < 2 ^ 15)%Z -> get_bit_width z = N.size (Z.to_N z) /\ N.size (Z.to_N z) <= 15.
Proof.
  intro Hz. change (2 ^ 15)%Z with 32768%Z in Hz. unfold get_bit_width, leading_zeros16, of_signed. change (2 ^ Z.of_N 16)%Z with 65536%Z.
  rewrite Z.mod_small by lia.
  assert (N.size (Z.to_N z) <= 15); [|lia].
  destruct (N.eq_dec (Z.to_N z) 0) as [->|Hn]; [cbn; lia|].
  rewrite N.size_log2 by exact Hn. assert (N.log2 (Z.to_N z) < 15); [|lia].
  apply N.log2_lt_pow2; [lia|]. change (2 ^ 15) with 32768. lia.
Qed.

Section Page.
Context (m : mode) (p : data_page) (rep def values : list N).
Context (Hp : page_parts p rep def values) (Hok : bytes_ok def) (Hokv : bytes_ok values) (Hd : nlen def < 2 ^ 61) (Hv : nlen values < 2 ^ 61).
Context (Hmax : (0 <= d_max_def (dp_descriptor p) < 2 ^ 15)%Z).

Lemma levels_open : if levels_bad m p def then dl_try_new m p = Panic else exists v, dl_try_new m p = Ok v.
Proof.
  unfold levels_bad, dl_try_new. rewrite (split_parts m p _ _ _ Hp). cbn [bind]. destruct (_ =? 1)%Z; cbn [negb andb]; [eexists; reflexivity|].
  destruct (get_bit_width_size _ Hmax) as [-> Hle]. 
  pose proof (hr_open m def (N.to_nat (N.size (Z.to_N (d_max_def (dp_descriptor p))))) (dp_num_values p) ltac:(lia) Hok Hd) as H.
  destruct (first_run_bad _ _ _); [rewrite H; reflexivity|]. destruct H as [s ->]. eexists. reflexivity.
Qed.

Lemma indices_open {P} (d : P) :
  match values with
  | [] => dy_try_new m p d = Panic
  | w :: indices => if 32 <? w then dy_try_new m p d = Err OutOfSpec
      else if first_run_bad m (N.to_nat w) indices then dy_try_new m p d = Panic else exists s, dy_try_new m p d = Ok s
  end.
Proof.
  unfold dy_try_new, dict_indices_decoder. rewrite (split_parts m p _ _ _ Hp). cbn [bind]. destruct values as [|w indices]; [reflexivity|].
  destruct (32 <? w) eqn:Ew; [reflexivity|]. apply N.ltb_ge in Ew.
  pose proof (hr_open m indices (N.to_nat w) (dp_num_values p) ltac:(lia)) as H.
  assert (Hi : bytes_ok indices) by (inversion Hokv; assumption). assert (Hl : nlen indices < 2 ^ 61) by (eapply N.le_lt_trans; [|exact Hv]; unfold nlen; cbn [length]; lia).
  specialize (H Hi Hl). destruct (first_run_bad _ _ _); [rewrite H; reflexivity|]. destruct H as [s ->]. eexists. reflexivity.
Qed.

Lemma view_opening {P} (k : view) (dict : option P) :
  view_opened m k p dict = page_opening m k p (match dict with Some _ => true | None => false end) def values.
Proof.
  pose proof levels_open as HL. unfold page_opening. set (leaf := d_primitive (dp_descriptor p)).
  assert (Eopt : is_optional p = match fi_repetition (pt_info leaf) with Optional => true | _ => false end) by reflexivity.
  rewrite <- Eopt. clear Eopt. set (opt := is_optional p).
  assert (HE : dp_encoding p = match header_encoding (dp_header p) with
     | 0 => Ok EPlain | 2 => Ok EPlainDictionary | 3 => Ok ERle | 4 => Ok EBitPacked | 5 => Ok EDeltaBinaryPacked | 6 => Ok EDeltaLengthByteArray
     | 7 => Ok EDeltaByteArray | 8 => Ok ERleDictionary | 9 => Ok EByteStreamSplit | _ => Panic end%Z).
  { unfold dp_encoding, encoding_of_thrift. destruct (header_encoding (dp_header p)) as [|[[[[]|[]|]|[[]|[]|]|]|[[[]|[]|]|[[]|[]|]|]|]|]; reflexivity. }
  set (code := header_encoding (dp_header p)) in *. clearbody code.
  pose proof (split_parts m p _ _ _ Hp) as HS.
  assert (Hsize : forall t, native_size t <> 0%nat) by (intros []; discriminate).
  assert (HB : umul m 64 (nlen values) 8 = Ok (nlen values * 8)).
  { unfold umul. change (2 ^ 61) with 2305843009213693952 in Hv. replace (nlen values * 8 <? 2 ^ 64) with true; [reflexivity|].
    symmetry. apply N.ltb_lt. change (2 ^ 64) with 18446744073709551616. lia. }
  assert (HC : if negb ((0 <=? code) && (code <=? 9) && negb (code =? 1))%Z then dp_encoding p = Panic
     else if (code =? 0)%Z then dp_encoding p = Ok EPlain
     else if (code =? 2)%Z || (code =? 8)%Z then dp_encoding p = Ok EPlainDictionary \/ dp_encoding p = Ok ERleDictionary
     else exists e, dp_encoding p = Ok e /\ e <> EPlain /\ e <> EPlainDictionary /\ e <> ERleDictionary).
  { rewrite HE. destruct code as [|[[[[]|[]|]|[[]|[]|]|]|[[[]|[]|]|[[]|[]|]|]|]|]; vm_compute; try reflexivity; try (left; reflexivity); try (right; reflexivity);
      eexists; repeat split; discriminate. }
  clear HE. destruct (negb ((0 <=? code) && (code <=? 9) && negb (code =? 1))%Z).
  { unfold view_opened, native_try_new, binary_try_new, fixed_try_new, boolean_try_new. rewrite HC. cbn [bind opened opened_boolean]. fold leaf.
    destruct k; try reflexivity; destruct (pt_physical leaf); reflexivity. }
  destruct (code =? 0)%Z.
  - unfold view_opened, native_try_new, binary_try_new, fixed_try_new, boolean_try_new. rewrite HC. fold leaf. fold opt. cbn [bind].
    destruct k as [t| | |].
    + unfold native_cast, cast_new, ce_new. pose proof (Hsize t) as Hs. apply Nat.eqb_neq in Hs. destruct opt; cbn [andb].
      * destruct (levels_bad m p def); [rewrite HL; reflexivity|destruct HL as [v ->]]. cbn [bind]. rewrite HS. cbn [bind]. rewrite Hs. destruct (length values mod native_size t =? 0)%nat; reflexivity.
      * rewrite HS. cbn [bind]. rewrite Hs. destruct (length values mod native_size t =? 0)%nat; reflexivity.
    + destruct opt; cbn [andb]; rewrite HS; cbn [bind]; [|reflexivity]. destruct (levels_bad m p def); [rewrite HL; reflexivity|destruct HL as [v ->]]. reflexivity.
    + destruct (pt_physical leaf) as [| | | | | | |size]; try reflexivity. unfold fl_new, ce_new.
      assert (Hz : (N.to_nat size =? 0)%nat = (size =? 0)) by (destruct (N.eqb_spec size 0) as [->|Hn]; [reflexivity|apply Nat.eqb_neq; lia]).
      destruct opt; cbn [andb]; rewrite HS; cbn [bind]; [destruct (levels_bad m p def); [rewrite HL; reflexivity|destruct HL as [v ->]]; cbn [bind]|]; rewrite Hz; destruct (size =? 0); reflexivity.
    + destruct opt; cbn [andb]; [destruct (levels_bad m p def); [rewrite HL; reflexivity|destruct HL as [v ->]]; cbn [bind]|]; rewrite HS; cbn [bind]; try rewrite HB; reflexivity.
  - destruct ((code =? 2)%Z || (code =? 8)%Z).
    + unfold view_opened, native_try_new, binary_try_new, fixed_try_new, boolean_try_new. fold leaf. fold opt.
      destruct dict as [d|].
      2:{ destruct HC as [-> | ->]; cbn [bind andb]; destruct k; try reflexivity; destruct (pt_physical leaf); reflexivity. }
      pose proof (indices_open d) as HI. cbn [andb].
      assert (HD : forall V, opened (if opt then let* v := dl_try_new m p in let* d := dy_try_new m p d in Ok (PsOptionalDictionary (V := V) v d)
                       else let* d := dy_try_new m p d in Ok (PsRequiredDictionary d)) =
           (if opt && levels_bad m p def then Crashes
            else match values with [] => Crashes | w :: indices => if 32 <? w then Refuses OutOfSpec else if first_run_bad m (N.to_nat w) indices then Crashes else Opens opt true end)).
      { intro V. destruct opt; cbn [andb]; [destruct (levels_bad m p def); [rewrite HL; reflexivity|destruct HL as [v ->]]; cbn [bind]|];
        (destruct values as [|w indices]; [rewrite HI; reflexivity|]; destruct (32 <? w); [rewrite HI; reflexivity|]; destruct (first_run_bad _ _ _); [rewrite HI; reflexivity|]; destruct HI as [s ->]; reflexivity). }
      destruct k as [t| | |].
      * rewrite <- (HD (list N * nat)%type). destruct HC as [-> | ->]; cbn [bind]; destruct opt; reflexivity.
      * rewrite <- (HD binary_iter). destruct HC as [-> | ->]; cbn [bind]; destruct opt; reflexivity.
      * destruct (pt_physical leaf) as [| | | | | | |size]; try reflexivity. rewrite <- (HD (list N * nat)%type). destruct HC as [-> | ->]; cbn [bind]; destruct opt; reflexivity.
      * destruct HC as [-> | ->]; reflexivity.
    + destruct HC as (e & HC & H1 & H2 & H3). unfold view_opened, native_try_new, binary_try_new, fixed_try_new, boolean_try_new. rewrite HC. fold leaf. fold opt. cbn [bind].
      destruct e; try congruence; destruct k; try reflexivity; destruct (pt_physical leaf); reflexivity.
Qed.
End Page.
