(** Model of /repo/src/deserialize/. Iterators are state machines; an item of a Rust iterator over
    [Result] is [A + error], where [inr] is an [Err] item. *)
From Verif Require Import Base.Prelude Base.Iter Model.Types Model.Native Model.Thrift Model.Intervals
  Model.Uleb128 Model.Bitpacked Model.HybridRle Model.Plain Model.Page.
Open Scope N_scope.

(** deserialize/hybrid_rle.rs:7-13 [HybridEncoded]. *)
Inductive level_run :=
| RBitmap (values : list N) (length_ : N)
| RRepeated (is_set : bool) (length_ : N).
(** deserialize/hybrid_rle.rs:18-23 [len]. *)
Definition run_len (r : level_run) : N :=
  match r with RBitmap _ n => n | RRepeated _ n => n end.

(** deserialize/hybrid_rle.rs:39-46 [HybridRleIter] over [hybrid_rle::Decoder]. *)
Record runs_iter := mk_ri { ri_iter : rle_decoder; ri_length : N; ri_consumed : N }.
(** deserialize/hybrid_rle.rs:54-60 [new]. *)
Definition ri_new (d : rle_decoder) (length_ : N) : runs_iter := mk_ri d length_ 0.
(** deserialize/hybrid_rle.rs:64-66 [len]. *)
Definition ri_len (s : runs_iter) : N := ri_length s - ri_consumed s.

(** deserialize/hybrid_rle.rs:90-115 [next]. The decoder underneath has no [Err] items (see [rle_next]).
    [consumed] never exceeds [length], so the subtraction in [len] and the addition do not overflow. *)
Definition ri_next (m : mode) (s : runs_iter) : res (option (level_run + error) * runs_iter) :=
  if ri_consumed s =? ri_length s then Ok (None, s)
  else
    let* (o, d) := rle_next m (ri_iter s) in
    match o with
    | None => Ok (None, mk_ri d (ri_length s) (ri_consumed s))
    | Some (HBitpacked pack) =>
        let* pack_size := umul m 64 (nlen pack) 8 in
        let additional := N.min pack_size (ri_len s) in
        Ok (Some (inl (RBitmap pack additional)), mk_ri d (ri_length s) (ri_consumed s + additional))
    | Some (HRle value length_) =>
        match value with
        | [] => Panic                                                   (* value[0] *)
        | b :: _ =>
            let additional := N.min length_ (ri_len s) in
            Ok (Some (inl (RRepeated (b =? 1) additional)), mk_ri d (ri_length s) (ri_consumed s + additional))
        end
    end.

(** deserialize/hybrid_rle.rs:126-132 [HybridBooleanState], over any run iterator. *)
Inductive bool_run := BBitmap (b : bitmap_iter) | BRepeated (value : bool) (remaining : N).
(** deserialize/hybrid_rle.rs:137-143 [HybridRleBooleanIter]. *)
Record bool_iter (S : Type) := mk_bli { bl_iter : S; bl_current : option bool_run }.
Arguments mk_bli {S}. Arguments bl_iter {S}. Arguments bl_current {S}.
(** deserialize/hybrid_rle.rs:149-154 [new]. *)
Definition bl_new {S} (s : S) : bool_iter S := mk_bli s None.

(** deserialize/hybrid_rle.rs:165-175. *)
Definition bool_run_next (r : bool_run) : res (option bool * bool_run) :=
  match r with
  | BBitmap b => let* (o, b) := bm_next b in Ok (o, BBitmap b)
  | BRepeated v n => if n =? 0 then Ok (None, r) else Ok (Some v, BRepeated v (n - 1))
  end.
(** deserialize/hybrid_rle.rs:177-184. *)
Definition bool_run_of (r : level_run) : res bool_run :=
  match r with
  | RBitmap bytes n => let* b := bm_new bytes 0 n in Ok (BBitmap b)
  | RRepeated v n => Ok (BRepeated v n)
  end.
(** deserialize/hybrid_rle.rs:164-195 [next]; after fetching a run it calls itself once, which then takes the first branch. *)
Definition bl_next {S} (next : S -> res (option (level_run + error) * S)) (s : bool_iter S)
    : res (option (bool + error) * bool_iter S) :=
  match bl_current s with
  | Some r =>
      let* (o, r) := bool_run_next r in
      Ok (option_map inl o, mk_bli (bl_iter s) (Some r))
  | None =>
      let* (o, i) := next (bl_iter s) in
      match o with
      | None => Ok (None, mk_bli i None)
      | Some (inr e) => Ok (Some (inr e), mk_bli i None)
      | Some (inl run) =>
          let* r := bool_run_of run in
          let* (o, r) := bool_run_next r in
          Ok (option_map inl o, mk_bli i (Some r))
      end
  end.

(** deserialize/hybrid_rle.rs:197-201 [size_hint], over [HybridRleIter]; 82-84 [number_of_elements]. *)
Definition bl_size_hint (s : bool_iter runs_iter) : N := ri_len (bl_iter s).

(** deserialize/utils.rs:80-84 [next]; 63-66 [OptionalValues] over any validity and value iterators. *)
Definition ov_next {S T A} (vnext : S -> res (option (bool + error) * S)) (next : T -> res (option A * T)) (s : S * T)
    : res (option (option A + error) * (S * T)) :=
  let* (o, v) := vnext (fst s) in
  match o with
  | None => Ok (None, (v, snd s))
  | Some (inr e) => Ok (Some (inr e), (v, snd s))
  | Some (inl true) => let* (x, t) := next (snd s) in Ok (Some (inl x), (v, t))
  | Some (inl false) => Ok (Some (inl None), (v, snd s))
  end.

(** deserialize/utils.rs:86-89 [size_hint], for the validity of optional pages. *)
Definition ov_size_hint {T} (s : bool_iter runs_iter * T) : N := bl_size_hint (fst s).

(** deserialize/utils.rs:129, called by [SliceFilteredIter::next]. [Iterator::nth(n)]: skip [n] items, return the next; stops at the first [None]. *)
Fixpoint iter_nth {S A} (next : S -> res (option A * S)) (n : nat) (s : S) : res (option A * S) :=
  match n with
  | O => next s
  | Datatypes.S k =>
      let* (o, s) := next s in
      match o with None => Ok (None, s) | Some _ => iter_nth next k s end
  end.

(** deserialize/utils.rs:98-104 [SliceFilteredIter], 108-119 [new]: the lengths are summed in [usize]. *)
Record slice_iter (S : Type) := mk_sl {
  sl_iter : S;
  sl_rows : list interval;
  sl_current_remaining : N;
  sl_current : N;
  sl_total : N
}.
Arguments mk_sl {S}. Arguments sl_iter {S}. Arguments sl_rows {S}.
Arguments sl_current_remaining {S}. Arguments sl_current {S}. Arguments sl_total {S}.
(** deserialize/utils.rs:109: [iter().map(|x| x.length).sum()]. *)
Fixpoint sum_lengths (m : mode) (acc : N) (l : list interval) : res N :=
  match l with
  | [] => Ok acc
  | i :: r => let* acc := uadd m 64 acc (iv_length i) in sum_lengths m acc r
  end.
(** deserialize/utils.rs:108-117 [new]. *)
Definition sl_new {S} (m : mode) (s : S) (rows : list interval) : res (slice_iter S) :=
  let* total := sum_lengths m 0 rows in Ok (mk_sl s rows 0 0 total).

(** deserialize/utils.rs:124-142 [next]. *)
Definition sl_next {S A} (m : mode) (next : S -> res (option A * S)) (s : slice_iter S) : res (option A * slice_iter S) :=
  if sl_current_remaining s =? 0 then
    match sl_rows s with
    | i :: rows =>
        let* skip := usub m 64 (iv_start i) (sl_current s) in
        let* (item, it) := iter_nth next (N.to_nat skip) (sl_iter s) in
        let* current := uadd m 64 (iv_start i) (iv_length i) in
        let* remaining := usub m 64 (iv_length i) 1 in
        let* total := usub m 64 (sl_total s) 1 in
        Ok (item, mk_sl it rows remaining current total)
    | [] => Ok (None, s)
    end
  else
    let* total := usub m 64 (sl_total s) 1 in
    let* (item, it) := next (sl_iter s) in
    Ok (item, mk_sl it (sl_rows s) (sl_current_remaining s - 1) (sl_current s) total).
(** deserialize/utils.rs:145-147 [size_hint]. *)
Definition sl_size_hint {S} (s : slice_iter S) : N := sl_total s.

(** deserialize/filtered_rle.rs:15-28 [FilteredHybridEncoded]. *)
Inductive filtered_run :=
| FBitmap (values : list N) (offset : N) (length_ : N)
| FRepeated (is_set : bool) (length_ : N)
| FSkipped (set : N).
(** deserialize/filtered_rle.rs:39-45 [len]. *)
Definition filtered_len (r : filtered_run) : N :=
  match r with FBitmap _ _ n => n | FRepeated _ n => n | FSkipped _ => 0 end.

(** deserialize/filtered_rle.rs:31-33. Counting the set items of an iterator ([filter(|x| *x).count()]); fuel is the iterator's own length. *)
Fixpoint count_set (fuel : nat) (s : bitmap_iter) : res N :=
  match fuel with
  | O => Ok 0
  | S f =>
      let* (o, s) := bm_next s in
      match o with
      | None => Ok 0
      | Some b => let* n := count_set f s in Ok (if b then n + 1 else n)
      end
  end.
(** deserialize/filtered_rle.rs:30-34 [is_set_count]. *)
Definition is_set_count (values : list N) (offset length_ : N) : res N :=
  let* b := bm_new values (N.to_nat offset) length_ in count_set (N.to_nat length_) b.

(** deserialize/filtered_rle.rs:57-67 [FilteredHybridBitmapIter] over any run iterator; 70-80 [new]; 92-94 [len]. *)
Record filtered_iter (S : Type) := mk_fh {
  fh_iter : S;
  fh_current : option (level_run * N);
  fh_interval : option interval;
  fh_rows : list interval;
  fh_items : N;
  fh_total : N
}.
Arguments mk_fh {S}. Arguments fh_iter {S}. Arguments fh_current {S}. Arguments fh_interval {S}.
Arguments fh_rows {S}. Arguments fh_items {S}. Arguments fh_total {S}.
(** deserialize/filtered_rle.rs:70-80 [new]. *)
Definition fh_new {S} (m : mode) (s : S) (rows : list interval) : res (filtered_iter S) :=
  let* total := sum_lengths m 0 rows in Ok (mk_fh s None None rows 0 total).
(** deserialize/filtered_rle.rs:92-94 [len]. *)
Definition fh_len {S} (s : filtered_iter S) : N := fh_total s.

(** deserialize/filtered_rle.rs:111, 181, 247. [pop_front]. *)
Definition pop {A} (l : list A) : option A * list A :=
  match l with [] => (None, []) | a :: r => (Some a, r) end.

(** deserialize/filtered_rle.rs:82-88 [advance_current_interval], here on the interval in hand. *)
Definition advance_interval (m : mode) (i : interval) (length_ total : N) : res (interval * N) :=
  let* start := uadd m 64 (iv_start i) length_ in
  let* len := usub m 64 (iv_length i) length_ in
  let* total := usub m 64 total length_ in
  Ok (mk_iv start len, total).

(** deserialize/filtered_rle.rs:135-271: the part of [next] after an interval and a run are in hand. The two arms of the
    Rust [match] differ in how set items are counted ([count offset length]) and in the run emitted
    ([emit offset length]); everything else is the same text. *)
Definition fh_step {S} (m : mode) (s : filtered_iter S) (iv : interval) (run : level_run) (offset : N)
    (full_run_length : N) (count : N -> N -> res N) (skip_all : res N) (emit : N -> N -> filtered_run)
    : res (option (filtered_run + error) * filtered_iter S) :=
  let* run_length := usub m 64 full_run_length offset in
  let* interval_start := usub m 64 (iv_start iv) (fh_items s) in
  if 0 <? interval_start then
    let* max_skip := usub m 64 full_run_length offset in
    let to_skip := N.min interval_start max_skip in
    let* set := count offset to_skip in
    let* items := uadd m 64 (fh_items s) to_skip in
    let* offset' := uadd m 64 offset to_skip in
    let current := if to_skip =? max_skip then None else Some (run, offset') in
    Ok (Some (inl (FSkipped set)), mk_fh (fh_iter s) current (Some iv) (fh_rows s) items (fh_total s))
  else
    let* new_offset := uadd m 64 offset interval_start in
    if run_length <? interval_start then
      let* set := skip_all in
      let* (iv', total) := advance_interval m iv run_length (fh_total s) in
      let* items := uadd m 64 (fh_items s) run_length in
      Ok (Some (inl (FSkipped set)), mk_fh (fh_iter s) None (Some iv') (fh_rows s) items total)
    else if iv_length iv <? run_length then
      let* items := uadd m 64 (fh_items s) (iv_length iv) in
      let* total := usub m 64 (fh_total s) (iv_length iv) in
      let* offset' := uadd m 64 offset (iv_length iv) in
      let (next_iv, rows) := pop (fh_rows s) in
      Ok (Some (inl (emit new_offset (iv_length iv))),
          mk_fh (fh_iter s) (Some (run, offset')) next_iv rows items total)
    else
      let* items := uadd m 64 (fh_items s) run_length in
      let* rest := usub m 64 full_run_length new_offset in
      let length_ := N.min run_length rest in
      let* (iv', total) := advance_interval m iv length_ (fh_total s) in
      Ok (Some (inl (emit new_offset length_)), mk_fh (fh_iter s) None (Some iv') (fh_rows s) items total).

(** deserialize/filtered_rle.rs:135-271: both arms of the match, with what they have in common in [fh_step]. *)
Definition fh_body {S} (m : mode) (s : filtered_iter S) (iv : interval) (run : level_run) (offset : N)
    : res (option (filtered_run + error) * filtered_iter S) :=
  match run with
  | RRepeated is_set full =>
      fh_step m s iv run offset full (fun _ n => Ok (if is_set then n else 0))
        (let* run_length := usub m 64 full offset in Ok (if is_set then run_length else 0))
        (fun _ n => FRepeated is_set n)
  | RBitmap values full =>
      fh_step m s iv run offset full (is_set_count values)
        (is_set_count values offset full)
        (fun o n => FBitmap values o n)
  end.

(** deserialize/filtered_rle.rs:107-133 [next]: an interval is fetched first, then a run; each time [next] calls itself. *)
Definition fh_next {S} (m : mode) (next : S -> res (option (level_run + error) * S)) (s : filtered_iter S)
    : res (option (filtered_run + error) * filtered_iter S) :=
  let (iv, rows) := match fh_interval s with Some i => (Some i, fh_rows s) | None => pop (fh_rows s) end in
  match iv with
  | None => Ok (None, mk_fh (fh_iter s) (fh_current s) None rows (fh_items s) (fh_total s))
  | Some iv =>
      match fh_current s with
      | Some (run, offset) =>
          fh_body m (mk_fh (fh_iter s) (fh_current s) (Some iv) rows (fh_items s) (fh_total s)) iv run offset
      | None =>
          let* (o, i) := next (fh_iter s) in
          match o with
          | None => Ok (None, mk_fh i None (Some iv) rows (fh_items s) (fh_total s))
          | Some (inr e) => Ok (Some (inr e), mk_fh i None (Some iv) rows (fh_items s) (fh_total s))
          | Some (inl run) =>
              fh_body m (mk_fh i (Some (run, 0)) (Some iv) rows (fh_items s) (fh_total s)) iv run 0
          end
      end
  end.

(** deserialize/utils.rs:13-27 [dict_indices_decoder]. *)
Definition dict_indices_decoder (m : mode) (p : data_page) : res hr_decoder :=
  let* (_, _, indices) := split_buffer m p in
  match indices with
  | [] => Panic
  | bit_width :: rest =>
      if 32 <? bit_width then Err OutOfSpec
      else hr_try_new m rest (N.to_nat bit_width) (dp_num_values p)
  end.

(** deserialize/utils.rs:31-38 [DefLevelsDecoder]; [max_def_level as u32] sign-extends. *)
Inductive def_levels :=
| DBitmap (i : runs_iter)
| DLevels (d : hr_decoder) (max : N).
(** deserialize/utils.rs:41-57 [try_new]; [max_def_level as u32] sign-extends. *)
Definition dl_try_new (m : mode) (p : data_page) : res def_levels :=
  let* (_, def, _) := split_buffer m p in
  let max := d_max_def (dp_descriptor p) in
  if (max =? 1)%Z then Ok (DBitmap (ri_new (mk_rle def 1) (dp_num_values p)))
  else
    let* d := hr_try_new m def (N.to_nat (get_bit_width max)) (dp_num_values p) in
    Ok (DLevels d (of_signed 32 max)).

(** deserialize/native.rs:28-32, deserialize/binary.rs:11-14, deserialize/fixed_len.rs:38-41 [Dictionary]; [len] is [indexes.size_hint().0]. *)
Record dictionary (P : Type) := mk_dictionary { dy_indexes : hr_decoder; dy_dict : P }.
Arguments mk_dictionary {P}. Arguments dy_indexes {P}. Arguments dy_dict {P}.
(** deserialize/native.rs:35-39, deserialize/binary.rs:17-21, deserialize/fixed_len.rs:44-48 [try_new]. *)
Definition dy_try_new {P} (m : mode) (p : data_page) (dict : P) : res (dictionary P) :=
  let* indexes := dict_indices_decoder m p in Ok (mk_dictionary indexes dict).
(** deserialize/native.rs:41-43, deserialize/binary.rs:24-26, deserialize/fixed_len.rs:51-53 [len]. *)
Definition dy_len {P} (d : dictionary P) : N := hr_size_hint (dy_indexes d).

(** deserialize/native.rs:73-74, deserialize/binary.rs:39-40, deserialize/fixed_len.rs:66-67. *)
Definition is_optional (p : data_page) : bool :=
  match fi_repetition (pt_info (d_primitive (dp_descriptor p))) with Optional => true | _ => false end.

(** deserialize/native.rs:54-66, deserialize/binary.rs:30-35, deserialize/fixed_len.rs:57-62. The states of a page; [V] is the state of the iterator over plain values.
    deserialize/native.rs:52-66, deserialize/binary.rs:32-37, deserialize/fixed_len.rs:56-61. *)
Inductive page_state (V P : Type) :=
| PsOptional (validity : def_levels) (values : V)
| PsRequired (values : V)
| PsRequiredDictionary (d : dictionary P)
| PsOptionalDictionary (validity : def_levels) (d : dictionary P).
Arguments PsOptional {V P}. Arguments PsRequired {V P}.
Arguments PsRequiredDictionary {V P}. Arguments PsOptionalDictionary {V P}.

(** deserialize/native.rs:15-26 [native_cast]. *)
Definition native_cast (m : mode) (t : native) (p : data_page) : res (list N * nat) :=
  let* (_, _, values) := split_buffer m p in cast_new t values.

(** deserialize/native.rs:72-99 [NativePageState::try_new]. *)
Definition native_try_new {P} (m : mode) (t : native) (p : data_page) (dict : option P) : res (page_state (list N * nat) P) :=
  let* e := dp_encoding p in
  match e, dict, is_optional p with
  | EPlainDictionary, Some d, false | ERleDictionary, Some d, false =>
      let* d := dy_try_new m p d in Ok (PsRequiredDictionary d)
  | EPlainDictionary, Some d, true | ERleDictionary, Some d, true =>
      let* v := dl_try_new m p in let* d := dy_try_new m p d in Ok (PsOptionalDictionary v d)
  | EPlain, _, true =>
      let* v := dl_try_new m p in let* values := native_cast m t p in Ok (PsOptional v values)
  | EPlain, _, false => let* values := native_cast m t p in Ok (PsRequired values)
  | _, _, _ => Err FeatureNotSupported
  end.

(** deserialize/binary.rs:38-71 [BinaryPageState::try_new]. *)
Definition binary_try_new {P} (m : mode) (p : data_page) (dict : option P) : res (page_state binary_iter P) :=
  let* e := dp_encoding p in
  match e, dict, is_optional p with
  | EPlainDictionary, Some d, false | ERleDictionary, Some d, false =>
      let* d := dy_try_new m p d in Ok (PsRequiredDictionary d)
  | EPlainDictionary, Some d, true | ERleDictionary, Some d, true =>
      let* v := dl_try_new m p in let* d := dy_try_new m p d in Ok (PsOptionalDictionary v d)
  | EPlain, _, true =>
      let* (_, _, values) := split_buffer m p in
      let* v := dl_try_new m p in Ok (PsOptional v (mk_bi values None))
  | EPlain, _, false =>
      let* (_, _, values) := split_buffer m p in Ok (PsRequired (mk_bi values (Some (dp_num_values p))))
  | _, _, _ => Err FeatureNotSupported
  end.

(** deserialize/fixed_len.rs:65-109 [FixedLenBinaryPageState::try_new]. *)
Definition fixed_try_new {P} (m : mode) (p : data_page) (dict : option P) : res (page_state (list N * nat) P) :=
  match pt_physical (d_primitive (dp_descriptor p)) with
  | FixedLenByteArray size =>
      let* e := dp_encoding p in
      match e, dict, is_optional p with
      | EPlainDictionary, Some d, false | ERleDictionary, Some d, false =>
          let* d := dy_try_new m p d in Ok (PsRequiredDictionary d)
      | EPlainDictionary, Some d, true | ERleDictionary, Some d, true =>
          let* v := dl_try_new m p in let* d := dy_try_new m p d in Ok (PsOptionalDictionary v d)
      | EPlain, _, true =>
          let* (_, _, values) := split_buffer m p in
          let* v := dl_try_new m p in
          let* values := fl_new values size in Ok (PsOptional v values)
      | EPlain, _, false =>
          let* (_, _, values) := split_buffer m p in
          let* values := fl_new values size in Ok (PsRequired values)
      | _, _, _ => Err FeatureNotSupported
      end
  | _ => Err InvalidParameter
  end.

(** deserialize/boolean.rs:13-16 [BooleanPageState], 18-41 [try_new]. *)
Inductive boolean_state :=
| BsOptional (validity : def_levels) (values : bitmap_iter)
| BsRequired (values : list N) (num_values : N).
(** deserialize/boolean.rs:19-41 [try_new]. *)
Definition boolean_try_new (m : mode) (p : data_page) : res boolean_state :=
  let* e := dp_encoding p in
  match e, is_optional p with
  | EPlain, true =>
      let* v := dl_try_new m p in
      let* (_, _, values) := split_buffer m p in
      let* bits := umul m 64 (nlen values) 8 in
      let* b := bm_new values 0 bits in
      Ok (BsOptional v b)
  | EPlain, false =>
      let* (_, _, values) := split_buffer m p in Ok (BsRequired values (dp_num_values p))
  | _, _ => Err InvalidParameter
  end.
