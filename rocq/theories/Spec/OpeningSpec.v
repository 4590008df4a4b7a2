(** What opening a data page for decoding comes to, from the header's encoding, the column's leaf, and the bytes. *)
From Verif Require Import Base.Prelude Spec.Bits Spec.UlebSpec Model.Types Model.Thrift Model.Native Model.Plain Model.Page Model.Deserialize.
Open Scope N_scope.

(** The page is opened (as a page with nulls, with indices into a dictionary), refused with an error, or opening panics. *)
Inductive opening := Opens (nullable dictionary : bool) | Refuses (e : error) | Crashes.
Definition opened {V P} (r : res (page_state V P)) : opening :=
  match r with
  | Ok (PsOptional _ _) => Opens true false
  | Ok (PsRequired _) => Opens false false
  | Ok (PsRequiredDictionary _) => Opens false true
  | Ok (PsOptionalDictionary _ _) => Opens true true
  | Err e => Refuses e
  | Panic => Crashes
  end.
Definition opened_boolean (r : res boolean_state) : opening :=
  match r with
  | Ok (BsOptional _ _) => Opens true false
  | Ok (BsRequired _ _) => Opens false false
  | Err e => Refuses e
  | Panic => Crashes
  end.

(** The first run of [data] cannot be read at width [w]: its header exceeds 64 bits, its repeated value is cut, or (with
    overflow checks) the size of its groups exceeds 64 bits. *)
Definition first_run_bad (m : mode) (w : nat) (data : list N) : bool :=
  let lead := uleb_lead data in
  let v := base128 lead in
  let body := skipn (length lead) data in
  (0 <? w)%nat &&
  (if (10 <=? length lead)%nat && (1 <? nth 9 data 0) then true
   else (0 <? length body)%nat &&
     if N.odd v then match m with Checked => 2 ^ 64 <=? v / 2 * N.of_nat w | Wrapping => false end
     else (length body <? (w + 7) / 8)%nat).

(** The levels are looked at when opening, unless their maximum is 1. *)
Definition levels_bad (m : mode) (p : data_page) (levels : list N) : bool :=
  let max := d_max_def (dp_descriptor p) in
  negb (max =? 1)%Z && first_run_bad m (N.to_nat (N.size (Z.to_N max))) levels.

(** The four ways to open a page: as numbers, byte strings, byte strings of the declared length, booleans. *)
Inductive view := AsNative (t : native) | AsBinary | AsFixed | AsBoolean.
Definition view_opened {P} (m : mode) (k : view) (p : data_page) (dict : option P) : opening :=
  match k with
  | AsNative t => opened (native_try_new m t p dict)
  | AsBinary => opened (binary_try_new m p dict)
  | AsFixed => opened (fixed_try_new m p dict)
  | AsBoolean => opened_boolean (boolean_try_new m p)
  end.
Definition page_opening (m : mode) (k : view) (p : data_page) (has_dict : bool) (levels values : list N) : opening :=
  let leaf := d_primitive (dp_descriptor p) in
  let nullable := match fi_repetition (pt_info leaf) with Optional => true | _ => false end in
  let bad := nullable && levels_bad m p levels in
  let code := header_encoding (dp_header p) in
  let plain := (code =? 0)%Z in
  let dictionary := (code =? 2)%Z || (code =? 8)%Z in
  let known := ((0 <=? code) && (code <=? 9) && negb (code =? 1))%Z in
  match k, pt_physical leaf with
  | AsFixed, (Boolean | Int32 | Int64 | Int96 | Float | Double | ByteArray) => Refuses InvalidParameter
  | _, physical =>
      if negb known then Crashes
      else if plain then
        if bad then Crashes
        else match k, physical with
             | AsNative t, _ => if (length values mod native_size t =? 0)%nat then Opens nullable false else Refuses OutOfSpec
             | AsFixed, FixedLenByteArray size => if size =? 0 then Crashes else Opens nullable false
             | _, _ => Opens nullable false
             end
      else match k with
           | AsBoolean => Refuses InvalidParameter
           | _ =>
               if dictionary && has_dict then
                 if bad then Crashes
                 else match values with
                      | [] => Crashes
                      | w :: indices =>
                          if 32 <? w then Refuses OutOfSpec
                          else if first_run_bad m (N.to_nat w) indices then Crashes
                          else Opens nullable true
                      end
               else Refuses FeatureNotSupported
           end
  end.
