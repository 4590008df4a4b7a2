(** The order of the values of a column, and bounds of the values of a chunk. *)
From Verif Require Import Base.Prelude Model.Types Model.Native Model.Thrift Model.Statistics Model.Compression Model.Page Model.PageWrite Spec.PlainSpec Spec.StatsSpec Spec.ValuesSpec.
Open Scope N_scope.

(** The order: of numbers, of byte strings (unsigned, lexicographic), and false before true. Floating-point numbers are compared by sign and magnitude.
    The INT96 type has none. *)
Definition value_le (k : kind) : value k -> value k -> Prop :=
  match k as k return value k -> value k -> Prop with
  | KNative NI32 => Z.le
  | KNative NI64 => Z.le
  | KNative NI96 => fun _ _ => False
  | KNative NF32 => fun a b => (float_key 32 a <= float_key 32 b)%Z
  | KNative NF64 => fun a b => (float_key 64 a <= float_key 64 b)%Z
  | KBinary => lex_le
  | KFixed _ => lex_le
  | KBoolean => bool_le
  end.
(** Bounds of pages that are merged rightly: none is a NaN; no byte string is a strict prefix of another one. *)
Definition comparable (k : kind) : list (value k) -> Prop :=
  match k as k return list (value k) -> Prop with
  | KNative NI96 => fun _ => False
  | KNative NF32 => Forall (fun x => float_nan 32 inf32 x = false)
  | KNative NF64 => Forall (fun x => float_nan 64 inf64 x = false)
  | KBinary => fun l => forall x y c, In x l -> In y l -> y = x ++ c -> c = []
  | _ => fun _ => True
  end.

(** The statistics [s] have the bounds [b] for values of the kind [k]. *)
Definition bounds_stated (k : kind) (s : statistics) (b : option (value k) * option (value k)) : Prop :=
  match k as k return option (value k) * option (value k) -> Prop with
  | KNative t => fun b => exists p x, s = SNative t p x /\ b = (st_min x, st_max x)
  | KBinary => fun b => exists p x, s = SBinary p x /\ b = (st_min x, st_max x)
  | KFixed _ => fun b => exists p x, s = SFixed p x /\ b = (st_min x, st_max x)
  | KBoolean => fun b => exists x, s = SBool x /\ b = (st_min x, st_max x)
  end b.
(** There are both bounds and the value is between them. *)
Definition within (k : kind) (b : option (value k) * option (value k)) (v : value k) : Prop :=
  exists lo hi, b = (Some lo, Some hi) /\ value_le k lo v /\ value_le k v hi.

(** Statistics [s] with the bounds [b] that are true of the cells of a page: all values are within the bounds, and the number of nulls is right
    if there is one. *)
Definition nulls {A} (cells : list (option A)) : Z := Z.of_nat (length (filter (fun c => match c with None => true | Some _ => false end) cells)).
Definition honest (k : kind) (s : statistics) (b : option (value k) * option (value k)) (cells : list (option (value k))) : Prop :=
  bounds_stated k s b /\ (forall v, In (Some v) cells -> within k b v) /\ (forall n, stats_null_count s = Some n -> n = nulls cells).
Definition honest_page (k : kind) (p : compressed_page) (x : (option (value k) * option (value k)) * list (option (value k))) : Prop :=
  exists d s, p = CData d /\ cdp_statistics d = Ok (Some s) /\ honest k s (fst x) (snd x).
(** A data page whose statistics have the number of nulls. *)
Definition counts_nulls (p : compressed_page) : Prop :=
  exists d s, p = CData d /\ cdp_statistics d = Ok (Some s) /\ stats_null_count s <> None.
