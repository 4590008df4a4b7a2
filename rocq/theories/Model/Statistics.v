(** Model of /repo/src/statistics/ (typed statistics and their thrift form) and of
    /repo/src/write/statistics.rs (reducing page statistics to column-chunk statistics). *)
From Verif Require Import Base.Prelude Model.Types Model.Native Model.Thrift.
Open Scope Z_scope.

(** statistics/primitive.rs:11-17, statistics/binary.rs:12-18, statistics/boolean.rs:12-17 and statistics/fixed_len_binary.rs:12-18.
    The fields common to the four structs. *)
Record stats_of (A : Type) := mk_st {
  st_null_count : option Z;
  st_distinct_count : option Z;
  st_max : option A;
  st_min : option A
}.
Arguments mk_st {A}.
Arguments st_null_count {A}.
Arguments st_distinct_count {A}.
Arguments st_max {A}.
Arguments st_min {A}.

(** statistics/mod.rs:20-26. [dyn Statistics]: its implementations [BooleanStatistics], [PrimitiveStatistics<T>],
    [BinaryStatistics] and [FixedLenStatistics]. *)
Inductive statistics :=
| SBool (s : stats_of bool)
| SNative (t : native) (p : primitive_type) (s : stats_of (carrier t))
| SBinary (p : primitive_type) (s : stats_of (list N))
| SFixed (p : primitive_type) (s : stats_of (list N)).

(** statistics/primitive.rs:24-26, statistics/binary.rs:25-27, statistics/boolean.rs:24-26 and statistics/fixed_len_binary.rs:25-27.
    The [physical_type] methods. *)
Definition stats_physical (s : statistics) : physical_type :=
  match s with
  | SBool _ => Boolean
  | SNative t _ _ => native_physical t
  | SBinary _ _ => ByteArray
  | SFixed p _ => pt_physical p
  end.

(** statistics/primitive.rs:28-30, statistics/binary.rs:29-31, statistics/boolean.rs:28-30 and statistics/fixed_len_binary.rs:29-31.
    The [null_count] methods. *)
Definition stats_null_count (s : statistics) : option Z :=
  match s with
  | SBool s => st_null_count s
  | SNative _ _ s => st_null_count s
  | SBinary _ s => st_null_count s
  | SFixed _ s => st_null_count s
  end.

(** statistics/primitive.rs:37-50, statistics/boolean.rs:34-47 and statistics/fixed_len_binary.rs:39-52.
    The length checks. *)
Definition check_len (size : nat) (v : option (list N)) : res unit :=
  match v with
  | Some v => if (length v =? size)%nat then Ok tt else Err OutOfSpec
  | None => Ok tt
  end.

(** statistics/primitive.rs:56-57: [v.as_ref().map(|x| types::decode(x))]. *)
Definition decode_opt (t : native) (v : option (list N)) : res (option (carrier t)) :=
  match v with
  | Some x => let* c := native_decode t x in Ok (Some c)
  | None => Ok None
  end.

(** statistics/primitive.rs:33-59 [read]. *)
Definition primitive_read (t : native) (v : t_statistics) (p : primitive_type) : res statistics :=
  let* _ := check_len (native_size t) (ts_max_value v) in
  let* _ := check_len (native_size t) (ts_min_value v) in
  let* mx := decode_opt t (ts_max_value v) in
  let* mn := decode_opt t (ts_min_value v) in
  Ok (SNative t p (mk_st (ts_null_count v) (ts_distinct_count v) mx mn)).

(** statistics/primitive.rs:61-70 [write]. *)
Definition primitive_write (t : native) (v : stats_of (carrier t)) : t_statistics :=
  mk_tstats None None (st_null_count v) (st_distinct_count v)
    (option_map (native_to_le t) (st_max v)) (option_map (native_to_le t) (st_min v)).

(** statistics/binary.rs:34-42 [read], 44-53 [write]; statistics/fixed_len_binary.rs:69-78 [write] is the same function. *)
Definition binary_read (v : t_statistics) (p : primitive_type) : res statistics :=
  Ok (SBinary p (mk_st (ts_null_count v) (ts_distinct_count v) (ts_max_value v) (ts_min_value v))).
(** statistics/binary.rs:44-53 and statistics/fixed_len_binary.rs:69-78 [write]. *)
Definition binary_write (v : stats_of (list N)) : t_statistics :=
  mk_tstats None None (st_null_count v) (st_distinct_count v) (st_max v) (st_min v).

(** statistics/boolean.rs:52-61 [read]: [and_then(first)], then [!= 0]; 65-74 [write]. *)
Definition bool_of (v : option (list N)) : option bool :=
  match v with Some (x :: _) => Some (negb (x =? 0)%N) | _ => None end.
(** statistics/boolean.rs:33-63 [read]. *)
Definition boolean_read (v : t_statistics) : res statistics :=
  let* _ := check_len 1 (ts_max_value v) in
  let* _ := check_len 1 (ts_min_value v) in
  Ok (SBool (mk_st (ts_null_count v) (ts_distinct_count v) (bool_of (ts_max_value v))
    (bool_of (ts_min_value v)))).
(** statistics/boolean.rs:69-70. *)
Definition bool_bytes (b : bool) : list N := [if b then 1 else 0]%N.
(** statistics/boolean.rs:65-74 [write]. *)
Definition boolean_write (v : stats_of bool) : t_statistics :=
  mk_tstats None None (st_null_count v) (st_distinct_count v)
    (option_map bool_bytes (st_max v)) (option_map bool_bytes (st_min v)).

(** statistics/fixed_len_binary.rs:34-67 [read]; [truncate(size)]. *)
Definition fixed_read (v : t_statistics) (size : N) (p : primitive_type) : res statistics :=
  let* _ := check_len (N.to_nat size) (ts_max_value v) in
  let* _ := check_len (N.to_nat size) (ts_min_value v) in
  Ok (SFixed p (mk_st (ts_null_count v) (ts_distinct_count v)
    (option_map (firstn (N.to_nat size)) (ts_max_value v))
    (option_map (firstn (N.to_nat size)) (ts_min_value v)))).

(** statistics/mod.rs:98-114 [deserialize_statistics]. *)
Definition deserialize_statistics (v : t_statistics) (p : primitive_type) : res statistics :=
  match pt_physical p with
  | Boolean => boolean_read v
  | Int32 => primitive_read NI32 v p
  | Int64 => primitive_read NI64 v p
  | Int96 => primitive_read NI96 v p
  | Float => primitive_read NF32 v p
  | Double => primitive_read NF64 v p
  | ByteArray => binary_read v p
  | FixedLenByteArray size => fixed_read v size p
  end.

(** statistics/mod.rs:117-134 [serialize_statistics]: dispatch on [physical_type], then [downcast_ref().unwrap()],
    which panics when the implementation is not the one of that physical type (possible only for a
    [FixedLenStatistics] whose primitive type is not a fixed-length one). *)
Definition serialize_statistics (s : statistics) : res t_statistics :=
  match s with
  | SBool s => Ok (boolean_write s)
  | SNative t _ s => Ok (primitive_write t s)
  | SBinary _ s => Ok (binary_write s)
  | SFixed p s =>
      match pt_physical p with FixedLenByteArray _ => Ok (binary_write s) | _ => Panic end
  end.

(** write/statistics.rs:9-16 [reduce_single]; with a byte-string [op] also 19-26 [reduce_vec8]. *)
Definition reduce_single {A} (op : A -> A -> A) (lhs rhs : option A) : option A :=
  match lhs, rhs with
  | None, None => None
  | Some x, None => Some x
  | None, Some x => Some x
  | Some x, Some y => Some (op x y)
  end.

(** write/statistics.rs:86, 99, 143 and 168. [reduce_single(acc.null_count, new.null_count, |x, y| x + y)] on [i64]. *)
Definition reduce_count (m : mode) (lhs rhs : option Z) : res (option Z) :=
  match lhs, rhs with
  | Some x, Some y => let* s := sadd m 64 x y in Ok (Some s)
  | _, _ => Ok (reduce_single Z.add lhs rhs)
  end.

(** write/statistics.rs:83-89, 96-102, 132-146 and 157-171. The fold of [reduce_binary] (83-89), [reduce_fix_len_binary] (96-102), [reduce_boolean] (132-146) and
    [reduce_primitive] (157-171), with the operations on minima and maxima as arguments. *)
Definition reduce_step {A} (m : mode) (opmin opmax : A -> A -> A) (acc new : stats_of A) : res (stats_of A) :=
  let mn := reduce_single opmin (st_min acc) (st_min new) in
  let mx := reduce_single opmax (st_max acc) (st_max new) in
  let* nc := reduce_count m (st_null_count acc) (st_null_count new) in
  Ok (mk_st nc None mx mn).
(** write/statistics.rs:83-89, 96-102, 132-146 and 157-171 [fold]. *)
Fixpoint reduce_fold {A} (m : mode) (opmin opmax : A -> A -> A) (acc : stats_of A) (l : list (stats_of A)) :
  res (stats_of A) :=
  match l with
  | [] => Ok acc
  | new :: r => let* acc' := reduce_step m opmin opmax acc new in reduce_fold m opmin opmax acc' r
  end.

(** write/statistics.rs:106-124, the loop of [ord_binary]. *)
Fixpoint ord_go (a b : list N) : comparison :=
  match a, b with
  | v1 :: a', v2 :: b' => match (v1 ?= v2)%N with Eq => ord_go a' b' | other => other end
  | _, _ => Eq
  end.
(** write/statistics.rs:105-126 [ord_binary]. *)
Definition select_binary (max : bool) (a b : list N) : list N :=
  match ord_go a b with
  | Gt => if max then a else b
  | Lt => if max then b else a
  | Eq => a
  end.

(** write/statistics.rs:136: a closure of [reduce_boolean]. *)
Definition bool_min (x y : bool) : bool := if x && negb y then y else x.
(** write/statistics.rs:141. *)
Definition bool_max (x y : bool) : bool := if x && negb y then x else y.

(** write/statistics.rs:161 and 166: [x > y] of [PartialOrd] (false on NaNs), and the closures of [reduce_primitive]. [Int96]
    never gets there (line 77). *)
Definition native_gt (t : native) : carrier t -> carrier t -> bool :=
  match t with
  | NI32 | NI64 => fun x y => (y <? x)%Z
  | NF32 => fun x y => match float_partial_cmp 32 inf32 x y with Some Gt => true | _ => false end
  | NF64 => fun x y => match float_partial_cmp 64 inf64 x y with Some Gt => true | _ => false end
  | NI96 => fun _ _ => false
  end.
(** write/statistics.rs:161. *)
Definition native_min (t : native) (x y : carrier t) : carrier t := if native_gt t x y then y else x.
(** write/statistics.rs:166. *)
Definition native_max (t : native) (x y : carrier t) : carrier t := if native_gt t x y then x else y.

(** write/statistics.rs:50, 54, 58, 62, 66, 70 and 74. [downcast_ref().unwrap()] of every element. *)
Fixpoint downcast_all {A} (f : statistics -> option A) (l : list statistics) : res (list A) :=
  match l with
  | [] => Ok []
  | s :: r => match f s with
              | Some a => let* t := downcast_all f r in Ok (a :: t)
              | None => Panic
              end
  end.
(** write/statistics.rs:50. *)
Definition as_bool (s : statistics) : option (stats_of bool) := match s with SBool s => Some s | _ => None end.
(** write/statistics.rs:54, 58, 62 and 66. *)
Definition as_native (t : native) (s : statistics) : option (primitive_type * stats_of (carrier t)) :=
  match s with
  | SNative t' p s =>
      match t, t' return stats_of (carrier t') -> option (primitive_type * stats_of (carrier t)) with
      | NI32, NI32 | NI64, NI64 | NF32, NF32 | NF64, NF64 | NI96, NI96 => fun s => Some (p, s)
      | _, _ => fun _ => None
      end s
  | _ => None
  end.
(** write/statistics.rs:70. *)
Definition as_binary (s : statistics) : option (primitive_type * stats_of (list N)) :=
  match s with SBinary p s => Some (p, s) | _ => None end.
(** write/statistics.rs:74. *)
Definition as_fixed (s : statistics) : option (primitive_type * stats_of (list N)) :=
  match s with SFixed p s => Some (p, s) | _ => None end.

(** write/statistics.rs:81-103 and 149-172. [stats.next().unwrap().clone()] and the fold, keeping the first element's primitive type. *)
Definition reduce_typed {A} (m : mode) (opmin opmax : A -> A -> A) (l : list (primitive_type * stats_of A)) :
  res (primitive_type * stats_of A) :=
  match l with
  | [] => Panic
  | (p, first) :: r => let* s := reduce_fold m opmin opmax first (map snd r) in Ok (p, s)
  end.

(** write/statistics.rs:53-68: the arms of [reduce] for integers and floats. *)
Definition reduce_native (m : mode) (t : native) (stats : list statistics) : res (option statistics) :=
  let* l := downcast_all (as_native t) stats in
  let* (p, s) := reduce_typed m (native_min t) (native_max t) l in
  Ok (Some (SNative t p s)).
(** write/statistics.rs:48-78: the dispatch of [reduce] on the type of the first statistics. *)
Definition reduce_by_type (m : mode) (physical : physical_type) (stats : list statistics) :
  res (option statistics) :=
  match physical with
  | Boolean =>
      let* l := downcast_all as_bool stats in
      match l with
      | [] => Panic
      | first :: r => let* s := reduce_fold m bool_min bool_max first r in Ok (Some (SBool s))
      end
  | Int32 => reduce_native m NI32 stats
  | Int64 => reduce_native m NI64 stats
  | Float => reduce_native m NF32 stats
  | Double => reduce_native m NF64 stats
  | ByteArray =>
      let* l := downcast_all as_binary stats in
      let* (p, s) := reduce_typed m (select_binary false) (select_binary true) l in
      Ok (Some (SBinary p s))
  | FixedLenByteArray _ =>
      let* l := downcast_all as_fixed stats in
      let* (p, s) := reduce_typed m (select_binary false) (select_binary true) l in
      Ok (Some (SFixed p s))
  | Int96 => Panic
  end.

(** write/statistics.rs:32-36: [filter_map]. *)
Definition filter_some {A} (l : list (option A)) : list A :=
  flat_map (fun o => match o with Some a => [a] | None => [] end) l.
(** write/statistics.rs:28-79 [reduce]. *)
Definition reduce_statistics (m : mode) (stats : list (option statistics)) : res (option statistics) :=
  match stats with
  | [] => Ok None
  | _ =>
      match filter_some stats with
      | [] => Ok None
      | first :: r =>
          if forallb (fun x => physical_eqb (stats_physical x) (stats_physical first)) r
          then reduce_by_type m (stats_physical first) (first :: r)
          else Err OutOfSpec
      end
  end.
