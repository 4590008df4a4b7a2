(** What the statistics of several pages together say where the order they are compared with is not the order of the column. *)
From Verif Require Import Base.Prelude Model.Native Spec.PlainSpec Spec.StatsSpec.

(** A lower bound that is right but for prefixes: every byte string is at or above it, or is a prefix of it. *)
Definition prefix_of (a b : list N) : Prop := exists c, b = a ++ c.
Definition low_but_prefixes (v x : list N) : Prop := lex_le v x \/ prefix_of x v.
(** Likewise an upper bound: every byte string is at or below it, or continues it. *)
Definition high_but_prefixes (v x : list N) : Prop := lex_le x v \/ prefix_of v x.

(** Floats of width [w]. [float_nan] and [float_key] are those of C74. *)
Definition is_nan (w inf b : N) : Prop := float_nan w inf b = true.
Definition no_nan (w inf b : N) : Prop := float_nan w inf b = false.

(** The minimum: there is none without a bound; a NaN in front wins, and other NaNs are passed over. *)
Definition min_with_nans (w inf : N) (l : list N) (o : option N) : Prop :=
  match l with
  | [] => o = None
  | x :: _ =>
      (is_nan w inf x -> o = Some x) /\
      (no_nan w inf x -> extreme (fun a b => (float_key w a <= float_key w b)%Z) (filter (fun b => negb (float_nan w inf b)) l) o)
  end.
(** The maximum: that of the bounds behind the last NaN; if there is nothing behind it, the NaN. *)
Definition max_with_nans (w inf : N) (l : list N) (o : option N) : Prop :=
  exists before after, l = before ++ after /\ Forall (no_nan w inf) after /\
    (before = [] \/ exists front nan, before = front ++ [nan] /\ is_nan w inf nan /\ (after = [] -> o = Some nan)) /\
    (after <> [] \/ before = [] -> extreme (fun a b => (float_key w a >= float_key w b)%Z) after o).

(** Unsigned numbers of [w] bits kept in signed ones, as the code compares them: those with the top bit set come before the others. *)
Definition has_top_bit (w : N) (z : Z) : Prop := (2 ^ (w - 1) <= of_signed w z)%N.
Definition min_of_unsigned (w : N) (l : list Z) (o : option Z) : Prop :=
  match o with
  | None => l = []
  | Some v => In v l /\
      ((exists x, In x l /\ has_top_bit w x) -> has_top_bit w v) /\
      (forall x, In x l -> (has_top_bit w x <-> has_top_bit w v) -> (of_signed w v <= of_signed w x)%N)
  end.
Definition max_of_unsigned (w : N) (l : list Z) (o : option Z) : Prop :=
  match o with
  | None => l = []
  | Some v => In v l /\
      ((exists x, In x l /\ ~ has_top_bit w x) -> ~ has_top_bit w v) /\
      (forall x, In x l -> (has_top_bit w x <-> has_top_bit w v) -> (of_signed w x <= of_signed w v)%N)
  end.
