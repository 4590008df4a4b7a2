(** When iteration is over, for a consumer that passes over errors. *)
From Verif Require Import Base.Prelude Base.Iter Model.Thrift Model.Intervals Model.Io.
Open Scope N_scope.

(** However long a consumer goes on calling [next] from [s], it is given at most [n] items, errors included, before the first [None]. *)
Definition ends_within {S A} (next : S -> res (option A * S)) (s : S) (n : nat) : Prop :=
  forall k items s', drain_st next k s = Ok (items, s') -> (length items <= n)%nat.

(** However long a consumer goes on calling [next] from [s], every call gives an error and none gives [None]. *)
Definition fails_forever {S A} (next : S -> res (option (A + error) * S)) (s : S) : Prop :=
  forall k, exists items s', drain_st next k s = Ok (items, s') /\ length items = k /\
    Forall (fun i => exists e, i = inr e) items.

(** Decoding a page header takes at least one byte. *)
Definition takes_a_byte {X} (T : thrift X) : Prop :=
  forall max s h rest, t_dec T max s = Ok (h, rest) -> (length rest < length s)%nat.

(** Intervals that start at a 64-bit position. *)
Definition words_ok (rows : list interval) : Prop := Forall (fun i => iv_start i < 2 ^ 64) rows.

(** How many of the items are no errors. *)
Definition pages_among {A} (items : list (A + error)) : nat :=
  length (filter (fun i => match i with inl _ => true | inr _ => false end) items).
