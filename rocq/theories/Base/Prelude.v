(** Shared vocabulary of the model: outcomes of Rust calls, overflow mode, bytes.
    Nothing in this file models project code except where a comment cites it. *)
From Coq Require Export NArith ZArith List Bool Arith Lia.
From Coq Require Export ZifyBool ZifyNat ZifyN.
Export ListNotations.

(** /repo/src/error.rs:5-22, the error kinds (their messages are not modelled);
    [Io] stands for a [std::io::Error] turned into an [Error]. *)
Inductive error :=
| OutOfSpec | FeatureNotActive | FeatureNotSupported
| InvalidParameter | WouldOverAllocate | Io.

(** Outcome of a Rust call: a value, a [Result::Err], or a panic (slice index out of
    bounds, [unwrap] on none, failed [assert!], arithmetic overflow with checks on). *)
Inductive res (A : Type) :=
| Ok (a : A) | Err (e : error) | Panic.
Arguments Ok {A} a.
Arguments Err {A} e.
Arguments Panic {A}.

Definition bind {A B} (x : res A) (f : A -> res B) : res B :=
  match x with Ok a => f a | Err e => Err e | Panic => Panic end.

Definition rmap {A B} (f : A -> B) (x : res A) : res B :=
  match x with Ok a => Ok (f a) | Err e => Err e | Panic => Panic end.

Declare Scope res_scope.
Delimit Scope res_scope with res.
Notation "'let*' x ':=' e 'in' b" := (bind e (fun x => b))
  (at level 61, x pattern, e at next level, right associativity) : res_scope.
Open Scope res_scope.

Definition is_ok {A} (x : res A) : bool := match x with Ok _ => true | _ => false end.
Definition is_panic {A} (x : res A) : bool := match x with Panic => true | _ => false end.

(** Overflow behaviour of the build: debug builds panic, release builds wrap. *)
Inductive mode := Checked | Wrapping.

(** Bytes are [N] below 256, machine words [N] below [2^w]. *)
Definition byte_ok (b : N) : Prop := (b < 256)%N.
Definition bytes_ok (l : list N) : Prop := Forall byte_ok l.
Definition byte_okb (b : N) : bool := (b <? 256)%N.
Definition bytes_okb (l : list N) : bool := forallb byte_okb l.

Definition u64max : N := 18446744073709551615%N.   (* 2^64 - 1 *)
Definition two64 : N := 18446744073709551616%N.    (* 2^64 *)
Definition two32 : N := 4294967296%N.              (* 2^32 *)
Definition two63 : N := 9223372036854775808%N.     (* 2^63 *)

(** Length of a slice as a machine word. *)
Definition nlen {A} (l : list A) : N := N.of_nat (length l).

(** [slice.split_at(n)] and [&slice[n..]]: panic when [n] exceeds the length. *)
Definition split_at {A} (n : nat) (l : list A) : res (list A * list A) :=
  if (n <=? length l)%nat then Ok (firstn n l, skipn n l) else Panic.
Definition slice_from {A} (n : nat) (l : list A) : res (list A) :=
  if (n <=? length l)%nat then Ok (skipn n l) else Panic.
Definition slice_to {A} (n : nat) (l : list A) : res (list A) :=
  if (n <=? length l)%nat then Ok (firstn n l) else Panic.

(** Little-endian reading and writing of byte strings
    ([u32::from_le_bytes], [u32::to_le_bytes] and their siblings). *)
Fixpoint le (l : list N) : N :=
  match l with
  | [] => 0%N
  | b :: r => (b + 256 * le r)%N
  end.
Fixpoint to_le (n : nat) (v : N) : list N :=
  match n with
  | O => []
  | S k => (v mod 256)%N :: to_le k (v / 256)%N
  end.

(** Signed reading of a machine word, [v as i64] / [v as i32], and back. *)
Definition to_signed (w : N) (v : N) : Z :=
  if (v <? 2 ^ (w - 1))%N then Z.of_N v else (Z.of_N v - 2 ^ Z.of_N w)%Z.
Definition of_signed (w : N) (z : Z) : N := Z.to_N (z mod 2 ^ Z.of_N w).

(** /repo/src/encoding/mod.rs:27-30 [ceil8]. *)
Definition ceil8 (v : nat) : nat := (v / 8 + (if (v mod 8 =? 0)%nat then 0 else 1))%nat.
Definition ceil8N (v : N) : N := (v / 8 + (if (v mod 8 =? 0)%N then 0 else 1))%N.

(** Unsigned machine arithmetic on [w]-bit words under the two overflow modes. *)
Definition uadd (m : mode) (w : N) (a b : N) : res N :=
  if (a + b <? 2 ^ w)%N then Ok (a + b)%N
  else match m with Checked => Panic | Wrapping => Ok ((a + b) mod 2 ^ w)%N end.
Definition umul (m : mode) (w : N) (a b : N) : res N :=
  if (a * b <? 2 ^ w)%N then Ok (a * b)%N
  else match m with Checked => Panic | Wrapping => Ok ((a * b) mod 2 ^ w)%N end.
Definition usub (m : mode) (w : N) (a b : N) : res N :=
  if (b <=? a)%N then Ok (a - b)%N
  else match m with Checked => Panic | Wrapping => Ok (2 ^ w + a - b)%N end.

(** Signed machine arithmetic on [w]-bit words. *)
Definition wrap_s (w : N) (z : Z) : Z := to_signed w (of_signed w z).
Definition in_s (w : N) (z : Z) : bool :=
  ((- 2 ^ (Z.of_N w - 1) <=? z) && (z <? 2 ^ (Z.of_N w - 1)))%Z.
Definition sadd (m : mode) (w : N) (a b : Z) : res Z :=
  if in_s w (a + b) then Ok (a + b)%Z
  else match m with Checked => Panic | Wrapping => Ok (wrap_s w (a + b)) end.
Definition ssub (m : mode) (w : N) (a b : Z) : res Z :=
  if in_s w (a - b) then Ok (a - b)%Z
  else match m with Checked => Panic | Wrapping => Ok (wrap_s w (a - b)) end.

Lemma Ok_inj {A} (a b : A) : Ok a = Ok b -> a = b.
Proof. intro H. injection H. auto. Qed.
