(** Iterators as state machines, and lists cut into chunks. *)
From Verif Require Import Base.Prelude.

(** [yields next P s l]: calling [next] from state [s] returns the items of [l] one by one and then
    [None], without error or panic; [P state remaining] holds at every state on the way. *)
Inductive yields {S A} (next : S -> res (option A * S)) (P : S -> list A -> Prop) : S -> list A -> Prop :=
| yields_nil s s' : P s [] -> next s = Ok (None, s') -> yields next P s []
| yields_cons s s' a l : P s (a :: l) -> next s = Ok (Some a, s') -> yields next P s' l ->
    yields next P s (a :: l).

(** Collecting at most [fuel] items ([iter.take(fuel).collect()]). *)
Fixpoint drain {S A} (next : S -> res (option A * S)) (fuel : nat) (s : S) : res (list A) :=
  match fuel with
  | O => Ok []
  | Datatypes.S f =>
      let* (o, s') := next s in
      match o with
      | None => Ok []
      | Some a => let* l := drain next f s' in Ok (a :: l)
      end
  end.

(** The same, returning the iterator's state as well. *)
Fixpoint drain_st {S A} (next : S -> res (option A * S)) (fuel : nat) (s : S) : res (list A * S) :=
  match fuel with
  | O => Ok ([], s)
  | Datatypes.S f =>
      let* (o, s') := next s in
      match o with
      | None => Ok ([], s')
      | Some a => let* (l, s'') := drain_st next f s' in Ok (a :: l, s'')
      end
  end.

Lemma yields_drain {S A} (next : S -> res (option A * S)) P s l :
  yields next P s l -> forall fuel, drain next fuel s = Ok (firstn fuel l).
Proof.
  induction 1 as [s s' HP Hn | s s' a l HP Hn Hy IH]; intros [|f]; cbn [drain firstn]; try reflexivity.
  - rewrite Hn. reflexivity.
  - rewrite Hn. cbn [bind]. rewrite IH. reflexivity.
Qed.

Lemma yields_weaken {S A} (next : S -> res (option A * S)) (P Q : S -> list A -> Prop) s l :
  (forall s l, P s l -> Q s l) -> yields next P s l -> yields next Q s l.
Proof. intros H; induction 1; econstructor; eauto. Qed.

(** [slice.chunks(n)] restricted to [k] chunks. *)
Fixpoint chunk_list {A} (k n : nat) (l : list A) : list (list A) :=
  match k with
  | O => []
  | Datatypes.S k => firstn n l :: chunk_list k n (skipn n l)
  end.

(** [slice.chunks_exact(n)] and its remainder. *)
Definition chunks_exact {A} (n : nat) (l : list A) : list (list A) :=
  chunk_list (length l / n) n l.
Definition chunks_remainder {A} (n : nat) (l : list A) : list A :=
  skipn (length l / n * n) l.
