(** The columns of a field read at the same time: one future for each column, joined. *)
From Verif Require Import Base.Prelude Model.Types Model.Io Model.Metadata.
Open Scope N_scope.

(** read/column/stream.rs:9-25 [read_column_async]: where the future of one column is. It waits for the reader that the factory makes (17), for the
    reader to seek (19) or for bytes (23), of which it has some and can take some more, or it is ready. *)
Inductive task :=
| Opening
| Seeking
| Reading (got : list N) (rest : N)
| Ready (r : res (list N)).
(** read/column/stream.rs:17, 19 and 23: what the outside world answers when the future is polled and need not wait: done, an error, or a number of
    bytes. *)
Inductive answer := Done | Failed (e : error) | Bytes (n : N).

(** read/column/stream.rs:17-24: from one point where the future waits to the next. [None]: an answer that cannot be given there. A reader of [file]
    answers with at least one byte and at most those that are there and were asked for, and with none only where there are none; which of these
    it chooses is open. With nothing left to take ([take], 23) the reader is not asked. Simplified: a poll that is pending changes nothing and
    is no step; [try_reserve] (22), which fails only when memory is short, is among the failures of the seek before it. *)
Definition task_step (file : list N) (c : column_md) (t : task) (a : answer) : option task :=
  match t, a with
  | Opening, Done => Some (match byte_range c with Ok _ => Seeking | Err e => Ready (Err e) | Panic => Ready Panic end)
  | Opening, Failed e => Some (Ready (Err e))
  | Seeking, Done => Some (match byte_range c with Ok (_, length) => Reading [] length | Err e => Ready (Err e) | Panic => Ready Panic end)
  | Seeking, Failed e => Some (Ready (Err e))
  | Reading got rest, Failed e => if rest =? 0 then None else Some (Ready (Err e))
  | Reading got rest, Bytes n =>
      match byte_range c with
      | Ok (start, _) =>
          let there := read_at file (start + nlen got) rest in
          if nlen there =? 0 then if n =? 0 then Some (Ready (Ok got)) else None
          else if (1 <=? n) && (n <=? nlen there) then Some (Reading (got ++ firstn (N.to_nat n) there) (rest - n)) else None
      | _ => None
      end
  | _, _ => None
  end.

(** read/column/stream.rs:34-50 [read_columns_async]: the futures, in the order of the columns. *)
Definition joined := list (column_md * task).
(** read/column/stream.rs:43-46. *)
Definition join_start (fields : list column_md) : joined := map (fun c => (c, Opening)) fields.
(** read/column/stream.rs:48 [try_join_all]: polling one of the futures. *)
Fixpoint join_step (file : list N) (ts : joined) (i : nat) (a : answer) : option joined :=
  match ts, i with
  | (c, t) :: r, O => match task_step file c t a with Some t => Some ((c, t) :: r) | None => None end
  | x :: r, S i => match join_step file r i a with Some r => Some (x :: r) | None => None end
  | [], _ => None
  end.
(** read/column/stream.rs:48: a schedule says which future is polled next and what it is answered. [try_join_all] has a fixed order for few futures
    and the order in which they are woken up for many; here it is any order. *)
Fixpoint join_run (file : list N) (ts : joined) (schedule : list (nat * answer)) : option joined :=
  match schedule with
  | [] => Some ts
  | (i, a) :: r => match join_step file ts i a with Some ts => join_run file ts r | None => None end
  end.
(** read/column/stream.rs:48-49: what the join can return: all results when all futures are ready, and an error (or panic) of any of those that have one
    ([try_join_all] returns the first it comes across, and drops the others). *)
Inductive join_returns (ts : joined) : res (list (column_md * list N)) -> Prop :=
| returns_all l : map (fun x => (fst x, Ready (Ok (snd x)))) l = ts -> join_returns ts (Ok l)
| returns_error c e : In (c, Ready (Err e)) ts -> join_returns ts (Err e)
| returns_panic c : In (c, Ready Panic) ts -> join_returns ts Panic.
