(** Model of /repo/src/indexes/intervals.rs. Rows are [usize] (64 bits), so [N] below 2^64. *)
From Verif Require Import Base.Prelude Model.Types Model.Thrift.
Open Scope N_scope.

(** indexes/intervals.rs:11-16 [Interval]. *)
Record interval := mk_iv { iv_start : N; iv_length : N }.

(** indexes/intervals.rs:59, 83 and 137. Collecting an iterator of [Result]s into a [Result] of a vector. *)
Fixpoint collect_res {A} (l : list (res A)) : res (list A) :=
  match l with
  | [] => Ok []
  | x :: r => let* a := x in let* r := collect_res r in Ok (a :: r)
  end.

(** indexes/intervals.rs:37-43, the last page. *)
Definition last_interval (first_row : Z) (num_rows : N) : res interval :=
  let* start := try_usize first_row in
  if num_rows <? start then Err OutOfSpec else Ok (mk_iv start (num_rows - start)).

(** indexes/intervals.rs:47-57, a page and its successor; [checked_sub] is on [i64]. *)
Definition window_interval (a b : Z) : res interval :=
  let* start := try_usize a in
  if in_s 64 (b - a) then let* length_ := try_usize (b - a) in Ok (mk_iv start length_)
  else Err OutOfSpec.

(** indexes/intervals.rs:45-46 [windows(2)], 58 [chain]. *)
Fixpoint page_intervals (l : list t_page_location) (num_rows : N) : list (res interval) :=
  match l with
  | [] => []
  | a :: r =>
      match r with
      | [] => [last_interval (loc_first_row a) num_rows]
      | b :: _ => window_interval (loc_first_row a) (loc_first_row b) :: page_intervals r num_rows
      end
  end.

(** indexes/intervals.rs:29-60 [compute_page_row_intervals]. *)
Definition compute_page_row_intervals (l : list t_page_location) (num_rows : N) : res (list interval) :=
  match l with
  | [] => Ok []
  | _ => collect_res (page_intervals l num_rows)
  end.

(** indexes/intervals.rs:64-84 [compute_rows]. *)
Definition compute_rows (selected : list bool) (l : list t_page_location) (num_rows : N) : res (list interval) :=
  let* pages := compute_page_row_intervals l num_rows in
  Ok (map snd (filter fst (combine selected pages))).

(** indexes/intervals.rs:89-96 [FilteredPage]. *)
Record filtered_page := mk_fp {
  fp_start : N;
  fp_length : N;
  fp_selected : list interval;
  fp_num_rows : N
}.

(** indexes/intervals.rs:98-114 [is_in]; the additions overflow according to the build. *)
Fixpoint is_in (m : mode) (probe : interval) (intervals : list interval) : res (list interval) :=
  match intervals with
  | [] => Ok []
  | i :: r =>
      let* interval_end := uadd m 64 (iv_start i) (iv_length i) in
      let* probe_end := uadd m 64 (iv_start probe) (iv_length probe) in
      let overlaps := (iv_start probe <? interval_end) && (iv_start i <? probe_end) in
      if overlaps then
        let start := N.max (iv_start i) (iv_start probe) in
        let end_ := N.min interval_end probe_end in
        let* a := usub m 64 start (iv_start probe) in
        let* b := usub m 64 end_ start in
        let* rest := is_in m probe r in
        Ok (mk_iv a b :: rest)
      else is_in m probe r
  end.

(** indexes/intervals.rs:126-136. *)
Definition select_page (m : mode) (intervals : list interval) (x : interval * t_page_location) : res filtered_page :=
  let (iv, location) := x in
  let* selected := is_in m iv intervals in
  let* start := try_usize (loc_offset location) in
  let* length_ := try_usize (loc_size location) in
  Ok (mk_fp start length_ selected (iv_length iv)).

(** indexes/intervals.rs:118-138 [select_pages]. *)
Definition select_pages (m : mode) (intervals : list interval) (l : list t_page_location) (num_rows : N) : res (list filtered_page) :=
  let* pages := compute_page_row_intervals l num_rows in
  collect_res (map (select_page m intervals) (combine pages l)).
