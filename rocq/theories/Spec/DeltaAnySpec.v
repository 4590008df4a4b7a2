(** What DELTA_BINARY_PACKED bytes hold when they need not conform to the format: read from the front, as a whole,
    until all values are there, something is missing, or something is met that the decoder cannot handle. *)
From Verif Require Import Base.Prelude Spec.Bits Spec.UlebSpec.
Open Scope N_scope.

(** How reading ends: everything was there ([rest] follows), something is missing (an error), or the decoder aborts. *)
Inductive ending := Complete (rest : list N) | Failed | Aborts.

(** The number at the front, which the end of the buffer may cut, and what follows it. None if it has more than 64 bits. *)
Definition varint_at (bytes : list N) : option (N * list N) :=
  let lead := uleb_lead bytes in
  if (10 <=? length lead)%nat && (1 <? nth 9 bytes 0) then None
  else Some (base128 lead, skipn (length lead) bytes).
(** 0, 1, 2, 3, ... stand for 0, -1, 1, -2, ... *)
Definition signed_of (u : N) : Z := if N.even u then Z.of_N (u / 2) else (- Z.of_N (u / 2) - 1)%Z.

(** The first [n] relative deltas of a miniblock of [v] values of [w] bits, and what follows it. *)
Inductive mini := Values (ds rest : list N) | Short | Unusable.
Definition miniblock (v : nat) (w : N) (n : nat) (bytes : list N) : mini :=
  let size := (v * N.to_nat w / 8)%nat in
  if w =? 0 then Values (repeat 0 n) bytes
  else if 2 ^ 64 <=? N.of_nat v * w then Unusable
  else if (length bytes <? size)%nat then Short
  else if (64 <? w) && (0 <? v)%nat then Unusable
  else Values (map (fun i => bit_field (N.to_nat w) i (firstn size bytes)) (seq 0 n)) (skipn size bytes).
(** The first [n] relative deltas of the miniblocks of a block. *)
Fixpoint miniblocks_at (v n : nat) (widths bytes : list N) : list N * ending :=
  match widths with
  | [] => ([], Complete bytes)
  | w :: widths =>
      match miniblock v w (min n v) bytes with
      | Short => ([], Failed)
      | Unusable => ([], Aborts)
      | Values ds rest =>
          if (n <=? v)%nat then (ds, Complete rest)
          else let (more, e) := miniblocks_at v (n - v) widths rest in (ds ++ more, e)
      end
  end.
(** A block of [nmb] miniblocks: its minimum delta and the first [n] relative deltas. *)
Definition block_at (nmb v n : nat) (bytes : list N) : Z * list N * ending :=
  match varint_at bytes with
  | None => (0%Z, [], Aborts)
  | Some (u, rest) =>
      if (length rest <? nmb)%nat then (signed_of u, [], Failed)
      else let (ds, e) := miniblocks_at v (min n (nmb * v)) (firstn nmb rest) (skipn nmb rest) in (signed_of u, ds, e)
  end.

(** A sum that leaves the 64-bit range aborts with overflow checks, and wraps without. *)
Definition overflows (m : mode) (z : Z) : bool := match m with Checked => negb (in_s 64 z) | Wrapping => false end.
(** The deltas of a block. When a miniblock cannot be read, the delta before it is lost as well. *)
Fixpoint deltas_at (m : mode) (mn : Z) (ds : list N) (e : ending) : list Z * ending :=
  match ds with
  | [] => ([], e)
  | d :: r =>
      let z := (mn + to_signed 64 d)%Z in
      if overflows m z then ([], Aborts)
      else match r, e with
           | [], Failed => ([], Failed)
           | [], Aborts => ([], Aborts)
           | _, _ => let (l, e') := deltas_at m mn r e in (wrap_s 64 z :: l, e')
           end
  end.
(** The deltas of the blocks that hold [n] deltas; a block without any is an error. There are at most [fuel] blocks. *)
Fixpoint blocks_at (fuel : nat) (m : mode) (nmb v n : nat) (bytes : list N) : list Z * ending :=
  match n, fuel with
  | O, _ => ([], Complete bytes)
  | _, O => ([], Failed)
  | _, S fuel =>
      match block_at nmb v n bytes with
      | (_, [], Complete _) => ([], Failed)
      | (mn, ds, e) =>
          match deltas_at m mn ds e with
          | (l, Complete rest) => let (more, e') := blocks_at fuel m nmb v (n - length ds) rest in (l ++ more, e')
          | r => r
          end
      end
  end.
(** The values: each one is returned once the delta to the next one is known. *)
Fixpoint values_at (m : mode) (first : Z) (deltas : list Z) (e : ending) : list Z * ending :=
  match deltas with
  | [] => match e with Complete _ => ([first], e) | _ => ([], e) end
  | d :: r =>
      if overflows m (first + d) then ([], Aborts)
      else let (l, e') := values_at m (wrap_s 64 (first + d)) r e in (first :: l, e')
  end.

(** The four numbers of the header: block size, miniblocks per block, number of values, first value. *)
Definition header_at (data : list N) : option (N * N * N * Z * list N) :=
  match varint_at data with
  | None => None
  | Some (block_size, data) =>
      match varint_at data with
      | None => None
      | Some (nmb, data) =>
          match varint_at data with
          | None => None
          | Some (count, data) =>
              match varint_at data with
              | None => None
              | Some (first, data) => Some (block_size, nmb, count, signed_of first, data)
              end
          end
      end
  end.
Definition header_usable (block_size nmb : N) : bool :=
  (block_size mod 128 =? 0) && negb (nmb =? 0) && ((block_size / nmb) mod 8 =? 0).

(** The stream: it cannot be opened (with an error, or aborting), or it holds values and then ends in some way. The first block
    is looked at when opening. *)
Inductive stream_content := Refused | OpenAborts | Holds (values : list Z) (e : ending).
Definition stream_at (m : mode) (data : list N) : stream_content :=
  match header_at data with
  | None => OpenAborts
  | Some (block_size, nmb, count, first, data) =>
      if negb (header_usable block_size nmb) then OpenAborts
      else
        let v := N.to_nat (block_size / nmb) in
        let nmb := N.to_nat nmb in
        let n := (N.to_nat count - 1)%nat in
        if count =? 0 then Holds [] (Complete data)
        else if count =? 1 then Holds [first] (Complete data)
        else match block_at nmb v n data with
             | (_, [], Failed) => Refused
             | (_, [], Aborts) => OpenAborts
             | (mn, ds, e) =>
                 let (deltas, e) :=
                   match deltas_at m mn ds e with
                   | (l, Complete rest) => let (more, e') := blocks_at n m nmb v (n - length ds) rest in (l ++ more, e')
                   | r => r
                   end in
                 let (values, e) := values_at m first deltas e in Holds values e
             end
  end.

(** Calling [next] returns the items one by one and leaves the iterator in state [s']. *)
Inductive returns {S A} (next : S -> res (option A * S)) : S -> list A -> S -> Prop :=
| returns_nil s : returns next s [] s
| returns_cons s s1 a l s' : next s = Ok (Some a, s1) -> returns next s1 l s' -> returns next s (a :: l) s'.

(** Lengths are 32-bit numbers, and so is their sum: it wraps without overflow checks. *)
Definition length_sum (values : list Z) : N := fold_right N.add 0 (map (of_signed 32) values).
Definition sum_usable (m : mode) (values : list Z) : bool := match m with Checked => length_sum values <? 2 ^ 32 | Wrapping => true end.
