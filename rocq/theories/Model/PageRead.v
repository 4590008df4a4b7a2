(** Model of /repo/src/read/page/reader.rs, read/page/stream.rs and read/page/indexed_reader.rs.

    A source is the list of bytes still to be read (or, for the seeking reader, all bytes of the file). Sources that
    end early are among these, sources that fail are in Model/Faults.v. *)
From Verif Require Import Base.Prelude Model.Types Model.Thrift Model.Intervals Model.Page Model.Io.
From Verif Require Model.Compression.
Open Scope N_scope.

(** read/page/reader.rs:285-307 [get_page_header]. *)
Definition get_page_header (h : t_page_header) : res (option page_header) :=
  let* type_ := page_type_of_thrift (ph_type h) in
  match type_ with
  | PtData =>
      match ph_data h with
      | None => Err OutOfSpec
      | Some d =>
          let* _ := encoding_of_thrift (dh_encoding d) in
          let* _ := encoding_of_thrift (dh_rep_encoding d) in
          let* _ := encoding_of_thrift (dh_def_encoding d) in
          Ok (Some (HV1 d))
      end
  | PtDataV2 =>
      match ph_data_v2 h with
      | None => Err OutOfSpec
      | Some d => let* _ := encoding_of_thrift (dh2_encoding d) in Ok (Some (HV2 d))
      end
  | PtDictionary => Ok None
  end.

(** read/page/reader.rs:225-283 [finish_page]. *)
Definition finish_page (h : t_page_header) (data : list N) (c : compression) (d : descriptor)
  (selected : option (list interval)) : res compressed_page :=
  let* type_ := page_type_of_thrift (ph_type h) in
  let* size := try_usize (ph_uncompressed_size h) in
  match type_ with
  | PtDictionary =>
      match ph_dict h with
      | None => Err OutOfSpec
      | Some dict =>
          let is_sorted := match dict_is_sorted dict with Some b => b | None => false end in
          let* num_values := try_usize (dict_num_values dict) in
          Ok (CDict (mk_cdict data c num_values size is_sorted))
      end
  | PtData =>
      match ph_data h with
      | None => Err OutOfSpec
      | Some header => Ok (CData (mk_cdp (HV1 header) data c size d selected))
      end
  | PtDataV2 =>
      match ph_data_v2 h with
      | None => Err OutOfSpec
      | Some header => Ok (CData (mk_cdp (HV2 header) data c size d selected))
      end
  end.

(** read/page/reader.rs:68-89 [PageReader]. *)
Record page_reader := mk_pr {
  pr_source : list N;
  pr_compression : compression;
  pr_seen : Z;
  pr_total : Z;
  pr_filter : descriptor -> page_header -> bool;
  pr_descriptor : descriptor;
  pr_scratch : list N;
  pr_max : N
}.
(** read/page/reader.rs:109-126 [new_with_page_meta]. *)
Definition pr_new (source : list N) (num_values : Z) (c : compression) (d : descriptor)
  (filter : descriptor -> page_header -> bool) (scratch : list N) (max : N) : page_reader :=
  mk_pr source c 0 num_values filter d scratch max.
(** read/page/reader.rs:143-160: no code of its own. What changes while reading. *)
Definition pr_at (r : page_reader) (source : list N) (seen : Z) (scratch : list N) : page_reader :=
  mk_pr source (pr_compression r) seen (pr_total r) (pr_filter r) (pr_descriptor r) scratch (pr_max r).

(** read/page/reader.rs:192. Number of values as the reader counts them: [x.num_values() as i64]. *)
Definition counted (h : option page_header) : Z :=
  match h with Some h => to_signed 64 (header_num_values h) | None => 0 end.

(** read/page/reader.rs:185-223 [build_page]: the result with the source and the count after it. Where the thrift decoder fails the
    code leaves the source somewhere inside the header; here it stays. The allocation of [read_size] bytes is not modelled.
    The old scratch content is dropped ([buffer.clear()]), so it is not an argument. *)
Definition build_page (T : thrift t_page_header) (m : mode) (r : page_reader) : list N * Z * res compressed_page :=
  let source := pr_source r in
  let seen := pr_seen r in
  match t_dec T (pr_max r) source with
  | Err e => (source, seen, Err e)
  | Panic => (source, seen, Panic)
  | Ok (h, source) =>
      match get_page_header h with
      | Err e => (source, seen, Err e)
      | Panic => (source, seen, Panic)
      | Ok dh =>
          match sadd m 64 seen (counted dh) with
          | Err e => (source, seen, Err e)
          | Panic => (source, seen, Panic)
          | Ok seen =>
              match try_usize (ph_compressed_size h) with
              | Err e => (source, seen, Err e)
              | Panic => (source, seen, Panic)
              | Ok read_size =>
                  if pr_max r <? read_size then (source, seen, Err WouldOverAllocate)
                  else
                    let data := firstn (N.to_nat read_size) source in
                    let source := skipn (N.to_nat read_size) source in
                    if nlen data =? read_size
                    then (source, seen, finish_page h data (pr_compression r) (pr_descriptor r) None)
                    else (source, seen, Err OutOfSpec)
              end
          end
      end
  end.

(** read/page/reader.rs:143-160 [next] with 175-183 [next_page]. The recursion on filtered pages takes [fuel]; running out of
    it (impossible when every header has a byte) is a panic. After a page or an error the scratch buffer is the
    empty vector left by [mem::take]. *)
Fixpoint pr_next_fuel (T : thrift t_page_header) (m : mode) (fuel : nat) (r : page_reader)
  : res (option (compressed_page + error) * page_reader) :=
  match fuel with
  | O => Panic
  | S f =>
      if (pr_total r <=? pr_seen r)%Z then Ok (None, r)
      else
        let '(source, seen, x) := build_page T m r in
        let r' := pr_at r source seen [] in
        match x with
        | Panic => Panic
        | Err e => Ok (Some (inr e), r')
        | Ok (CData p) =>
            if pr_filter r (pr_descriptor r) (cdp_header p) then Ok (Some (inl (CData p)), r')
            else pr_next_fuel T m f r'
        | Ok (CDict p) => Ok (Some (inl (CDict p)), r')
        end
  end.
(** read/page/reader.rs:143-160 [next]: [pr_next_fuel] with enough fuel. *)
Definition pr_next (T : thrift t_page_header) (m : mode) (r : page_reader) :=
  pr_next_fuel T m (S (length (pr_source r))) r.

(** read/page/reader.rs:134-138 [swap_buffer]; with [pr_next] this makes the reader a page iterator. *)
Definition pr_swap (r : page_reader) (b : list N) : page_reader * list N :=
  (pr_at r (pr_source r) (pr_seen r) b, pr_scratch r).
(** read/page/reader.rs:134-161: the reader as a page iterator. *)
Definition pr_iter (T : thrift t_page_header) (m : mode) : Compression.page_iter page_reader :=
  Compression.mk_pi (pr_next T m) pr_swap.

(** read/page/stream.rs:75-129 [_get_page_stream]: one turn of the consumer, that is the loop up to the next [yield]. An error
    ends the stream (the [try_stream!] macro); that is visible in [stream_poll]. *)
Fixpoint stream_next_fuel (T : thrift t_page_header) (m : mode) (fuel : nat) (r : page_reader)
  : res (option (compressed_page + error) * page_reader) :=
  match fuel with
  | O => Panic
  | S f =>
      if (pr_seen r <? pr_total r)%Z then
        match t_dec T (pr_max r) (pr_source r) with
        | Panic => Panic
        | Err e => Ok (Some (inr e), r)
        | Ok (h, source) =>
            match get_page_header h with
            | Panic => Panic
            | Err e => Ok (Some (inr e), pr_at r source (pr_seen r) [])
            | Ok dh =>
                match sadd m 64 (pr_seen r) (counted dh) with
                | Panic => Panic
                | Err e => Ok (Some (inr e), pr_at r source (pr_seen r) [])
                | Ok seen =>
                    match try_usize (ph_compressed_size h) with
                    | Panic => Panic
                    | Err e => Ok (Some (inr e), pr_at r source seen [])
                    | Ok read_size =>
                        if match dh with Some dh => negb (pr_filter r (pr_descriptor r) dh) | None => false end
                        then stream_next_fuel T m f (pr_at r (skipn (N.to_nat read_size) source) seen [])
                        else if pr_max r <? read_size then Ok (Some (inr WouldOverAllocate), pr_at r source seen [])
                        else
                          let data := firstn (N.to_nat read_size) source in
                          let r' := pr_at r (skipn (N.to_nat read_size) source) seen [] in
                          if nlen data =? read_size then
                            match finish_page h data (pr_compression r) (pr_descriptor r) None with
                            | Panic => Panic
                            | Err e => Ok (Some (inr e), r')
                            | Ok p => Ok (Some (inl p), r')
                            end
                          else Ok (Some (inr OutOfSpec), r')
                    end
                end
            end
        end
      else Ok (None, r)
  end.
(** read/page/stream.rs:75-129: [stream_next_fuel] with enough fuel. *)
Definition stream_next (T : thrift t_page_header) (m : mode) (r : page_reader) :=
  stream_next_fuel T m (S (length (pr_source r))) r.
(** read/page/stream.rs:75-129: the stream as its consumer polls it. The state is [None] once the stream has ended, which it does after an
    error as well as after the last page. *)
Definition stream_poll (T : thrift t_page_header) (m : mode) (s : option page_reader)
  : res (option (compressed_page + error) * option page_reader) :=
  match s with
  | None => Ok (None, None)
  | Some r =>
      let* (o, r) := stream_next T m r in
      Ok (o, match o with Some (inl _) => Some r | _ => None end)
  end.

(** read/page/indexed_reader.rs:17-20 [State]. The two buffers of [IndexedPageReader] are
    cleared before every use (57, 68) and are not modelled. *)
Inductive indexed_state := MaybeDict | Data.
(** read/page/indexed_reader.rs:25-44 [IndexedPageReader]. *)
Record indexed_reader := mk_ir {
  ir_file : list N;
  ir_column_start : N;
  ir_compression : compression;
  ir_descriptor : descriptor;
  ir_pages : list filtered_page;
  ir_state : indexed_state
}.
(** read/page/indexed_reader.rs:107-125 [new_with_page_meta]. *)
Definition ir_new (file : list N) (column_start : N) (c : compression) (d : descriptor) (pages : list filtered_page) :=
  mk_ir file column_start c d pages MaybeDict.

(** read/page/indexed_reader.rs:46-71 [read_page]: header and data of the page at [start]. *)
Definition read_page_at (T : thrift t_page_header) (file : list N) (start length : N) : res (t_page_header * list N) :=
  t_dec T 1048576 (read_at file start length).

(** read/page/indexed_reader.rs:152-180 [read_dict], with 73-92 [read_dict_page]: [None] when there is no dictionary page.
    [page.start - self.column_start] is a [u64] subtraction. *)
Definition read_dict (T : thrift t_page_header) (m : mode) (r : indexed_reader) : res (option (res compressed_page)) :=
  match ir_pages r with
  | [] => Ok None
  | page :: _ =>
      let* length := usub m 64 (fp_start page) (ir_column_start r) in
      if 0 <? length then
        Ok (Some (let* (h, data) := read_page_at T (ir_file r) (ir_column_start r) length in
                  let* p := finish_page h data (ir_compression r) (ir_descriptor r) None in
                  match p with CDict p => Ok (CDict p) | CData _ => Err OutOfSpec end))
      else Ok None
  end.

(** read/page/indexed_reader.rs:179 and 201: no code of its own. An [Err] item. *)
Definition item {S} (x : res compressed_page) (s : S) : res (option (compressed_page + error) * S) :=
  match x with
  | Ok p => Ok (Some (inl p), s)
  | Err e => Ok (Some (inr e), s)
  | Panic => Panic
  end.

(** read/page/indexed_reader.rs:132-150 [read_page] and 196-206, the [Data] state of [next]. *)
Fixpoint ir_next_data (T : thrift t_page_header) (r : indexed_reader) (pages : list filtered_page)
  : res (option (compressed_page + error) * indexed_reader) :=
  let at_ pages := mk_ir (ir_file r) (ir_column_start r) (ir_compression r) (ir_descriptor r) pages Data in
  match pages with
  | [] => Ok (None, at_ [])
  | page :: rest =>
      match fp_selected page with
      | [] => ir_next_data T r rest
      | selected =>
          item (let* (h, data) := read_page_at T (ir_file r) (fp_start page) (fp_length page) in
                finish_page h data (ir_compression r) (ir_descriptor r) (Some selected)) (at_ rest)
      end
  end.
(** read/page/indexed_reader.rs:186-208 [next]. *)
Definition ir_next (T : thrift t_page_header) (m : mode) (r : indexed_reader)
  : res (option (compressed_page + error) * indexed_reader) :=
  match ir_state r with
  | Data => ir_next_data T r (ir_pages r)
  | MaybeDict =>
      let* dict := read_dict T m r in
      let r' := mk_ir (ir_file r) (ir_column_start r) (ir_compression r) (ir_descriptor r) (ir_pages r) Data in
      match dict with
      | Some x => item x r'
      | None => ir_next_data T r' (ir_pages r)
      end
  end.
