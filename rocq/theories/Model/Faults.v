(** The reading functions of /repo over a source that can fail at any call: [Read] and [Seek] return errors, once or for ever. *)
From Verif Require Import Base.Prelude Model.Types Model.Thrift Model.Intervals Model.Page Model.Io Model.Schema Model.PageRead Model.Metadata Model.Indexes Model.Bloom.
Open Scope N_scope.

(** error.rs:97-101 (an I/O error becomes [OutOfSpec]). What the source is going to do, one entry for each request the crate makes: [None], it
    works; [Some j], it fails once it has given [j] bytes in this request. At the end of the list nothing fails any more. Short and interrupted
    reads are no failures: [read_to_end] and the protocol go on by themselves. *)
Definition faults := list (option N).
(** error.rs:97-101: the entry for the next request. *)
Definition next_fault (fs : faults) : option N * faults :=
  match fs with [] => (None, []) | f :: r => (f, r) end.

(** read/page/reader.rs:203-207: [take(n).read_to_end(buffer)?] on a source with the bytes [source] to come: the source after it and the
    bytes. A failing read has taken some of the bytes. *)
Definition take_read (n : N) (fs : faults) (source : list N) : faults * list N * res (list N) :=
  let data := firstn (N.to_nat n) source in
  let (f, fs) := next_fault fs in
  let fine := (fs, skipn (N.to_nat n) source, Ok data) in
  match f with
  | None => fine
  | Some j => if j <? nlen data then (fs, skipn (N.to_nat j) source, Err OutOfSpec) else fine
  end.
(** read/page/reader.rs:164-171 and error.rs:91-95: a thrift struct read through the protocol, byte by byte. Where the decoder fails by itself the
    source stays (as in [build_page]), and which error comes first is not told apart. *)
Definition decode_read {X} (T : thrift X) (max : N) (fs : faults) (source : list N) : faults * list N * res X :=
  let (f, fs) := next_fault fs in
  match t_dec T max source with
  | Ok (x, rest) =>
      match f with
      | None => (fs, rest, Ok x)
      | Some j => if j <? nlen source - nlen rest then (fs, skipn (N.to_nat j) source, Err OutOfSpec) else (fs, rest, Ok x)
      end
  | Err e => (fs, source, Err (match f with None => e | Some _ => OutOfSpec end))
  | Panic => (fs, source, Panic)
  end.

(** read/metadata.rs:42-44: a seekable source: its bytes, where it is, and what it is going to do. *)
Record drive := mk_drive { dv_file : list N; dv_pos : N; dv_faults : faults }.
(** read/metadata.rs:42-44: a function of a source. *)
Definition reader (A : Type) : Type := drive -> drive * res A.
(** read/metadata.rs:46-48: a result without reading. *)
Definition rres {A} (x : res A) : reader A := fun d => (d, x).
(** read/metadata.rs:54: the operator [?]. *)
Definition rbind {A B} (x : reader A) (f : A -> reader B) : reader B := fun d =>
  match x d with
  | (d, Ok a) => f a d
  | (d, Err e) => (d, Err e)
  | (d, Panic) => (d, Panic)
  end.
Notation "'do+' x ':=' e 'in' b" := (rbind e (fun x => b))
  (at level 61, x pattern, e at next level, right associativity) : res_scope.
(** read/metadata.rs:21-31: [Seek::seek]; [at_] computes the new position, [None] before the start. *)
Definition seek (at_ : drive -> option N) : reader N := fun d =>
  let (f, fs) := next_fault (dv_faults d) in
  match f with
  | Some _ => (mk_drive (dv_file d) (dv_pos d) fs, Err OutOfSpec)
  | None =>
      match at_ d with
      | Some p => (mk_drive (dv_file d) p fs, Ok p)
      | None => (mk_drive (dv_file d) (dv_pos d) fs, Err OutOfSpec)
      end
  end.
(** read/column/mod.rs:195: [SeekFrom::Start]. *)
Definition seek_start (n : N) : reader N := seek (fun _ => Some n).
(** read/metadata.rs:54 and 84: [SeekFrom::End(-n)]. *)
Definition seek_end (n : N) : reader N := seek (fun d => if nlen (dv_file d) <? n then None else Some (nlen (dv_file d) - n)).
(** read/metadata.rs:21: [SeekFrom::Current(0)]. *)
Definition seek_here : reader N := seek (fun d => Some (dv_pos d)).
(** read/column/mod.rs:199: [take(n).read_to_end]. *)
Definition read_some (n : N) : reader (list N) := fun d =>
  let source := skipn (N.to_nat (dv_pos d)) (dv_file d) in
  let '(fs, source', x) := take_read n (dv_faults d) source in
  (mk_drive (dv_file d) (dv_pos d + (nlen source - nlen source')) fs, x).
(** bloom_filter/read.rs:30-31: a struct read where the source is. *)
Definition read_struct {X} (T : thrift X) (max : N) : reader X := fun d =>
  let source := skipn (N.to_nat (dv_pos d)) (dv_file d) in
  let '(fs, source', x) := decode_read T max (dv_faults d) source in
  (mk_drive (dv_file d) (dv_pos d + (nlen source - nlen source')) fs, x).

(** read/metadata.rs:20-31 [stream_len]. *)
Definition stream_len_f : reader N :=
  do+ old := seek_here in
  do+ len := seek_end 0 in
  if old =? len then rres (Ok len)
  else do+ _ := seek_start old in rres (Ok len).
(** read/metadata.rs:42-97 [read_metadata_with_size], see [read_metadata_with_size]. *)
Definition read_metadata_with_size_f (T : thrift t_file_meta) (m : mode) (file_size : N) : reader file_md :=
  if file_size <? 12 then rres (Err OutOfSpec)
  else
    let end_len := N.min default_footer_read_size file_size in
    do+ _ := seek_end end_len in
    do+ buffer := read_some end_len in
    do+ tail := rres (slice_from (N.to_nat end_len - 4) buffer) in
    if negb (bytes_eqb tail magic) then rres (Err OutOfSpec)
    else
      do+ len := rres (metadata_len buffer (N.to_nat end_len)) in
      do+ len := rres (try_usize len) in
      let footer_len := footer_size + len in
      if file_size <? footer_len then rres (Err OutOfSpec)
      else
        do+ bytes :=
          if footer_len <? nlen buffer then rres (slice_from (N.to_nat (nlen buffer - footer_len)) buffer)
          else do+ _ := seek_end footer_len in read_some footer_len in
        rres (deserialize_metadata T m bytes (nlen bytes * 2 + 1024)).
(** read/metadata.rs:35-39 [read_metadata]; read/stream.rs:26-87 is the same sequence of requests. *)
Definition read_metadata_f (T : thrift t_file_meta) (m : mode) : reader file_md :=
  do+ size := stream_len_f in
  read_metadata_with_size_f T m size.

(** read/column/mod.rs:190-201 [read_column]. *)
Definition read_column_f (c : column_md) : reader (list N) :=
  do+ (start, length) := rres (byte_range c) in
  do+ _ := seek_start start in
  read_some length.
(** read/column/mod.rs:183-185: [map] and [collect], which stops at the first error. *)
Fixpoint collect_f {A B} (f : A -> reader B) (l : list A) : reader (list B) :=
  match l with
  | [] => rres (Ok [])
  | a :: r => do+ b := f a in do+ bs := collect_f f r in rres (Ok (b :: bs))
  end.
(** read/column/mod.rs:178-186 [read_columns]. *)
Definition read_columns_f (columns : list column_md) (name : list N) : reader (list (column_md * list N)) :=
  do+ l := rres (get_field_columns columns name) in
  collect_f (fun c => do+ b := read_column_f c in rres (Ok (c, b))) l.

(** read/indexes/read.rs:82-97 [read_columns_indexes]. *)
Definition read_columns_indexes_f (T : thrift t_column_index) (chunks : list column_md) : reader (list index) :=
  do+ (offset, lengths) := rres (prepare_read chunks cc_column_index_offset cc_column_index_length) in
  do+ _ := seek_start offset in
  do+ data := read_some (total lengths) in
  rres (deserialize_indexes T chunks data lengths).
(** read/indexes/read.rs:117-132 [read_pages_locations]. *)
Definition read_pages_locations_f (T : thrift (list t_page_location)) (chunks : list column_md) : reader (list (list t_page_location)) :=
  do+ (offset, lengths) := rres (prepare_read chunks cc_offset_index_offset cc_offset_index_length) in
  do+ _ := seek_start offset in
  do+ data := read_some (total lengths) in
  rres (decode_locations T (nlen data * 2 + 1024) (length chunks) data).

(** bloom_filter/read.rs:14-49 [read], with [usize::MAX] as the limit. What an error leaves in [bitset] is not modelled. *)
Definition bloom_read_f (T : thrift bloom_header) (offset : option Z) : reader (list N) :=
  match offset with
  | None => rres (Ok [])
  | Some offset =>
      do+ _ := seek_start (as_usize offset) in
      do+ header := read_struct T (2 ^ 64 - 1) in
      if negb (bh_block header) then rres (Ok [])
      else if negb (bh_uncompressed header) then rres (Ok [])
      else do+ length := rres (try_usize (bh_num_bytes header)) in read_some length
  end.

(** read/mod.rs:48-66 [get_page_iterator]: the page reader, whose source is what follows where the seek went. *)
Definition get_page_iterator_f (c : column_md) (filter : option (descriptor -> page_header -> bool)) (scratch : list N) (max : N) : reader page_reader :=
  let filter := match filter with Some f => f | None => fun _ _ => true end in
  do+ (start, _) := rres (byte_range c) in
  do+ _ := seek_start start in
  do+ meta := rres (cmd_meta c) in
  do+ codec := rres (cmd_compression c) in
  fun d => (d, Ok (pr_new (skipn (N.to_nat (dv_pos d)) (dv_file d)) (cm_num_values meta) codec (cd_descriptor (cmd_descr c)) filter scratch max)).

(** read/page/reader.rs:185-223 [build_page], see [build_page]. *)
Definition build_page_f (T : thrift t_page_header) (m : mode) (fs : faults) (r : page_reader) : faults * list N * Z * res compressed_page :=
  let seen := pr_seen r in
  match decode_read T (pr_max r) fs (pr_source r) with
  | (fs, source, Err e) => (fs, source, seen, Err e)
  | (fs, source, Panic) => (fs, source, seen, Panic)
  | (fs, source, Ok h) =>
      match get_page_header h with
      | Err e => (fs, source, seen, Err e)
      | Panic => (fs, source, seen, Panic)
      | Ok dh =>
          match sadd m 64 seen (counted dh) with
          | Err e => (fs, source, seen, Err e)
          | Panic => (fs, source, seen, Panic)
          | Ok seen =>
              match try_usize (ph_compressed_size h) with
              | Err e => (fs, source, seen, Err e)
              | Panic => (fs, source, seen, Panic)
              | Ok read_size =>
                  if pr_max r <? read_size then (fs, source, seen, Err WouldOverAllocate)
                  else
                    match take_read read_size fs source with
                    | (fs, source, Err e) => (fs, source, seen, Err e)
                    | (fs, source, Panic) => (fs, source, seen, Panic)
                    | (fs, source, Ok data) =>
                        if nlen data =? read_size
                        then (fs, source, seen, finish_page h data (pr_compression r) (pr_descriptor r) None)
                        else (fs, source, seen, Err OutOfSpec)
                    end
              end
          end
      end
  end.
(** read/page/reader.rs:143-160 [next] with 175-183 [next_page], see [pr_next_fuel]. *)
Fixpoint pr_next_fuel_f (T : thrift t_page_header) (m : mode) (fuel : nat) (s : faults * page_reader)
  : res (option (compressed_page + error) * (faults * page_reader)) :=
  let (fs, r) := s in
  match fuel with
  | O => Panic
  | S f =>
      if (pr_total r <=? pr_seen r)%Z then Ok (None, (fs, r))
      else
        let '(fs, source, seen, x) := build_page_f T m fs r in
        let r' := pr_at r source seen [] in
        match x with
        | Panic => Panic
        | Err e => Ok (Some (inr e), (fs, r'))
        | Ok (CData p) =>
            if pr_filter r (pr_descriptor r) (cdp_header p) then Ok (Some (inl (CData p)), (fs, r'))
            else pr_next_fuel_f T m f (fs, r')
        | Ok (CDict p) => Ok (Some (inl (CDict p)), (fs, r'))
        end
  end.
(** read/page/reader.rs:143-160 [next]: [pr_next_fuel_f] with enough fuel. *)
Definition pr_next_f (T : thrift t_page_header) (m : mode) (s : faults * page_reader) :=
  pr_next_fuel_f T m (S (length (pr_source (snd s)))) s.

(** read/page/stream.rs:75-129 [_get_page_stream], see [stream_next_fuel]; line 98: the bytes of a page that is left out are read as well. *)
Fixpoint stream_next_fuel_f (T : thrift t_page_header) (m : mode) (fuel : nat) (s : faults * page_reader)
  : res (option (compressed_page + error) * (faults * page_reader)) :=
  let (fs, r) := s in
  match fuel with
  | O => Panic
  | S f =>
      if (pr_seen r <? pr_total r)%Z then
        match decode_read T (pr_max r) fs (pr_source r) with
        | (fs, source, Panic) => Panic
        | (fs, source, Err e) => Ok (Some (inr e), (fs, pr_at r source (pr_seen r) (pr_scratch r)))
        | (fs, source, Ok h) =>
            match get_page_header h with
            | Panic => Panic
            | Err e => Ok (Some (inr e), (fs, pr_at r source (pr_seen r) []))
            | Ok dh =>
                match sadd m 64 (pr_seen r) (counted dh) with
                | Panic => Panic
                | Err e => Ok (Some (inr e), (fs, pr_at r source (pr_seen r) []))
                | Ok seen =>
                    match try_usize (ph_compressed_size h) with
                    | Panic => Panic
                    | Err e => Ok (Some (inr e), (fs, pr_at r source seen []))
                    | Ok read_size =>
                        if match dh with Some dh => negb (pr_filter r (pr_descriptor r) dh) | None => false end
                        then
                          match take_read read_size fs source with
                          | (fs, source, Panic) => Panic
                          | (fs, source, Err e) => Ok (Some (inr e), (fs, pr_at r source seen []))
                          | (fs, source, Ok _) => stream_next_fuel_f T m f (fs, pr_at r source seen [])
                          end
                        else if pr_max r <? read_size then Ok (Some (inr WouldOverAllocate), (fs, pr_at r source seen []))
                        else
                          match take_read read_size fs source with
                          | (fs, source, Panic) => Panic
                          | (fs, source, Err e) => Ok (Some (inr e), (fs, pr_at r source seen []))
                          | (fs, source, Ok data) =>
                              let r' := pr_at r source seen [] in
                              if nlen data =? read_size then
                                match finish_page h data (pr_compression r) (pr_descriptor r) None with
                                | Panic => Panic
                                | Err e => Ok (Some (inr e), (fs, r'))
                                | Ok p => Ok (Some (inl p), (fs, r'))
                                end
                              else Ok (Some (inr OutOfSpec), (fs, r'))
                          end
                    end
                end
            end
        end
      else Ok (None, (fs, r))
  end.
(** read/page/stream.rs:75-129: the stream as its consumer polls it, see [stream_poll]. *)
Definition stream_poll_f (T : thrift t_page_header) (m : mode) (s : option (faults * page_reader))
  : res (option (compressed_page + error) * option (faults * page_reader)) :=
  match s with
  | None => Ok (None, None)
  | Some s =>
      let* (o, s) := stream_next_fuel_f T m (S (length (pr_source (snd s)))) s in
      Ok (o, match o with Some (inl _) => Some s | _ => None end)
  end.

(** read/page/indexed_reader.rs:46-71 [read_page]: the requests to the source; then the header is decoded from memory. *)
Definition read_page_at_f (T : thrift t_page_header) (start length : N) : reader (t_page_header * list N) :=
  do+ _ := seek_start start in
  do+ buffer := read_some length in
  rres (t_dec T 1048576 buffer).
(** read/page/indexed_reader.rs:196-206, the [Data] state of [next], see [ir_next_data]. The state is the reader with the place of its source
    and what that is going to do. *)
Fixpoint ir_next_data_f (T : thrift t_page_header) (d : drive) (r : indexed_reader) (pages : list filtered_page)
  : res (option (compressed_page + error) * (drive * indexed_reader)) :=
  let at_ pages := mk_ir (ir_file r) (ir_column_start r) (ir_compression r) (ir_descriptor r) pages Data in
  match pages with
  | [] => Ok (None, (d, at_ []))
  | page :: rest =>
      match fp_selected page with
      | [] => ir_next_data_f T d r rest
      | selected =>
          let (d, x) := (do+ (h, data) := read_page_at_f T (fp_start page) (fp_length page) in
                         rres (finish_page h data (ir_compression r) (ir_descriptor r) (Some selected))) d in
          item x (d, at_ rest)
      end
  end.
(** read/page/indexed_reader.rs:152-180 [read_dict] with 73-92 [read_dict_page], see [read_dict]. *)
Definition read_dict_f (T : thrift t_page_header) (m : mode) (r : indexed_reader) (d : drive) : res (option (drive * res compressed_page)) :=
  match ir_pages r with
  | [] => Ok None
  | page :: _ =>
      let* length := usub m 64 (fp_start page) (ir_column_start r) in
      if 0 <? length then
        Ok (Some ((do+ (h, data) := read_page_at_f T (ir_column_start r) length in
                   do+ p := rres (finish_page h data (ir_compression r) (ir_descriptor r) None) in
                   rres (match p with CDict p => Ok (CDict p) | CData _ => Err OutOfSpec end)) d))
      else Ok None
  end.
(** read/page/indexed_reader.rs:186-208 [next], see [ir_next]. *)
Definition ir_next_f (T : thrift t_page_header) (m : mode) (s : drive * indexed_reader)
  : res (option (compressed_page + error) * (drive * indexed_reader)) :=
  let (d, r) := s in
  match ir_state r with
  | Data => ir_next_data_f T d r (ir_pages r)
  | MaybeDict =>
      let* dict := read_dict_f T m r d in
      let r' := mk_ir (ir_file r) (ir_column_start r) (ir_compression r) (ir_descriptor r) (ir_pages r) Data in
      match dict with
      | Some (d, x) => item x (d, r')
      | None => ir_next_data_f T d r' (ir_pages r)
      end
  end.
