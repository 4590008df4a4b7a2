(** What the properties of reading and writing pages mean, apart from how the crate does it. *)
From Verif Require Import Base.Prelude Base.Iter Model.Types Model.Thrift Model.Intervals Model.Page Model.Io.
Open Scope N_scope.

(** The header stored for a page: its kind, sizes, and the one header struct of that kind. *)
Definition header_of (p : compressed_page) : t_page_header :=
  let u := Z.of_N (cp_uncompressed_size p) in
  let c := Z.of_N (nlen (cp_buffer p)) in
  match p with
  | CData d =>
      match cdp_header d with
      | HV1 h => mk_tph 0 u c None (Some h) None None None
      | HV2 h => mk_tph 3 u c None None None None (Some h)
      end
  | CDict d => mk_tph 2 u c None None None (Some (mk_tdict (Z.of_N (cdi_num_values d)) 0 None)) None
  end.

(** A page on disk is its header followed by its bytes; a chunk is its pages one after the other. *)
Definition page_bytes (T : thrift t_page_header) (p : compressed_page) : list N := t_enc T (header_of p) ++ cp_buffer p.
Definition chunk_bytes (T : thrift t_page_header) (l : list compressed_page) : list N := concat (map (page_bytes T) l).

(** The format stores sizes and counts as non-negative 32-bit integers. *)
Definition within_limits (p : compressed_page) : Prop :=
  nlen (cp_buffer p) < 2 ^ 31 /\ cp_uncompressed_size p < 2 ^ 31 /\
  match p with CDict d => cdi_num_values d < 2 ^ 31 | CData _ => True end.

(** The number of values a page declares, as it counts towards its column chunk: dictionary pages have none. *)
Definition values (p : compressed_page) : Z :=
  match p with
  | CData d => match cdp_header d with HV1 h => dh_num_values h | HV2 h => dh2_num_values h end
  | CDict _ => 0
  end.
Definition values_of (l : list compressed_page) : Z := fold_right (fun p n => (values p + n)%Z) 0%Z l.

(** The encodings named in a page's header are encodings of the format. *)
Definition known_encoding (z : Z) : Prop := (z = 0 \/ 2 <= z <= 9)%Z.
Definition known_encodings (p : compressed_page) : Prop :=
  match p with
  | CData d =>
      match cdp_header d with
      | HV1 h => known_encoding (dh_encoding h) /\ known_encoding (dh_def_encoding h) /\ known_encoding (dh_rep_encoding h)
      | HV2 h => known_encoding (dh2_encoding h)
      end
  | CDict _ => True
  end.

(** The page as somebody who reads it back should see it: same header, bytes, sizes and count; codec and column descriptor
    are those of the column, and the whole page is selected ([rows] is the selection asked for). *)
Definition read_page_of (c : compression) (d : descriptor) (rows : option (list interval)) (sorted : bool) (p : compressed_page) : compressed_page :=
  match p with
  | CData x => CData (mk_cdp (cdp_header x) (cdp_buffer x) c (cdp_uncompressed_size x) d rows)
  | CDict x => CDict (mk_cdict (cdi_buffer x) c (cdi_num_values x) (cdi_uncompressed_size x) sorted)
  end.

(** A page that a reader with the limit [max] can take: its header is read back within the limit, it is not larger
    than the limit, its encodings are known and its count is a non-negative 32-bit integer. *)
Definition takes (T : thrift t_page_header) (max : N) (p : compressed_page) : Prop :=
  within_limits p /\ known_encodings p /\ nlen (cp_buffer p) <= max /\ reads_back T max (header_of p) /\
  (0 <= values p < 2 ^ 31)%Z.

(** The pages a reader looks at when [left] values are still to come. *)
Fixpoint needed (left : Z) (l : list compressed_page) : list compressed_page :=
  match l with
  | [] => []
  | p :: r => if (left <=? 0)%Z then [] else p :: needed (left - values p) r
  end.

(** Dictionary pages are never filtered out. *)
Definition wanted (f : page_header -> bool) (p : compressed_page) : bool :=
  match p with CData d => f (cdp_header d) | CDict _ => true end.

(** The iterator in state [s] returns the items [l], then nothing, and is then in state [s']. *)
Inductive runs {S A} (next : S -> res (option A * S)) : S -> list A -> S -> Prop :=
| runs_nil s s' : next s = Ok (None, s') -> runs next s [] s'
| runs_cons s s1 a l s' : next s = Ok (Some a, s1) -> runs next s1 l s' -> runs next s (a :: l) s'.

(** Reading through an index. Each data page comes with the rows selected in it. Where each page lies, given where the first
    one starts: one entry per page, in order. *)
Fixpoint placed (T : thrift t_page_header) (start : N) (l : list (compressed_page * list interval)) : list filtered_page :=
  match l with
  | [] => []
  | (p, sel) :: r =>
      mk_fp start (nlen (page_bytes T p)) sel 0 :: placed T (start + nlen (page_bytes T p)) r
  end.
(** Two entries for the same bytes and rows. *)
Definition same_place (a b : filtered_page) : Prop :=
  fp_start a = fp_start b /\ fp_length a = fp_length b /\ fp_selected a = fp_selected b.

(** The pages with selected rows, as they should be read. *)
Definition has_rows (x : compressed_page * list interval) : bool := match snd x with [] => false | _ => true end.
Definition selected_pages (c : compression) (d : descriptor) (l : list (compressed_page * list interval)) : list compressed_page :=
  map (fun x => read_page_of c d (Some (snd x)) false (fst x)) (filter has_rows l).
