(** Chunks as any writer may store them. *)
From Verif Require Import Base.Prelude Model.Types Model.Thrift Model.Intervals Model.Page Model.Io Spec.PagesSpec.
Open Scope N_scope.

(** A page with the header in front of it. A header describes a page if it gives its kind, its sizes and the struct of that kind.
    Writers are free in the rest: checksums, further structs, the encoding of a dictionary. A dictionary is sorted if its header says so. *)
Definition describes (h : t_page_header) (p : compressed_page) : Prop :=
  ph_uncompressed_size h = Z.of_N (cp_uncompressed_size p) /\ ph_compressed_size h = Z.of_N (nlen (cp_buffer p)) /\
  match p with
  | CData d =>
      match cdp_header d with
      | HV1 x => ph_type h = 0%Z /\ ph_data h = Some x
      | HV2 x => ph_type h = 3%Z /\ ph_data_v2 h = Some x
      end
  | CDict d =>
      ph_type h = 2%Z /\ exists x, ph_dict h = Some x /\ dict_num_values x = Z.of_N (cdi_num_values d) /\
        (cdi_is_sorted d = true <-> dict_is_sorted x = Some true)
  end.

(** One page after the other. *)
Definition stored_bytes (T : thrift t_page_header) (x : t_page_header * compressed_page) : list N := t_enc T (fst x) ++ cp_buffer (snd x).
Definition stored_chunk (T : thrift t_page_header) (l : list (t_page_header * compressed_page)) : list N := concat (map (stored_bytes T) l).

(** A stored page that a reader with the limit [max] can take. *)
Definition readable (T : thrift t_page_header) (max : N) (x : t_page_header * compressed_page) : Prop :=
  describes (fst x) (snd x) /\ known_encodings (snd x) /\ nlen (cp_buffer (snd x)) <= max /\ reads_back T max (fst x) /\
  (0 <= values (snd x) < 2 ^ 31)%Z.

(** The page as it is read: codec and descriptor are those of the column, the whole page is selected. *)
Definition as_stored (c : compression) (d : descriptor) (p : compressed_page) : compressed_page :=
  match p with
  | CData x => CData (mk_cdp (cdp_header x) (cdp_buffer x) c (cdp_uncompressed_size x) d None)
  | CDict x => CDict (mk_cdict (cdi_buffer x) c (cdi_num_values x) (cdi_uncompressed_size x) (cdi_is_sorted x))
  end.
