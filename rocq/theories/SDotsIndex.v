(** Specification side: what is read through the index when names are of any kind (C63). *)
From Verif Require Export SDots.

(** Of the chunks with one text, those with the type of the first. *)
Definition same_type (l : list spot) : list spot :=
  match l with [] => [] | c :: _ => filter (fun y => dtype_code (ms_type (s_ms y)) =? dtype_code (ms_type (s_ms c))) l end.
(** The entry of the text [snd sq], listed when the pieces [fst sq] were in the file: it has device part, name and type
    described in SDots.v, refers to the chunks of that type, in order, with their statistics unless there is one chunk only;
    the chunks hold their points; the statistics are those of these chunks. *)
Definition text_found (p : profile) (snap : list Z -> option (list Z)) (sq : list piece * list Z) (x : found) : Prop :=
  let l := chunks_at snap (snd sq) (fst sq) in
  exists c l', l = c :: l' /\
  let dt := ms_type (s_ms c) in
  f_key x = (device_part (snd sq), s_name c) /\ ts_type (f_meta x) = dtype_code dt /\
  map fst (ts_chunks (f_meta x)) = map s_at (same_type l) /\ map ch_name (snd x) = map s_name (same_type l) /\
  exists cuts, map (@concat _) cuts = map s_points (same_type l) /\
    Forall2 (fun pages k => chunk_points k = tnums (concat pages) /\ ch_type k = dtype_code dt /\
      exists stored, Forall2 (page_holds p dt stored) pages (ch_pages k)) cuts (snd x) /\
    (exists s, tree_stats p dt (series_tree cuts) = Ret s /\ same_stats (ts_stats (f_meta x)) s) /\
    Forall2 (fun pages r => match snd r with
                            | None => zlen l = 1
                            | Some sf => zlen l <> 1 /\ exists s, tree_stats p dt (chunk_tree pages) = Ret s /\ same_stats sf s
                            end) cuts (ts_chunks (f_meta x)).
(** The texts a device part lists, close by close. *)
Definition texts_of (snap : list Z -> option (list Z)) (stages : list (list piece)) (d : list Z) : list (list piece * list Z) :=
  concat (map (fun ps => map (pair ps) (filter (fun q => same_name (device_part q) d) (chunk_paths snap ps))) stages).
(** Everything the index leads to: device part by device part, in some order. *)
Definition index_lists (p : profile) (snap decomp : list Z -> option (list Z)) (stages : list (list piece)) (file : list Z) : Prop :=
  exists ds xs, index_read decomp file = Some xs /\ Permutation ds (name_set (map device_part (concat (map (chunk_paths snap) stages)))) /\
    Forall2 (text_found p snap) (concat (map (texts_of snap stages) ds)) xs.

(** Looking up a name: an index node has one entry for every 256 records, with the name of the first; the search goes to
    the last entry whose name is not greater and takes the first record with the name there. *)
Fixpoint floor_page (m : list Z) (pages : list (list tsmeta)) : option (list tsmeta) :=
  match pages with
  | [] => None
  | b :: pages' =>
      match floor_page m pages' with
      | Some r => Some r
      | None => match b with [] => None | t :: _ => if lex_leb (ts_name t) m then Some b else None end
      end
  end.
Definition paged_lookup (m : list Z) (ts : list tsmeta) : option tsmeta :=
  match floor_page m (chop 256 ts) with Some b => find (fun t => same_name (ts_name t) m) b | None => None end.
Definition lookups_follow (decomp : list Z -> option (list Z)) (file : list Z) : Prop :=
  forall xs d m, index_read decomp file = Some xs -> lookup file d m = paged_lookup m (map f_meta (filter (fun x => same_name (fst (f_key x)) d) xs)).

(** The points of one series in the chunks of a file. *)
Definition series_points (snap : list Z -> option (list Z)) (d m : list Z) (ps : list piece) : list (Z * value) :=
  concat (map s_points (filter (fun x => same_name (s_device x) d && same_name (s_name x) m) (spots snap 7 ps))).
(** No other declared series has the text of (d, m). *)
Definition own_text (sc : schema) (d m : list Z) : Prop :=
  forall d' m' ms, declares sc d' m' ms -> d' ++ [46] ++ m' = d ++ [46] ++ m -> d' = d /\ m' = m.
(** All declared series with the text of (d, m) have the type [dt]. *)
Definition one_type (sc : schema) (d m : list Z) (dt : dtype) : Prop :=
  forall d' m' ms, declares sc d' m' ms -> d' ++ [46] ++ m' = d ++ [46] ++ m -> ms_type ms = dt.
(** The chunk [s] has the type of the first chunk with its text. *)
Definition leads (snap : list Z -> option (list Z)) (ps : list piece) (s : spot) : Prop :=
  exists c l, chunks_at snap (s_path s) ps = c :: l /\ ms_type (s_ms s) = ms_type (s_ms c).
