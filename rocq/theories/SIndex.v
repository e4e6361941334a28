(** Specification side: what the index of a closed file should contain (C17, C18, C20, C24). *)
From Verif Require Export SReader SHist SBloom.
From Coq Require Export Sorting.Permutation Sorting.Sorted.

(** Hypotheses on schemas. *)
Definition no_dots (sc : schema) : Prop := forall d m ms, declares sc d m ms -> ~ In 46 m.
Definition small_devices (sc : schema) : Prop := Forall (fun dg => zlen (snd dg) <= 65536) sc.
Definition short_paths (sc : schema) : Prop := forall d m ms, declares sc d m ms -> zlen (d ++ [46] ++ m) < 2 ^ 31.
Definition byte_names (sc : schema) : Prop := forall d m ms, declares sc d m ms -> Forall (fun b => 0 <= b < 256) (d ++ [46] ++ m).

(** One series as found through the index: device, time series metadata, chunks. *)
Definition found := (list Z * tsmeta * list chunk)%type.
Definition f_key (x : found) : list Z * list Z := (fst (fst x), ts_name (snd (fst x))).
Definition f_meta (x : found) : tsmeta := snd (fst x).
Definition f_points (x : found) : list (Z * Z) := concat (map chunk_points (snd x)).

(** The accumulation tree of a series: its chunks, each made of pages, merged in order. *)
Definition series_tree (chunks : list (list (list (Z * value)))) : mtree :=
  fold_left (fun t pages => Merge t (chunk_tree pages)) chunks Empty.
(** The metadata of a series of type [dt] holding the points [pts]: the points are cut into chunks and
    pages; every chunk read holds its part; the series statistics are those of the whole; with several
    chunks every reference carries the statistics of its chunk, with one chunk it carries none. *)
Definition series_found (p : profile) (dt : dtype) (pts : list (Z * value)) (x : found) : Prop :=
  ts_type (f_meta x) = dtype_code dt /\ points_ok dt pts /\
  exists chunks, concat (map (@concat _) chunks) = pts /\
    Forall2 (fun pages k => chunk_points k = tnums (concat pages) /\ ch_name k = ts_name (f_meta x) /\ ch_type k = dtype_code dt /\
      exists stored, Forall2 (page_holds p dt stored) pages (ch_pages k)) chunks (snd x) /\
    (exists s, tree_stats p dt (series_tree chunks) = Ret s /\ same_stats (ts_stats (f_meta x)) s) /\
    Forall2 (fun pages r => match snd r with
                            | None => (length chunks = 1)%nat
                            | Some sf => (length chunks <> 1)%nat /\ exists s, tree_stats p dt (chunk_tree pages) = Ret s /\ same_stats sf s
                            end) chunks (ts_chunks (f_meta x)).

(** Byte order of names. *)
Inductive bytes_lt : list Z -> list Z -> Prop :=
  | bl_nil : forall b l, bytes_lt [] (b :: l)
  | bl_head : forall a b l m, a < b -> bytes_lt (a :: l) (b :: m)
  | bl_tail : forall a l m, bytes_lt l m -> bytes_lt (a :: l) (a :: m).

(** The names listed for one device, in order. *)
Definition names_of (d : list Z) (xs : list found) : list (list Z) := map (fun x => ts_name (f_meta x)) (filter (fun x => same_name (fst (f_key x)) d) xs).

(** The series of one device, in order. *)
Definition metas_of (d : list Z) (xs : list found) : list tsmeta := map f_meta (filter (fun x => same_name (fst (f_key x)) d) xs).
(** A measurement node over the series [tss]: one entry for every 256 of them, named after the first of these,
    whose range holds exactly these. *)
Definition node_shape (file : list Z) (n : node) (tss : list tsmeta) : Prop :=
  zlen (nd_entries n) = (zlen tss + 255) / 256 /\
  forall j name o, nth_error (nd_entries n) j = Some (name, o) ->
    exists e l, nth_error (ranges (nd_entries n) (nd_end n)) j = Some (o, e) /\ slice o e file = Some l /\
      many (length l) tsmeta_read l = Some (firstn 256 (skipn (256 * j) tss)) /\
      option_map ts_name (nth_error tss (256 * j)) = Some name.

(** A hash-map iteration order: some permutation of the entries. *)
Definition good_order (ord : hash_order) : Prop := forall l, Permutation (ord l) l.

(** [paths] lists the full names of the series in [S], [devs] their devices, each once. *)
Definition lists_paths (S : list Z -> list Z -> Prop) (paths : list (list Z)) : Prop :=
  NoDup paths /\ forall q, In q paths <-> exists d m, q = d ++ [46] ++ m /\ S d m.
Definition lists_devices (S : list Z -> list Z -> Prop) (devs : list (list Z)) : Prop :=
  NoDup devs /\ forall d, In d devs <-> exists m, S d m.

(** ** An index that loses a device: its entry [o] leads to an internal node of measurements whose entries
    all lead to the one place [q] *)
Record lost_device (file : list Z) (ft : footer) (d : list Z) (n : node) (o q : Z) : Prop := {
  ld_entry : In (d, o) (nd_entries (ft_root ft));
  ld_node : exists b r, drop o file = Some b /\ node_read b = Some (n, r);
  ld_type : nd_type n = 2;
  ld_some : nd_entries n <> [];
  ld_same : Forall (fun e => snd e = q) (nd_entries n) }.

(** ** Looking one series up *)
Fixpoint lex_leb (a b : list Z) : bool :=
  match a, b with
  | [], _ => true
  | _ :: _, [] => false
  | x :: a', y :: b' => (x <? y) || ((x =? y) && lex_leb a' b')
  end.
(** The range of the last entry whose name is not above [m]: what a binary search over sorted entries finds. *)
Fixpoint floor_range (m : list Z) (es : list (list Z * Z)) (e : Z) : option (Z * Z) :=
  match es with
  | [] => None
  | (n, o) :: es' =>
      match floor_range m es' e with
      | Some r => Some r
      | None => if lex_leb n m then Some (o, match es' with [] => e | (_, o') :: _ => o' end) else None
      end
  end.
(** The time series metadata named [m] below a leaf measurement node, reading only that range. *)
Definition node_lookup (file : list Z) (n : node) (m : list Z) : option tsmeta :=
  if nd_type n =? 3 then
    match floor_range m (nd_entries n) (nd_end n) with None => None | Some (a, b) =>
    match slice a b file with None => None | Some l =>
    match many (length l) tsmeta_read l with None => None | Some tss => find (fun ts => same_name (ts_name ts) m) tss
    end end end
  else None.
Definition entry_lookup (file : list Z) (eo : list Z * Z) (m : list Z) : option tsmeta :=
  match drop (snd eo) file with None => None | Some l =>
  match node_read l with None => None | Some (n, _) => node_lookup file n m end end.
(** The whole lookup; devices are searched linearly (the root is not sorted). *)
Definition lookup (file : list Z) (d m : list Z) : option tsmeta :=
  match footer_read file with None => None | Some ft =>
  match find (fun eo => same_name (fst eo) d) (nd_entries (ft_root ft)) with None => None | Some eo => entry_lookup file eo m end end.
