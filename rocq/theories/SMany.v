(** Specification side: closes with any number of index records per device part (C72). As SDots.v, but for the nodes of
    devices with more than 65536 records. *)
From Verif Require Export SDotsIndex.

(** What is left of the names of more than 256 leaf nodes: each further round takes the last 257 of them for two copies of the
    very last, so in the end there are two copies of the last name and at most 254 of the first names. *)
Definition top_names (l : list (list Z)) : list (list Z) :=
  if zlen l <=? 256 then rev l else let e := last l [] in e :: e :: rev (firstn (Z.to_nat ((zlen l - 2) mod 255)) l).
(** The names of the leaf nodes of a device: of every 65536th record. *)
Definition leaf_names (rows : list (list Z * list Z)) : list (list Z) :=
  map (fun leaf => fst (hd ([], []) (hd [] leaf))) (chop 256 (chop 256 rows)).
(** The node of a device whose records begin at [o]: up to 65536 records it is a leaf node with an entry for every 256 of
    them. With more it is an internal node whose entries, in descending order, all have the offset where the records end;
    the leaf nodes are not in the file. *)
Definition record_node (o : Z) (rows : list (list Z * list Z)) : list Z :=
  let e := o + zlen (rows_bytes rows) in
  if zlen rows <=? 65536 then node_image (entries o (chop 256 rows)) e 3
  else node_image (map (fun n => (n, e)) (top_names (leaf_names rows))) e 2.
Fixpoint record_nodes (o : Z) (l : list (list Z * list (list Z * list Z))) : list (list Z * list Z) :=
  match l with [] => [] | (d, rows) :: l' => (d, record_node o rows) :: record_nodes (o + zlen (rows_bytes rows)) l' end.
(** What a close appends. *)
Definition many_close_appends (snap : list Z -> option (list Z)) (stages : list (list piece)) (ps : list piece) (bs : list Z) : Prop :=
  exists nodes, Permutation nodes (record_nodes (8 + zlen (data_bytes snap ps)) (stage_rows snap stages)) /\ bs = any_close_bytes snap stages ps nodes.
Definition written_many (snap : list Z -> option (list Z)) (sc : schema) : list op -> list piece -> list (list piece) -> Prop :=
  session_file (many_close_appends snap) snap sc.

(** ** What is read *)
(** The entries below one device part, as far as they can be followed. *)
Definition part_read (decomp : list Z -> option (list Z)) (file d : list Z) : option (list found) :=
  match footer_read file with None => None | Some ft =>
  match find (fun eo => same_name (fst eo) d) (nd_entries (ft_root ft)) with None => None | Some eo =>
  match drop (snd eo) file with None => None | Some l =>
  match node_read l with None => None | Some (n, _) =>
  match measurements (length file) file n with None => None | Some tss =>
    all_some (map (fun ts => match all_some (map (fun r => chunk_at decomp file (fst r)) (ts_chunks ts)) with
                             | Some cs => Some (d, ts, cs) | None => None end) tss)
  end end end end end.
(** Every device part has one entry. Up to 65536 records all of them are found under it; with more, none is. *)
Definition parts_follow (p : profile) (snap decomp : list Z -> option (list Z)) (stages : list (list piece)) (file : list Z) : Prop :=
  exists ft, footer_read file = Some ft /\
    Permutation (map fst (nd_entries (ft_root ft))) (name_set (map device_part (concat (map (chunk_paths snap) stages)))) /\
    (forall d, In d (map fst (nd_entries (ft_root ft))) -> zlen (texts_of snap stages d) <= 65536 ->
      exists xs, part_read decomp file d = Some xs /\ Forall2 (text_found p snap) (texts_of snap stages d) xs /\
        forall m, lookup file d m = paged_lookup m (map f_meta xs)) /\
    (forall d, 65536 < zlen (texts_of snap stages d) ->
      exists n o q, lost_device file ft d n o q /\ (forall m, lookup file d m = None) /\
        ((forall d', In d' (map fst (nd_entries (ft_root ft))) -> d' = d) -> q = o /\ index_read decomp file = None)).
