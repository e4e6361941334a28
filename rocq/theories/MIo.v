(** writer/tsfile_io_writer.rs *)
From Verif Require Export MIndex.

(** [TsFileIoWriter] tsfile_io_writer.rs:10-18; [ChunkGroupMetadata] (writer/mod.rs:312-315) is a pair. *)
Record io_writer := mkIO {
  io_out : sink;
  io_device : option str;
  io_chunks : list chunk_meta;
  io_current : option chunk_meta;
  io_groups : list (str * list chunk_meta);
  io_tsmeta : smap (list ts_meta) }.

(** record updates of [TsFileIoWriter], tsfile_io_writer.rs:10-18: writing to [out] *)
Definition io_with_out (o : sink) (w : io_writer) : io_writer :=
  mkIO o (io_device w) (io_chunks w) (io_current w) (io_groups w) (io_tsmeta w).
(** Changing [timeseries_metadata_map], tsfile_io_writer.rs:252-260 *)
Definition io_with_tsmeta (m : smap (list ts_meta)) (w : io_writer) : io_writer :=
  mkIO (io_out w) (io_device w) (io_chunks w) (io_current w) (io_groups w) m.

(** "TsFile", tsfile_io_writer.rs:86, 191 *)
Definition MAGIC : list byte := [84; 115; 70; 105; 108; 101].

(** [new] + [start_file] tsfile_io_writer.rs:68-89: [None] is [Err(IoError)]. *)
Definition io_new (out : sink) : sink * option io_writer :=
  match wexec (WThen (WAll MAGIC) (WThen (WAll [3]) WNil)) out with
  | (out', true) => (out', Some (mkIO out' None [] None [] []))
  | (out', false) => (out', None)
  end.

(** [start_flush_chunk] tsfile_io_writer.rs:36-64 (result of the header dropped) *)
Definition start_flush_chunk (id : str) (comp : compression) (dt : dtype) (enc : encoding)
    (st : stats) (data_size num_pages : Z) (w : io_writer) : io_writer :=
  let cm := {| cm_id := id; cm_type := dt; cm_offset := wrapS 64 (sk_pos (io_out w)); cm_stats := st |} in
  mkIO (fst (wexec (chunk_header id data_size dt comp enc num_pages) (io_out w)))
       (io_device w) (io_chunks w) (Some cm) (io_groups w) (io_tsmeta w).

(** [end_current_chunk] tsfile_io_writer.rs:21-31 *)
Definition end_current_chunk (w : io_writer) : outcome io_writer :=
  match io_current w with
  | None => Panic PExplicit
  | Some m => Ret (mkIO (io_out w) (io_device w) (io_chunks w ++ [m]) None (io_groups w) (io_tsmeta w))
  end.

(** [start_chunk_group] tsfile_io_writer.rs:91-103; the boolean is [true] for [Ok]. *)
Definition start_chunk_group (device : str) (w : io_writer) : io_writer * bool :=
  match wexec (chunk_group_header device) (io_out w) with
  | (out', true) => (mkIO out' (Some device) [] (io_current w) (io_groups w) (io_tsmeta w), true)
  | (out', false) => (io_with_out out' w, false)
  end.

(** [end_chunk_group] tsfile_io_writer.rs:115-132 ([out.flush()] has no effect on a file or [Vec]) *)
Definition end_chunk_group (w : io_writer) : io_writer :=
  match io_device w, io_chunks w with
  | None, _ => w
  | _, [] => w
  | Some d, cs => mkIO (io_out w) None [] (io_current w) (io_groups w ++ [(d, cs)]) (io_tsmeta w)
  end.

(** [write_all_pages_of_chunk_to_ts_file] chunk_writer.rs:222-261 *)
Definition write_all_pages (c : chunk_writer) (w : io_writer) : outcome io_writer :=
  if st_count (cw_stats c) =? 0 then Ret w
  else
    let w := start_flush_chunk (cw_id c) (cw_comp c) (cw_type c) (cw_enc c) (cw_stats c)
               (wrapU 32 (zlen (cw_buffer c))) (cw_num_pages c) w in
    let w := io_with_out (fst (wexec (WAll (cw_buffer c)) (io_out w))) w in
    end_current_chunk w.

(** [write_to_file_writer] chunk_writer.rs:208-220 *)
Definition write_to_file_writer (p : profile) (snap : compressor) (c : chunk_writer) (w : io_writer)
  : outcome (chunk_writer * io_writer) :=
  let* c := seal_current_page p snap c in
  let* w := write_all_pages c w in
  Ret ({| cw_id := cw_id c; cw_type := cw_type c; cw_comp := cw_comp c; cw_enc := cw_enc c;
          cw_stats := stats_new (cw_type c); cw_page := cw_page c; cw_buffer := [];
          cw_num_pages := 0; cw_first_stats := None; cw_next_check := cw_next_check c;
          cw_size_wo_stats := cw_size_wo_stats c |}, w).

(** [format!("{}.{}", device, measurement)] tsfile_io_writer.rs:147-150 *)
Definition path_of (device measurement : str) : str := device ++ [46] ++ measurement.

(** Chunk metadata map, tsfile_io_writer.rs:144-162 *)
Definition chunk_map_add (device : str) (m : smap (list chunk_meta)) (cm : chunk_meta)
  : smap (list chunk_meta) :=
  let path := path_of device (cm_id cm) in
  match sm_get path m with
  | None => sm_insert path [cm] m
  | Some l => sm_insert path (l ++ [cm]) m
  end.
(** All groups, tsfile_io_writer.rs:145-162 *)
Definition chunk_map (groups : list (str * list chunk_meta)) : smap (list chunk_meta) :=
  fold_left (fun m g => fold_left (chunk_map_add (fst g)) (snd g) m) groups [].

(** [path.split('.')] (std): the segments between dots, tsfile_io_writer.rs:243 *)
Fixpoint split_dot (s : str) : list str :=
  match s with
  | [] => [[]]
  | c :: s' =>
      if c =? 46 then [] :: split_dot s'
      else match split_dot s' with
           | [] => [[c]]
           | seg :: segs => (c :: seg) :: segs
           end
  end.
(** Device id: all segments but the last, joined by dots, tsfile_io_writer.rs:243-250 *)
Fixpoint join_dot (segs : list str) : str :=
  match segs with
  | [] => []
  | [s] => s
  | s :: segs' => s ++ [46] ++ join_dot segs'
  end.
(** [device_id] tsfile_io_writer.rs:243-250 *)
Definition device_of_path (path : str) : str := join_dot (removelast (split_dot path)).

(** One time series, tsfile_io_writer.rs:211-240: only chunks of the first chunk's data type. *)
Definition ts_meta_of (p : profile) (metadata : list chunk_meta) : outcome ts_meta :=
  match metadata with
  | [] => Panic PUnwrap
  | m0 :: _ =>
      let dt := cm_type m0 in
      let serialize_statistic := (1 <? length metadata)%nat in
      let* r := foldM (fun acc m =>
                  let '(buffer, st) := acc in
                  if dtype_eqb (cm_type m) dt then
                    let* st' := stats_merge p st (cm_stats m) in
                    Ret (buffer ++ wbytes (chunk_meta_serialize serialize_statistic m), st')
                  else Ret acc) metadata ([], stats_new dt) in
      let '(buffer, st) := r in
      Ret {| tm_type := Z.lor (if serialize_statistic then 1 else 0) 0;
             tm_list_size := zlen buffer; tm_id := cm_id m0; tm_dtype := dt;
             tm_stats := st; tm_buffer := buffer |}
  end.

(** Loop of [flush_metadata_index], tsfile_io_writer.rs:198-261; [last] is [last_path], which is set by
    the first path only. *)
Fixpoint metadata_loop (p : profile) (last : option str) (l : smap (list chunk_meta))
    (acc : smap (list ts_meta)) : outcome (smap (list ts_meta)) :=
  match l with
  | [] => Ret acc
  | (path, metadata) :: l' =>
      let* last' := match last with
                    | None => Ret (Some path)
                    | Some q => if str_ltb q path then Ret last else Panic PExplicit   (* 205-208 *)
                    end in
      let* tm := ts_meta_of p metadata in
      let dev := device_of_path path in
      let acc' := sm_insert dev (match sm_get dev acc with Some x => x | None => [] end ++ [tm]) acc in
      metadata_loop p last' l' acc'
  end.

(** [end_file] tsfile_io_writer.rs:134-192 with [flush_metadata_index] 194-273; results of all
    writes dropped. *)
Definition end_file (p : profile) (ord : hash_order) (w : io_writer) : outcome io_writer :=
  let cmap := chunk_map (io_groups w) in
  let meta_offset := sk_pos (io_out w) in
  let out := fst (wexec (WAll [2]) (io_out w)) in                                   (* 168 *)
  let* tsm := metadata_loop p None cmap (io_tsmeta w) in                             (* 170 *)
  let w := io_with_tsmeta tsm w in
  let* r := construct_metadata_index cfg_max_degree_of_index_node ord tsm out in
  let '(index, out) := r in
  let footer_index := sk_pos out in                                                 (* 174 *)
  let out := fst (wexec (ts_file_metadata_serialize index meta_offset) out) in      (* 176 *)
  let* bf := bloom_build p (map fst cmap) in                                        (* 180-182 *)
  let* bw := bloom_serialize bf in
  let out := fst (wexec bw out) in                                                  (* 184 *)
  let size_of_footer := wrapU 32 (sk_pos out - footer_index) in                     (* 186 *)
  let out := fst (wexec (WAll (be_bytes 4 size_of_footer)) out) in                  (* 188 *)
  let out := fst (wexec (WAll MAGIC) out) in                                        (* 191 *)
  Ret (io_with_out out w).
