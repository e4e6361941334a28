(** Property C59: files of any size. The theorems on single files (C16 - C21, C24, C35, C55, C56, C58) assume a file below
    4 GiB. That bound is not needed: what has to stay below 4 GiB is what one call appends ([modest]), since chunk and
    metadata sizes are four byte fields, and what is buffered at one time ([roomy]), since the memory estimate is a u32. *)
From Verif Require Import PropertiesWriter PropertiesIndex PropertiesLayout PropertiesComplete PropertiesDebug PLarge.
Open Scope list_scope. Open Scope Z_scope.

(** The bounds from the schema and the calls alone, and as a special case of the former ones. *)
Theorem C59_ample : forall p snap decomp sc ops ord, good_snap snap decomp -> schema_ok sc -> ops_ok ops -> no_close ops = true -> ample snap sc ops ->
  no_dots sc -> small_devices sc -> good_order ord -> roomy snap sc ops /\ modest p snap sc (ops ++ [OpClose ord]).
Proof. exact ample_enough. Qed.
Print Assumptions C59_ample.
Theorem C59_small : forall p snap sc out w0 ops o w l w' a, writer_new sc (sink_new healthy) = (out, Some w0) -> run p snap w0 ops = Ret (w, l) ->
  step p snap w o = Ret (w', a) -> zlen (file_bytes w') < 2 ^ 32 -> modest p snap sc (ops ++ [o]).
Proof. exact small_enough. Qed.
Print Assumptions C59_small.

(** Reading a closed file front to back. *)
Theorem C59_scan : forall p snap decomp sc w h ops l ord w' a, good_snap snap decomp -> schema_ok sc ->
  trace p snap sc w h ops l -> ops_ok ops -> no_close ops = true -> h_recent h = [] \/ 0 < h_counted h ->
  step p snap w (OpClose ord) = Ret (w', a) -> modest p snap sc (ops ++ [OpClose ord]) ->
  exists cs, read_file decomp (file_bytes w') = Some cs /\
    (forall d m, SReader.series_in cs d m = tnums (series_of d m (h_all h))) /\ Forall (kind_ok sc) cs.
Proof. intros p snap decomp sc w h ops l ord w' a HG Hs. exact (close_file_large p snap decomp HG sc Hs w h ops l ord w' a). Qed.
Print Assumptions C59_scan.

(** Recorded offsets. *)
Theorem C59_offsets : forall p snap decomp sc w h ops l, good_snap snap decomp -> schema_ok sc ->
  trace p snap sc w h ops l -> ops_ok ops -> modest p snap sc ops ->
  (forall d l cm, In (d, l) (io_groups (w_io w)) -> In cm l ->
    exists k ms, chunk_at decomp (file_bytes w) (cm_offset cm) = Some k /\
      declares sc d (cm_id cm) ms /\ cm_type cm = ms_type ms /\
      ch_name k = cm_id cm /\ ch_type k = dtype_code (cm_type cm) /\ chunk_points k <> [] /\
      in_group decomp (file_bytes w) d (cm_offset cm)) /\
  (forall d m, List.concat (map (points_at decomp (file_bytes w)) (recorded (io_groups (w_io w)) d m)) = tnums (series_of d m (h_flushed h))).
Proof. intros p snap decomp sc w h ops l HG Hs. exact (offsets_large p snap decomp HG sc Hs w h ops l). Qed.
Print Assumptions C59_offsets.

(** A crash: what was flushed can be read from the file followed by anything, and from a cut file. *)
Theorem C59_survive : forall p snap decomp sc w h ops l tail, good_snap snap decomp -> schema_ok sc ->
  trace p snap sc w h ops l -> ops_ok ops -> no_close ops = true -> modest p snap sc ops ->
  exists cs extra rest, scan_file decomp (file_bytes w ++ tail) = Some (cs ++ extra, rest) /\
    (forall d m, SReader.series_in cs d m = tnums (series_of d m (h_flushed h))) /\ Forall (kind_ok sc) cs.
Proof. intros p snap decomp sc w h ops l tail HG Hs. exact (survive_large p snap decomp HG sc Hs w h ops l tail). Qed.
Print Assumptions C59_survive.

Theorem C59_survive_cut : forall p snap decomp sc w h ops l ops' w' l' k, good_snap snap decomp -> schema_ok sc ->
  trace p snap sc w h ops l -> ops_ok ops -> no_close ops = true -> modest p snap sc ops ->
  run p snap w ops' = Ret (w', l') -> (List.length (file_bytes w) <= k)%nat ->
  exists cs extra rest, scan_file decomp (firstn k (file_bytes w')) = Some (cs ++ extra, rest) /\
    (forall d m, SReader.series_in cs d m = tnums (series_of d m (h_flushed h))) /\ Forall (kind_ok sc) cs.
Proof. intros p snap decomp sc w h ops l ops' w' l' k HG Hs. exact (survive_cut_large p snap decomp HG sc Hs w h ops l ops' w' l' k). Qed.
Print Assumptions C59_survive_cut.

(** Framing of a closed file. *)
Theorem C59_framing : forall p snap decomp sc w h ops l ord w' a, good_snap snap decomp -> schema_ok sc ->
  trace p snap sc w h ops l -> ops_ok ops -> no_close ops = true ->
  step p snap w (OpClose ord) = Ret (w', a) -> modest p snap sc (ops ++ [OpClose ord]) -> good_order ord -> short_paths sc ->
  exists cs data meta foot nb root off bloom l1 l2,
    file_bytes w' = magic ++ [3] ++ data ++ [2] ++ meta ++ foot ++ nb ++ magic /\ zlen nb = 4 /\ be_val nb = zlen foot /\
    node_read foot = Some (root, l1) /\ be_unsigned 8 l1 = Some (off, l2) /\ bloom_read l2 = Some (bloom, []) /\
    off = zlen (magic ++ [3] ++ data) /\
    scan_file decomp (file_bytes w') = Some (cs, [2] ++ meta ++ foot ++ nb ++ magic).
Proof. intros p snap decomp sc w h ops l ord w' a HG Hs. exact (framing_large p snap decomp HG sc Hs w h ops l ord w' a). Qed.
Print Assumptions C59_framing.

(** Reading through the index: the accepted points, the acknowledged points, the statistics. *)
Theorem C59_index_accepted : forall p snap decomp sc w h ops l ord w' a, good_snap snap decomp -> schema_ok sc ->
  trace p snap sc w h ops l -> ops_ok ops -> no_close ops = true -> h_recent h = [] \/ 0 < h_counted h ->
  step p snap w (OpClose ord) = Ret (w', a) -> modest p snap sc (ops ++ [OpClose ord]) -> good_order ord -> no_dots sc -> small_devices sc ->
  exists xs, index_read decomp (file_bytes w') = Some xs /\ NoDup (map f_key xs) /\
    (forall d m, In (d, m) (map f_key xs) <-> series_of d m (h_all h) <> []) /\
    (forall x d m, In x xs -> f_key x = (d, m) -> f_points x = tnums (series_of d m (h_all h)) /\ lookup (file_bytes w') d m = Some (f_meta x) /\
       exists ms, declares sc d m ms /\ series_found p (ms_type ms) (series_of d m (h_all h)) x).
Proof. exact index_accepted_large. Qed.
Print Assumptions C59_index_accepted.

Theorem C59_index_acknowledged : forall p snap decomp sc out w0 ops w l ord w' a, good_snap snap decomp -> schema_ok sc ->
  writer_new sc (sink_new healthy) = (out, Some w0) -> run p snap w0 ops = Ret (w, l) ->
  ops_ok ops -> no_close ops = true -> batches_ok ops l ->
  step p snap w (OpClose ord) = Ret (w', a) -> modest p snap sc (ops ++ [OpClose ord]) -> good_order ord -> no_dots sc -> small_devices sc ->
  exists xs, index_read decomp (file_bytes w') = Some xs /\ NoDup (map f_key xs) /\
    (forall d m, In (d, m) (map f_key xs) <-> series_of d m (acked ops l) <> []) /\
    (forall x d m, In x xs -> f_key x = (d, m) -> f_points x = tnums (series_of d m (acked ops l)) /\ lookup (file_bytes w') d m = Some (f_meta x)).
Proof. exact index_acked_large. Qed.
Print Assumptions C59_index_acknowledged.

Theorem C59_statistics : forall p snap decomp sc w h ops l ord w' a xs x d m ms, good_snap snap decomp -> schema_ok sc ->
  trace p snap sc w h ops l -> ops_ok ops -> no_close ops = true -> h_recent h = [] \/ 0 < h_counted h ->
  step p snap w (OpClose ord) = Ret (w', a) -> modest p snap sc (ops ++ [OpClose ord]) -> good_order ord -> no_dots sc -> small_devices sc ->
  index_read decomp (file_bytes w') = Some xs -> In x xs -> f_key x = (d, m) -> declares sc d m ms ->
  let pts := series_of d m (h_all h) in let s := ts_stats (f_meta x) in
  Exists (fun tv => fst tv < i64_max) pts ->
  sf_count s = zlen pts /\ is_min (sf_start s) (times pts) /\ is_max (sf_end s) (times pts) /\
  In (sf_start s, sf_first s) (tnums pts) /\ In (sf_end s, sf_last s) (tnums pts) /\
  (ms_type ms <> FLOAT -> is_min (sf_min s) (nums pts) /\ is_max (sf_max s) (nums pts)) /\
  (ms_type ms = INT32 -> sf_sum s = zsum (nums pts)) /\
  (ms_type ms = FLOAT -> Exists f32_finite (nums pts) -> In (sf_min s) (nums pts) /\ In (sf_max s) (nums pts) /\
     Forall (fun v => ~ f32_nan v -> f32_key (sf_min s) <= f32_key v <= f32_key (sf_max s)) (nums pts)).
Proof. exact index_statistics_large. Qed.
Print Assumptions C59_statistics.

(** Order of the index, the filter, and the series kept apart. *)
Theorem C59_sorted : forall p snap decomp sc w h ops l ord w' a, good_snap snap decomp -> schema_ok sc ->
  trace p snap sc w h ops l -> ops_ok ops -> no_close ops = true -> h_recent h = [] \/ 0 < h_counted h ->
  step p snap w (OpClose ord) = Ret (w', a) -> modest p snap sc (ops ++ [OpClose ord]) -> good_order ord -> no_dots sc -> small_devices sc ->
  exists ft xs, footer_read (file_bytes w') = Some ft /\ index_read decomp (file_bytes w') = Some xs /\
    (* the names of each device in index order *)
    (forall d, StronglySorted bytes_lt (names_of d xs)) /\
    (* the measurement node of each device: its entries are sorted, one for every 256 series *)
    Forall (fun eo => exists b n b', drop (snd eo) (file_bytes w') = Some b /\ node_read b = Some (n, b') /\ nd_type n = 3 /\
                      StronglySorted bytes_lt (map fst (nd_entries n)) /\ node_shape (file_bytes w') n (metas_of (fst eo) xs)) (nd_entries (ft_root ft)) /\
    (* searching the entries of one device finds a series iff it is there *)
    (forall d m, lookup (file_bytes w') d m = option_map f_meta (find (fun x => same_name (fst (f_key x)) d && same_name (snd (f_key x)) m) xs)).
Proof. exact index_sorted_large. Qed.
Print Assumptions C59_sorted.

Theorem C59_devices : forall p snap decomp sc w h ops l ord w' a, good_snap snap decomp -> schema_ok sc ->
  trace p snap sc w h ops l -> ops_ok ops -> no_close ops = true -> h_recent h = [] \/ 0 < h_counted h ->
  step p snap w (OpClose ord) = Ret (w', a) -> modest p snap sc (ops ++ [OpClose ord]) -> good_order ord -> no_dots sc -> small_devices sc ->
  exists ft (imap : list (str * index_node)), footer_read (file_bytes w') = Some ft /\
    map fst (nd_entries (ft_root ft)) = map fst (ord imap) /\ StronglySorted bytes_lt (map fst imap) /\
    NoDup (map fst (nd_entries (ft_root ft))) /\
    (forall d, In d (map fst (nd_entries (ft_root ft))) <-> exists m, series_of d m (h_all h) <> []).
Proof. exact index_devices_large. Qed.
Print Assumptions C59_devices.

Theorem C59_filter : forall p snap decomp sc w h ops l ord w' a, good_snap snap decomp -> schema_ok sc ->
  trace p snap sc w h ops l -> ops_ok ops -> no_close ops = true -> h_recent h = [] \/ 0 < h_counted h ->
  step p snap w (OpClose ord) = Ret (w', a) -> modest p snap sc (ops ++ [OpClose ord]) -> good_order ord -> short_paths sc -> byte_names sc ->
  exists ft, footer_read (file_bytes w') = Some ft /\
    forall d m, series_of d m (h_all h) <> [] -> might_contain (ft_bloom ft) (d ++ [46] ++ m) = true.
Proof. exact closed_bloom_large. Qed.
Print Assumptions C59_filter.

Theorem C59_apart : forall p snap decomp sc w h ops l ord w' a, good_snap snap decomp -> schema_ok sc ->
  trace p snap sc w h ops l -> ops_ok ops -> no_close ops = true -> h_recent h = [] \/ 0 < h_counted h ->
  step p snap w (OpClose ord) = Ret (w', a) -> modest p snap sc (ops ++ [OpClose ord]) -> good_order ord -> no_dots sc -> small_devices sc ->
  exists xs, index_read decomp (file_bytes w') = Some xs /\
    (forall d m, series_of d m (h_all h) <> [] -> exists pre x post, xs = pre ++ x :: post /\ f_key x = (d, m) /\
       f_points x = tnums (series_of d m (h_all h)) /\ Forall (fun y => f_key y <> (d, m)) (pre ++ post)) /\
    Forall (fun x => is_declared sc (fst (f_key x)) (snd (f_key x)) = true) xs.
Proof. exact index_apart_large. Qed.
Print Assumptions C59_apart.

(** Flush points and the exact bytes. *)
Theorem C59_flush_points : forall p snap decomp sc w h ops l, good_snap snap decomp -> schema_ok sc -> trace p snap sc w h ops l -> ops_ok ops ->
  no_close ops = true -> roomy snap sc ops ->
  let s := session_of snap sc ops in h = ss_hist s /\ h_flushed h = concat (ss_flushes s) /\ w_next_check w = ss_next s.
Proof. exact flush_points_large. Qed.
Print Assumptions C59_flush_points.

Theorem C59_open : forall p snap decomp sc out w0 ops w l, good_snap snap decomp -> schema_ok sc ->
  writer_new sc (sink_new healthy) = (out, Some w0) -> run p snap w0 ops = Ret (w, l) -> ops_ok ops -> no_close ops = true ->
  roomy snap sc ops -> modest p snap sc ops ->
  file_bytes w = open_file snap sc (ss_flushes (session_of snap sc ops)).
Proof. exact open_run_large. Qed.
Print Assumptions C59_open.

Theorem C59_closed : forall p snap decomp sc out w0 ops ord w l, good_snap snap decomp -> schema_ok sc ->
  writer_new sc (sink_new healthy) = (out, Some w0) -> run p snap w0 (ops ++ [OpClose ord]) = Ret (w, l) -> ops_ok ops -> no_close ops = true ->
  roomy snap sc ops -> modest p snap sc (ops ++ [OpClose ord]) -> good_order ord ->
  no_dots sc -> small_devices sc -> byte_names sc -> short_paths sc ->
  let flushes := final_flushes (session_of snap sc ops) in
  exists nodes, Permutation nodes (file_nodes snap sc flushes) /\ file_bytes w = closed_file snap sc flushes nodes.
Proof. exact closed_run_large. Qed.
Print Assumptions C59_closed.

(** Every outcome of a session, in both builds. *)
Theorem C59_session : forall snap decomp sc out w0 ops, good_snap snap decomp -> schema_ok sc -> writer_new sc (sink_new healthy) = (out, Some w0) ->
  ops_ok ops -> no_close ops = true -> roomy snap sc ops ->
  match replies snap sc session_new ops with
  | Some l => exists w, run Release snap w0 ops = Ret (w, l)
  | None => exists e, run Release snap w0 ops = Panic e
  end.
Proof. intros snap decomp sc out w0 ops HG Hs. exact (session_complete snap decomp HG sc Hs out w0 ops). Qed.
Print Assumptions C59_session.

Theorem C59_closed_session : forall snap decomp sc out w0 ops ord, good_snap snap decomp -> schema_ok sc -> writer_new sc (sink_new healthy) = (out, Some w0) ->
  ops_ok ops -> no_close ops = true -> roomy snap sc ops -> no_dots sc -> byte_names sc -> short_paths sc ->
  match replies snap sc session_new ops with
  | None => exists e, run Release snap w0 (ops ++ [OpClose ord]) = Panic e
  | Some l =>
      if closable sc (List.concat (final_flushes (session_of snap sc ops))) then exists w, run Release snap w0 (ops ++ [OpClose ord]) = Ret (w, l ++ [AUnit])
      else exists e, run Release snap w0 (ops ++ [OpClose ord]) = Panic e
  end.
Proof. intros snap decomp sc out w0 ops ord HG Hs. exact (closed_session_complete snap decomp HG sc Hs out w0 ops ord). Qed.
Print Assumptions C59_closed_session.

Theorem C59_debug_session : forall snap decomp sc out w0 ops, good_snap snap decomp -> schema_ok sc -> writer_new sc (sink_new healthy) = (out, Some w0) ->
  ops_ok ops -> no_close ops = true -> roomy snap sc ops ->
  match debug_replies snap sc session_new ops with
  | Some l => exists w, run Debug snap w0 ops = Ret (w, l)
  | None => exists e, run Debug snap w0 ops = Panic e
  end.
Proof. intros snap decomp sc out w0 ops HG Hs. exact (debug_session_complete snap decomp HG sc Hs out w0 ops). Qed.
Print Assumptions C59_debug_session.

Theorem C59_debug_closed_session : forall snap decomp sc out w0 ops ord, good_snap snap decomp -> schema_ok sc -> writer_new sc (sink_new healthy) = (out, Some w0) ->
  ops_ok ops -> no_close ops = true -> roomy snap sc ops -> no_dots sc -> byte_names sc -> short_paths sc ->
  match debug_replies snap sc session_new ops with
  | None => exists e, run Debug snap w0 (ops ++ [OpClose ord]) = Panic e
  | Some l =>
      if debug_closable sc (session_of snap sc ops) then exists w, run Debug snap w0 (ops ++ [OpClose ord]) = Ret (w, l ++ [AUnit])
      else exists e, run Debug snap w0 (ops ++ [OpClose ord]) = Panic e
  end.
Proof. intros snap decomp sc out w0 ops ord HG Hs. exact (debug_closed_complete snap decomp HG sc Hs out w0 ops ord). Qed.
Print Assumptions C59_debug_closed_session.

(** The session of C17 is ample: all hypotheses above hold for it. *)
Example C59_case : ample ex_snap ix_sc ix_ops /\ roomy ex_snap ix_sc ix_ops /\ modest Release ex_snap ix_sc (ix_ops ++ [OpClose (@rev _)]).
Proof.
  assert (A : ample ex_snap ix_sc ix_ops).
  { split; [reflexivity|]. split; [|vm_compute; reflexivity]. intros a o b E. pose proof (session_recent ex_snap ix_sc a) as S. assert (X : zsum (map op_points a) + op_points o <= zsum (map op_points ix_ops)).
    { rewrite E, map_app, zsum_app. cbn [map]. rewrite zsum_cons. pose proof (points_nonneg b). lia. }
    assert (Z1 : zsum (map op_points ix_ops) < 1000) by reflexivity. assert (Z2 : per_flush ix_sc < 10000) by reflexivity. lia. }
  split; [exact A|]. eapply C59_ample; eauto; try apply ix_names; try apply ix_ok; [exact ex_snap_good|exact ix_sc_ok|exact order_rev].
Qed.
