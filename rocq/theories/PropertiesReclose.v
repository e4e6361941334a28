(** Property C54: a writer goes on after [close]. Every close lists again everything flushed so far, after the
    earlier listings; a reader going through the index sees every series once per close, a lookup finds the
    listing of the first close, a reader going front to back stops at the first close. *)
From Verif Require Import PropertiesWriter PropertiesIndex PRecloseFile.
Open Scope list_scope. Open Scope Z_scope.

(** ** Material for the examples: series "b" is written, the file closed, "a" and "b" are written, the file closed again *)
Definition rc_ops : list op :=
  [OpWrite [100] [98] 1 (VLong 5); OpClose (fun l => l); OpWrite [100] [97] 2 (VInt 7); OpWrite [100] [98] 3 (VLong 6)].
Definition rc_run : writer * list answer := Eval vm_compute in
  match run Release ex_snap ix_start rc_ops with Ret r => r | Panic _ => (ix_start, []) end.
Definition rc_closed : writer := Eval vm_compute in
  match step Release ex_snap (fst rc_run) (OpClose (fun l => l)) with Ret r => fst r | Panic _ => ix_start end.
Example rc_case : good_snap ex_snap ex_snap /\ schema_ok ix_sc /\ (exists out, writer_new ix_sc (sink_new healthy) = (out, Some ix_start)) /\
  run Release ex_snap ix_start rc_ops = Ret (fst rc_run, [AOk; AUnit; AOk; AOk]) /\ ops_ok rc_ops /\ batches_ok rc_ops [AOk; AUnit; AOk; AOk] /\
  step Release ex_snap (fst rc_run) (OpClose (fun l => l)) = Ret (rc_closed, AUnit) /\ zlen (file_bytes rc_closed) < 2 ^ 32 /\ good_order (fun l => l) /\ no_dots ix_sc /\
  closings [] rc_ops [AOk; AUnit; AOk; AOk] ++ [acked rc_ops [AOk; AUnit; AOk; AOk]] =
    [[mkPoint [100] [98] 1 (VLong 5)]; [mkPoint [100] [98] 1 (VLong 5); mkPoint [100] [97] 2 (VInt 7); mkPoint [100] [98] 3 (VLong 6)]] /\
  few_entries ix_sc 2 256.
Proof.
  split; [exact ex_snap_good|]. split; [exact ix_sc_ok|]. split; [exact ix_new|]. split; [vm_compute; reflexivity|].
  split; [split; [|reflexivity]; repeat apply Forall_cons; try apply Forall_nil; repeat split; vm_compute; try discriminate|].
  split; [repeat constructor|]. split; [vm_compute; reflexivity|]. split; [reflexivity|]. split; [exact order_id|]. split; [exact (proj1 ix_names)|]. split; [reflexivity|].
  repeat apply Forall_cons; try apply Forall_nil; vm_compute; discriminate.
Qed.

(** ** Through the index: one entry of every series for each close at which it held data, with the data it held then *)
Theorem C54_index : forall p snap decomp sc out w0 ops w l ord w' a, good_snap snap decomp -> schema_ok sc ->
  writer_new sc (sink_new healthy) = (out, Some w0) -> run p snap w0 ops = Ret (w, l) -> ops_ok ops -> batches_ok ops l ->
  step p snap w (OpClose ord) = Ret (w', a) -> zlen (file_bytes w') < 2 ^ 32 -> good_order ord -> no_dots sc ->
  let pss := closings [] ops l ++ [acked ops l] in few_entries sc (zlen pss) 65536 ->
  exists xs, index_read decomp (file_bytes w') = Some xs /\
    Forall (fun x => exists ms, declares sc (fst (f_key x)) (snd (f_key x)) ms) xs /\
    (forall d m ms, declares sc d m ms -> Forall2 (series_found p (ms_type ms)) (versions d m pss) (entries_of d m xs)) /\
    (forall d m, map f_points (entries_of d m xs) = map tnums (versions d m pss)).
Proof. exact reclose_index. Qed.
Print Assumptions C54_index.
Example C54_index_case : option_map (map (fun x => (f_key x, f_points x))) (index_read ex_snap (file_bytes rc_closed)) =
  Some [(([100], [98]), [(1, 5)]); (([100], [97]), [(2, 7)]); (([100], [98]), [(1, 5); (3, 6)])].
Proof. vm_compute. reflexivity. Qed.

(** ** Looking a series up, with at most 256 entries of one device: the listing of the first close at which the
    device held data decides. A series in it is found as it was then; a name below all names in it is not found. *)
Theorem C54_lookup : forall p snap decomp sc out w0 ops w l ord w' a, good_snap snap decomp -> schema_ok sc ->
  writer_new sc (sink_new healthy) = (out, Some w0) -> run p snap w0 ops = Ret (w, l) -> ops_ok ops -> batches_ok ops l ->
  step p snap w (OpClose ord) = Ret (w', a) -> zlen (file_bytes w') < 2 ^ 32 -> good_order ord -> no_dots sc ->
  let pss := closings [] ops l ++ [acked ops l] in few_entries sc (zlen pss) 256 ->
  forall d before q after, pss = before ++ q :: after -> (forall pts m, In pts before -> series_of d m pts = []) -> (exists m, series_of d m q <> []) ->
  (forall m, (forall m', series_of d m' q <> [] -> bytes_lt m m') -> lookup (file_bytes w') d m = None) /\
  (forall m, series_of d m q <> [] -> exists x ms, declares sc d m ms /\ lookup (file_bytes w') d m = Some (f_meta x) /\ f_key x = (d, m) /\ series_found p (ms_type ms) (series_of d m q) x) /\
  (forall xs m m', index_read decomp (file_bytes w') = Some xs -> series_of d m' q <> [] -> ~ bytes_lt m m' -> lookup (file_bytes w') d m = option_map f_meta (hd_error (entries_of d m xs))).
Proof. exact reclose_lookup. Qed.
Print Assumptions C54_lookup.
(** "b" is found with the one point of the first close although it has two; "a" is not found although it has one. *)
Example C54_lookup_case : option_map (fun ts => (sf_count (ts_stats ts), sf_end (ts_stats ts))) (lookup (file_bytes rc_closed) [100] [98]) = Some (1, 1) /\
  lookup (file_bytes rc_closed) [100] [97] = None.
Proof. vm_compute. auto. Qed.
(** So lookup in a file closed twice does not find every stored series (C20 holds for the first close only). *)
Theorem C54_lookup_after_second_close_refuted : exists p snap sc w0 ops w l ord w' d m,
  writer_new sc (sink_new healthy) = (io_out (w_io w0), Some w0) /\ run p snap w0 ops = Ret (w, l) /\ step p snap w (OpClose ord) = Ret (w', AUnit) /\
  series_of d m (acked ops l) <> [] /\ lookup (file_bytes w') d m = None.
Proof.
  exists Release, ex_snap, ix_sc, ix_start, rc_ops, (fst rc_run), [AOk; AUnit; AOk; AOk], (fun l => l), rc_closed, [100], [97].
  split; [vm_compute; reflexivity|]. split; [vm_compute; reflexivity|]. split; [vm_compute; reflexivity|]. split; [discriminate|vm_compute; reflexivity].
Qed.
Print Assumptions C54_lookup_after_second_close_refuted.

(** ** Front to back: only what the first close found, whatever was written and closed afterwards *)
Theorem C54_scan : forall p snap decomp sc out w0 ops w l pts pss, good_snap snap decomp -> schema_ok sc ->
  writer_new sc (sink_new healthy) = (out, Some w0) -> run p snap w0 ops = Ret (w, l) -> ops_ok ops -> batches_ok ops l ->
  closings [] ops l = pts :: pss -> zlen (file_bytes w) < 2 ^ 32 ->
  exists cs, read_file decomp (file_bytes w) = Some cs /\ (forall d m, SReader.series_in cs d m = tnums (series_of d m pts)) /\ Forall (kind_ok sc) cs.
Proof. exact reclose_scan. Qed.
Print Assumptions C54_scan.
Example C54_scan_case : match read_file ex_snap (file_bytes rc_closed) with
  | Some cs => SReader.series_in cs [100] [98] = [(1, 5)] /\ SReader.series_in cs [100] [97] = []
  | None => False end.
Proof. vm_compute. auto. Qed.
