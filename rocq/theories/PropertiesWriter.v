(** Properties C15, C16, C19, C25-C31, C35, C40 of the writer. [run] / [step] (MWriter.v) execute API calls;
    [trace] (SHist.v) is a run from a new writer on a healthy sink together with the history of what should
    have been stored; [read_file], [scan_file], [chunk_at] (SReader.v) are an independent TsFile reader. *)
From Verif Require Import PMem.
From Coq Require Import String.
Open Scope list_scope. Open Scope Z_scope.

(** ** Material for the examples *)
Definition ex_snap : list Z -> option (list Z) := fun l => Some l.
Lemma ex_snap_good : good_snap ex_snap ex_snap.
Proof. intros l _ H. exists l. split; [reflexivity|]. split; [reflexivity|]. assert (0 <= zlen l / 6) by (apply Z.div_pos; [apply zlen_nonneg|lia]). lia. Qed.
(** device "d": "a" INT32 PLAIN, "b" INT64 TS_2DIFF SNAPPY, "f" FLOAT TS_2DIFF *)
Definition ex_sc : schema :=
  [([100], [([97], mkMS INT32 PLAIN UNCOMPRESSED); ([98], mkMS INT64 TS2DIFF SNAPPY); ([102], mkMS FLOAT TS2DIFF UNCOMPRESSED)])].
Lemma ex_sc_ok : schema_ok ex_sc.
Proof. split; [|]; repeat constructor; cbn; try tauto; try (intros [|[|]]; congruence); intros []; congruence. Qed.
Definition ex_ops : list op :=
  [OpWrite [100] [97] 5 (VInt 7); OpWrite [100] [97] 5 (VInt 8); OpWriteMany [100] 6 [([97], VInt 1); ([98], VLong (-4))];
   OpWrite [120] [97] 5 (VInt 7)].
Definition ex_start : writer := match writer_new ex_sc (sink_new healthy) with (_, Some w) => w | (o, None) => mkW (mkIO o None [] None [] []) [] 0 0 [] end.
Definition ex_run : writer * list answer := Eval vm_compute in
  match run Release ex_snap ex_start ex_ops with Ret r => r | Panic _ => (ex_start, []) end.
Definition ex_w : writer := fst ex_run.
Example ex_new : exists out, writer_new ex_sc (sink_new healthy) = (out, Some ex_start).
Proof. eexists. vm_compute. reflexivity. Qed.
Example ex_runs : run Release ex_snap ex_start ex_ops = Ret (ex_w, snd ex_run) /\
  snd ex_run = [AOk; AErr EOutOfOrderData; AOk; AErr (EIllegalState (Some "No Group Writer found"%string))].
Proof. vm_compute. auto. Qed.
Example ex_ok : ops_ok ex_ops /\ no_close ex_ops = true /\ batches_ok ex_ops (snd ex_run).
Proof.
  split; [|split; [reflexivity|]].
  - split; [|reflexivity]. repeat constructor; cbn; discriminate.
  - rewrite (proj2 ex_runs). repeat constructor.
Qed.
Example ex_trace : exists h, trace Release ex_snap ex_sc ex_w h ex_ops (snd ex_run).
Proof. destruct ex_new as [out N]. exact (run_trace _ _ _ _ _ _ _ _ N (proj1 ex_runs)). Qed.

(** ** C15 *)
Theorem C15_flush_never_fails : forall p snap decomp sc w h ops l w' e, good_snap snap decomp -> schema_ok sc ->
  trace p snap sc w h ops l -> ops_ok ops -> flush_all p snap w = Ret (w', e) -> e = None.
Proof. intros p snap decomp sc w h ops l w' e HG Hs. exact (flush_no_error p snap decomp HG sc Hs w h ops l w' e). Qed.
Print Assumptions C15_flush_never_fails.
(** The predicted size of each chunk group is the number of bytes it emits (any healthy sink position). *)
Theorem C15_group_sizes : forall p snap decomp sc w h ops l d g io g' io' n, good_snap snap decomp -> schema_ok sc ->
  trace p snap sc w h ops l -> ops_ok ops -> sm_get d (w_groups w) = Some g -> is_healthy (io_out io) ->
  flush_to_filewriter p snap g io = Ret (g', io', n) ->
  n = sk_pos (io_out io') - sk_pos (io_out io) /\ n = zlen (sk_data (io_out io')) - zlen (sk_data (io_out io)).
Proof. intros p snap decomp sc w h ops l d g io g' io' n HG Hs. exact (group_sizes p snap decomp HG sc Hs w h ops l d g io g' io' n). Qed.
Print Assumptions C15_group_sizes.
Example C15_case : match flush_all Release ex_snap ex_w with
  | Ret (w', None) => zlen (file_bytes w') = 104 | _ => False end.
Proof. vm_compute. reflexivity. Qed.

(** ** C16: the closed file read sequentially holds exactly the acknowledged points. *)
Theorem C16_closed_file_holds_acknowledged : forall p snap decomp sc out w0 ops w l ord w' a,
  good_snap snap decomp -> schema_ok sc -> writer_new sc (sink_new healthy) = (out, Some w0) ->
  run p snap w0 ops = Ret (w, l) -> ops_ok ops -> no_close ops = true -> batches_ok ops l ->
  step p snap w (OpClose ord) = Ret (w', a) -> zlen (file_bytes w') < 2 ^ 32 ->
  exists cs, read_file decomp (file_bytes w') = Some cs /\
    (forall d m, SReader.series_in cs d m = tnums (series_of d m (acked ops l))) /\ Forall (kind_ok sc) cs.
Proof. intros p snap decomp sc out w0 ops w l ord w' a HG Hs. exact (close_acked p snap decomp HG sc Hs out w0 ops w l ord w' a). Qed.
Print Assumptions C16_closed_file_holds_acknowledged.
(** With failing batches: the accepted points [h_all h] of the history, if at least one call since the last
    flush succeeded (or nothing is pending). *)
Theorem C16_closed_file_holds_accepted : forall p snap decomp sc w h ops l ord w' a, good_snap snap decomp -> schema_ok sc ->
  trace p snap sc w h ops l -> ops_ok ops -> no_close ops = true -> h_recent h = [] \/ 0 < h_counted h ->
  step p snap w (OpClose ord) = Ret (w', a) -> zlen (file_bytes w') < 2 ^ 32 ->
  exists cs, read_file decomp (file_bytes w') = Some cs /\
    (forall d m, SReader.series_in cs d m = tnums (series_of d m (h_all h))) /\ Forall (kind_ok sc) cs.
Proof. intros p snap decomp sc w h ops l ord w' a HG Hs. exact (close_file p snap decomp HG sc Hs w h ops l ord w' a). Qed.
Print Assumptions C16_closed_file_holds_accepted.
Example C16_case : match step Release ex_snap ex_w (OpClose (fun l => l)) with
  | Ret (w', AUnit) => option_map (fun cs => (SReader.series_in cs [100] [97], SReader.series_in cs [100] [98])) (read_file ex_snap (file_bytes w'))
      = Some ([(5, 7); (6, 1)], [(6, -4)])
  | _ => False end.
Proof. vm_compute. reflexivity. Qed.
(** The side condition is needed: a batch that stores a point and then fails is not counted; if nothing else
    is written, close drops that point, although a later successful write would have kept it. *)
Theorem C16_uncounted_refuted : exists h ops l w w' a cs,
  trace Release ex_snap ex_sc w h ops l /\ ops_ok ops /\ no_close ops = true /\
  step Release ex_snap w (OpClose (fun l => l)) = Ret (w', a) /\ read_file ex_snap (file_bytes w') = Some cs /\
  series_of [100] [97] (h_all h) = [(5, VInt 7)] /\ SReader.series_in cs [100] [97] = [].
Proof.
  set (ops := [OpWriteMany [100] 5 [([97], VInt 7); ([97], VInt 8)]]). destruct ex_new as [out N].
  assert (R : exists w, step Release ex_snap ex_start (OpWriteMany [100] 5 [([97], VInt 7); ([97], VInt 8)]) = Ret (w, AErr EOutOfOrderData) /\ grew ex_start w = false /\
    exists w' cs, step Release ex_snap w (OpClose (fun l => l)) = Ret (w', AUnit) /\ read_file ex_snap (file_bytes w') = Some cs /\ SReader.series_in cs [100] [97] = []).
  { eexists. split; [vm_compute; reflexivity|]. split; [vm_compute; reflexivity|]. eexists. eexists. split; [vm_compute; reflexivity|]. split; vm_compute; reflexivity. }
  destruct R as (w & S & G & w' & cs & C & RF & SI). pose proof (trace_step Release ex_snap ex_sc _ _ _ _ _ _ _ (trace_new Release ex_snap ex_sc out _ N) S) as T.
  rewrite G in T. eexists. exists ops. eexists. exists w, w', AUnit, cs. split; [exact T|]. split; [|split; [reflexivity|]].
  - split; [|reflexivity]. repeat constructor; cbn; discriminate.
  - split; [exact C|]. split; [exact RF|]. split; [reflexivity|exact SI].
Qed.
Print Assumptions C16_uncounted_refuted.

(** ** C19 *)
Theorem C19_offsets_hit_headers : forall p snap decomp sc w h ops l, good_snap snap decomp -> schema_ok sc ->
  trace p snap sc w h ops l -> ops_ok ops -> zlen (file_bytes w) < 2 ^ 32 ->
  (forall d l cm, In (d, l) (io_groups (w_io w)) -> In cm l ->
    exists k ms, chunk_at decomp (file_bytes w) (cm_offset cm) = Some k /\
      declares sc d (cm_id cm) ms /\ cm_type cm = ms_type ms /\
      ch_name k = cm_id cm /\ ch_type k = dtype_code (cm_type cm) /\ chunk_points k <> [] /\
      in_group decomp (file_bytes w) d (cm_offset cm)) /\
  (forall d m, List.concat (map (points_at decomp (file_bytes w)) (recorded (io_groups (w_io w)) d m)) = tnums (series_of d m (h_flushed h))).
Proof. intros p snap decomp sc w h ops l HG Hs. exact (offsets_ok p snap decomp HG sc Hs w h ops l). Qed.
Print Assumptions C19_offsets_hit_headers.
Example C19_case : match flush_all Release ex_snap ex_w with
  | Ret (w', None) => map (fun g => (fst g, map (fun cm => (cm_id cm, cm_offset cm)) (snd g))) (io_groups (w_io w')) = [([100], [([97], 10); ([98], 46)])] /\
      option_map ch_name (chunk_at ex_snap (file_bytes w') 46) = Some [98]
  | _ => False end.
Proof. vm_compute. auto. Qed.

(** ** C25 (any sink, also a failing one) *)
Theorem C25_failed_writes_leave_no_trace : forall p snap sc sched out w ops w' l,
  writer_new sc (sink_new sched) = (out, Some w) -> run p snap w ops = Ret (w', l) ->
  exists w'', run p snap w (map fst (survivors ops l)) = Ret (w'', map snd (survivors ops l)) /\ file_bytes w'' = file_bytes w'.
Proof. exact failed_no_trace. Qed.
Print Assumptions C25_failed_writes_leave_no_trace.
Example C25_case : map fst (survivors ex_ops (snd ex_run)) = [OpWrite [100] [97] 5 (VInt 7); OpWriteMany [100] 6 [([97], VInt 1); ([98], VLong (-4))]].
Proof. vm_compute. reflexivity. Qed.

(** ** C26: every answer, and strictly increasing non-negative times between flushes. *)
Theorem C26_answers : forall p snap decomp sc w h ops l o w' a, good_snap snap decomp -> schema_ok sc ->
  trace p snap sc w h ops l -> ops_ok (ops ++ [o]) -> step p snap w o = Ret (w', a) -> answers sc h o a.
Proof. intros p snap decomp sc w h ops l o w' a HG Hs. exact (trace_step_ok p snap decomp HG sc Hs w h ops l o w' a). Qed.
Print Assumptions C26_answers.
Theorem C26_increasing : forall p snap sc w h ops l d m, trace p snap sc w h ops l ->
  increasing (-1) (map fst (series_of d m (h_recent h))).
Proof. exact recent_increasing. Qed.
Print Assumptions C26_increasing.
Example C26_case : forall h, trace Release ex_snap ex_sc ex_w h ex_ops (snd ex_run) ->
  forall w' a, step Release ex_snap ex_w (OpWrite [100] [98] (-1) (VLong 0)) = Ret (w', a) -> a = AErr EOutOfOrderData.
Proof. intros h _ w' a H. vm_compute in H. inversion H. reflexivity. Qed.

(** ** C27 *)
Theorem C27_flush_forgets : forall p snap sc w h ops l o w' a, trace p snap sc w h ops l -> step p snap w o = Ret (w', a) ->
  grew w w' = true -> 0 < h_counted (h_call sc o h) ->
  h_recent (h_step sc o (grew w w') h) = [] /\ h_flushed (h_step sc o (grew w w') h) = h_all (h_call sc o h).
Proof. exact after_flush. Qed.
Print Assumptions C27_flush_forgets.
Theorem C27_accepted_again : forall p snap decomp sc w h ops l d m ms t v w' a, good_snap snap decomp -> schema_ok sc ->
  trace p snap sc w h ops l -> ops_ok (ops ++ [OpWrite d m t v]) -> h_recent h = [] -> declares sc d m ms -> 0 <= t ->
  step p snap w (OpWrite d m t v) = Ret (w', a) -> a = AOk.
Proof. intros p snap decomp sc w h ops l d m ms t v w' a HG Hs. exact (accepted_again p snap decomp HG sc Hs w h ops l d m ms t v w' a). Qed.
Print Assumptions C27_accepted_again.
Definition c27_next (w : writer) (o : op) : writer := match step Release ex_snap w o with Ret r => fst r | Panic _ => w end.
Definition c27_put : op := OpWrite [100] [97] 5 (VInt 7).
Definition c27_close : op := OpClose (fun l => l).
Definition c27_w1 : writer := Eval vm_compute in c27_next ex_start c27_put.
Definition c27_w2 : writer := Eval vm_compute in c27_next c27_w1 c27_close.
Definition c27_h1 : hist := h_step ex_sc c27_put (grew ex_start c27_w1) h_new.
Example C27_case : trace Release ex_snap ex_sc c27_w1 c27_h1 [c27_put] [AOk] /\ step Release ex_snap c27_w1 c27_close = Ret (c27_w2, AUnit) /\
  grew c27_w1 c27_w2 = true /\ 0 < h_counted (h_call ex_sc c27_close c27_h1) /\
  trace Release ex_snap ex_sc c27_w2 (h_step ex_sc c27_close (grew c27_w1 c27_w2) c27_h1) [c27_put; c27_close] [AOk; AUnit] /\
  h_recent (h_step ex_sc c27_close (grew c27_w1 c27_w2) c27_h1) = [] /\
  match step Release ex_snap c27_w2 (OpWrite [100] [97] 2 (VInt 9)) with Ret (_, AOk) => True | _ => False end.
Proof.
  assert (S1 : step Release ex_snap ex_start c27_put = Ret (c27_w1, AOk)) by (vm_compute; reflexivity).
  assert (S2 : step Release ex_snap c27_w1 c27_close = Ret (c27_w2, AUnit)) by (vm_compute; reflexivity).
  destruct ex_new as [out N]. pose proof (trace_step _ _ _ _ _ _ _ _ _ _ (trace_new Release ex_snap ex_sc out ex_start N) S1) as T1. pose proof (trace_step _ _ _ _ _ _ _ _ _ _ T1 S2) as T2.
  split; [exact T1|]. split; [exact S2|]. split; [vm_compute; reflexivity|]. split; [vm_compute; reflexivity|]. split; [exact T2|]. split; [vm_compute; reflexivity|]. vm_compute. exact I.
Qed.
(** The lifetime order fails: both points are acknowledged, the second one is older. *)
Theorem C27_lifetime_order_refuted : exists ops w, run Release ex_snap ex_start ops = Ret (w, [AOk; AUnit; AOk]) /\
  series_of [100] [97] (acked ops [AOk; AUnit; AOk]) = [(5, VInt 7); (3, VInt 8)].
Proof.
  exists [OpWrite [100] [97] 5 (VInt 7); OpClose (fun l => l); OpWrite [100] [97] 3 (VInt 8)].
  eexists. split; [vm_compute; reflexivity|reflexivity].
Qed.
Print Assumptions C27_lifetime_order_refuted.

(** ** C28 *)
Theorem C28_write_many_as_singles : forall p snap decomp sc w h ops l d t vs w1 a1 w2 l2, good_snap snap decomp -> schema_ok sc ->
  trace p snap sc w h ops l -> ops_ok (ops ++ [OpWriteMany d t vs]) -> has_device sc d = true ->
  step p snap w (OpWriteMany d t vs) = Ret (w1, a1) -> run p snap w (singles d t vs) = Ret (w2, l2) ->
  file_bytes w1 = file_bytes w -> file_bytes w2 = file_bytes w ->
  (a1 = AOk /\ Forall (eq AOk) l2 /\ buffered w2 = buffered w1 /\ w_records w2 = w_records w1) \/
  (exists e a m v b w3 l3 w4 l4, a1 = AErr e /\ vs = a ++ (m, v) :: b /\ run p snap w (singles d t a) = Ret (w3, l3) /\ Forall (eq AOk) l3 /\
     step p snap w3 (OpWrite d m t v) = Ret (w4, AErr e) /\ l2 = l3 ++ AErr e :: l4 /\
     buffered w1 = buffered w3 /\ w_records w1 = w_records w).
Proof. intros p snap decomp sc w h ops l d t vs w1 a1 w2 l2 HG Hs. exact (write_many_as_singles p snap decomp HG sc Hs w h ops l d t vs w1 a1 w2 l2). Qed.
Print Assumptions C28_write_many_as_singles.
(** In terms of the history, also when a flush is triggered: C26_answers gives the answer, and what is stored
    is [h_batch] - the points up to the first rejected one. *)
Theorem C28_not_atomic_refuted : exists vs w, step Release ex_snap ex_start (OpWriteMany [100] 5 vs) = Ret (w, AErr EOutOfOrderData) /\
  buffered w <> buffered ex_start.
Proof.
  exists [([97], VInt 7); ([97], VInt 8)]. eexists. split; [vm_compute; reflexivity|]. vm_compute. discriminate.
Qed.
Print Assumptions C28_not_atomic_refuted.
Example C28_case : match step Release ex_snap ex_w (OpWriteMany [100] 9 [([98], VLong 1); ([97], VInt 2)]),
    run Release ex_snap ex_w (singles [100] 9 [([98], VLong 1); ([97], VInt 2)]) with
  | Ret (w1, AOk), Ret (w2, [AOk; AOk]) => file_bytes w1 = file_bytes ex_w /\ file_bytes w2 = file_bytes ex_w
  | _, _ => False end.
Proof. vm_compute. auto. Qed.

(** ** C29 *)
Theorem C29_interleaving_irrelevant : forall p snap decomp sc w1 h1 ops1 l1 w2 h2 ops2 l2 ord w1' a1, good_snap snap decomp -> schema_ok sc ->
  trace p snap sc w1 h1 ops1 l1 -> trace p snap sc w2 h2 ops2 l2 ->
  ops_ok ops1 -> ops_ok ops2 -> no_close ops1 = true -> no_close ops2 = true -> batches_ok ops1 l1 -> batches_ok ops2 l2 ->
  zlen (file_bytes w1) = 7 -> zlen (file_bytes w2) = 7 ->
  (forall d m, series_of d m (acked ops1 l1) = series_of d m (acked ops2 l2)) ->
  step p snap w1 (OpClose ord) = Ret (w1', a1) ->
  exists w2', step p snap w2 (OpClose ord) = Ret (w2', a1) /\ file_bytes w2' = file_bytes w1'.
Proof. intros p snap decomp sc w1 h1 ops1 l1 w2 h2 ops2 l2 ord w1' a1 HG Hs. exact (interleaving p snap decomp HG sc Hs w1 h1 ops1 l1 w2 h2 ops2 l2 ord w1' a1). Qed.
Print Assumptions C29_interleaving_irrelevant.
Example C29_case : let ops2 := [OpWrite [100] [98] 6 (VLong (-4)); OpWrite [100] [97] 5 (VInt 7); OpWrite [100] [97] 6 (VInt 1)] in
  exists w2, run Release ex_snap ex_start ops2 = Ret (w2, [AOk; AOk; AOk]) /\ zlen (file_bytes w2) = 7 /\ zlen (file_bytes ex_w) = 7 /\
  forall d m, series_of d m (acked ops2 [AOk; AOk; AOk]) = series_of d m (acked ex_ops (snd ex_run)).
Proof.
  cbv zeta. eexists. split; [vm_compute; reflexivity|]. split; [reflexivity|]. split; [reflexivity|].
  intros d m. rewrite (proj2 ex_runs). unfold series_of, ex_ops. cbn [acked acked1 app map fst snd filter pt_device pt_name].
  destruct (same_name [100] d), (same_name [97] m) eqn:A, (same_name [98] m) eqn:B; cbn [andb]; try reflexivity.
  apply same_name_eq in A. apply same_name_eq in B. congruence.
Qed.

(** ** C30 *)
Theorem C30_mismatch_panics : forall p snap decomp sc w h ops l d m ms t v r, good_snap snap decomp -> schema_ok sc ->
  trace p snap sc w h ops l -> ops_ok (ops ++ [OpWrite d m t v]) -> declares sc d m ms -> last_time h d m < t ->
  storable ms v = false -> step p snap w (OpWrite d m t v) <> Ret r.
Proof.
  intros p snap decomp sc w h ops l d m ms t v r HG Hs T O D L S H.
  rewrite (step_storable p snap decomp HG sc Hs w h ops l d t [] m v [] h ms _ r T O (or_intror (conj eq_refl eq_refl)) eq_refl L D H) in S. discriminate.
Qed.
Print Assumptions C30_mismatch_panics.
(** in a batch: as soon as the point is reached *)
Theorem C30_mismatch_panics_batch : forall p snap decomp sc w h ops l d t a m v b h' ms r, good_snap snap decomp -> schema_ok sc ->
  trace p snap sc w h ops l -> ops_ok (ops ++ [OpWriteMany d t (a ++ (m, v) :: b)]) -> h_batch sc d t a h = (h', true) ->
  declares sc d m ms -> last_time h' d m < t -> storable ms v = false ->
  step p snap w (OpWriteMany d t (a ++ (m, v) :: b)) <> Ret r.
Proof.
  intros p snap decomp sc w h ops l d t a m v b h' ms r HG Hs T O B D L S H.
  rewrite (step_storable p snap decomp HG sc Hs w h ops l d t a m v b h' ms _ r T O (or_introl eq_refl) B L D H) in S. discriminate.
Qed.
Print Assumptions C30_mismatch_panics_batch.
Theorem C30_only_storable_stored : forall p snap decomp sc w h ops l, good_snap snap decomp -> schema_ok sc ->
  trace p snap sc w h ops l -> ops_ok ops -> Forall (point_storable sc) (h_all h).
Proof. intros p snap decomp sc w h ops l HG Hs. exact (stored_storable p snap decomp HG sc Hs w h ops l). Qed.
Print Assumptions C30_only_storable_stored.
Example C30_case : step Release ex_snap ex_w (OpWrite [100] [97] 9 (VLong 7)) = Panic PTodo /\
  step Release ex_snap ex_w (OpWrite [100] [102] 9 (VFloat 0)) = Panic PUnwrap /\
  step Debug ex_snap ex_w (OpWrite [100] [98] 9 (VDouble 7)) = Panic PTodo.
Proof. vm_compute. auto. Qed.

(** ** C31 *)
Theorem C31_second_close_appends : forall p snap decomp sc w h ops l ord1 ord2 w1 a1 w2 a2, good_snap snap decomp -> schema_ok sc ->
  trace p snap sc w h ops l -> ops_ok ops -> h_recent h = [] \/ 0 < h_counted h ->
  step p snap w (OpClose ord1) = Ret (w1, a1) -> step p snap w1 (OpClose ord2) = Ret (w2, a2) ->
  exists r, file_bytes w2 = file_bytes w1 ++ 2 :: r.
Proof. intros p snap decomp sc w h ops l ord1 ord2 w1 a1 w2 a2 HG Hs. exact (second_close p snap decomp HG sc Hs w h ops l ord1 ord2 w1 a1 w2 a2). Qed.
Print Assumptions C31_second_close_appends.
Example C31_case : exists w1 w2, step Release ex_snap ex_w (OpClose (fun l => l)) = Ret (w1, AUnit) /\ step Release ex_snap w1 (OpClose (fun l => l)) = Ret (w2, AUnit) /\
  firstn (List.length (file_bytes w1)) (file_bytes w2) = file_bytes w1 /\ nth_error (file_bytes w2) (List.length (file_bytes w1)) = Some 2 /\
  (List.length (file_bytes w1) < List.length (file_bytes w2))%nat.
Proof. eexists _, _. split; [vm_compute; reflexivity|]. split; [vm_compute; reflexivity|]. split; [vm_compute; reflexivity|]. split; [vm_compute; reflexivity|]. apply Nat.ltb_lt. vm_compute. reflexivity. Qed.
(** A point written after close is acknowledged, the file stays as it was. *)
Theorem C31_lost_after_close_refuted : exists w1 w2, step Release ex_snap ex_w (OpClose (fun l => l)) = Ret (w1, AUnit) /\
  step Release ex_snap w1 (OpWrite [100] [97] 3 (VInt 8)) = Ret (w2, AOk) /\ file_bytes w2 = file_bytes w1.
Proof. eexists. eexists. split; [vm_compute; reflexivity|]. split; vm_compute; reflexivity. Qed.
Print Assumptions C31_lost_after_close_refuted.

(** ** C35 *)
Theorem C35_flushed_survive : forall p snap decomp sc w h ops l tail, good_snap snap decomp -> schema_ok sc ->
  trace p snap sc w h ops l -> ops_ok ops -> no_close ops = true -> zlen (file_bytes w) < 2 ^ 32 ->
  exists cs extra rest, scan_file decomp (file_bytes w ++ tail) = Some (cs ++ extra, rest) /\
    (forall d m, SReader.series_in cs d m = tnums (series_of d m (h_flushed h))) /\ Forall (kind_ok sc) cs.
Proof. intros p snap decomp sc w h ops l tail HG Hs. exact (flushed_survive p snap decomp HG sc Hs w h ops l tail). Qed.
Print Assumptions C35_flushed_survive.
Theorem C35_flushed_survive_cut : forall p snap decomp sc w h ops l ops' w' l' k, good_snap snap decomp -> schema_ok sc ->
  trace p snap sc w h ops l -> ops_ok ops -> no_close ops = true -> zlen (file_bytes w) < 2 ^ 32 ->
  run p snap w ops' = Ret (w', l') -> (List.length (file_bytes w) <= k)%nat ->
  exists cs extra rest, scan_file decomp (firstn k (file_bytes w')) = Some (cs ++ extra, rest) /\
    (forall d m, SReader.series_in cs d m = tnums (series_of d m (h_flushed h))) /\ Forall (kind_ok sc) cs.
Proof. intros p snap decomp sc w h ops l ops' w' l' k HG Hs. exact (flushed_survive_cut p snap decomp HG sc Hs w h ops l ops' w' l' k). Qed.
Print Assumptions C35_flushed_survive_cut.
Example C35_case : match flush_all Release ex_snap ex_w with
  | Ret (w', None) => option_map (fun r => SReader.series_in (fst r) [100] [97]) (scan_file ex_snap (file_bytes w' ++ [5; 2; 97])) = Some [(5, 7); (6, 1)]
  | _ => False end.
Proof. vm_compute. reflexivity. Qed.

(** ** C40: no single write divides by zero. In release builds the 32-bit estimate must not wrap (total
    below 4 GiB); in debug builds a wrap is a panic of its own. *)
Theorem C40_no_division_by_zero : forall p snap decomp sc w h ops l d m t v, good_snap snap decomp -> schema_ok sc ->
  trace p snap sc w h ops l -> ops_ok (ops ++ [OpWrite d m t v]) ->
  p = Debug \/ (forall g g', sm_get d (w_groups w) = Some g -> gw_write p snap m t v g = Ret (g', None) ->
                 mem_size Debug (sm_insert d g' (w_groups w)) <> Panic POverflow) ->
  step p snap w (OpWrite d m t v) <> Panic PDivZero.
Proof. intros p snap decomp sc w h ops l d m t v HG Hs. exact (no_div_zero p snap decomp HG sc Hs w h ops l d m t v). Qed.
Print Assumptions C40_no_division_by_zero.
Theorem C40_memory_positive : forall p snap decomp sc w h ops l d m t v g g', good_snap snap decomp -> schema_ok sc ->
  trace p snap sc w h ops l -> ops_ok (ops ++ [OpWrite d m t v]) ->
  sm_get d (w_groups w) = Some g -> gw_write p snap m t v g = Ret (g', None) ->
  p = Debug \/ mem_size Debug (sm_insert d g' (w_groups w)) <> Panic POverflow ->
  forall n, mem_size p (sm_insert d g' (w_groups w)) = Ret n -> 0 < n.
Proof. intros p snap decomp sc w h ops l d m t v g g' HG Hs. exact (mem_positive p snap decomp HG sc Hs w h ops l d m t v g g'). Qed.
Print Assumptions C40_memory_positive.
Example C40_case : mem_size Release (w_groups ex_w) = Ret 226 /\ mem_size Debug (w_groups ex_w) = Ret 226.
Proof. vm_compute. auto. Qed.
