(** C71: plans and flushes of an [MLog] on any disk. *)
From Verif Require Import PMlogRun.
Open Scope list_scope. Open Scope Z_scope.

(** Whatever the calls and the disk: the file consists of one piece per flush. The piece of a flush that reported success is a frame
    with the plans since the last success; the piece of one that reported an error is a frame of these plans whose end is missing. *)
Theorem C71_layout : forall sched ops m out oks, byte_paths ops -> plans_size ops < 2 ^ 31 -> mlog_run ([], sink_new sched) ops = (m, out, oks) ->
  exists pieces, sk_data out = concat pieces /\ Forall2 left_by (flush_attempts [] ops oks) pieces /\ length oks = length (filter is_flush ops).
Proof. exact log_layout. Qed.
Print Assumptions C71_layout.
(** If every flush reported success, whatever the disk did, the log reads back as the plans, each once, in the order of the calls. *)
Theorem C71_log : forall sched ops m out oks, byte_paths ops -> plans_size ops < 2 ^ 31 -> mlog_run ([], sink_new sched) (ops ++ [MlFlush]) = (m, out, oks) ->
  forallb (fun b => b) oks = true -> mlog_read (sk_data out) = Some (flat_map plan_of ops).
Proof. exact log_read. Qed.
Print Assumptions C71_log.
(** On a healthy disk every flush does. *)
Theorem C71_healthy : forall ops m out oks, mlog_run ([], sink_new healthy) ops = (m, out, oks) -> forallb (fun b => b) oks = true.
Proof. intros ops m out oks. exact (log_healthy ops [] (sink_new healthy) m out oks healthy_new). Qed.
Print Assumptions C71_healthy.

(** "root.g", "root.g.d.s" and an empty flush, on a disk that takes at most two bytes at a time. *)
Definition ml_ops : list mlog_op :=
  [MlGroup [114; 46; 103]; MlFlush; MlFlush; MlCreate [114; 46; 103; 46; 100; 46; 115] INT64 TS2DIFF SNAPPY; MlCreate [114; 46; 103; 46; 100; 46; 116] FLOAT PLAIN UNCOMPRESSED].
Example C71_case : byte_paths ml_ops /\ plans_size ml_ops = 86 /\
  (exists m out, mlog_run ([], sink_new (fun _ => FShort 2)) (ml_ops ++ [MlFlush]) = (m, out, [true; true; true]) /\ zlen (sk_data out) = 122) /\
  flat_map plan_of ml_ops = [SetStorageGroup [114; 46; 103]; CreateTimeseries [114; 46; 103; 46; 100; 46; 115] 2 4 1 (-1) [0; 0; 0; 0];
    CreateTimeseries [114; 46; 103; 46; 100; 46; 116] 3 0 0 (-1) [0; 0; 0; 0]] /\
  (* the disk is full for a while: the second flush leaves 4 bytes of its frame *)
  (exists m out, mlog_run ([], sink_new (fun k => if (k =? 4)%nat then FFail else FFull)) (ml_ops ++ [MlFlush; MlFlush]) = (m, out, [true; false; true; true])) /\
  flush_attempts [] (ml_ops ++ [MlFlush]) [true; false; true] = [([SetStorageGroup [114; 46; 103]], true); ([], false); (skipn 1 (flat_map plan_of ml_ops), true)].
Proof.
  split; [repeat constructor; lia|]. split; [reflexivity|]. split; [eexists _, _; vm_compute; split; reflexivity|]. split; [reflexivity|].
  split; [eexists _, _; vm_compute; reflexivity|]. reflexivity.
Qed.
(** "After an error the flush can be repeated" is false: a flush that failed half way and then succeeds leaves a log that cannot be read. *)
Theorem C71_retry_refuted : exists sched m out, mlog_run ([], sink_new sched) [MlGroup [114; 46; 103]; MlFlush; MlFlush] = (m, out, [false; true]) /\
  mlog_read (sk_data out) = None.
Proof. exists (fun k => if (k =? 1)%nat then FFail else FFull). eexists _, _. split; [vm_compute; reflexivity|]. vm_compute. reflexivity. Qed.
Print Assumptions C71_retry_refuted.
