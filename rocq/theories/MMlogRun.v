(** Any use of an [MLog] (sync/mlog.rs): plans and flushes in any order, on any disk. *)
From Verif Require Export MMlog.

(** The methods of [MLog], sync/mlog.rs:19, 38, 115; all flushes go to the same writer. *)
Inductive mlog_op :=
  | MlCreate (path : str) (t : dtype) (e : encoding) (c : compression)
  | MlGroup (path : str)
  | MlFlush.
(** One call, sync/mlog.rs:19-46, 115-117; the boolean is [true] for [Ok]. *)
Definition mlog_step (s : list byte * sink) (o : mlog_op) : list byte * sink * bool :=
  match o with
  | MlCreate path t e c => (mlog_create_plan path t e c (fst s), snd s, true)
  | MlGroup path => (mlog_set_storage_group_plan path (fst s), snd s, true)
  | MlFlush => mlog_flush (fst s) (snd s)
  end.
(** Any sequence of calls of sync/mlog.rs:19-46, 115-117, with the results of the flushes. *)
Fixpoint mlog_run (s : list byte * sink) (ops : list mlog_op) : list byte * sink * list bool :=
  match ops with
  | [] => (s, [])
  | o :: ops' =>
      let '(s', ok) := mlog_step s o in
      let '(s'', oks) := mlog_run s' ops' in
      (s'', match o with MlFlush => ok :: oks | _ => oks end)
  end.
