(** Property C58: every outcome of a session of a debug build, where an arithmetic overflow panics. SDebug.v says, from
    the schema and the calls alone, which call overflows ([overflows]), what each call answers ([debug_replies]), and
    which sessions can be closed ([debug_closable]). *)
From Verif Require Import PropertiesWriter PropertiesIndex PropertiesLayout PropertiesComplete PDebug.
From Coq Require Import String.
Open Scope list_scope. Open Scope Z_scope.

Theorem C58_session : forall snap decomp sc out w0 ops, good_snap snap decomp -> schema_ok sc -> writer_new sc (sink_new healthy) = (out, Some w0) ->
  ops_ok ops -> no_close ops = true -> 24 * zsum (map op_points ops) + 150 * series_count sc < 2 ^ 32 ->
  match debug_replies snap sc session_new ops with
  | Some l => exists w, run Debug snap w0 ops = Ret (w, l)
  | None => exists e, run Debug snap w0 ops = Panic e
  end.
Proof. intros snap decomp sc out w0 ops HG Hsc N O NC B. exact (debug_session_complete snap decomp HG sc Hsc out w0 ops N O NC (roomy_of snap sc ops B)). Qed.
Print Assumptions C58_session.

Theorem C58_closed_session : forall snap decomp sc out w0 ops ord, good_snap snap decomp -> schema_ok sc -> writer_new sc (sink_new healthy) = (out, Some w0) ->
  ops_ok ops -> no_close ops = true -> 24 * zsum (map op_points ops) + 150 * series_count sc < 2 ^ 32 -> no_dots sc -> byte_names sc -> short_paths sc ->
  match debug_replies snap sc session_new ops with
  | None => exists e, run Debug snap w0 (ops ++ [OpClose ord]) = Panic e
  | Some l =>
      if debug_closable sc (session_of snap sc ops) then exists w, run Debug snap w0 (ops ++ [OpClose ord]) = Ret (w, l ++ [AUnit])
      else exists e, run Debug snap w0 (ops ++ [OpClose ord]) = Panic e
  end.
Proof. intros snap decomp sc out w0 ops ord HG Hsc N O NC B. exact (debug_closed_complete snap decomp HG sc Hsc out w0 ops ord N O NC (roomy_of snap sc ops B)). Qed.
Print Assumptions C58_closed_session.

(** The difference between the two builds: a session that passes in a release build passes in a debug build, with the same
    answers and the same file, exactly if none of its calls overflows. *)
Theorem C58_builds : forall snap decomp sc out w0 ops w l, good_snap snap decomp -> schema_ok sc -> writer_new sc (sink_new healthy) = (out, Some w0) ->
  ops_ok ops -> no_close ops = true -> 24 * zsum (map op_points ops) + 150 * series_count sc < 2 ^ 32 -> run Release snap w0 ops = Ret (w, l) ->
  (run Debug snap w0 ops = Ret (w, l) <-> forall a o b, ops = a ++ o :: b -> overflows snap sc (session_of snap sc a) o = false).
Proof. intros snap decomp sc out w0 ops w l HG Hsc N O NC B. exact (debug_builds snap decomp HG sc Hsc out w0 ops w l N O NC (roomy_of snap sc ops B)). Qed.
Print Assumptions C58_builds.

(** The session of C56 passes. A delta of an INT64 column does not fit: its call panics. Deltas that fit but are too far
    apart: their calls pass, the close panics. *)
Definition db_delta : list op := [OpWrite [100] [98] 1 (VLong (2 ^ 63 - 1)); OpWrite [100] [98] 2 (VLong (-2))].
Definition db_spread : list op := [OpWrite [100] [98] 1 (VLong 0); OpWrite [100] [98] 2 (VLong (2 ^ 62)); OpWrite [100] [98] 3 (VLong (- 2 ^ 62))].
Example C58_case : schema_ok ix_sc /\ ops_ok co_ops /\ no_close co_ops = true /\ 24 * zsum (map op_points co_ops) + 150 * series_count ix_sc < 2 ^ 32 /\
  no_dots ix_sc /\ byte_names ix_sc /\ short_paths ix_sc /\
  debug_replies ex_snap ix_sc session_new co_ops = replies ex_snap ix_sc session_new co_ops /\ debug_closable ix_sc (session_of ex_snap ix_sc co_ops) = true.
Proof.
  split; [exact ix_sc_ok|]. split; [split; [repeat constructor; cbn; discriminate|reflexivity]|]. split; [reflexivity|]. split; [reflexivity|].
  split; [apply ix_names|]. split; [apply ix_names|]. split; [apply ix_names|]. vm_compute. auto.
Qed.
Example C58_overflow_case : ops_ok db_delta /\ ops_ok db_spread /\
  replies ex_snap ix_sc session_new db_delta = Some [AOk; AOk] /\ debug_replies ex_snap ix_sc session_new db_delta = None /\
  debug_replies ex_snap ix_sc session_new db_spread = Some [AOk; AOk; AOk] /\ debug_closable ix_sc (session_of ex_snap ix_sc db_spread) = false /\
  closable ix_sc (List.concat (final_flushes (session_of ex_snap ix_sc db_spread))) = true.
Proof. split; [split; [repeat constructor; cbn; discriminate|reflexivity]|]. split; [split; [repeat constructor; cbn; discriminate|reflexivity]|]. vm_compute. auto 10. Qed.
Example C58_overflow_runs : panics (run Debug ex_snap ix_start db_delta) /\ (exists w l, run Release ex_snap ix_start db_delta = Ret (w, l)) /\
  panics (run Debug ex_snap ix_start (db_spread ++ [OpClose (fun l => l)])) /\ (exists w l, run Debug ex_snap ix_start db_spread = Ret (w, l)).
Proof. split; [eexists; vm_compute; reflexivity|]. split; [eexists; eexists; vm_compute; reflexivity|]. split; [eexists; vm_compute; reflexivity|]. eexists; eexists; vm_compute; reflexivity. Qed.
(** "root.s1" and "root.sg.device1.s": the second has a complete block, whose mixing overflows. *)
Example C58_hash_case : forallb (hash_fine [114; 111; 111; 116; 46; 115; 49]) [5; 7; 11; 19; 31] = true /\
  forallb (hash_fine [114; 111; 111; 116; 46; 115; 103; 46; 100; 101; 118; 105; 99; 101; 49; 46; 115]) [5; 7; 11; 19; 31] = false.
Proof. vm_compute. auto. Qed.
