(** Property C56: every outcome of a session of a release build. SComplete.v says, from the schema and the calls alone,
    which call panics ([call_panics]), what each call answers, word for word ([replies]), and which files can be closed
    ([closable]). *)
From Verif Require Import PropertiesWriter PropertiesIndex PropertiesLayout PComplete.
From Coq Require Import String.
Open Scope list_scope. Open Scope Z_scope.

Theorem C56_session : forall snap decomp sc out w0 ops, good_snap snap decomp -> schema_ok sc -> writer_new sc (sink_new healthy) = (out, Some w0) ->
  ops_ok ops -> no_close ops = true -> 24 * zsum (map op_points ops) + 150 * series_count sc < 2 ^ 32 ->
  match replies snap sc session_new ops with
  | Some l => exists w, run Release snap w0 ops = Ret (w, l)
  | None => exists e, run Release snap w0 ops = Panic e
  end.
Proof. intros snap decomp sc out w0 ops HG Hsc N O NC B. exact (session_complete snap decomp HG sc Hsc out w0 ops N O NC (roomy_of snap sc ops B)). Qed.
Print Assumptions C56_session.

Theorem C56_closed_session : forall snap decomp sc out w0 ops ord, good_snap snap decomp -> schema_ok sc -> writer_new sc (sink_new healthy) = (out, Some w0) ->
  ops_ok ops -> no_close ops = true -> 24 * zsum (map op_points ops) + 150 * series_count sc < 2 ^ 32 -> no_dots sc -> byte_names sc -> short_paths sc ->
  match replies snap sc session_new ops with
  | None => exists e, run Release snap w0 (ops ++ [OpClose ord]) = Panic e
  | Some l =>
      if closable sc (List.concat (final_flushes (session_of snap sc ops))) then exists w, run Release snap w0 (ops ++ [OpClose ord]) = Ret (w, l ++ [AUnit])
      else exists e, run Release snap w0 (ops ++ [OpClose ord]) = Panic e
  end.
Proof. intros snap decomp sc out w0 ops ord HG Hsc N O NC B. exact (closed_session_complete snap decomp HG sc Hsc out w0 ops ord N O NC (roomy_of snap sc ops B)). Qed.
Print Assumptions C56_closed_session.

(** Answers of every kind; a value of the wrong type; the 44 series of C23. *)
Definition co_ops : list op :=
  [OpWrite [100] [97] 5 (VInt 7); OpWrite [100] [97] 5 (VInt 8); OpWrite [120] [97] 5 (VInt 8); OpWrite [100] [120] 6 (VInt 8); OpWrite [100] [97] 4 (VLong 8);
   OpWriteMany [100] 6 [([97], VInt 1); ([98], VLong (-4))]; OpWriteMany [100] 7 [([97], VInt 1); ([120], VLong (-4))]; OpWriteMany [120] 8 []; OpWriteMany [100] 8 []].
Definition co_many : schema := [([100], map (fun k => ([Z.of_nat k], mkMS INT32 PLAIN UNCOMPRESSED)) (seq 100 44))].
Definition co_points (n : nat) : list point := map (fun k => mkPoint [100] [Z.of_nat k] 1 (VInt 0)) (seq 100 n).
Example C56_case : schema_ok ix_sc /\ ops_ok co_ops /\ no_close co_ops = true /\ 24 * zsum (map op_points co_ops) + 150 * series_count ix_sc < 2 ^ 32 /\
  no_dots ix_sc /\ byte_names ix_sc /\ short_paths ix_sc /\
  replies ex_snap ix_sc session_new co_ops = Some [AOk; AErr EOutOfOrderData; AErr (EIllegalState (Some "No Group Writer found"%string));
     AErr (EIllegalState (Some "Unknown measurement id"%string)); AErr EOutOfOrderData; AOk; AErr (EIllegalState (Some "Unknown measurement id"%string)); AErr (EIllegalState None); AOk] /\
  (exists w l, run Release ex_snap ix_start co_ops = Ret (w, l) /\ Some l = replies ex_snap ix_sc session_new co_ops) /\
  closable ix_sc (List.concat (final_flushes (session_of ex_snap ix_sc co_ops))) = true /\
  replies ex_snap ix_sc session_new (co_ops ++ [OpWrite [100] [97] 9 (VLong 8)]) = None /\ call_panics ix_sc (mkSession [] h_new 0) (OpWriteMany [100] 8 []) = true.
Proof.
  split; [exact ix_sc_ok|]. split; [split; [repeat constructor; cbn; discriminate|reflexivity]|]. split; [reflexivity|]. split; [reflexivity|].
  split; [apply ix_names|]. split; [apply ix_names|]. split; [apply ix_names|]. split; [vm_compute; reflexivity|]. split; [eexists; eexists; vm_compute; split; reflexivity|]. vm_compute. auto.
Qed.
Example C56_not_closable_case : zlen (stored_paths co_many (co_points 44)) = 44 /\ closable co_many (co_points 44) = false.
Proof. vm_compute. auto. Qed.
