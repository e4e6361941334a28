(** Properties C40 (sizes) and C43: memory estimate and progress of writes. *)
From Verif Require Import PMem PropertiesWriter PBound.
Open Scope list_scope. Open Scope Z_scope.

(** ** C40 for histories whose buffered points fit into 4 GiB, whatever the profile. *)
Theorem C40_no_division_by_zero_small : forall p snap decomp sc w h ops l d m t v, good_snap snap decomp -> schema_ok sc ->
  trace p snap sc w h ops l -> ops_ok (ops ++ [OpWrite d m t v]) ->
  memory_bound sc (h_call sc (OpWrite d m t v) h) < 2 ^ 32 -> step p snap w (OpWrite d m t v) <> Panic PDivZero.
Proof. exact no_div_zero_small. Qed.
Print Assumptions C40_no_division_by_zero_small.
(** The estimate of a reachable state is at most 24 bytes per buffered point plus 150 bytes per series, and
    positive as soon as a point is buffered. *)
Theorem C40_estimate_bound : forall p snap decomp sc w h ops l, good_snap snap decomp -> schema_ok sc ->
  trace p snap sc w h ops l -> ops_ok ops -> memory_bound sc h < 2 ^ 32 ->
  exists n, mem_size p (w_groups w) = Ret n /\ 0 <= n <= memory_bound sc h /\ (h_recent h <> [] -> 0 < n).
Proof. exact estimate_bound. Qed.
Print Assumptions C40_estimate_bound.
Example C40_bound_case : exists h, trace Release ex_snap ex_sc ex_w h ex_ops (snd ex_run) /\
  zlen (h_recent h) = 3 /\ series_count ex_sc = 3 /\ memory_bound ex_sc h = 522 /\ mem_size Release (w_groups ex_w) = Ret 226.
Proof.
  destruct (h_run Release ex_snap ex_sc ex_start h_new ex_ops) as [[[w h] l]|] eqn:E; vm_compute in E; [|discriminate].
  exists h. destruct ex_new as [out N]. pose proof (h_run_trace Release ex_snap ex_sc ex_ops ex_start h_new [] [] ex_w h (snd ex_run)) as T.
  split; [apply T; [eapply trace_new; eauto|]|inversion E; subst; split; [|split; [|split]]; vm_compute; reflexivity].
  inversion E; subst. vm_compute. reflexivity.
Qed.

(** ** C43. In release builds a write of one point or of a non-empty batch returns if and only if every point
    that is reached and admitted has a value its series can store (buffered points below 4 GiB). *)
Theorem C43_write_returns_iff : forall snap decomp sc w h ops l d m t v, good_snap snap decomp -> schema_ok sc ->
  trace Release snap sc w h ops l -> ops_ok (ops ++ [OpWrite d m t v]) ->
  memory_bound sc (h_call sc (OpWrite d m t v) h) < 2 ^ 32 ->
  ((exists r, step Release snap w (OpWrite d m t v) = Ret r) <-> batch_storable sc d t [(m, v)] h).
Proof. exact (fun snap decomp sc w h ops l d m t v HG Hs => write_iff snap decomp HG sc Hs w h ops l d m t v). Qed.
Print Assumptions C43_write_returns_iff.
Theorem C43_batch_returns_iff : forall snap decomp sc w h ops l d t vs, good_snap snap decomp -> schema_ok sc ->
  trace Release snap sc w h ops l -> ops_ok (ops ++ [OpWriteMany d t vs]) -> vs <> [] ->
  memory_bound sc (h_call sc (OpWriteMany d t vs) h) < 2 ^ 32 ->
  ((exists r, step Release snap w (OpWriteMany d t vs) = Ret r) <-> batch_storable sc d t vs h).
Proof. exact (fun snap decomp sc w h ops l d t vs HG Hs => many_iff snap decomp HG sc Hs w h ops l d t vs). Qed.
Print Assumptions C43_batch_returns_iff.
(** A session of well-typed writes with at most about 178 million points (24 bytes each, 150 per series, 4 GiB)
    never panics. *)
Theorem C43_session_runs : forall snap decomp sc ops out w0, good_snap snap decomp -> schema_ok sc ->
  writer_new sc (sink_new healthy) = (out, Some w0) -> ops_ok ops -> Forall (well_typed sc) ops ->
  24 * zsum (map op_points ops) + 150 * series_count sc < 2 ^ 32 ->
  exists w h l, run Release snap w0 ops = Ret (w, l) /\ trace Release snap sc w h ops l.
Proof. exact (fun snap decomp sc ops out w0 HG Hs => session snap decomp HG sc Hs ops out w0). Qed.
Print Assumptions C43_session_runs.
Example C43_case : ops_ok ex_ops /\ Forall (well_typed ex_sc) ex_ops /\ 24 * zsum (map op_points ex_ops) + 150 * series_count ex_sc = 570 /\
  ~ well_typed ex_sc (OpWrite [100] [97] 9 (VLong 7)) /\ batch_storable ex_sc [100] (-5) [([97], VLong 7)] h_new /\
  ~ batch_storable ex_sc [100] 5 [([97], VLong 7)] h_new.
Proof.
  assert (D : forall d m ms, declares ex_sc d m ms -> d = [100] /\ (m, ms) = ([97], mkMS INT32 PLAIN UNCOMPRESSED) \/ d = [100] /\ (m, ms) = ([98], mkMS INT64 TS2DIFF SNAPPY) \/
     d = [100] /\ (m, ms) = ([102], mkMS FLOAT TS2DIFF UNCOMPRESSED)).
  { intros d m ms (g & [I|[]] & J). inversion I; subst. destruct J as [J|[J|[J|[]]]]; rewrite <- J; auto. }
  assert (A : declares ex_sc [100] [97] (mkMS INT32 PLAIN UNCOMPRESSED)) by (eexists; split; [left; reflexivity|left; reflexivity]).
  split; [apply ex_ok|]. split; [|split; [reflexivity|split; [|split]]].
  - repeat constructor; cbn; try discriminate; intros ms H; destruct (D _ _ _ H) as [[X Y]|[[X Y]|[X Y]]]; inversion Y; subst; auto; discriminate.
  - intros H. specialize (H _ A). discriminate.
  - vm_compute. exact Logic.I.
  - cbn [batch_storable]. replace (admits ex_sc h_new [100] [97] 5) with true by reflexivity. intros [H _]. specialize (H _ A). discriminate.
Qed.
