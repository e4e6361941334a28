(** Property C55: the bytes of the file, exactly. SLayout.v describes, from the schema and the calls alone and with
    no definition of the model, when the writer flushes ([session_of]), the bytes of an open file ([open_file])
    and of a closed one ([closed_file]); the devices' nodes come in the iteration order of a hash map. *)
From Verif Require Import PropertiesWriter PropertiesIndex PLayoutProps.
Open Scope list_scope. Open Scope Z_scope.

(** ** When the writer flushes: the flushes, what is still in memory and the next check are those of [session_of]. *)
Theorem C55_flush_points : forall p snap decomp sc w h ops l, good_snap snap decomp -> schema_ok sc -> trace p snap sc w h ops l -> ops_ok ops ->
  no_close ops = true -> 24 * zsum (map op_points ops) + 150 * series_count sc < 2 ^ 32 ->
  let s := session_of snap sc ops in h = ss_hist s /\ h_flushed h = concat (ss_flushes s) /\ w_next_check w = ss_next s.
Proof. exact flush_points. Qed.
Print Assumptions C55_flush_points.
(** The hundredth point of a series is the first at which memory is looked at: 1091 bytes, so the next look is at 100 * 2^27 / 1091. *)
Definition lay_sc : schema := [([100], [([97], mkMS INT32 PLAIN UNCOMPRESSED)])].
Definition lay_ops : list op := map (fun k => OpWrite [100] [97] (Z.of_nat k) (VInt 7)) (seq 0 100).
Definition lay_start : writer := match writer_new lay_sc (sink_new healthy) with (_, Some w) => w | _ => ix_start end.
Example lay_new : exists out, writer_new lay_sc (sink_new healthy) = (out, Some lay_start).
Proof. eexists. vm_compute. reflexivity. Qed.
Lemma lay_sc_ok : schema_ok lay_sc.
Proof. split; [|]; repeat constructor; cbn; try tauto; intros []; congruence. Qed.
Lemma lay_ops_ok : ops_ok lay_ops.
Proof.
  split; [|reflexivity]. apply Forall_forall. intros o I. apply in_map_iff in I. destruct I as (k & <- & I). apply in_seq in I. cbn [op_ok value_machine]. unfold i64_min, i64_max. lia.
Qed.
Example C55_flush_points_case : schema_ok lay_sc /\ ops_ok lay_ops /\ no_close lay_ops = true /\ 24 * zsum (map op_points lay_ops) + 150 * series_count lay_sc < 2 ^ 32 /\
  (exists w l, run Release ex_snap lay_start lay_ops = Ret (w, l) /\ w_next_check w = 12302266) /\
  ss_next (session_of ex_snap lay_sc (firstn 99 lay_ops)) = 100 /\ memory ex_snap lay_sc (h_recent (ss_hist (session_of ex_snap lay_sc lay_ops))) = 1091 /\
  ss_next (session_of ex_snap lay_sc lay_ops) = 12302266.
Proof.
  split; [exact lay_sc_ok|]. split; [exact lay_ops_ok|]. split; [reflexivity|]. split; [reflexivity|].
  split; [eexists; eexists; vm_compute; split; reflexivity|]. vm_compute. auto.
Qed.

(** ** The file before a close *)
Theorem C55_open : forall p snap decomp sc out w0 ops w l, good_snap snap decomp -> schema_ok sc ->
  writer_new sc (sink_new healthy) = (out, Some w0) -> run p snap w0 ops = Ret (w, l) -> ops_ok ops -> no_close ops = true ->
  24 * zsum (map op_points ops) + 150 * series_count sc < 2 ^ 32 -> zlen (file_bytes w) < 2 ^ 32 ->
  file_bytes w = open_file snap sc (ss_flushes (session_of snap sc ops)).
Proof. exact open_run. Qed.
Print Assumptions C55_open.
Example C55_open_case : schema_ok ix_sc /\ run Release ex_snap ix_start ix_ops = Ret ix_run /\ ops_ok ix_ops /\ no_close ix_ops = true /\
  ss_flushes (session_of ex_snap ix_sc ix_ops) = [] /\ file_bytes (fst ix_run) = [84; 115; 70; 105; 108; 101; 3].
Proof. split; [exact ix_sc_ok|]. split; [apply ix_runs|]. split; [apply ix_ok|]. split; [apply ix_ok|]. vm_compute. auto. Qed.

(** ** The closed file *)
Theorem C55_closed : forall p snap decomp sc out w0 ops ord w l, good_snap snap decomp -> schema_ok sc ->
  writer_new sc (sink_new healthy) = (out, Some w0) -> run p snap w0 (ops ++ [OpClose ord]) = Ret (w, l) -> ops_ok ops -> no_close ops = true ->
  24 * zsum (map op_points ops) + 150 * series_count sc < 2 ^ 32 -> zlen (file_bytes w) < 2 ^ 32 -> good_order ord ->
  no_dots sc -> small_devices sc -> byte_names sc -> short_paths sc ->
  let flushes := final_flushes (session_of snap sc ops) in
  exists nodes, Permutation nodes (file_nodes snap sc flushes) /\ file_bytes w = closed_file snap sc flushes nodes.
Proof. exact closed_run. Qed.
Print Assumptions C55_closed.
Example C55_closed_case : good_snap ex_snap ex_snap /\ schema_ok ix_sc /\ (exists out, writer_new ix_sc (sink_new healthy) = (out, Some ix_start)) /\
  (exists w l, run Release ex_snap ix_start (ix_ops ++ [OpClose (@rev _)]) = Ret (w, l) /\ file_bytes w = ix_file_rev) /\
  ops_ok ix_ops /\ no_close ix_ops = true /\ 24 * zsum (map op_points ix_ops) + 150 * series_count ix_sc < 2 ^ 32 /\ zlen ix_file_rev < 2 ^ 32 /\ good_order (@rev _) /\
  (let flushes := final_flushes (session_of ex_snap ix_sc ix_ops) in let nodes := file_nodes ex_snap ix_sc flushes in
   zlen flushes = 1 /\ zlen nodes = 2 /\ closed_file ex_snap ix_sc flushes nodes = ix_file /\ closed_file ex_snap ix_sc flushes (rev nodes) = ix_file_rev).
Proof.
  split; [exact ex_snap_good|]. split; [exact ix_sc_ok|]. split; [exact ix_new|]. split; [eexists; eexists; vm_compute; split; reflexivity|].
  split; [apply ix_ok|]. split; [apply ix_ok|]. split; [vm_compute; reflexivity|]. split; [vm_compute; reflexivity|]. split; [exact order_rev|].
  vm_compute. auto 10.
Qed.

(** ** With data of one device nothing is left open: the file is a function of the schema and the calls. *)
Theorem C55_one_device : forall p snap decomp sc out w0 ops ord w l, good_snap snap decomp -> schema_ok sc ->
  writer_new sc (sink_new healthy) = (out, Some w0) -> run p snap w0 (ops ++ [OpClose ord]) = Ret (w, l) -> ops_ok ops -> no_close ops = true ->
  24 * zsum (map op_points ops) + 150 * series_count sc < 2 ^ 32 -> zlen (file_bytes w) < 2 ^ 32 -> good_order ord ->
  no_dots sc -> small_devices sc -> byte_names sc -> short_paths sc -> zlen sc <= 1 ->
  let flushes := final_flushes (session_of snap sc ops) in file_bytes w = closed_file snap sc flushes (file_nodes snap sc flushes).
Proof. exact one_device. Qed.
Print Assumptions C55_one_device.
(** One INT32 point (3, 7) of "d.a", byte by byte. *)
Example C55_one_device_case :
  (exists w l, run Release ex_snap lay_start [OpWrite [100] [97] 3 (VInt 7); OpClose (fun l => l)] = Ret (w, l)) /\
  (let flushes := final_flushes (session_of ex_snap lay_sc [OpWrite [100] [97] 3 (VInt 7)]) in
   flushes = [[mkPoint [100] [97] 3 (VInt 7)]] /\
   open_file ex_snap lay_sc flushes = [84; 115; 70; 105; 108; 101; 3; 0; 2; 100; 5; 2; 97; 28; 1; 0; 0; 26;
         26; 24; 0; 0; 0; 0; 0; 0; 0; 0; 127; 255; 255; 255; 255; 255; 255; 255; 0; 0; 0; 0; 0; 0; 0; 3; 14] /\
   closed_file ex_snap lay_sc flushes (file_nodes ex_snap lay_sc flushes) =
        [84; 115; 70; 105; 108; 101; 3; 0; 2; 100; 5; 2; 97; 28; 1; 0; 0; 26;
         26; 24; 0; 0; 0; 0; 0; 0; 0; 0; 127; 255; 255; 255; 255; 255; 255;
         255; 0; 0; 0; 0; 0; 0; 0; 3; 14; 2; 0; 2; 97; 1; 8; 1; 0; 0; 0; 0;
         0; 0; 0; 3; 0; 0; 0; 0; 0; 0; 0; 3; 0; 0; 0; 7; 0; 0; 0; 7; 0; 0; 0;
         7; 0; 0; 0; 7; 0; 0; 0; 0; 0; 0; 0; 7; 0; 0; 0; 0; 0; 0; 0; 10; 1;
         2; 97; 0; 0; 0; 0; 0; 0; 0; 46; 0; 0; 0; 0; 0; 0; 0; 100; 3; 1; 2;
         100; 0; 0; 0; 0; 0; 0; 0; 100; 0; 0; 0; 0; 0; 0; 0; 120; 1; 0; 0; 0;
         0; 0; 0; 0; 45; 29; 0; 0; 0; 0; 128; 0; 0; 0; 0; 0; 0; 0; 4; 0; 0;
         0; 0; 0; 16; 0; 0; 0; 0; 0; 32; 0; 0; 0; 64; 128; 2; 5; 0; 0; 0; 61;
         84; 115; 70; 105; 108; 101]).
Proof. split; [eexists; eexists; vm_compute; reflexivity|]. vm_compute. auto. Qed.
