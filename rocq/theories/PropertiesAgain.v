(** Property C61: sessions with any number of closes. SAgain.v says, from the schema and the calls alone, which bytes the
    file holds ([written], [the_file]); SAgainReply.v says which call panics and what each call answers ([all_replies]).
    [written] leaves open only the order in which each close writes the nodes of the devices. *)
From Verif Require Import PropertiesWriter PropertiesIndex PropertiesReclose PAgainReply.
From Coq Require Import String.
Open Scope list_scope. Open Scope Z_scope.

(** ** The bytes *)
Theorem C61_bytes : forall p snap decomp sc out w0 ops w l, good_snap snap decomp -> schema_ok sc ->
  writer_new sc (sink_new healthy) = (out, Some w0) -> run p snap w0 ops = Ret (w, l) -> ops_ok ops ->
  24 * zsum (map op_points ops) + 150 * series_count sc < 2 ^ 32 -> zlen (file_bytes w) < 2 ^ 32 -> orders_ok ops ->
  (0 < closes ops -> no_dots sc /\ byte_names sc /\ short_paths sc /\ few_entries sc (closes ops) 65536) ->
  exists ps stages, written snap sc ops ps stages /\ file_bytes w = the_file snap ps.
Proof.
  intros p snap decomp sc out w0 ops w l HG Hsc N R O B L OO C. destruct (run_trace _ _ _ _ _ _ _ _ N R) as (h & T).
  exact (again_bytes p snap decomp HG sc Hsc w h ops l T O (roomy_after_of snap sc ops B) (small_modest _ _ _ _ _ _ _ T L) (conj OO C)).
Qed.
Print Assumptions C61_bytes.
(** Without the bounds on the number of points and on the size of the file. *)
Theorem C61_bytes_large : forall p snap decomp sc out w0 ops w l, good_snap snap decomp -> schema_ok sc ->
  writer_new sc (sink_new healthy) = (out, Some w0) -> run p snap w0 ops = Ret (w, l) -> ops_ok ops ->
  roomy_after snap sc ops -> modest p snap sc ops -> orders_ok ops ->
  (0 < closes ops -> no_dots sc /\ byte_names sc /\ short_paths sc /\ few_entries sc (closes ops) 65536) ->
  exists ps stages, written snap sc ops ps stages /\ file_bytes w = the_file snap ps.
Proof.
  intros p snap decomp sc out w0 ops w l HG Hsc N R O B L OO C. destruct (run_trace _ _ _ _ _ _ _ _ N R) as (h & T).
  exact (again_bytes p snap decomp HG sc Hsc w h ops l T O B L (conj OO C)).
Qed.
Print Assumptions C61_bytes_large.
(** Without a close, and at the first close, this is C55. *)
Theorem C61_no_close : forall snap sc ops ps stages, written snap sc ops ps stages -> no_close ops = true -> the_file snap ps = open_file snap sc (ss_flushes (session_of snap sc ops)).
Proof. intros snap sc ops ps stages W NC. destruct (written_open snap sc _ ops ps stages W NC) as [_ ->]. reflexivity. Qed.
Print Assumptions C61_no_close.
Theorem C61_first_close : forall snap sc ops ord ps stages, written snap sc (ops ++ [OpClose ord]) ps stages -> no_close ops = true ->
  let flushes := final_flushes (session_of snap sc ops) in
  exists nodes, Permutation nodes (file_nodes snap sc flushes) /\ the_file snap ps = closed_file snap sc flushes nodes.
Proof. exact written_first. Qed.
Print Assumptions C61_first_close.

(** ** The outcomes, in either build *)
Theorem C61_outcomes : forall p snap decomp sc out w0 ops, good_snap snap decomp -> schema_ok sc ->
  writer_new sc (sink_new healthy) = (out, Some w0) -> ops_ok ops -> 24 * zsum (map op_points ops) + 150 * series_count sc < 2 ^ 32 ->
  (0 < closes ops -> no_dots sc /\ byte_names sc /\ short_paths sc) ->
  match all_replies p snap sc session_new ops with
  | Some l => exists w, run p snap w0 ops = Ret (w, l)
  | None => exists e, run p snap w0 ops = Panic e
  end.
Proof. intros p snap decomp sc out w0 ops HG Hsc N O B C. exact (again_complete snap decomp HG sc Hsc p out w0 ops N O (roomy_after_of snap sc ops B) C). Qed.
Print Assumptions C61_outcomes.
Theorem C61_outcomes_large : forall p snap decomp sc out w0 ops, good_snap snap decomp -> schema_ok sc ->
  writer_new sc (sink_new healthy) = (out, Some w0) -> ops_ok ops -> roomy_after snap sc ops ->
  (0 < closes ops -> no_dots sc /\ byte_names sc /\ short_paths sc) ->
  match all_replies p snap sc session_new ops with
  | Some l => exists w, run p snap w0 ops = Ret (w, l)
  | None => exists e, run p snap w0 ops = Panic e
  end.
Proof. intros p snap decomp sc out w0 ops HG Hsc N O B C. exact (again_complete snap decomp HG sc Hsc p out w0 ops N O B C). Qed.
Print Assumptions C61_outcomes_large.

(** ** The session of C54: "b" is written, the file closed, "a" and "b" are written, the file closed again *)
Definition ag_ops : list op := rc_ops ++ [OpClose (fun l => l)].
Definition ag_one : list piece := Eval vm_compute in pieces ix_sc [[mkPoint [100] [98] 1 (VLong 5)]].
Definition ag_two : list piece := Eval vm_compute in pieces ix_sc [[mkPoint [100] [97] 2 (VInt 7); mkPoint [100] [98] 3 (VLong 6)]].
Definition ag_tail (stages : list (list piece)) (ps : list piece) : piece :=
  Tail (close_bytes ex_snap ix_sc stages ps (device_nodes (8 + zlen (data_bytes ex_snap ps)) (listed_rows ex_snap ix_sc stages))).
Definition ag_first : piece := Eval vm_compute in ag_tail [ag_one] ag_one.
Definition ag_second : piece := Eval vm_compute in ag_tail [ag_one; ag_one ++ [ag_first] ++ ag_two] (ag_one ++ [ag_first] ++ ag_two).
Example C61_case : schema_ok ix_sc /\ run Release ex_snap ix_start ag_ops = Ret (rc_closed, [AOk; AUnit; AOk; AOk; AUnit]) /\ ops_ok ag_ops /\
  24 * zsum (map op_points ag_ops) + 150 * series_count ix_sc < 2 ^ 32 /\ zlen (file_bytes rc_closed) < 2 ^ 32 /\ orders_ok ag_ops /\ closes ag_ops = 2 /\
  (no_dots ix_sc /\ byte_names ix_sc /\ short_paths ix_sc /\ few_entries ix_sc 2 65536) /\
  all_replies Release ex_snap ix_sc session_new ag_ops = Some [AOk; AUnit; AOk; AOk; AUnit] /\
  all_replies Debug ex_snap ix_sc session_new ag_ops = Some [AOk; AUnit; AOk; AOk; AUnit] /\
  all_replies Release ex_snap ix_sc session_new (ag_ops ++ [OpWrite [100] [97] 9 (VLong 8)]) = None.
Proof.
  split; [exact ix_sc_ok|]. split; [vm_compute; reflexivity|].
  split; [split; [|reflexivity]; repeat apply Forall_cons; try apply Forall_nil; repeat split; vm_compute; try discriminate|].
  split; [reflexivity|]. split; [reflexivity|]. split; [repeat apply Forall_cons; try apply Forall_nil; try exact Logic.I; exact order_id|]. split; [reflexivity|].
  split; [split; [apply ix_names|]; split; [apply ix_names|]; split; [apply ix_names|]; repeat apply Forall_cons; try apply Forall_nil; vm_compute; discriminate|].
  vm_compute. auto.
Qed.
Example C61_bytes_case : written ex_snap ix_sc ag_ops (ag_one ++ [ag_first] ++ ag_two ++ [ag_second]) [ag_one; ag_one ++ [ag_first] ++ ag_two] /\
  file_bytes rc_closed = the_file ex_snap (ag_one ++ [ag_first] ++ ag_two ++ [ag_second]) /\
  map (fun dr => map fst (snd dr)) (listed_rows ex_snap ix_sc [ag_one; ag_one ++ [ag_first] ++ ag_two]) = [[[98]; [97]; [98]]].
Proof.
  split; [|vm_compute; auto]. pose proof (written_new (close_appends ex_snap ix_sc) ex_snap ix_sc) as W.
  apply (written_call _ _ _ _ _ _ (OpWrite [100] [98] 1 (VLong 5))) in W; [|reflexivity].
  eapply (written_close _ _ _ _ _ _ (fun l => l)) in W; [|eexists; split; [apply Permutation_refl|reflexivity]].
  apply (written_call _ _ _ _ _ _ (OpWrite [100] [97] 2 (VInt 7))) in W; [|reflexivity]. apply (written_call _ _ _ _ _ _ (OpWrite [100] [98] 3 (VLong 6))) in W; [|reflexivity].
  eapply (written_close _ _ _ _ _ _ (fun l => l)) in W; [|eexists; split; [apply Permutation_refl|reflexivity]]. match type of W with session_file _ _ _ _ ?a ?b => replace (ag_one ++ [ag_first] ++ ag_two ++ [ag_second]) with a by (vm_compute; reflexivity); replace [ag_one; ag_one ++ [ag_first] ++ ag_two] with b by (vm_compute; reflexivity) end.
  exact W.
Qed.
