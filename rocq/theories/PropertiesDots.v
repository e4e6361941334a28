(** Property C62: sessions with names of any kind, closed any number of times. C61 without its condition on dots: SDots.v
    says which bytes the file holds ([written_any]), SDotsReply.v which call panics and what each call answers
    ([any_replies]). *)
From Verif Require Import PropertiesWriter PropertiesIndex PDotsReply.
From Coq Require Import String.
Open Scope list_scope. Open Scope Z_scope.

(** ** The bytes *)
Theorem C62_bytes : forall p snap decomp sc out w0 ops w l, good_snap snap decomp -> schema_ok sc ->
  writer_new sc (sink_new healthy) = (out, Some w0) -> run p snap w0 ops = Ret (w, l) -> ops_ok ops ->
  24 * zsum (map op_points ops) + 150 * series_count sc < 2 ^ 32 -> zlen (file_bytes w) < 2 ^ 32 -> orders_ok ops ->
  (0 < closes ops -> byte_names sc /\ short_paths sc /\ few_paths sc (closes ops) 65536) ->
  exists ps stages, written_any snap sc ops ps stages /\ file_bytes w = the_file snap ps.
Proof.
  intros p snap decomp sc out w0 ops w l HG Hsc N R O B L OO C. destruct (run_trace _ _ _ _ _ _ _ _ N R) as (h & T).
  exact (any_bytes p snap decomp HG sc Hsc w h ops l T O (roomy_after_of snap sc ops B) (small_modest _ _ _ _ _ _ _ T L) (conj OO C)).
Qed.
Print Assumptions C62_bytes.
(** Without the bounds on the number of points and on the size of the file. *)
Theorem C62_bytes_large : forall p snap decomp sc out w0 ops w l, good_snap snap decomp -> schema_ok sc ->
  writer_new sc (sink_new healthy) = (out, Some w0) -> run p snap w0 ops = Ret (w, l) -> ops_ok ops ->
  roomy_after snap sc ops -> modest p snap sc ops -> orders_ok ops ->
  (0 < closes ops -> byte_names sc /\ short_paths sc /\ few_paths sc (closes ops) 65536) ->
  exists ps stages, written_any snap sc ops ps stages /\ file_bytes w = the_file snap ps.
Proof.
  intros p snap decomp sc out w0 ops w l HG Hsc N R O B L OO C. destruct (run_trace _ _ _ _ _ _ _ _ N R) as (h & T).
  exact (any_bytes p snap decomp HG sc Hsc w h ops l T O B L (conj OO C)).
Qed.
Print Assumptions C62_bytes_large.

(** ** The outcomes, in either build *)
Theorem C62_outcomes : forall p snap decomp sc out w0 ops, good_snap snap decomp -> schema_ok sc ->
  writer_new sc (sink_new healthy) = (out, Some w0) -> ops_ok ops -> 24 * zsum (map op_points ops) + 150 * series_count sc < 2 ^ 32 ->
  (0 < closes ops -> byte_names sc /\ short_paths sc) ->
  match any_replies p snap sc session_new ops with
  | Some l => exists w, run p snap w0 ops = Ret (w, l)
  | None => exists e, run p snap w0 ops = Panic e
  end.
Proof. intros p snap decomp sc out w0 ops HG Hsc N O B C. exact (any_complete snap decomp HG sc Hsc p out w0 ops N O (roomy_after_of snap sc ops B) C). Qed.
Print Assumptions C62_outcomes.
Theorem C62_outcomes_large : forall p snap decomp sc out w0 ops, good_snap snap decomp -> schema_ok sc ->
  writer_new sc (sink_new healthy) = (out, Some w0) -> ops_ok ops -> roomy_after snap sc ops ->
  (0 < closes ops -> byte_names sc /\ short_paths sc) ->
  match any_replies p snap sc session_new ops with
  | Some l => exists w, run p snap w0 ops = Ret (w, l)
  | None => exists e, run p snap w0 ops = Panic e
  end.
Proof. intros p snap decomp sc out w0 ops HG Hsc N O B C. exact (any_complete snap decomp HG sc Hsc p out w0 ops N O B C). Qed.
Print Assumptions C62_outcomes_large.
(** Without dots the answers are those of C61. *)
Theorem C62_plain_outcomes : forall p snap sc ops, schema_ok sc -> no_dots sc -> any_replies p snap sc session_new ops = all_replies p snap sc session_new ops.
Proof. intros p snap sc ops Hsc ND. exact (plain_replies sc Hsc ND p snap ops session_new). Qed.
Print Assumptions C62_plain_outcomes.

(** ** a / "b.c" holds INT32 values, a.b / "c" INT64 values: one text, two types *)
Definition dt_sc : schema := [([97], [([98; 46; 99], mkMS INT32 PLAIN UNCOMPRESSED)]); ([97; 46; 98], [([99], mkMS INT64 PLAIN UNCOMPRESSED)])].
Lemma dt_sc_ok : schema_ok dt_sc.
Proof. split; [repeat constructor; cbn; intuition discriminate|]. repeat constructor; cbn; intuition discriminate. Qed.
Definition dt_start : writer := Eval vm_compute in
  match writer_new dt_sc (sink_new healthy) with (_, Some w) => w | (o, None) => mkW (mkIO o None [] None [] []) [] 0 0 [] end.
Definition dt_ops : list op :=
  [OpWrite [97] [98; 46; 99] 1 (VInt 5); OpWrite [97; 46; 98] [99] 2 (VLong 6); OpClose (fun l => l); OpWrite [97] [98; 46; 99] 3 (VInt 7); OpClose (fun l => l)].
Definition dt_closed : writer := Eval vm_compute in match run Release ex_snap dt_start dt_ops with Ret r => fst r | Panic _ => dt_start end.
Definition dt_one : list piece := Eval vm_compute in pieces dt_sc [[mkPoint [97] [98; 46; 99] 1 (VInt 5); mkPoint [97; 46; 98] [99] 2 (VLong 6)]].
Definition dt_two : list piece := Eval vm_compute in pieces dt_sc [[mkPoint [97] [98; 46; 99] 3 (VInt 7)]].
Definition dt_tail (stages : list (list piece)) (ps : list piece) : piece :=
  Tail (any_close_bytes ex_snap stages ps (device_nodes (8 + zlen (data_bytes ex_snap ps)) (stage_rows ex_snap stages))).
Definition dt_first : piece := Eval vm_compute in dt_tail [dt_one] dt_one.
Definition dt_second : piece := Eval vm_compute in dt_tail [dt_one; dt_one ++ [dt_first] ++ dt_two] (dt_one ++ [dt_first] ++ dt_two).
Example C62_case : schema_ok dt_sc /\ run Release ex_snap dt_start dt_ops = Ret (dt_closed, [AOk; AOk; AUnit; AOk; AUnit]) /\ ops_ok dt_ops /\
  24 * zsum (map op_points dt_ops) + 150 * series_count dt_sc < 2 ^ 32 /\ zlen (file_bytes dt_closed) < 2 ^ 32 /\ orders_ok dt_ops /\ closes dt_ops = 2 /\
  (byte_names dt_sc /\ short_paths dt_sc /\ few_paths dt_sc 2 65536) /\ ~ no_dots dt_sc /\
  any_replies Release ex_snap dt_sc session_new dt_ops = Some [AOk; AOk; AUnit; AOk; AUnit] /\
  any_replies Debug ex_snap dt_sc session_new dt_ops = Some [AOk; AOk; AUnit; AOk; AUnit] /\
  any_replies Release ex_snap dt_sc session_new (dt_ops ++ [OpWrite [97] [98; 46; 99] 9 (VLong 8)]) = None.
Proof.
  split; [exact dt_sc_ok|]. split; [vm_compute; reflexivity|].
  split; [split; [|reflexivity]; repeat apply Forall_cons; try apply Forall_nil; repeat split; vm_compute; try discriminate|].
  split; [reflexivity|]. split; [reflexivity|]. split; [repeat apply Forall_cons; try apply Forall_nil; try exact Logic.I; exact order_id|]. split; [reflexivity|].
  assert (DS : forall d m ms, declares dt_sc d m ms -> (d, m) = ([97], [98; 46; 99]) \/ (d, m) = ([97; 46; 98], [99])).
  { intros d m ms (g & A & B). destruct A as [A|[A|[]]]; inversion A; subst; destruct B as [B|[]]; inversion B; subst; auto. }
  split; [split; [|split]|].
  - intros d m ms D. destruct (DS d m ms D) as [E|E]; inversion E; subst; repeat constructor; lia.
  - intros d m ms D. destruct (DS d m ms D) as [E|E]; inversion E; subst; vm_compute; reflexivity.
  - intros d. change (declared_paths dt_sc) with [[97; 46; 98; 46; 99]]. cbn [filter]. destruct (same_name _ _); vm_compute; discriminate.
  - split; [|vm_compute; repeat split; reflexivity]. intros ND. apply (ND [97] [98; 46; 99] (mkMS INT32 PLAIN UNCOMPRESSED)); [eexists; split; [left; reflexivity|left; reflexivity]|right; left; reflexivity].
Qed.
Example C62_bytes_case : written_any ex_snap dt_sc dt_ops (dt_one ++ [dt_first] ++ dt_two ++ [dt_second]) [dt_one; dt_one ++ [dt_first] ++ dt_two] /\
  file_bytes dt_closed = the_file ex_snap (dt_one ++ [dt_first] ++ dt_two ++ [dt_second]) /\
  map (fun dr => (fst dr, map fst (snd dr))) (stage_rows ex_snap [dt_one; dt_one ++ [dt_first] ++ dt_two]) = [([97; 46; 98], [[98; 46; 99]; [98; 46; 99]])].
Proof.
  split; [|vm_compute; auto]. pose proof (written_new (any_close_appends ex_snap) ex_snap dt_sc) as W.
  apply (written_call _ _ _ _ _ _ (OpWrite [97] [98; 46; 99] 1 (VInt 5))) in W; [|reflexivity]. apply (written_call _ _ _ _ _ _ (OpWrite [97; 46; 98] [99] 2 (VLong 6))) in W; [|reflexivity].
  eapply (written_close _ _ _ _ _ _ (fun l => l)) in W; [|eexists; split; [apply Permutation_refl|reflexivity]].
  apply (written_call _ _ _ _ _ _ (OpWrite [97] [98; 46; 99] 3 (VInt 7))) in W; [|reflexivity].
  eapply (written_close _ _ _ _ _ _ (fun l => l)) in W; [|eexists; split; [apply Permutation_refl|reflexivity]].
  match type of W with session_file _ _ _ _ ?a ?b => replace (dt_one ++ [dt_first] ++ dt_two ++ [dt_second]) with a by (vm_compute; reflexivity); replace [dt_one; dt_one ++ [dt_first] ++ dt_two] with b by (vm_compute; reflexivity) end.
  exact W.
Qed.
(** So a point that was acknowledged is in the file, but no reader that goes by the index finds it. *)
Theorem C62_types_refuted : exists w0 w w' xs out, writer_new dt_sc (sink_new healthy) = (out, Some w0) /\
  run Release ex_snap w0 [OpWrite [97] [98; 46; 99] 1 (VInt 5); OpWrite [97; 46; 98] [99] 2 (VLong 6)] = Ret (w, [AOk; AOk]) /\
  step Release ex_snap w (OpClose (fun l => l)) = Ret (w', AUnit) /\ index_read ex_snap (file_bytes w') = Some xs /\
  map (fun x => (f_key x, f_points x)) xs = [(([97; 46; 98], [98; 46; 99]), [(1, 5)])] /\
  file_bytes w' = the_file ex_snap (dt_one ++ [dt_first]).
Proof. do 5 eexists. do 4 (split; [vm_compute; reflexivity|]). split; vm_compute; reflexivity. Qed.
Print Assumptions C62_types_refuted.
