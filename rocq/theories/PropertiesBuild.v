(** Property C69: schemas for which a debug build and a release build do the same. *)
From Verif Require Import PropertiesWriter PropertiesIndex PBuild.
Open Scope list_scope. Open Scope Z_scope.

(** Without TS_2DIFF columns, and if no sum or product in the hashes of the declared paths overflows: every sequence of
    writes, batches and closes passes in a debug build exactly if it passes in a release build, with the same answers,
    the same writer and the same file. *)
Theorem C69_builds : forall snap decomp sc out w0 ops r, good_snap snap decomp -> schema_ok sc -> all_plain sc ->
  writer_new sc (sink_new healthy) = (out, Some w0) -> ops_ok ops -> 24 * zsum (map op_points ops) + 150 * series_count sc < 2 ^ 32 ->
  (0 < closes ops -> byte_names sc /\ short_paths sc /\ hashes_fine sc) ->
  (run Debug snap w0 ops = Ret r <-> run Release snap w0 ops = Ret r).
Proof. intros snap decomp sc out w0 ops r HG Hsc HP N O B. exact (plain_builds snap decomp HG sc Hsc HP out w0 ops r N O (roomy_after_of snap sc ops B)). Qed.
Print Assumptions C69_builds.
(** ... for sessions of any length, if the buffered points stay within the memory estimate *)
Theorem C69_builds_large : forall snap decomp sc out w0 ops r, good_snap snap decomp -> schema_ok sc -> all_plain sc ->
  writer_new sc (sink_new healthy) = (out, Some w0) -> ops_ok ops -> roomy_after snap sc ops ->
  (0 < closes ops -> byte_names sc /\ short_paths sc /\ hashes_fine sc) ->
  (run Debug snap w0 ops = Ret r <-> run Release snap w0 ops = Ret r).
Proof. intros snap decomp sc out w0 ops r HG Hsc HP. exact (plain_builds snap decomp HG sc Hsc HP out w0 ops r). Qed.
Print Assumptions C69_builds_large.

(** Both conditions are needed. *)
Definition bd_start (sc : schema) : writer := match writer_new sc (sink_new healthy) with (_, Some w) => w | (o, None) => mkW (mkIO o None [] None [] []) [] 0 0 [] end.
Definition bd_close : op := OpClose (fun l => l).
Theorem C69_columns_refuted : exists ops r, let sc := [([100], [([97], mkMS INT32 TS2DIFF UNCOMPRESSED)])] in
  hashes_fine sc /\ run Release ex_snap (bd_start sc) ops = Ret r /\ run Debug ex_snap (bd_start sc) ops = Panic POverflow.
Proof.
  exists [OpWrite [100] [97] 5 (VInt 2147483647); OpWrite [100] [97] 6 (VInt (-2))]. eexists. cbv zeta. split; [|split; vm_compute; reflexivity].
  intros d m ms (g & [E|[]] & I). inversion E; subst. destruct I as [I|[]]. inversion I; subst. vm_compute. reflexivity.
Qed.
Print Assumptions C69_columns_refuted.
(** "root.sg.device", "s1" *)
Definition bd_long : list Z := [114; 111; 111; 116; 46; 115; 103; 46; 100; 101; 118; 105; 99; 101].
Theorem C69_names_refuted : exists ops r, let sc := [(bd_long, [([115; 49], mkMS INT32 PLAIN UNCOMPRESSED)])] in
  all_plain sc /\ run Release ex_snap (bd_start sc) ops = Ret r /\ run Debug ex_snap (bd_start sc) ops = Panic POverflow.
Proof.
  exists [OpWrite bd_long [115; 49] 5 (VInt 7); bd_close]. eexists. cbv zeta. split; [|split; vm_compute; reflexivity].
  intros d m ms (g & [E|[]] & I). inversion E; subst. destruct I as [I|[]]. inversion I; subst. reflexivity.
Qed.
Print Assumptions C69_names_refuted.

(** "d", "s.t" and "e", "f": two closes, a dot in a name, a batch that fails in the middle. *)
Definition bd_sc : schema := [([100], [([115; 46; 116], mkMS INT32 PLAIN UNCOMPRESSED)]); ([101], [([102], mkMS FLOAT PLAIN SNAPPY)])].
Definition bd_ops : list op :=
  [OpWrite [100] [115; 46; 116] 5 (VInt 2147483647); OpWrite [100] [115; 46; 116] 6 (VInt (-2)); bd_close;
   OpWriteMany [101] 3 [([102], VFloat 0); ([103], VInt 1)]; OpWrite [101] [102] 7 (VFloat 0x3F800000); bd_close].
Example C69_case : good_snap ex_snap ex_snap /\ schema_ok bd_sc /\ all_plain bd_sc /\ ops_ok bd_ops /\ closes bd_ops = 2 /\
  24 * zsum (map op_points bd_ops) + 150 * series_count bd_sc < 2 ^ 32 /\ byte_names bd_sc /\ short_paths bd_sc /\ hashes_fine bd_sc /\
  exists r e, run Debug ex_snap (bd_start bd_sc) bd_ops = Ret r /\ snd r = [AOk; AOk; AUnit; AErr (EIllegalState e); AOk; AUnit].
Proof.
  assert (D : forall d m ms, declares bd_sc d m ms -> (d = [100] /\ m = [115; 46; 116] \/ d = [101] /\ m = [102]) /\ ms_enc ms = PLAIN).
  { intros d m ms (g & [E|[E|[]]] & I); inversion E; subst; destruct I as [I|[]]; inversion I; subst; auto. }
  split; [exact ex_snap_good|]. split; [split; repeat constructor; cbn; intuition discriminate|]. split; [intros d m ms H; apply (D d m ms H)|].
  split; [split; [repeat constructor; cbn; discriminate || reflexivity|vm_compute; reflexivity]|]. split; [reflexivity|]. split; [vm_compute; reflexivity|].
  split; [intros d m ms H; destruct (D d m ms H) as [[[-> ->]|[-> ->]] _]; repeat constructor; lia|].
  split; [intros d m ms H; destruct (D d m ms H) as [[[-> ->]|[-> ->]] _]; vm_compute; reflexivity|].
  split; [intros d m ms H; destruct (D d m ms H) as [[[-> ->]|[-> ->]] _]; vm_compute; reflexivity|].
  eexists _, _. split; [vm_compute; reflexivity|]. vm_compute. reflexivity.
Qed.
