(** Properties C41 and C42: debug builds (overflow checks on) against release builds. *)
From Verif Require Import PMem PropertiesWriter PStored PropertiesIndex PPanic PProfile.
Open Scope list_scope. Open Scope Z_scope.

(** ** C41. A history that does not panic in a debug build gives the same answers, the same writer and the
    same bytes in a release build, on every sink. *)
Theorem C41_release_agrees : forall snap w ops w' l,
  run Debug snap w ops = Ret (w', l) -> run Release snap w ops = Ret (w', l).
Proof. exact (fun snap w ops w' l H => run_refines snap ops w (w', l) H). Qed.
Print Assumptions C41_release_agrees.
(** The converse fails: the difference of two accepted INT32 values may not fit. *)
Definition c41_sc : schema := [([100], [([97], mkMS INT32 TS2DIFF UNCOMPRESSED)])].
Definition c41_start : writer := match writer_new c41_sc (sink_new healthy) with (_, Some w) => w | (o, None) => mkW (mkIO o None [] None [] []) [] 0 0 [] end.
Definition c41_ops (v : Z) : list op := [OpWrite [100] [97] 5 (VInt 2147483647); OpWrite [100] [97] 6 (VInt v)].
Theorem C41_converse_refuted : exists snap w ops r, run Release snap w ops = Ret r /\ snd r = [AOk; AOk] /\ run Debug snap w ops = Panic POverflow.
Proof. exists ex_snap, c41_start, (c41_ops (-2)). eexists. split; [vm_compute; reflexivity|]. split; reflexivity. Qed.
Print Assumptions C41_converse_refuted.
Example C41_case : exists r, run Debug ex_snap c41_start (c41_ops 4 ++ [OpClose (fun l => l)]) = Ret r /\
  run Release ex_snap c41_start (c41_ops 4 ++ [OpClose (fun l => l)]) = Ret r /\ snd r = [AOk; AOk; AUnit] /\ zlen (file_bytes (fst r)) = 206.
Proof. eexists. split; [vm_compute; reflexivity|]. split; [vm_compute; reflexivity|]. split; vm_compute; reflexivity. Qed.

(** ** C42. A debug build cannot close a file in which some series with data has a full name
    "device.measurement" of sixteen bytes or more (one of the bytes 1 to 7 is neither 0x00 nor 0xFF, as
    in any text): the hash of the bloom filter overflows. *)
Theorem C42_debug_close_panics : forall snap decomp sc w h ops l ord d m, good_snap snap decomp -> schema_ok sc ->
  trace Debug snap sc w h ops l -> ops_ok ops -> no_close ops = true -> h_recent h = [] \/ 0 < h_counted h ->
  byte_names sc -> series_of d m (h_all h) <> [] ->
  let name := d ++ [46] ++ m in (16 <= length name)%nat -> (exists i, (1 <= i <= 7)%nat /\ 0 < nth i name 0 < 255) ->
  forall r, step Debug snap w (OpClose ord) <> Ret r.
Proof. exact debug_close_panics. Qed.
Print Assumptions C42_debug_close_panics.
(** "root.sg.device", "s1": closes in a release build, not in a debug build. *)
Definition c42_dev : list Z := [114; 111; 111; 116; 46; 115; 103; 46; 100; 101; 118; 105; 99; 101].
Definition c42_name : list Z := c42_dev ++ [46] ++ [115; 49].
Definition c42_sc : schema := [(c42_dev, [([115; 49], mkMS INT32 TS2DIFF UNCOMPRESSED)])].
Definition c42_start : writer := match writer_new c42_sc (sink_new healthy) with (_, Some w) => w | (o, None) => mkW (mkIO o None [] None [] []) [] 0 0 [] end.
Definition c42_ops : list op := [OpWrite c42_dev [115; 49] 5 (VInt 7)].
Definition c42_hist : hist := mkHist [] [mkPoint c42_dev [115; 49] 5 (VInt 7)] 1.
Example C42_case : exists w, trace Debug ex_snap c42_sc w c42_hist c42_ops [AOk] /\ ops_ok c42_ops /\ 0 < h_counted c42_hist /\
  schema_ok c42_sc /\ byte_names c42_sc /\ series_of c42_dev [115; 49] (h_all c42_hist) <> [] /\
  (16 <= length c42_name)%nat /\ 0 < nth 1 c42_name 0 < 255 /\
  step Debug ex_snap w (OpClose (fun l => l)) = Panic POverflow /\ exists w', step Release ex_snap w (OpClose (fun l => l)) = Ret (w', AUnit).
Proof.
  destruct (run Debug ex_snap c42_start c42_ops) as [[w l]|q] eqn:E; [|vm_compute in E; discriminate].
  exists w. split; [|split; [|split; [reflexivity|split; [|split; [|split; [vm_compute; discriminate|split; [cbn; lia|split; [cbn; lia|]]]]]]]].
  - apply (h_run_trace Debug ex_snap c42_sc c42_ops c42_start h_new [] []); [econstructor; vm_compute; reflexivity|].
    vm_compute in E. inversion E. vm_compute. reflexivity.
  - split; [|reflexivity]. repeat constructor; cbn; discriminate.
  - split; repeat constructor; cbn; auto.
  - intros d m ms (g & [D|[]] & I). inversion D; subst. destruct I as [I|[]]. inversion I; subst. repeat constructor; lia.
  - vm_compute in E. inversion E. split; [vm_compute; reflexivity|]. eexists. vm_compute. reflexivity.
Qed.
