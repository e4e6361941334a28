(** Properties C20 and C23 of closing: the order of the root node, and when closing panics. *)
From Verif Require Import PropertiesWriter PropertiesIndex PPanic.
From Coq Require Import String.
Open Scope list_scope. Open Scope Z_scope.

(** ** C20: with two devices there is always an iteration order that leaves the root unsorted *)
Theorem C20_unsorted_order : forall p snap decomp sc w h ops l ord w' a d1 m1 d2 m2, good_snap snap decomp -> schema_ok sc ->
  trace p snap sc w h ops l -> ops_ok ops -> no_close ops = true -> h_recent h = [] \/ 0 < h_counted h ->
  step p snap w (OpClose ord) = Ret (w', a) -> zlen (file_bytes w') < 2 ^ 32 -> good_order ord -> no_dots sc -> small_devices sc ->
  series_of d1 m1 (h_all h) <> [] -> series_of d2 m2 (h_all h) <> [] -> d1 <> d2 ->
  exists ord2 w2 a2 ft, good_order ord2 /\ step p snap w (OpClose ord2) = Ret (w2, a2) /\ footer_read (file_bytes w2) = Some ft /\
    ~ StronglySorted bytes_lt (map fst (nd_entries (ft_root ft))).
Proof. exact unsorted_root. Qed.
Print Assumptions C20_unsorted_order.
(** The iteration order is the only freedom: it changes neither success nor the length of the file. *)
Theorem C20_order_keeps_length : forall p snap decomp sc w h ops l o1 o2 w' a, good_snap snap decomp -> schema_ok sc -> trace p snap sc w h ops l -> ops_ok ops -> no_close ops = true ->
  good_order o1 -> good_order o2 -> step p snap w (OpClose o1) = Ret (w', a) ->
  exists w2 a2, step p snap w (OpClose o2) = Ret (w2, a2) /\ zlen (file_bytes w2) = zlen (file_bytes w').
Proof. exact close_any_order. Qed.
Print Assumptions C20_order_keeps_length.
Example C20_order_case : zlen ix_file = zlen ix_file_rev /\ ix_file <> ix_file_rev /\
  match footer_read ix_file_rev with Some ft => ~ StronglySorted bytes_lt (map fst (nd_entries (ft_root ft))) | None => False end.
Proof.
  split; [vm_compute; reflexivity|]. split; [vm_compute; discriminate|].
  replace (footer_read ix_file_rev) with (footer_read ix_file_rev) by auto. destruct (footer_read ix_file_rev) as [ft|] eqn:E; [|vm_compute in E; discriminate].
  assert (X : map fst (nd_entries (ft_root ft)) = [[101]; [100]]) by (vm_compute in E; inversion E; reflexivity). rewrite X.
  intros S. inversion S as [|? ? _ F]; subst. inversion F as [|? ? B _]; subst. inversion B; lia.
Qed.

(** ** C23: when closing panics. [paths] are the full names of the series with data, [devs] their devices;
    [bloom_bits n] is the size of the filter for [n] paths. *)
Theorem C23_close_panics : forall snap decomp sc w h ops l ord paths devs, good_snap snap decomp -> schema_ok sc ->
  trace Release snap sc w h ops l -> ops_ok ops -> no_close ops = true -> h_recent h = [] \/ 0 < h_counted h ->
  no_dots sc -> byte_names sc -> short_paths sc ->
  lists_paths (fun d m => series_of d m (h_all h) <> []) paths -> lists_devices (fun d m => series_of d m (h_all h) <> []) devs ->
  let cap := bloom_bits (zlen paths) in
  (exists r, step Release snap w (OpClose ord) = Ret r) <->
  zlen devs <= 256 /\
  (forall s seed, In s paths -> In seed [5; 7; 11; 19; 31] -> ~ (path_hash s seed = - 2 ^ 31 /\ 2 ^ 31 mod cap <> 0)) /\
  (cap mod 8 = 0 \/ 4 <= cap mod 8).
Proof. exact close_panics_iff. Qed.
Print Assumptions C23_close_panics.
(** In either profile a file with exactly 44 series cannot be closed. *)
Theorem C23_44_series : forall p snap decomp sc w h ops l ord paths, good_snap snap decomp -> schema_ok sc -> trace p snap sc w h ops l -> ops_ok ops -> no_close ops = true ->
  h_recent h = [] \/ 0 < h_counted h -> byte_names sc -> short_paths sc ->
  lists_paths (fun d m => series_of d m (h_all h) <> []) paths -> zlen paths = 44 -> forall r, step p snap w (OpClose ord) <> Ret r.
Proof. exact close_44. Qed.
Print Assumptions C23_44_series.

(** A history whose close succeeds *)
Definition c23_paths : list (list Z) := [[100; 46; 97]; [100; 46; 98]; [101; 46; 97]].
Definition c23_hist : hist := mkHist []
  [mkPoint [100] [97] 5 (VInt 7); mkPoint [101] [97] 5 (VFloat 0x3FC00000); mkPoint [100] [97] 6 (VInt 1); mkPoint [100] [98] 6 (VLong (-4))] 4.
Example C23_close_case : trace Release ex_snap ix_sc (fst ix_run) c23_hist ix_ops (snd ix_run) /\ 0 < h_counted c23_hist /\
  lists_paths (fun d m => series_of d m (h_all c23_hist) <> []) c23_paths /\ lists_devices (fun d m => series_of d m (h_all c23_hist) <> []) [[100]; [101]] /\
  bloom_bits (zlen c23_paths) = 256 /\ exists w', step Release ex_snap (fst ix_run) (OpClose (fun l => l)) = Ret (w', AUnit).
Proof.
  assert (IFF : forall d m, series_of d m (h_all c23_hist) <> [] <-> exists t v, In (mkPoint d m t v) (h_all c23_hist)).
  { intros d m. split.
    - intros H. destruct (series_of d m (h_all c23_hist)) as [|[t v] r] eqn:E; [congruence|]. exists t, v. apply (PWriter.series_in d m _ (t, v)). rewrite E. left. auto.
    - intros (t & v & I) E. apply (PWriter.series_in d m _ (t, v)) in I. rewrite E in I. destruct I. }
  split.
  { destruct ix_new as [out N]. apply (h_run_trace Release ex_snap ix_sc ix_ops ix_start h_new [] []); [econstructor; exact N|]. vm_compute. reflexivity. }
  split; [reflexivity|]. split; [|split; [|split; [vm_compute; reflexivity|]]].
  - split; [repeat constructor; cbn; intuition congruence|]. intros q. split.
    + intros [<-|[<-|[<-|[]]]]; [exists [100], [97]|exists [100], [98]|exists [101], [97]]; (split; [reflexivity|vm_compute; discriminate]).
    + intros (d & m & -> & X). apply IFF in X. destruct X as (t & v & [X|[X|[X|[X|[]]]]]); inversion X; subst; cbn; tauto.
  - split; [repeat constructor; cbn; intuition congruence|]. intros d. split.
    + intros [<-|[<-|[]]]; [exists [97]|exists [97]]; vm_compute; discriminate.
    + intros (m & X). apply IFF in X. destruct X as (t & v & [X|[X|[X|[X|[]]]]]); inversion X; subst; cbn; tauto.
  - destruct ix_closes as [(w' & H & _) _]. eauto.
Qed.

(** A history with 44 series: device "d", measurements "a0", "a1", … *)
Definition c44_names : list (list Z) := map (fun i => [97; 48 + Z.of_nat i]) (seq 0 44).
Definition c44_sc : schema := [([100], map (fun m => (m, mkMS INT32 PLAIN UNCOMPRESSED)) c44_names)].
Definition c44_ops : list op := [OpWriteMany [100] 1 (map (fun m => (m, VInt 0)) c44_names)].
Definition c44_start : writer := match writer_new c44_sc (sink_new healthy) with (_, Some w) => w | (o, None) => mkW (mkIO o None [] None [] []) [] 0 0 [] end.
Definition c44_run : writer := Eval vm_compute in match run Release ex_snap c44_start c44_ops with Ret (w, _) => w | Panic _ => c44_start end.
Definition c44_hist : hist := mkHist [] (map (fun m => mkPoint [100] m 1 (VInt 0)) c44_names) 44.
Definition c44_paths : list (list Z) := map (fun m => [100] ++ [46] ++ m) c44_names.
Example C23_44_series_case : schema_ok c44_sc /\ byte_names c44_sc /\ short_paths c44_sc /\ no_dots c44_sc /\
  trace Release ex_snap c44_sc c44_run c44_hist c44_ops [AOk] /\ ops_ok c44_ops /\ no_close c44_ops = true /\ 0 < h_counted c44_hist /\
  lists_paths (fun d m => series_of d m (h_all c44_hist) <> []) c44_paths /\ zlen c44_paths = 44.
Proof.
  assert (NB : forall m, In m c44_names -> exists b, m = [97; b] /\ 48 <= b < 92).
  { intros m I. apply in_map_iff in I. destruct I as (i & <- & I). apply in_seq in I. exists (48 + Z.of_nat i). split; auto. lia. }
  assert (ND : NoDup c44_names).
  { apply FinFun.Injective_map_NoDup; [|apply seq_NoDup]. intros x y E. inversion E. lia. }
  assert (DE : forall d m ms, declares c44_sc d m ms -> d = [100] /\ In m c44_names).
  { intros d m ms (g & [E|[]] & I). apply pair_equal_spec in E. destruct E as [<- <-]. split; auto. apply in_map_iff in I. destruct I as (x & E' & I). inversion E'; subst. auto. }
  split; [|split; [|split; [|split; [|split; [|split; [|split; [reflexivity|split; [reflexivity|split; [|reflexivity]]]]]]]]].
  - split; [repeat constructor; intros []|]. constructor; [|constructor]. cbn [fst snd]. split; [reflexivity|]. rewrite map_map. cbn [fst]. rewrite map_id. split; [exact ND|].
    apply Forall_forall. intros [m ms] I. apply in_map_iff in I. destruct I as (x & E & I). inversion E; subst. apply NB in I. destruct I as (b & -> & _). reflexivity.
  - intros d m ms D. apply DE in D. destruct D as [-> I]. apply NB in I. destruct I as (b & -> & B). repeat constructor; lia.
  - intros d m ms D. apply DE in D. destruct D as [-> I]. apply NB in I. destruct I as (b & -> & B). reflexivity.
  - intros d m ms D. apply DE in D. destruct D as [-> I]. apply NB in I. destruct I as (b & -> & B). cbn. lia.
  - destruct (writer_new c44_sc (sink_new healthy)) as [out ow] eqn:E. assert (N : writer_new c44_sc (sink_new healthy) = (out, Some c44_start)).
    { unfold c44_start. rewrite E. destruct ow; [reflexivity|vm_compute in E; discriminate]. }
    apply (h_run_trace Release ex_snap c44_sc c44_ops c44_start h_new [] []); [econstructor; exact N|]. vm_compute. reflexivity.
  - split; [|reflexivity]. constructor; [|constructor]. cbn [op_ok]. split; [vm_compute; split; discriminate|]. apply Forall_forall. intros [m v] I. apply in_map_iff in I. destruct I as (x & E & _). inversion E; subst. cbn. lia.
  - split.
    + apply FinFun.Injective_map_NoDup; [|exact ND]. intros x y E. cbn in E. inversion E. auto.
    + intros q. unfold c44_paths. rewrite in_map_iff. split.
      * intros (m & <- & I). exists [100], m. split; auto. intros E. assert (J : In (1, VInt 0) (series_of [100] m (h_all c44_hist))); [|rewrite E in J; destruct J].
        apply PWriter.series_in. cbn [fst snd h_all c44_hist h_flushed h_recent app]. apply in_map_iff. eauto.
      * intros (d & m & -> & X). destruct (series_of d m (h_all c44_hist)) as [|[t v] r] eqn:E; [congruence|].
        assert (J : In (t, v) (series_of d m (h_all c44_hist))) by (rewrite E; left; auto). apply PWriter.series_in in J. cbn [fst snd h_all c44_hist h_flushed h_recent app] in J.
        apply in_map_iff in J. destruct J as (x & EX & I). inversion EX; subst. exists m. auto.
Qed.
