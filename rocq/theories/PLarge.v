(** Files of any size (C59). *)
From Verif Require Export SLarge SAmple PStored PFileSize PLayoutProps PDebug.
Ltac Zify.zify_post_hook ::= idtac.

Lemma per_flush_series : forall sc, 0 <= series_count sc /\ 452 * series_count sc <= per_flush sc.
Proof.
  intros sc. assert (SC : 0 <= series_count sc) by (apply zsum_map_nonneg; intros; apply zlen_nonneg). split; [exact SC|].
  unfold series_count, per_flush in *. clear SC. induction sc as [|[d g] sc IH]; [apply Z.le_refl|]. cbn [map]. rewrite !zsum_cons. cbn [fst snd]. pose proof (zlen_nonneg _ d).
  assert (X : 452 * zlen g <= zsum (map (fun kv : list Z * mschema => 452 + zlen (fst kv)) g)).
  { clear. induction g as [|[m ms] g IH]; [apply Z.le_refl|]. cbn [map]. rewrite zsum_cons, zlen_cons. cbn [fst]. pose proof (zlen_nonneg _ m). lia. }
  lia.
Qed.
Lemma per_file_pos : forall sc, 100 <= per_file sc.
Proof.
  intros sc. unfold per_file. match goal with |- _ <= ?x + 100 => assert (0 <= x); [|lia] end. apply zsum_map_nonneg. intros [d g]. apply zsum_map_nonneg. intros [m ms]. cbn [fst snd].
  pose proof (zlen_nonneg _ d). pose proof (zlen_nonneg _ m). lia.
Qed.
Lemma ample_roomy : forall snap sc ops, ample snap sc ops -> roomy snap sc ops.
Proof.
  intros snap sc ops (A1 & A2 & A3). pose proof (per_flush_series sc) as [P0 P]. split; [lia|]. intros a o b E. specialize (A2 a o b E). cbv zeta in A2. lia.
Qed.
Section Large.
Variable p : profile.
Variable snap decomp : list Z -> option (list Z).
Hypothesis HG : good_snap snap decomp.
Variable sc : schema.
Hypothesis Hsc : schema_ok sc.

Lemma no_close_app : forall a b, no_close (a ++ b) = true -> no_close a = true.
Proof. intros a b H. unfold no_close in *. rewrite forallb_app in H. apply andb_prop in H. apply H. Qed.
Lemma roomy_slim : forall ops, ops_ok ops -> no_close ops = true -> roomy snap sc ops -> slim p snap sc ops.
Proof.
  intros ops O NC R w h a l o b -> T. change (o :: b) with ([o] ++ b) in *. rewrite app_assoc in O, NC. pose proof (ops_ok_app _ _ O) as O1. pose proof (ops_ok_app _ _ O1) as O2.
  pose proof (no_close_app _ _ (no_close_app _ _ NC)) as NC2. destruct (trace_roomy p snap decomp HG sc Hsc _ _ _ _ T O2 NC2 (roomy_app _ _ _ _ R)) as [E _].
  pose proof (proj2 R a o b eq_refl) as B. rewrite <- E in B. unfold memory_bound. pose proof (call_recent sc o h). lia.
Qed.
Lemma file_before : forall w h ops l, trace p snap sc w h ops l -> ops_ok ops -> no_close ops = true -> roomy snap sc ops -> 150 * series_count sc < 2 ^ 27 ->
  most_flushes sc (zsum (map op_points ops)) * per_flush sc < 2 ^ 32 -> zlen (file_bytes w) < 2 ^ 62.
Proof.
  intros w h ops l T O NC R A1 A3. destruct (trace_ok p snap decomp HG sc Hsc _ _ _ _ T O) as (TL & _).
  destruct (trace_sized p snap decomp HG sc Hsc _ _ _ _ T O NC (roomy_slim _ O NC R)) as (n & [S1 S2 S3 S4]).
  pose proof (per_flush_series sc) as [P0 P1]. pose proof (per_flush_split sc) as PS. pose proof (flush_cost_nonneg sc) as F0. destruct O as [_ O].
  pose proof (h_all_split h) as HA. pose proof (zlen_nonneg _ (h_flushed h)). pose proof (zlen_nonneg _ (h_recent h)).
  assert (NN : n <= most_flushes sc (zsum (map op_points ops))).
  { unfold most_flushes. assert (n <= 24 * zsum (map op_points ops) / (2 ^ 27 - 150 * series_count sc)); [|lia]. apply Z.div_le_lower_bound; lia. }
  assert (n * flush_cost sc <= most_flushes sc (zsum (map op_points ops)) * per_flush sc) by (apply Z.mul_le_mono_nonneg; lia).
  assert (2 ^ 62 = 2 ^ 30 * 2 ^ 32) by reflexivity. lia.
Qed.
Lemma app_snoc_split : forall A (x : list A) a o b c, x ++ [c] = a ++ o :: b -> (a = x /\ o = c /\ b = []) \/ exists b', x = a ++ o :: b' /\ b = b' ++ [c].
Proof.
  intros A x a o b c E. destruct (@exists_last _ (o :: b)) as (b' & c' & E'); [discriminate|]. rewrite E', app_assoc in E. apply app_inj_tail in E. destruct E as [E ->].
  destruct b' as [|o' b']; cbn [app] in E'; injection E' as -> ->.
  - left. rewrite app_nil_r in E. auto.
  - right. exists b'. auto.
Qed.
Lemma ample_modest : forall ops ord, ops_ok ops -> no_close ops = true -> ample snap sc ops -> no_dots sc -> small_devices sc -> good_order ord ->
  modest p snap sc (ops ++ [OpClose ord]).
Proof.
  intros ops ord O NC A ND SD GO out w0 a o b w l w' r N E R H. destruct (run_trace _ _ _ _ _ _ _ _ N R) as (h & T). pose proof A as (A1 & A2 & A3). cbv zeta in A2, A3.
  pose proof (per_flush_series sc) as [P0 P1]. pose proof (per_flush_split sc) as PS. pose proof (flush_cost_nonneg sc) as F0. pose proof (per_file_pos sc) as PF.
  assert (AP : forall a o b, ops = a ++ o :: b -> ops_ok (a ++ [o]) /\ no_close (a ++ [o]) = true).
  { intros a' o' b' ->. change (o' :: b') with ([o'] ++ b') in *. rewrite app_assoc in O, NC. split; [exact (ops_ok_app _ _ O)|exact (no_close_app _ _ NC)]. }
  destruct (app_snoc_split _ _ _ _ _ _ E) as [(-> & -> & ->)|(b' & E1 & ->)].
  - pose proof (zlen_nonneg _ (h_recent (ss_hist (session_of snap sc ops)))). destruct (trace_ok p snap decomp HG sc Hsc _ _ _ _ T O) as (S2 & _).
    pose proof (file_before _ _ _ _ T O NC (ample_roomy _ _ _ A) A1 ltac:(lia)) as S1. destruct (trace_roomy p snap decomp HG sc Hsc _ _ _ _ T O NC (ample_roomy _ _ _ A)) as [EH _].
    destruct (close_grows p snap decomp HG sc Hsc _ _ _ _ _ _ _ T O NC (roomy_slim _ O NC (ample_roomy _ _ _ A)) A1 ND SD GO H) as [_ G]. rewrite <- EH in A3.
    assert (MF : most_flushes sc (zlen (h_all h)) <= most_flushes sc (zsum (map op_points ops))).
    { unfold most_flushes. apply Z.add_le_mono_r. apply Z.div_le_mono; lia. }
    assert ((most_flushes sc (zlen (h_all h)) + 1) * per_flush sc <= (most_flushes sc (zsum (map op_points ops)) + 1) * per_flush sc) by (apply Z.mul_le_mono_nonneg_r; lia).
    assert (2 ^ 63 = 2 ^ 62 + 2 ^ 30 * 2 ^ 32) by reflexivity. lia.
  - destruct (AP _ _ _ E1) as [O1 NC1]. pose proof (ops_ok_app _ _ O1) as O2. pose proof (no_close_app _ _ NC1) as NC2.
    pose proof (call_grows p snap decomp HG sc Hsc _ _ _ _ _ _ _ T O1 NC1 H) as G. specialize (A2 _ _ _ E1).
    assert (RA : roomy snap sc a). { apply (roomy_app _ _ a (o :: b')). rewrite <- E1. apply ample_roomy, A. }
    destruct (trace_roomy p snap decomp HG sc Hsc _ _ _ _ T O2 NC2 RA) as [EH _]. rewrite <- EH in A2.
    split; [lia|].
    assert (T' : zlen (file_bytes w) < 2 ^ 62); [|assert (2 ^ 63 = 2 ^ 62 + 2 ^ 30 * 2 ^ 32) by reflexivity; lia].
    apply (file_before w h a l); auto.
    assert (MA : forall x y, zsum (map op_points x) <= zsum (map op_points (x ++ y))).
    { intros x y. rewrite map_app, zsum_app. pose proof (zsum_map_nonneg _ op_points y op_points_nonneg). lia. }
    assert (MF : most_flushes sc (zsum (map op_points a)) <= most_flushes sc (zsum (map op_points ops))).
    { rewrite E1. unfold most_flushes. apply Z.add_le_mono_r. apply Z.div_le_mono; [lia|]. pose proof (MA a (o :: b')). lia. }
    pose proof (zlen_nonneg _ (h_recent (ss_hist (session_of snap sc ops)))).
    assert (most_flushes sc (zsum (map op_points a)) * per_flush sc <= (most_flushes sc (zsum (map op_points ops)) + 1) * per_flush sc) by (apply Z.mul_le_mono_nonneg_r; lia). lia.
Qed.
End Large.
Lemma ample_enough : forall p snap decomp sc ops ord, good_snap snap decomp -> schema_ok sc -> ops_ok ops -> no_close ops = true -> ample snap sc ops ->
  no_dots sc -> small_devices sc -> good_order ord -> roomy snap sc ops /\ modest p snap sc (ops ++ [OpClose ord]).
Proof. intros. split; [apply ample_roomy; auto|eapply ample_modest; eauto]. Qed.
Lemma small_enough : forall p snap sc out w0 ops o w l w' a, writer_new sc (sink_new healthy) = (out, Some w0) -> run p snap w0 ops = Ret (w, l) ->
  step p snap w o = Ret (w', a) -> zlen (file_bytes w') < 2 ^ 32 -> modest p snap sc (ops ++ [o]).
Proof. intros p snap sc out w0 ops o w l w' a N R H L. destruct (run_trace _ _ _ _ _ _ _ _ N R) as (h & T). eapply small_step; eauto. Qed.
Lemma flush_points_large : forall p snap decomp sc w h ops l, good_snap snap decomp -> schema_ok sc -> trace p snap sc w h ops l -> ops_ok ops ->
  no_close ops = true -> roomy snap sc ops ->
  let s := session_of snap sc ops in h = ss_hist s /\ h_flushed h = concat (ss_flushes s) /\ w_next_check w = ss_next s.
Proof.
  intros p snap decomp sc w h ops l HG Hsc T O NC B s. destruct (trace_roomy p snap decomp HG sc Hsc _ _ _ _ T O NC B) as (E & its & (_ & _ & _ & N) & _). fold s in E, N.
  split; [exact E|]. split; [|exact N]. rewrite E. symmetry. apply session_flushed.
Qed.
Lemma open_run_large : forall p snap decomp sc out w0 ops w l, good_snap snap decomp -> schema_ok sc ->
  writer_new sc (sink_new healthy) = (out, Some w0) -> run p snap w0 ops = Ret (w, l) -> ops_ok ops -> no_close ops = true ->
  roomy snap sc ops -> modest p snap sc ops ->
  file_bytes w = open_file snap sc (ss_flushes (session_of snap sc ops)).
Proof.
  intros p snap decomp sc out w0 ops w l HG Hsc N R O NC B L. destruct (run_trace _ _ _ _ _ _ _ _ N R) as (h & T). exact (open_bytes_large p snap decomp HG sc Hsc w h ops l T O NC B L).
Qed.
Lemma closed_run_large : forall p snap decomp sc out w0 ops ord w l, good_snap snap decomp -> schema_ok sc ->
  writer_new sc (sink_new healthy) = (out, Some w0) -> run p snap w0 (ops ++ [OpClose ord]) = Ret (w, l) -> ops_ok ops -> no_close ops = true ->
  roomy snap sc ops -> modest p snap sc (ops ++ [OpClose ord]) -> good_order ord ->
  no_dots sc -> small_devices sc -> byte_names sc -> short_paths sc ->
  let flushes := final_flushes (session_of snap sc ops) in
  exists nodes, Permutation nodes (file_nodes snap sc flushes) /\ file_bytes w = closed_file snap sc flushes nodes.
Proof.
  intros p snap decomp sc out w0 ops ord w l HG Hsc N R O NC B L GO ND SD BN SP flushes. rewrite run_snoc in R. apply bind_ret in R. destruct R as ([w1 l1] & R & S). apply bind_ret in S. destruct S as ([w2 a] & S & E). rinj E.
  destruct (run_trace _ _ _ _ _ _ _ _ N R) as (h & T). exact (closed_bytes_large p snap decomp HG sc Hsc w1 h ops l1 ord w a T O NC B S L GO ND SD BN SP).
Qed.
