(** The statements of C55. *)
From Verif Require Export PLayoutSession.
Ltac Zify.zify_post_hook ::= idtac.

Lemma call_flushed : forall snap sc o s, concat (ss_flushes s) = h_flushed (ss_hist s) ->
  concat (ss_flushes (session_call snap sc s o)) = h_flushed (ss_hist (session_call snap sc s o)).
Proof.
  intros snap sc o s H.
  assert (A : forall d t vs h, h_flushed (fst (h_batch sc d t vs h)) = h_flushed h).
  { intros d t vs. induction vs as [|[m v] vs IH]; intros h; cbn [h_batch fst]; auto. destruct (admits sc h d m t); cbn [fst]; auto. rewrite IH. reflexivity. }
  assert (C : h_flushed (h_call sc o (ss_hist s)) = h_flushed (ss_hist s)).
  { destruct o as [d m t v|d t vs|ord]; cbn [h_call]; auto.
    - destruct (admits sc (ss_hist s) d m t); reflexivity.
    - specialize (A d t vs (ss_hist s)). destruct (h_batch sc d t vs (ss_hist s)) as [h' [|]]; exact A. }
  unfold session_call. cbv zeta. repeat match goal with |- context [if ?b then _ else _] => destruct b end; cbn [ss_flushes ss_hist]; try congruence.
  rewrite concat_app. cbn [concat]. rewrite app_nil_r. cbn [h_flush h_flushed]. congruence.
Qed.
Lemma flush_points : forall p snap decomp sc w h ops l, good_snap snap decomp -> schema_ok sc -> trace p snap sc w h ops l -> ops_ok ops ->
  no_close ops = true -> 24 * zsum (map op_points ops) + 150 * series_count sc < 2 ^ 32 ->
  let s := session_of snap sc ops in h = ss_hist s /\ h_flushed h = concat (ss_flushes s) /\ w_next_check w = ss_next s.
Proof.
  intros p snap decomp sc w h ops l HG Hsc T O NC B s. destruct (trace_session p snap decomp HG sc Hsc _ _ _ _ T O NC B) as (E & its & _ & _ & _ & N). fold s in E, N.
  split; [exact E|]. split; [|exact N]. rewrite E. symmetry. unfold s. clear. induction ops as [|o ops IH] using rev_ind; [reflexivity|]. rewrite session_snoc. apply call_flushed. exact IH.
Qed.
Lemma open_run : forall p snap decomp sc out w0 ops w l, good_snap snap decomp -> schema_ok sc ->
  writer_new sc (sink_new healthy) = (out, Some w0) -> run p snap w0 ops = Ret (w, l) -> ops_ok ops -> no_close ops = true ->
  24 * zsum (map op_points ops) + 150 * series_count sc < 2 ^ 32 -> zlen (file_bytes w) < 2 ^ 32 ->
  file_bytes w = open_file snap sc (ss_flushes (session_of snap sc ops)).
Proof.
  intros p snap decomp sc out w0 ops w l HG Hsc N R O NC B L. destruct (run_trace _ _ _ _ _ _ _ _ N R) as (h & T). exact (open_bytes p snap decomp HG sc Hsc w h ops l T O NC B L).
Qed.
Lemma closed_run : forall p snap decomp sc out w0 ops ord w l, good_snap snap decomp -> schema_ok sc ->
  writer_new sc (sink_new healthy) = (out, Some w0) -> run p snap w0 (ops ++ [OpClose ord]) = Ret (w, l) -> ops_ok ops -> no_close ops = true ->
  24 * zsum (map op_points ops) + 150 * series_count sc < 2 ^ 32 -> zlen (file_bytes w) < 2 ^ 32 -> good_order ord ->
  no_dots sc -> small_devices sc -> byte_names sc -> short_paths sc ->
  let flushes := final_flushes (session_of snap sc ops) in
  exists nodes, Permutation nodes (file_nodes snap sc flushes) /\ file_bytes w = closed_file snap sc flushes nodes.
Proof.
  intros p snap decomp sc out w0 ops ord w l HG Hsc N R O NC B L GO ND SD BN SP flushes. rewrite run_snoc in R. apply bind_ret in R. destruct R as ([w1 l1] & R & S). apply bind_ret in S. destruct S as ([w2 a] & S & E). rinj E.
  destruct (run_trace _ _ _ _ _ _ _ _ N R) as (h & T). exact (closed_bytes p snap decomp HG sc Hsc w1 h ops l1 ord w a T O NC B S L GO ND SD BN SP).
Qed.
Lemma filter_len : forall A (f : A -> bool) l, (length (filter f l) <= length l)%nat.
Proof. induction l as [|x l IH]; cbn [filter length]; [lia|]. destruct (f x); cbn [length]; lia. Qed.
Lemma device_nodes_len : forall l o, zlen (device_nodes o l) <= zlen l.
Proof. induction l as [|x l IH]; intros o; cbn [device_nodes]; [unfold zlen; cbn; lia|]. destruct x as [d rows]. cbv zeta. rewrite !zlen_cons. specialize (IH (o + zlen (rows_bytes rows))). lia. Qed.
Lemma one_device : forall p snap decomp sc out w0 ops ord w l, good_snap snap decomp -> schema_ok sc ->
  writer_new sc (sink_new healthy) = (out, Some w0) -> run p snap w0 (ops ++ [OpClose ord]) = Ret (w, l) -> ops_ok ops -> no_close ops = true ->
  24 * zsum (map op_points ops) + 150 * series_count sc < 2 ^ 32 -> zlen (file_bytes w) < 2 ^ 32 -> good_order ord ->
  no_dots sc -> small_devices sc -> byte_names sc -> short_paths sc -> zlen sc <= 1 ->
  let flushes := final_flushes (session_of snap sc ops) in file_bytes w = closed_file snap sc flushes (file_nodes snap sc flushes).
Proof.
  intros p snap decomp sc out w0 ops ord w l HG Hsc N R O NC B L GO ND SD BN SP ONE flushes.
  destruct (closed_run p snap decomp sc out w0 ops ord w l HG Hsc N R O NC B L GO ND SD BN SP) as (nodes & P & E). fold flushes in P, E. rewrite E. f_equal.
  assert (LN : zlen (file_nodes snap sc flushes) <= 1).
  { unfold file_nodes. etransitivity; [apply device_nodes_len|]. unfold index_rows, zlen in *. etransitivity; [apply inj_le, filter_len|]. rewrite map_length, (Permutation_length (by_name_permutation _ sc)). exact ONE. }
  pose proof (Permutation_length P) as PL. unfold zlen in LN. destruct (file_nodes snap sc flushes) as [|x [|y r]]; cbn [length] in *; [|apply Permutation_sym, Permutation_length_1_inv in P; exact P|lia].
  apply Permutation_sym, Permutation_nil in P. exact P.
Qed.
