(** Schemas without TS_2DIFF columns: both builds do the same (C69). *)
From Verif Require Export PDotsReply PSession SBuild.
Ltac Zify.zify_post_hook ::= idtac.

Section Plain.
Variable snap : list Z -> option (list Z).
Variable decomp : list Z -> option (list Z).
Hypothesis HG : good_snap snap decomp.
Variable sc : schema.
Hypothesis Hsc : schema_ok sc.
Hypothesis HP : all_plain sc.

Lemma plain_pages : forall ms l, ms_enc ms = PLAIN -> forallb (page_fine ms) l = true.
Proof. clear. intros ms l E. apply forallb_forall. intros x _. unfold page_fine, col_bits. rewrite E. reflexivity. Qed.
Lemma plain_fine : forall ms pts, ms_enc ms = PLAIN -> series_fine ms pts = true.
Proof.
  clear. intros ms pts E. unfold series_fine. destruct (cut (ms_type ms) (ms_enc ms) pts) as [[pages cur] x]. rewrite (plain_pages ms pages E).
  unfold open_fine, col_bits. rewrite E. reflexivity.
Qed.
Lemma plain_done : forall ms pts, ms_enc ms = PLAIN -> series_done ms pts = true.
Proof. clear. intros ms pts E. apply plain_pages. exact E. Qed.
Lemma plain_all : forall f pts, (forall ms l, ms_enc ms = PLAIN -> f ms l = true) -> all_series f sc pts = true.
Proof.
  intros f pts H. clear HG Hsc. unfold all_series. apply forallb_forall. intros [d g] I. apply forallb_forall. intros [m ms] J. cbn [fst snd] in *. apply H. apply (HP d m ms). exists g. auto.
Qed.
Lemma plain_overflows : forall s o, overflows snap sc s o = false.
Proof.
  intros s o. unfold overflows. rewrite (plain_all _ _ plain_fine), (plain_all _ _ plain_done). rewrite andb_false_r. reflexivity.
Qed.
Lemma plain_texts : forall s, hashes_fine sc -> texts_fine sc Debug s = texts_fine sc Release s.
Proof.
  intros s HH. unfold texts_fine. cbv zeta. rewrite (plain_all _ _ plain_done), orb_true_r. cbn [andb].
  replace (forallb _ (stored_texts sc _)) with true; [apply andb_true_r|]. symmetry. apply forallb_forall. intros q Q.
  unfold stored_texts in Q. apply (proj1 (name_set_in _ _)) in Q. unfold stored_paths in Q. apply in_flat_map in Q. destruct Q as ([d g] & I & Q). cbn [fst snd] in Q.
  apply in_map_iff in Q. destruct Q as (m & <- & J). unfold stored_names in J. apply filter_In in J. destruct J as [J _]. apply in_map_iff in J. destruct J as ([m' ms] & E & J).
  cbn [fst] in E. subst m'. apply (HH d m ms). exists g. auto.
Qed.
Lemma plain_same : forall ops s, (0 < closes ops -> hashes_fine sc) -> any_replies Debug snap sc s ops = any_replies Release snap sc s ops.
Proof.
  unfold any_replies. induction ops as [|o ops IH]; intros s HH; cbn [session_replies]; [reflexivity|].
  assert (S : stops (texts_fine sc) Debug snap sc s o = stops (texts_fine sc) Release snap sc s o).
  { destruct o; cbn [stops]; try (rewrite plain_overflows, orb_false_r; reflexivity). f_equal. apply plain_texts. apply HH. unfold closes. cbn [filter is_close]. rewrite zlen_cons. pose proof (zlen_nonneg _ (filter is_close ops)). lia. }
  rewrite S, IH; [reflexivity|]. intros C. apply HH. unfold closes in *. cbn [filter]. destruct (is_close o); rewrite ?zlen_cons; lia.
Qed.
Theorem plain_builds : forall out w0 ops r, writer_new sc (sink_new healthy) = (out, Some w0) -> ops_ok ops -> roomy_after snap sc ops ->
  (0 < closes ops -> byte_names sc /\ short_paths sc /\ hashes_fine sc) ->
  (run Debug snap w0 ops = Ret r <-> run Release snap w0 ops = Ret r).
Proof.
  intros out w0 ops r N O B C. split; [apply run_refines|]. intros R.
  assert (C' : 0 < closes ops -> byte_names sc /\ short_paths sc) by (intros X; destruct (C X) as (? & ? & ?); auto).
  pose proof (any_complete snap decomp HG sc Hsc Debug out w0 ops N O B C') as D. pose proof (any_complete snap decomp HG sc Hsc Release out w0 ops N O B C') as E.
  rewrite plain_same in D by (intros X; apply C; exact X). destruct (any_replies Release snap sc session_new ops) as [l|].
  - destruct D as [w D]. rewrite D. apply run_refines in D. congruence.
  - destruct E as [e E]. congruence.
Qed.
End Plain.

(** ** Sessions as in the example programs *)
Lemma small_both : forall snap decomp sc ops ord, good_snap snap decomp -> schema_ok sc -> no_dots sc -> byte_names sc -> good_order ord -> series_count sc <= 41 ->
  Forall write_call ops -> Forall (point_storable sc) (input ops) -> in_order (input ops) -> size_bound sc (zlen (input ops)) < 2 ^ 32 ->
  all_plain sc -> hashes_fine sc ->
  exists out w0 w w', writer_new sc (sink_new healthy) = (out, Some w0) /\ (forall p, run p snap w0 (ops ++ [OpClose ord]) = Ret (w', map (fun _ => AOk) ops ++ [AUnit])) /\
    (forall p, run p snap w0 ops = Ret (w, map (fun _ => AOk) ops)) /\ zlen (file_bytes w') <= size_bound sc (zlen (input ops)) /\ holds decomp (file_bytes w') (input ops).
Proof.
  intros snap decomp sc ops ord HG Hsc ND BN GO SC W S R L AP HF.
  destruct (small_session snap decomp sc ops ord HG Hsc ND BN GO SC W S R L) as (out & w0 & w & w' & N & R1 & R2 & F & Hd).
  exists out, w0, w, w'. split; [exact N|].
  pose proof (zlen_nonneg _ (input ops)) as N0. assert (K : 150 * series_count sc < 2 ^ 27) by lia. destruct (bound_parts _ _ N0 K L) as [B1 B2]. pose proof (bound_paths _ B2) as SP. rewrite input_len in B1.
  assert (S0 : 0 <= series_count sc) by (apply zsum_map_nonneg; intros; apply zlen_nonneg).
  assert (Z : zsum (map op_points (ops ++ [OpClose ord])) = zsum (map op_points ops)) by (rewrite map_app, zsum_app; cbn [map op_points]; rewrite zsum_cons; change (zsum []) with 0; lia).
  assert (D : run Debug snap w0 (ops ++ [OpClose ord]) = Ret (w', map (fun _ => AOk) ops ++ [AUnit])).
  { apply (plain_builds snap decomp HG sc Hsc AP out w0 _ _ N); auto.
    - split; [apply Forall_app; split; [apply calls_op_ok; exact W|constructor; [exact I|constructor]]|lia].
    - apply roomy_after_of. rewrite Z. exact B1. }
  split; [intros []; auto|]. split; [|auto]. intros []; [|auto].
  rewrite run_snoc in D. destruct (run Debug snap w0 ops) as [r|e] eqn:E; [|discriminate]. apply run_refines in E. congruence.
Qed.
