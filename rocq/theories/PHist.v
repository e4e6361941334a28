(** Consequences for histories of calls. *)
From Verif Require Export POffsets SLarge.
Ltac Zify.zify_post_hook ::= idtac.

(** ** Runs and traces *)
Lemma run_snoc : forall p snap ops o w, run p snap w (ops ++ [o]) =
  let* r := run p snap w ops in let '(w1, l) := r in let* r' := step p snap w1 o in let '(w2, a) := r' in Ret (w2, l ++ [a]).
Proof.
  intros p snap ops o. induction ops as [|x ops IH]; intros w; cbn [run app].
  - cbn [bind]. destruct (step p snap w o) as [[w2 a]|]; reflexivity.
  - destruct (step p snap w x) as [[w1 a]|]; cbn [bind]; [|reflexivity]. rewrite IH.
    destruct (run p snap w1 ops) as [[w2 l]|]; cbn [bind fst snd]; [|reflexivity].
    destruct (step p snap w2 o) as [[w3 b]|]; reflexivity.
Qed.
Lemma trace_run : forall p snap sc w h ops l, trace p snap sc w h ops l ->
  exists out w0, writer_new sc (sink_new healthy) = (out, Some w0) /\ run p snap w0 ops = Ret (w, l).
Proof.
  intros p snap sc w h ops l T. induction T as [out w N|w h ops l o w' a T IH H].
  - exists out, w. auto.
  - destruct IH as (out & w0 & N & R). exists out, w0. split; auto. rewrite run_snoc, R. cbn [bind]. rewrite H. reflexivity.
Qed.
Lemma run_trace : forall p snap sc out w0 ops w l, writer_new sc (sink_new healthy) = (out, Some w0) ->
  run p snap w0 ops = Ret (w, l) -> exists h, trace p snap sc w h ops l.
Proof.
  intros p snap sc out w0 ops. induction ops as [|o ops IH] using rev_ind; intros w l N R.
  - rinj R. exists h_new. econstructor; eauto.
  - rewrite run_snoc in R. apply bind_ret in R. destruct R as ([w1 l1] & R1 & R). apply bind_ret in R. destruct R as ([w2 a] & S & R).
    rinj R. destruct (IH _ _ N R1) as (h & T). eexists. econstructor; eauto.
Qed.
Lemma trace_more : forall p snap sc w h ops l ops' w' l', trace p snap sc w h ops l -> run p snap w ops' = Ret (w', l') ->
  exists h', trace p snap sc w' h' (ops ++ ops') (l ++ l').
Proof.
  intros p snap sc w h ops l ops' w' l' T R. destruct (trace_run _ _ _ _ _ _ _ T) as (out & w0 & N & R0).
  apply (run_trace _ _ _ out w0); auto. clear N T h.
  revert w0 l R0. induction ops as [|o ops IH]; intros w0 l R0; cbn [run app] in *.
  - rinj R0. exact R.
  - apply bind_ret in R0. destruct R0 as ([w1 a] & S & R0). apply bind_ret in R0. destruct R0 as ([w2 l2] & R1 & R0). rinj R0.
    rewrite S. cbn [bind fst snd]. rewrite (IH _ _ R1). reflexivity.
Qed.

(** ** Sizes of sessions *)
Lemma run_split : forall p snap a b w w' l, run p snap w (a ++ b) = Ret (w', l) ->
  exists w1 l1 l2, run p snap w a = Ret (w1, l1) /\ run p snap w1 b = Ret (w', l2).
Proof.
  intros p snap a b. induction a as [|o a IH]; intros w w' l R; cbn [run app] in *; [eauto|].
  apply bind_ret in R. destruct R as ([w1 x] & S & R). apply bind_ret in R. destruct R as ([w2 l2] & R1 & R). rinj R.
  destruct (IH _ _ _ R1) as (w3 & l3 & l4 & A & B). exists w3, (x :: l3), l4. rewrite S. cbn [bind]. rewrite A. auto.
Qed.
Lemma modest_app : forall p snap sc a b, modest p snap sc (a ++ b) -> modest p snap sc a.
Proof. intros p snap sc a b M out w0 x o y w l w' r N -> R S. eapply (M out w0 x o (y ++ b)); eauto. rewrite <- app_assoc. reflexivity. Qed.
Lemma trace_modest : forall p snap sc w h ops l o w' a, trace p snap sc w h ops l -> step p snap w o = Ret (w', a) -> modest p snap sc (ops ++ [o]) ->
  zlen (file_bytes w') - zlen (file_bytes w) < 2 ^ 32 /\ zlen (file_bytes w') < 2 ^ 63.
Proof. intros p snap sc w h ops l o w' a T H M. destruct (trace_run _ _ _ _ _ _ _ T) as (out & w0 & N & R). eapply (M out w0 ops o []); eauto. Qed.
(** Files below 4 GiB are no concern. *)
Lemma small_modest : forall p snap sc w h ops l, trace p snap sc w h ops l -> zlen (file_bytes w) < 2 ^ 32 -> modest p snap sc ops.
Proof.
  intros p snap sc w h ops l T L out w0 a o b w1 l1 w2 r N -> R S. destruct (trace_run _ _ _ _ _ _ _ T) as (out' & w0' & N' & R').
  rewrite N in N'. injection N' as <- <-. apply run_split in R'. destruct R' as (w3 & l3 & l4 & R1 & R2). rewrite R in R1. apply ret_inj in R1. injection R1 as <- <-.
  cbn [run] in R2. rewrite S in R2. cbn [bind] in R2. apply bind_ret in R2. destruct R2 as ([w4 l5] & R2 & R3). cbn [fst snd] in R3. rinj R3. apply run_data in R2. destruct R2 as (t & D).
  rewrite D, zlen_app in L. pose proof (zlen_nonneg _ t). pose proof (zlen_nonneg _ (file_bytes w1)). assert (2 ^ 32 < 2 ^ 63) by reflexivity. lia.
Qed.
Lemma small_step : forall p snap sc w h ops l o w' a, trace p snap sc w h ops l -> step p snap w o = Ret (w', a) -> zlen (file_bytes w') < 2 ^ 32 -> modest p snap sc (ops ++ [o]).
Proof. intros p snap sc w h ops l o w' a T H L. eapply small_modest; [econstructor; eauto|exact L]. Qed.

(** ** Acknowledged points *)
Lemma acked_snoc : forall ops l o a, length ops = length l -> acked (ops ++ [o]) (l ++ [a]) = acked ops l ++ acked1 o a.
Proof.
  induction ops as [|x ops IH]; intros [|y l] o a E; try discriminate; cbn [acked app].
  - rewrite app_nil_r. auto.
  - rewrite IH by (cbn in E; lia). rewrite app_assoc. auto.
Qed.
Lemma trace_len : forall p snap sc w h ops l, trace p snap sc w h ops l -> length ops = length l.
Proof. intros p snap sc w h ops l T. induction T; auto. rewrite !app_length. cbn. lia. Qed.

(** What a single write or a successful batch adds. *)
Lemma batch_all : forall sc d t vs h h', h_batch sc d t vs h = (h', true) ->
  h_recent h' = h_recent h ++ map (fun mv => mkPoint d (fst mv) t (snd mv)) vs /\ h_flushed h' = h_flushed h /\ h_counted h' = h_counted h.
Proof.
  intros sc d t vs. induction vs as [|[m v] vs IH]; intros h h' H; cbn [h_batch map] in *.
  - inversion H; subst. rewrite app_nil_r. auto.
  - destruct (admits sc h d m t); [|discriminate]. apply IH in H. destruct H as (A & B & C). rewrite A, B, C.
    cbn [h_store h_recent h_flushed h_counted fst snd]. rewrite <- app_assoc. auto.
Qed.
Lemma h_step_all : forall sc o b h, h_all (h_step sc o b h) = h_all (h_call sc o h).
Proof.
  intros. unfold h_step. destruct (b && _); auto. unfold h_all, h_flush. cbn [h_flushed h_recent]. apply app_nil_r.
Qed.
Lemma verdict_admits : forall sc h d m t, schema_ok sc -> h_verdict sc h d m t = VStored <-> admits sc h d m t = true.
Proof.
  intros sc h d m t Hs. unfold h_verdict, admits.
  assert (D : is_declared sc d m = true -> has_device sc d = true).
  { intros D. apply is_declared_iff in D. destruct D as (ms & D). apply declares_get in D; auto. destruct D as (g & D & _). apply has_device_iff; eauto. }
  destruct (is_declared sc d m); [rewrite (D eq_refl)|]; cbn [negb andb].
  - destruct (t <=? last_time h d m) eqn:A, (last_time h d m <? t) eqn:B; split; auto; try discriminate; lia.
  - destruct (has_device sc d); cbn [negb]; [|split; discriminate]. destruct (t <=? last_time h d m); split; discriminate.
Qed.
Lemma verdict_batch : forall sc d t vs h, schema_ok sc -> vs <> [] \/ has_device sc d = true ->
  (b_verdict sc h d t vs = VStored <-> snd (h_batch sc d t vs h) = true).
Proof.
  intros sc d t vs. induction vs as [|[m v] vs IH]; intros h Hs HD; cbn [b_verdict h_batch].
  - destruct HD as [HD|HD]; [congruence|]. rewrite HD. split; auto.
  - pose proof (verdict_admits sc h d m t Hs) as V. destruct (admits sc h d m t) eqn:A.
    + rewrite (proj2 V eq_refl). apply IH; auto. right.
      unfold admits in A. apply andb_prop in A. destruct A as [A _]. apply is_declared_iff in A. destruct A as (ms & D).
      apply declares_get in D; auto. destruct D as (g & D & _). apply has_device_iff; eauto.
    + destruct (h_verdict sc h d m t); [exfalso; destruct V as [V _]; specialize (V eq_refl); discriminate| |]; split; discriminate.
Qed.
Lemma says_ok : forall x, says x AOk -> x = VStored.
Proof. intros [] H; cbn in H; auto; [discriminate|destruct H; discriminate]. Qed.

Section Hist.
Variable p : profile.
Variable snap decomp : list Z -> option (list Z).
Hypothesis HG : good_snap snap decomp.
Variable sc : schema.
Hypothesis Hsc : schema_ok sc.

Lemma trace_step_ok : forall w h ops l o w' a, trace p snap sc w h ops l -> ops_ok (ops ++ [o]) ->
  step p snap w o = Ret (w', a) -> answers sc h o a.
Proof.
  intros w h ops l o w' a T [O1 O2] H. apply Forall_app in O1. destruct O1 as [O1 O3]. rewrite map_app, zsum_app in O2. cbn [map zsum fold_right] in O2.
  pose proof (op_points_nonneg o). destruct (trace_ok p snap decomp HG sc Hsc w h ops l T) as (L & its & I & _); [split; auto; lia|].
  inversion O3; subst. edestruct (step_ok p snap decomp HG sc Hsc h its w o w' a I) as (A & _); auto. lia.
Qed.

Lemma trace_acked : forall w h ops l, trace p snap sc w h ops l -> ops_ok ops -> batches_ok ops l -> h_all h = acked ops l.
Proof.
  intros w h ops l T. induction T as [out w N|w h ops l o w' a T IH H]; intros O B; [reflexivity|].
  pose proof (trace_len _ _ _ _ _ _ _ T) as TL. pose proof (trace_step_ok _ _ _ _ _ _ _ T O H) as A.
  destruct O as [O1 O2]. apply Forall_app in O1. destruct O1 as [O1 _]. rewrite map_app, zsum_app in O2. cbn [map zsum fold_right] in O2.
  pose proof (op_points_nonneg o). apply Forall2_app_inv_l in B. destruct B as (l1 & l2 & B1 & B2 & E).
  inversion B2 as [|? ? ? ? B3 B4]; subst. inversion B4; subst. apply app_inj_tail in E. destruct E as [<- <-].
  rewrite acked_snoc by auto. rewrite h_step_all, <- IH; auto; [|split; auto; lia]. clear IH.
  destruct o as [d m t v|d t vs|ord]; cbn [h_call acked1 answers] in *.
  - pose proof (verdict_admits sc h d m t Hsc) as V. destruct (admits sc h d m t).
    + rewrite (proj2 V eq_refl) in A. cbn in A. subst a. unfold h_all. cbn [h_count h_store h_flushed h_recent]. apply app_assoc.
    + destruct a; try (rewrite app_nil_r; auto). apply says_ok in A. apply V in A. discriminate.
  - subst a. apply says_ok in A.
    assert (HD : vs <> [] \/ has_device sc d = true).
    { destruct vs as [|x vs]; [|left; discriminate]. cbn [b_verdict] in A. destruct (has_device sc d); [auto|discriminate]. }
    apply (verdict_batch sc d t vs h Hsc HD) in A. destruct (h_batch sc d t vs h) as [h' ok] eqn:E. cbn in A. subst ok.
    apply batch_all in E. destruct E as (E1 & E2 & _). unfold h_all. cbn [h_count h_flushed h_recent]. rewrite E1, E2. apply app_assoc.
  - rewrite app_nil_r. auto.
Qed.

(** Chunks of modest sessions are light. *)
Lemma trace_light : forall w h ops l, trace p snap sc w h ops l -> ops_ok ops -> modest p snap sc ops ->
  zlen (file_bytes w) < 2 ^ 63 /\
  exists its, winv p snap sc h its w /\ (forallb (fun o => negb (is_close o)) ops = true -> Forall is_group its) /\ Forall light its.
Proof.
  intros w h ops l T. induction T as [out w N|w h ops l o w' a T IH H]; intros O M.
  - destruct (trace_ok p snap decomp HG sc Hsc w h_new [] [] (trace_new _ _ _ _ _ N) O) as (_ & _). pose proof (winv_new p snap sc _ _ N) as I.
    split; [rewrite (wi_data _ _ _ _ _ _ I); reflexivity|]. exists []. split; [exact I|]. split; constructor.
  - pose proof (trace_modest _ _ _ _ _ _ _ _ _ _ T H M) as [M1 M2]. split; [exact M2|]. destruct O as [O1 O2]. rewrite map_app, zsum_app in O2. cbn [map zsum fold_right] in O2.
    apply Forall_app in O1. destruct O1 as [O1 O3]. inversion O3; subst. pose proof (op_points_nonneg o).
    assert (O' : ops_ok ops) by (split; auto; lia). destruct (trace_ok p snap decomp HG sc Hsc w h ops l T O') as (LA & _).
    destruct IH as (_ & its & I & G & F); [exact O'|eapply modest_app; eauto|].
    destruct (step_ok p snap decomp HG sc Hsc h its w o w' a I) as (_ & new & N1 & N2); auto; [lia|].
    exists (its ++ new). split; auto. split.
    + rewrite forallb_app. cbn [forallb]. intros X. apply andb_prop in X. destruct X as [X1 X2].
      destruct (is_close o); [discriminate|]. apply Forall_app. auto.
    + apply Forall_app. split; [exact F|]. apply light_of. rewrite (wi_data _ _ _ _ _ _ I), (wi_data _ _ _ _ _ _ N1), file_of_app, !zlen_app in M1. lia.
Qed.

(** ** C15 *)
Lemma flush_no_error : forall w h ops l w' e, trace p snap sc w h ops l -> ops_ok ops ->
  flush_all p snap w = Ret (w', e) -> e = None.
Proof.
  intros w h ops l w' e T O F. destruct (trace_ok p snap decomp HG sc Hsc w h ops l T O) as (_ & its & I & _).
  eapply flush_all_ok; eauto.
Qed.
Lemma group_sizes : forall w h ops l d g io g' io' n, trace p snap sc w h ops l -> ops_ok ops ->
  sm_get d (w_groups w) = Some g -> is_healthy (io_out io) -> flush_to_filewriter p snap g io = Ret (g', io', n) ->
  n = sk_pos (io_out io') - sk_pos (io_out io) /\ n = zlen (sk_data (io_out io')) - zlen (sk_data (io_out io)).
Proof.
  intros w h ops l d g io g' io' n T O G Hh F. destruct (trace_ok p snap decomp HG sc Hsc w h ops l T O) as (_ & its & I & _).
  pose proof (winv_get _ _ _ _ _ _ d I) as WG. rewrite G in WG. destruct (sm_get d (decls sc)) as [g0|] eqn:D; [|contradiction].
  destruct WG as [WG _]. pose proof (decls_names sc Hsc) as DN. rewrite Forall_forall in DN. apply sm_get_in in D. apply DN in D.
  destruct (flush_group_ok p snap decomp HG _ _ _ _ _ _ _ WG (proj2 D) Hh F) as (cis & _ & _ & X & -> & _).
  destruct X as [X1 X2 _]. rewrite X2, X1, zlen_app. lia.
Qed.

(** ** C16 *)
Local Notation kind_ok := (kind_ok sc).
Lemma close_structure : forall w h ops l ord w' a, trace p snap sc w h ops l -> ops_ok ops ->
  forallb (fun o => negb (is_close o)) ops = true -> step p snap w (OpClose ord) = Ret (w', a) ->
  exists its r, winv p snap sc (h_step sc (OpClose ord) (grew w w') h) (its ++ [Raw (2 :: r)]) w' /\ Forall is_group its /\
    file_bytes w' = (MAGIC ++ [3] ++ file_of its) ++ 2 :: r /\ grew w w' = true.
Proof.
  intros w h ops l ord w' a T O NC H. destruct (trace_ok p snap decomp HG sc Hsc w h ops l T O) as (L & its & I & G). specialize (G NC).
  destruct O as [O1 O2].
  destruct (step_ok p snap decomp HG sc Hsc h its w (OpClose ord) w' a I) as (_ & new & I' & N); cbn [op_ok op_points]; auto; [lia|].
  cbn [is_close] in N. destruct N as (gs & r & -> & N). rewrite app_assoc in I'. exists (its ++ gs), r. split; [exact I'|]. split; [apply Forall_app; auto|].
  assert (FB : file_bytes w' = (MAGIC ++ [3] ++ file_of (its ++ gs)) ++ 2 :: r).
  { rewrite (wi_data _ _ _ _ _ _ I'), (file_of_app (its ++ gs)), <- !app_assoc. do 2 f_equal. unfold file_of at 2. cbn [map concat item_bytes]. rewrite app_nil_r. auto. }
  split; auto. unfold grew. rewrite FB, (wi_data _ _ _ _ _ _ I), file_of_app, !zlen_app, (zlen_cons _ 2 r).
  pose proof (zlen_nonneg _ (file_of gs)). pose proof (zlen_nonneg _ r). apply Z.ltb_lt. lia.
Qed.

Lemma close_structure_light : forall w h ops l ord w' a, trace p snap sc w h ops l -> ops_ok ops ->
  forallb (fun o => negb (is_close o)) ops = true -> step p snap w (OpClose ord) = Ret (w', a) -> modest p snap sc (ops ++ [OpClose ord]) ->
  exists its r, winv p snap sc (h_step sc (OpClose ord) (grew w w') h) (its ++ [Raw (2 :: r)]) w' /\ Forall is_group its /\ Forall light its /\
    file_bytes w' = (MAGIC ++ [3] ++ file_of its) ++ 2 :: r /\ grew w w' = true.
Proof.
  intros w h ops l ord w' a T O NC H M. pose proof (trace_modest _ _ _ _ _ _ _ _ _ _ T H M) as [M1 M2].
  destruct (trace_light w h ops l T O (modest_app _ _ _ _ _ M)) as (_ & its & I & G & F). specialize (G NC).
  destruct (trace_ok p snap decomp HG sc Hsc w h ops l T O) as (L & _). destruct O as [O1 O2].
  destruct (step_ok p snap decomp HG sc Hsc h its w (OpClose ord) w' a I) as (_ & new & I' & N); cbn [op_ok op_points]; auto; [lia|].
  cbn [is_close] in N. destruct N as (gs & r & -> & N). rewrite app_assoc in I'. exists (its ++ gs), r. split; [exact I'|]. split; [apply Forall_app; auto|].
  assert (FB : file_bytes w' = (MAGIC ++ [3] ++ file_of (its ++ gs)) ++ 2 :: r).
  { rewrite (wi_data _ _ _ _ _ _ I'), (file_of_app (its ++ gs)), <- !app_assoc. do 2 f_equal. unfold file_of at 2. cbn [map concat item_bytes]. rewrite app_nil_r. auto. }
  rewrite FB, (wi_data _ _ _ _ _ _ I), file_of_app, !zlen_app, (zlen_cons _ 2 r) in M1. pose proof (zlen_nonneg _ (file_of gs)). pose proof (zlen_nonneg _ r).
  split; [apply Forall_app; split; [exact F|apply light_of; lia]|].
  split; auto. unfold grew. rewrite FB, (wi_data _ _ _ _ _ _ I), file_of_app, !zlen_app, (zlen_cons _ 2 r). apply Z.ltb_lt. lia.
Qed.

Lemma close_file_large : forall w h ops l ord w' a, trace p snap sc w h ops l -> ops_ok ops ->
  forallb (fun o => negb (is_close o)) ops = true -> h_recent h = [] \/ 0 < h_counted h ->
  step p snap w (OpClose ord) = Ret (w', a) -> modest p snap sc (ops ++ [OpClose ord]) ->
  exists cs, read_file decomp (file_bytes w') = Some cs /\
    (forall d m, SReader.series_in cs d m = tnums (series_of d m (h_all h))) /\ Forall kind_ok cs.
Proof.
  intros w h ops l ord w' a T O NC HR H M.
  destruct (close_structure_light _ _ _ _ _ _ _ T O NC H M) as (its & r & I & G & F & FB & GR).
  destruct (scan_file_ok p snap decomp HG its (2 :: r)) as (xs & X1 & extra & rest & X2 & X3); auto.
  { eapply items_names; eauto. exact (proj1 (proj1 (Forall_app _ _ _) (wi_items _ _ _ _ _ _ I))). }
  destruct (X3 r eq_refl) as [-> ->]. rewrite app_nil_r in X2. exists (concat xs). split.
  - unfold read_file. rewrite FB, X2. auto.
  - split.
    + intros d m. rewrite (reads_series _ _ _ d m X1). f_equal. pose proof (wi_series _ _ _ _ _ _ I d m) as S.
      rewrite its_series_app in S. unfold its_series at 2 in S. cbn [map concat iseries] in S. rewrite !app_nil_r in S. rewrite S. f_equal.
      unfold h_step. cbn [h_call]. rewrite GR. cbn [andb]. destruct HR as [HR|HR].
      * destruct (0 <? h_counted h); unfold h_all, h_flush; cbn [h_flushed]; rewrite HR; auto. rewrite app_nil_r. auto.
      * apply Z.ltb_lt in HR. rewrite HR. reflexivity.
    + apply (reads_declared p snap sc its xs); auto. exact (proj1 (proj1 (Forall_app _ _ _) (wi_items _ _ _ _ _ _ I))).
Qed.

Lemma close_file : forall w h ops l ord w' a, trace p snap sc w h ops l -> ops_ok ops ->
  forallb (fun o => negb (is_close o)) ops = true -> h_recent h = [] \/ 0 < h_counted h ->
  step p snap w (OpClose ord) = Ret (w', a) -> zlen (file_bytes w') < 2 ^ 32 ->
  exists cs, read_file decomp (file_bytes w') = Some cs /\
    (forall d m, SReader.series_in cs d m = tnums (series_of d m (h_all h))) /\ Forall kind_ok cs.
Proof. intros w h ops l ord w' a T O NC HR H L. eapply close_file_large; eauto using small_step. Qed.

(** ** C19 *)
Lemma offsets_large : forall w h ops l, trace p snap sc w h ops l -> ops_ok ops -> modest p snap sc ops ->
  (forall d l cm, In (d, l) (io_groups (w_io w)) -> In cm l ->
    exists k ms, chunk_at decomp (file_bytes w) (cm_offset cm) = Some k /\
      declares sc d (cm_id cm) ms /\ cm_type cm = ms_type ms /\
      ch_name k = cm_id cm /\ ch_type k = dtype_code (cm_type cm) /\ chunk_points k <> [] /\
      in_group decomp (file_bytes w) d (cm_offset cm)) /\
  (forall d m, concat (map (points_at decomp (file_bytes w)) (recorded (io_groups (w_io w)) d m)) = tnums (series_of d m (h_flushed h))).
Proof.
  intros w h ops l T O M. destruct (trace_light w h ops l T O M) as (L & its & I & _ & F).
  rewrite (wi_metas _ _ _ _ _ _ I), (wi_data _ _ _ _ _ _ I) in *. rewrite !zlen_app in L. change (zlen MAGIC) with 6 in L. change (zlen [3]) with 1 in L.
  replace (MAGIC ++ [3] ++ file_of its) with ((MAGIC ++ [3]) ++ file_of its ++ []) by (rewrite app_nil_r, <- app_assoc; auto).
  split.
  - intros d l0 cm I1 I2. eapply (meta_at p snap decomp HG sc its (MAGIC ++ [3]) [] 7); eauto; [apply I|lia].
  - intros d m. rewrite (series_at p snap decomp HG d m its (MAGIC ++ [3]) [] 7); auto; [|eapply items_names; eauto; apply I|lia].
    f_equal. apply I.
Qed.

Lemma offsets_ok : forall w h ops l, trace p snap sc w h ops l -> ops_ok ops -> zlen (file_bytes w) < 2 ^ 32 ->
  (forall d l cm, In (d, l) (io_groups (w_io w)) -> In cm l ->
    exists k ms, chunk_at decomp (file_bytes w) (cm_offset cm) = Some k /\
      declares sc d (cm_id cm) ms /\ cm_type cm = ms_type ms /\
      ch_name k = cm_id cm /\ ch_type k = dtype_code (cm_type cm) /\ chunk_points k <> [] /\
      in_group decomp (file_bytes w) d (cm_offset cm)) /\
  (forall d m, concat (map (points_at decomp (file_bytes w)) (recorded (io_groups (w_io w)) d m)) = tnums (series_of d m (h_flushed h))).
Proof. intros w h ops l T O L. eapply offsets_large; eauto using small_modest. Qed.

(** ** C35 *)
Lemma survive_large : forall w h ops l tail, trace p snap sc w h ops l -> ops_ok ops ->
  forallb (fun o => negb (is_close o)) ops = true -> modest p snap sc ops ->
  exists cs extra rest, scan_file decomp (file_bytes w ++ tail) = Some (cs ++ extra, rest) /\
    (forall d m, SReader.series_in cs d m = tnums (series_of d m (h_flushed h))) /\ Forall kind_ok cs.
Proof.
  intros w h ops l tail T O NC M. destruct (trace_light w h ops l T O M) as (_ & its & I & G & F).
  destruct (scan_reachable p snap decomp HG sc h its w tail Hsc I (G NC) F) as (cs & extra & rest & A & _ & B & C). eauto 8.
Qed.
Lemma flushed_survive : forall w h ops l tail, trace p snap sc w h ops l -> ops_ok ops ->
  forallb (fun o => negb (is_close o)) ops = true -> zlen (file_bytes w) < 2 ^ 32 ->
  exists cs extra rest, scan_file decomp (file_bytes w ++ tail) = Some (cs ++ extra, rest) /\
    (forall d m, SReader.series_in cs d m = tnums (series_of d m (h_flushed h))) /\ Forall kind_ok cs.
Proof. intros w h ops l tail T O NC L. eapply survive_large; eauto using small_modest. Qed.
Lemma survive_cut_large : forall w h ops l ops' w' l' k, trace p snap sc w h ops l -> ops_ok ops ->
  forallb (fun o => negb (is_close o)) ops = true -> modest p snap sc ops ->
  run p snap w ops' = Ret (w', l') -> (length (file_bytes w) <= k)%nat ->
  exists cs extra rest, scan_file decomp (firstn k (file_bytes w')) = Some (cs ++ extra, rest) /\
    (forall d m, SReader.series_in cs d m = tnums (series_of d m (h_flushed h))) /\ Forall kind_ok cs.
Proof.
  intros w h ops l ops' w' l' k T O NC M R K. apply run_data in R. destruct R as (tail & R). rewrite R, firstn_app, firstn_all2 by auto.
  eapply survive_large; eauto.
Qed.
Lemma flushed_survive_cut : forall w h ops l ops' w' l' k, trace p snap sc w h ops l -> ops_ok ops ->
  forallb (fun o => negb (is_close o)) ops = true -> zlen (file_bytes w) < 2 ^ 32 ->
  run p snap w ops' = Ret (w', l') -> (length (file_bytes w) <= k)%nat ->
  exists cs extra rest, scan_file decomp (firstn k (file_bytes w')) = Some (cs ++ extra, rest) /\
    (forall d m, SReader.series_in cs d m = tnums (series_of d m (h_flushed h))) /\ Forall kind_ok cs.
Proof.
  intros w h ops l ops' w' l' k T O NC L R K. apply run_data in R. destruct R as (tail & R). rewrite R, firstn_app, firstn_all2 by auto.
  eapply flushed_survive; eauto.
Qed.

(** ** C26, C27 *)
Lemma increasing_snoc : forall l lo x, increasing lo l -> last l lo < x -> increasing lo (l ++ [x]).
Proof.
  induction l as [|y l IH]; intros lo x H L; cbn [increasing app] in *; [auto|]. destruct H as [H1 H2]. split; auto. apply IH; auto.
  destruct l as [|z l]; [exact L|]. change (last (y :: z :: l) lo) with (last (z :: l) lo) in L.
  replace (last (z :: l) y) with (last (z :: l) lo); auto. clear. revert z. induction l as [|a l IH]; intros z; [reflexivity|apply (IH a)].
Qed.
Lemma admits_increasing : forall h d m t v d' m', (forall d m, increasing (-1) (map fst (series_of d m (h_recent h)))) ->
  admits sc h d m t = true -> increasing (-1) (map fst (series_of d' m' (h_recent (h_store (mkPoint d m t v) h)))).
Proof.
  intros h d m t v d' m' H A. cbn [h_store h_recent]. rewrite series_app, series_one. cbn [pt_device pt_name pt_time pt_value].
  destruct (same_name d d') eqn:E1; cbn [andb]; [|rewrite app_nil_r; auto]. destruct (same_name m m') eqn:E2; [|rewrite app_nil_r; auto].
  apply same_name_eq in E1. apply same_name_eq in E2. subst d' m'. rewrite map_app. cbn [map fst]. apply increasing_snoc; auto.
  unfold admits in A. apply andb_prop in A. destruct A as [_ A]. apply Z.ltb_lt in A. exact A.
Qed.
Lemma recent_increasing : forall w h ops l d m, trace p snap sc w h ops l -> increasing (-1) (map fst (series_of d m (h_recent h))).
Proof.
  intros w h ops l d m T. revert d m. induction T as [out w N|w h ops l o w' a T IH H]; intros d m; [exact I|].
  unfold h_step. assert (C : forall d m, increasing (-1) (map fst (series_of d m (h_recent (h_call sc o h))))).
  { clear d m. destruct o as [d m t v|d t vs|ord]; cbn [h_call]; intros d' m'; auto.
    - destruct (admits sc h d m t) eqn:A; auto. change (h_recent (h_count 1 (h_store (mkPoint d m t v) h))) with (h_recent (h_store (mkPoint d m t v) h)).
      apply admits_increasing; auto.
    - assert (B : forall vs h, (forall d m, increasing (-1) (map fst (series_of d m (h_recent h)))) ->
        increasing (-1) (map fst (series_of d' m' (h_recent (fst (h_batch sc d t vs h)))))).
      { clear. induction vs as [|[m v] vs IH]; intros h H; cbn [h_batch fst]; auto. destruct (admits sc h d m t) eqn:A; auto.
        apply IH. intros. apply admits_increasing; auto. }
      specialize (B vs h IH). destruct (h_batch sc d t vs h) as [h' [|]]; exact B. }
  destruct (grew w w' && _); auto. exact I.
Qed.
Lemma after_flush : forall w h ops l o w' a, trace p snap sc w h ops l -> step p snap w o = Ret (w', a) ->
  grew w w' = true -> 0 < h_counted (h_call sc o h) -> h_recent (h_step sc o (grew w w') h) = [] /\
  h_flushed (h_step sc o (grew w w') h) = h_all (h_call sc o h).
Proof.
  intros w h ops l o w' a T H G C. unfold h_step. rewrite G. apply Z.ltb_lt in C. rewrite C. auto.
Qed.
Lemma accepted_again : forall w h ops l d m ms t v w' a, trace p snap sc w h ops l -> ops_ok (ops ++ [OpWrite d m t v]) ->
  h_recent h = [] -> declares sc d m ms -> 0 <= t -> step p snap w (OpWrite d m t v) = Ret (w', a) -> a = AOk.
Proof.
  intros w h ops l d m ms t v w' a T O HR D Ht H. pose proof (trace_step_ok _ _ _ _ _ _ _ T O H) as A. cbn [answers] in A.
  replace (h_verdict sc h d m t) with VStored in A; [exact A|]. symmetry. apply verdict_admits; auto. unfold admits.
  apply andb_true_intro. split; [apply is_declared_iff; eauto|]. unfold last_time. rewrite HR. cbn. apply Z.ltb_lt. lia.
Qed.
End Hist.
