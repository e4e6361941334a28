(** Files closed more than once: what their index lists (C54). *)
From Verif Require Export PStored SReclose.
Ltac Zify.zify_post_hook ::= idtac.

(** ** Only [close] touches the collected time series metadata *)
Lemma write_all_pages_tsmeta : forall c a a', write_all_pages c a = Ret a' -> io_tsmeta a' = io_tsmeta a.
Proof.
  intros c a a' H. unfold write_all_pages in H. destruct (st_count (cw_stats c) =? 0); [rinj H; auto|].
  unfold end_current_chunk, io_with_out, start_flush_chunk in H. cbn [io_current io_out io_device io_chunks io_groups io_tsmeta] in H. rinj H. reflexivity.
Qed.
Lemma flush_chunks_tsmeta : forall p snap cs a r, flush_chunks p snap cs a = Ret r -> io_tsmeta (snd r) = io_tsmeta a.
Proof.
  induction cs as [|[i c] cs IH]; intros a r H; cbn [flush_chunks] in H; [rinj H; reflexivity|].
  apply bind_ret in H. destruct H as ([c1 a1] & H1 & H). apply bind_ret in H. destruct H as (r2 & H2 & H). rinj H. cbn [snd].
  rewrite (IH _ _ H2). unfold write_to_file_writer in H1. apply bind_ret in H1. destruct H1 as (c2 & _ & H1). apply bind_ret in H1. destruct H1 as (w2 & H3 & H1).
  rinj H1. apply write_all_pages_tsmeta in H3. exact H3.
Qed.
Lemma end_group_tsmeta : forall a, io_tsmeta (end_chunk_group a) = io_tsmeta a.
Proof. intros a. unfold end_chunk_group. destruct (io_device a), (io_chunks a); reflexivity. Qed.
Lemma flush_groups_tsmeta : forall p snap gs a gs' a' e, flush_groups p snap gs a = Ret (gs', a', e) -> io_tsmeta a' = io_tsmeta a.
Proof.
  induction gs as [|[d g] gs IH]; intros a gs' a' e H; cbn [flush_groups] in H; [rinj H; reflexivity|].
  unfold start_chunk_group in H. destruct (wexec (chunk_group_header d) (io_out a)) as [o b]. destruct b; [|rinj H; reflexivity].
  apply bind_ret in H. destruct H as ([[g' a1] n] & H1 & H). unfold flush_to_filewriter in H1. apply bind_ret in H1. destruct H1 as (cs & _ & H1).
  apply bind_ret in H1. destruct H1 as (r & H2 & H1). rinj H1. apply flush_chunks_tsmeta in H2. cbn [io_tsmeta] in H2.
  destruct (negb _); [rinj H; auto|]. apply bind_ret in H. destruct H as ([[gs2 a2] e2] & H3 & H). rinj H. apply IH in H3. rewrite H3, end_group_tsmeta. auto.
Qed.
Lemma flush_all_tsmeta : forall p snap w w' e, flush_all p snap w = Ret (w', e) -> io_tsmeta (w_io w') = io_tsmeta (w_io w).
Proof.
  intros p snap w w' e H. unfold flush_all in H. destruct (w_records w >? 0); [|rinj H; reflexivity].
  apply bind_ret in H. destruct H as ([[gs io] e1] & F & H). apply flush_groups_tsmeta in F. destruct e1; rinj H; exact F.
Qed.
Lemma check_memory_tsmeta : forall p snap w w', check_memory p snap w = Ret w' -> io_tsmeta (w_io w') = io_tsmeta (w_io w).
Proof.
  intros p snap w w' H. unfold check_memory in H. destruct (w_records w >=? w_next_check w); [|rinj H; reflexivity].
  apply bind_ret in H. destruct H as (mem & _ & H). destruct (mem =? 0); [discriminate|]. destruct (mem >? _); [|rinj H; reflexivity].
  apply bind_ret in H. destruct H as ([w1 e] & F & H). rinj H. apply flush_all_tsmeta in F. exact F.
Qed.
Lemma step_tsmeta : forall p snap w o w' a, is_close o = false -> step p snap w o = Ret (w', a) -> io_tsmeta (w_io w') = io_tsmeta (w_io w).
Proof.
  intros p snap w o w' a C H. destruct o as [d m t v|d t vs|ord]; [| |discriminate]; cbn [step] in H.
  - unfold writer_write in H. destruct (sm_get d (w_groups w)) as [g|]; [|rinj H; reflexivity]. apply bind_ret in H. destruct H as ([g' e] & _ & H).
    destruct e; [rinj H; reflexivity|]. apply bind_ret in H. destruct H as (rc & _ & H). apply bind_ret in H. destruct H as (w2 & K & H). rinj H. apply check_memory_tsmeta in K. exact K.
  - unfold writer_write_many in H. destruct (sm_get d (w_groups w)) as [g|]; [|rinj H; reflexivity]. apply bind_ret in H. destruct H as ([g' r] & _ & H).
    destruct r; [|rinj H; reflexivity]. apply bind_ret in H. destruct H as (rc & _ & H). apply bind_ret in H. destruct H as (w2 & K & H). rinj H. apply check_memory_tsmeta in K. exact K.
Qed.

(** ** Histories with the points stored at every close *)
Inductive ctrace (p : profile) (snap : compressor) (sc : schema) : writer -> hist -> list (list point) -> list op -> list answer -> Prop :=
  | ctrace_new : forall out w, writer_new sc (sink_new healthy) = (out, Some w) -> ctrace p snap sc w h_new [] [] []
  | ctrace_step : forall w h pss ops l o w' a, ctrace p snap sc w h pss ops l -> step p snap w o = Ret (w', a) ->
      ctrace p snap sc w' (h_step sc o (grew w w') h) (pss ++ (if is_close o then [h_flushed (h_step sc o (grew w w') h)] else [])) (ops ++ [o]) (l ++ [a]).
Lemma ctrace_trace : forall p snap sc w h pss ops l, ctrace p snap sc w h pss ops l -> trace p snap sc w h ops l.
Proof. intros p snap sc w h pss ops l T. induction T; [eapply trace_new; eauto|econstructor; eauto]. Qed.
Lemma trace_ctrace : forall p snap sc w h ops l, trace p snap sc w h ops l -> exists pss, ctrace p snap sc w h pss ops l.
Proof. intros p snap sc w h ops l T. induction T as [out w N|w h ops l o w' a T (pss & IH) H]; [eexists; eapply ctrace_new; eauto|eexists; eapply ctrace_step; eauto]. Qed.
Lemma ctrace_len : forall p snap sc w h pss ops l, ctrace p snap sc w h pss ops l -> length pss = length (filter is_close ops).
Proof.
  intros p snap sc w h pss ops l T. induction T; [reflexivity|]. rewrite filter_app, !app_length, IHT. cbn [filter]. destruct (is_close o); reflexivity.
Qed.

Lemma closings_snoc : forall ops l pre o a, length ops = length l ->
  closings pre (ops ++ [o]) (l ++ [a]) = closings pre ops l ++ (if is_close o then [pre ++ acked (ops ++ [o]) (l ++ [a])] else []).
Proof.
  induction ops as [|x ops IH]; intros [|y l] pre o a E; try discriminate.
  - cbn [app closings acked]. rewrite app_nil_r. destruct (is_close o); reflexivity.
  - cbn [app closings acked]. injection E as E. rewrite (IH l _ o a E), <- app_assoc. destruct (is_close x); reflexivity.
Qed.

Section Reclose.
Variable p : profile.
Variable snap decomp : list Z -> option (list Z).
Hypothesis HG : good_snap snap decomp.
Variable sc : schema.
Hypothesis Hsc : schema_ok sc.

Lemma ctrace_closings : forall w h pss ops l, ctrace p snap sc w h pss ops l -> ops_ok ops -> batches_ok ops l -> pss = closings [] ops l.
Proof.
  intros w h pss ops l T. induction T as [out w N|w h pss ops l o w' a T IH H]; intros O B; [reflexivity|].
  pose proof (ctrace_trace _ _ _ _ _ _ _ _ T) as T0. pose proof (trace_len _ _ _ _ _ _ _ T0) as TL.
  rewrite closings_snoc by auto. assert (O' : ops_ok ops).
  { destruct O as [O1 O2]. apply Forall_app in O1. destruct O1 as [O1 _]. rewrite map_app, zsum_app in O2. cbn [map zsum fold_right] in O2. pose proof (op_points_nonneg o). split; [auto|lia]. }
  pose proof B as B0. apply Forall2_app_inv_l in B. destruct B as (l1 & l2 & B1 & B2 & E). inversion B2 as [|? ? ? ? B3 B4]; subst. inversion B4; subst. apply app_inj_tail in E. destruct E as [<- <-].
  rewrite IH by auto. f_equal. destruct (is_close o) eqn:C; [|reflexivity]. destruct o as [| |ord]; try discriminate. f_equal. cbn [app].
  rewrite acked_snoc by auto. cbn [acked1]. rewrite app_nil_r. rewrite <- (trace_acked p snap decomp HG sc Hsc _ _ _ _ T0 O' B1).
  pose proof (counted_all p snap decomp HG sc Hsc _ _ _ _ T0 O' B1) as K. 
  assert (T1 : trace p snap sc w' (h_step sc (OpClose ord) (grew w w') h) (ops ++ [OpClose ord]) (l ++ [a])) by (econstructor; eauto).
  destruct (trace_ok p snap decomp HG sc Hsc w h ops l T0 O') as (L & its & I & _). destruct O' as [O1 O2].
  assert (GR : grew w w' = true).
  { destruct (step_ok p snap decomp HG sc Hsc h its w (OpClose ord) w' a I) as (_ & new & I' & N); cbn [op_ok op_points]; auto; [lia|]. cbn [is_close] in N. destruct N as (gs & r & -> & _).
    unfold grew. rewrite (wi_data _ _ _ _ _ _ I), (wi_data _ _ _ _ _ _ I'), !file_of_app, !zlen_app. apply Z.ltb_lt.
    assert (FR : zlen (file_of [Raw (2 :: r)]) = 1 + zlen r) by (unfold file_of; cbn [map concat item_bytes]; rewrite app_nil_r, zlen_cons; lia). rewrite FR. pose proof (zlen_nonneg _ (file_of gs)). pose proof (zlen_nonneg _ r). lia. }
  unfold h_step. cbn [h_call]. rewrite GR. cbn [andb]. apply kept_all. destruct (h_recent h) as [|q r]; [left; auto|right]. rewrite K, zlen_cons. pose proof (zlen_nonneg _ r). lia.
Qed.

(** ** The invariant *)
Definition listed (pm : str * list chunk_meta) (e : str * ts_meta) : Prop := fst e = fst pm /\ ts_meta_of p (snd pm) = Ret (snd e).
Definition dev_metas_of (d : str) (tms : list (str * ts_meta)) : list ts_meta := map snd (filter (of_device d) tms).
Record minv (snaps : list (list item)) (tsm : smap (list ts_meta)) (tmss : list (list (str * ts_meta))) : Prop := {
  mi_list : Forall2 (fun s tms => Forall2 listed (chunk_map (metas 7 s)) tms) snaps tmss;
  mi_sorted : sorted tsm;
  mi_full : no_empty tsm;
  mi_get : forall d, getl d tsm = concat (map (dev_metas_of d) tmss) }.
Definition first_close (snaps : list (list item)) (its : list item) : Prop :=
  match snaps with [] => Forall is_group its | s :: _ => Forall is_group s /\ exists r more, its = s ++ Raw (2 :: r) :: more end.
Record cinv (h : hist) (pss : list (list point)) (snaps : list (list item)) (its : list item) (w : writer) : Prop := {
  ci_winv : winv p snap sc h its w;
  ci_pre : Forall (fun s => exists more, its = s ++ more) snaps;
  ci_pts : Forall2 (fun s pts => forall d m, its_series d m s = series_of d m pts) snaps pss;
  ci_first : first_close snaps its;
  ci_metas : exists tmss, minv snaps (io_tsmeta (w_io w)) tmss }.

Lemma pre_more : forall its new snaps, Forall (fun s : list item => exists more, its = s ++ more) snaps -> Forall (fun s => exists more, its ++ new = s ++ more) snaps.
Proof. intros its new snaps F. eapply Forall_impl; [|exact F]. cbn beta. intros s (more & ->). exists (more ++ new). rewrite app_assoc. auto. Qed.
Lemma first_more : forall snaps its new, first_close snaps its -> Forall is_group new -> first_close snaps (its ++ new).
Proof.
  intros [|s snaps] its new F G; cbn [first_close] in *; [apply Forall_app; auto|]. destruct F as (F & r & more & ->). split; auto. exists r, (more ++ new). rewrite <- app_assoc. reflexivity.
Qed.
Lemma first_close_more : forall snaps its gs r, first_close snaps its -> Forall is_group gs -> first_close (snaps ++ [its ++ gs]) ((its ++ gs) ++ [Raw (2 :: r)]).
Proof.
  intros [|s snaps] its gs r F G; cbn [first_close app] in *; [split; [apply Forall_app; auto|eauto]|]. destruct F as (F & r' & more & ->). split; auto. exists r', (more ++ gs ++ [Raw (2 :: r)]). rewrite <- !app_assoc. reflexivity.
Qed.

Lemma end_file_tsmeta : forall ord io io', end_file p ord io = Ret io' -> metadata_loop p None (chunk_map (io_groups io)) (io_tsmeta io) = Ret (io_tsmeta io').
Proof.
  intros ord io io' H. unfold end_file in H. apply bind_ret in H. destruct H as (tsm & M & H). apply bind_ret in H. destruct H as ([ix o1] & _ & H).
  apply bind_ret in H. destruct H as (bf & _ & H). apply bind_ret in H. destruct H as (bw & _ & H). rinj H. exact M.
Qed.
Lemma minv_close : forall snaps tsm tmss s tsm', minv snaps tsm tmss -> metadata_loop p None (chunk_map (metas 7 s)) tsm = Ret tsm' ->
  exists tms, minv (snaps ++ [s]) tsm' (tmss ++ [tms]).
Proof.
  intros snaps tsm tmss s tsm' [A B C D] M. destruct (metadata_loop_spec p _ None tsm tsm' M B C) as (tms & T1 & T2 & T3 & T4). exists tms. split; auto.
  - apply Forall2_app; [exact A|]. constructor; [exact T1|constructor].
  - intros d. rewrite T4, D, map_app, concat_app. cbn [map concat]. rewrite app_nil_r. reflexivity.
Qed.

(** what a close does *)
Lemma close_step : forall h pss snaps its w ord w' a, cinv h pss snaps its w -> step p snap w (OpClose ord) = Ret (w', a) ->
  exists w1 gs, winv p snap sc (if 0 <? h_counted h then h_flush h else h) (its ++ gs) w1 /\ Forall is_group gs /\ end_file p ord (w_io w1) = Ret (w_io w') /\
    io_tsmeta (w_io w1) = io_tsmeta (w_io w).
Proof.
  intros h pss snaps its w ord w' a [I _ _ _ _] H. cbn [step] in H. unfold writer_close in H. apply bind_ret in H. destruct H as ([w1 e] & F & H). cbn [fst] in H.
  apply bind_ret in H. destruct H as (io & E & H). rinj H. pose proof (flush_all_tsmeta _ _ _ _ _ F) as TS.
  destruct (flush_all_ok _ _ _ HG _ Hsc _ _ _ _ _ I F) as [_ K]. exists w1. cbn [w_io]. destruct (0 <? h_counted h).
  - destruct K as (new & K1 & K2 & _). exists new. auto.
  - subst w1. exists []. rewrite app_nil_r. auto.
Qed.

Lemma ctrace_ok : forall w h pss ops l, ctrace p snap sc w h pss ops l -> ops_ok ops ->
  exists snaps its, cinv h pss snaps its w.
Proof.
  intros w h pss ops l T. induction T as [out w N|w h pss ops l o w' a T IH H]; intros O.
  - exists [], []. split; [eapply winv_new; eauto|constructor|constructor|constructor|]. exists [].
    unfold writer_new, io_new in N. destruct (wexec _ _) as [s b]. destruct b; [|discriminate]. inversion N; subst. cbn [w_io io_tsmeta].
    split; [constructor|apply sorted_nil|constructor|reflexivity].
  - pose proof O as [O1 O2]. apply Forall_app in O1. destruct O1 as [O1 O3]. inversion O3 as [|? ? O4 _]; subst. rewrite map_app, zsum_app in O2. cbn [map zsum fold_right] in O2. pose proof (op_points_nonneg o).
    assert (O' : ops_ok ops) by (split; auto; lia). destruct (IH O') as (snaps & its & CI). clear IH.
    pose proof (ctrace_trace _ _ _ _ _ _ _ _ T) as T0. destruct (trace_ok p snap decomp HG sc Hsc w h ops l T0 O') as (L & _).
    pose proof CI as [I P1 P2 P3 (tmss & P4)].
    destruct (is_close o) eqn:C.
    + destruct o as [| |ord]; try discriminate. destruct (close_step _ _ _ _ _ _ _ _ CI H) as (w1 & gs & I1 & G1 & E & TS).
      pose proof (end_file_tsmeta _ _ _ E) as M. rewrite (wi_metas _ _ _ _ _ _ I1), TS in M. destruct (minv_close _ _ _ _ _ P4 M) as (tms & P4').
      destruct (end_file_ok p _ _ _ (wi_healthy _ _ _ _ _ _ I1) E) as (r & X & X1 & X2).
      assert (FB : file_bytes w' = file_bytes w1 ++ 2 :: r) by (apply X).
      assert (GR : grew w w' = true).
      { unfold grew. rewrite FB, (wi_data _ _ _ _ _ _ I), (wi_data _ _ _ _ _ _ I1), file_of_app, !zlen_app, (zlen_cons _ 2 r). pose proof (zlen_nonneg _ r). pose proof (zlen_nonneg _ (file_of gs)). apply Z.ltb_lt. lia. }
      exists (snaps ++ [its ++ gs]), ((its ++ gs) ++ [Raw (2 :: r)]).
      destruct (step_ok p snap decomp HG sc Hsc h its w (OpClose ord) w' a I) as (_ & new & I' & NN); cbn [op_ok op_points]; auto; [lia|].
      assert (HS : h_step sc (OpClose ord) (grew w w') h = if 0 <? h_counted h then h_flush h else h) by (unfold h_step; cbn [h_call]; rewrite GR; reflexivity).
      split.
      * rewrite HS. pose proof I1 as [J1 J2 J3 J4 J5 J6 J7 J8 J9 J10 J11 J12 J13].
        pose proof H as H'. cbn [step] in H'. unfold writer_close in H'. apply bind_ret in H'. destruct H' as ([w1' e] & F & H'). cbn [fst] in H'. apply bind_ret in H'. destruct H' as (io & E' & H'). 
        pose proof I' as [K1 K2 K3 K4 K5 K6 K7 K8 K9 K10 K11 K12 K13]. rewrite HS in *. split; auto.
        -- rewrite FB, J4, (file_of_app (its ++ gs)), <- !app_assoc. replace (file_of [Raw (2 :: r)]) with (2 :: r); auto. unfold file_of. cbn [map concat item_bytes]. rewrite app_nil_r. auto.
        -- rewrite X1, J6, (metas_app (its ++ gs)). cbn [metas imetas app]. rewrite app_nil_r. auto.
        -- apply Forall_app. split; [auto|repeat constructor].
        -- intros d m. rewrite its_series_app, J8. unfold its_series. cbn [map concat iseries]. rewrite !app_nil_r. auto.
        -- intros X3. apply Forall_app in X3. destruct X3 as [_ X3]. inversion X3; subst. contradiction.
      * apply Forall_app. split.
        -- rewrite <- app_assoc. apply pre_more. exact P1.
        -- constructor; [|constructor]. eauto.
      * apply Forall2_app; [exact P2|]. constructor; [|constructor]. rewrite HS. apply I1.
      * apply first_close_more; auto.
      * eauto.
    + destruct (step_ok p snap decomp HG sc Hsc h its w o w' a I) as (_ & new & I' & NN); auto; [lia|]. rewrite C in NN.
      exists snaps, (its ++ new). rewrite app_nil_r. split; auto.
      * apply pre_more. exact P1.
      * apply first_more; auto.
      * exists tmss. rewrite (step_tsmeta _ _ _ _ _ _ C H). exact P4.
Qed.

(** ** Reading front to back: only the first close is seen *)
Lemma reclosed_scan : forall w h pts pss ops l, ctrace p snap sc w h (pts :: pss) ops l -> ops_ok ops -> zlen (file_bytes w) < 2 ^ 32 ->
  exists cs, read_file decomp (file_bytes w) = Some cs /\ (forall d m, SReader.series_in cs d m = tnums (series_of d m pts)) /\ Forall (kind_ok sc) cs.
Proof.
  intros w h pts pss ops l T O L. destruct (ctrace_ok _ _ _ _ _ T O) as (snaps & its & [I P1 P2 P3 _]). inversion P2 as [|s ? snaps' ? S1 S2]; subst.
  cbn [first_close] in P3. destruct P3 as (G & r & more & ->). pose proof (wi_data _ _ _ _ _ _ I) as FB. pose proof (wi_items _ _ _ _ _ _ I) as IT. apply Forall_app in IT. destruct IT as [IT _].
  assert (FB' : file_bytes w = (MAGIC ++ [3] ++ file_of s) ++ 2 :: (r ++ file_of more)).
  { rewrite FB. rewrite file_of_app, <- !app_assoc. reflexivity. }
  destruct (scan_file_ok p snap decomp HG s (2 :: (r ++ file_of more))) as (xs & X1 & extra & rest & X2 & X3); auto.
  { eapply items_names; eauto. }
  { apply light_of. rewrite FB', !zlen_app in L. change (zlen MAGIC) with 6 in L. change (zlen [3]) with 1 in L. pose proof (zlen_nonneg _ (2 :: r ++ file_of more)). lia. }
  destruct (X3 _ eq_refl) as [-> ->]. rewrite app_nil_r in X2. exists (concat xs). split; [|split].
  - unfold read_file. rewrite FB', X2. auto.
  - intros d m. rewrite (reads_series _ _ _ d m X1), S1. reflexivity.
  - apply (reads_declared p snap sc s xs); auto.
Qed.
End Reclose.
