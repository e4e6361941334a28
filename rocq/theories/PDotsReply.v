(** Sessions with names of any kind: outcomes (C62). *)
From Verif Require Export PDotsClose PAgainReply SDotsReply.
Ltac Zify.zify_post_hook ::= idtac.

Lemma ts_total_kept : forall p dt m0 l, cm_type m0 = dt -> (exists tm, ts_meta_of p (filter (fun m => dtype_eqb (cm_type m) dt) (m0 :: l)) = Ret tm) -> exists tm, ts_meta_of p (m0 :: l) = Ret tm.
Proof.
  intros p dt m0 l E [tm H]. assert (D : dtype_eqb (cm_type m0) dt = true) by (rewrite E; destruct dt; reflexivity).
  assert (K : filter (fun m => dtype_eqb (cm_type m) dt) (m0 :: l) = m0 :: filter (fun m => dtype_eqb (cm_type m) dt) l) by (cbn [filter]; rewrite D; reflexivity).
  rewrite K in H. unfold ts_meta_of in *. rewrite E in *. rewrite ts_fold_kept, K.
  assert (X : forall (a b : bool) ms buf buf' st r, foldM (fun acc m => let '(buffer, st) := acc in if dtype_eqb (cm_type m) dt then
                    let* st' := stats_merge p st (cm_stats m) in Ret (buffer ++ wbytes (chunk_meta_serialize a m), st') else Ret acc) ms (buf, st) = Ret r ->
     exists r', foldM (fun acc m => let '(buffer, st) := acc in if dtype_eqb (cm_type m) dt then
                    let* st' := stats_merge p st (cm_stats m) in Ret (buffer ++ wbytes (chunk_meta_serialize b m), st') else Ret acc) ms (buf', st) = Ret r').
  { clear. intros a b ms. induction ms as [|m ms IH]; intros buf buf' st r R; [eexists; reflexivity|]. cbn [foldM] in *. destruct (dtype_eqb (cm_type m) dt).
    - destruct (stats_merge p st (cm_stats m)) as [st'|e]; [|discriminate]. cbn [bind] in *. eapply IH; eauto.
    - cbn [bind] in *. eapply IH; eauto. }
  apply bind_ret in H. destruct H as (r & R & _). eapply X in R. destruct R as ([b st] & R). rewrite R. cbn [bind]. eexists. reflexivity.
Qed.
Lemma texts_fits : forall sc pts, 150 * series_count sc < 2 ^ 32 -> zlen (stored_texts sc pts) <= zlen (stored_paths sc pts) ->
  texts_closable sc pts = true <-> zlen (stored_parts sc pts) <= 256 /\ filter_fits (stored_texts sc pts).
Proof.
  intros sc pts B L0. unfold texts_closable. cbv zeta. pose proof (stored_paths_len sc pts) as L. pose proof (zlen_nonneg _ (stored_texts sc pts)) as N.
  rewrite filter_size_bits by lia. rewrite filter_fits_iff. set (cap := bloom_bits (zlen (stored_texts sc pts))). rewrite !andb_true_iff, orb_true_iff, Z.leb_le, Z.eqb_eq, Z.leb_le, forallb_forall.
  split.
  - intros ((A & C) & D). split; [exact A|]. split; [|exact C]. intros q seed I J [X Y]. specialize (D q I). rewrite forallb_forall in D. specialize (D seed J).
    rewrite X, Z.eqb_refl in D. cbn [negb orb] in D. apply Z.eqb_eq in D. auto.
  - intros (A & D & C). split; [auto|]. intros q I. apply forallb_forall. intros seed J. specialize (D q seed I J). destruct (Z.eqb_spec (path_hash q seed) (- 2 ^ 31)) as [X|X]; [|reflexivity]. cbn [negb orb].
    apply Z.eqb_eq. destruct (Z.eq_dec (2 ^ 31 mod cap) 0); auto. exfalso. auto.
Qed.
Lemma name_set_len : forall l, zlen (name_set l) <= zlen l.
Proof.
  intros l. unfold zlen. apply inj_le, NoDup_incl_length; [apply rising_nodup, name_set_rising|]. intros x I. apply name_set_in. exact I.
Qed.

Section Replies.
Variable snap decomp : list Z -> option (list Z).
Hypothesis HG : good_snap snap decomp.
Variable sc : schema.
Hypothesis Hsc : schema_ok sc.

Lemma entry_total_any : forall p its, Forall (item_ok p snap sc) its -> zsum (map e_count (chunk_list 7 its)) < 2 ^ 32 -> forall q cms, In (q, cms) (chunk_map (metas 7 its)) -> exists tm, ts_meta_of p cms = Ret tm.
Proof.
  intros p its HI HP q cms I. destruct (chunk_map_spec (metas 7 its)) as (S & N & E). apply (getl_in _ _ _ _ S N) in I. destruct I as [I NE]. rewrite E, (path_entry p snap decomp HG sc Hsc its HI), map_map in I. cbn [snd] in I.
  set (lo := filter (fun x => same_name (s_path (e_spot x)) q) (chunk_list 7 its)) in *.
  assert (LA : incl lo (chunk_list 7 its)) by (intros x J; apply filter_In in J; apply J). assert (LC : zsum (map e_count lo) < 2 ^ 32) by (eapply Z.le_lt_trans; [apply count_filter|exact HP]). clearbody lo.
  destruct lo as [|x0 lo']; [cbn in I; congruence|]. cbn [map] in I. subst cms. change (map (fun x : entry => e_meta x) lo') with (map e_meta lo') in *.
  destruct (entry_item p snap decomp HG sc Hsc its HI 7 x0 (LA x0 (or_introl eq_refl))) as (_ & _ & _ & TY). set (dt := ms_type (c_ms (e_item x0))) in *.
  apply (ts_total_kept p dt); [exact TY|]. change (e_meta x0 :: map e_meta lo') with (map e_meta (x0 :: lo')). rewrite filter_map_comm.
  set (locs := filter (fun x => dtype_eqb (cm_type (e_meta x)) dt) (x0 :: lo')).
  assert (LI : forall x, In x locs -> In x (chunk_list 7 its) /\ cw_type (c_cw (e_item x)) = dt).
  { intros x J. apply filter_In in J. destruct J as [J1 J2]. split; [apply LA; exact J1|]. unfold e_meta in J2. cbn [cmeta cm_type] in J2. destruct (cw_type (c_cw (e_item x))), dt; try reflexivity; discriminate. }
  assert (D0 : dtype_eqb (cm_type (e_meta x0)) dt = true). { change (cm_type (e_meta x0)) with (cw_type (c_cw (e_item x0))). rewrite TY. destruct dt; reflexivity. }
  assert (NL : map e_meta locs <> []). { unfold locs. cbn [filter]. rewrite D0. discriminate. }
  assert (CC : zsum (map e_count locs) < 2 ^ 32) by (eapply Z.le_lt_trans; [apply count_filter|exact LC]).
  assert (X : forall l, incl l locs -> exists chunks, Forall (fun cm => cm_type cm = dt) (map e_meta l) /\
     Forall2 (fun cm pages => tree_stats p dt (chunk_tree pages) = Ret (cm_stats cm) /\ points_ok dt (concat pages)) (map e_meta l) chunks /\ zlen (concat (map (@concat _) chunks)) = zsum (map e_count l)).
  { clear - HG Hsc HI LI. induction l as [|x l IH]; intros L.
    - exists []. split; [constructor|]. split; [constructor|reflexivity].
    - destruct IH as (chunks & X0 & X1 & X2); [intros y Y; apply L; right; auto|]. destruct (LI x (L x (or_introl eq_refl))) as [J T]. destruct (entry_item p snap decomp HG sc Hsc its HI 7 x J) as ([A1 A2 A3] & _ & _ & B).
      destruct (sealed_inv p snap decomp HG _ _ _ _ A1 A3) as (pages & ims & IV & EP). pose proof (ci_stats _ _ _ _ _ _ _ _ _ _ IV) as ST. rewrite <- B, T in ST.
      exists (pages :: chunks). cbn [map]. split; [constructor; auto|]. split; [constructor; auto; split; [exact ST|]|cbn [concat]; rewrite zlen_app, zsum_cons, X2, EP; reflexivity].
      rewrite EP, <- T, B. apply A1. }
  destruct (X locs (incl_refl _)) as (chunks & X0 & X1 & X2). apply (ts_total p dt _ chunks NL X0 X1). rewrite X2. exact CC.
Qed.
(** What earlier closes left behind belongs to device parts of chunks in the file. *)
Definition within_any (its : list item) (tsm : smap (list ts_meta)) : Prop :=
  sorted tsm /\ no_empty tsm /\ forall d, getl d tsm <> [] -> exists q, In q (map fst (chunk_map (metas 7 its))) /\ device_part q = d.
Lemma tsm_parts : forall p its acc tsm parts, within_any its acc -> metadata_loop p None (chunk_map (metas 7 its)) acc = Ret tsm ->
  NoDup parts -> (forall d, In d parts <-> exists q, In q (map fst (chunk_map (metas 7 its))) /\ device_part q = d) -> Permutation parts (map fst (nonempty tsm)).
Proof.
  intros p its acc tsm parts (SA & NA & WA) M N H. destruct (metadata_loop_spec _ _ _ _ _ M SA NA) as (tms & F & S & NE & K). rewrite (nonempty_id _ _ NE).
  apply NoDup_Permutation; auto; [apply lt_nodup; exact S|]. intros d. rewrite H.
  assert (IN : In d (map fst tsm) <-> getl d tsm <> []).
  { split.
    - intros I. apply in_map_iff in I. destruct I as ([d' l] & <- & I). apply (getl_in _ _ _ _ S NE) in I. destruct I as [<- I]. exact I.
    - intros X. apply in_map_iff. exists (d, getl d tsm). split; auto. apply (getl_in _ _ _ _ S NE). auto. }
  pose proof (listed_paths p its tms d F) as LP.
  rewrite IN, K. split.
  - intros (q & J & <-) Z. apply app_eq_nil in Z. destruct Z as [_ Z]. apply map_eq_nil in Z. rewrite Z in LP. assert (X : In q (filter (fun x => same_name (device_part x) (device_part q)) (map fst (chunk_map (metas 7 its))))) by (apply filter_In; split; [exact J|apply PWriter.same_name_refl]).
    rewrite <- LP in X. destruct X.
  - intros X. destruct (filter (of_device d) tms) as [|e r] eqn:EF; [cbn [map] in X; rewrite app_nil_r in X; exact (WA d X)|].
    assert (J : In (fst e) (map fst (e :: r))) by (left; reflexivity). rewrite LP in J. apply filter_In in J. destruct J as [J1 J2]. apply PWriter.same_name_eq in J2. eauto.
Qed.
Lemma within_parts : forall p h its snaps w tmss, winv p snap sc h its w -> Forall (fun s => exists more, its = s ++ more) snaps -> minv p snaps (io_tsmeta (w_io w)) tmss -> within_any its (io_tsmeta (w_io w)).
Proof.
  intros p h its snaps w tmss I PRE [M1 M2 M3 M4]. split; [exact M2|]. split; [exact M3|]. intros d X. rewrite M4 in X.
  assert (Y : exists tm, In tm (List.concat (map (dev_metas_of d) tmss))) by (destruct (List.concat (map (dev_metas_of d) tmss)) as [|tm ?]; [congruence|exists tm; left; reflexivity]).
  destruct Y as (tm & Y). apply in_concat in Y. destruct Y as (x & Y1 & Y2). apply in_map_iff in Y1. destruct Y1 as (t & <- & Y1). destruct (F2_in_r _ _ _ _ _ t M1 Y1) as (s & S1 & S2).
  rewrite Forall_forall in PRE. destruct (PRE s S1) as (more & E). pose proof (wi_items _ _ _ _ _ _ I) as HI. pose proof HI as HS. rewrite E in HS. apply Forall_app in HS. destruct HS as [HS _].
  unfold dev_metas_of in Y2. apply in_map_iff in Y2. destruct Y2 as (e & _ & Y2). apply (in_map fst) in Y2. rewrite (listed_paths p s t d S2) in Y2. apply filter_In in Y2. destruct Y2 as [J1 J2]. apply PWriter.same_name_eq in J2.
  exists (fst e). split; [|exact J2]. apply (key_series p snap decomp HG sc Hsc s 7 HS) in J1. destruct J1 as (d' & m & Q & NZ). apply (key_series p snap decomp HG sc Hsc its 7 HI). exists d', m. split; [exact Q|].
  rewrite E, its_series_app. intros Z. apply app_eq_nil in Z. apply NZ. apply Z.
Qed.

Definition lists_parts (its : list item) (paths parts : list (list Z)) : Prop :=
  NoDup parts /\ (forall d, In d parts <-> exists q, In q paths /\ device_part q = d) /\ lists_paths (fun d m => its_series d m its <> []) paths.
Lemma end_file_any : forall p h its w ord paths parts, winv p snap sc h its w -> within_any its (io_tsmeta (w_io w)) ->
  zlen (h_all h) < 2 ^ 32 -> byte_names sc -> short_paths sc -> zlen paths <= 300000000 -> lists_parts its paths parts ->
  (exists io, end_file p ord (w_io w) = Ret io) <-> (zlen parts <= 256 /\ filter_fits paths) /\ match p with Release => True | Debug => forallb (fun q => forallb (hash_fine q) hash_seeds) paths = true end.
Proof.
  intros p h its w ord paths parts I IG HB BN SP PL (LD1 & LD2 & LP). pose proof (wi_items _ _ _ _ _ _ I) as HI.
  unfold end_file. rewrite (wi_metas _ _ _ _ _ _ I). set (acc := io_tsmeta (w_io w)) in *.
  assert (SB : zsum (map e_count (chunk_list 7 its)) < 2 ^ 32).
  { pose proof (list_points its 7 (h_flushed h) (wi_series _ _ _ _ _ _ I)). unfold h_all in HB. rewrite zlen_app in HB. pose proof (zlen_nonneg _ (h_recent h)). lia. }
  destruct (chunk_map_spec (metas 7 its)) as (S & _ & _).
  destruct (metadata_loop_total p (chunk_map (metas 7 its)) None acc S) as [tsm M]; [discriminate| |].
  { apply Forall_forall. intros [q cms] J. cbn [snd]. apply (entry_total_any p its HI SB q cms J). }
  pose proof (cmap_paths p snap decomp HG sc Hsc its 7 HI paths LP) as PP.
  rewrite M. cbn [bind]. assert (PD : Permutation parts (map fst (nonempty tsm))).
  { apply (tsm_parts p its acc tsm parts IG M LD1). intros d. rewrite LD2. split; intros (q & J & E); exists q; (split; [|exact E]); [apply (Permutation_in q PP)|apply (Permutation_in q (Permutation_sym PP))]; exact J. }
  set (out := fst (wexec (WAll [2]) (io_out (w_io w)))). change cfg_max_degree_of_index_node with 256%nat.
  pose proof (construct_total ord tsm out) as CT.
  assert (ZD : zlen (nonempty tsm) = zlen parts) by (rewrite (zlen_perm _ _ _ PD); unfold zlen; rewrite map_length; auto). rewrite ZD in CT.
  assert (PO : Forall path_ok (map fst (chunk_map (metas 7 its)))).
  { apply Forall_forall. intros q J. destruct (cmap_keys p snap decomp HG sc Hsc its 7 q HI J) as (d & m & ms & D & ->). split; [exact (BN d m ms D)|exact (SP d m ms D)]. }
  pose proof (filter_panics _ PO) as FP. cbv zeta in FP. rewrite (filter_fits_perm _ _ PP), (fine_perm _ _ _ PP). unfold filter_fits. cbv zeta. rewrite <- FP, <- CT. clear FP CT.
  assert (PL' : zlen (map fst (chunk_map (metas 7 its))) <= 300000000) by (rewrite <- (zlen_perm _ _ _ PP); exact PL).
  pose proof (build_debug _ PO PL') as BD. split.
  - intros [io E]. apply bind_ret in E. destruct E as ([idx o1] & C & E). apply bind_ret in E. destruct E as (bf & B1 & E). apply bind_ret in E. destruct E as (bw & B2 & _).
    pose proof (build_rel _ _ _ B1) as B3. split; [split; [eauto|exists bw; rewrite B3; exact B2]|destruct p; [apply BD; eauto|exact Logic.I]].
  - intros [[[[idx o1] C] [bw B]] HF]. rewrite C. cbn [bind]. apply bind_ret in B. destruct B as (bf & B1 & B2). assert (B3 : bloom_build p (map fst (chunk_map (metas 7 its))) = Ret bf).
    { destruct p; [|exact B1]. destruct (proj2 (BD ltac:(eauto)) HF) as [bf' B3]. pose proof (build_rel _ _ _ B3) as B4. congruence. }
    rewrite B3. cbn [bind]. rewrite B2. cbn [bind]. eauto.
Qed.

Lemma close_after_any : forall p w h ops l ord, trace p snap sc w h ops l -> ops_ok ops -> roomy_after snap sc ops -> byte_names sc -> short_paths sc ->
  (exists r, step p snap w (OpClose ord) = Ret r) <-> texts_fine sc p (session_after snap sc ops) = true.
Proof.
  intros p w h ops l ord T O B BN SP. destruct (inv_trace snap decomp HG sc Hsc p _ _ _ _ T O B) as (its & snaps & [I E NX PRE (tmss & MI) _ _]). destruct B as [B _].
  assert (ST : steady h) by (rewrite E; apply steady_after; apply O). pose proof (after_flushed snap sc ops) as SF. set (s := session_after snap sc ops) in *. rewrite <- E in SF.
  destruct (trace_ok p snap decomp HG sc Hsc _ _ _ _ T O) as (LA & _). assert (PN : 0 <= zsum (map op_points ops)) by (apply zsum_map_nonneg; intros; apply op_points_nonneg). destruct O as [_ O].
  set (h1 := if 0 <? h_counted h then h_flush h else h).
  assert (FF : List.concat (final_flushes s) = h_flushed h1).
  { unfold final_flushes, h1. rewrite <- E, concat_app, SF. destruct (0 <? h_counted h); cbn [List.concat h_flush h_flushed]; rewrite ?app_nil_r; reflexivity. }
  assert (HA : h_all h1 = h_all h). { unfold h1. destruct (0 <? h_counted h); auto. unfold h_all, h_flush. cbn [h_flushed h_recent]. apply app_nil_r. }
  set (pts := h_flushed h1) in *.
  assert (HPT : Forall (point_ok sc) pts).
  { pose proof (wi_points _ _ _ _ _ _ I) as P. rewrite <- HA in P. unfold h_all in P. apply Forall_app in P. apply P. }
  assert (PIN : forall q, In q (stored_paths sc pts) <-> exists d m, q = d ++ [46] ++ m /\ series_of d m pts <> []).
  { intros q. unfold stored_paths. rewrite in_flat_map. split.
    + intros ([d g] & A & Bq). apply in_map_iff in Bq. destruct Bq as (m & <- & Bq). apply in_stored_names in Bq. exists d, m. cbn [fst]. tauto.
    + intros (d & m & -> & H). destruct (stored_declared sc pts HPT d m H) as (g & A & Bq). exists (d, g). split; auto. apply in_map_iff. exists m. split; auto. apply in_stored_names. auto. }
  pose proof (stored_paths_len sc pts) as PL. pose proof (name_set_len (stored_paths sc pts)) as TL. fold (stored_texts sc pts) in TL.
  assert (X : forall w1 e, flush_all p snap w = Ret (w1, e) -> exists its1, winv p snap sc h1 its1 w1 /\ within_any its1 (io_tsmeta (w_io w1)) /\ lists_parts its1 (stored_texts sc pts) (stored_parts sc pts)).
  { intros w1 e F. pose proof (flush_all_tsmeta _ _ _ _ _ F) as TS. destruct (flush_all_ok _ _ _ HG _ Hsc _ _ _ _ _ I F) as [_ K].
    assert (Y : exists gs, winv p snap sc h1 (its ++ gs) w1). { unfold h1. destruct (0 <? h_counted h); [destruct K as (new & K1 & _); eauto|subst w1; exists []; rewrite app_nil_r; exact I]. }
    destruct Y as (gs & I1). exists (its ++ gs). split; [exact I1|]. split.
    - rewrite <- TS in MI. exact (within_parts p h1 (its ++ gs) snaps w1 tmss I1 (pre_more its gs snaps PRE) MI).
    - split; [apply rising_nodup, name_set_rising|]. split.
      + intros d. unfold stored_parts, stored_texts. rewrite name_set_in, in_map_iff. split; intros (q & J1 & J2); exists q; rewrite name_set_in in *; auto.
      + split; [apply rising_nodup, name_set_rising|]. intros q. unfold stored_texts. rewrite name_set_in, PIN. split; intros (d & m & Q & Y); exists d, m; rewrite (wi_series _ _ _ _ _ _ I1) in *; auto. }
  assert (MAIN : forall w1 e, flush_all p snap w = Ret (w1, e) -> (exists io, end_file p ord (w_io w1) = Ret io) <->
    texts_closable sc pts = true /\ match p with Release => True | Debug => forallb (fun q => forallb (hash_fine q) [5; 7; 11; 19; 31]) (stored_texts sc pts) = true end).
  { intros w1 e F. destruct (X w1 e F) as (its1 & I1 & W1 & LP). rewrite texts_fits by lia. change [5; 7; 11; 19; 31] with hash_seeds.
    apply (end_file_any p h1 its1 w1 ord (stored_texts sc pts) (stored_parts sc pts) I1 W1); auto; [rewrite HA; lia|lia]. }
  cbn [step]. unfold writer_close. unfold texts_fine. cbv zeta. rewrite FF. destruct p.
  - (* debug *)
    pose proof (flush_debug snap decomp HG sc Hsc h its w I ST) as FD.
    assert (DO : negb (0 <? h_counted (ss_hist s)) || all_series series_done sc (h_recent (ss_hist s)) = true <-> exists r, flush_all Debug snap w = Ret r).
    { rewrite FD, <- E, <- every_iff. destruct (0 <? h_counted h); cbn [negb orb]; [tauto|]. split; auto. discriminate. }
    rewrite !andb_true_iff, DO. split.
    + intros [r R]. apply bind_ret in R. destruct R as ([w1 e] & F & R). cbn [fst] in R. apply bind_ret in R. destruct R as (io & R & _). destruct (proj1 (MAIN _ _ F) ltac:(eauto)) as [M1 M2]. split; [split; [eauto|exact M1]|exact M2].
    + intros [[[[w1 e] F] M1] M2]. rewrite F. cbn [bind fst]. destruct (proj2 (MAIN _ _ F) (conj M1 M2)) as [io ->]. cbn [bind]. eauto.
  - (* release *)
    destruct (flush_all_total snap decomp HG sc h its w I) as [[w1 e] F]. rewrite F. cbn [bind fst]. pose proof (MAIN w1 e F) as MM.
    split; [intros [r R]; apply bind_ret in R; destruct R as (io & R & _); apply MM; eauto|intros TC; destruct (proj2 MM (conj TC Logic.I)) as [io ->]; cbn [bind]; eauto].
Qed.
Definition text_names (ops : list op) : Prop := 0 < closes ops -> byte_names sc /\ short_paths sc.
Lemma any_complete : forall p out w0 ops, writer_new sc (sink_new healthy) = (out, Some w0) -> ops_ok ops -> roomy_after snap sc ops -> text_names ops ->
  match any_replies p snap sc session_new ops with Some l => exists w, run p snap w0 ops = Ret (w, l) | None => panics (run p snap w0 ops) end.
Proof.
  apply (sessions_complete snap decomp HG sc Hsc (texts_fine sc) text_names).
  - intros a b NM C. apply NM. rewrite closes_app. pose proof (closes_nonneg b). lia.
  - intros p w h ops l ord T O B NM. unfold text_names in NM. rewrite closes_snoc in NM. cbn [is_close] in NM. pose proof (closes_nonneg ops). destruct NM as (BN & SP); [lia|]. exact (close_after_any p w h ops l ord T O B BN SP).
Qed.
End Replies.

(** ** Names without dots: as in C61 *)
Section PlainNames.
Variable sc : schema.
Hypothesis Hsc : schema_ok sc.
Hypothesis ND : no_dots sc.
Lemma texts_perm : forall pts, Permutation (stored_texts sc pts) (stored_paths sc pts).
Proof.
  intros pts. apply NoDup_Permutation; [apply rising_nodup, name_set_rising| |intros x; apply name_set_in].
  destruct Hsc as [N F]. apply stored_paths_nodup; auto; [|eapply Forall_impl; [|exact F]; cbn; tauto].
  intros d g m A B. apply in_map_iff in B. destruct B as ([m' ms] & <- & B). apply (ND d m' ms). exists g. auto.
Qed.
Lemma parts_perm : forall pts, Permutation (stored_parts sc pts) (stored_devices sc pts).
Proof.
  intros pts. apply NoDup_Permutation; [apply rising_nodup, name_set_rising| |].
  - destruct Hsc as [N _]. unfold stored_devices. clear - N. induction sc as [|[d g] s IH]; cbn [filter map]; [constructor|]. inversion N; subst. destruct (negb _); [|auto]. cbn [map fst]. constructor; auto.
    intros I. apply in_map_iff in I. destruct I as (x & E & I). apply filter_In in I. apply H1. apply in_map_iff. exists x. cbn [fst]. tauto.
  - intros d. unfold stored_parts. rewrite name_set_in, in_map_iff. unfold stored_devices. rewrite in_map_iff.
    assert (DP : forall d g m, In (d, g) sc -> In m (stored_names d g pts) -> device_part (d ++ [46] ++ m) = d).
    { intros d0 g m A B. apply in_stored_names in B. destruct B as [B _]. apply in_map_iff in B. destruct B as ([m' ms] & <- & B). cbn [fst]. rewrite <- device_part_of. apply device_of_path_of. apply (ND d0 m' ms). exists g. auto. }
    split.
    + intros (q & E & I). unfold stored_paths in I. apply in_flat_map in I. destruct I as ([d' g] & A & B). apply in_map_iff in B. destruct B as (m & <- & B). cbn [fst snd] in *. rewrite (DP d' g m A B) in E. subst d'.
      exists (d, g). split; [reflexivity|]. apply filter_In. split; [exact A|]. cbn [fst snd]. destruct (stored_names d g pts); [destruct B|reflexivity].
    + intros ([d' g] & E & I). cbn [fst] in E. subst d'. apply filter_In in I. destruct I as [A B]. cbn [fst snd] in B. destruct (stored_names d g pts) as [|m l] eqn:S; [discriminate|].
      exists (d ++ [46] ++ m). assert (B' : In m (stored_names d g pts)) by (rewrite S; left; reflexivity). split; [exact (DP d g m A B')|]. unfold stored_paths. apply in_flat_map. exists (d, g). split; [exact A|]. apply in_map_iff. exists m. auto.
Qed.
Lemma plain_fine : forall p s, texts_fine sc p s = close_fine sc p s.
Proof.
  assert (C : forall pts, texts_closable sc pts = closable sc pts).
  { intros pts. unfold texts_closable, closable. cbv zeta. rewrite (zlen_perm _ _ _ (texts_perm pts)), (zlen_perm _ _ _ (parts_perm pts)). f_equal. apply fine_perm. apply texts_perm. }
  intros p s. unfold texts_fine, close_fine. cbv zeta. destruct p; [|apply C]. unfold debug_closable. cbv zeta. rewrite C. f_equal. apply fine_perm. apply texts_perm.
Qed.
Lemma plain_replies : forall p snap ops s, any_replies p snap sc s ops = all_replies p snap sc s ops.
Proof.
  intros p snap ops. unfold any_replies, all_replies. induction ops as [|o ops IH]; intros s; [reflexivity|]. cbn [session_replies]. rewrite IH.
  replace (stops (texts_fine sc) p snap sc s o) with (stops (close_fine sc) p snap sc s o); [reflexivity|]. destruct o; try reflexivity. cbn [stops]. rewrite plain_fine. reflexivity.
Qed.
End PlainNames.
