(** What the index of a closed file says about the accepted points; acknowledged version; framing. *)
From Verif Require Export PFoot PMem.
From Coq Require Import Lia.
Open Scope list_scope. Open Scope Z_scope.
Ltac Zify.zify_post_hook ::= idtac.

Section Stored.
Variables (p : profile) (snap : compressor) (decomp : list Z -> option (list Z)).
Hypothesis HG : good_snap snap decomp.
Variable sc : schema.
Hypothesis Hsc : schema_ok sc.

(** Accepted timestamps are not negative. *)
Lemma increasing_all : forall l lo, increasing lo l -> Forall (fun t => lo < t) l.
Proof.
  induction l as [|x l IH]; intros lo H; [constructor|]. destruct H as [H1 H2]. constructor; auto.
  eapply Forall_impl; [|apply IH; exact H2]. cbn beta. intros; lia.
Qed.
Lemma all_nonneg : forall w h ops l d m, trace p snap sc w h ops l -> Forall (fun tv => 0 <= fst tv) (series_of d m (h_all h)).
Proof.
  intros w h ops l d m T. assert (K : Forall (fun q => 0 <= pt_time q) (h_all h)).
  { induction T as [out w N|w h ops l o w' a T IH H]; [constructor|].
    assert (T' := trace_step _ _ _ _ _ _ _ _ _ _ T H).
    assert (C : Forall (fun q => 0 <= pt_time q) (h_recent (h_call sc o h)) -> Forall (fun q => 0 <= pt_time q) (h_all (h_step sc o (grew w w') h))).
    { intros C. assert (FL : h_flushed (h_call sc o h) = h_flushed h).
      { destruct o as [d' m' t v|d' t vs|]; cbn [h_call]; auto; [destruct (admits _ _ _ _ _); auto|].
        assert (B : forall vs h, h_flushed (fst (h_batch sc d' t vs h)) = h_flushed h).
        { clear. induction vs as [|[m v] vs IH]; intros h; cbn [h_batch]; auto. destruct (admits _ _ _ _ _); auto. rewrite IH. auto. }
        specialize (B vs h). destruct (h_batch sc d' t vs h) as [h' [|]]; exact B. }
      unfold h_all in IH. apply Forall_app in IH. destruct IH as [IH _].
      unfold h_step. destruct (_ && _); unfold h_all, h_flush; cbn [h_flushed h_recent]; [rewrite app_nil_r|]; rewrite FL; apply Forall_app; auto. }
    apply C. apply Forall_forall. intros q Q.
    assert (T'' : increasing (-1) (map fst (series_of (pt_device q) (pt_name q) (h_recent (h_call sc o h))))).
    { pose proof (recent_increasing p snap sc _ _ _ _ (pt_device q) (pt_name q) T) as R.
      clear - R T. revert R. generalize (pt_device q) (pt_name q). intros d' m'. 
      assert (RI : forall d m, trace p snap sc w h ops l -> increasing (-1) (map fst (series_of d m (h_recent h)))) by (intros; eapply recent_increasing; eauto).
      destruct o as [d m t v|d t vs|]; cbn [h_call]; auto.
      - intros _. destruct (admits sc h d m t) eqn:A; [|apply RI; exact T]. change (h_recent (h_count 1 ?x)) with (h_recent x). apply (admits_increasing sc); auto.
      - intros _. assert (B : forall vs h, (forall d m, increasing (-1) (map fst (series_of d m (h_recent h)))) ->
          increasing (-1) (map fst (series_of d' m' (h_recent (fst (h_batch sc d t vs h)))))).
        { clear. induction vs as [|[m v] vs IH]; intros h H; cbn [h_batch fst]; auto. destruct (admits sc h d m t) eqn:A; auto.
          apply IH. intros. apply (admits_increasing sc); auto. }
        specialize (B vs h (fun d m => RI d m T)). destruct (h_batch sc d t vs h) as [h' [|]]; exact B. }
    apply increasing_all in T''. rewrite Forall_forall in T''. enough (-1 < pt_time q) by lia. apply T''.
    apply in_map_iff. exists (pt_time q, pt_value q). split; [reflexivity|]. unfold series_of. apply in_map_iff. exists q. split; [reflexivity|].
    apply filter_In. split; auto. rewrite !same_name_refl. reflexivity. }
  unfold series_of. apply Forall_map. cbn [fst]. apply Forall_forall. intros q Q. apply filter_In in Q. destruct Q as [Q _]. rewrite Forall_forall in K. auto.
Qed.

Lemma series_len : forall d m l, zlen (series_of d m l) <= zlen l.
Proof. intros. unfold series_of, zlen. rewrite map_length. induction l as [|q l IH]; cbn [filter length]; [lia|]. destruct (same_name (pt_device q) d && same_name (pt_name q) m); cbn [length]; lia. Qed.

(** Statistics of a series found through the index, in terms of its points. *)
Lemma found_stats : forall dt pts x, series_found p dt pts x -> zlen pts < 2 ^ 32 -> Forall (fun tv => 0 <= fst tv) pts ->
  Exists (fun tv => fst tv < i64_max) pts -> let s := ts_stats (f_meta x) in
  sf_count s = zlen pts /\ is_min (sf_start s) (times pts) /\ is_max (sf_end s) (times pts) /\
  In (sf_start s, sf_first s) (tnums pts) /\ In (sf_end s, sf_last s) (tnums pts) /\
  (dt <> FLOAT -> is_min (sf_min s) (nums pts) /\ is_max (sf_max s) (nums pts)) /\ (dt = INT32 -> sf_sum s = zsum (nums pts)).
Proof.
  intros dt pts x (_ & PO & chunks & E & _ & (s & S & M) & _) L NN EX. cbv zeta.
  pose proof (series_tree_points chunks) as TP. rewrite E in TP.
  destruct M as (-> & -> & -> & -> & -> & -> & -> & MS). pose proof (tree_inv p dt (series_tree chunks) s) as I. rewrite TP in I. specialize (I PO S). destruct I.
  rewrite Forall_forall in NN. apply Exists_exists in EX. destruct EX as (tv & I & X).
  assert (IN : forall a b, In (a, b) (tnums pts) -> In a (times pts)).
  { intros a b J. unfold tnums in J. apply in_map_iff in J. destruct J as (tv' & J1 & J2). inversion J1; subst. apply in_map; auto. }
  assert (F : In (st_ts_first s, st_first s) (tnums pts)).
  { destruct si_first as [|[F1 F2]]; auto. exfalso. rewrite Forall_forall in si_tf. specialize (si_tf (fst tv) (in_map fst _ _ I)). lia. }
  assert (LA : In (st_ts_last s, st_last s) (tnums pts)).
  { destruct si_last as [|[F1 F2]]; auto. exfalso. rewrite Forall_forall in si_tl. specialize (si_tl (fst tv) (in_map fst _ _ I)). specialize (NN tv I). unfold i64_min in F1. lia. }
  split; [rewrite si_count; apply Z.mod_small; pose proof (zlen_nonneg _ pts); lia|]. split; [split; eauto|]. split; [split; eauto|]. split; auto. split; auto.
  split.
  - intros D. destruct (int_stats_exact p dt (series_tree chunks)) as (s' & S' & K); rewrite ?TP; auto.
    + apply Exists_exists. exists (fst tv). split; [apply in_map; auto|auto].
    + apply Exists_exists. exists (fst tv). split; [apply in_map; auto|]. specialize (NN tv I). unfold i64_min. lia.
    + assert (s' = s) by congruence. subst s'. rewrite TP in K. tauto.
  - intros ->. pose proof (int32_sum_exact p (series_tree chunks) s) as Q. rewrite TP in Q. rewrite (Q PO L S) in MS. exact MS.
Qed.
(** FLOAT: the extremes if some value is finite. *)
Lemma found_float_stats : forall pts x, series_found p FLOAT pts x -> Exists f32_finite (nums pts) -> let s := ts_stats (f_meta x) in
  In (sf_min s) (nums pts) /\ In (sf_max s) (nums pts) /\ Forall (fun v => ~ f32_nan v -> f32_key (sf_min s) <= f32_key v <= f32_key (sf_max s)) (nums pts).
Proof.
  intros pts x (_ & PO & chunks & E & _ & (s & S & M) & _) EX. cbv zeta. pose proof (series_tree_points chunks) as TP. rewrite E in TP.
  pose proof (float_minmax_finite p (series_tree chunks) s) as Q. rewrite TP in Q. destruct (Q PO S EX) as [[Q1 Q2] Q3]. destruct M as (_ & _ & _ & -> & -> & _). auto.
Qed.

Lemma in_find_unique : forall xs x d m, NoDup (map f_key xs) -> In x xs -> f_key x = (d, m) -> find (is_key d m) xs = Some x.
Proof.
  induction xs as [|y xs IH]; intros x d m N I K; [destruct I|]. cbn [map] in N. inversion N as [|? ? N1 N2]; subst. cbn [find].
  destruct (is_key d m y) eqn:E.
  - unfold is_key in E. apply andb_prop in E. destruct E as [E1 E2]. apply same_name_eq in E1. apply same_name_eq in E2.
    destruct I as [->|I]; auto. exfalso. apply N1. apply in_map_iff. exists x. split; auto. rewrite K. destruct (f_key y); cbn [fst snd] in *; congruence.
  - destruct I as [->|I]; [|auto]. unfold is_key in E. rewrite K in E. cbn [fst snd] in E. rewrite !same_name_refl in E. discriminate.
Qed.
End Stored.

Lemma index_accepted_large : forall p snap decomp sc w h ops l ord w' a, good_snap snap decomp -> schema_ok sc ->
  trace p snap sc w h ops l -> ops_ok ops -> no_close ops = true -> h_recent h = [] \/ 0 < h_counted h ->
  step p snap w (OpClose ord) = Ret (w', a) -> modest p snap sc (ops ++ [OpClose ord]) -> good_order ord -> no_dots sc -> small_devices sc ->
  exists xs, index_read decomp (file_bytes w') = Some xs /\ NoDup (map f_key xs) /\
    (forall d m, In (d, m) (map f_key xs) <-> series_of d m (h_all h) <> []) /\
    (forall x d m, In x xs -> f_key x = (d, m) -> f_points x = tnums (series_of d m (h_all h)) /\ lookup (file_bytes w') d m = Some (f_meta x) /\
       exists ms, declares sc d m ms /\ series_found p (ms_type ms) (series_of d m (h_all h)) x).
Proof.
  intros p snap decomp sc w h ops l ord w' a HG Hs T O NC HR H L GO ND SD. destruct (closed_index_large p snap decomp HG sc Hs _ _ _ _ _ _ _ T O NC HR H L GO ND SD) as (ft & xs & FT & [I1 I2 I3 I4 I5 I6 I7 I8 I9] & _).
  exists xs. split; auto. split; auto. split; auto. intros x d m J K. rewrite Forall_forall in I4. destruct (I4 x J) as (ms & D & F). rewrite K in D, F. cbn [fst snd] in D, F.
  split; [eapply found_points; eauto|]. split; [|eauto]. rewrite I6, (in_find_unique xs x d m); auto.
Qed.
Lemma index_accepted : forall p snap decomp sc w h ops l ord w' a, good_snap snap decomp -> schema_ok sc ->
  trace p snap sc w h ops l -> ops_ok ops -> no_close ops = true -> h_recent h = [] \/ 0 < h_counted h ->
  step p snap w (OpClose ord) = Ret (w', a) -> zlen (file_bytes w') < 2 ^ 32 -> good_order ord -> no_dots sc -> small_devices sc ->
  exists xs, index_read decomp (file_bytes w') = Some xs /\ NoDup (map f_key xs) /\
    (forall d m, In (d, m) (map f_key xs) <-> series_of d m (h_all h) <> []) /\
    (forall x d m, In x xs -> f_key x = (d, m) -> f_points x = tnums (series_of d m (h_all h)) /\ lookup (file_bytes w') d m = Some (f_meta x) /\
       exists ms, declares sc d m ms /\ series_found p (ms_type ms) (series_of d m (h_all h)) x).
Proof. intros p snap decomp sc w h ops l ord w' a; intros. eapply index_accepted_large; eauto using small_step. Qed.
Lemma index_acked_large : forall p snap decomp sc out w0 ops w l ord w' a, good_snap snap decomp -> schema_ok sc ->
  writer_new sc (sink_new healthy) = (out, Some w0) -> run p snap w0 ops = Ret (w, l) ->
  ops_ok ops -> no_close ops = true -> batches_ok ops l ->
  step p snap w (OpClose ord) = Ret (w', a) -> modest p snap sc (ops ++ [OpClose ord]) -> good_order ord -> no_dots sc -> small_devices sc ->
  exists xs, index_read decomp (file_bytes w') = Some xs /\ NoDup (map f_key xs) /\
    (forall d m, In (d, m) (map f_key xs) <-> series_of d m (acked ops l) <> []) /\
    (forall x d m, In x xs -> f_key x = (d, m) -> f_points x = tnums (series_of d m (acked ops l)) /\ lookup (file_bytes w') d m = Some (f_meta x)).
Proof.
  intros p snap decomp sc out w0 ops w l ord w' a HG Hs N R O NC B H L GO ND SD. destruct (run_trace _ _ _ _ _ _ _ _ N R) as (h & T).
  rewrite <- (trace_acked p snap decomp HG sc Hs _ _ _ _ T O B). destruct (index_accepted_large p snap decomp sc w h ops l ord w' a) as (xs & X1 & X2 & X3 & X4); auto.
  - pose proof (counted_all p snap decomp HG sc Hs _ _ _ _ T O B) as K. destruct (h_recent h) as [|q r]; [left; auto|right]. rewrite K, zlen_cons. pose proof (zlen_nonneg _ r). lia.
  - exists xs. split; auto. split; auto. split; auto. intros x d m J K. destruct (X4 x d m J K) as (Y1 & Y2 & _). auto.
Qed.
Lemma index_acked : forall p snap decomp sc out w0 ops w l ord w' a, good_snap snap decomp -> schema_ok sc ->
  writer_new sc (sink_new healthy) = (out, Some w0) -> run p snap w0 ops = Ret (w, l) ->
  ops_ok ops -> no_close ops = true -> batches_ok ops l ->
  step p snap w (OpClose ord) = Ret (w', a) -> zlen (file_bytes w') < 2 ^ 32 -> good_order ord -> no_dots sc -> small_devices sc ->
  exists xs, index_read decomp (file_bytes w') = Some xs /\ NoDup (map f_key xs) /\
    (forall d m, In (d, m) (map f_key xs) <-> series_of d m (acked ops l) <> []) /\
    (forall x d m, In x xs -> f_key x = (d, m) -> f_points x = tnums (series_of d m (acked ops l)) /\ lookup (file_bytes w') d m = Some (f_meta x)).
Proof.
  intros p snap decomp sc out w0 ops w l ord w' a HG Hs N R O NC B H L GO ND SD. destruct (run_trace _ _ _ _ _ _ _ _ N R) as (h & T).
  eapply index_acked_large; eauto using small_step.
Qed.
Lemma index_statistics_large : forall p snap decomp sc w h ops l ord w' a xs x d m ms, good_snap snap decomp -> schema_ok sc ->
  trace p snap sc w h ops l -> ops_ok ops -> no_close ops = true -> h_recent h = [] \/ 0 < h_counted h ->
  step p snap w (OpClose ord) = Ret (w', a) -> modest p snap sc (ops ++ [OpClose ord]) -> good_order ord -> no_dots sc -> small_devices sc ->
  index_read decomp (file_bytes w') = Some xs -> In x xs -> f_key x = (d, m) -> declares sc d m ms ->
  let pts := series_of d m (h_all h) in let s := ts_stats (f_meta x) in
  Exists (fun tv => fst tv < i64_max) pts ->
  sf_count s = zlen pts /\ is_min (sf_start s) (times pts) /\ is_max (sf_end s) (times pts) /\
  In (sf_start s, sf_first s) (tnums pts) /\ In (sf_end s, sf_last s) (tnums pts) /\
  (ms_type ms <> FLOAT -> is_min (sf_min s) (nums pts) /\ is_max (sf_max s) (nums pts)) /\
  (ms_type ms = INT32 -> sf_sum s = zsum (nums pts)) /\
  (ms_type ms = FLOAT -> Exists f32_finite (nums pts) -> In (sf_min s) (nums pts) /\ In (sf_max s) (nums pts) /\
     Forall (fun v => ~ f32_nan v -> f32_key (sf_min s) <= f32_key v <= f32_key (sf_max s)) (nums pts)).
Proof.
  intros p snap decomp sc w h ops l ord w' a xs x d m ms HG Hs T O NC HR H L GO ND SD RD J K D pts s EX.
  destruct (index_accepted_large p snap decomp sc w h ops l ord w' a) as (xs' & X1 & X2 & X3 & X4); auto. assert (xs' = xs) by congruence. subst xs'.
  destruct (X4 x d m J K) as (_ & _ & ms' & D' & F). assert (ms' = ms) by (eapply declares_fun; eauto). subst ms'. fold pts in F.
  assert (LP : zlen pts < 2 ^ 32).
  { pose proof (series_len d m (h_all h)). destruct (trace_ok p snap decomp HG sc Hs _ _ _ _ T O) as [L1 _]. destruct O as [_ O]. unfold pts. lia. }
  destruct (found_stats p _ _ _ F LP (all_nonneg p snap sc _ _ _ _ d m T) EX) as (A1 & A2 & A3 & A4 & A5 & A6 & A7). fold s in A1, A2, A3, A4, A5, A6, A7.
  do 7 (split; auto). intros FL EF. rewrite FL in F. exact (found_float_stats p _ _ F EF).
Qed.
Lemma index_statistics : forall p snap decomp sc w h ops l ord w' a xs x d m ms, good_snap snap decomp -> schema_ok sc ->
  trace p snap sc w h ops l -> ops_ok ops -> no_close ops = true -> h_recent h = [] \/ 0 < h_counted h ->
  step p snap w (OpClose ord) = Ret (w', a) -> zlen (file_bytes w') < 2 ^ 32 -> good_order ord -> no_dots sc -> small_devices sc ->
  index_read decomp (file_bytes w') = Some xs -> In x xs -> f_key x = (d, m) -> declares sc d m ms ->
  let pts := series_of d m (h_all h) in let s := ts_stats (f_meta x) in
  Exists (fun tv => fst tv < i64_max) pts ->
  sf_count s = zlen pts /\ is_min (sf_start s) (times pts) /\ is_max (sf_end s) (times pts) /\
  In (sf_start s, sf_first s) (tnums pts) /\ In (sf_end s, sf_last s) (tnums pts) /\
  (ms_type ms <> FLOAT -> is_min (sf_min s) (nums pts) /\ is_max (sf_max s) (nums pts)) /\
  (ms_type ms = INT32 -> sf_sum s = zsum (nums pts)) /\
  (ms_type ms = FLOAT -> Exists f32_finite (nums pts) -> In (sf_min s) (nums pts) /\ In (sf_max s) (nums pts) /\
     Forall (fun v => ~ f32_nan v -> f32_key (sf_min s) <= f32_key v <= f32_key (sf_max s)) (nums pts)).
Proof. intros p snap decomp sc w h ops l ord w' a xs x d m ms; intros. eapply index_statistics_large; eauto using small_step. Qed.
Lemma index_sorted_large : forall p snap decomp sc w h ops l ord w' a, good_snap snap decomp -> schema_ok sc ->
  trace p snap sc w h ops l -> ops_ok ops -> no_close ops = true -> h_recent h = [] \/ 0 < h_counted h ->
  step p snap w (OpClose ord) = Ret (w', a) -> modest p snap sc (ops ++ [OpClose ord]) -> good_order ord -> no_dots sc -> small_devices sc ->
  exists ft xs, footer_read (file_bytes w') = Some ft /\ index_read decomp (file_bytes w') = Some xs /\
    (forall d, StronglySorted bytes_lt (names_of d xs)) /\
    Forall (fun eo => exists b n b', drop (snd eo) (file_bytes w') = Some b /\ node_read b = Some (n, b') /\ nd_type n = 3 /\
                      StronglySorted bytes_lt (map fst (nd_entries n)) /\ node_shape (file_bytes w') n (metas_of (fst eo) xs)) (nd_entries (ft_root ft)) /\
    (forall d m, lookup (file_bytes w') d m = option_map f_meta (find (fun x => same_name (fst (f_key x)) d && same_name (snd (f_key x)) m) xs)).
Proof.
  intros p snap decomp sc w h ops l ord w' a HG Hs T O NC HR H L GO ND SD. destruct (closed_index_large p snap decomp HG sc Hs _ _ _ _ _ _ _ T O NC HR H L GO ND SD) as (ft & xs & FT & [I1 I2 I3 I4 I5 I6 I7 I8 I9] & _).
  exists ft, xs. auto.
Qed.
Lemma index_sorted : forall p snap decomp sc w h ops l ord w' a, good_snap snap decomp -> schema_ok sc ->
  trace p snap sc w h ops l -> ops_ok ops -> no_close ops = true -> h_recent h = [] \/ 0 < h_counted h ->
  step p snap w (OpClose ord) = Ret (w', a) -> zlen (file_bytes w') < 2 ^ 32 -> good_order ord -> no_dots sc -> small_devices sc ->
  exists ft xs, footer_read (file_bytes w') = Some ft /\ index_read decomp (file_bytes w') = Some xs /\
    (forall d, StronglySorted bytes_lt (names_of d xs)) /\
    Forall (fun eo => exists b n b', drop (snd eo) (file_bytes w') = Some b /\ node_read b = Some (n, b') /\ nd_type n = 3 /\
                      StronglySorted bytes_lt (map fst (nd_entries n)) /\ node_shape (file_bytes w') n (metas_of (fst eo) xs)) (nd_entries (ft_root ft)) /\
    (forall d m, lookup (file_bytes w') d m = option_map f_meta (find (fun x => same_name (fst (f_key x)) d && same_name (snd (f_key x)) m) xs)).
Proof. intros p snap decomp sc w h ops l ord w' a; intros. eapply index_sorted_large; eauto using small_step. Qed.
Lemma index_devices_large : forall p snap decomp sc w h ops l ord w' a, good_snap snap decomp -> schema_ok sc ->
  trace p snap sc w h ops l -> ops_ok ops -> no_close ops = true -> h_recent h = [] \/ 0 < h_counted h ->
  step p snap w (OpClose ord) = Ret (w', a) -> modest p snap sc (ops ++ [OpClose ord]) -> good_order ord -> no_dots sc -> small_devices sc ->
  exists ft (imap : list (str * index_node)), footer_read (file_bytes w') = Some ft /\
    map fst (nd_entries (ft_root ft)) = map fst (ord imap) /\ StronglySorted bytes_lt (map fst imap) /\
    NoDup (map fst (nd_entries (ft_root ft))) /\
    (forall d, In d (map fst (nd_entries (ft_root ft))) <-> exists m, series_of d m (h_all h) <> []).
Proof.
  intros p snap decomp sc w h ops l ord w' a HG Hs T O NC HR H L GO ND SD. destruct (closed_index_large p snap decomp HG sc Hs _ _ _ _ _ _ _ T O NC HR H L GO ND SD) as (ft & xs & FT & [I1 I2 I3 I4 I5 I6 I7 I8 I9] & imap & M1 & M2).
  exists ft, imap. auto.
Qed.
Lemma index_devices : forall p snap decomp sc w h ops l ord w' a, good_snap snap decomp -> schema_ok sc ->
  trace p snap sc w h ops l -> ops_ok ops -> no_close ops = true -> h_recent h = [] \/ 0 < h_counted h ->
  step p snap w (OpClose ord) = Ret (w', a) -> zlen (file_bytes w') < 2 ^ 32 -> good_order ord -> no_dots sc -> small_devices sc ->
  exists ft (imap : list (str * index_node)), footer_read (file_bytes w') = Some ft /\
    map fst (nd_entries (ft_root ft)) = map fst (ord imap) /\ StronglySorted bytes_lt (map fst imap) /\
    NoDup (map fst (nd_entries (ft_root ft))) /\
    (forall d, In d (map fst (nd_entries (ft_root ft))) <-> exists m, series_of d m (h_all h) <> []).
Proof. intros p snap decomp sc w h ops l ord w' a; intros. eapply index_devices_large; eauto using small_step. Qed.
Lemma closed_bloom_large : forall p snap decomp sc w h ops l ord w' a, good_snap snap decomp -> schema_ok sc ->
  trace p snap sc w h ops l -> ops_ok ops -> no_close ops = true -> h_recent h = [] \/ 0 < h_counted h ->
  step p snap w (OpClose ord) = Ret (w', a) -> modest p snap sc (ops ++ [OpClose ord]) -> good_order ord -> short_paths sc -> byte_names sc ->
  exists ft, footer_read (file_bytes w') = Some ft /\
    forall d m, series_of d m (h_all h) <> [] -> might_contain (ft_bloom ft) (d ++ [46] ++ m) = true.
Proof.
  intros p snap decomp sc w h ops l ord w' a HG Hs T O NC HR H L GO SP BN. destruct (closed_footer_large p snap decomp HG sc Hs _ _ _ _ _ _ _ T O NC H L GO SP) as (ft & cs & r & FT & _ & _ & _ & _ & B). exists ft. auto.
Qed.
Lemma closed_bloom : forall p snap decomp sc w h ops l ord w' a, good_snap snap decomp -> schema_ok sc ->
  trace p snap sc w h ops l -> ops_ok ops -> no_close ops = true -> h_recent h = [] \/ 0 < h_counted h ->
  step p snap w (OpClose ord) = Ret (w', a) -> zlen (file_bytes w') < 2 ^ 32 -> good_order ord -> short_paths sc -> byte_names sc ->
  exists ft, footer_read (file_bytes w') = Some ft /\
    forall d m, series_of d m (h_all h) <> [] -> might_contain (ft_bloom ft) (d ++ [46] ++ m) = true.
Proof. intros p snap decomp sc w h ops l ord w' a; intros. eapply closed_bloom_large; eauto using small_step. Qed.
Lemma index_apart_large : forall p snap decomp sc w h ops l ord w' a, good_snap snap decomp -> schema_ok sc ->
  trace p snap sc w h ops l -> ops_ok ops -> no_close ops = true -> h_recent h = [] \/ 0 < h_counted h ->
  step p snap w (OpClose ord) = Ret (w', a) -> modest p snap sc (ops ++ [OpClose ord]) -> good_order ord -> no_dots sc -> small_devices sc ->
  exists xs, index_read decomp (file_bytes w') = Some xs /\
    (forall d m, series_of d m (h_all h) <> [] -> exists pre x post, xs = pre ++ x :: post /\ f_key x = (d, m) /\
       f_points x = tnums (series_of d m (h_all h)) /\ Forall (fun y => f_key y <> (d, m)) (pre ++ post)) /\
    Forall (fun x => is_declared sc (fst (f_key x)) (snd (f_key x)) = true) xs.
Proof.
  intros p snap decomp sc w h ops l ord w' a HG Hs T O NC HR H L GO ND SD.
  destruct (index_accepted_large p snap decomp sc w h ops l ord w' a) as (xs & X1 & X2 & X3 & X4); auto. exists xs. split; auto. split.
  - intros d m N. apply X3 in N. apply in_map_iff in N. destruct N as (x & K & J). apply in_split in J. destruct J as (pre & post & ->).
    exists pre, x, post. split; auto. split; auto. split; [apply (X4 x d m); auto; apply in_elt|].
    rewrite map_app in X2. cbn [map] in X2. apply NoDup_remove_2 in X2. rewrite K, <- map_app in X2. apply Forall_forall. intros y Y E. apply X2. rewrite <- E. apply in_map; auto.
  - apply Forall_forall. intros x J. destruct (f_key x) as [d m] eqn:K. destruct (X4 x d m J K) as (_ & _ & ms & D & _). cbn [fst snd]. apply is_declared_iff; eauto.
Qed.
Lemma index_apart : forall p snap decomp sc w h ops l ord w' a, good_snap snap decomp -> schema_ok sc ->
  trace p snap sc w h ops l -> ops_ok ops -> no_close ops = true -> h_recent h = [] \/ 0 < h_counted h ->
  step p snap w (OpClose ord) = Ret (w', a) -> zlen (file_bytes w') < 2 ^ 32 -> good_order ord -> no_dots sc -> small_devices sc ->
  exists xs, index_read decomp (file_bytes w') = Some xs /\
    (forall d m, series_of d m (h_all h) <> [] -> exists pre x post, xs = pre ++ x :: post /\ f_key x = (d, m) /\
       f_points x = tnums (series_of d m (h_all h)) /\ Forall (fun y => f_key y <> (d, m)) (pre ++ post)) /\
    Forall (fun x => is_declared sc (fst (f_key x)) (snd (f_key x)) = true) xs.
Proof. intros p snap decomp sc w h ops l ord w' a; intros. eapply index_apart_large; eauto using small_step. Qed.
