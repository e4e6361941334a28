(** Sessions from their inputs alone (C51). *)
From Verif Require Export PFileSize PStored SSession.
Ltac Zify.zify_post_hook ::= idtac.

Lemma input_snoc : forall ops o, input (ops ++ [o]) = input ops ++ op_list o.
Proof. intros. unfold input. rewrite map_app, concat_app. cbn [map concat]. rewrite app_nil_r. reflexivity. Qed.
Lemma input_len : forall ops, zlen (input ops) = zsum (map op_points ops).
Proof.
  intros ops. induction ops as [|o ops IH]; [reflexivity|]. unfold input in *. cbn [map concat]. rewrite zlen_app, zsum_cons, IH. f_equal.
  destruct o; cbn [op_list op_points]; [reflexivity| |reflexivity]. unfold zlen. rewrite map_length. reflexivity.
Qed.
Lemma inc_mid : forall a lo x c, increasing lo (a ++ x :: c) -> lo < x /\ Forall (fun y => y < x) a.
Proof.
  induction a as [|y a IH]; intros lo x c H; cbn [app increasing] in H; [split; [tauto|constructor]|].
  destruct H as [H1 H2]. destruct (IH _ _ _ H2) as [A B]. split; [lia|]. constructor; auto.
Qed.
Lemma inc_prefix : forall a lo b, increasing lo (a ++ b) -> increasing lo a.
Proof. induction a as [|y a IH]; intros lo b H; cbn [app increasing] in *; [auto|]. destruct H. split; eauto. Qed.
Lemma order_prefix : forall a b, in_order (a ++ b) -> in_order a.
Proof. intros a b H d m. specialize (H d m). unfold series_of in *. rewrite filter_app, !map_app in H. eapply inc_prefix; eauto. Qed.
Lemma series_self : forall d m t v, series_of d m [mkPoint d m t v] = [(t, v)].
Proof. intros. unfold series_of. cbn [filter pt_device pt_name]. rewrite !same_name_refl. reflexivity. Qed.

Lemma all_batches : forall ops, batches_ok ops (map (fun _ => AOk) ops).
Proof. unfold batches_ok. induction ops as [|x r IH]; constructor; auto. destruct x; auto. Qed.
Lemma all_acked : forall ops, acked ops (map (fun _ => AOk) ops) = input ops.
Proof. induction ops as [|x r IH]; [reflexivity|]. unfold input in *. cbn [map concat acked]. rewrite <- IH. destruct x; reflexivity. Qed.

Section Session.
Variable p : profile.
Variable snap decomp : list Z -> option (list Z).
Hypothesis HG : good_snap snap decomp.
Variable sc : schema.
Hypothesis Hsc : schema_ok sc.

Lemma series_app : forall d m a b, series_of d m (a ++ b) = series_of d m a ++ series_of d m b.
Proof. intros. unfold series_of. rewrite filter_app, map_app. reflexivity. Qed.
Lemma admitted : forall h d m t v, in_order (h_all h ++ [mkPoint d m t v]) -> last_time h d m < t.
Proof.
  intros h d m t v H. specialize (H d m). rewrite series_app, series_self, map_app in H. cbn [map fst] in H. apply inc_mid in H. destruct H as [H1 H2]. unfold last_time.
  unfold h_all in H2. rewrite series_app, map_app in H2. apply Forall_app in H2. destruct H2 as [_ F].
  set (l := map fst (series_of d m (h_recent h))) in *.
  destruct l as [|x l]; [cbn; lia|]. rewrite Forall_forall in F. apply F. destruct (exists_last (l := x :: l) ltac:(discriminate)) as (a & b & ->). rewrite last_last. apply in_or_app. right. left. auto.
Qed.
Lemma stored_verdict : forall h d m t v, in_order (h_all h ++ [mkPoint d m t v]) -> point_storable sc (mkPoint d m t v) -> h_verdict sc h d m t = VStored.
Proof.
  intros h d m t v O (ms & D & _). cbn [pt_device pt_name] in D. pose proof (admitted _ _ _ _ _ O) as A. unfold h_verdict.
  assert (X : has_device sc d = true). { pose proof D as D'. apply declares_get in D'; auto. destruct D' as (g & D' & _). apply has_device_iff; eauto. }
  rewrite X. cbn [negb]. replace (t <=? last_time h d m) with false by lia. replace (is_declared sc d m) with true; auto. symmetry. apply is_declared_iff. eauto.
Qed.
Lemma stored_batch : forall d t vs h, in_order (h_all h ++ op_list (OpWriteMany d t vs)) -> Forall (point_storable sc) (op_list (OpWriteMany d t vs)) -> vs <> [] -> b_verdict sc h d t vs = VStored.
Proof.
  intros d t vs. induction vs as [|[m v] vs IH]; intros h O F N; [congruence|]. cbn [op_list map fst snd] in *. inversion F as [|? ? F1 F2]; subst.
  change (mkPoint d m t v :: ?l) with ([mkPoint d m t v] ++ l) in O. rewrite app_assoc in O.
  rename O into OO. cbn [b_verdict]. rewrite (stored_verdict h d m t v (order_prefix _ _ OO) F1). destruct vs as [|mv vs].
  - cbn [b_verdict]. destruct F1 as (ms & D & _). cbn [pt_device pt_name] in D. replace (has_device sc d) with true; auto. symmetry.
    apply declares_get in D; auto. destruct D as (g & D & _). apply has_device_iff; eauto.
  - apply IH; [|exact F2|discriminate]. unfold h_all in *. cbn [h_store h_flushed h_recent op_list]. rewrite (app_assoc (h_flushed h)). exact OO.
Qed.
(** every call of an in-order session is answered [Ok] *)
Lemma session_answers : forall w h ops l, trace p snap sc w h ops l -> ops_ok ops -> Forall write_call ops -> in_order (input ops) -> Forall (point_storable sc) (input ops) ->
  l = map (fun _ => AOk) ops /\ h_all h = input ops.
Proof.
  intros w h ops l T. induction T as [out w N|w h ops l o w' a T IH H]; intros O W R S; [split; reflexivity|].
  rewrite input_snoc in *. apply Forall_app in W. destruct W as [W1 W2]. inversion W2 as [|? ? [W3 W4] _]; subst. apply Forall_app in S. destruct S as [S1 S2].
  destruct (IH (ops_ok_app _ _ O) W1 (order_prefix _ _ R) S1) as [E A]. pose proof (trace_step_ok p snap decomp HG sc Hsc _ _ _ _ _ _ _ T O H) as AN.
  assert (AK : a = AOk).
  { destruct o as [d m t v|d t vs|ord]; cbn [answers] in AN; [| |exfalso; apply W4; reflexivity].
    - cbn [op_list] in R, S2. inversion S2; subst. rewrite <- A in R. rewrite (stored_verdict _ _ _ _ _ R) in AN by auto. exact AN.
    - rewrite <- A in R. rewrite (stored_batch _ _ _ _ R S2) in AN; [exact AN|]. intros ->. apply W4. reflexivity. }
  subst a. assert (L : l ++ [AOk] = map (fun _ => AOk) (ops ++ [o])) by (rewrite E, map_app; reflexivity). split; [exact L|].
  pose proof (trace_step p snap sc _ _ _ _ _ _ _ T H) as T'. rewrite (trace_acked p snap decomp HG sc Hsc _ _ _ _ T' O).
  - rewrite L, <- input_snoc. apply all_acked.
  - rewrite L. apply all_batches.
Qed.
Lemma calls_no_close : forall ops, Forall write_call ops -> no_close ops = true.
Proof. intros ops F. unfold no_close. apply forallb_forall. intros o I. rewrite Forall_forall in F. destruct (F o I) as [_ N]. destruct o; [reflexivity|reflexivity|exfalso; apply N; reflexivity]. Qed.
End Session.

Lemma new_healthy : forall sc, exists out w0, writer_new sc (sink_new healthy) = (out, Some w0).
Proof. intros sc. eexists. eexists. reflexivity. Qed.
Lemma typed_calls : forall sc ops, schema_ok sc -> Forall write_call ops -> Forall (point_storable sc) (input ops) -> Forall (well_typed sc) ops.
Proof.
  intros sc ops Hsc W S. induction W as [|o ops [W1 W2] W IH]; [constructor|]. unfold input in S. cbn [map concat] in S. apply Forall_app in S. destruct S as [S1 S2]. constructor; [|apply IH; exact S2].
  assert (U : forall d m ms ms', declares sc d m ms -> declares sc d m ms' -> ms' = ms).
  { intros d m ms ms' D D'. apply declares_get in D; auto. apply declares_get in D'; auto. destruct D as (g & A & B). destruct D' as (g' & A' & B'). congruence. }
  destruct o as [d m t v|d t vs|ord]; cbn [well_typed op_list] in *; [| |congruence].
  - inversion S1 as [|? ? (ms & D & X) _]; subst. cbn [pt_device pt_name pt_value] in *. intros ms' D'. rewrite (U _ _ _ _ D D'). exact X.
  - split; [intros ->; apply W2; reflexivity|]. apply Forall_forall. intros [m v] I ms' D'. rewrite Forall_forall in S1.
    destruct (S1 (mkPoint d m t v)) as (ms & D & X); [apply in_map_iff; exists (m, v); auto|]. cbn [pt_device pt_name pt_value fst snd] in *. rewrite (U _ _ _ _ D D'). exact X.
Qed.
Lemma calls_op_ok : forall ops, Forall write_call ops -> Forall op_ok ops.
Proof. intros ops F. eapply Forall_impl; [|exact F]. intros o [H _]. exact H. Qed.

(** ** What the size bound implies *)
Lemma mf_pos : forall sc n, 0 <= n -> 150 * series_count sc < 2 ^ 27 -> 1 <= most_flushes sc n.
Proof. intros sc n H K. unfold most_flushes. assert (0 <= 24 * n / (2 ^ 27 - 150 * series_count sc)) by (apply Z.div_pos; lia). lia. Qed.
Lemma per_flush_series : forall sc, 150 * series_count sc <= per_flush sc.
Proof.
  intros sc. unfold series_count, per_flush. induction sc as [|dg sc IH]; [reflexivity|]. cbn [map]. rewrite !zsum_cons.
  assert (X : 150 * zlen (snd dg) <= zsum (map (fun kv : list Z * mschema => 452 + zlen (fst kv)) (snd dg))).
  { generalize (snd dg). intros l. induction l as [|x l IHl]; [reflexivity|]. cbn [map]. rewrite zsum_cons, zlen_cons. pose proof (zlen_nonneg _ (fst x)). lia. }
  pose proof (zlen_nonneg _ (fst dg)). rewrite Z.mul_add_distr_l.
  apply Z.add_le_mono; [|exact IH]. etransitivity; [exact X|]. match goal with |- ?a <= ?b + ?c => change c with a; generalize a end. intros z. match goal with |- _ <= 6 + zlen ?q + _ => pose proof (zlen_nonneg _ q) end. lia.
Qed.
Lemma bound_parts : forall sc n, 0 <= n -> 150 * series_count sc < 2 ^ 27 -> size_bound sc n < 2 ^ 32 ->
  24 * n + 150 * series_count sc < 2 ^ 32 /\ per_file sc < 2 ^ 32.
Proof.
  intros sc n H K L. pose proof (mf_pos sc n H K) as M. unfold size_bound in L. pose proof (per_flush_series sc) as P.
  assert (S : 0 <= series_count sc) by (apply zsum_map_nonneg; intros; apply zlen_nonneg).
  assert (N : 0 <= per_file sc). { unfold per_file. assert (0 <= zsum (map (fun dg : list Z * list (list Z * mschema) => zsum (map (fun kv => 177 + 3 * zlen (fst dg) + 3 * zlen (fst kv)) (snd dg))) sc)); [|lia].
    apply zsum_map_nonneg. intros dg. apply zsum_map_nonneg. intros kv. pose proof (zlen_nonneg _ (fst dg)). pose proof (zlen_nonneg _ (fst kv)). lia. }
  nia.
Qed.
Lemma in_sum : forall A (f : A -> Z) l x, (forall y, 0 <= f y) -> In x l -> f x <= zsum (map f l).
Proof.
  intros A f l x N I. apply in_split in I. destruct I as (a & b & ->). rewrite map_app, zsum_app. cbn [map]. rewrite zsum_cons.
  pose proof (zsum_map_nonneg _ f a N). pose proof (zsum_map_nonneg _ f b N). lia.
Qed.
Lemma bound_paths : forall sc, per_file sc < 2 ^ 32 -> short_paths sc.
Proof.
  intros sc H d m ms (g & A & B). unfold per_file in H.
  pose proof (in_sum _ (fun dg : list Z * list (list Z * mschema) => zsum (map (fun kv => 177 + 3 * zlen (fst dg) + 3 * zlen (fst kv)) (snd dg))) sc (d, g)) as X.
  cbv beta in X. cbn [fst snd] in X. specialize (X ltac:(intros dg; apply zsum_map_nonneg; intros kv; pose proof (zlen_nonneg _ (fst dg)); pose proof (zlen_nonneg _ (fst kv)); lia) A).
  pose proof (in_sum _ (fun kv : list Z * mschema => 177 + 3 * zlen d + 3 * zlen (fst kv)) g (m, ms) ltac:(intros kv; pose proof (zlen_nonneg _ d); pose proof (zlen_nonneg _ (fst kv)); lia) B) as Y.
  cbn [fst] in Y. rewrite !zlen_app. change (zlen [46]) with 1. lia.
Qed.

(** ** Release builds, any schema *)
Lemma session_file : forall snap decomp sc ops ord paths devs, good_snap snap decomp -> schema_ok sc -> no_dots sc -> small_devices sc -> byte_names sc -> good_order ord ->
  150 * series_count sc < 2 ^ 27 -> Forall write_call ops -> Forall (point_storable sc) (input ops) -> in_order (input ops) -> size_bound sc (zlen (input ops)) < 2 ^ 32 ->
  lists_paths (fun d m => series_of d m (input ops) <> []) paths -> lists_devices (fun d m => series_of d m (input ops) <> []) devs ->
  let cap := bloom_bits (zlen paths) in
  exists out w0 w, writer_new sc (sink_new healthy) = (out, Some w0) /\ run Release snap w0 ops = Ret (w, map (fun _ => AOk) ops) /\
    ((exists w', step Release snap w (OpClose ord) = Ret (w', AUnit) /\ zlen (file_bytes w') <= size_bound sc (zlen (input ops)) /\ holds decomp (file_bytes w') (input ops)) <->
     zlen devs <= 256 /\ (forall s seed, In s paths -> In seed [5; 7; 11; 19; 31] -> ~ (path_hash s seed = - 2 ^ 31 /\ 2 ^ 31 mod cap <> 0)) /\ (cap mod 8 = 0 \/ 4 <= cap mod 8)).
Proof.
  intros snap decomp sc ops ord paths devs HG Hsc ND SD BN GO K W S R L LP LD cap. destruct (new_healthy sc) as (out & w0 & N).
  pose proof (zlen_nonneg _ (input ops)) as N0. destruct (bound_parts _ _ N0 K L) as [B1 B2]. pose proof (bound_paths _ B2) as SP. rewrite input_len in B1.
  assert (SC : 0 <= series_count sc) by (apply zsum_map_nonneg; intros; apply zlen_nonneg).
  assert (O : ops_ok ops) by (split; [apply calls_op_ok; auto|lia]).
  destruct (session snap decomp HG sc Hsc ops out w0 N O (typed_calls _ _ Hsc W S) B1) as (w & h & l & RN & T).
  destruct (session_answers Release snap decomp HG sc Hsc _ _ _ _ T O W R S) as [-> HA]. pose proof (calls_no_close _ W) as NC.
  assert (HC : h_recent h = [] \/ 0 < h_counted h).
  { pose proof (counted_all Release snap decomp HG sc Hsc _ _ _ _ T O (all_batches ops)) as X. destruct (h_recent h); [left; auto|right]. rewrite X, zlen_cons. pose proof (zlen_nonneg _ l). lia. }
  exists out, w0, w. split; [exact N|]. split; [exact RN|].
  assert (LP' : lists_paths (fun d m => series_of d m (h_all h) <> []) paths) by (rewrite HA; exact LP).
  assert (LD' : lists_devices (fun d m => series_of d m (h_all h) <> []) devs) by (rewrite HA; exact LD).
  pose proof (close_panics_iff snap decomp sc w h ops _ ord paths devs HG Hsc T O NC HC ND BN SP LP' LD') as CP. cbv zeta in CP. fold cap in CP. rewrite <- CP. split.
  - intros (w' & H & _). eauto.
  - intros [[w' a] H]. assert (OC : ops_ok (ops ++ [OpClose ord])).
    { destruct O as [O1 O2]. split; [apply Forall_app; split; [exact O1|constructor; [exact I|constructor]]|]. rewrite map_app, zsum_app. cbn [map op_points]. rewrite zsum_cons. unfold zsum at 2. cbn [fold_right]. lia. }
    pose proof (trace_step_ok Release snap decomp HG sc Hsc _ _ _ _ _ _ _ T OC H) as AN. cbn [answers] in AN.
    subst a. exists w'. split; [exact H|].
    assert (FS : zlen (file_bytes w') <= size_bound sc (zlen (input ops))).
    { rewrite <- HA. eapply file_size_le; eauto. }
    split; [exact FS|]. assert (FL : zlen (file_bytes w') < 2 ^ 32) by lia. split.
    + destruct (close_acked Release snap decomp HG sc Hsc out w0 ops w _ ord w' _ N RN O NC (all_batches ops) H FL) as (cs & C1 & C2 & _). exists cs. split; [exact C1|]. rewrite all_acked in C2. exact C2.
    + destruct (index_acked Release snap decomp sc out w0 ops w _ ord w' _ HG Hsc N RN O NC (all_batches ops) H FL GO ND SD) as (xs & X). rewrite all_acked in X. exists xs. exact X.
Qed.

(** ** At most 41 series: the Bloom filter has 256 bits *)
Lemma bits_256 : forall n, 0 <= n <= 41 -> bloom_bits n = 256.
Proof.
  intros n H. destruct (Z.eq_dec n 0) as [->|]; [vm_compute; reflexivity|]. destruct (raw_size n ltac:(lia)) as (A & B & C).
  unfold bloom_bits. rewrite (wrapS_small 32 n) by (change (2 ^ (32 - 1)) with 2147483648; lia).
  change i32_max with 2147483647 in *. rewrite wrapS_small by (change (2 ^ (32 - 1)) with 2147483648; lia). lia.
Qed.
Lemma nodup_len : forall A (dec : forall x y : A, {x = y} + {x <> y}) l l', incl l l' -> zlen (nodup dec l) <= zlen l'.
Proof. intros A dec l l' H. unfold zlen. apply inj_le. apply NoDup_incl_length; [apply NoDup_nodup|]. intros x I. apply H. apply nodup_In in I. exact I. Qed.
Lemma series_nonempty : forall d m pts, series_of d m pts <> [] <-> exists q, In q pts /\ pt_device q = d /\ pt_name q = m.
Proof.
  intros d m pts. unfold series_of. split.
  - intros N. destruct (filter _ pts) as [|q r] eqn:E; [exfalso; apply N; reflexivity|]. exists q.
    assert (I : In q (filter (fun q => same_name (pt_device q) d && same_name (pt_name q) m) pts)) by (rewrite E; left; auto).
    apply filter_In in I. destruct I as [I J]. apply andb_prop in J. destruct J as [J1 J2]. apply same_name_eq in J1, J2. auto.
  - intros (q & I & <- & <-) N. apply map_eq_nil in N. assert (J : In q (filter (fun x => same_name (pt_device x) (pt_device q) && same_name (pt_name x) (pt_name q)) pts)) by (apply filter_In; rewrite !same_name_refl; auto).
    rewrite N in J. destruct J.
Qed.
Definition names_dec := list_eq_dec Z.eq_dec.
Lemma points_paths : forall pts, lists_paths (fun d m => series_of d m pts <> []) (nodup names_dec (map (fun q => pt_device q ++ [46] ++ pt_name q) pts)).
Proof.
  intros pts. split; [apply NoDup_nodup|]. intros q. rewrite nodup_In, in_map_iff. split.
  - intros (x & <- & I). exists (pt_device x), (pt_name x). split; auto. apply series_nonempty. eauto.
  - intros (d & m & -> & N). apply series_nonempty in N. destruct N as (x & I & <- & <-). eauto.
Qed.
Lemma points_devices : forall pts, lists_devices (fun d m => series_of d m pts <> []) (nodup names_dec (map pt_device pts)).
Proof.
  intros pts. split; [apply NoDup_nodup|]. intros d. rewrite nodup_In, in_map_iff. split.
  - intros (x & <- & I). exists (pt_name x). apply series_nonempty. eauto.
  - intros (m & N). apply series_nonempty in N. destruct N as (x & I & <- & <-). eauto.
Qed.
Lemma few_devices : forall sc, series_count sc <= 65536 -> small_devices sc.
Proof.
  intros sc H. apply Forall_forall. intros dg I. pose proof (in_sum _ (fun dg : list Z * list (list Z * mschema) => zlen (snd dg)) sc dg ltac:(intros; apply zlen_nonneg) I) as X. unfold series_count in H. cbv beta in X. lia.
Qed.
Lemma points_few : forall sc pts, schema_ok sc -> Forall (point_storable sc) pts ->
  zlen (nodup names_dec (map (fun q => pt_device q ++ [46] ++ pt_name q) pts)) <= series_count sc /\ zlen (nodup names_dec (map pt_device pts)) <= series_count sc.
Proof.
  intros sc pts Hsc F. pose proof (keys_len sc) as KL.
  assert (K : forall q, In q pts -> In (pt_device q, pt_name q) (keys_of (decls sc))).
  { intros q I. rewrite Forall_forall in F. destruct (F q I) as (ms & D & _). eapply declares_keys; eauto. }
  split; (etransitivity; [|exact KL]).
  - etransitivity; [apply (nodup_len _ names_dec _ (map (fun k => fst k ++ [46] ++ snd k) (keys_of (decls sc))))|unfold zlen; rewrite map_length; lia].
    intros x I. apply in_map_iff in I. destruct I as (q & <- & I). apply in_map_iff. exists (pt_device q, pt_name q). auto.
  - etransitivity; [apply (nodup_len _ names_dec _ (map fst (keys_of (decls sc))))|unfold zlen; rewrite map_length; lia].
    intros x I. apply in_map_iff in I. destruct I as (q & <- & I). apply in_map_iff. exists (pt_device q, pt_name q). auto.
Qed.
Lemma small_session : forall snap decomp sc ops ord, good_snap snap decomp -> schema_ok sc -> no_dots sc -> byte_names sc -> good_order ord -> series_count sc <= 41 ->
  Forall write_call ops -> Forall (point_storable sc) (input ops) -> in_order (input ops) -> size_bound sc (zlen (input ops)) < 2 ^ 32 ->
  exists out w0 w w', writer_new sc (sink_new healthy) = (out, Some w0) /\ run Release snap w0 (ops ++ [OpClose ord]) = Ret (w', map (fun _ => AOk) ops ++ [AUnit]) /\
    run Release snap w0 ops = Ret (w, map (fun _ => AOk) ops) /\ zlen (file_bytes w') <= size_bound sc (zlen (input ops)) /\ holds decomp (file_bytes w') (input ops).
Proof.
  intros snap decomp sc ops ord HG Hsc ND BN GO SC W S R L. destruct (points_few sc _ Hsc S) as [P1 P2].
  destruct (session_file snap decomp sc ops ord _ _ HG Hsc ND (few_devices sc ltac:(lia)) BN GO ltac:(lia) W S R L (points_paths _) (points_devices _)) as (out & w0 & w & N & RN & C).
  cbv zeta in C. rewrite (bits_256 _ (conj (zlen_nonneg _ _) (Z.le_trans _ _ _ P1 SC))) in C.
  destruct (proj2 C) as (w' & C1 & C2 & C3).
  - split; [lia|]. split; [|left; reflexivity]. intros s seed _ _ [_ X]. apply X. reflexivity.
  - exists out, w0, w, w'. split; [exact N|]. split; [rewrite run_snoc, RN; cbn [bind]; rewrite C1; reflexivity|]. auto.
Qed.

(** ** Below 128 MiB nothing reaches the file before the close *)
Lemma header_only : forall p snap decomp sc w h ops l, good_snap snap decomp -> schema_ok sc -> trace p snap sc w h ops l -> ops_ok ops -> no_close ops = true ->
  24 * zsum (map op_points ops) + 150 * series_count sc <= 2 ^ 27 -> file_bytes w = MAGIC ++ [3] /\ h_flushed h = [].
Proof.
  intros p snap decomp sc w h ops l HG Hsc T. induction T as [out w N|w h ops l o w' a T IH H]; intros O NC M.
  - split; [|reflexivity]. pose proof (winv_new p snap sc out w N) as I. rewrite (wi_data _ _ _ _ _ _ I). reflexivity.
  - unfold no_close in NC. rewrite forallb_app in NC. cbn [forallb] in NC. apply andb_prop in NC. destruct NC as [NC1 NC2]. rewrite andb_true_r in NC2. apply negb_true_iff in NC2.
    destruct (last_ok _ _ O) as [O1 O2]. rewrite map_app, zsum_app in M. cbn [map] in M. rewrite zsum_cons in M. change (zsum []) with 0 in M. pose proof (op_points_nonneg o).
    assert (OK : ops_ok ops). { destruct O as [X _]. apply Forall_app in X. split; [tauto|]. lia. }
    destruct (IH OK NC1) as (F1 & F2); [lia|]. destruct (trace_ok p snap decomp HG sc Hsc _ _ _ _ T OK) as (TL & its & I & _).
    pose proof (h_call_len sc o h) as CL.
    destruct (step_plan p snap decomp HG sc Hsc h its w o w' a I O1 ltac:(lia) NC2 H) as [E|(wm & k & new & W1 & W2 & W3 & W4 & W5 & W6)].
    + assert (G : grew w w' = false) by (apply grew_same; unfold file_bytes; rewrite E; reflexivity). rewrite G. unfold h_step. cbn [andb]. rewrite h_call_flushed.
      unfold file_bytes in *. rewrite E. auto.
    + exfalso. destruct (mem_bound p snap decomp HG sc Hsc _ _ _ W1) as (k' & _ & K1 & K2).
      { unfold memory_bound. pose proof (h_all_split (h_call sc o h)). pose proof (zlen_nonneg _ (h_flushed (h_call sc o h))). lia. }
      rewrite (K1 p) in W2. apply ret_inj in W2. subst k'. unfold memory_bound in K2. change CHUNK_GROUP_SIZE_THRESHOLD_BYTE with (2 ^ 27) in W3.
      pose proof (h_all_split (h_call sc o h)). pose proof (zlen_nonneg _ (h_flushed (h_call sc o h))). lia.
Qed.

(** Order is decided by the series that occur. *)
Lemma in_order_keys : forall pts, Forall (fun q => increasing (-1) (map fst (series_of (pt_device q) (pt_name q) pts))) pts -> in_order pts.
Proof.
  intros pts F d m. destruct (series_of d m pts) as [|x r] eqn:E; [exact I|]. rewrite <- E.
  assert (N : series_of d m pts <> []) by (rewrite E; discriminate). apply series_nonempty in N. destruct N as (q & Q & <- & <-).
  rewrite Forall_forall in F. apply F. exact Q.
Qed.
