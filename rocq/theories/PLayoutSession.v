(** When the writer flushes, exactly (C55). *)
From Verif Require Export PLayoutClose PBound PSize.
Ltac Zify.zify_post_hook ::= idtac.

Lemma by_name_permutation : forall V (l : list (list Z * V)), Permutation (by_name l) l.
Proof.
  intros V. assert (A : forall x (l : list (list Z * V)), Permutation (insert_name x l) (x :: l)).
  { intros x l. induction l as [|y l IH]; [reflexivity|]. cbn [insert_name]. destruct (_ : bool); [reflexivity|]. etransitivity; [apply perm_skip; exact IH|apply perm_swap]. }
  induction l as [|x l IH]; [reflexivity|]. cbn [by_name fold_right]. etransitivity; [apply A|apply perm_skip; exact IH].
Qed.
Section Session.
Variable p : profile.
Variable snap decomp : list Z -> option (list Z).
Hypothesis HG : good_snap snap decomp.

(** ** The memory estimate *)
Lemma estimate_exact : forall m ms pts c n, pts_ok ms pts -> open_chunk p snap m ms pts c -> 24 * zlen pts + 150 < 2 ^ 32 ->
  cw_estimate Debug c = Ret n -> n = series_memory snap ms pts.
Proof.
  intros m ms pts c n P O HL H. unfold series_memory.
  assert (D : pts = [] \/ pts <> []) by (destruct pts; [left; reflexivity|right; discriminate]). destruct D as [->|NE].
  - unfold open_chunk, cw_run, new_chunk in O. cbn [foldM] in O. rinj O. cbn in H. rinj H. reflexivity.
  - pose proof (page_open p snap decomp HG m ms pts c P NE O) as PO. pose proof (open_exact p snap decomp HG m ms pts c P O) as X.
    pose proof (run_buffer_le p snap decomp HG m (ms_type ms) (ms_comp ms) (ms_enc ms) pts c (proj1 P) (proj2 P) O) as RB.
    destruct pts as [|x pts0] eqn:EP; [congruence|]. rewrite <- EP in *. clear EP x pts0.
    destruct (cut (ms_type ms) (ms_enc ms) pts) as [[pages cur] next]. destruct X as (B & L & CC & ims & I). destruct RB as (RB & _).
    unfold cw_estimate in H. pose proof (ci_cur _ _ _ _ _ _ _ _ _ _ I) as IC. destruct (cw_page c) as [pw|]; [|congruence].
    destruct P as [Hok Hl]. rewrite <- CC in Hok, HL. apply Forall_app in Hok. destruct Hok as [O1 O2]. rewrite zlen_app in HL. pose proof (zlen_nonneg _ cur). pose proof (zlen_nonneg _ (concat pages)). pose proof (limit_small (ms_type ms) (ms_enc ms)) as LS.
    apply bind_ret in H. destruct H as (e & E & H). apply bind_ret in H. destruct H as (st & ST & H). apply bind_ret in H. destruct H as (a & A & H).
    apply (estimate_any p) in E. destruct E as [E _]. apply (estimate_ok p (ms_type ms) (ms_enc ms) cur) in E; auto; [|lia]. subst e.
    apply (arithU_any p) in ST. destruct ST as (_ & -> & _). apply (arithU_any p) in A. destruct A as (_ & -> & _). apply (arithU_any p) in H. destruct H as (_ & -> & _).
    rewrite wrapU_small by (pose proof (zlen_nonneg _ (cw_buffer c)); lia). rewrite B.
    pose proof (ps_stats _ _ _ _ _ IC) as PS. apply page_inv in PS; auto. unfold stats_serialized_size. rewrite (si_type _ _ _ PS), (si_count _ _ _ PS).
    rewrite Z.mod_small by lia. destruct (var_u32_len (zlen cur) ltac:(lia)) as (_ & _ & ->). rewrite leb_var by lia. destruct (ms_type ms); lia.
Qed.
Lemma group_exact : forall f g0 cs, gchunks p snap f g0 cs -> forall z n, (forall m, 24 * zlen (f m) + 150 < 2 ^ 32) ->
  foldM (fun n (kc : list Z * chunk_writer) => let* s := cw_estimate Debug (snd kc) in arithU Debug 32 (n + s)) cs z = Ret n ->
  n = z + zsum (map (fun kv => series_memory snap (snd kv) (f (fst kv))) g0).
Proof.
  intros f g0 cs H. induction H as [|[m ms] [k c] g0 cs [E [Hok O]] H IH]; intros z n B F; cbn [foldM] in F.
  - rinj F. cbn. lia.
  - cbn [fst snd] in *. subst k. apply bind_ret in F. destruct F as (a & A & F). apply bind_ret in A. destruct A as (s & S & A).
    apply (arithU_any p) in A. destruct A as (_ & -> & _). apply (estimate_exact m ms (f m) c s Hok O (B m)) in S. subst s.
    apply IH in F; auto. cbn [map]. rewrite zsum_cons. cbn [fst snd]. lia.
Qed.
Lemma groups_exact : forall F G0 gs, same_keys (fun d g0 g => ginv p snap (F d) g0 g) G0 gs -> forall z n, (forall d m, 24 * zlen (F d m) + 150 < 2 ^ 32) ->
  foldM (fun n (dg : list Z * group_writer) => let* s := gw_mem_size Debug (snd dg) in arithU Debug 32 (n + s)) gs z = Ret n ->
  n = z + zsum (map (fun dg => zsum (map (fun kv => series_memory snap (snd kv) (F (fst dg) (fst kv))) (snd dg))) G0).
Proof.
  intros F G0 gs H. induction H as [|[d g0] [k g] G0 gs [E [I _]] H IH]; intros z n B X; cbn [foldM] in X.
  - rinj X. cbn. lia.
  - cbn [fst snd] in *. subst k. apply bind_ret in X. destruct X as (a & A & X). apply bind_ret in A. destruct A as (s & S & A).
    apply (arithU_any p) in A. destruct A as (_ & -> & _). unfold gw_mem_size in S. apply (group_exact (F d) g0 (gw_chunks g) I 0 s (B d)) in S. subst s.
    apply IH in X; auto. cbn [map]. rewrite zsum_cons. cbn [fst snd]. lia.
Qed.

Variable sc : schema.
Hypothesis Hsc : schema_ok sc.
Lemma series_some : forall h its w, winv p snap sc h its w -> h_recent h = [] /\ zlen (h_recent h) = 0 \/ 1 <= series_count sc.
Proof.
  intros h its w I. pose proof (wi_points _ _ _ _ _ _ I) as P. unfold h_all in P. apply Forall_app in P. destruct P as [_ P].
  destruct (h_recent h) as [|q l]; [left; split; reflexivity|right]. apply Forall_inv in P. destruct P as (ms & (g & A & B) & _).
  clear - A B. induction sc as [|x s IH]; [destruct A|]. change (1 <= zlen (snd x) + series_count s).
  assert (N : 0 <= series_count s) by (apply zsum_map_nonneg; intros; apply zlen_nonneg). pose proof (zlen_nonneg _ (snd x)) as Nx.
  destruct A as [->|A]; [|specialize (IH A); lia]. cbn [snd] in *. destruct g as [|y g]; [destruct B|]. pose proof (zlen_nonneg _ g). assert (zlen (y :: g) = 1 + zlen g) by (apply zlen_cons). lia.
Qed.
Lemma memory_exact : forall h its w n, winv p snap sc h its w -> 24 * zlen (h_recent h) + 150 * series_count sc < 2 ^ 32 ->
  mem_size p (w_groups w) = Ret n -> n = memory snap sc (h_recent h).
Proof.
  intros h its w n I HB H. destruct (mem_bound p snap decomp HG sc Hsc h its w I HB) as (n' & E & EA & _). rewrite EA in H. rinj H.
  unfold mem_size in E. pose proof (groups_exact (recent h) _ _ (wi_groups _ _ _ _ _ _ I) 0 n) as GE.
  rewrite GE; [|intros d m; unfold recent; pose proof (PWriter.series_len d m (h_recent h)); destruct (series_some _ _ _ I) as [[_ Z0]|Z0]; lia|exact E]. clear GE. rewrite Z.add_0_l. unfold memory.
  rewrite decls_by_name by auto. rewrite map_map. cbn [fst snd]. destruct Hsc as [ND FN].
  rewrite (perm_sum _ _ _ _ (by_name_permutation _ sc)).
  f_equal. apply map_ext_in. intros [d g] J. cbn [fst snd]. rewrite (perm_sum _ _ _ _ (by_name_permutation _ g)). reflexivity.
Qed.

(** ** The check and a call *)
(** [base]: what was in the file when the session began (C61); nothing for a new writer. *)
Variable base : list item.
Lemma check_exact_session : forall h its w w' fls, winv p snap sc h (base ++ its) w -> flushed_as p snap sc fls its -> 24 * zlen (h_recent h) + 150 * series_count sc < 2 ^ 32 ->
  check_memory p snap w = Ret w' ->
  exists new, Forall is_group new /\
  let s := if w_next_check w <=? h_counted h then
      let mem := memory snap sc (h_recent h) in
      let next := (w_next_check w * 2 ^ 27 / mem) mod 2 ^ 32 in
      if (2 ^ 27 <? mem) && (0 <? h_counted h) then mkSession (fls ++ [h_recent h]) (h_flush h) next else mkSession fls h next
    else mkSession fls h (w_next_check w) in
  winv p snap sc (ss_hist s) (base ++ its ++ new) w' /\ flushed_as p snap sc (ss_flushes s) (its ++ new) /\ w_next_check w' = ss_next s.
Proof.
  intros h its w w' fls I FA HB H. unfold check_memory in H. rewrite (wi_records _ _ _ _ _ _ I), Z.geb_leb in H.
  destruct (w_next_check w <=? h_counted h).
  2: { rinj H. exists []. split; [constructor|]. cbn [ss_hist ss_flushes ss_next]. rewrite app_nil_r. auto. }
  apply bind_ret in H. destruct H as (mem & M & H). apply (memory_exact h (base ++ its) w mem I HB) in M. rewrite M in H. clear M mem. cbv zeta in *. set (mem := memory snap sc (h_recent h)) in *. destruct (mem =? 0); [discriminate|].
  change CHUNK_GROUP_SIZE_THRESHOLD_BYTE with (2 ^ 27) in H. rewrite Z.gtb_ltb in H.
  change (wrapU 32 (w_next_check w * 2 ^ 27 / mem)) with ((w_next_check w * 2 ^ 27 / mem) mod 2 ^ 32) in H. set (next := (w_next_check w * 2 ^ 27 / mem) mod 2 ^ 32) in *.
  rewrite <- (wi_records _ _ _ _ _ _ I) in H. fold (set_next next w) in H.
  pose proof (winv_set_next p snap sc h (base ++ its) w next I) as I'.
  destruct (2 ^ 27 <? mem); cbn [andb].
  2: { rinj H. exists []. split; [constructor|]. cbn [ss_hist ss_flushes ss_next]. rewrite app_nil_r. auto. }
  apply bind_ret in H. destruct H as ([w1 e] & F & H). rinj H. cbn [fst].
  destruct (flush_all_ok p snap decomp HG sc Hsc h (base ++ its) _ _ _ I' F) as [_ K]. destruct (0 <? h_counted h).
  - destruct K as (new & K1 & K2 & K3 & K4 & K5 & K6). rewrite <- app_assoc in K1. exists new. split; auto. cbn [ss_hist ss_flushes ss_next]. split; auto. split; [|exact K4]. apply flushed_snoc; auto.
  - subst w1. exists []. split; [constructor|]. cbn [ss_hist ss_flushes ss_next]. rewrite app_nil_r. auto.
Qed.
Definition runs (s : SLayout.session) (its : list item) (w : writer) : Prop :=
  winv p snap sc (ss_hist s) (base ++ its) w /\ Forall is_group its /\ flushed_as p snap sc (ss_flushes s) its /\ w_next_check w = ss_next s.
Lemma finish : forall s its w n rc w', runs s its w -> 0 <= n -> h_counted (ss_hist s) + n <= zlen (h_recent (ss_hist s)) -> zlen (h_all (ss_hist s)) < 2 ^ 32 ->
  24 * zlen (h_recent (ss_hist s)) + 150 * series_count sc < 2 ^ 32 -> arithU p 32 (w_records w + n) = Ret rc ->
  check_memory p snap (with_records rc w) = Ret w' ->
  let h := h_count n (ss_hist s) in
  exists new, runs (if ss_next s <=? h_counted h then
      let mem := memory snap sc (h_recent h) in
      let next := (ss_next s * 2 ^ 27 / mem) mod 2 ^ 32 in
      if (2 ^ 27 <? mem) && (0 <? h_counted h) then mkSession (ss_flushes s ++ [h_recent h]) (h_flush h) next else mkSession (ss_flushes s) h next
    else mkSession (ss_flushes s) h (ss_next s)) (its ++ new) w'.
Proof.
  intros s its w n rc w' (I & G & F & N) Hn HL HA HB A C h. unfold h_all in HA. rewrite zlen_app in HA. pose proof (zlen_nonneg _ (h_flushed (ss_hist s))) as NF.
  pose proof (wi_counted _ _ _ _ _ _ I) as WC. rewrite (wi_records _ _ _ _ _ _ I) in A. rewrite arithU_ok in A by lia. apply ret_inj in A. subst rc.
  rewrite <- (wi_records _ _ _ _ _ _ I) in C. pose proof (winv_records p snap sc _ _ _ _ I Hn HL) as I'. fold h in I'.
  destruct (check_exact_session h its _ w' (ss_flushes s) I' F HB C) as (new & K1 & K2). cbv zeta in K2. cbn [with_records w_next_check] in K2. rewrite N in K2.
  exists new. destruct K2 as (K2 & K3 & K4). split; [exact K2|]. split; [apply Forall_app; auto|]. split; [exact K3|exact K4].
Qed.
Lemma stays : forall s its w h' w', runs s its w -> winv p snap sc h' (base ++ its) w' -> w_next_check w' = w_next_check w -> runs (mkSession (ss_flushes s) h' (ss_next s)) its w'.
Proof. intros s its w h' w' (I & G & F & N) I' E. split; [exact I'|]. split; [auto|]. split; [auto|]. cbn [ss_next]. congruence. Qed.
Lemma step_session : forall s its w o w' a, runs s its w -> op_ok o -> zlen (h_all (ss_hist s)) + op_points o < 2 ^ 32 -> is_close o = false ->
  24 * (zlen (h_recent (ss_hist s)) + op_points o) + 150 * series_count sc < 2 ^ 32 ->
  step p snap w o = Ret (w', a) -> exists new, runs (session_call snap sc s o) (its ++ new) w'.
Proof.
  intros s its w o w' a R HO HL NC HB H. pose proof R as (I & G & F & N). set (h := ss_hist s) in *. pose proof (wi_counted _ _ _ _ _ _ I) as WC.
  assert (HA : zlen (h_all h) = zlen (h_flushed h) + zlen (h_recent h)) by (unfold h_all; apply zlen_app).
  pose proof (zlen_nonneg _ (h_flushed h)) as NF. pose proof (zlen_nonneg _ (h_recent h)) as NR.
  unfold session_call. cbv zeta. fold h.
  destruct o as [d m t v|d t vs|ord]; cbn [step is_close op_ok op_points call_ok] in *; [| |discriminate]; cbn [h_call].
  - (* write *)
    destruct HO as [Ht Hv]. pose proof (winv_get p snap sc _ _ _ d I) as WG. unfold writer_write in H.
    destruct (sm_get d (w_groups w)) as [g|] eqn:EG; destruct (sm_get d (decls sc)) as [g0|] eqn:ED; try tauto.
    + apply bind_ret in H. destruct H as ([g' e] & W & H).
      pose proof (group_write_ok p snap decomp HG sc Hsc _ _ _ _ _ _ _ _ _ ED WG (wi_points _ _ _ _ _ _ I) Ht Hv HL W) as GW. fold (with_group d g' w) in H.
      destruct (h_verdict sc h d m t); cbn [andb].
      * destruct GW as (-> & -> & GI & HP). set (q := mkPoint d m t v) in *.
        assert (I1 : winv p snap sc (h_store q h) (base ++ its) (with_group d g' w)).
        { eapply winv_group; eauto.
          - intros d' m' NN. rewrite recent_store. unfold q. rewrite series_other, app_nil_r; auto. congruence.
          - cbn [h_store h_recent]. rewrite zlen_app. pose proof (zlen_nonneg _ [q]). lia. }
        apply bind_ret in H. destruct H as (rc & A & H). apply bind_ret in H. destruct H as (w2 & C & H). rinj H.
        apply (finish (mkSession (ss_flushes s) (h_store q h) (ss_next s)) its (with_group d g' w) 1 rc w'); cbn [ss_hist]; auto; try lia.
        { exact (stays s its w (h_store q h) (with_group d g' w) R I1 eq_refl). }
        { cbn [h_store h_counted h_recent]. rewrite zlen_app, zlen_cons, zlen_nil. lia. }
        { unfold h_all. cbn [h_store h_flushed h_recent]. rewrite !zlen_app, zlen_cons, zlen_nil. lia. }
        { cbn [h_store h_recent]. rewrite zlen_app, zlen_cons, zlen_nil. lia. }
      * destruct GW as (-> & -> & GI). rinj H. exists []. rewrite app_nil_r. apply (stays s its w); auto. eapply winv_group; eauto; [lia|apply I].
      * destruct GW as (-> & (e' & ->) & GI). rinj H. exists []. rewrite app_nil_r. apply (stays s its w); auto. eapply winv_group; eauto; [lia|apply I].
    + rinj H. unfold h_verdict, admits. rewrite device_get, ED by auto. cbn [negb andb].
      replace (is_declared sc d m) with false. { exists []. rewrite app_nil_r. apply (stays s its w' h w'); auto. }
      symmetry. destruct (is_declared sc d m) eqn:D; auto. apply is_declared_iff in D.
      destruct D as (ms & D). apply declares_get in D; auto. destruct D as (g0 & D & _). congruence.
  - (* write_many *)
    destruct HO as [Ht Hv]. pose proof (winv_get p snap sc _ _ _ d I) as WG. unfold writer_write_many in H.
    destruct (sm_get d (w_groups w)) as [g|] eqn:EG; destruct (sm_get d (decls sc)) as [g0|] eqn:ED; try tauto.
    + apply bind_ret in H. destruct H as ([g' r] & W & H). fold (with_group d g' w) in H.
      assert (B0 : 0 + zlen vs < 2 ^ 32) by lia.
      pose proof (group_batch_ok p snap decomp HG sc Hsc _ _ _ ED Ht _ _ _ _ _ _ WG (wi_points _ _ _ _ _ _ I) Hv HL (Z.le_refl 0) B0 W) as GB.
      destruct (h_batch sc d t vs h) as [h' ok] eqn:EB. destruct GB as (GI & HP & HF & HC & HR & (l & L1 & L2 & L3) & GB).
      assert (I1 : winv p snap sc h' (base ++ its) (with_group d g' w)).
      { eapply winv_group; eauto. rewrite L1, zlen_app. pose proof (zlen_nonneg _ l). lia. }
      pose proof (stays s its w h' (with_group d g' w) R I1 eq_refl) as R1.
      destruct (b_verdict sc h d t vs); cbn [andb].
      * destruct GB as (-> & ->). apply bind_ret in H. destruct H as (rc & A & H). apply bind_ret in H. destruct H as (w2 & C & H). rinj H.
        apply (finish (mkSession (ss_flushes s) h' (ss_next s)) its (with_group d g' w) (zlen vs) rc w'); cbn [ss_hist]; auto; try apply zlen_nonneg.
        { rewrite HC, L1, zlen_app, L3 by auto. lia. }
        { unfold h_all. rewrite HF, L1, !zlen_app. lia. }
        { rewrite L1, zlen_app. lia. }
      * destruct GB as (-> & ->). rinj H. exists []. rewrite app_nil_r. exact R1.
      * destruct GB as (-> & (e' & ->)). rinj H. exists []. rewrite app_nil_r. exact R1.
    + rinj H.
      assert (ND : forall m, is_declared sc d m = false).
      { intros m. destruct (is_declared sc d m) eqn:D; auto. apply is_declared_iff in D.
        destruct D as (ms & D). apply declares_get in D; auto. destruct D as (g0 & D & _). congruence. }
      destruct vs as [|[m v] vs]; cbn [b_verdict h_batch]; [|unfold h_verdict, admits; rewrite ND; cbn [andb]]; rewrite device_get, ED by auto; cbn [negb andb].
      * rewrite zlen_nil, h_count_0. exists []. rewrite app_nil_r. apply (stays s its w' h w'); auto.
      * exists []. rewrite app_nil_r. apply (stays s its w' h w'); auto.
Qed.
Lemma session_hist_len : forall s o, zlen (h_all (ss_hist (session_call snap sc s o))) <= zlen (h_all (ss_hist s)) + op_points o.
Proof.
  intros s o. unfold session_call. cbv zeta. pose proof (h_call_len sc o (ss_hist s)) as L.
  repeat match goal with |- context [if ?b then _ else _] => destruct b end; cbn [ss_hist]; auto. unfold h_all, h_flush in *. cbn [h_flushed h_recent]. rewrite app_nil_r. exact L.
Qed.
End Session.

(** ** Whole sessions *)
Section Whole.
Variable p : profile.
Variable snap decomp : list Z -> option (list Z).
Hypothesis HG : good_snap snap decomp.
Variable sc : schema.
Hypothesis Hsc : schema_ok sc.
Lemma session_snoc : forall ops o, session_of snap sc (ops ++ [o]) = session_call snap sc (session_of snap sc ops) o.
Proof. intros. unfold session_of. rewrite fold_left_app. reflexivity. Qed.
Lemma session_step_hist : forall s o, ss_hist (session_call snap sc s o) = h_call sc o (ss_hist s) \/
  0 < h_counted (h_call sc o (ss_hist s)) /\ ss_hist (session_call snap sc s o) = h_flush (h_call sc o (ss_hist s)).
Proof.
  intros s o. unfold session_call. cbv zeta. destruct (call_ok sc o (ss_hist s) && _); [|left; reflexivity].
  destruct (Z.ltb_spec 0 (h_counted (h_call sc o (ss_hist s)))) as [L|L]; [|rewrite andb_false_r; left; reflexivity]. rewrite andb_true_r. destruct (_ <? _); [right; auto|left; reflexivity].
Qed.
Lemma session_recent : forall ops, zlen (h_recent (ss_hist (session_of snap sc ops))) <= zsum (map op_points ops).
Proof.
  intros ops. assert (X : zlen (h_all (ss_hist (session_of snap sc ops))) <= zsum (map op_points ops)).
  { induction ops as [|o ops IH] using rev_ind; [apply Z.le_refl|]. rewrite session_snoc, map_app, zsum_app. pose proof (session_hist_len snap sc (session_of snap sc ops) o). cbn [map zsum fold_right]. lia. }
  unfold h_all in X. rewrite zlen_app in X. pose proof (zlen_nonneg _ (h_flushed (ss_hist (session_of snap sc ops)))). lia.
Qed.
Lemma points_nonneg : forall ops, 0 <= zsum (map op_points ops).
Proof. induction ops as [|o ops IH]; [apply Z.le_refl|]. cbn [map zsum fold_right]. fold (zsum (map op_points ops)). pose proof (op_points_nonneg o). lia. Qed.
Lemma roomy_of : forall ops, 24 * zsum (map op_points ops) + 150 * series_count sc < 2 ^ 32 -> roomy snap sc ops.
Proof.
  intros ops B. split; [pose proof (points_nonneg ops); lia|]. intros a o b ->. rewrite map_app, zsum_app in B. cbn [map zsum fold_right] in B. fold (zsum (map op_points b)) in B. pose proof (session_recent a). pose proof (points_nonneg b). lia.
Qed.
Lemma roomy_app : forall a b, roomy snap sc (a ++ b) -> roomy snap sc a.
Proof. intros a b [H0 H]. split; [exact H0|]. intros x o y ->. apply (H x o (y ++ b)). rewrite <- app_assoc. reflexivity. Qed.
Lemma trace_roomy : forall w h ops l, trace p snap sc w h ops l -> ops_ok ops -> no_close ops = true -> roomy snap sc ops ->
  h = ss_hist (session_of snap sc ops) /\ exists its, runs p snap sc [] (session_of snap sc ops) its w /\ (modest p snap sc ops -> Forall light its).
Proof.
  intros w h ops l T. induction T as [out w N|w h ops l o w' a T IH H]; intros [O1 O2] NC B.
  - split; [reflexivity|]. exists []. split; [|constructor]. split; [eapply winv_new; eauto|]. split; [constructor|]. split; [apply flushed_nil|].
    unfold writer_new, io_new in N. destruct (wexec _ _) as [s [|]]; inversion N; subst; reflexivity.
  - rewrite map_app, zsum_app in *. cbn [map zsum fold_right] in *. apply Forall_app in O1. destruct O1 as [O1 O3]. apply Forall_inv in O3.
    unfold no_close in *. rewrite forallb_app in NC. apply andb_prop in NC. destruct NC as [NC1 NC2]. cbn [forallb] in NC2. rewrite andb_true_r in NC2.
    pose proof (op_points_nonneg o). assert (O : ops_ok ops) by (split; auto; lia). destruct IH as (E & its & R & LI); [auto|auto|eapply roomy_app; eauto|]. destruct B as [_ B]. specialize (B ops o [] eq_refl).
    rewrite session_snoc. set (s := session_of snap sc ops) in *.
    destruct (trace_ok p snap decomp HG sc Hsc _ _ _ _ T O) as (L & _).
    assert (LR : zlen (h_recent h) <= zlen (h_all h)). { unfold h_all. rewrite zlen_app. pose proof (zlen_nonneg _ (h_flushed h)). lia. }
    assert (CL : is_close o = false) by (destruct (is_close o); auto; discriminate).
    destruct (step_session p snap decomp HG sc Hsc [] s its w o w' a R O3) as (more & R'); auto; try (rewrite <- E; lia).
    pose proof R as (I & _). rewrite <- E in I. destruct (step_ok p snap decomp HG sc Hsc h its w o w' a I O3 ltac:(lia) H) as (_ & new & I2 & _).
    split; [|exists (its ++ more); split; [exact R'|]].
    2: { intros M. pose proof (trace_modest _ _ _ _ _ _ _ _ _ _ T H M) as [M1 _]. apply Forall_app. split; [apply LI; eapply modest_app; eauto|]. apply light_of.
      rewrite (wi_data _ _ _ _ _ _ (proj1 R)), (wi_data _ _ _ _ _ _ (proj1 R')) in M1. rewrite !app_nil_l in M1. rewrite file_of_app, !zlen_app in M1. lia. }
    pose proof (wi_records _ _ _ _ _ _ (proj1 R')) as W1. pose proof (wi_records _ _ _ _ _ _ I2) as W2. rewrite W1 in W2.
    unfold h_step in *. cbv zeta in *. destruct (session_step_hist s o) as [X|[P X]]; rewrite X in *; rewrite <- E in *.
    + destruct (Z.ltb_spec 0 (h_counted (h_call sc o h))) as [Q|Q]; [|rewrite andb_false_r; reflexivity]. rewrite andb_true_r in *. destruct (grew w w'); [|reflexivity]. cbn [h_flush h_counted] in W2. lia.
    + replace (0 <? h_counted (h_call sc o h)) with true in * by (symmetry; apply Z.ltb_lt; auto). rewrite andb_true_r in *. destruct (grew w w'); [reflexivity|]. cbn [h_flush h_counted] in W2. lia.
Qed.
Lemma trace_session : forall w h ops l, trace p snap sc w h ops l -> ops_ok ops -> no_close ops = true -> 24 * zsum (map op_points ops) + 150 * series_count sc < 2 ^ 32 ->
  h = ss_hist (session_of snap sc ops) /\ exists its, runs p snap sc [] (session_of snap sc ops) its w.
Proof. intros w h ops l T O NC B. destruct (trace_roomy _ _ _ _ T O NC (roomy_of _ B)) as (E & its & R & _). eauto. Qed.
Lemma runs_open : forall s its w, runs p snap sc [] s its w -> Forall light its -> file_bytes w = open_file snap sc (ss_flushes s).
Proof.
  intros s its w (I & G & F & _) L. cbn [app] in I. rewrite (wi_data _ _ _ _ _ _ I) in *. unfold open_file. rewrite <- (flushed_pieces p snap sc Hsc _ _ F). erewrite its_image; eauto. apply I.
Qed.
Lemma open_bytes_large : forall w h ops l, trace p snap sc w h ops l -> ops_ok ops -> no_close ops = true -> roomy snap sc ops -> modest p snap sc ops ->
  file_bytes w = open_file snap sc (ss_flushes (session_of snap sc ops)).
Proof. intros w h ops l T O NC B M. destruct (trace_roomy _ _ _ _ T O NC B) as (_ & its & R & LI). eapply runs_open; eauto. Qed.
Lemma open_bytes : forall w h ops l, trace p snap sc w h ops l -> ops_ok ops -> no_close ops = true -> 24 * zsum (map op_points ops) + 150 * series_count sc < 2 ^ 32 ->
  zlen (file_bytes w) < 2 ^ 32 -> file_bytes w = open_file snap sc (ss_flushes (session_of snap sc ops)).
Proof. intros w h ops l T O NC B L. eapply open_bytes_large; eauto using roomy_of, small_modest. Qed.
Lemma closed_bytes_large : forall w h ops l ord w' a, trace p snap sc w h ops l -> ops_ok ops -> no_close ops = true -> roomy snap sc ops ->
  step p snap w (OpClose ord) = Ret (w', a) -> modest p snap sc (ops ++ [OpClose ord]) -> good_order ord -> no_dots sc -> small_devices sc -> byte_names sc -> short_paths sc ->
  exists nodes, Permutation nodes (file_nodes snap sc (final_flushes (session_of snap sc ops))) /\
    file_bytes w' = closed_file snap sc (final_flushes (session_of snap sc ops)) nodes.
Proof.
  intros w h ops l ord w' a T O NC B H M GO ND SD BN SP. pose proof (trace_modest _ _ _ _ _ _ _ _ _ _ T H M) as [M1 M2].
  destruct (trace_roomy _ _ _ _ T O NC B) as (E & its & (I & G & F & _) & LI). cbn [app] in I. specialize (LI (modest_app _ _ _ _ _ M)). set (s := session_of snap sc ops) in *. rewrite <- E in I.
  destruct (trace_ok p snap decomp HG sc Hsc _ _ _ _ T O) as (LA & _). destruct O as [_ O].
  cbn [step] in H. unfold writer_close in H. apply bind_ret in H. destruct H as ([w1 e] & FL & H). cbn [fst] in H. apply bind_ret in H. destruct H as (io & EF & H). assert (W' : w' = mkW io (w_groups w1) (w_records w1) (w_next_check w1) (w_schema w1)) by congruence. rewrite W' in *. clear H W' w'.
  destruct (flush_all_ok p snap decomp HG sc Hsc h its w w1 e I FL) as [_ K]. unfold final_flushes. rewrite <- E. destruct (0 <? h_counted h).
  - destruct K as (new & K1 & K2 & K3 & K4 & K5 & K6).
    destruct (end_file_ok p _ _ _ (wi_healthy _ _ _ _ _ _ K1) EF) as (r & X & _). pose proof (se_data _ _ _ X) as FB.
    pose proof (wi_data _ _ _ _ _ _ I) as D0. pose proof (wi_data _ _ _ _ _ _ K1) as D1. unfold file_bytes in D0, D1, M1, M2. cbn [w_io] in M1, M2.
    pose proof M1 as M3. rewrite FB, D0, D1, file_of_app, !zlen_app in M3. pose proof (zlen_nonneg _ (file_of new)). pose proof (zlen_nonneg _ (2 :: r)).
    eapply (close_exact p snap decomp HG sc Hsc (h_flush h) (its ++ new) w1); eauto; [apply Forall_app; auto|apply flushed_snoc; auto| | |].
    + unfold h_all, h_flush in *. cbn [h_flushed h_recent]. rewrite app_nil_r. lia.
    + apply Forall_app. split; [exact LI|apply light_of; lia].
    + split; [|exact M2]. rewrite D0, !zlen_app in M1. cbn [w_io]. rewrite D1, file_of_app, !zlen_app. lia.
  - subst w1. rewrite app_nil_r. eapply (close_exact p snap decomp HG sc Hsc h its w); eauto; [lia|split; auto].
Qed.
Lemma closed_bytes : forall w h ops l ord w' a, trace p snap sc w h ops l -> ops_ok ops -> no_close ops = true -> 24 * zsum (map op_points ops) + 150 * series_count sc < 2 ^ 32 ->
  step p snap w (OpClose ord) = Ret (w', a) -> zlen (file_bytes w') < 2 ^ 32 -> good_order ord -> no_dots sc -> small_devices sc -> byte_names sc -> short_paths sc ->
  exists nodes, Permutation nodes (file_nodes snap sc (final_flushes (session_of snap sc ops))) /\
    file_bytes w' = closed_file snap sc (final_flushes (session_of snap sc ops)) nodes.
Proof. intros w h ops l ord w' a T O NC B H L GO ND SD BN SP. eapply closed_bytes_large; eauto using roomy_of, small_step. Qed.
End Whole.
