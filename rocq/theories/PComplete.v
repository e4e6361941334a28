(** Every outcome of a session of a release build (C56). *)
From Verif Require Export PLayoutProps SComplete.
From Coq Require Import String.
Open Scope list_scope. Open Scope Z_scope.
Ltac Zify.zify_post_hook ::= idtac.
Local Notation session := SLayout.session.

(** ** Values *)
Lemma can_store_iff : forall sc d m v, can_store sc d m v = true <-> forall ms, declares sc d m ms -> storable ms v = true.
Proof.
  intros sc d m v. unfold can_store. rewrite forallb_forall. split.
  - intros H ms (g & A & B). specialize (H _ A). cbn [fst snd] in H. rewrite PWriter.same_name_refl in H. cbn [negb orb] in H. rewrite forallb_forall in H. specialize (H _ B). cbn [fst snd] in H. rewrite PWriter.same_name_refl in H. exact H.
  - intros H [d' g] A. cbn [fst snd]. destruct (same_name d' d) eqn:E; [|reflexivity]. cbn [negb orb]. apply PWriter.same_name_eq in E. subst d'. apply forallb_forall. intros [m' ms] B. cbn [fst snd].
    destruct (same_name m' m) eqn:E; [|reflexivity]. cbn [negb orb]. apply PWriter.same_name_eq in E. subst m'. apply H. exists g. auto.
Qed.
Lemma stores_iff : forall sc d t vs h, stores sc h d t vs = true <-> batch_storable sc d t vs h.
Proof.
  intros sc d t. induction vs as [|[m v] vs IH]; intros h; cbn [stores batch_storable]; [tauto|]. destruct (admits sc h d m t); cbn [negb orb]; [|tauto].
  rewrite andb_true_iff, can_store_iff, IH. tauto.
Qed.

(** ** Answers *)
Lemma gw_message : forall p snap m t v g g' s, gw_write p snap m t v g = Ret (g', Some (EIllegalState s)) -> s = Some "Unknown measurement id"%string.
Proof.
  intros p snap m t v g g' s H. unfold gw_write in H. destruct (check_is_history_data m t (gw_last g)) as [l [|]]; [|discriminate].
  destruct (sm_get m (gw_chunks g)); [|congruence]. apply bind_ret in H. destruct H as ([c'|e] & _ & H); discriminate.
Qed.
Lemma many_message : forall p snap t vs n g g' s, gw_write_many p snap t vs n g = Ret (g', inr (EIllegalState s)) -> s = Some "Unknown measurement id"%string.
Proof.
  intros p snap t. induction vs as [|[m v] vs IH]; intros n g g' s H; cbn [gw_write_many] in H; [discriminate|].
  apply bind_ret in H. destruct H as ([g1 [e|]] & W & H).
  - assert (e = EIllegalState s) by congruence. subst e. eapply gw_message; eauto.
  - apply bind_ret in H. destruct H as (k & _ & H). eauto.
Qed.
Lemma says_batch : forall sc d t, has_device sc d = true -> forall vs h a, says (b_verdict sc h d t vs) a ->
  (forall s, a = AErr (EIllegalState s) -> s = Some "Unknown measurement id"%string) -> a = batch_reply sc h d t vs.
Proof.
  intros sc d t HD. induction vs as [|[m v] vs IH]; intros h a S M; cbn [b_verdict batch_reply] in *.
  - rewrite HD in S. exact S.
  - unfold h_verdict in S. rewrite HD in S. cbn [negb] in S. destruct (t <=? last_time h d m); [exact S|]. destruct (is_declared sc d m); [apply IH; auto|].
    destruct S as [s ->]. rewrite (M s eq_refl). reflexivity.
Qed.
Section Steps.
Variable snap decomp : list Z -> option (list Z).
Hypothesis HG : good_snap snap decomp.
Variable sc : schema.
Hypothesis Hsc : schema_ok sc.

Lemma step_reply : forall p h its w o w' a, winv p snap sc h its w -> op_ok o -> zlen (h_all h) + op_points o < 2 ^ 32 ->
  step p snap w o = Ret (w', a) -> a = reply sc h o.
Proof.
  intros p h its w o w' a I HO HL H. destruct (step_ok p snap decomp HG sc Hsc h its w o w' a I HO HL H) as (A & _).
  destruct o as [d m t v|d t vs|ord]; cbn [answers step reply] in *; [| |exact A]; pose proof (winv_get p snap sc _ _ _ d I) as WG; pose proof (device_get sc Hsc d) as DG.
  - unfold writer_write in H. destruct (sm_get d (w_groups w)) as [g|]; destruct (sm_get d (decls sc)) as [g0|]; try tauto; rewrite DG.
    + apply (says_batch sc d t DG).
      * unfold b_verdict. rewrite DG. destruct (h_verdict sc h d m t); exact A.
      * intros s ->. apply bind_ret in H. destruct H as ([g' [e|]] & W & H).
        -- assert (e = EIllegalState s) by congruence. subst e. eapply gw_message; eauto.
        -- apply bind_ret in H. destruct H as (rc & _ & H). apply bind_ret in H. destruct H as (w2 & _ & H). discriminate.
    + congruence.
  - unfold writer_write_many in H. destruct (sm_get d (w_groups w)) as [g|]; destruct (sm_get d (decls sc)) as [g0|]; try tauto; rewrite DG.
    + apply (says_batch sc d t DG); [exact A|]. intros s ->. apply bind_ret in H. destruct H as ([g' [n|e]] & W & H).
      * apply bind_ret in H. destruct H as (rc & _ & H). apply bind_ret in H. destruct H as (w2 & _ & H). discriminate.
      * assert (e = EIllegalState s) by congruence. subst e. eapply many_message; eauto.
    + congruence.
Qed.
Lemma memory_nil : memory snap sc [] = 0.
Proof.
  unfold memory. change (fun dg : list Z * mgroup => zsum (map (fun ms : list Z * mschema => series_memory snap (snd ms) (series_of (fst dg) (fst ms) [])) (snd dg))) with (fun dg : list Z * mgroup => zsum (map (fun ms : list Z * mschema => 0) (snd dg))).
  assert (Z0 : forall A (l : list A), zsum (map (fun _ => 0) l) = 0) by (induction l as [|x l IH]; [reflexivity|cbn [map]; rewrite zsum_cons; lia]).
  rewrite (map_ext _ (fun _ => 0)); [apply Z0|]. intros dg. apply Z0.
Qed.
Definition panics {A} (x : outcome A) : Prop := exists e, x = Panic e.
Lemma ret_or_panic : forall A (x : outcome A), (exists r, x = Ret r) \/ panics x.
Proof. intros A [a|e]; [left|right]; eexists; reflexivity. Qed.
(** An empty batch *)
Lemma step_empty : forall base s its w d t, runs Release snap sc base s its w -> 24 * zlen (h_recent (ss_hist s)) + 150 * series_count sc < 2 ^ 32 -> zlen (h_all (ss_hist s)) < 2 ^ 32 -> 0 <= ss_next s ->
  if has_device sc d && nothing (h_recent (ss_hist s)) && (ss_next s =? 0) then panics (step Release snap w (OpWriteMany d t [])) else exists r, step Release snap w (OpWriteMany d t []) = Ret r.
Proof.
  intros base s its0 w d t (I & _ & _ & N) HB HL NXT. set (its := base ++ its0) in *. clearbody its. set (h := ss_hist s) in *. pose proof (winv_get Release snap sc _ _ _ d I) as WG. pose proof (device_get sc Hsc d) as DG. pose proof (wi_counted _ _ _ _ _ _ I) as WC.
  cbn [step]. unfold writer_write_many. destruct (sm_get d (w_groups w)) as [g|] eqn:EG; destruct (sm_get d (decls sc)) as [g0|] eqn:ED; try tauto; rewrite DG; cbn [andb]; [|eauto].
  cbn [gw_write_many bind]. fold (with_group d g w).
  assert (I1 : winv Release snap sc h its (with_group d g w)) by (eapply winv_group; eauto; [lia|apply I]).
  pose proof (h_all_split h) as HA. pose proof (zlen_nonneg _ (h_flushed h)).
  rewrite (arithU_ok Release 32) by (rewrite (wi_records _ _ _ _ _ _ I1); lia). cbn [bind].
  pose proof (winv_records _ _ _ _ _ _ 0 I1 (Z.le_refl 0) ltac:(lia)) as I2. rewrite h_count_0 in I2. fold (with_records (w_records (with_group d g w) + 0) (with_group d g w)).
  destruct (nothing (h_recent h)) eqn:NR; cbn [andb].
  - assert (E : h_recent h = []) by (destruct (h_recent h); [reflexivity|discriminate]). rewrite E, zlen_nil in *.
    destruct (mem_bound Release snap decomp HG sc Hsc h its _ I2) as (n & _ & M & _). { unfold memory_bound. rewrite E, zlen_nil. exact HB. }
    specialize (M Release). pose proof (memory_exact Release snap decomp HG sc Hsc h its _ n I2) as ME. rewrite E, memory_nil in ME. rewrite ME in M; auto.
    unfold check_memory. rewrite (wi_records _ _ _ _ _ _ I2). cbn [with_records with_group w_next_check]. rewrite N, Z.geb_leb. replace (h_counted h) with 0 by lia.
    change (w_groups (with_records (w_records (with_group d g w) + 0) (with_group d g w))) with (w_groups (with_group d g w)) in *. 
    destruct (Z.eqb_spec (ss_next s) 0) as [Z0|Z0].
    + rewrite Z0. cbn [Z.leb]. replace (0 <=? 0) with true by reflexivity. rewrite M. cbn [bind]. eexists. reflexivity.
    + replace (ss_next s <=? 0) with false by lia. cbn [bind]. eauto.
  - destruct (check_rel snap decomp HG sc Hsc h its _ I2) as [w' C]; [exact HB|destruct (h_recent h); [discriminate|discriminate]|].
    rewrite C. cbn [bind]. eauto.
Qed.
Lemma next_nonneg : forall ops, 0 <= ss_next (session_of snap sc ops).
Proof.
  induction ops as [|o ops IH] using rev_ind; [cbn; lia|]. rewrite session_snoc. unfold session_call. cbv zeta.
  repeat match goal with |- context [if ?b then _ else _] => destruct b end; cbn [ss_next]; auto; apply Z.mod_pos_bound; lia.
Qed.
Lemma bool_iff : forall b (P : Prop), (b = true <-> P) -> b = false -> ~ P.
Proof. intros [|] P H E X; [discriminate|]. apply H in X. discriminate. Qed.

Lemma call_recent : forall o h, zlen (h_recent (h_call sc o h)) <= zlen (h_recent h) + op_points o.
Proof.
  intros o h.
  assert (A : forall d t vs h, h_flushed (fst (h_batch sc d t vs h)) = h_flushed h).
  { intros d t vs. induction vs as [|[m v] vs IH]; intros h'; cbn [h_batch fst]; auto. destruct (admits sc h' d m t); cbn [fst]; auto. rewrite IH. reflexivity. }
  assert (C : h_flushed (h_call sc o h) = h_flushed h).
  { destruct o as [d m t v|d t vs|ord]; cbn [h_call]; auto.
    - destruct (admits sc h d m t); reflexivity.
    - specialize (A d t vs h). destruct (h_batch sc d t vs h) as [h' [|]]; exact A. }
  pose proof (h_call_len sc o h) as CL. rewrite !h_all_split, C in CL. lia.
Qed.
(** One call of a session *)
Lemma step_complete : forall w h ops l o, trace Release snap sc w h ops l -> ops_ok (ops ++ [o]) -> no_close (ops ++ [o]) = true ->
  roomy snap sc (ops ++ [o]) ->
  let s := session_of snap sc ops in
  if call_panics sc s o then panics (step Release snap w o) else exists w', step Release snap w o = Ret (w', reply sc (ss_hist s) o).
Proof.
  intros w h ops l o T O NC B s. pose proof (ops_ok_app _ _ O) as O1. destruct (last_ok _ _ O) as [OK OL]. pose proof (proj2 B ops o [] eq_refl) as B0.
  unfold no_close in NC. rewrite forallb_app in NC. apply andb_prop in NC. destruct NC as [NC1 NC2]. cbn [forallb] in NC2. rewrite andb_true_r in NC2.
  pose proof (op_points_nonneg o) as PN. destruct (trace_roomy Release snap decomp HG sc Hsc _ _ _ _ T O1 NC1 (roomy_app _ _ _ _ B)) as (E & its & R & _). fold s in E, R, B0. rewrite <- E in B0.
  destruct (trace_ok Release snap decomp HG sc Hsc _ _ _ _ T O1) as (TL & _).
  pose proof (h_all_split h) as HA. pose proof (zlen_nonneg _ (h_flushed h)) as NF.
  assert (HM : memory_bound sc (h_call sc o h) < 2 ^ 32).
  { unfold memory_bound. pose proof (call_recent o h). lia. }
  assert (D : if call_panics sc s o then panics (step Release snap w o) else exists r, step Release snap w o = Ret r).
  { unfold call_panics. cbv zeta. rewrite <- E. destruct o as [d m t v|d t vs|ord]; [| |discriminate].
    - pose proof (write_iff snap decomp HG sc Hsc w h ops l d m t v T O HM) as W. pose proof (stores_iff sc d t [(m, v)] h) as S. destruct (stores sc h d t [(m, v)]); cbn [negb].
      + apply W, S. reflexivity.
      + destruct (ret_or_panic _ (step Release snap w (OpWrite d m t v))) as [X|X]; [|exact X]. apply W, S in X. discriminate.
    - pose proof (stores_iff sc d t vs h) as S. destruct vs as [|x vs].
      + cbn [stores negb orb nothing andb]. rewrite E in *. apply (step_empty [] s its w d t R); try lia. apply next_nonneg.
      + pose proof (many_iff snap decomp HG sc Hsc w h ops l d t (x :: vs) T O ltac:(discriminate) HM) as W. cbn [nothing andb]. rewrite orb_false_r. destruct (stores sc h d t (x :: vs)); cbn [negb].
        * apply W, S. reflexivity.
        * destruct (ret_or_panic _ (step Release snap w (OpWriteMany d t (x :: vs)))) as [X|X]; [|exact X]. apply W, S in X. discriminate. }
  destruct (call_panics sc s o); [exact D|]. destruct D as [[w' a] D]. exists w'. rewrite D. do 2 f_equal. destruct R as (I & _). eapply step_reply; eauto. rewrite <- E. lia.
Qed.
Lemma replies_snoc : forall ops o s, replies snap sc s (ops ++ [o]) =
  match replies snap sc s ops with
  | None => None
  | Some l => let s' := fold_left (session_call snap sc) ops s in if call_panics sc s' o then None else Some (l ++ [reply sc (ss_hist s') o])
  end.
Proof.
  induction ops as [|o' ops IH]; intros o s; cbn [app replies fold_left].
  - cbv zeta. destruct (call_panics sc s o); reflexivity.
  - destruct (call_panics sc s o'); [reflexivity|]. rewrite IH. destruct (replies snap sc (session_call snap sc s o') ops); [|reflexivity]. cbn [option_map]. cbv zeta.
    destruct (call_panics _ _ o); reflexivity.
Qed.
Lemma session_complete : forall out w0 ops, writer_new sc (sink_new healthy) = (out, Some w0) -> ops_ok ops -> no_close ops = true ->
  roomy snap sc ops ->
  match replies snap sc session_new ops with Some l => exists w, run Release snap w0 ops = Ret (w, l) | None => panics (run Release snap w0 ops) end.
Proof.
  intros out w0 ops NW. induction ops as [|o ops IH] using rev_ind; intros O NC B; [cbn; eauto|].
  pose proof (ops_ok_app _ _ O) as O1. pose proof NC as NC'. unfold no_close in NC'. rewrite forallb_app in NC'. apply andb_prop in NC'. destruct NC' as [NC1 _].
  pose proof (op_points_nonneg o) as PN. specialize (IH O1 NC1). rewrite replies_snoc, run_snoc.
  specialize (IH (roomy_app _ _ _ _ B)). destruct (replies snap sc session_new ops) as [l|].
  - destruct IH as (w & R). destruct (run_trace _ _ _ _ _ _ _ _ NW R) as (h & T). pose proof (step_complete w h ops l o T O NC B) as S. cbv zeta in *. rewrite R. cbn [bind]. fold (session_of snap sc ops).
    destruct (call_panics sc (session_of snap sc ops) o).
    + destruct S as [e ->]. eexists. reflexivity.
    + destruct S as [w' ->]. exists w'. reflexivity.
  - destruct IH as (e & ->). eexists. reflexivity.
Qed.
End Steps.

(** ** The close *)
Lemma nothing_false : forall A (l : list A), negb (nothing l) = true <-> l <> [].
Proof. intros A [|x l]; cbn; split; congruence. Qed.
Lemma in_stored_names : forall d g pts m, In m (stored_names d g pts) <-> In m (map fst g) /\ series_of d m pts <> [].
Proof. intros. unfold stored_names. rewrite filter_In, nothing_false. tauto. Qed.
Section Close.
Variable sc : schema.
Hypothesis Hsc : schema_ok sc.
Variable pts : list point.
Hypothesis HP : Forall (point_ok sc) pts.
Lemma stored_declared : forall d m, series_of d m pts <> [] -> exists g, In (d, g) sc /\ In m (map fst g).
Proof.
  intros d m H. destruct (series_of d m pts) as [|tv l] eqn:E; [congruence|]. assert (I : In tv (series_of d m pts)) by (rewrite E; left; auto). apply PWriter.series_in in I.
  rewrite Forall_forall in HP. destruct (HP _ I) as (ms & (g & A & B) & _). cbn [pt_device pt_name] in *. exists g. split; auto. apply in_map_iff. exists (m, ms). auto.
Qed.
Lemma stored_paths_nodup : forall s, (forall d g m, In (d, g) s -> In m (map fst g) -> ~ In 46 m) -> NoDup (map fst s) -> Forall (fun dg => NoDup (map fst (snd dg))) s -> NoDup (stored_paths s pts).
Proof.
  clear. unfold stored_paths. induction s as [|[d g] s IH]; intros W NS FS; cbn [flat_map fst snd]; [constructor|]. inversion NS as [|? ? N1 N2]; subst. inversion FS as [|? ? F1 F2]; subst. cbn [fst snd] in *.
  apply NoDup_app_intro.
  - apply FinFun.Injective_map_NoDup; [intros a b E; apply app_inv_head in E; inversion E; auto|]. unfold stored_names. apply NoDup_filter. exact F1.
  - apply IH; auto. intros d' g' m A B. apply (W d' g'); auto. right. exact A.
  - intros x A B. apply in_map_iff in A. destruct A as (m & <- & A). apply in_flat_map in B. destruct B as ([d' g'] & B1 & B2). apply in_map_iff in B2. destruct B2 as (m' & E & B2). cbn [fst snd] in *.
    apply in_stored_names in A. apply in_stored_names in B2. destruct (path_inj d' m' d m) as [E1 _].
    + apply (W d' g'); [right; exact B1|apply B2].
    + apply (W d g); [left; reflexivity|apply A].
    + exact E.
    + subst d'. apply N1. apply in_map_iff. exists (d, g'). auto.
Qed.
Lemma stored_paths_ok : no_dots sc -> lists_paths (fun d m => series_of d m pts <> []) (stored_paths sc pts).
Proof.
  intros ND. split.
  - destruct Hsc as [N F]. apply stored_paths_nodup; auto; [|eapply Forall_impl; [|exact F]; cbn; tauto].
    intros d g m A B. apply in_map_iff in B. destruct B as ([m' ms] & <- & B). apply (ND d m' ms). exists g. auto.
  - intros q. unfold stored_paths. rewrite in_flat_map. split.
    + intros ([d g] & A & B). apply in_map_iff in B. destruct B as (m & <- & B). apply in_stored_names in B. exists d, m. cbn [fst]. tauto.
    + intros (d & m & -> & H). destruct (stored_declared d m H) as (g & A & B). exists (d, g). split; auto. apply in_map_iff. exists m. split; auto. apply in_stored_names. auto.
Qed.
Lemma stored_devices_ok : lists_devices (fun d m => series_of d m pts <> []) (stored_devices sc pts).
Proof.
  destruct Hsc as [N _]. split.
  - unfold stored_devices. clear - N. induction sc as [|[d g] s IH]; cbn [filter map]; [constructor|]. inversion N; subst. destruct (negb _); [|auto]. cbn [map fst]. constructor; auto.
    intros I. apply in_map_iff in I. destruct I as (x & E & I). apply filter_In in I. apply H1. apply in_map_iff. exists x. cbn [fst]. tauto.
  - intros d. unfold stored_devices. rewrite in_map_iff. split.
    + intros ([d' g] & E & I). apply filter_In in I. cbn [fst snd] in *. subst d'. destruct I as [_ I]. apply nothing_false in I. destruct (stored_names d g pts) as [|m l] eqn:E; [congruence|].
      exists m. assert (J : In m (stored_names d g pts)) by (rewrite E; left; auto). apply in_stored_names in J. tauto.
    + intros (m & H). destruct (stored_declared d m H) as (g & A & B). exists (d, g). split; auto. apply filter_In. split; auto. apply nothing_false. cbn [fst snd]. intros E.
      assert (J : In m (stored_names d g pts)) by (apply in_stored_names; auto). rewrite E in J. destruct J.
Qed.
Lemma stored_paths_len : zlen (stored_paths sc pts) <= series_count sc.
Proof.
  clear. unfold stored_paths, series_count. induction sc as [|[d g] s IH]; [apply Z.le_refl|]. cbn [flat_map map fst snd]. rewrite zlen_app, zsum_cons.
  enough (zlen (map (fun m => d ++ [46] ++ m) (stored_names d g pts)) <= zlen g) by (unfold zlen in *; lia). unfold zlen. rewrite map_length. unfold stored_names. apply inj_le. etransitivity; [apply filter_len|]. rewrite map_length. lia.
Qed.
End Close.

Lemma closable_fits : forall sc pts, 150 * series_count sc < 2 ^ 32 -> closable sc pts = true <-> zlen (stored_devices sc pts) <= 256 /\ filter_fits (stored_paths sc pts).
Proof.
  intros sc pts B. unfold closable. cbv zeta. pose proof (stored_paths_len sc pts) as L. pose proof (zlen_nonneg _ (stored_paths sc pts)) as N.
  rewrite filter_size_bits by lia. rewrite filter_fits_iff. set (cap := bloom_bits (zlen (stored_paths sc pts))). rewrite !andb_true_iff, orb_true_iff, Z.leb_le, Z.eqb_eq, Z.leb_le, forallb_forall.
  split.
  - intros ((A & C) & D). split; [exact A|]. split; [|exact C]. intros q seed I J [X Y]. specialize (D q I). rewrite forallb_forall in D. specialize (D seed J).
    rewrite X, Z.eqb_refl in D. cbn [negb orb] in D. apply Z.eqb_eq in D. auto.
  - intros (A & D & C). split; [auto|]. intros q I. apply forallb_forall. intros seed J. specialize (D q seed I J). destruct (Z.eqb_spec (path_hash q seed) (- 2 ^ 31)) as [X|X]; [|reflexivity]. cbn [negb orb].
    apply Z.eqb_eq. destruct (Z.eq_dec (2 ^ 31 mod cap) 0); auto. exfalso. auto.
Qed.
Section CloseStep.
Variable snap decomp : list Z -> option (list Z).
Hypothesis HG : good_snap snap decomp.
Variable sc : schema.
Hypothesis Hsc : schema_ok sc.
Lemma session_flushed : forall ops, List.concat (ss_flushes (session_of snap sc ops)) = h_flushed (ss_hist (session_of snap sc ops)).
Proof. induction ops as [|o ops IH] using rev_ind; [reflexivity|]. rewrite session_snoc. apply call_flushed. exact IH. Qed.
Lemma close_complete : forall w h ops l ord, trace Release snap sc w h ops l -> ops_ok ops -> no_close ops = true -> roomy snap sc ops ->
  no_dots sc -> byte_names sc -> short_paths sc ->
  (exists r, step Release snap w (OpClose ord) = Ret r) <-> closable sc (List.concat (final_flushes (session_of snap sc ops))) = true.
Proof.
  intros w h ops l ord T O NC B ND BN SP. destruct (trace_roomy Release snap decomp HG sc Hsc _ _ _ _ T O NC B) as (E & its & (I & G & _) & _). destruct B as [B _]. set (s := session_of snap sc ops) in *. rewrite <- E in I.
  destruct (trace_ok Release snap decomp HG sc Hsc _ _ _ _ T O) as (LA & _). assert (PN : 0 <= zsum (map op_points ops)) by (apply zsum_map_nonneg; intros; apply op_points_nonneg). destruct O as [_ O].
  cbn [step]. unfold writer_close. destruct (flush_all_total snap decomp HG sc h its w I) as [[w1 e] F]. rewrite F. cbn [bind fst].
  destruct (flush_all_ok _ _ _ HG _ Hsc _ _ _ _ _ I F) as [_ K]. set (h1 := if 0 <? h_counted h then h_flush h else h).
  assert (X : exists its1, winv Release snap sc h1 its1 w1 /\ Forall is_group its1).
  { unfold h1. destruct (0 <? h_counted h); [destruct K as (new & K1 & K2 & _); exists (its ++ new); split; [exact K1|apply Forall_app; auto]|subst w1; eauto]. }
  destruct X as (its1 & I1 & G1). pose proof (session_flushed ops) as SF. fold s in SF. rewrite <- E in SF.
  assert (FF : List.concat (final_flushes s) = h_flushed h1).
  { unfold final_flushes, h1. rewrite <- E, concat_app, SF. destruct (0 <? h_counted h); cbn [List.concat h_flush h_flushed]; rewrite ?app_nil_r; reflexivity. }
  rewrite FF. set (pts := h_flushed h1) in *.
  assert (HP : Forall (point_ok sc) pts). { pose proof (wi_points _ _ _ _ _ _ I1) as P. unfold h_all in P. apply Forall_app in P. apply P. }
  assert (SE : forall d m, its_series d m its1 = series_of d m pts) by (intros d m; rewrite (wi_series _ _ _ _ _ _ I1); auto).
  assert (HA : h_all h1 = h_all h). { unfold h1. destruct (0 <? h_counted h); auto. unfold h_all, h_flush. cbn [h_flushed h_recent]. apply app_nil_r. }
  pose proof (stored_paths_ok sc Hsc pts HP ND) as LP. pose proof (stored_devices_ok sc Hsc pts HP) as LD.
  rewrite closable_fits by lia. rewrite <- (end_file_total snap decomp sc h1 its1 w1 ord (stored_paths sc pts) (stored_devices sc pts) HG Hsc I1 G1); auto.
  - split; [intros [r R]; apply bind_ret in R; destruct R as (io & R & _); eauto|intros [io ->]; cbn [bind]; eauto].
  - rewrite HA. lia.
  - destruct LP as [L1 L2]. split; auto. intros q. rewrite L2. split; intros (d & m & Q & Y); exists d, m; rewrite SE in *; auto.
  - destruct LD as [L1 L2]. split; auto. intros d. rewrite L2. split; intros (m & Y); exists m; rewrite SE in *; auto.
Qed.
Lemma closed_session_complete : forall out w0 ops ord, writer_new sc (sink_new healthy) = (out, Some w0) -> ops_ok ops -> no_close ops = true ->
  roomy snap sc ops -> no_dots sc -> byte_names sc -> short_paths sc ->
  match replies snap sc session_new ops with
  | None => panics (run Release snap w0 (ops ++ [OpClose ord]))
  | Some l => if closable sc (List.concat (final_flushes (session_of snap sc ops))) then exists w, run Release snap w0 (ops ++ [OpClose ord]) = Ret (w, l ++ [AUnit])
              else panics (run Release snap w0 (ops ++ [OpClose ord]))
  end.
Proof.
  intros out w0 ops ord NW O NC B ND BN SP. pose proof (session_complete snap decomp HG sc Hsc out w0 ops NW O NC B) as S. rewrite run_snoc. destruct (replies snap sc session_new ops) as [l|].
  - destruct S as (w & R). rewrite R. cbn [bind]. destruct (run_trace _ _ _ _ _ _ _ _ NW R) as (h & T). pose proof (close_complete w h ops l ord T O NC B ND BN SP) as C.
    destruct (closable sc _).
    + destruct C as [_ C]. destruct (C eq_refl) as [[w' a] H]. rewrite H. cbn [bind]. exists w'. do 3 f_equal.
      cbn [step] in H. unfold writer_close in H. apply bind_ret in H. destruct H as (r & _ & H). apply bind_ret in H. destruct H as (io & _ & H). congruence.
    + destruct (ret_or_panic _ (step Release snap w (OpClose ord))) as [X|[e X]]; [apply C in X; discriminate|]. rewrite X. eexists. reflexivity.
  - destruct S as (e & ->). eexists. reflexivity.
Qed.
End CloseStep.
