(** When closing panics (C23), and the order of devices in the root node (C20). *)
From Verif Require Export PDeep PStored.
Ltac Zify.zify_post_hook ::= idtac.

(** ** Flushing does not panic *)
Section Total.
Variable snap decomp : list Z -> option (list Z).
Hypothesis HG : good_snap snap decomp.

Lemma seal_total : forall m ms pts c, pts_ok ms pts -> open_chunk Release snap m ms pts c -> exists c', seal_current_page Release snap c = Ret c'.
Proof.
  intros m ms pts c [P1 P2] O. destruct (cw_run_ok Release snap decomp HG m (ms_type ms) (ms_comp ms) (ms_enc ms) pts (new_chunk m ms) [] [] [] c) as (pages & ims & cur & I & _); auto.
  - apply chunk_inv_new.
  - rewrite zlen_nil. lia.
  - eapply seal_rel; eauto.
Qed.
Lemma seal_all_total : forall f g0 cs, same_keys (fun m ms c => pts_ok ms (f m) /\ open_chunk Release snap m ms (f m) c) g0 cs ->
  exists cs', seal_all_chunks Release snap cs = Ret cs'.
Proof.
  intros f g0 cs H. unfold seal_all_chunks. induction H as [|[m ms] [k c] g0 cs [E [Hok S]] H [cs' IH]]; cbn [sm_mapM]; [eauto|].
  cbn [fst snd] in *. destruct (seal_total _ _ _ _ Hok S) as [c' ->]. cbn [bind]. rewrite IH. cbn [bind]. eauto.
Qed.
Lemma flush_chunks_total : forall f g0 cs, chunks_sealed Release snap f g0 cs -> forall io, exists r, flush_chunks Release snap cs io = Ret r.
Proof.
  intros f g0 cs H. induction H as [|[m ms] [k c] g0 cs [E [Hok S]] H IH]; intros io; cbn [flush_chunks]; [eauto|].
  cbn [fst snd] in *. unfold write_to_file_writer. rewrite (seal_again Release snap decomp HG _ _ _ _ Hok S). cbn [bind].
  assert (W : exists io1, write_all_pages c io = Ret io1).
  { unfold write_all_pages. destruct (_ =? _); [eauto|]. unfold end_current_chunk, io_with_out, start_flush_chunk. cbn [io_current]. eauto. }
  destruct W as [io1 ->]. cbn [bind]. destruct (IH io1) as [r ->]. cbn [bind]. eauto.
Qed.
Lemma flush_groups_total : forall F (G0 : smap (smap mschema)) gs, same_keys (fun d g0 g => ginv Release snap (F d) g0 g) G0 gs -> forall io, exists r, flush_groups Release snap gs io = Ret r.
Proof.
  intros F G0 gs H. induction H as [|[d g0] [k g] G0 gs [E I] H IH]; intros io; cbn [flush_groups]; [eauto|].
  cbn [fst snd] in *. destruct (start_chunk_group k io) as [io1 [|]]; [|eauto]. unfold flush_to_filewriter.
  destruct I as [I1 I2]. destruct (seal_all_total _ _ _ I1) as [cs S]. rewrite S. cbn [bind]. pose proof (seal_all_ok _ _ _ _ _ I1 _ S) as S'.
  destruct (flush_chunks_total _ _ _ S' io1) as [r ->]. cbn [bind]. destruct (negb _); [eauto|]. destruct (IH (end_chunk_group (snd r))) as [[[gs' io2] e] ->]. cbn [bind]. eauto.
Qed.
Lemma flush_all_total : forall sc h its w, winv Release snap sc h its w -> exists r, flush_all Release snap w = Ret r.
Proof.
  intros sc h its w I. unfold flush_all. destruct (_ >? _); [|eauto].
  destruct (flush_groups_total _ _ _ (wi_groups _ _ _ _ _ _ I) (w_io w)) as [[[gs io] e] ->]. cbn [bind]. destruct e; eauto.
Qed.
End Total.

(** ** Time series metadata *)
Lemma ts_total : forall p dt cms chunks, cms <> [] -> Forall (fun cm => cm_type cm = dt) cms ->
  Forall2 (fun cm pages => tree_stats p dt (chunk_tree pages) = Ret (cm_stats cm) /\ points_ok dt (concat pages)) cms chunks ->
  zlen (concat (map (@concat _) chunks)) < 2 ^ 32 -> exists tm, ts_meta_of p cms = Ret tm.
Proof.
  intros p dt cms chunks NE FT F L. destruct cms as [|m0 cms]; [congruence|]. unfold ts_meta_of.
  assert (E0 : cm_type m0 = dt) by (inversion FT; auto). rewrite E0. set (several0 := (1 <? length (m0 :: cms))%nat).
  assert (X : forall ms chunks, Forall (fun cm => cm_type cm = dt) ms ->
    Forall2 (fun cm pages => tree_stats p dt (chunk_tree pages) = Ret (cm_stats cm) /\ points_ok dt (concat pages)) ms chunks ->
    forall t st buf, tree_stats p dt t = Ret st -> points_ok dt (tree_points t) -> zlen (tree_points t) + zlen (concat (map (@concat _) chunks)) < 2 ^ 32 ->
    exists r, foldM (fun acc m => let '(buffer, st) := acc in if dtype_eqb (cm_type m) dt then
                    let* st' := stats_merge p st (cm_stats m) in Ret (buffer ++ wbytes (chunk_meta_serialize several0 m), st') else Ret acc) ms (buf, st) = Ret r).
  { clear. intros ms chunks FT F. induction F as [|cm pages ms chunks [A B] F IH]; intros t st buf T P L; cbn [foldM]; [eauto|].
    inversion FT as [|? ? FT1 FT2]; subst. replace (dtype_eqb (cm_type cm) (cm_type cm)) with true by (destruct (cm_type cm); reflexivity).
    cbn [map concat] in L. rewrite zlen_app in L. pose proof (zlen_nonneg _ (concat (map (@concat (Z * value)) chunks))). pose proof (zlen_nonneg _ (tree_points t)).
    assert (P' : points_ok (cm_type cm) (tree_points (Merge t (chunk_tree pages)))) by (cbn [tree_points]; rewrite chunk_tree_points; apply Forall_app; auto).
    destruct (tree_total p (cm_type cm) (Merge t (chunk_tree pages)) P') as [s Es]; [cbn [tree_points]; rewrite chunk_tree_points, zlen_app; lia|].
    pose proof Es as Es'. cbn [tree_stats] in Es. rewrite T, A in Es. cbn [bind] in Es. rewrite Es. cbn [bind]. apply (IH FT2 (Merge t (chunk_tree pages)) s _ Es' P').
    cbn [tree_points]. rewrite chunk_tree_points, zlen_app. lia. }
  destruct (X (m0 :: cms) chunks FT F Empty (stats_new dt) [] eq_refl (Forall_nil _)) as [[b s] ->]; [cbn [tree_points]; rewrite zlen_nil; lia|]. cbn [bind]. eauto.
Qed.
Lemma metadata_loop_total : forall p l last acc, sorted l -> (forall q, last = Some q -> Forall (fun e => str_lt q (fst e)) l) ->
  Forall (fun e => exists tm, ts_meta_of p (snd e) = Ret tm) l -> exists tsm, metadata_loop p last l acc = Ret tsm.
Proof.
  intros p l. induction l as [|[q cms] l IH]; intros last acc S HL F; cbn [metadata_loop]; [eauto|]. inversion F as [|? ? [tm T] F']; subst. cbn [snd] in T.
  pose proof (sorted_cons _ _ _ _ S) as [S' L]. assert (L' : Forall (fun e : str * list chunk_meta => str_lt q (fst e)) l) by (apply Forall_map; exact L).
  destruct last as [q0|].
  - specialize (HL q0 eq_refl). inversion HL as [|? ? HL1 HL2]; subst. cbn [fst] in HL1. unfold str_ltb. unfold str_lt in HL1. rewrite HL1. cbn [bind]. rewrite T. cbn [bind].
    apply IH; auto. intros q1 X. inversion X; subst. auto.
  - cbn [bind]. rewrite T. cbn [bind]. apply IH; auto. intros q1 X. inversion X; subst. auto.
Qed.

(** ** Paths and devices of a closed file *)
Section Paths.
Variable p : profile.
Variable snap decomp : list Z -> option (list Z).
Hypothesis HG : good_snap snap decomp.
Variable sc : schema.
Hypothesis Hsc : schema_ok sc.
Variable its : list item.
Variable off : Z.
Hypothesis HI : Forall (item_ok p snap sc) its.
Local Notation G := (metas off its).

Definition from_chunk (cm : chunk_meta) (c : citem) : Prop := exists o, cm = cmeta o (c_cw c).
Lemma citem_id : forall c, citem_ok p snap c -> cw_id (c_cw c) = c_name c /\ cw_type (c_cw c) = ms_type (c_ms c).
Proof. intros c [A _ B]. destruct (sealed_inv p snap decomp HG _ _ _ _ A B) as (pages & ims & I & _). split; apply I. Qed.
Lemma path_chunks : no_dots sc -> forall d m, ~ In 46 m -> Forall2 from_chunk (map snd (filter (on_path (path_of d m)) (flat G))) (citems_of d m its).
Proof.
  intros NDS d m ND. pose proof (its_nodot p snap sc Hsc its NDS HI) as FD. clear NDS.
  assert (C : Forall (fun it => match it with GItem _ cs => Forall (citem_ok p snap) cs | Raw _ => True end) its).
  { eapply Forall_impl; [|exact HI]. cbn beta. intros [d' cs|]; auto. intros (g0 & _ & F). eapply Forall_impl; [|exact F]. cbn beta. tauto. }
  clear HI. revert off. induction its as [|it r IH]; intros o; [constructor|]. inversion FD as [|? ? D1 FD']; subst. inversion C as [|? ? C1 C']; subst.
  unfold citems_of in *. cbn [map concat metas]. rewrite flat_app, filter_app, map_app. apply Forall2_app; [|apply IH; auto]. clear IH.
  destruct it as [d' cs|bs]; [|constructor]. cbn [ipick nodot_item] in *.
  assert (R : flat (imetas o (GItem d' cs)) = map (pair d') (cmetas (o + zlen (ghead d')) cs)).
  { unfold flat. destruct cs; cbn [imetas map concat fst snd]; [reflexivity|]. rewrite app_nil_r. reflexivity. }
  rewrite R. clear R. generalize (o + zlen (ghead d')). intros q. clear C FD' C' FD. revert q. induction cs as [|c cs IH]; intros q; [destruct (same_name d' d); constructor|].
  inversion D1 as [|? ? X1 X2]; subst. inversion C1 as [|? ? Y1 Y2]; subst. cbn [cmetas map filter].
  assert (OP : on_path (path_of d m) (d', cmeta q (c_cw c)) = same_name d' d && same_name (c_name c) m).
  { unfold on_path. cbn [fst snd cmeta cm_id]. rewrite (proj1 (citem_id c Y1)). apply eq_true_iff_eq. rewrite andb_true_iff, str_eqb_eq, !same_name_eq.
    split; [intros X; apply path_inj in X; auto|intros [-> ->]; auto]. }
  rewrite OP. specialize (IH X2 Y2 (q + zlen (cbytes c))). destruct (same_name d' d); cbn [andb]; [|exact IH]. destruct (same_name (c_name c) m); [|exact IH].
  cbn [map snd]. constructor; [eexists; reflexivity|exact IH].
Qed.
Lemma cmap_entry : forall q cms, In (q, cms) (chunk_map G) -> exists d m ms, declares sc d m ms /\ q = path_of d m /\ cms <> [] /\ cms = map snd (filter (on_path (path_of d m)) (flat G)).
Proof.
  intros q cms I. destruct (cmap_keys p snap decomp HG sc Hsc its off q HI) as (d & m & ms & D & E); [apply in_map_iff; exists (q, cms); auto|].
  exists d, m, ms. split; auto. split; auto. destruct (chunk_map_spec G) as (S & N & K). apply (getl_in _ _ _ _ S N) in I. destruct I as [I1 I2]. split; auto.
  rewrite <- I1, K, E. reflexivity.
Qed.
Lemma entry_total : no_dots sc -> (forall d m, zlen (its_series d m its) < 2 ^ 32) -> forall q cms, In (q, cms) (chunk_map G) -> exists tm, ts_meta_of p cms = Ret tm.
Proof.
  intros NDS HB q cms I. destruct (cmap_entry q cms I) as (d & m & ms & D & _ & NE & E). pose proof (path_chunks NDS d m (NDS _ _ _ D)) as F. rewrite <- E in F. clear E I.
  specialize (HB d m). rewrite citems_series in HB.
  assert (FC : Forall (fun c => citem_ok p snap c /\ ms_type (c_ms c) = ms_type ms) (citems_of d m its)).
  { apply Forall_forall. intros c I. destruct (citems_declares p snap sc Hsc its d m c HI I) as (_ & A & B). split; auto. rewrite (declares_fun sc d m _ _ Hsc B D). auto. }
  assert (X : exists chunks, Forall (fun cm => cm_type cm = ms_type ms) cms /\ Forall2 (fun cm pages => tree_stats p (ms_type ms) (chunk_tree pages) = Ret (cm_stats cm) /\ points_ok (ms_type ms) (concat pages)) cms chunks /\
     concat (map (@concat _) chunks) = concat (map c_pts (citems_of d m its))).
  { clear NE HB. induction F as [|cm c cms cs [o ->] F IH].
    - exists []. split; [constructor|]. split; [constructor|reflexivity].
    - inversion FC as [|? ? [A B] FC']; subst. destruct (IH FC') as (chunks & X0 & X1 & X2). pose proof (proj2 (citem_id c A)) as T. destruct A as [A1 A2 A3].
      destruct (sealed_inv p snap decomp HG _ _ _ _ A1 A3) as (pages & ims & IV & EP). pose proof (ci_stats _ _ _ _ _ _ _ _ _ _ IV) as ST. rewrite B in ST.
      exists (pages :: chunks). split; [constructor; auto; cbn [cmeta cm_type]; congruence|]. split; [constructor; auto; split; [exact ST|]|cbn [map concat]; rewrite X2, EP; auto].
      rewrite EP, <- B. apply A1. }
  destruct X as (chunks & X0 & X1 & X2). eapply ts_total; eauto. rewrite X2. exact HB.
Qed.
Lemma key_series : forall q, In q (map fst (chunk_map G)) <-> exists d m, q = d ++ [46] ++ m /\ its_series d m its <> [].
Proof.
  intros q. split.
  - intros I. apply in_map_iff in I. destruct I as ([q' cms] & <- & I). destruct (cmap_entry _ _ I) as (d & m & ms & D & Q & NC & EC). cbn [fst].
    destruct cms as [|cm cms']; [congruence|]. assert (J : In cm (map snd (filter (on_path (path_of d m)) (flat G)))) by (rewrite <- EC; left; auto).
    apply in_map_iff in J. destruct J as ([d' cm'] & <- & J). apply filter_In in J. destruct J as [J1 J2]. unfold on_path in J2. cbn [fst snd] in J2. apply str_eqb_eq in J2.
    destruct (flat_in_its _ _ _ _ J1) as (x & cs & y & c & o & E0 & I0 & ->). cbn [cmeta cm_id snd] in *.
    pose proof HI as HI'. rewrite E0 in HI'. destruct (item_declares p snap sc Hsc _ _ _ _ _ HI' I0) as [C _]. rewrite (proj1 (citem_id c C)) in J2.
    exists d', (c_name c). split; [rewrite Q, <- J2; reflexivity|]. rewrite citems_series. destruct C as [_ C _]. intros Z. apply C.
    assert (IC : In c (citems_of d' (c_name c) its)).
    { unfold citems_of. apply in_concat. exists (ipick d' (c_name c) (GItem d' cs)). split; [apply in_map; rewrite E0; apply in_elt|]. cbn [ipick]. rewrite same_name_refl. apply filter_In. split; auto. apply same_name_refl. }
    apply in_split in IC. destruct IC as (a & b & EE). rewrite EE, map_app, concat_app in Z. cbn [map concat] in Z. apply app_eq_nil in Z. destruct Z as [_ Z]. apply app_eq_nil in Z. apply Z.
  - intros (d & m & -> & X). eapply cmap_keys_conv; eauto.
Qed.
Lemma series_declared : forall d m, its_series d m its <> [] -> exists ms, declares sc d m ms.
Proof.
  intros d m X. rewrite citems_series in X. destruct (citems_of d m its) as [|c r] eqn:E; [exfalso; apply X; reflexivity|].
  destruct (citems_declares p snap sc Hsc its d m c HI) as (_ & _ & D); [rewrite E; left; auto|]. eauto.
Qed.
Lemma cmap_paths : forall paths, lists_paths (fun d m => its_series d m its <> []) paths -> Permutation paths (map fst (chunk_map G)).
Proof.
  intros paths [N H]. destruct (chunk_map_spec G) as (S & _ & _). apply NoDup_Permutation; auto; [apply lt_nodup; exact S|]. intros q. rewrite H, key_series. reflexivity.
Qed.
(** What earlier closes left behind belongs to devices with data. *)
Definition within (tsm : smap (list ts_meta)) : Prop := sorted tsm /\ no_empty tsm /\ forall d, getl d tsm <> [] -> exists m, its_series d m its <> [].
Lemma within_nil : within [].
Proof. split; [apply sorted_nil|]. split; [constructor|]. intros d X. exfalso. apply X. reflexivity. Qed.
Lemma tsm_devices : forall acc tsm devs, within acc -> no_dots sc -> metadata_loop p None (chunk_map G) acc = Ret tsm -> lists_devices (fun d m => its_series d m its <> []) devs ->
  Permutation devs (map fst (nonempty tsm)).
Proof.
  intros acc tsm devs (SA & NA & WA) ND M [N H]. destruct (metadata_loop_spec _ _ _ _ _ M SA NA) as (tms & F & S & NE & K). rewrite (nonempty_id _ _ NE).
  assert (FK : forall d, Forall2 (fun pm e => fst e = fst pm /\ ts_meta_of p (snd pm) = Ret (snd e)) (filter (of_device d) (chunk_map G)) (filter (of_device d) tms)).
  { intros d. apply F2_filter; auto. intros a b [X _]. unfold of_device. rewrite X. auto. }
  - apply NoDup_Permutation; auto; [apply lt_nodup; exact S|]. intros d. rewrite H.
    assert (IN : In d (map fst tsm) <-> getl d tsm <> []).
    { split.
      - intros I. apply in_map_iff in I. destruct I as ([d' l] & <- & I). apply (getl_in _ _ _ _ S NE) in I. destruct I as [<- I]. exact I.
      - intros X. apply in_map_iff. exists (d, getl d tsm). split; auto. apply (getl_in _ _ _ _ S NE). auto. }
    rewrite IN, K. split.
    + intros (m & X). destruct (series_declared _ _ X) as (ms & D). assert (J : In (d ++ [46] ++ m) (map fst (chunk_map G))) by (apply key_series; eauto).
      apply in_map_iff in J. destruct J as ([q cms] & Q & J). cbn [fst] in Q.
      assert (OD : of_device d (q, cms) = true) by (unfold of_device; cbn [fst]; rewrite Q; change (d ++ [46] ++ m) with (path_of d m); rewrite device_of_path_of by (eapply ND; eauto); apply str_eqb_refl).
      assert (IF : In (q, cms) (filter (of_device d) (chunk_map G))) by (apply filter_In; auto).
      destruct (F2_in_l _ _ _ _ _ _ (FK d) IF) as (e & IE & _). intros Z. apply app_eq_nil in Z. destruct Z as [_ Z]. apply map_eq_nil in Z. rewrite Z in IE. destruct IE.
    + intros X. destruct (filter (of_device d) tms) as [|e r] eqn:EF; [cbn [map] in X; rewrite app_nil_r in X; exact (WA d X)|].
      destruct (F2_in_r _ _ _ _ _ e (FK d)) as ([q cms] & IA & _); [rewrite EF; left; auto|]. apply filter_In in IA. destruct IA as [I1 I2].
      destruct (proj1 (key_series q)) as (d' & m & -> & SN); [apply in_map_iff; exists (q, cms); auto|]. exists m. destruct (series_declared _ _ SN) as (ms & D).
      unfold of_device in I2. cbn [fst] in I2. change (d' ++ [46] ++ m) with (path_of d' m) in I2. rewrite device_of_path_of in I2 by (eapply ND; eauto). apply str_eqb_eq in I2. subst d'. exact SN.
Qed.
End Paths.

(** ** Closing *)
Lemma existsb_perm : forall A (f : A -> bool) a b, Permutation a b -> existsb f a = existsb f b.
Proof. intros A f a b P. induction P; cbn [existsb]; auto; [congruence|destruct (f x), (f y); auto|congruence]. Qed.
Lemma zlen_perm : forall A (a b : list A), Permutation a b -> zlen a = zlen b.
Proof. intros A a b P. unfold zlen. rewrite (Permutation_length P). auto. Qed.
Definition filter_fits (paths : list (list Z)) : Prop :=
  let cap := bloom_bits (zlen paths) in
  existsb (fun s => existsb (bad_hash cap s) hash_seeds) paths = false /\ (cap mod 8 = 0 \/ 4 <= cap mod 8).
Lemma filter_fits_perm : forall a b, Permutation a b -> filter_fits a <-> filter_fits b.
Proof. intros a b P. unfold filter_fits. rewrite (zlen_perm _ _ _ P), (existsb_perm _ _ _ _ P). tauto. Qed.

Lemma end_file_again : forall snap decomp sc h its w ord paths devs, good_snap snap decomp -> schema_ok sc -> winv Release snap sc h its w -> within its (io_tsmeta (w_io w)) ->
  zlen (h_all h) < 2 ^ 32 -> no_dots sc -> byte_names sc -> short_paths sc ->
  lists_paths (fun d m => its_series d m its <> []) paths -> lists_devices (fun d m => its_series d m its <> []) devs ->
  (exists io, end_file Release ord (w_io w) = Ret io) <-> zlen devs <= 256 /\ filter_fits paths.
Proof.
  intros snap decomp sc h its w ord paths devs HG Hs I IG HB ND BN SP LP LD. pose proof (wi_items _ _ _ _ _ _ I) as HI.
  unfold end_file. rewrite (wi_metas _ _ _ _ _ _ I). set (acc := io_tsmeta (w_io w)) in *.
  assert (SB : forall d m, zlen (its_series d m its) < 2 ^ 32).
  { intros d m. rewrite (wi_series _ _ _ _ _ _ I). pose proof (PWriter.series_len d m (h_flushed h)). unfold h_all in HB. rewrite zlen_app in HB. pose proof (zlen_nonneg _ (h_recent h)). lia. }
  destruct (chunk_map_spec (metas 7 its)) as (S & _ & _).
  destruct (metadata_loop_total Release (chunk_map (metas 7 its)) None acc S) as [tsm M]; [discriminate| |].
  { apply Forall_forall. intros [q cms] J. cbn [snd]. apply (entry_total Release snap decomp HG sc Hs its 7 HI ND SB q cms J). }
  rewrite M. cbn [bind]. pose proof (tsm_devices Release snap decomp HG sc Hs its 7 HI acc tsm devs IG ND M LD) as PD.
  set (out := fst (wexec (WAll [2]) (io_out (w_io w)))). change cfg_max_degree_of_index_node with 256%nat.
  pose proof (construct_total ord tsm out) as CT.
  assert (ZD : zlen (nonempty tsm) = zlen devs) by (rewrite (zlen_perm _ _ _ PD); unfold zlen; rewrite map_length; auto). rewrite ZD in CT.
  assert (PO : Forall path_ok (map fst (chunk_map (metas 7 its)))).
  { apply Forall_forall. intros q J. destruct (cmap_keys Release snap decomp HG sc Hs its 7 q HI J) as (d & m & ms & D & ->). split; [exact (BN d m ms D)|exact (SP d m ms D)]. }
  pose proof (filter_panics _ PO) as FP. cbv zeta in FP. rewrite (filter_fits_perm _ _ (cmap_paths Release snap decomp HG sc Hs its 7 HI paths LP)). unfold filter_fits. cbv zeta. rewrite <- FP, <- CT. clear FP CT.
  split.
  - intros [io E]. apply bind_ret in E. destruct E as ([idx o1] & C & E). split; [eauto|]. apply bind_ret in E. destruct E as (bf & B1 & E). apply bind_ret in E. destruct E as (bw & B2 & _).
    exists bw. rewrite B1. exact B2.
  - intros [[[idx o1] C] [bw B]]. rewrite C. cbn [bind]. apply bind_ret in B. destruct B as (bf & B1 & B2). rewrite B1. cbn [bind]. rewrite B2. cbn [bind]. eauto.
Qed.
Lemma end_file_total : forall snap decomp sc h its w ord paths devs, good_snap snap decomp -> schema_ok sc -> winv Release snap sc h its w -> Forall is_group its ->
  zlen (h_all h) < 2 ^ 32 -> no_dots sc -> byte_names sc -> short_paths sc ->
  lists_paths (fun d m => its_series d m its <> []) paths -> lists_devices (fun d m => its_series d m its <> []) devs ->
  (exists io, end_file Release ord (w_io w) = Ret io) <-> zlen devs <= 256 /\ filter_fits paths.
Proof.
  intros snap decomp sc h its w ord paths devs HG Hs I IG. eapply end_file_again; eauto. rewrite (wi_tsmeta _ _ _ _ _ _ I IG). apply within_nil.
Qed.
Lemma close_panics : forall snap decomp sc w h ops l ord paths devs, good_snap snap decomp -> schema_ok sc -> trace Release snap sc w h ops l -> ops_ok ops -> no_close ops = true ->
  h_recent h = [] \/ 0 < h_counted h -> no_dots sc -> byte_names sc -> short_paths sc ->
  lists_paths (fun d m => series_of d m (h_all h) <> []) paths -> lists_devices (fun d m => series_of d m (h_all h) <> []) devs ->
  (exists r, step Release snap w (OpClose ord) = Ret r) <-> zlen devs <= 256 /\ filter_fits paths.
Proof.
  intros snap decomp sc w h ops l ord paths devs HG Hs T O NC HR ND BN SP LP LD.
  destruct (trace_ok Release snap decomp HG sc Hs w h ops l T O) as (LN & its & I & G). specialize (G NC). destruct O as [_ OB].
  cbn [step]. unfold writer_close. destruct (flush_all_total snap decomp HG sc h its w I) as [[w1 e] F]. rewrite F. cbn [bind fst].
  destruct (flush_all_ok _ _ _ HG _ Hs _ _ _ _ _ I F) as [_ K].
  assert (X : exists its1, winv Release snap sc (if 0 <? h_counted h then h_flush h else h) its1 w1 /\ Forall is_group its1).
  { destruct (0 <? h_counted h); [destruct K as (new & K1 & K2 & _); exists (its ++ new); split; [exact K1|apply Forall_app; auto]|subst w1; eauto]. }
  destruct X as (its1 & I1 & G1). pose proof (kept_all h HR) as KA.
  assert (SE : forall d m, its_series d m its1 = series_of d m (h_all h)) by (intros d m; rewrite (wi_series _ _ _ _ _ _ I1), KA; auto).
  assert (HA : h_all (if 0 <? h_counted h then h_flush h else h) = h_all h).
  { destruct (0 <? h_counted h); auto. unfold h_all, h_flush. cbn [h_flushed h_recent]. apply app_nil_r. }
  rewrite <- (end_file_total snap decomp sc _ its1 w1 ord paths devs HG Hs I1 G1); auto.
  - split; [intros [r E]; apply bind_ret in E; destruct E as (io & E & _); eauto|intros [io ->]; cbn [bind]; eauto].
  - rewrite HA. lia.
  - destruct LP as [L1 L2]. split; auto. intros q. rewrite L2. split; intros (d & m & E & X); exists d, m; rewrite SE in *; auto.
  - destruct LD as [L1 L2]. split; auto. intros d. rewrite L2. split; intros (m & X); exists m; rewrite SE in *; auto.
Qed.
(** In either profile: 44 paths, no close *)
Lemma close_44 : forall p snap decomp sc w h ops l ord paths, good_snap snap decomp -> schema_ok sc -> trace p snap sc w h ops l -> ops_ok ops -> no_close ops = true ->
  h_recent h = [] \/ 0 < h_counted h -> byte_names sc -> short_paths sc ->
  lists_paths (fun d m => series_of d m (h_all h) <> []) paths -> zlen paths = 44 -> forall r, step p snap w (OpClose ord) <> Ret r.
Proof.
  intros p snap decomp sc w h ops l ord paths HG Hs T O NC HR BN SP LP L44 [w' a] H.
  destruct (close_parts p snap decomp HG sc Hs _ _ _ _ _ _ _ T O NC H) as (w1 & its & I & G & E). pose proof (kept_all h HR) as KA.
  assert (SE : forall d m, its_series d m its = series_of d m (h_all h)) by (intros d m; rewrite (wi_series _ _ _ _ _ _ I), KA; auto).
  pose proof (wi_items _ _ _ _ _ _ I) as HI. unfold end_file in E. rewrite (wi_metas _ _ _ _ _ _ I) in E.
  assert (PO : Forall path_ok (map fst (chunk_map (metas 7 its)))).
  { apply Forall_forall. intros q J. destruct (cmap_keys p snap decomp HG sc Hs its 7 q HI J) as (d & m & ms & D & ->). split; [exact (BN d m ms D)|exact (SP d m ms D)]. }
  assert (PP : Permutation paths (map fst (chunk_map (metas 7 its)))).
  { apply (cmap_paths p snap decomp HG sc Hs its 7 HI). destruct LP as [L1 L2]. split; auto. intros q. rewrite L2. split; intros (d & m & X & Y); exists d, m; rewrite SE in *; auto. }
  apply bind_ret in E. destruct E as (tsm & _ & E). apply bind_ret in E. destruct E as ([idx o1] & _ & E). apply bind_ret in E. destruct E as (bf & B1 & E). apply bind_ret in E. destruct E as (bw & B2 & _).
  apply build_rel in B1. pose proof (filter_44 _ PO) as F. rewrite B1 in F. cbn [bind] in F. rewrite <- (zlen_perm _ _ _ PP) in F. rewrite (F L44) in B2. discriminate.
Qed.

(** ** The iteration order changes neither the success of a close nor the length of the file *)
Definition nlen (n : index_node) : Z := zlen (nbytes n).
Definition elen (s : str) : Z := zlen (wbytes (write_str s)) + 8.
Lemma zsum_perm : forall a b, Permutation a b -> zsum a = zsum b.
Proof. intros a b P. unfold zsum. induction P; cbn [fold_right]; lia. Qed.
Lemma node_len : forall n, nlen n = zlen (wbytes (write_var_u32 (wrapU 32 (zlen (in_children n))))) + zsum (map elen (map ie_name (in_children n))) + 9.
Proof.
  intros n. unfold nlen, nbytes. rewrite node_bytes, !zlen_app, be_bytes_zlen. change (zlen [node_type_code (in_type n)]) with 1.
  assert (E : forall es, zlen (entries_bytes es) = zsum (map elen (map ie_name es))).
  { induction es as [|e es IH]; [reflexivity|]. unfold entries_bytes in *. cbn [map concat zsum fold_right]. rewrite zlen_app, IH. unfold index_entry_serialize, elen. cbn [wbytes]. rewrite !zlen_app, be_bytes_zlen, zlen_nil.
    unfold zsum. lia. }
  rewrite E. lia.
Qed.
Lemma entries_len : forall l node out node' out', is_healthy out -> device_entries l node out = (node', out') ->
  map ie_name (in_children node') = map ie_name (in_children node) ++ map fst l /\ is_healthy out' /\
  zlen (sk_data out') = zlen (sk_data out) + zsum (map nlen (map snd l)) /\ sk_pos out' = sk_pos out + zsum (map nlen (map snd l)).
Proof.
  induction l as [|[d n] l IH]; intros node out node' out' Hh H; cbn [device_entries] in H.
  - injection H as <- <-. cbn [map zsum fold_right]. rewrite app_nil_r. repeat split; auto; lia.
  - pose proof (wexec_healthy_fst (index_node_serialize n) out Hh) as X. apply IH in H; [|eapply sk_ext_healthy; eauto]. destruct H as (A & B & C & D).
    cbn [push_child in_children] in A. rewrite map_app, <- app_assoc in A. split; [exact A|]. split; auto. cbn [map snd zsum fold_right]. rewrite (se_data _ _ _ X), zlen_app in C. rewrite (se_pos _ _ _ X) in D.
    unfold zsum in *. unfold nlen at 1 3. unfold nbytes. lia.
Qed.
Lemma end_file_perm : forall p o1 o2 io io1, good_order o1 -> good_order o2 -> is_healthy (io_out io) -> end_file p o1 io = Ret io1 ->
  exists io2, end_file p o2 io = Ret io2 /\ zlen (sk_data (io_out io2)) = zlen (sk_data (io_out io1)).
Proof.
  intros p o1 o2 io io1 G1 G2 Hh H. unfold end_file in *. apply bind_ret in H. destruct H as (tsm & M & H). rewrite M. cbn [bind].
  set (out := fst (wexec (WAll [2]) (io_out io))) in *. assert (HO : is_healthy out) by (eapply sk_ext_healthy; [apply (wexec_healthy_fst (WAll [2])); auto|auto]).
  apply bind_ret in H. destruct H as ([r1 s1] & C & H). unfold construct_metadata_index in *. apply bind_ret in C. destruct C as ([imap s0] & D & C). rewrite D. cbn [bind].
  destruct (device_loop_ext _ _ _ _ _ HO D) as [_ X0]. pose proof (sk_ext_healthy _ _ _ X0 HO) as H0. clear D M.
  destruct (_ <=? _)%nat; [|discriminate].
  destruct (device_entries (o1 imap) (index_node_new LeafDevice) s0) as [n1 t1] eqn:E1. rinj C.
  destruct (device_entries (o2 imap) (index_node_new LeafDevice) s0) as [n2 t2] eqn:E2. cbn [bind].
  destruct (entries_len _ _ _ _ _ H0 E1) as (A1 & B1 & C1 & D1). destruct (entries_len _ _ _ _ _ H0 E2) as (A2 & B2 & C2 & D2). cbn [index_node_new in_children map app] in A1, A2.
  assert (P : Permutation (o1 imap) (o2 imap)) by (eapply perm_trans; [apply G1|apply Permutation_sym, G2]).
  assert (LD : zlen (sk_data s1) = zlen (sk_data t2)) by (rewrite C1, C2, (zsum_perm _ _ (Permutation_map nlen (Permutation_map snd P))); auto).
  apply bind_ret in H. destruct H as (bf & BB & H). rewrite BB. cbn [bind]. apply bind_ret in H. destruct H as (bw & BS & H). rewrite BS. cbn [bind]. rinj H.
  eexists. split; [reflexivity|]. cbn [io_out io_with_out].
  assert (W : forall s r e, is_healthy s -> in_children r = in_children (with_end 0 r) -> zlen (sk_data (fst (wexec (WAll MAGIC) (fst (wexec (WAll (be_bytes 4 e)) (fst (wexec bw (fst (wexec (ts_file_metadata_serialize r (sk_pos (io_out io))) s)))))))))
    = zlen (sk_data s) + nlen r + 8 + zlen (wbytes bw) + 4 + 6).
  { intros s r e Hs _. pose proof (wexec_healthy_fst (ts_file_metadata_serialize r (sk_pos (io_out io))) s Hs) as X1. pose proof (sk_ext_healthy _ _ _ X1 Hs) as Y1.
    pose proof (wexec_healthy_fst bw _ Y1) as X2. pose proof (sk_ext_healthy _ _ _ X2 Y1) as Y2.
    pose proof (wexec_healthy_fst (WAll (be_bytes 4 e)) _ Y2) as X3. pose proof (sk_ext_healthy _ _ _ X3 Y2) as Y3.
    pose proof (wexec_healthy_fst (WAll MAGIC) _ Y3) as X4.
    rewrite (se_data _ _ _ X4), zlen_app, (se_data _ _ _ X3), zlen_app, (se_data _ _ _ X2), zlen_app, (se_data _ _ _ X1), zlen_app. cbn [wbytes ts_file_metadata_serialize]. rewrite !zlen_app, !be_bytes_zlen, zlen_nil.
    change (zlen MAGIC) with 6. unfold nlen, nbytes. lia. }
  rewrite !W by auto. rewrite LD, !node_len. cbn [with_end in_children].
  assert (PN : Permutation (map ie_name (in_children n1)) (map ie_name (in_children n2))) by (rewrite A1, A2; apply Permutation_map; exact P).
  assert (ZC : zlen (in_children n1) = zlen (in_children n2)) by (pose proof (Permutation_length PN) as X; rewrite !map_length in X; unfold zlen; lia).
  rewrite ZC, (zsum_perm _ _ (Permutation_map elen PN)). lia.
Qed.
Lemma close_any_order : forall p snap decomp sc w h ops l o1 o2 w' a, good_snap snap decomp -> schema_ok sc -> trace p snap sc w h ops l -> ops_ok ops -> no_close ops = true ->
  good_order o1 -> good_order o2 -> step p snap w (OpClose o1) = Ret (w', a) ->
  exists w2 a2, step p snap w (OpClose o2) = Ret (w2, a2) /\ zlen (file_bytes w2) = zlen (file_bytes w').
Proof.
  intros p snap decomp sc w h ops l o1 o2 w' a HG Hs T O NC G1 G2 H. destruct (trace_ok p snap decomp HG sc Hs w h ops l T O) as (_ & its & I & _).
  cbn [step] in *. unfold writer_close in *. apply bind_ret in H. destruct H as ([w1 e] & F & H). rewrite F. cbn [bind fst] in *. apply bind_ret in H. destruct H as (io & E & H). rinj H.
  destruct (flush_all_ok _ _ _ HG _ Hs _ _ _ _ _ I F) as [_ K].
  assert (Hh : is_healthy (io_out (w_io w1))).
  { destruct (0 <? h_counted h); [destruct K as (new & K1 & _); apply K1|subst w1; apply I]. }
  destruct (end_file_perm p o1 o2 _ _ G1 G2 Hh E) as (io2 & E2 & L). rewrite E2. cbn [bind]. eexists. eexists. split; [reflexivity|]. unfold file_bytes. cbn [w_io]. exact L.
Qed.
Lemma bytes_lt_asym : forall a b, bytes_lt a b -> bytes_lt b a -> False.
Proof. intros a b H1 H2. eapply bytes_lt_irrefl. eapply bytes_lt_trans; eauto. Qed.
Lemma rev_unsorted : forall l, StronglySorted bytes_lt l -> (2 <= length l)%nat -> ~ StronglySorted bytes_lt (rev l).
Proof.
  intros l S L R. destruct l as [|a [|b l]]; cbn in L; try lia. cbn [rev] in R. rewrite <- app_assoc in R. cbn [app] in R.
  destruct (sorted_split _ _ R) as (_ & R2 & _). inversion S as [|? ? _ F]; subst. inversion F as [|? ? AB _]; subst.
  inversion R2 as [|? ? _ F2]; subst. inversion F2; subst. eapply bytes_lt_asym; eauto.
Qed.
Lemma unsorted_root : forall p snap decomp sc w h ops l ord w' a d1 m1 d2 m2, good_snap snap decomp -> schema_ok sc ->
  trace p snap sc w h ops l -> ops_ok ops -> no_close ops = true -> h_recent h = [] \/ 0 < h_counted h ->
  step p snap w (OpClose ord) = Ret (w', a) -> zlen (file_bytes w') < 2 ^ 32 -> good_order ord -> no_dots sc -> small_devices sc ->
  series_of d1 m1 (h_all h) <> [] -> series_of d2 m2 (h_all h) <> [] -> d1 <> d2 ->
  exists ord2 w2 a2 ft, good_order ord2 /\ step p snap w (OpClose ord2) = Ret (w2, a2) /\ footer_read (file_bytes w2) = Some ft /\
    ~ StronglySorted bytes_lt (map fst (nd_entries (ft_root ft))).
Proof.
  intros p snap decomp sc w h ops l ord w' a d1 m1 d2 m2 HG Hs T O NC HR H L GO ND SD N1 N2 NE.
  assert (GR : good_order (@rev _)) by (intros x; apply Permutation_sym, Permutation_rev).
  destruct (close_any_order p snap decomp sc w h ops l ord (@rev _) w' a HG Hs T O NC GO GR H) as (w2 & a2 & H2 & L2).
  destruct (index_devices p snap decomp sc w h ops l (@rev _) w2 a2 HG Hs T O NC HR H2 ltac:(lia) GR ND SD) as (ft & imap & FT & E & S & _ & D).
  exists (@rev _), w2, a2, ft. split; [exact GR|]. split; auto. split; auto. rewrite E, map_rev. apply rev_unsorted; auto.
  assert (NoDup [d1; d2]) by (repeat constructor; cbn; intuition congruence).
  assert (INC : incl [d1; d2] (map fst imap)).
  { intros x [<-|[<-|[]]]; [destruct (D d1) as [_ X]; specialize (X (ex_intro _ m1 N1))|destruct (D d2) as [_ X]; specialize (X (ex_intro _ m2 N2))]; rewrite E, map_rev, <- in_rev in X; exact X. }
  apply (NoDup_incl_length H0 INC).
Qed.
Lemma filter_fits_iff : forall paths, filter_fits paths <->
  (forall s seed, In s paths -> In seed [5; 7; 11; 19; 31] -> ~ (path_hash s seed = - 2 ^ 31 /\ 2 ^ 31 mod bloom_bits (zlen paths) <> 0)) /\
  (bloom_bits (zlen paths) mod 8 = 0 \/ 4 <= bloom_bits (zlen paths) mod 8).
Proof.
  intros paths. unfold filter_fits. cbv zeta. generalize (bloom_bits (zlen paths)). intros cap. apply and_iff_compat_r. split.
  - intros E s seed I J [A B]. rewrite <- not_true_iff_false in E. apply E. apply existsb_exists. exists s. split; auto. apply existsb_exists. exists seed. split; auto.
    unfold bad_hash. rewrite A, Z.eqb_refl. cbn [andb]. apply Z.eqb_neq in B. rewrite B. reflexivity.
  - intros H. rewrite <- not_true_iff_false. intros E. apply existsb_exists in E. destruct E as (s & I & E). apply existsb_exists in E. destruct E as (seed & J & E).
    unfold bad_hash in E. apply andb_prop in E. destruct E as [A B]. apply Z.eqb_eq in A. apply negb_true_iff, Z.eqb_neq in B. apply (H s seed I J). auto.
Qed.
Lemma close_panics_iff : forall snap decomp sc w h ops l ord paths devs, good_snap snap decomp -> schema_ok sc -> trace Release snap sc w h ops l -> ops_ok ops -> no_close ops = true ->
  h_recent h = [] \/ 0 < h_counted h -> no_dots sc -> byte_names sc -> short_paths sc ->
  lists_paths (fun d m => series_of d m (h_all h) <> []) paths -> lists_devices (fun d m => series_of d m (h_all h) <> []) devs ->
  let cap := bloom_bits (zlen paths) in
  (exists r, step Release snap w (OpClose ord) = Ret r) <-> zlen devs <= 256 /\
  (forall s seed, In s paths -> In seed [5; 7; 11; 19; 31] -> ~ (path_hash s seed = - 2 ^ 31 /\ 2 ^ 31 mod cap <> 0)) /\ (cap mod 8 = 0 \/ 4 <= cap mod 8).
Proof. intros. cbv zeta. etransitivity; [eapply close_panics; eauto|]. apply and_iff_compat_l. apply filter_fits_iff. Qed.

(** A run together with its history *)
Fixpoint h_run (p : profile) (snap : compressor) (sc : schema) (w : writer) (h : hist) (ops : list op) : outcome (writer * hist * list answer) :=
  match ops with
  | [] => Ret (w, h, [])
  | o :: ops' =>
      let* r := step p snap w o in let '(w', a) := r in
      let* r' := h_run p snap sc w' (h_step sc o (grew w w') h) ops' in let '(w2, h2, l) := r' in Ret (w2, h2, a :: l)
  end.
Lemma h_run_trace : forall p snap sc ops' w h ops l w' h' l', trace p snap sc w h ops l -> h_run p snap sc w h ops' = Ret (w', h', l') -> trace p snap sc w' h' (ops ++ ops') (l ++ l').
Proof.
  intros p snap sc ops'. induction ops' as [|o ops' IH]; intros w h ops l w' h' l' T R; cbn [h_run] in R.
  - rinj R. rewrite !app_nil_r. auto.
  - apply bind_ret in R. destruct R as ([w1 a] & S & R). apply bind_ret in R. destruct R as ([[w2 h2] l2] & R2 & R). rinj R.
    pose proof (IH _ _ _ _ _ _ _ (trace_step _ _ _ _ _ _ _ _ _ _ T S) R2) as X. rewrite <- !app_assoc in X. exact X.
Qed.
