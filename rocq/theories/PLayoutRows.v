(** The rows of the index (C55). *)
From Verif Require Export PLayoutIndex.
Ltac Zify.zify_post_hook ::= idtac.

Lemma F2_keys : forall A B (Q : list Z * A -> list Z * B -> Prop) l r, Forall2 (fun a b => fst b = fst a /\ Q a b) l r -> map fst l = map fst r.
Proof. intros A B Q l r F. induction F as [|a b l r [E _] F IH]; auto. cbn [map]. congruence. Qed.
Lemma sorted_same : forall V (a b : smap V), sorted a -> sorted b -> (forall x, In x a <-> In x b) -> a = b.
Proof.
  intros V a b SA SB H. apply sm_ext; auto. intros k. destruct (sm_get k a) as [v|] eqn:A.
  - symmetry. apply in_sm_get; auto. apply H. apply sm_get_in. auto.
  - destruct (sm_get k b) as [v|] eqn:B; auto. apply sm_get_in in B. apply H in B. apply in_sm_get in B; auto. congruence.
Qed.
Lemma sorted_pick : forall V W (f : list Z * V -> list (list Z * W)) l, (forall x, f x = [] \/ exists w, f x = [(fst x, w)]) -> sorted l -> sorted (concat (map f l)).
Proof.
  intros V W f l H S. unfold sorted in *. induction l as [|x l IH]; [constructor|]. cbn [map] in S. inversion S as [|? ? S1 S2]; subst. cbn [map concat].
  assert (I : incl (map fst (concat (map f l))) (map fst l)).
  { clear - H. induction l as [|y l IH]; [intros z Z; exact Z|]. cbn [map concat]. rewrite map_app. intros z Z. apply in_app_or in Z. destruct Z as [Z|Z]; [|right; apply IH; auto].
    destruct (H y) as [E|(w & E)]; rewrite E in Z; [destruct Z|]. cbn in Z. destruct Z as [<-|[]]. left. auto. }
  destruct (H x) as [E|(w & E)]; rewrite E; cbn [app map fst]; [auto|]. constructor; auto.
  rewrite Forall_forall in *. intros z Z. apply S2. apply I. exact Z.
Qed.
Lemma sorted_filter : forall V (f : list Z * V -> bool) l, sorted l -> sorted (filter f l).
Proof.
  intros V f l S. replace (filter f l) with (concat (map (fun x => if f x then [x] else []) l)); [apply sorted_pick; auto|].
  - intros [k v]. destruct (f (k, v)); [right; exists v; auto|left; auto].
  - induction l as [|x l IH]; [reflexivity|]. cbn [map concat filter]. unfold sorted in S. cbn [map] in S. inversion S; subst. rewrite IH by auto. destruct (f x); reflexivity.
Qed.
Lemma sorted_map : forall V W (f : list Z * V -> list Z * W) l, (forall x, fst (f x) = fst x) -> sorted l -> sorted (map f l).
Proof. intros V W f l H S. unfold sorted in *. rewrite map_map. rewrite (map_ext _ fst); auto. Qed.

Lemma series_tree_sum : forall dt chunks, tree_fsum dt (series_tree chunks) = SLayout.series_sum dt chunks.
Proof.
  intros dt chunks. induction chunks as [|c chunks IH] using rev_ind; [reflexivity|]. unfold series_tree in *. rewrite fold_left_app. cbn [fold_left tree_fsum].
  rewrite IH, chunk_tree_sum. unfold SLayout.series_sum. rewrite map_app. cbn [map]. rewrite fsum_snoc. reflexivity.
Qed.

Section Rows.
Variable p : profile.
Variable snap decomp : list Z -> option (list Z).
Hypothesis HG : good_snap snap decomp.
Variable sc : schema.
Hypothesis Hsc : schema_ok sc.
Variable its : list item.
Hypothesis HI : Forall (item_ok p snap sc) its.
Hypothesis HND : no_dots sc.
Variable rest : list Z.
Hypothesis HL : bulk its (MAGIC ++ [3]) rest.
Hypothesis HP : forall d m, zlen (its_series d m its) < 2 ^ 32.
Local Notation file := ((MAGIC ++ [3]) ++ file_of its ++ rest).
Local Notation G := (metas 7 its).
Local Notation ps := (its_pieces its).

Lemma fbound : 7 + zlen (file_of its) < 2 ^ 63.
Proof. destruct HL as [_ L]. rewrite !zlen_app in L. change (zlen MAGIC) with 6 in L. change (zlen [3]) with 1 in L. pose proof (zlen_nonneg _ rest). lia. Qed.
Lemma located_citem : forall d m x, In x (located d m 7 its) -> c_name (snd x) = m /\ citem_ok p snap (snd x) /\ declares sc d m (c_ms (snd x)) /\ wrapS 64 (fst x) = fst x /\ 0 <= fst x.
Proof.
  intros d m x I. apply located_in_its in I. destruct I as [I L]. destruct (citems_declares p snap sc Hsc its d m (snd x) HI I) as (A & B & C). pose proof fbound.
  do 3 (split; [auto|]). split; [|lia]. change (2 ^ 63) with (2 ^ (64 - 1)) in *. apply wrapS_small; lia.
Qed.
Lemma located_cms : forall d m, ~ In 46 m -> map snd (filter (on_path (path_of d m)) (flat G)) = map (fun x => cmeta (fst x) (c_cw (snd x))) (located d m 7 its).
Proof.
  intros d m N. eapply located_metas; eauto; [eapply items_names; eauto|eapply its_nodot; eauto].
Qed.
Lemma places_located : forall d m, places snap d m 7 ps = map (fun x => (fst x, c_pts (snd x))) (located d m 7 its).
Proof. intros. eapply located_places; eauto. apply HL. Qed.
Lemma located_snd : forall d m l o, map snd (located d m o l) = citems_of d m l.
Proof.
  intros d m l. induction l as [|it l IH]; intros o; [reflexivity|]. cbn [located]. unfold citems_of. cbn [map concat]. rewrite map_app, IH. f_equal.
  destruct it as [d' cs|bs]; [|reflexivity]. fold (located_in d' d m). cbn [ipick]. generalize (o + zlen (ghead d')). clear. induction cs as [|c cs IH]; intros o.
  - cbn. destruct (same_name d' d); reflexivity.
  - cbn [located_in filter]. rewrite map_app, IH. destruct (same_name d' d), (same_name (c_name c) m); reflexivity.
Qed.

Lemma row_exact : forall d m ms cms tm, declares sc d m ms -> In (path_of d m, cms) (chunk_map G) -> ts_meta_of p cms = Ret tm -> zlen (tser tm) < 2 ^ 32 ->
  tm_id tm = m /\ places snap d m 7 ps <> [] /\ tser tm = series_bytes m ms (places snap d m 7 ps).
Proof.
  intros d m ms cms tm D I T L. pose proof (HND _ _ _ D) as ND. destruct (chunk_map_spec G) as (S & N & E). apply (getl_in _ _ _ _ S N) in I. destruct I as [I NE]. rewrite E, located_cms in I by auto.
  rewrite places_located. set (dt := ms_type ms) in *.
  assert (LC : forall x, In x (located d m 7 its) -> c_name (snd x) = m /\ citem_ok p snap (snd x) /\ c_ms (snd x) = ms /\ wrapS 64 (fst x) = fst x /\ 0 <= fst x).
  { intros x J. destruct (located_citem d m x J) as (A & B & C & W). split; auto. split; auto. split; auto. exact (declares_fun sc d m _ _ Hsc C D). }
  assert (PT : concat (map (fun x => c_pts (snd x)) (located d m 7 its)) = its_series d m its).
  { rewrite citems_series, <- (located_snd d m its 7), map_map. reflexivity. }
  pose proof (HP d m) as HPL. set (locs := located d m 7 its) in *.
  assert (CT : forall x, In x locs -> points_ok dt (c_pts (snd x)) /\ tree_stats p dt (chunk_tree (pages_of dt (ms_enc ms) (c_pts (snd x)))) = Ret (cw_stats (c_cw (snd x))) /\
      cw_id (c_cw (snd x)) = m /\ cw_type (c_cw (snd x)) = dt /\
      wbytes (stats_serialize (cw_stats (c_cw (snd x)))) = stat_bytes dt (c_pts (snd x)) (chunk_sum dt (pages_of dt (ms_enc ms) (c_pts (snd x))))).
  { intros x J. destruct (LC x J) as (A & [B1 B2 B3] & C & _). rewrite A in B3. rewrite C in B1, B3. destruct (buffer_exact p snap decomp HG _ _ _ _ B1 B3) as (_ & _ & K1 & K2 & _ & _ & K3).
    split; [apply B1|]. split; [exact K3|]. split; [exact K1|]. split; [exact K2|]. exact (stats_exact p snap decomp HG _ _ _ _ B1 B3). }
  assert (FW : Forall (cm_wf dt) (map (fun x => cmeta (fst x) (c_cw (snd x))) locs)).
  { apply Forall_forall. intros cm J. apply in_map_iff in J. destruct J as (x & <- & J). destruct (CT x J) as (C1 & C2 & C3 & C4 & C5). destruct (LC x J) as (_ & _ & _ & W & W0).
    assert (P : points_ok dt (tree_points (chunk_tree (pages_of dt (ms_enc ms) (c_pts (snd x)))))) by (rewrite chunk_tree_points, pages_concat; auto).
    split; cbn [cmeta cm_type cm_stats cm_offset]; auto.
    - eapply tree_type; eauto.
    - eapply tree_wf; eauto.
    - rewrite W. split; [auto|]. apply located_in_its in J. destruct J as [_ J]. pose proof fbound. assert (2 ^ 63 < 2 ^ 64) by reflexivity. lia. }
  rewrite I in FW. destruct cms as [|m0 cms]; [congruence|]. rewrite (ts_meta_of_spec p dt) in T by auto. apply bind_ret in T. destruct T as (st & M & T). rinj T.
  assert (ID : cm_id m0 = m).
  { destruct locs as [|x locs']; [discriminate|]. cbn [map] in I. injection I as I1 _. subst m0. cbn [cmeta cm_id]. apply (CT x (or_introl eq_refl)). }
  cbn [tm_id]. split; [exact ID|]. split; [destruct locs; [discriminate|]; discriminate|].
  assert (SV : several (m0 :: cms) = negb (zlen (map (fun x : Z * citem => (fst x, c_pts (snd x))) locs) =? 1)).
  { rewrite <- I. unfold several, zlen. rewrite !map_length. destruct locs as [|x [|y l]]; [discriminate|reflexivity|]. cbn [length]. symmetry. apply negb_true_iff. apply Z.eqb_neq. lia. }
  assert (RB : ref_bytes (several (m0 :: cms)) (m0 :: cms) = concat (map (fun r => digits 8 (fst r) ++
       (if several (m0 :: cms) then stat_bytes dt (snd r) (chunk_sum dt (pages_of dt (ms_enc ms) (snd r))) else [])) (map (fun x : Z * citem => (fst x, c_pts (snd x))) locs))).
  { generalize (several (m0 :: cms)). intros sv. rewrite <- I. unfold ref_bytes. rewrite !map_map. f_equal. apply map_ext_in. intros x J. destruct (CT x J) as (_ & _ & _ & _ & C5). destruct (LC x J) as (_ & _ & _ & W & _).
    unfold chunk_meta_serialize. cbn [wbytes cmeta cm_offset cm_stats fst snd]. rewrite W, digits_be. f_equal. destruct sv; [exact C5|reflexivity]. }
  assert (MS : wbytes (stats_serialize st) = stat_bytes dt (concat (map snd (map (fun x : Z * citem => (fst x, c_pts (snd x))) locs))) (SLayout.series_sum dt (map (fun r => pages_of dt (ms_enc ms) (snd r)) (map (fun x : Z * citem => (fst x, c_pts (snd x))) locs)))).
  { rewrite !map_map. cbn [snd]. set (chunks := map (fun x => pages_of dt (ms_enc ms) (c_pts (snd x))) locs).
    assert (TS : tree_stats p dt (series_tree chunks) = Ret st).
    { unfold series_tree. apply (series_tree_merge p dt (m0 :: cms) chunks Empty (stats_new dt) st); [|reflexivity|exact M].
      rewrite <- I. unfold chunks. clear - CT. assert (X : forall l, incl l locs -> Forall2 (fun cm pages => tree_stats p dt (chunk_tree pages) = Ret (cm_stats cm)) (map (fun x => cmeta (fst x) (c_cw (snd x))) l) (map (fun x => pages_of dt (ms_enc ms) (c_pts (snd x))) l)).
      { induction l as [|x l IH]; intros H; [constructor|]. cbn [map]. constructor; [|apply IH; intros y Y; apply H; right; auto]. cbn [cmeta cm_stats]. apply (CT x). apply H. left. auto. }
      apply X. apply incl_refl. }
    assert (TP : tree_points (series_tree chunks) = its_series d m its).
    { rewrite series_tree_points. unfold chunks. rewrite map_map. rewrite <- PT. f_equal. apply map_ext. intros x. apply pages_concat. }
    rewrite PT. rewrite <- TP, <- series_tree_sum. apply (stat_bytes_ok p); auto; [|rewrite TP; auto].
    rewrite TP, <- PT. clear - CT. assert (X : forall l, incl l locs -> points_ok dt (concat (map (fun x => c_pts (snd x)) l))).
    { induction l as [|x l IH]; intros H; [constructor|]. cbn [map concat]. apply Forall_app. split; [apply (CT x); apply H; left; auto|apply IH; intros y Y; apply H; right; auto]. }
    apply X. apply incl_refl. }
  assert (NM : zlen m < 2 ^ 31) by (apply (declares_short sc Hsc d m ms D)).
  unfold series_bytes. fold dt. cbv zeta. rewrite <- SV, <- RB, <- MS.
  set (rb := ref_bytes (several (m0 :: cms)) (m0 :: cms)) in *. 
  assert (RL : zlen rb < 2 ^ 32).
  { unfold tser, ts_meta_serialize in L. cbn [wbytes tm_buffer tm_type tm_id tm_dtype tm_list_size tm_stats] in L. rewrite !zlen_app in L.
    repeat match type of L with context [zlen ?l] => lazymatch l with rb => fail | _ => first [is_var l; fail 1 | let v := fresh "v" in pose proof (zlen_nonneg _ l); set (v := zlen l) in *; clearbody v] end end. lia. }
  unfold tser, ts_meta_serialize. cbn [wbytes tm_buffer tm_type tm_id tm_dtype tm_list_size tm_stats]. pose proof (zlen_nonneg _ rb). rewrite wrapU_small by lia. rewrite leb_var by lia.
  rewrite ID, write_str_text by auto. rewrite app_nil_r. reflexivity.
Qed.

(** ** All rows *)
Variable tms : list (list Z * ts_meta).
Local Notation dev d := (map snd (filter (of_device d) tms)).
Hypothesis HT : Forall2 (fun pm e => fst e = fst pm /\ ts_meta_of p (snd pm) = Ret (snd e)) (chunk_map G) tms.
Hypothesis HB : forall d tm, In tm (dev d) -> zlen (tser tm) < 2 ^ 32.

Lemma tms_in : forall d tm, In tm (dev d) <-> exists m ms cms, declares sc d m ms /\ In (path_of d m, cms) (chunk_map G) /\ In (path_of d m, tm) tms /\ ts_meta_of p cms = Ret tm.
Proof.
  intros d tm. split.
  - intros I. apply in_map_iff in I. destruct I as ([q tm'] & <- & I). apply filter_In in I. destruct I as [I J]. destruct (F2_in_r _ _ _ _ _ _ HT I) as ([q' cms] & K & K1 & K2). cbn [fst snd] in *. subst q'.
    pose proof (in_map fst _ _ K) as K'. destruct (cmap_keys p snap decomp HG sc Hsc its 7 _ HI K') as (d' & m & ms & D & E). cbn [fst] in E. subst q. change (d' ++ [46] ++ m) with (path_of d' m) in *.
    unfold of_device in J. cbn [fst] in J. apply str_eqb_eq in J. rewrite device_of_path_of in J by (eapply HND; eauto). subst d'. exists m, ms, cms. auto.
  - intros (m & ms & cms & D & I & J & T). apply in_map_iff. exists (path_of d m, tm). split; auto. apply filter_In. split; auto. unfold of_device. cbn [fst]. rewrite device_of_path_of by (eapply HND; eauto). apply str_eqb_refl.
Qed.
Lemma row_path : forall d x, In x (filter (of_device d) tms) -> fst x = path_of d (tm_id (snd x)).
Proof.
  intros d. intros [q tm] I. pose proof I as I0. assert (J : In tm (dev d)) by (apply in_map_iff; exists (q, tm); auto). pose proof (HB d tm J) as L.
    apply filter_In in I. destruct I as [I I2]. destruct (F2_in_r _ _ _ _ _ _ HT I) as ([q' cms] & K & K1 & K2). cbn [fst snd] in *. subst q'.
    pose proof (in_map fst _ _ K) as K'. destruct (cmap_keys p snap decomp HG sc Hsc its 7 _ HI K') as (d' & m & ms & D & E). cbn [fst] in E. subst q. change (d' ++ [46] ++ m) with (path_of d' m) in *.
    unfold of_device in I2. cbn [fst] in I2. apply str_eqb_eq in I2. rewrite device_of_path_of in I2 by (eapply HND; eauto). subst d'.
    destruct (row_exact d m ms cms tm D K K2 L) as (-> & _). reflexivity.
Qed.
Lemma ids_sorted : forall d, sorted (map row_of (dev d)).
Proof.
  intros d. unfold sorted. rewrite map_map. cbn [row_of fst].
  assert (TS : sorted tms). { destruct (chunk_map_spec G) as (S & _ & _). unfold sorted in *. replace (map fst tms) with (map fst (chunk_map G)); auto. apply (F2_keys _ _ (fun pm e => ts_meta_of p (snd pm) = Ret (snd e)) _ _ HT). }
  pose proof (row_path d) as K.
  rewrite map_map. pose proof (sorted_filter _ (of_device d) tms TS) as SF. revert K SF. generalize (filter (of_device d) tms). clear. intros l. unfold sorted. induction l as [|x l IH]; intros K S; [constructor|].
  cbn [map] in *. inversion S as [|? ? S1 S2]; subst. constructor; [apply IH; auto; intros y Y; apply K; right; auto|]. rewrite Forall_forall in *. intros z I. apply in_map_iff in I. destruct I as (y & <- & I).
  apply (path_lt d). rewrite <- (K x), <- (K y) by (cbn; auto). apply S2. apply in_map. exact I.
Qed.
Lemma device_rows_in : forall d g m b, NoDup (map fst g) -> (In (m, b) (device_rows snap ps d g) <-> exists ms, In (m, ms) g /\ places snap d m 7 ps <> [] /\ b = series_bytes m ms (places snap d m 7 ps)).
Proof.
  intros d g m b N. unfold device_rows. rewrite by_name_sm by auto. rewrite in_concat. split.
  - intros (l & I & J). apply in_map_iff in I. destruct I as ([m' ms] & <- & I). cbn [fst snd] in J. destruct (places snap d m' 7 ps) as [|r rs] eqn:E; [destruct J|]. destruct J as [J|[]]. injection J as <- <-.
    exists ms. rewrite E. split; [|split; [discriminate|reflexivity]]. apply in_sm_get in I; [|apply sm_of_list_sorted]. apply sm_of_list_nodup in I; auto.
  - intros (ms & I & NE & ->). eexists. split; [apply in_map_iff; exists (m, ms); split; [reflexivity|]; apply sm_get_in; apply sm_of_list_nodup; auto|]. cbn [fst snd].
    destruct (places snap d m 7 ps) as [|r rs]; [congruence|]. left. reflexivity.
Qed.
Lemma device_rows_sorted : forall d g, NoDup (map fst g) -> sorted (device_rows snap ps d g).
Proof.
  intros d g N. unfold device_rows. apply sorted_pick; [|rewrite by_name_sm by auto; apply sm_of_list_sorted]. intros [m ms]. cbn [fst snd]. destruct (places snap d m 7 ps); [left|right]; eauto.
Qed.
Lemma declared_group : forall d g, In (d, g) sc -> NoDup (map fst g).
Proof. intros d g I. destruct Hsc as [_ F]. rewrite Forall_forall in F. apply (F _ I). Qed.
Lemma group_rows : forall d g, In (d, g) sc -> map row_of (dev d) = device_rows snap ps d g.
Proof.
  intros d g I. pose proof (declared_group d g I) as N. apply sorted_same; [apply ids_sorted|apply device_rows_sorted; auto|]. intros [m b]. rewrite device_rows_in by auto. split.
  - intros J. apply in_map_iff in J. destruct J as (tm & J1 & J). injection J1 as <- <-. pose proof (HB d tm J) as L. apply tms_in in J. destruct J as (m & ms & cms & D & K & _ & T).
    destruct (row_exact d m ms cms tm D K T L) as (-> & A & B). exists ms. split; auto. destruct D as (g' & D1 & D2). assert (EG : g' = g); [|rewrite <- EG; exact D2].
    destruct Hsc as [ND _]. pose proof (eq_trans (eq_sym (sm_get_nodup _ _ _ _ ND D1)) (sm_get_nodup _ _ _ _ ND I)) as X. injection X as X. exact X.
  - intros (ms & J & NE & ->). assert (D : declares sc d m ms) by (exists g; auto). pose proof (HND _ _ _ D) as ND. destruct (chunk_map_spec G) as (S & N' & E).
    assert (K : In (path_of d m, map snd (filter (on_path (path_of d m)) (flat G))) (chunk_map G)).
    { apply (getl_in _ _ _ _ S N'). split; [apply E|]. rewrite located_cms by auto. rewrite places_located in NE. destruct (located d m 7 its); [exfalso; apply NE; reflexivity|discriminate]. }
    destruct (F2_in_l _ _ _ _ _ _ HT K) as ([q tm] & K1 & K2 & K3). cbn [fst snd] in K2, K3. subst q.
    assert (IT : In tm (dev d)) by (apply tms_in; eauto 8). destruct (row_exact d m ms _ tm D K K3 (HB d tm IT)) as (A1 & _ & A2).
    apply in_map_iff. exists tm. split; auto. unfold row_of. rewrite A1, A2. reflexivity.
Qed.
Variable tsm : smap (list ts_meta).
Hypothesis HS : sorted tsm.
Hypothesis HN : no_empty tsm.
Hypothesis HD : forall d, getl d tsm = map snd (filter (of_device d) tms).
Lemma all_rows : map dev_rows tsm = index_rows snap sc ps.
Proof.
  destruct Hsc as [NS _]. assert (SB : sorted (by_name sc)) by (apply by_name_perm; auto).
  apply sorted_same.
  - apply sorted_map; auto.
  - unfold index_rows. apply sorted_filter, sorted_map; auto.
  - intros [d rows]. unfold index_rows. rewrite filter_In, !in_map_iff. split.
    + intros ([d' l] & E & I). unfold dev_rows in E. cbn [fst snd] in E. injection E as -> <-. apply (getl_in _ _ _ _ HS HN) in I. destruct I as [<- NE].
      assert (X : exists g, In (d, g) sc). { rewrite HD in NE. destruct (map snd (filter (of_device d) tms)) as [|tm l] eqn:EL; [congruence|]. destruct (proj1 (tms_in d tm)) as (m & ms & cms & (g & D & _) & _); [rewrite EL; left; auto|]. eauto. }
      destruct X as (g & I). split.
      * exists (d, g). cbn [fst snd]. split; [f_equal; rewrite HD; symmetry; apply group_rows; auto|]. rewrite by_name_sm by auto. apply sm_get_in. apply sm_of_list_nodup; auto.
      * cbn [snd]. destruct (getl d tsm); [congruence|reflexivity].
    + intros [([d' g] & E & I) NE]. cbn [fst snd] in *. injection E as -> <-. rewrite by_name_sm in I by auto. apply in_sm_get in I; [|apply sm_of_list_sorted]. apply sm_of_list_nodup in I; auto.
      exists (d, getl d tsm). unfold dev_rows. cbn [fst snd]. rewrite HD, (group_rows d g I). split; auto. apply (getl_in _ _ _ _ HS HN). split; [apply HD|].
      intros X. rewrite <- (group_rows d g I), X in NE. discriminate.
Qed.
End Rows.
