(** The bytes of a closed file (C55). *)
From Verif Require Export PLayoutRows PLayoutFilter PPanic.
Ltac Zify.zify_post_hook ::= idtac.

Lemma zlen_in_concat : forall A B (f : A -> list B) l x, In x l -> zlen (f x) <= zlen (concat (map f l)).
Proof.
  intros A B f l x. induction l as [|y l IH]; intros I; [destruct I|]. cbn [map concat]. rewrite zlen_app. pose proof (zlen_nonneg _ (f y)). pose proof (zlen_nonneg _ (concat (map f l))).
  destruct I as [<-|I]; [lia|]. specialize (IH I). lia.
Qed.
Lemma filter_split : forall A (a b : A -> bool) l, (forall x, a x = true -> b x = false) -> Permutation (filter a l ++ filter b l) (filter (fun x => a x || b x) l).
Proof.
  intros A a b l H. induction l as [|x l IH]; [reflexivity|]. cbn [filter]. destruct (a x) eqn:E.
  - rewrite (H x E). cbn [orb app]. constructor. exact IH.
  - cbn [orb]. destruct (b x); [|exact IH]. etransitivity; [symmetry; apply Permutation_middle|]. constructor. exact IH.
Qed.
Lemma filter_all : forall A (a : A -> bool) l, (forall x, In x l -> a x = true) -> filter a l = l.
Proof. intros A a l H. induction l as [|x l IH]; [reflexivity|]. cbn [filter]. rewrite (H x (or_introl eq_refl)). f_equal. apply IH. intros y I. apply H. right. exact I. Qed.
Lemma groups_perm : forall A (f : A -> list Z) ds l, NoDup ds ->
  Permutation (concat (map (fun d => filter (fun x => str_eqb (f x) d) l) ds)) (filter (fun x => existsb (str_eqb (f x)) ds) l).
Proof.
  intros A f ds l N. induction N as [|d ds NI N IH]; cbn [map concat].
  - induction l as [|x l IH]; [reflexivity|exact IH].
  - etransitivity; [apply Permutation_app_head; exact IH|]. apply filter_split. intros x E. apply str_eqb_eq in E. subst d.
    destruct (existsb (str_eqb (f x)) ds) eqn:X; [|reflexivity]. exfalso. apply existsb_exists in X. destruct X as (y & I & E). apply str_eqb_eq in E. subst y. auto.
Qed.
Lemma ts_meta_id : forall p cms tm, ts_meta_of p cms = Ret tm -> exists m0 l, cms = m0 :: l /\ tm_id tm = cm_id m0.
Proof.
  intros p cms tm H. unfold ts_meta_of in H. destruct cms as [|m0 l]; [discriminate|]. exists m0, l. split; [reflexivity|].
  apply bind_ret in H. destruct H as ([b st] & H1 & H). apply ret_inj in H. subst tm. reflexivity.
Qed.

Section Close.
Variable p : profile.
Variable snap decomp : list Z -> option (list Z).
Hypothesis HG : good_snap snap decomp.
Variable sc : schema.
Hypothesis Hsc : schema_ok sc.

Lemma close_exact : forall h its w fls ord io', winv p snap sc h its w -> Forall is_group its -> flushed_as p snap sc fls its ->
  zlen (h_all h) < 2 ^ 32 -> no_dots sc -> small_devices sc -> byte_names sc -> short_paths sc -> (forall l, Permutation (ord l) l) ->
  end_file p ord (w_io w) = Ret io' -> Forall light its -> brief (sk_data (io_out (w_io w))) (sk_data (io_out io')) ->
  exists nodes, Permutation nodes (file_nodes snap sc fls) /\ sk_data (io_out io') = closed_file snap sc fls nodes.
Proof.
  intros h its w fls ord io' I IG FA HB ND SD BN SP GO H LI L.
  pose proof (wi_items _ _ _ _ _ _ I) as HI. pose proof (wi_metas _ _ _ _ _ _ I) as HM. pose proof (wi_tsmeta _ _ _ _ _ _ I IG) as HT0.
  destruct (end_file_ok p ord _ _ (wi_healthy _ _ _ _ _ _ I) H) as (r & SX & _). pose proof (se_data _ _ _ SX) as SD'. change (sk_data (io_out (w_io w))) with (file_bytes w) in SD'. rewrite (wi_data _ _ _ _ _ _ I) in SD'.
  assert (HL : bulk its (MAGIC ++ [3]) (2 :: r)). { split; [exact LI|]. destruct L as [_ L]. rewrite SD' in L. rewrite <- !app_assoc in *. exact L. }
  assert (HP : forall d m, zlen (its_series d m its) < 2 ^ 32).
  { intros d m. rewrite (wi_series _ _ _ _ _ _ I). pose proof (PWriter.series_len d m (h_flushed h)). unfold h_all in HB. rewrite zlen_app in HB. pose proof (zlen_nonneg _ (h_recent h)). lia. }
  (* the time series *)
  pose proof H as H'. unfold end_file in H'. cbv zeta in H'. apply bind_ret in H'. destruct H' as (tsm & M & H'). apply bind_ret in H'. destruct H' as ([root o1] & HC & _).
  pose proof M as M0. rewrite HT0, HM in M0.
  destruct (metadata_loop_spec p (chunk_map (metas 7 its)) None [] tsm M0 (sorted_nil _) (Forall_nil _)) as (tms & T1 & T2 & T3 & T4). cbn [getl sm_get app] in T4.
  assert (T4' : forall d, getl d tsm = map snd (filter (of_device d) tms)) by exact T4. clear T4.
  assert (TIN : forall d tm, In tm (getl d tsm) <-> exists m ms cms, declares sc d m ms /\ In (path_of d m, cms) (chunk_map (metas 7 its)) /\ In (path_of d m, tm) tms /\ ts_meta_of p cms = Ret tm)
    by (intros d tm; rewrite T4'; apply (tms_in p snap decomp HG sc Hsc its HI ND tms T1 d tm)).
  pose proof (cmap_count p snap decomp HG sc Hsc its 7 HI ND SD) as CC.
  assert (TC : forall d, zlen (getl d tsm) <= 65536).
  { intros d. rewrite T4'. unfold zlen. rewrite map_length. specialize (CC d).
    pose proof (F2_length _ _ _ _ _ (F2_filter _ _ _ (of_device d) (of_device d) _ _ (fun a b H => f_equal (fun q => str_eqb (device_of_path q) d) (eq_sym (proj1 H))) T1)) as X. unfold zlen in CC. lia. }
  assert (FT : Forall (fun dl : list Z * list ts_meta => zlen (fst dl) < 2 ^ 31 /\ zlen (snd dl) <= 65536 /\ Forall (fun tm => zlen (tm_id tm) < 2 ^ 31) (snd dl)) tsm).
  { apply Forall_forall. intros [d l] J. cbn [fst snd]. apply (getl_in _ _ _ _ T2 T3) in J. destruct J as [<- NE]. split; [|split; [apply TC|]].
    - destruct (getl d tsm) as [|tm l'] eqn:E; [congruence|]. destruct (proj1 (TIN d tm)) as (m & ms & cms & D & _); [rewrite E; left; auto|].
      pose proof (SP _ _ _ D) as X. rewrite !zlen_app in X. pose proof (zlen_nonneg _ [46]). pose proof (zlen_nonneg _ m). lia.
    - apply Forall_forall. intros tm J. apply TIN in J. destruct J as (m & ms & cms & D & K & _ & TM). destruct (ts_meta_id _ _ _ TM) as (m0 & l & -> & ->).
      destruct (cmap_entries p snap decomp HG sc Hsc its 7 _ _ HI ND K) as (_ & _ & X). apply (X m0 l eq_refl). }
  destruct (end_file_exact p ord (w_io w) io' tsm GO (wi_healthy _ _ _ _ _ _ I) (wi_pos _ _ _ _ _ _ I) H L M T3 FT) as (nodes & bf & bw & PN & BF & BW & EX).
  cbv zeta in EX. set (rest := 2 :: r) in *.
  assert (HBB : forall d tm, In tm (getl d tsm) -> zlen (tser tm) < 2 ^ 32).
  { intros d tm J. assert (K : In (d, getl d tsm) tsm). { apply (getl_in _ _ _ _ T2 T3). split; [reflexivity|]. destruct (getl d tsm); [destruct J|discriminate]. }
    eapply Z.le_lt_trans; [|exact (proj1 L)]. rewrite EX. rewrite !zlen_app.
    pose proof (zlen_in_concat _ _ (fun dr : list Z * list (list Z * list Z) => rows_bytes (snd dr)) (map dev_rows tsm) (dev_rows (d, getl d tsm)) (in_map dev_rows _ _ K)) as X1.
    pose proof (zlen_in_concat _ _ snd (map row_of (getl d tsm)) (row_of tm) (in_map row_of _ _ J)) as X2. cbn [dev_rows row_of fst snd] in X1, X2. unfold rows_bytes at 1 in X1.
    repeat match goal with |- context [zlen ?x] => lazymatch goal with H : 0 <= zlen x |- _ => fail | _ => pose proof (zlen_nonneg _ x) end end. lia. }
  assert (ROWS : map dev_rows tsm = index_rows snap sc (its_pieces its)) by (eapply (all_rows p snap decomp HG sc Hsc its HI ND rest HL HP tms T1); eauto; intros d tm J; apply (HBB d); rewrite T4'; exact J).
  assert (PF : its_pieces its = pieces sc fls) by (eapply flushed_pieces; eauto).
  assert (OF : file_bytes w = open_file snap sc fls).
  { rewrite (wi_data _ _ _ _ _ _ I). unfold open_file. rewrite <- PF. erewrite its_image; eauto. }
  change (sk_data (io_out (w_io w))) with (file_bytes w) in *. rewrite ROWS, PF, OF in *. exists nodes. split.
  - unfold file_nodes. replace (8 + zlen (data_bytes snap (pieces sc fls))) with (zlen (open_file snap sc fls) + 1); [exact PN|]. unfold open_file. rewrite !zlen_app. change (zlen magic) with 6. change (zlen [3]) with 1. lia.
  - rewrite EX. unfold closed_file. cbv zeta.
    assert (PATHS : Permutation (map fst (chunk_map (metas 7 its))) (concat (map (fun dr => map (fun r => fst dr ++ [46] ++ fst r) (snd dr)) (index_rows snap sc (pieces sc fls))))).
    { rewrite <- ROWS. rewrite map_map.
      assert (E : map (fun x => map (fun r0 => fst (dev_rows x) ++ [46] ++ fst r0) (snd (dev_rows x))) tsm = map (fun d => map fst (filter (of_device d) tms)) (map fst tsm)).
      { rewrite map_map. apply map_ext_in. intros [d l] J. cbn [dev_rows fst snd]. apply (getl_in _ _ _ _ T2 T3) in J. destruct J as [<- _]. rewrite T4'. rewrite !map_map. apply map_ext_in. intros [q tm] J. cbn [row_of fst snd].
        symmetry. apply (row_path p snap decomp HG sc Hsc its HI ND rest HL HP tms T1 (fun d0 tm0 J0 => HBB d0 tm0 (eq_ind_r (fun l => In tm0 l) J0 (T4' d0))) d (q, tm) J). }
      rewrite E. replace (map fst (chunk_map (metas 7 its))) with (map fst tms) by (symmetry; exact (F2_keys _ _ (fun pm e => ts_meta_of p (snd pm) = Ret (snd e)) _ _ T1)).
      assert (E2 : concat (map (fun d => map fst (filter (of_device d) tms)) (map fst tsm)) = map fst (concat (map (fun d => filter (of_device d) tms) (map fst tsm)))) by (rewrite concat_map, !map_map; reflexivity).
      rewrite E2. apply Permutation_map. symmetry. etransitivity; [apply (groups_perm _ (fun e : list Z * ts_meta => device_of_path (fst e)) (map fst tsm) tms (lt_nodup _ T2))|].
      rewrite filter_all; [reflexivity|]. intros [q tm] J. apply existsb_exists. exists (device_of_path q). split; [|apply str_eqb_eq; reflexivity].
      assert (J' : In tm (getl (device_of_path q) tsm)). { rewrite T4'. apply in_map_iff. exists (q, tm). split; auto. apply filter_In. split; auto. unfold of_device. apply str_eqb_eq. reflexivity. }
      destruct (getl (device_of_path q) tsm) eqn:EG; [destruct J'|]. unfold getl in EG. destruct (sm_get (device_of_path q) tsm) eqn:EG2; [|discriminate]. apply sm_get_in in EG2. apply (in_map fst) in EG2. exact EG2. }
    assert (CNT : zlen (map fst (chunk_map (metas 7 its))) <= 300000000).
    { replace (zlen (map fst (chunk_map (metas 7 its)))) with (zlen (concat (map (fun dr => map (fun r : list Z * list Z => fst dr ++ [46] ++ fst r) (snd dr)) (index_rows snap sc (pieces sc fls)))))
        by (unfold zlen; rewrite (Permutation_length PATHS); reflexivity).
      rewrite zlen_concat_map, <- ROWS, map_map.
      pose proof (wexec_healthy_fst (WAll [2]) _ (wi_healthy _ _ _ _ _ _ I)) as X0.
      assert (P0 : sk_pos (fst (wexec (WAll [2]) (io_out (w_io w)))) = zlen (sk_data (fst (wexec (WAll [2]) (io_out (w_io w)))))).
      { rewrite (se_data _ _ _ X0), (se_pos _ _ _ X0), zlen_app. rewrite (wi_pos _ _ _ _ _ _ I). reflexivity. }
      destruct (construct_spec _ _ _ _ _ (sk_ext_healthy _ _ _ X0 (wi_healthy _ _ _ _ _ _ I)) P0 HC) as (imap & bs & C1 & _ & _ & C2 & _).
      rewrite (nonempty_id _ _ T3) in C1. assert (C3 : zlen tsm <= 256). { assert (X : length imap = length tsm) by (rewrite <- (map_length fst imap), C1, map_length; reflexivity). unfold zlen in *. lia. }
      assert (C4 : zsum (map (fun x : list Z * list ts_meta => zlen (map (fun r0 : list Z * list Z => fst (dev_rows x) ++ [46] ++ fst r0) (snd (dev_rows x)))) tsm) <= zsum (map (fun _ : list Z * list ts_meta => 65536) tsm)).
      { apply zsum_map_le. intros [d l] J. cbn [dev_rows fst snd]. rewrite Forall_forall in FT. apply FT in J. unfold zlen in *. rewrite !map_length. apply J. }
      assert (C5 : forall A (l : list A), zsum (map (fun _ => 65536) l) = 65536 * zlen l). { induction l as [|x l IH]; [reflexivity|]. cbn [map]. rewrite zsum_cons, zlen_cons, IH. lia. }
      rewrite C5 in C4. lia. }
    rewrite HM in BF. rewrite (filter_exact p _ bf bw) with (3 := BF) (4 := BW); [|apply Forall_forall|exact CNT].
    + rewrite (filter_image_perm _ _ PATHS). reflexivity.
    + intros q J. destruct (cmap_keys p snap decomp HG sc Hsc its 7 _ HI J) as (d & m & ms & D & ->). split; [apply (BN _ _ _ D)|apply (SP _ _ _ D)].
Qed.
End Close.
