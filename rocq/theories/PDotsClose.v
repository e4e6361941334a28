(** The bytes of sessions with names of any kind (C62). *)
From Verif Require Export PDots.
Ltac Zify.zify_post_hook ::= idtac.

Lemma chunk_list_app : forall a b o, chunk_list o (a ++ b) = chunk_list o a ++ chunk_list (o + zlen (file_of a)) b.
Proof.
  induction a as [|it a IH]; intros b o; cbn [app chunk_list].
  - unfold file_of. cbn [map concat]. rewrite zlen_nil, Z.add_0_r. reflexivity.
  - rewrite IH, <- app_assoc. unfold file_of. cbn [map concat]. rewrite zlen_app, Z.add_assoc. reflexivity.
Qed.
Lemma device_part_le : forall q, zlen (device_part q) <= zlen q.
Proof.
  intros q. unfold device_part, zlen. rewrite rev_length, <- (rev_length q). apply inj_le. generalize (rev q). induction l as [|c l IH]; cbn [skip_segment length]; [lia|]. destruct (c =? 46); lia.
Qed.
Lemma declared_in : forall sc d m ms, declares sc d m ms -> In (d ++ [46] ++ m) (declared_paths sc).
Proof.
  intros sc d m ms (g & A & B). unfold declared_paths. apply name_set_in. apply in_concat. exists (map (fun ms => d ++ [46] ++ fst ms) g). split; [apply in_map_iff; exists (d, g); split; auto|].
  apply in_map_iff. exists (m, ms). split; auto.
Qed.

Section Close.
Variable p : profile.
Variable snap decomp : list Z -> option (list Z).
Hypothesis HG : good_snap snap decomp.
Variable sc : schema.
Hypothesis Hsc : schema_ok sc.

Lemma listed_paths : forall s t d, lists p s t -> map fst (filter (of_device d) t) = filter (fun q => same_name (device_part q) d) (map fst (chunk_map (metas 7 s))).
Proof.
  intros s t d F. rewrite filter_map_comm. unfold lists in F. induction F as [|a b l r [E _] F IH]; [reflexivity|]. cbn [filter]. unfold of_device at 1. rewrite E, device_part_of.
  replace (str_eqb (device_part (fst a)) d) with (same_name (device_part (fst a)) d) by (apply eq_true_iff_eq; rewrite str_eqb_eq, PWriter.same_name_eq; reflexivity).
  destruct (same_name (device_part (fst a)) d); [cbn [map]; rewrite IH, E; reflexivity|exact IH].
Qed.
Lemma listed_few : forall s t d, Forall (item_ok p snap sc) s -> lists p s t -> zlen (dev_metas_of d t) <= zlen (filter (fun q => same_name (device_part q) d) (declared_paths sc)).
Proof.
  intros s t d HI F. unfold dev_metas_of, zlen. rewrite map_length, <- (map_length fst), (listed_paths s t d F). apply inj_le, NoDup_incl_length.
  - apply NoDup_filter, rising_nodup. apply (chunk_map_spec (metas 7 s)).
  - intros q J. apply filter_In in J. destruct J as [J1 J2]. apply filter_In. split; [|exact J2]. destruct (cmap_keys p snap decomp HG sc Hsc s 7 q HI J1) as (d' & m & ms & D & ->). eapply declared_in; eauto.
Qed.
Lemma listed_total : forall d snaps tmss, Forall (Forall (item_ok p snap sc)) snaps -> Forall2 (lists p) snaps tmss ->
  zlen (concat (map (dev_metas_of d) tmss)) <= zlen snaps * zlen (filter (fun q => same_name (device_part q) d) (declared_paths sc)).
Proof.
  intros d snaps tmss HI F. induction F as [|s t snaps tmss X F IH]; [rewrite zlen_nil; cbn [map concat]; rewrite zlen_nil; lia|]. inversion HI as [|? ? H1 H2]; subst. specialize (IH H2).
  cbn [map concat]. rewrite zlen_app, zlen_cons. pose proof (listed_few s t d H1 X). lia.
Qed.
Lemma listed_rows_any : forall s t d rest, Forall (item_ok p snap sc) s -> bulk s (MAGIC ++ [3]) rest -> zsum (map e_count (chunk_list 7 s)) < 2 ^ 32 -> lists p s t ->
  (forall tm, In tm (dev_metas_of d t) -> zlen (tser tm) < 2 ^ 32) -> map row_of (dev_metas_of d t) = path_rows snap (its_pieces s) d.
Proof.
  intros s t d rest HI HL HP F HB. unfold path_rows. rewrite <- (paths_keys p snap decomp HG sc Hsc s HI rest HL), <- (listed_paths s t d F). unfold dev_metas_of in *. rewrite !map_map. apply map_ext_in.
  intros [q tm] J. cbn [fst snd]. assert (B : zlen (tser tm) < 2 ^ 32) by (apply HB; apply in_map_iff; exists (q, tm); auto). apply filter_In in J. destruct J as [J _].
  destruct (F2_in_r _ _ _ _ _ _ F J) as ([q' cms] & K & K1 & K2). cbn [fst snd] in *. subst q'. exact (record_exact p snap decomp HG sc Hsc s HI rest HL HP q cms tm K K2 B).
Qed.
Lemma listed_names : forall s t d tm, Forall (item_ok p snap sc) s -> lists p s t -> short_paths sc -> In tm (dev_metas_of d t) -> zlen d < 2 ^ 31 /\ zlen (tm_id tm) < 2 ^ 31.
Proof.
  intros s t d tm HI F SP J. apply in_map_iff in J. destruct J as ([q tm'] & E & J). cbn [snd] in E. subst tm'. apply filter_In in J. destruct J as [J JD]. unfold of_device in JD. cbn [fst] in JD. apply str_eqb_eq in JD. subst d.
  destruct (F2_in_r _ _ _ _ _ _ F J) as ([q' cms] & K & K1 & K2). cbn [fst snd] in *. subst q'. split.
  - rewrite device_part_of. pose proof (device_part_le q). destruct (cmap_keys p snap decomp HG sc Hsc s 7 q HI (in_map fst _ _ K)) as (d' & m & ms & D & ->). pose proof (SP _ _ _ D). lia.
  - destruct (ts_meta_id _ _ _ K2) as (m0 & l & -> & ->). destruct (chunk_map_spec (metas 7 s)) as (S & N & E). apply (getl_in _ _ _ _ S N) in K. destruct K as [K _]. rewrite E in K.
    assert (X : In m0 (map snd (filter (on_path q) (flat (metas 7 s))))) by (rewrite K; left; reflexivity). apply in_map_iff in X. destruct X as ([d' cm] & <- & X). apply filter_In in X. destruct X as [X _].
    destruct (flat_in_its _ _ _ _ X) as (x & cs & y & c & o & -> & X1 & ->). destruct (item_declares p snap sc Hsc _ _ _ _ _ HI X1) as [A D]. cbn [snd cmeta cm_id]. rewrite (proj1 (citem_id p snap decomp HG c A)). exact (proj2 (declares_short sc Hsc _ _ _ D)).
Qed.

Lemma close_any : forall h its w snaps tmss ord io', winv p snap sc h its w -> minv p snaps (io_tsmeta (w_io w)) tmss -> Forall (fun s => exists more, its = s ++ more) snaps ->
  zlen (h_all h) < 2 ^ 32 -> few_paths sc (zlen snaps + 1) 65536 -> byte_names sc -> short_paths sc -> good_order ord ->
  end_file p ord (w_io w) = Ret io' -> Forall light its -> brief (sk_data (io_out (w_io w))) (sk_data (io_out io')) ->
  exists bs, any_close_appends snap (map its_pieces (snaps ++ [its])) (its_pieces its) bs /\ sk_data (io_out io') = sk_data (io_out (w_io w)) ++ bs.
Proof.
  intros h its w snaps tmss ord io' I MI PRE HB FE BN SP GO H LI L. set (ps := its_pieces its). set (stages := map its_pieces (snaps ++ [its])).
  pose proof (wi_items _ _ _ _ _ _ I) as HI. pose proof (wi_metas _ _ _ _ _ _ I) as HM.
  destruct (end_file_ok p ord _ _ (wi_healthy _ _ _ _ _ _ I) H) as (r & SX & _). pose proof (se_data _ _ _ SX) as SD'. change (sk_data (io_out (w_io w))) with (file_bytes w) in SD'. rewrite (wi_data _ _ _ _ _ _ I) in SD'.
  pose proof H as H'. unfold end_file in H'. cbv zeta in H'. apply bind_ret in H'. destruct H' as (tsm & M & H'). apply bind_ret in H'. destruct H' as ([root o1] & HC & _).
  pose proof M as M0. rewrite HM in M0. destruct (minv_close p snaps _ tmss its tsm MI M0) as (tms & [Q1 Q2 Q3 Q4]).
  set (snaps' := snaps ++ [its]) in *. set (tmss' := tmss ++ [tms]) in *.
  assert (PRE' : Forall (fun s => exists more, its = s ++ more) snaps').
  { apply Forall_app. split; [exact PRE|]. constructor; [|constructor]. exists []. rewrite app_nil_r. reflexivity. }
  assert (HI' : Forall (Forall (item_ok p snap sc)) snaps').
  { eapply Forall_impl; [|exact PRE']. cbn beta. intros s (more & E). rewrite E in HI. apply Forall_app in HI. apply HI. }
  assert (TC : forall d, zlen (getl d tsm) <= 65536).
  { intros d. rewrite Q4. pose proof (listed_total d snaps' tmss' HI' Q1) as X. specialize (FE d). unfold snaps' in X. rewrite zlen_app in X. change (zlen [its]) with 1 in X. lia. }
  assert (TIN : forall d tm, In tm (getl d tsm) -> exists s t, In s snaps' /\ lists p s t /\ In tm (dev_metas_of d t)).
  { intros d tm J. rewrite Q4 in J. apply in_concat in J. destruct J as (x & J1 & J2). apply in_map_iff in J1. destruct J1 as (t & <- & J1). destruct (F2_in_r _ _ _ _ _ t Q1 J1) as (s & S1 & S2). eauto 6. }
  assert (FT : Forall (fun dl : list Z * list ts_meta => zlen (fst dl) < 2 ^ 31 /\ zlen (snd dl) <= 65536 /\ Forall (fun tm => zlen (tm_id tm) < 2 ^ 31) (snd dl)) tsm).
  { apply Forall_forall. intros [d l] J. cbn [fst snd]. apply (getl_in _ _ _ _ Q2 Q3) in J. destruct J as [<- NE].
    assert (K : forall tm, In tm (getl d tsm) -> zlen d < 2 ^ 31 /\ zlen (tm_id tm) < 2 ^ 31).
    { intros tm J. apply TIN in J. destruct J as (s & t & S1 & S2 & S3). rewrite Forall_forall in HI'. exact (listed_names s t d tm (HI' s S1) S2 SP S3). }
    split; [|split; [apply TC|apply Forall_forall; intros tm J; apply (K tm J)]]. destruct (getl d tsm) as [|tm l']; [congruence|]. apply (K tm (or_introl eq_refl)). }
  destruct (end_file_exact p ord (w_io w) io' tsm GO (wi_healthy _ _ _ _ _ _ I) (wi_pos _ _ _ _ _ _ I) H L M Q3 FT) as (nodes & bf & bw & PN & BF & BW & EX).
  cbv zeta in EX.
  assert (HBB : forall d tm, In tm (getl d tsm) -> zlen (tser tm) < 2 ^ 32).
  { intros d tm J. assert (K : In (d, getl d tsm) tsm). { apply (getl_in _ _ _ _ Q2 Q3). split; [reflexivity|]. destruct (getl d tsm); [destruct J|discriminate]. }
    eapply Z.le_lt_trans; [|exact (proj1 L)]. rewrite EX. rewrite !zlen_app.
    pose proof (zlen_in_concat _ _ (fun dr : list Z * list (list Z * list Z) => rows_bytes (snd dr)) (map dev_rows tsm) (dev_rows (d, getl d tsm)) (in_map dev_rows _ _ K)) as X1.
    pose proof (zlen_in_concat _ _ snd (map row_of (getl d tsm)) (row_of tm) (in_map row_of _ _ J)) as X2. cbn [dev_rows row_of fst snd] in X1, X2. unfold rows_bytes at 1 in X1.
    repeat match goal with |- context [zlen ?x] => lazymatch goal with H : 0 <= zlen x |- _ => fail | _ => pose proof (zlen_nonneg _ x) end end. lia. }
  assert (HP : forall s, In s snaps' -> zsum (map e_count (chunk_list 7 s)) < 2 ^ 32).
  { intros s J. rewrite Forall_forall in PRE'. destruct (PRE' s J) as (more & E). pose proof (list_points its 7 (h_flushed h) (wi_series _ _ _ _ _ _ I)) as X. rewrite E, chunk_list_app, map_app, zsum_app in X.
    pose proof (count_nonneg (chunk_list (7 + zlen (file_of s)) more)). unfold h_all in HB. rewrite zlen_app in HB. pose proof (zlen_nonneg _ (h_recent h)). lia. }
  assert (HL : forall s, In s snaps' -> exists rest, bulk s (MAGIC ++ [3]) rest).
  { intros s J. rewrite Forall_forall in PRE'. destruct (PRE' s J) as (more & E). exists (file_of more ++ 2 :: r). split; [rewrite E in LI; apply Forall_app in LI; apply LI|].
    destruct L as [_ L]. rewrite SD', E, file_of_app in L. rewrite <- !app_assoc in *. exact L. }
  assert (HBS : forall t, In t tmss' -> forall d tm, In tm (dev_metas_of d t) -> zlen (tser tm) < 2 ^ 32).
  { intros t J d tm K. apply (HBB d). rewrite Q4. apply in_concat. exists (dev_metas_of d t). split; [apply in_map; exact J|exact K]. }
  assert (DROWS : forall d, map row_of (getl d tsm) = concat (map (fun q => path_rows snap q d) stages)).
  { intros d. rewrite Q4, concat_map, map_map. unfold stages. rewrite map_map. f_equal.
    assert (X : forall l l', Forall2 (lists p) l l' -> incl l snaps' -> incl l' tmss' -> map (fun x => map row_of (dev_metas_of d x)) l' = map (fun x => path_rows snap (its_pieces x) d) l).
    { clear - HI' HP HL HBS Hsc HG. intros l l' F. induction F as [|s t l l' X F IH]; intros I1 I2; [reflexivity|]. cbn [map]. f_equal; [|apply IH; intros y Y; [apply I1|apply I2]; right; auto].
      assert (J : In s snaps') by (apply I1; left; auto). assert (J' : In t tmss') by (apply I2; left; auto). destruct (HL s J) as (rest & HLs). rewrite Forall_forall in HI'.
      exact (listed_rows_any s t d rest (HI' s J) HLs (HP s J) X (HBS t J' d)). }
    apply X; [exact Q1|apply incl_refl|apply incl_refl]. }
  assert (DEV : forall d, getl d tsm <> [] <-> In d (name_set (map device_part (concat (map (chunk_paths snap) stages))))).
  { intros d. rewrite name_set_in, in_map_iff. assert (NE : getl d tsm <> [] <-> concat (map (fun q => path_rows snap q d) stages) <> []).
    { rewrite <- DROWS. split; intros X Y; apply X; [apply map_eq_nil in Y; exact Y|rewrite Y; reflexivity]. }
    rewrite NE. split.
    - intros X. destruct (concat (map (fun q => path_rows snap q d) stages)) as [|y ys] eqn:E; [congruence|]. assert (J : In y (concat (map (fun q => path_rows snap q d) stages))) by (rewrite E; left; reflexivity).
      apply in_concat in J. destruct J as (x & J1 & J2). apply in_map_iff in J1. destruct J1 as (st & <- & J1). unfold path_rows in J2. apply in_map_iff in J2. destruct J2 as (q & _ & J2). apply filter_In in J2. destruct J2 as [J2 J3].
      apply PWriter.same_name_eq in J3. exists q. split; [exact J3|]. apply in_concat. exists (chunk_paths snap st). split; [apply in_map; exact J1|exact J2].
    - intros (q & E & J) X. apply in_concat in J. destruct J as (x & J1 & J2). apply in_map_iff in J1. destruct J1 as (st & <- & J1).
      assert (K : In ((fun q => let l := chunks_at snap q st in (record_name l, record_bytes l)) q) (concat (map (fun q => path_rows snap q d) stages))).
      { apply in_concat. exists (path_rows snap st d). split; [apply (in_map (fun q => path_rows snap q d)); exact J1|]. unfold path_rows. apply (in_map (fun q => let l := chunks_at snap q st in (record_name l, record_bytes l))).
        apply filter_In. split; [exact J2|]. rewrite E. apply PWriter.same_name_refl. }
      rewrite X in K. destruct K. }
  assert (ROWS : map dev_rows tsm = stage_rows snap stages).
  { apply sorted_same.
    - apply sorted_map; auto.
    - unfold stage_rows, sorted. rewrite map_map. cbn [fst]. rewrite map_id. apply name_set_rising.
    - intros [d rows]. unfold stage_rows. rewrite !in_map_iff. split.
      + intros ([d' l] & E & J). unfold dev_rows in E. cbn [fst snd] in E. injection E as -> <-. apply (getl_in _ _ _ _ Q2 Q3) in J. destruct J as [<- NE]. exists d. rewrite DROWS. split; [reflexivity|]. apply DEV. exact NE.
      + intros (d' & E & J). injection E as -> <-. exists (d, getl d tsm). unfold dev_rows. cbn [fst snd]. rewrite DROWS. split; [reflexivity|]. apply (getl_in _ _ _ _ Q2 Q3). split; [reflexivity|]. apply DEV. exact J. }
  assert (IN0 : In its snaps') by (apply in_or_app; right; left; reflexivity).
  assert (T1 : lists p its tms /\ In tms tmss').
  { split; [|apply in_or_app; right; left; reflexivity]. unfold snaps', tmss' in Q1. apply Forall2_app_inv_l in Q1. destruct Q1 as (x & y & Y1 & Y2 & Y3). inversion Y2 as [|? z ? ? Z1 Z2]; subst. inversion Z2; subst. apply app_inj_tail in Y3. destruct Y3 as [_ ->]. exact Z1. }
  destruct T1 as [T1 T1']. destruct (HL its IN0) as (rest & HL0).
  assert (OF : file_bytes w = MAGIC ++ [3] ++ data_bytes snap ps).
  { rewrite (wi_data _ _ _ _ _ _ I). unfold ps. erewrite its_image; eauto. }
  assert (ZF : zlen (file_bytes w) = 7 + zlen (data_bytes snap ps)). { rewrite OF, !zlen_app. change (zlen MAGIC) with 6. change (zlen [3]) with 1. lia. }
  change (sk_data (io_out (w_io w))) with (file_bytes w) in *. rewrite ROWS in *. exists (any_close_bytes snap stages ps nodes). split.
  { exists nodes. split; [|reflexivity]. replace (8 + zlen (data_bytes snap ps)) with (zlen (file_bytes w) + 1) by lia. exact PN. }
  rewrite EX. unfold any_close_bytes. cbv zeta. rewrite <- !app_assoc. do 4 f_equal.
  assert (CUR : forall q tm, In (q, tm) tms -> In tm (dev_metas_of (device_of_path q) tms)).
  { intros q tm J. apply in_map_iff. exists (q, tm). split; auto. apply filter_In. split; auto. unfold of_device. apply str_eqb_eq. reflexivity. }
  assert (ALL : forall d tm, In tm (dev_metas_of d tms) -> In tm (getl d tsm)).
  { intros d tm J. rewrite Q4. apply in_concat. exists (dev_metas_of d tms). split; [apply in_map; exact T1'|exact J]. }
  assert (CNT : zlen (map fst (chunk_map (metas 7 its))) <= 300000000).
  { assert (PP : Permutation (map fst (chunk_map (metas 7 its))) (concat (map (fun d => map fst (filter (of_device d) tms)) (map fst tsm)))).
    { replace (map fst (chunk_map (metas 7 its))) with (map fst tms) by (symmetry; exact (F2_keys _ _ (fun pm e => ts_meta_of p (snd pm) = Ret (snd e)) _ _ T1)).
      assert (E2 : concat (map (fun d => map fst (filter (of_device d) tms)) (map fst tsm)) = map fst (concat (map (fun d => filter (of_device d) tms) (map fst tsm)))) by (rewrite concat_map, !map_map; reflexivity).
      rewrite E2. apply Permutation_map. symmetry. etransitivity; [apply (groups_perm _ (fun e : list Z * ts_meta => device_of_path (fst e)) (map fst tsm) tms (lt_nodup _ Q2))|].
      rewrite filter_all; [reflexivity|]. intros [q tm] J. apply existsb_exists. exists (device_of_path q). split; [|apply str_eqb_eq; reflexivity].
      apply CUR, ALL in J. unfold getl in J. destruct (sm_get (device_of_path q) tsm) eqn:E; [|destruct J]. apply sm_get_in in E. apply (in_map fst) in E. exact E. }
    unfold zlen. rewrite (Permutation_length PP). fold (zlen (concat (map (fun d => map fst (filter (of_device d) tms)) (map fst tsm)))). rewrite zlen_concat_map, map_map.
    pose proof (wexec_healthy_fst (WAll [2]) _ (wi_healthy _ _ _ _ _ _ I)) as X0.
    assert (P0 : sk_pos (fst (wexec (WAll [2]) (io_out (w_io w)))) = zlen (sk_data (fst (wexec (WAll [2]) (io_out (w_io w)))))).
    { rewrite (se_data _ _ _ X0), (se_pos _ _ _ X0), zlen_app. rewrite (wi_pos _ _ _ _ _ _ I). reflexivity. }
    destruct (construct_spec _ _ _ _ _ (sk_ext_healthy _ _ _ X0 (wi_healthy _ _ _ _ _ _ I)) P0 HC) as (imap & bs & C1 & _ & _ & C2 & _).
    rewrite (nonempty_id _ _ Q3) in C1. assert (C3 : zlen tsm <= 256). { assert (X : length imap = length tsm) by (rewrite <- (map_length fst imap), C1, map_length; reflexivity). unfold zlen in *. lia. }
    assert (C4 : zsum (map (fun x : list Z * list ts_meta => zlen (map fst (filter (of_device (fst x)) tms))) tsm) <= zsum (map (fun _ : list Z * list ts_meta => 65536) tsm)).
    { apply zsum_map_le. intros [d l] J. cbn [fst]. specialize (TC d). rewrite Q4 in TC. pose proof (zlen_in_concat _ _ (dev_metas_of d) tmss' tms T1') as Y. unfold dev_metas_of at 1 in Y. unfold zlen in *. rewrite map_length in *. lia. }
    assert (C5 : forall A (l : list A), zsum (map (fun _ => 65536) l) = 65536 * zlen l). { induction l as [|x l IH]; [reflexivity|]. cbn [map]. rewrite zsum_cons, zlen_cons, IH. lia. }
    rewrite C5 in C4. lia. }
  rewrite HM in BF. rewrite (filter_exact p _ bf bw) with (3 := BF) (4 := BW); [|apply Forall_forall|exact CNT].
  - rewrite (paths_keys p snap decomp HG sc Hsc its HI rest HL0). rewrite !zlen_app. rewrite ZF. change (zlen [2]) with 1. rewrite <- !Z.add_assoc. reflexivity.
  - intros q J. destruct (cmap_keys p snap decomp HG sc Hsc its 7 _ HI J) as (d & m & ms & D & ->). split; [apply (BN _ _ _ D)|apply (SP _ _ _ D)].
Qed.
Definition any_names (ops : list op) : Prop := orders_ok ops /\ (0 < closes ops -> byte_names sc /\ short_paths sc /\ few_paths sc (closes ops) 65536).
Lemma any_app : forall a b, any_names (a ++ b) -> any_names a.
Proof.
  intros a b [O N]. split; [apply Forall_app in O; apply O|]. intros C. rewrite closes_app in N. pose proof (closes_nonneg b). destruct N as (A & B & D); [lia|]. do 2 (split; auto).
  intros d. specialize (D d). pose proof (zlen_nonneg _ (filter (fun q => same_name (device_part q) d) (declared_paths sc))). nia.
Qed.
Lemma any_bytes : forall w h ops l, trace p snap sc w h ops l -> ops_ok ops -> roomy_after snap sc ops -> modest p snap sc ops -> any_names ops ->
  exists ps stages, written_any snap sc ops ps stages /\ file_bytes w = the_file snap ps.
Proof.
  apply (again_file p snap decomp HG sc Hsc any_names any_app (any_close_appends snap)).
  intros ops ord h its w snaps tmss io' [OR CN] LEN I MI PRE HB EF LG BR. rewrite closes_snoc in CN. cbn [is_close] in CN. destruct CN as (BN & SP & FE); [pose proof (closes_nonneg ops); lia|].
  apply Forall_app in OR. destruct OR as [_ OR]. apply Forall_inv in OR. cbn beta iota in OR. rewrite <- LEN in FE.
  exact (close_any _ _ _ _ _ _ _ I MI PRE HB FE BN SP OR EF LG BR).
Qed.
End Close.
