(** The bytes of another close (C61). *)
From Verif Require Export PLayoutSession PReclose SAgain.
Ltac Zify.zify_post_hook ::= idtac.

Lemma concat_filter_nonempty : forall A B (f : list Z * list A -> list B) l, (forall x, snd x = [] -> f x = []) ->
  concat (map f (filter (fun dr => match snd dr with [] => false | _ => true end) l)) = concat (map f l).
Proof.
  intros A B f l H. induction l as [|x l IH]; [reflexivity|]. cbn [filter map concat]. destruct (snd x) as [|y r] eqn:E; [rewrite (H x E); exact IH|]. cbn [map concat]. rewrite IH. reflexivity.
Qed.

Section Again.
Variable p : profile.
Variable snap decomp : list Z -> option (list Z).
Hypothesis HG : good_snap snap decomp.
Variable sc : schema.
Hypothesis Hsc : schema_ok sc.
Hypothesis ND : no_dots sc.

(** One listing *)
Definition lists (s : list item) (tms : list (str * ts_meta)) : Prop := Forall2 (listed p) (chunk_map (metas 7 s)) tms.
Lemma lists_len : forall s tms d, lists s tms -> length (dev_metas_of d tms) = length (filter (of_device d) (chunk_map (metas 7 s))).
Proof.
  intros s tms d F. unfold dev_metas_of. rewrite map_length. symmetry.
  exact (F2_length _ _ _ _ _ (F2_filter _ _ _ (of_device d) (of_device d) _ _ (fun a b H => f_equal (fun q => str_eqb (device_of_path q) d) (eq_sym (proj1 H))) F)).
Qed.
Lemma lists_total : forall d snaps tmss, Forall (Forall (item_ok p snap sc)) snaps -> Forall2 lists snaps tmss ->
  concat (map (dev_metas_of d) tmss) = [] \/ exists g, In (d, g) sc /\ zlen (concat (map (dev_metas_of d) tmss)) <= zlen snaps * zlen g.
Proof.
  intros d snaps tmss HI F. induction F as [|s tms snaps tmss X F IH]; [left; reflexivity|]. inversion HI as [|? ? H1 H2]; subst. specialize (IH H2).
  cbn [map concat]. pose proof (lists_len s tms d X) as LL. destruct (cmap_group p snap decomp HG sc Hsc s 7 H1 ND d) as [E|(g & D & LG)].
  - rewrite E in LL. destruct (dev_metas_of d tms); [|discriminate]. cbn [app]. destruct IH as [IH|(g & I1 & I2)]; [left; exact IH|right]. exists g. split; auto. rewrite zlen_cons. pose proof (zlen_nonneg _ g). lia.
  - right. exists g. split; auto. rewrite zlen_app, zlen_cons. assert (LD : zlen (dev_metas_of d tms) <= zlen g) by (unfold zlen in *; rewrite LL; exact LG). pose proof (zlen_nonneg _ g). pose proof (zlen_nonneg _ snaps). destruct IH as [IH|(g' & I1 & I2)].
    + rewrite IH, zlen_nil. nia.
    + assert (EG : g' = g). { destruct Hsc as [NDs _]. pose proof (sm_get_nodup _ _ _ _ NDs I1). pose proof (sm_get_nodup _ _ _ _ NDs D). congruence. } subst g'. lia.
Qed.
Lemma lists_in : forall s tms d tm, Forall (item_ok p snap sc) s -> lists s tms -> In tm (dev_metas_of d tms) ->
  exists m ms cms, declares sc d m ms /\ In (path_of d m, cms) (chunk_map (metas 7 s)) /\ ts_meta_of p cms = Ret tm.
Proof.
  intros s tms d tm HI X J. apply (tms_in p snap decomp HG sc Hsc s HI ND tms X d tm) in J. destruct J as (m & ms & cms & A & B & _ & C). eauto 6.
Qed.

Lemma close_again : forall h its w snaps tmss ord io', winv p snap sc h its w -> minv p snaps (io_tsmeta (w_io w)) tmss -> Forall (fun s => exists more, its = s ++ more) snaps ->
  zlen (h_all h) < 2 ^ 32 -> few_entries sc (zlen snaps + 1) 65536 -> byte_names sc -> short_paths sc -> good_order ord ->
  end_file p ord (w_io w) = Ret io' -> Forall light its -> brief (sk_data (io_out (w_io w))) (sk_data (io_out io')) ->
  let ps := its_pieces its in let stages := map its_pieces (snaps ++ [its]) in
  exists nodes, Permutation nodes (device_nodes (8 + zlen (data_bytes snap ps)) (listed_rows snap sc stages)) /\
    sk_data (io_out io') = sk_data (io_out (w_io w)) ++ close_bytes snap sc stages ps nodes.
Proof.
  intros h its w snaps tmss ord io' I MI PRE HB FE BN SP GO H LI L ps stages.
  pose proof (wi_items _ _ _ _ _ _ I) as HI. pose proof (wi_metas _ _ _ _ _ _ I) as HM.
  destruct (end_file_ok p ord _ _ (wi_healthy _ _ _ _ _ _ I) H) as (r & SX & _). pose proof (se_data _ _ _ SX) as SD'. change (sk_data (io_out (w_io w))) with (file_bytes w) in SD'. rewrite (wi_data _ _ _ _ _ _ I) in SD'.
  pose proof H as H'. unfold end_file in H'. cbv zeta in H'. apply bind_ret in H'. destruct H' as (tsm & M & H'). apply bind_ret in H'. destruct H' as ([root o1] & HC & _).
  pose proof M as M0. rewrite HM in M0. destruct (minv_close p snaps _ tmss its tsm MI M0) as (tms & [Q1 Q2 Q3 Q4]).
  set (snaps' := snaps ++ [its]) in *. set (tmss' := tmss ++ [tms]) in *.
  assert (PRE' : Forall (fun s => exists more, its = s ++ more) snaps').
  { apply Forall_app. split; [exact PRE|]. constructor; [|constructor]. exists []. rewrite app_nil_r. reflexivity. }
  assert (HI' : Forall (Forall (item_ok p snap sc)) snaps').
  { eapply Forall_impl; [|exact PRE']. cbn beta. intros s (more & E). rewrite E in HI. apply Forall_app in HI. apply HI. }
  assert (TC : forall d, zlen (getl d tsm) <= 65536).
  { intros d. rewrite Q4. destruct (lists_total d snaps' tmss' HI' Q1) as [Z|(g & D & LE)]; [rewrite Z, zlen_nil; lia|].
    unfold few_entries in FE. rewrite Forall_forall in FE. apply FE in D. cbn [snd] in D. unfold snaps' in LE. rewrite zlen_app in LE. change (zlen [its]) with 1 in LE. lia. }
  assert (TIN : forall d tm, In tm (getl d tsm) -> exists s t, In s snaps' /\ lists s t /\ In tm (dev_metas_of d t)).
  { intros d tm J. rewrite Q4 in J. apply in_concat in J. destruct J as (x & J1 & J2). apply in_map_iff in J1. destruct J1 as (t & <- & J1). destruct (F2_in_r _ _ _ _ _ t Q1 J1) as (s & S1 & S2). eauto 6. }
  assert (FT : Forall (fun dl : list Z * list ts_meta => zlen (fst dl) < 2 ^ 31 /\ zlen (snd dl) <= 65536 /\ Forall (fun tm => zlen (tm_id tm) < 2 ^ 31) (snd dl)) tsm).
  { apply Forall_forall. intros [d l] J. cbn [fst snd]. apply (getl_in _ _ _ _ Q2 Q3) in J. destruct J as [<- NE].
    assert (K : forall tm, In tm (getl d tsm) -> zlen d < 2 ^ 31 /\ zlen (tm_id tm) < 2 ^ 31).
    { intros tm J. apply TIN in J. destruct J as (s & t & S1 & S2 & S3). rewrite Forall_forall in HI'. pose proof (HI' s S1) as HIs. destruct (lists_in s t d tm HIs S2 S3) as (m & ms & cms & D & C & TM).
      destruct (ts_meta_id _ _ _ TM) as (m0 & l & -> & ->). destruct (cmap_entries p snap decomp HG sc Hsc s 7 _ _ HIs ND C) as (_ & _ & X). split; [|apply (X m0 l eq_refl)].
      pose proof (SP _ _ _ D) as Y. rewrite !zlen_app in Y. pose proof (zlen_nonneg _ [46]). pose proof (zlen_nonneg _ m). lia. }
    split; [|split; [apply TC|apply Forall_forall; intros tm J; apply (K tm J)]]. destruct (getl d tsm) as [|tm l']; [congruence|]. apply (K tm (or_introl eq_refl)). }
  destruct (end_file_exact p ord (w_io w) io' tsm GO (wi_healthy _ _ _ _ _ _ I) (wi_pos _ _ _ _ _ _ I) H L M Q3 FT) as (nodes & bf & bw & PN & BF & BW & EX).
  cbv zeta in EX.
  assert (HBB : forall d tm, In tm (getl d tsm) -> zlen (tser tm) < 2 ^ 32).
  { intros d tm J. assert (K : In (d, getl d tsm) tsm). { apply (getl_in _ _ _ _ Q2 Q3). split; [reflexivity|]. destruct (getl d tsm); [destruct J|discriminate]. }
    eapply Z.le_lt_trans; [|exact (proj1 L)]. rewrite EX. rewrite !zlen_app.
    pose proof (zlen_in_concat _ _ (fun dr : list Z * list (list Z * list Z) => rows_bytes (snd dr)) (map dev_rows tsm) (dev_rows (d, getl d tsm)) (in_map dev_rows _ _ K)) as X1.
    pose proof (zlen_in_concat _ _ snd (map row_of (getl d tsm)) (row_of tm) (in_map row_of _ _ J)) as X2. cbn [dev_rows row_of fst snd] in X1, X2. unfold rows_bytes at 1 in X1.
    repeat match goal with |- context [zlen ?x] => lazymatch goal with H : 0 <= zlen x |- _ => fail | _ => pose proof (zlen_nonneg _ x) end end. lia. }
  (* the listings *)
  assert (HP : forall s, In s snaps' -> forall d m, zlen (its_series d m s) < 2 ^ 32).
  { intros s J d m. rewrite Forall_forall in PRE'. destruct (PRE' s J) as (more & E). pose proof (wi_series _ _ _ _ _ _ I d m) as S. rewrite E, its_series_app in S.
    pose proof (PWriter.series_len d m (h_flushed h)) as X. rewrite <- S, zlen_app in X. unfold h_all in HB. rewrite zlen_app in HB. pose proof (zlen_nonneg _ (h_recent h)). pose proof (zlen_nonneg _ (its_series d m more)). lia. }
  assert (HL : forall s, In s snaps' -> exists rest, bulk s (MAGIC ++ [3]) rest).
  { intros s J. rewrite Forall_forall in PRE'. destruct (PRE' s J) as (more & E). exists (file_of more ++ 2 :: r). split; [rewrite E in LI; apply Forall_app in LI; apply LI|].
    destruct L as [_ L]. rewrite SD', E, file_of_app in L. rewrite <- !app_assoc in *. exact L. }
  assert (HBS : forall t, In t tmss' -> forall d tm, In tm (dev_metas_of d t) -> zlen (tser tm) < 2 ^ 32).
  { intros t J d tm K. apply (HBB d). rewrite Q4. apply in_concat. exists (dev_metas_of d t). split; [apply in_map; exact J|exact K]. }
  assert (DROWS : forall d g, In (d, g) sc -> map row_of (getl d tsm) = concat (map (fun q => device_rows snap q d g) stages)).
  { intros d g D. rewrite Q4, concat_map, map_map. unfold stages. rewrite map_map. f_equal.
    assert (X : forall l l', Forall2 lists l l' -> incl l snaps' -> incl l' tmss' -> map (fun x => map row_of (dev_metas_of d x)) l' = map (fun x => device_rows snap (its_pieces x) d g) l).
    { clear - HI' HP HL HBS D Hsc HG ND. intros l l' F. induction F as [|s t l l' X F IH]; intros I1 I2; [reflexivity|]. cbn [map]. f_equal; [|apply IH; intros y Y; [apply I1|apply I2]; right; auto].
      assert (J : In s snaps') by (apply I1; left; auto). assert (J' : In t tmss') by (apply I2; left; auto). destruct (HL s J) as (rest & HLs). rewrite Forall_forall in HI'.
      exact (group_rows p snap decomp HG sc Hsc s (HI' s J) ND rest HLs (HP s J) t X (HBS t J') d g D). }
    apply X; [exact Q1|apply incl_refl|apply incl_refl]. }
  assert (DECL : forall d tm, In tm (getl d tsm) -> exists g, In (d, g) sc).
  { intros d tm J. apply TIN in J. destruct J as (s & t & S1 & S2 & S3). rewrite Forall_forall in HI'. destruct (lists_in s t d tm (HI' s S1) S2 S3) as (m & ms & cms & (g & D & _) & _). eauto. }
  pose proof (proj1 Hsc) as NS.
  assert (SB : sorted (by_name sc)) by (apply by_name_perm; auto).
  assert (BY : forall d g, In (d, g) (by_name sc) <-> In (d, g) sc).
  { intros d g. split; intros J; [eapply Permutation_in; [apply by_name_permutation|exact J]|eapply Permutation_in; [symmetry; apply by_name_permutation|exact J]]. }
  assert (ROWS : map dev_rows tsm = listed_rows snap sc stages).
  { apply sorted_same.
    - apply sorted_map; auto.
    - unfold listed_rows. apply sorted_filter, sorted_map; auto.
    - intros [d rows]. unfold listed_rows. rewrite filter_In, !in_map_iff. split.
      + intros ([d' l] & E & J). unfold dev_rows in E. cbn [fst snd] in E. injection E as -> <-. apply (getl_in _ _ _ _ Q2 Q3) in J. destruct J as [<- NE].
        assert (EX0 : exists tm, In tm (getl d tsm)) by (destruct (getl d tsm) as [|tm ?]; [congruence|exists tm; left; reflexivity]). destruct EX0 as (tm0 & J0). destruct (DECL d tm0 J0) as (g & D). split.
        * exists (d, g). cbn [fst snd]. rewrite <- (DROWS d g D). split; [reflexivity|apply BY; exact D].
        * cbn [snd]. destruct (getl d tsm); [congruence|reflexivity].
      + intros [([d' g] & E & J) NE]. cbn [fst snd] in *. injection E as -> <-. apply BY in J.
        exists (d, getl d tsm). unfold dev_rows. cbn [fst snd]. rewrite (DROWS d g J). split; auto. apply (getl_in _ _ _ _ Q2 Q3). split; [reflexivity|].
        intros X. rewrite <- (DROWS d g J), X in NE. discriminate. }
  assert (IN0 : In its snaps') by (apply in_or_app; right; left; reflexivity).
  assert (T1 : lists its tms /\ In tms tmss').
  { split; [|apply in_or_app; right; left; reflexivity]. unfold snaps', tmss' in Q1. apply Forall2_app_inv_l in Q1. destruct Q1 as (x & y & Y1 & Y2 & Y3). inversion Y2 as [|? z ? ? Z1 Z2]; subst. inversion Z2; subst. apply app_inj_tail in Y3. destruct Y3 as [_ ->]. exact Z1. }
  destruct T1 as [T1 T1']. destruct (HL its IN0) as (rest & HL0).
  assert (OF : file_bytes w = MAGIC ++ [3] ++ data_bytes snap ps).
  { rewrite (wi_data _ _ _ _ _ _ I). unfold ps. erewrite its_image; eauto. }
  assert (ZF : zlen (file_bytes w) = 7 + zlen (data_bytes snap ps)). { rewrite OF, !zlen_app. change (zlen MAGIC) with 6. change (zlen [3]) with 1. lia. }
  change (sk_data (io_out (w_io w))) with (file_bytes w) in *. rewrite ROWS in *. exists nodes. split.
  { replace (8 + zlen (data_bytes snap ps)) with (zlen (file_bytes w) + 1) by lia. exact PN. }
  rewrite EX. unfold close_bytes. cbv zeta. rewrite <- !app_assoc. do 4 f_equal.
  assert (PERM : forall ds, NoDup ds -> (forall q tm, In (q, tm) tms -> In (device_of_path q) ds) -> Permutation (map fst (chunk_map (metas 7 its))) (concat (map (fun d => map fst (filter (of_device d) tms)) ds))).
  { intros ds N C. replace (map fst (chunk_map (metas 7 its))) with (map fst tms) by (symmetry; exact (F2_keys _ _ (fun pm e => ts_meta_of p (snd pm) = Ret (snd e)) _ _ T1)).
    assert (E2 : concat (map (fun d => map fst (filter (of_device d) tms)) ds) = map fst (concat (map (fun d => filter (of_device d) tms) ds))) by (rewrite concat_map, !map_map; reflexivity).
    rewrite E2. apply Permutation_map. symmetry. etransitivity; [apply (groups_perm _ (fun e : list Z * ts_meta => device_of_path (fst e)) ds tms N)|].
    rewrite filter_all; [reflexivity|]. intros [q tm] J. apply existsb_exists. exists (device_of_path q). split; [exact (C q tm J)|apply str_eqb_eq; reflexivity]. }
  assert (CUR : forall q tm, In (q, tm) tms -> In tm (dev_metas_of (device_of_path q) tms)).
  { intros q tm J. apply in_map_iff. exists (q, tm). split; auto. apply filter_In. split; auto. unfold of_device. apply str_eqb_eq. reflexivity. }
  assert (ALL : forall d tm, In tm (dev_metas_of d tms) -> In tm (getl d tsm)).
  { intros d tm J. rewrite Q4. apply in_concat. exists (dev_metas_of d tms). split; [apply in_map; exact T1'|exact J]. }
  assert (PATHS : Permutation (map fst (chunk_map (metas 7 its))) (concat (map (fun dr => map (fun r => fst dr ++ [46] ++ fst r) (snd dr)) (index_rows snap sc ps)))).
  { unfold index_rows. rewrite concat_filter_nonempty by (intros x E; rewrite E; reflexivity). rewrite map_map. cbn [fst snd].
    replace (concat (map (fun x => map (fun r0 : list Z * list Z => fst x ++ [46] ++ fst r0) (device_rows snap ps (fst x) (snd x))) (by_name sc))) with (concat (map (fun d => map fst (filter (of_device d) tms)) (map fst (by_name sc)))).
    - apply PERM; [apply lt_nodup; exact SB|]. intros q tm J. destruct (DECL _ _ (ALL _ _ (CUR q tm J))) as (g & D). apply BY in D. apply (in_map fst) in D. exact D.
    - f_equal. rewrite map_map. apply map_ext_in. intros [d g] J. cbn [fst snd]. apply BY in J. unfold ps.
      rewrite <- (group_rows p snap decomp HG sc Hsc its HI ND rest HL0 (HP its IN0) tms T1 (HBS tms T1') d g J). rewrite !map_map. apply map_ext_in. intros [q tm] K. cbn [row_of fst snd].
      exact (row_path p snap decomp HG sc Hsc its HI ND rest HL0 (HP its IN0) tms T1 (HBS tms T1') d (q, tm) K). }
  assert (CNT : zlen (map fst (chunk_map (metas 7 its))) <= 300000000).
  { assert (PP : Permutation (map fst (chunk_map (metas 7 its))) (concat (map (fun d => map fst (filter (of_device d) tms)) (map fst tsm)))).
    { apply PERM; [apply lt_nodup; exact Q2|]. intros q tm J. apply CUR, ALL in J. unfold getl in J. destruct (sm_get (device_of_path q) tsm) eqn:E; [|destruct J]. apply sm_get_in in E. apply (in_map fst) in E. exact E. }
    unfold zlen. rewrite (Permutation_length PP). fold (zlen (concat (map (fun d => map fst (filter (of_device d) tms)) (map fst tsm)))). rewrite zlen_concat_map, map_map.
    pose proof (wexec_healthy_fst (WAll [2]) _ (wi_healthy _ _ _ _ _ _ I)) as X0.
    assert (P0 : sk_pos (fst (wexec (WAll [2]) (io_out (w_io w)))) = zlen (sk_data (fst (wexec (WAll [2]) (io_out (w_io w)))))).
    { rewrite (se_data _ _ _ X0), (se_pos _ _ _ X0), zlen_app. rewrite (wi_pos _ _ _ _ _ _ I). reflexivity. }
    destruct (construct_spec _ _ _ _ _ (sk_ext_healthy _ _ _ X0 (wi_healthy _ _ _ _ _ _ I)) P0 HC) as (imap & bs & C1 & _ & _ & C2 & _).
    rewrite (nonempty_id _ _ Q3) in C1. assert (C3 : zlen tsm <= 256). { assert (X : length imap = length tsm) by (rewrite <- (map_length fst imap), C1, map_length; reflexivity). unfold zlen in *. lia. }
    assert (C4 : zsum (map (fun x : list Z * list ts_meta => zlen (map fst (filter (of_device (fst x)) tms))) tsm) <= zsum (map (fun _ : list Z * list ts_meta => 65536) tsm)).
    { apply zsum_map_le. intros [d l] J. cbn [fst]. specialize (TC d). rewrite Q4 in TC. pose proof (zlen_in_concat _ _ (dev_metas_of d) tmss' tms T1') as Y. unfold dev_metas_of at 1 in Y. unfold zlen in *. rewrite map_length in *. lia. }
    assert (C5 : forall A (l : list A), zsum (map (fun _ => 65536) l) = 65536 * zlen l). { induction l as [|x l IH]; [reflexivity|]. cbn [map]. rewrite zsum_cons, zlen_cons, IH. lia. }
    rewrite C5 in C4. lia. }
  rewrite HM in BF. rewrite (filter_exact p _ bf bw) with (3 := BF) (4 := BW); [|apply Forall_forall|exact CNT].
  - rewrite (filter_image_perm _ _ PATHS). rewrite !zlen_app. rewrite ZF. change (zlen [2]) with 1. rewrite <- !Z.add_assoc. reflexivity.
  - intros q J. destruct (cmap_keys p snap decomp HG sc Hsc its 7 _ HI J) as (d & m & ms & D & ->). split; [apply (BN _ _ _ D)|apply (SP _ _ _ D)].
Qed.
End Again.
