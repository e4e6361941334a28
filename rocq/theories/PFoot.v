(** The footer of a closed file (C18, C21). *)
From Verif Require Export PFile.
Ltac Zify.zify_post_hook ::= idtac.

Lemma drop_some : forall o l r, drop o l = Some r -> exists a, l = a ++ r /\ zlen a = o.
Proof.
  intros o l r H. unfold drop in H. destruct ((0 <=? o) && (o <=? Z.of_nat (length l))) eqn:E; [|discriminate]. injection H as <-.
  exists (firstn (Z.to_nat o) l). split; [symmetry; apply firstn_skipn|]. unfold zlen. rewrite firstn_length. lia.
Qed.
Lemma take_some : forall n l x r, take n l = Some (x, r) -> l = x ++ r /\ zlen x = n.
Proof.
  intros n l x r H. unfold take in H. destruct ((0 <=? n) && (n <=? Z.of_nat (length l))) eqn:E; [|discriminate]. injection H as <- <-.
  split; [symmetry; apply firstn_skipn|]. unfold zlen. rewrite firstn_length. lia.
Qed.
Lemma slice_some : forall a b l x, slice a b l = Some x -> exists p s, l = p ++ x ++ s /\ zlen p = a /\ zlen x = b - a.
Proof.
  intros a b l x H. unfold slice in H. destruct (drop a l) as [r|] eqn:D; [|discriminate]. destruct (take (b - a) r) as [[y s]|] eqn:T; [|discriminate]. injection H as <-.
  apply drop_some in D. destruct D as (p & -> & L). apply take_some in T. destruct T as [-> L2]. exists p, s. auto.
Qed.
Lemma app_tail : forall A (a b c d : list A), a ++ b = c ++ d -> length b = length d -> a = c /\ b = d.
Proof.
  intros A a. induction a as [|x a IH]; intros b [|y c] d E L; cbn [app] in *; auto.
  - subst b. cbn [length] in L. rewrite app_length in L. lia.
  - subst d. cbn [length] in L. rewrite app_length in L. lia.
  - injection E as -> E. apply IH in E; auto. destruct E as [-> ->]. auto.
Qed.
Lemma app_split_le : forall (a b c d : list Z), a ++ b = c ++ d -> zlen c <= zlen a -> exists m, a = c ++ m /\ d = m ++ b.
Proof.
  intros a b c. revert a. induction c as [|y c IH]; intros a d E L; cbn [app] in *; [exists a; auto|].
  destruct a as [|x a]; [rewrite zlen_cons, zlen_nil in L; pose proof (zlen_nonneg _ c); lia|]. cbn [app] in E. injection E as -> E. rewrite !zlen_cons in L.
  destruct (IH a d E) as (m & -> & ->); [lia|]. exists m. auto.
Qed.
(** The footer of a file: front, footer proper, its length in 4 bytes, the magic bytes. *)
Lemma footer_inv : forall file ft, footer_read file = Some ft ->
  exists front foot nb l1 l2, file = front ++ foot ++ nb ++ magic /\ zlen nb = 4 /\ be_val nb = zlen foot /\ ft_size ft = zlen foot /\
    node_read foot = Some (ft_root ft, l1) /\ be_unsigned 8 l1 = Some (ft_meta ft, l2) /\ bloom_read l2 = Some (ft_bloom ft, []).
Proof.
  intros file ft H. unfold footer_read in H. fold (zlen file) in H.
  destruct (slice (zlen file - 6) (zlen file) file) as [m|] eqn:S1; [|discriminate]. destruct (list_eq_dec Z.eq_dec m magic) as [->|]; [|discriminate].
  destruct (slice (zlen file - 10) (zlen file - 6) file) as [nb|] eqn:S2; [|discriminate].
  destruct (slice (zlen file - 10 - be_val nb) (zlen file - 10) file) as [foot|] eqn:S3; [|discriminate].
  destruct (node_read foot) as [[root l1]|] eqn:N; [|discriminate]. destruct (be_unsigned 8 l1) as [[meta l2]|] eqn:B; [|discriminate].
  destruct (bloom_read l2) as [[b [|]]|] eqn:BL; try discriminate. injection H as <-. cbn [ft_size ft_root ft_meta ft_bloom].
  apply slice_some in S1, S2, S3. destruct S1 as (p1 & s1 & E1 & L1 & M1). destruct S2 as (p2 & s2 & E2 & L2 & M2). destruct S3 as (p3 & s3 & E3 & L3 & M3).
  change (zlen magic) with 6 in M1.
  assert (LL : zlen file = zlen file) by reflexivity. rewrite E1 in LL at 1. rewrite !zlen_app, L1 in LL. change (zlen magic) with 6 in LL.
  assert (s1 = []) by (destruct s1; auto; rewrite zlen_cons in LL; pose proof (zlen_nonneg _ s1); lia). subst s1. rewrite app_nil_r in E1.
  assert (LL2 : zlen file = zlen file) by reflexivity. rewrite E2 in LL2 at 1. rewrite !zlen_app, L2, M2 in LL2.
  assert (LL3 : zlen file = zlen file) by reflexivity. rewrite E3 in LL3 at 1. rewrite !zlen_app, L3, M3 in LL3.
  assert (X : p2 ++ nb = p1 /\ s2 = magic).
  { apply app_tail; [rewrite <- app_assoc, <- E2; exact E1|]. unfold zlen in LL2. change (length magic) with 6%nat. lia. }
  destruct X as [<- ->].
  assert (Y : p3 ++ foot = p2 /\ s3 = nb ++ magic).
  { apply app_tail; [rewrite <- app_assoc, <- E3; exact E2|]. rewrite app_length. unfold zlen in *. change (length magic) with 6%nat. lia. }
  destruct Y as [<- ->]. exists p3, foot, nb, l1, l2. split; [exact E3|]. split; [lia|]. split; [lia|]. split; [lia|]. auto.
Qed.

Lemma join_len : forall s, zlen (device_of_path s) <= zlen s.
Proof.
  intros s. unfold device_of_path. rewrite <- (join_split s) at 2. generalize (split_dot s). intros l. induction l as [|x l IH]; [cbn; lia|].
  destruct l as [|y l]; [cbn [removelast join_dot]; pose proof (zlen_nonneg _ x); rewrite zlen_nil; lia|].
  change (removelast (x :: y :: l)) with (x :: removelast (y :: l)). change (join_dot (x :: y :: l)) with (x ++ [46] ++ join_dot (y :: l)).
  rewrite !zlen_app. change (zlen [46]) with 1. destruct (removelast (y :: l)) as [|z r] eqn:E.
  - change (join_dot [x]) with x. pose proof (zlen_nonneg _ (join_dot (y :: l))). lia.
  - change (join_dot (x :: z :: r)) with (x ++ [46] ++ join_dot (z :: r)). rewrite !zlen_app. change (zlen [46]) with 1. lia.
Qed.

Section Foot.
Variable p : profile.
Variable snap decomp : list Z -> option (list Z).
Hypothesis HG : good_snap snap decomp.
Variable sc : schema.
Hypothesis Hsc : schema_ok sc.

Lemma cmetas_conv : forall cs o c, In c cs -> Forall (citem_ok p snap) cs -> exists cm, In cm (cmetas o cs) /\ cm_id cm = c_name c.
Proof.
  induction cs as [|c0 cs IH]; intros o c I F; [destruct I|]. inversion F as [|? ? [F1 _ F2] F']; subst. cbn [cmetas]. destruct I as [<-|I].
  - eexists. split; [left; reflexivity|]. cbn [cmeta cm_id]. destruct (sealed_inv p snap decomp HG _ _ _ _ F1 F2) as (pages & ims & IV & _). apply IV.
  - destruct (IH (o + zlen (cbytes c0)) c I F') as (cm & J & E). exists cm. split; [right|]; auto.
Qed.
Lemma flat_conv : forall its off d m, Forall (item_ok p snap sc) its -> its_series d m its <> [] -> exists cm, In (d, cm) (flat (metas off its)) /\ cm_id cm = m.
Proof.
  intros its. induction its as [|it its IH]; intros off d m F N; [exfalso; apply N; reflexivity|]. inversion F as [|? ? F1 F2]; subst.
  unfold its_series in N. cbn [map concat] in N. cbn [metas]. rewrite flat_app.
  destruct (iseries d m it) as [|z zs] eqn:E.
  - destruct (IH (off + zlen (item_bytes it)) d m F2 N) as (cm & I & J). exists cm. split; auto. apply in_or_app. right. exact I.
  - destruct it as [d' cs|bs]; [|discriminate]. cbn [iseries] in E. destruct (same_name d' d) eqn:ED; [|discriminate]. apply same_name_eq in ED. subst d'.
    unfold cseries in E. destruct (filter (fun c => same_name (c_name c) m) cs) as [|c cs'] eqn:EF; [discriminate|].
    assert (I : In c cs /\ same_name (c_name c) m = true) by (apply (filter_In (fun c => same_name (c_name c) m)); rewrite EF; left; auto). destruct I as [I1 I2]. apply same_name_eq in I2.
    destruct F1 as (g0 & _ & F1). destruct (cmetas_conv cs (off + zlen (ghead d)) c I1) as (cm & J1 & J2); [eapply Forall_impl; [|exact F1]; cbn; tauto|].
    exists cm. split; [|congruence]. apply in_or_app. left. cbn [imetas]. destruct cs; [destruct I1|]. unfold flat. cbn [map concat fst snd]. rewrite app_nil_r. apply in_map. exact J1.
Qed.
Lemma cmap_keys : forall its off q, Forall (item_ok p snap sc) its -> In q (map fst (chunk_map (metas off its))) -> exists d m ms, declares sc d m ms /\ q = d ++ [46] ++ m.
Proof.
  intros its off q F I. destruct (chunk_map_spec (metas off its)) as (S & N & E). apply in_map_iff in I. destruct I as ([q' l] & <- & I). apply (getl_in _ _ _ _ S N) in I. destruct I as [I NE].
  rewrite E in I. cbn [fst]. destruct (filter (on_path q') (flat (metas off its))) as [|[d cm] r] eqn:EF; [cbn in I; congruence|].
  assert (J : In (d, cm) (flat (metas off its)) /\ on_path q' (d, cm) = true) by (apply filter_In; rewrite EF; left; auto). destruct J as [J1 J2].
  unfold on_path in J2. cbn [fst snd] in J2. apply str_eqb_eq in J2. subst q'. destruct (flat_in_its _ _ _ _ J1) as (x & cs & y & c & o & -> & K & ->).
  destruct (item_declares p snap sc Hsc _ _ _ _ _ F K) as [[A1 _ A2] D]. exists d, (c_name c), (c_ms c). split; auto. unfold path_of. cbn [cmeta cm_id].
  destruct (sealed_inv p snap decomp HG _ _ _ _ A1 A2) as (pages & ims & IV & _). rewrite (ci_id _ _ _ _ _ _ _ _ _ _ IV). auto.
Qed.
Lemma cmap_keys_conv : forall its off d m, Forall (item_ok p snap sc) its -> its_series d m its <> [] -> In (d ++ [46] ++ m) (map fst (chunk_map (metas off its))).
Proof.
  intros its off d m F N. destruct (flat_conv its off d m F N) as (cm & I & <-). destruct (chunk_map_spec (metas off its)) as (S & NE & E).
  apply in_map_iff. exists (path_of d (cm_id cm), getl (path_of d (cm_id cm)) (chunk_map (metas off its))). split; auto. apply (getl_in _ _ _ _ S NE). split; auto.
  rewrite E. intros X. apply map_eq_nil in X. assert (J : In (d, cm) (filter (on_path (path_of d (cm_id cm))) (flat (metas off its)))) by (apply filter_In; split; auto; apply str_eqb_refl).
  rewrite X in J. destruct J.
Qed.

Lemma closed_footer_large : forall w h ops l ord w' a, trace p snap sc w h ops l -> ops_ok ops -> no_close ops = true ->
  step p snap w (OpClose ord) = Ret (w', a) -> modest p snap sc (ops ++ [OpClose ord]) -> good_order ord -> short_paths sc ->
  exists ft cs r, footer_read (file_bytes w') = Some ft /\ scan_file decomp (file_bytes w') = Some (cs, 2 :: r) /\ drop (ft_meta ft) (file_bytes w') = Some (2 :: r) /\
    7 <= ft_meta ft /\ ft_meta ft + 1 + ft_size ft + 10 <= zlen (file_bytes w') /\
    (h_recent h = [] \/ 0 < h_counted h -> byte_names sc -> forall d m, series_of d m (h_all h) <> [] -> might_contain (ft_bloom ft) (d ++ [46] ++ m) = true).
Proof.
  intros w h ops l ord w' a T O NC H MO GO SP. destruct (close_parts_light p snap decomp HG sc Hsc _ _ _ _ _ _ _ T O NC H MO) as (w1 & its & I & IG & E & LI & L).
  set (h1 := if 0 <? h_counted h then h_flush h else h) in *. change (file_bytes w') with (sk_data (io_out (w_io w'))) in *.
  pose proof (wi_items _ _ _ _ _ _ I) as HI. pose proof (wi_metas _ _ _ _ _ _ I) as HM.
  destruct (footer_of_end p ord (w_io w1) (w_io w') GO (wi_healthy _ _ _ _ _ _ I) (wi_pos _ _ _ _ _ _ I) E L) as (tsm & imap & root & blk & A1 & A2 & _ & A3 & A4 & (n & A5 & AS) & (r & A6) & A7).
  { intros tsm d M J. rewrite (wi_tsmeta _ _ _ _ _ _ I IG) in M. destruct (metadata_loop_spec p _ None [] tsm M (sorted_nil _) (Forall_nil _)) as (tms & T1 & T2 & T3 & T4).
    destruct (sm_get_some_in _ _ _ J) as (v & Gv). pose proof (sm_get_in _ _ _ _ Gv) as Iv. unfold no_empty in T3. rewrite Forall_forall in T3. apply T3 in Iv. cbn [snd] in Iv.
    specialize (T4 d). unfold getl in T4. rewrite Gv in T4. cbn [sm_get app] in T4. destruct (filter (of_device d) tms) as [|e es] eqn:EF; [cbn in T4; congruence|].
    assert (K : In e tms /\ of_device d e = true) by (apply filter_In; rewrite EF; left; auto). destruct K as [K1 K2]. destruct (F2_in_r _ _ _ _ _ e T1 K1) as (pm & K3 & K4 & _).
    unfold of_device in K2. apply str_eqb_eq in K2. rewrite K4 in K2. subst d. pose proof (join_len (fst pm)). apply (in_map fst) in K3. rewrite HM in K3.
    destruct (cmap_keys _ _ _ HI K3) as (d' & m & ms & D & Q). apply SP in D. rewrite <- Q in D. lia. }
  assert (FE : sk_data (io_out (w_io w')) = (MAGIC ++ [3] ++ file_of its) ++ 2 :: r).
  { rewrite A6. change (sk_data (io_out (w_io w1))) with (file_bytes w1). rewrite (wi_data _ _ _ _ _ _ I). reflexivity. }
  destruct (scan_file_ok p snap decomp HG its (2 :: r)) as (xs & X1 & extra & rest & X2 & X3); auto.
  { eapply items_names; eauto. }
  destruct (X3 r eq_refl) as [-> ->]. eexists _, _, r. split; [exact A5|]. split; [rewrite FE; exact X2|]. cbn [ft_meta ft_bloom ft_size]. split; [|split; [|split; [exact AS|]]].
  - rewrite A6. apply drop_app. reflexivity.
  - change (sk_data (io_out (w_io w1))) with (file_bytes w1). rewrite (wi_data _ _ _ _ _ _ I), !zlen_app. change (zlen MAGIC) with 6. change (zlen [3]) with 1. pose proof (zlen_nonneg _ (file_of its)). lia.
  - intros HR BN d m N. rewrite <- (kept_all h HR) in N. fold h1 in N. rewrite <- (wi_series _ _ _ _ _ _ I) in N. rewrite HM in A7. apply A7; [|apply cmap_keys_conv; auto].
    apply Forall_forall. intros q J. destruct (cmap_keys _ _ _ HI J) as (d' & m' & ms & D & ->). split; [eapply BN; eauto|eapply SP; eauto].
Qed.
Lemma closed_footer : forall w h ops l ord w' a, trace p snap sc w h ops l -> ops_ok ops -> no_close ops = true ->
  step p snap w (OpClose ord) = Ret (w', a) -> zlen (file_bytes w') < 2 ^ 32 -> good_order ord -> short_paths sc ->
  exists ft cs r, footer_read (file_bytes w') = Some ft /\ scan_file decomp (file_bytes w') = Some (cs, 2 :: r) /\ drop (ft_meta ft) (file_bytes w') = Some (2 :: r) /\
    7 <= ft_meta ft /\ ft_meta ft + 1 + ft_size ft + 10 <= zlen (file_bytes w') /\
    (h_recent h = [] \/ 0 < h_counted h -> byte_names sc -> forall d m, series_of d m (h_all h) <> [] -> might_contain (ft_bloom ft) (d ++ [46] ++ m) = true).
Proof. intros w h ops l ord w' a; intros. eapply closed_footer_large; eauto using small_step. Qed.
(** The whole framing. *)
Lemma framing_large : forall w h ops l ord w' a, trace p snap sc w h ops l -> ops_ok ops -> no_close ops = true ->
  step p snap w (OpClose ord) = Ret (w', a) -> modest p snap sc (ops ++ [OpClose ord]) -> good_order ord -> short_paths sc ->
  exists cs data meta foot nb root off bloom l1 l2,
    file_bytes w' = magic ++ [3] ++ data ++ [2] ++ meta ++ foot ++ nb ++ magic /\ zlen nb = 4 /\ be_val nb = zlen foot /\
    node_read foot = Some (root, l1) /\ be_unsigned 8 l1 = Some (off, l2) /\ bloom_read l2 = Some (bloom, []) /\
    off = zlen (magic ++ [3] ++ data) /\
    scan_file decomp (file_bytes w') = Some (cs, [2] ++ meta ++ foot ++ nb ++ magic).
Proof.
  intros w h ops l ord w' a T O NC H L GO SP. destruct (closed_footer_large _ _ _ _ _ _ _ T O NC H L GO SP) as (ft & cs & r & A1 & A2 & A3 & A4 & A5 & _).
  destruct (footer_inv _ _ A1) as (front & foot & nb & l1 & l2 & B1 & B2 & B3 & B4 & B5 & B6 & B7).
  assert (M : exists x, file_bytes w' = magic ++ [3] ++ x).
  { unfold scan_file in A2. destruct (take 7 (file_bytes w')) as [[h7 l7]|] eqn:TK; [|discriminate]. destruct (list_eq_dec Z.eq_dec h7 (magic ++ [3])) as [->|]; [|discriminate].
    apply take_some in TK. exists l7. destruct TK as [-> _]. rewrite <- app_assoc. reflexivity. }
  destruct M as (x & M). apply drop_some in A3. destruct A3 as (pre & E & LP).
  assert (EF : exists meta, 2 :: r = [2] ++ meta ++ foot ++ nb ++ magic).
  { rewrite B1 in E. rewrite B4 in A5. rewrite B1, !zlen_app, B2 in A5. change (zlen magic) with 6 in A5.
    destruct (app_split_le _ _ _ _ E) as (meta & -> & E2); [lia|]. cbn [app] in E2. destruct meta as [|y meta].
    - exfalso. rewrite zlen_app, zlen_nil in A5. lia.
    - cbn [app] in E2. injection E2 as -> ->. exists meta. reflexivity. }
  destruct EF as (meta & EF). rewrite EF in E, A2. rewrite M in E. assert (EP : exists data, pre = magic ++ [3] ++ data).
  { rewrite app_assoc in E. destruct (app_split_le _ _ _ _ (eq_sym E)) as (data & X & _); [change (zlen (magic ++ [3])) with 7; lia|]. exists data. rewrite X, <- app_assoc. reflexivity. }
  destruct EP as (data & ->). exists cs, data, meta, foot, nb, (ft_root ft), (ft_meta ft), (ft_bloom ft), l1, l2.
  rewrite <- M in E. split; [rewrite E, <- !app_assoc; reflexivity|]. auto 10.
Qed.
Lemma framing : forall w h ops l ord w' a, trace p snap sc w h ops l -> ops_ok ops -> no_close ops = true ->
  step p snap w (OpClose ord) = Ret (w', a) -> zlen (file_bytes w') < 2 ^ 32 -> good_order ord -> short_paths sc ->
  exists cs data meta foot nb root off bloom l1 l2,
    file_bytes w' = magic ++ [3] ++ data ++ [2] ++ meta ++ foot ++ nb ++ magic /\ zlen nb = 4 /\ be_val nb = zlen foot /\
    node_read foot = Some (root, l1) /\ be_unsigned 8 l1 = Some (off, l2) /\ bloom_read l2 = Some (bloom, []) /\
    off = zlen (magic ++ [3] ++ data) /\
    scan_file decomp (file_bytes w') = Some (cs, [2] ++ meta ++ foot ++ nb ++ magic).
Proof. intros w h ops l ord w' a; intros. eapply framing_large; eauto using small_step. Qed.
End Foot.
