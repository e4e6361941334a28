(** Which points the index leads to when names are of any kind (C63). *)
From Verif Require Export PDotsIndex.
Ltac Zify.zify_post_hook ::= idtac.

(** ** Places of chunks *)
Lemma spots_rise : forall snap ps o, Forall (fun x => o <= s_at x) (spots snap o ps) /\ StronglySorted Z.lt (map s_at (spots snap o ps)).
Proof.
  intros snap ps. induction ps as [|x ps IH]; intros o; [split; constructor|]. cbn [spots]. destruct (IH (o + zlen (piece_bytes snap x))) as [A B].
  assert (A' : Forall (fun x0 => o <= s_at x0) (spots snap (o + zlen (piece_bytes snap x)) ps)) by (eapply Forall_impl; [|exact A]; cbn beta; intros y H; pose proof (zlen_nonneg _ (piece_bytes snap x)); lia).
  destruct x as [d|d m ms pts|bs]; cbn [app]; auto. split; [constructor; auto; cbn [s_at]; lia|]. cbn [map s_at]. constructor; [exact B|]. apply Forall_map. eapply Forall_impl; [|exact A]. cbn beta. intros y H.
  cbn [piece_bytes] in H. unfold chunk_image in H. cbv zeta in H. cbn [app] in H. rewrite zlen_cons in H. match type of H with context [zlen ?l] => pose proof (zlen_nonneg _ l) end. lia.
Qed.
Lemma rising_inj : forall (l : list spot), StronglySorted Z.lt (map s_at l) -> forall x y, In x l -> In y l -> s_at x = s_at y -> x = y.
Proof.
  intros l. induction l as [|z l IH]; intros S x y X Y E; [destruct X|]. cbn [map] in S. inversion S as [|? ? S1 S2]; subst. rewrite Forall_map, Forall_forall in S2.
  destruct X as [<-|X], Y as [<-|Y]; auto; [specialize (S2 _ Y); lia|specialize (S2 _ X); lia].
Qed.
Lemma stages_prefix : forall appends snap sc ops ps stages, session_file appends snap sc ops ps stages -> Forall (fun s => exists more, ps = s ++ more) stages.
Proof.
  intros appends snap sc ops ps stages W. assert (X : forall (ps more : list piece) l, Forall (fun s => exists more, ps = s ++ more) l -> Forall (fun s => exists m, ps ++ more = s ++ m) l).
  { intros ps0 more l F. eapply Forall_impl; [|exact F]. cbn beta. intros s (m & ->). exists (m ++ more). rewrite app_assoc. reflexivity. }
  induction W as [|ops ps stages o W IH C|ops ps stages ord bs W IH ps' P]; [constructor|apply X; exact IH|]. apply Forall_app. split; [unfold ps'; rewrite <- app_assoc; apply X; exact IH|]. constructor; [eauto|constructor].
Qed.
Lemma file_mono : forall (P Q : list (list piece) -> list piece -> list Z -> Prop) snap sc ops ps stages, (forall a b c, P a b c -> Q a b c) -> session_file P snap sc ops ps stages -> session_file Q snap sc ops ps stages.
Proof. intros P Q snap sc ops ps stages H W. induction W; [constructor|constructor; auto|constructor; auto]. Qed.
Lemma file_close : forall P snap sc ops ord ps stages, session_file P snap sc (ops ++ [OpClose ord]) ps stages -> exists ps' st bs, ps = ps' ++ [Tail bs] /\ stages = st ++ [ps'] /\ P (st ++ [ps']) ps' bs.
Proof.
  intros P snap sc ops ord ps stages W. remember (ops ++ [OpClose ord]) as ops' eqn:E. destruct W as [|a ps stages o W C|a ps stages ord' bs W ps' Q].
  - destruct ops; discriminate.
  - apply app_inj_tail in E. destruct E as [_ ->]. discriminate.
  - eauto 6.
Qed.
Lemma its_series_list : forall d m its o, its_series d m its = concat (map (fun x => c_pts (e_item x)) (filter (key_is (d, m)) (chunk_list o its))).
Proof.
  intros d m its. induction its as [|it its IH]; intros o; [reflexivity|]. unfold its_series. cbn [map concat chunk_list]. fold (its_series d m its).
  rewrite filter_app, map_app, concat_app, (IH (o + zlen (item_bytes it))). f_equal. destruct it as [d' cs|bs]; [|reflexivity]. cbn [iseries]. generalize (o + zlen (ghead d')). clear. unfold cseries.
  induction cs as [|c cs IH]; intros o; [destruct (same_name d' d); reflexivity|]. cbn [group_list map concat filter]. unfold key_is at 1. cbn [e_dev e_item fst snd]. specialize (IH (o + zlen (cbytes c))).
  destruct (same_name d' d); cbn [andb]; [|exact IH]. destruct (same_name (c_name c) m); cbn [map concat e_item]; rewrite IH; reflexivity.
Qed.

Section Session.
Variable p : profile.
Variable snap decomp : list Z -> option (list Z).
Hypothesis HG : good_snap snap decomp.
Variable sc : schema.
Hypothesis Hsc : schema_ok sc.

Definition any_and_index (stages : list (list piece)) (ps : list piece) (bs : list Z) : Prop :=
  any_close_appends snap stages ps bs /\ index_lists p snap decomp stages (the_file snap ps ++ bs) /\ lookups_follow decomp (the_file snap ps ++ bs).
Lemma any_and_index_ok : forall ops ord h its w snaps tmss io', any_names sc (ops ++ [OpClose ord]) -> zlen snaps = closes ops -> winv p snap sc h its w -> minv p snaps (io_tsmeta (w_io w)) tmss ->
  Forall (fun s => exists more, its = s ++ more) snaps -> zlen (h_all h) < 2 ^ 32 -> end_file p ord (w_io w) = Ret io' -> Forall light its -> brief (sk_data (io_out (w_io w))) (sk_data (io_out io')) ->
  exists bs, any_and_index (map its_pieces (snaps ++ [its])) (its_pieces its) bs /\ sk_data (io_out io') = sk_data (io_out (w_io w)) ++ bs.
Proof.
  intros ops ord h its w snaps tmss io' [OR CN] LEN I MI PRE HB EF LG BR. rewrite closes_snoc in CN. cbn [is_close] in CN. destruct CN as (BN & SP & FE); [pose proof (closes_nonneg ops); lia|].
  apply Forall_app in OR. destruct OR as [_ OR]. apply Forall_inv in OR. cbn beta iota in OR. rewrite <- LEN in FE.
  destruct (close_any p snap decomp HG sc Hsc _ _ _ _ _ _ _ I MI PRE HB FE BN SP OR EF LG BR) as (bs & B1 & B2). exists bs. split; [|exact B2]. split; [exact B1|].
  pose proof (index_any p snap decomp HG sc Hsc _ _ _ _ _ _ _ I MI PRE FE SP OR EF LG BR) as IX. rewrite B2 in IX. change (sk_data (io_out (w_io w))) with (file_bytes w) in IX. rewrite (wi_data _ _ _ _ _ _ I) in IX.
  unfold the_file. erewrite its_image; eauto using wi_items.
Qed.
(** After a close *)
Lemma any_closed : forall w h ops ord l, trace p snap sc w h (ops ++ [OpClose ord]) l -> ops_ok (ops ++ [OpClose ord]) -> roomy_after snap sc (ops ++ [OpClose ord]) -> modest p snap sc (ops ++ [OpClose ord]) -> any_names sc (ops ++ [OpClose ord]) ->
  exists ps stages bs, written_any snap sc (ops ++ [OpClose ord]) (ps ++ [Tail bs]) (stages ++ [ps]) /\ file_bytes w = the_file snap (ps ++ [Tail bs]) /\
    (index_lists p snap decomp (stages ++ [ps]) (file_bytes w) /\ lookups_follow decomp (file_bytes w)) /\ (forall d m, series_points snap d m ps = series_of d m (h_flushed h)) /\
    Forall (fun s => declares sc (s_device s) (s_name s) (s_ms s) /\ points_ok (ms_type (s_ms s)) (s_points s)) (spots snap 7 ps).
Proof.
  intros w h ops ord l T O B M CN.
  destruct (trace_again p snap decomp HG sc Hsc (any_names sc) (any_app sc) any_and_index any_and_index_ok w h _ l T O B) as (its & snaps & [I _ _ _ _ _ BY]). destruct (BY M CN) as [LI WR].
  assert (L63 : zlen (file_bytes w) < 2 ^ 63).
  { remember (ops ++ [OpClose ord]) as ops' eqn:E. destruct T as [out w N|w h ops0 l o w' a T H]; [destruct ops; discriminate|]. exact (proj2 (trace_modest _ _ _ _ _ _ _ _ _ _ T H M)). }
  assert (HL : bulk its (MAGIC ++ [3]) []). { split; [exact LI|]. rewrite app_nil_r. rewrite (wi_data _ _ _ _ _ _ I) in L63. exact L63. }
  pose proof (wi_items _ _ _ _ _ _ I) as HI.
  assert (FB : file_bytes w = the_file snap (its_pieces its)). { rewrite (wi_data _ _ _ _ _ _ I). unfold the_file. erewrite its_image; eauto. }
  destruct (file_close _ _ _ _ _ _ _ WR) as (ps & st & bs & E1 & E2 & PA).
  assert (SP : spots snap 7 (its_pieces its) = spots snap 7 ps) by (rewrite E1, spots_app; cbn [spots app]; apply app_nil_r).
  exists ps, st, bs. rewrite <- E1, <- E2. split; [|split; [exact FB|split; [|split]]].
  - apply (file_mono any_and_index); [|exact WR]. intros a b c X. apply X.
  - destruct PA as [_ PA]. rewrite ?E2. replace (file_bytes w) with (the_file snap ps ++ bs); [exact PA|]. rewrite FB, E1. unfold the_file, data_bytes. rewrite map_app, concat_app. cbn [map concat piece_bytes]. rewrite app_nil_r, <- !app_assoc. reflexivity.
  - intros d m. rewrite <- (wi_series _ _ _ _ _ _ I). unfold series_points. rewrite <- SP, (spots_list p snap decomp HG sc Hsc its HI [] HL), filter_map_comm, map_map. rewrite (its_series_list d m its 7). reflexivity.
  - rewrite <- SP, (spots_list p snap decomp HG sc Hsc its HI [] HL). apply Forall_map, Forall_forall. intros x J. destruct (entry_facts p snap decomp HG sc Hsc its HI [] HL x J) as ([[A _] _ _] & D & _). split; [exact D|exact A].
Qed.
(** What follows for the points *)
Lemma listed_text : forall stages ps q ds xs, Permutation ds (name_set (map device_part (concat (map (chunk_paths snap) (stages ++ [ps]))))) ->
  Forall2 (text_found p snap) (concat (map (texts_of snap (stages ++ [ps])) ds)) xs -> In q (chunk_paths snap ps) -> exists x, In x xs /\ text_found p snap (ps, q) x.
Proof.
  intros stages ps q ds xs PD F J. assert (K : In (ps, q) (concat (map (texts_of snap (stages ++ [ps])) ds))).
  { apply in_concat. exists (texts_of snap (stages ++ [ps]) (device_part q)). split.
    - apply in_map. apply (Permutation_in _ (Permutation_sym PD)). apply name_set_in. apply in_map. apply in_concat. exists (chunk_paths snap ps). split; [apply in_map; apply in_or_app; right; left; reflexivity|exact J].
    - unfold texts_of. apply in_concat. eexists. split; [apply (in_map (fun ps => map (pair ps) (filter (fun q0 => same_name (device_part q0) (device_part q)) (chunk_paths snap ps)))); apply in_or_app; right; left; reflexivity|].
      apply in_map. apply filter_In. split; [exact J|apply PWriter.same_name_refl]. }
  destruct (F2_in_l _ _ _ _ _ _ F K) as (x & X1 & X2). eauto.
Qed.
Definition sound_spots (ps : list piece) : Prop := Forall (fun s => declares sc (s_device s) (s_name s) (s_ms s) /\ points_ok (ms_type (s_ms s)) (s_points s)) (spots snap 7 ps).
Lemma dtype_code_inj : forall a b, dtype_code a = dtype_code b -> a = b.
Proof. intros [] [] H; try reflexivity; discriminate. Qed.
Lemma same_type_all : forall l dt, (forall s, In s l -> ms_type (s_ms s) = dt) -> same_type l = l.
Proof.
  intros [|c l] dt H; [reflexivity|]. unfold same_type. apply filter_all. intros s J. rewrite (H c (or_introl eq_refl)), (H s J). apply Z.eqb_refl.
Qed.
Lemma text_listed : forall ps s, In s (spots snap 7 ps) -> In (s_path s) (chunk_paths snap ps).
Proof. intros ps s J. apply name_set_in. apply in_map. exact J. Qed.
Lemma series_spot : forall ps d m, series_points snap d m ps <> [] -> exists s, In s (spots snap 7 ps) /\ s_device s = d /\ s_name s = m.
Proof.
  intros ps d m N. unfold series_points in N. destruct (filter _ _) as [|s l] eqn:E; [exfalso; apply N; reflexivity|]. exists s. assert (J : In s (s :: l)) by (left; reflexivity). rewrite <- E in J. apply filter_In in J.
  destruct J as [J1 J2]. apply andb_prop in J2. destruct J2 as [J2 J3]. apply PWriter.same_name_eq in J2. apply PWriter.same_name_eq in J3. auto.
Qed.
Lemma found_own : forall ps d m ms x, sound_spots ps -> declares sc d m ms -> own_text sc d m -> text_found p snap (ps, d ++ [46] ++ m) x ->
  f_key x = (device_part (d ++ [46] ++ m), m) /\ series_found p (ms_type ms) (series_points snap d m ps) x.
Proof.
  intros ps d m ms x SS D OT (c & l' & E & X). cbn [fst snd] in *. cbv zeta in X.
  assert (EL : chunks_at snap (d ++ [46] ++ m) ps = filter (fun y => same_name (s_device y) d && same_name (s_name y) m) (spots snap 7 ps)).
  { unfold chunks_at. apply filter_ext_in. intros s J. unfold sound_spots in SS. rewrite Forall_forall in SS. destruct (SS s J) as [DS _]. apply eq_true_iff_eq. rewrite andb_true_iff, !PWriter.same_name_eq. unfold s_path. split.
    - intros Y. exact (OT _ _ _ DS Y).
    - intros [-> ->]. reflexivity. }
  assert (AL : forall s, In s (c :: l') -> ms_type (s_ms s) = ms_type ms /\ s_name s = m /\ points_ok (ms_type ms) (s_points s)).
  { intros s J. rewrite <- E, EL in J. apply filter_In in J. destruct J as [J1 J2]. apply andb_prop in J2. destruct J2 as [J2 J3]. apply PWriter.same_name_eq in J2. apply PWriter.same_name_eq in J3.
    unfold sound_spots in SS. rewrite Forall_forall in SS. destruct (SS s J1) as [DS PS]. rewrite J2, J3 in DS. rewrite (PWriter.declares_fun _ _ _ _ _ Hsc DS D) in *. auto. }
  rewrite E in X. rewrite (same_type_all (c :: l') (ms_type ms)) in X by (intros s J; apply AL; exact J).
  destruct (AL c (or_introl eq_refl)) as (A1 & A2 & _). rewrite A1, A2 in X. destruct X as (X1 & X2 & X3 & X4 & cuts & X5 & X6 & X7 & X8). split; [exact X1|].
  assert (EP : series_points snap d m ps = concat (map s_points (c :: l'))) by (unfold series_points; rewrite <- EL, E; reflexivity).
  split; [exact X2|]. split.
  { rewrite EP. clear - AL. induction (c :: l') as [|s l IH]; [constructor|]. cbn [map concat]. apply Forall_app. split; [apply (AL s (or_introl eq_refl))|apply IH; intros y Y; apply AL; right; exact Y]. }
  exists cuts. split; [rewrite X5; symmetry; exact EP|]. split; [|split; [exact X7|]].
  - assert (TN : ts_name (f_meta x) = m) by (injection X1; auto). rewrite TN.
    assert (NA : Forall (fun k => ch_name k = m) (snd x)).
    { apply Forall_forall. intros k J. assert (K : In (ch_name k) (map s_name (c :: l'))) by (rewrite <- X4; apply in_map; exact J). apply in_map_iff in K. destruct K as (s & <- & K). apply (AL s K). }
    clear - X6 NA. induction X6 as [|pages k cuts ks (Y1 & Y2 & Y3) F IH]; [constructor|]. inversion NA; subst. constructor; auto.
  - assert (LC : length cuts = length (c :: l')) by (rewrite <- (map_length (@concat _) cuts), X5, map_length; reflexivity).
    eapply F2_impl; [|exact X8]. cbn beta. intros pages r Y. destruct (snd r) as [sf|]; unfold zlen in Y; rewrite LC; [destruct Y as [Y1 Y2]; split; [lia|exact Y2]|lia].
Qed.
Lemma found_points : forall ps q x, text_found p snap (ps, q) x -> f_points x = tnums (concat (map s_points (same_type (chunks_at snap q ps)))).
Proof.
  intros ps q x (c & l' & E & X). cbn [fst snd] in *. cbv zeta in X. destruct X as (_ & _ & _ & _ & cuts & X5 & X6 & _). unfold f_points. rewrite <- X5. clear - X6. induction X6 as [|pages k cuts ks [A _] F IH]; [reflexivity|].
  cbn [map concat]. unfold tnums in *. rewrite map_app, A, IH. reflexivity.
Qed.
Lemma found_one_type : forall ps d m dt x, sound_spots ps -> one_type sc d m dt -> text_found p snap (ps, d ++ [46] ++ m) x -> incl (tnums (series_points snap d m ps)) (f_points x).
Proof.
  intros ps d m dt x SS OT X. rewrite (found_points _ _ _ X). rewrite (same_type_all _ dt).
  - intros y Y. unfold tnums in *. apply in_map_iff in Y. destruct Y as (tv & <- & Y). apply (in_map (fun tv => (fst tv, value_num (snd tv)))). unfold series_points in Y. apply in_concat in Y. destruct Y as (b & Y1 & Y2). apply in_map_iff in Y1. destruct Y1 as (s & <- & Y1).
    apply filter_In in Y1. destruct Y1 as [Y1 Y3]. apply andb_prop in Y3. destruct Y3 as [Y3 Y4]. apply PWriter.same_name_eq in Y3. apply PWriter.same_name_eq in Y4.
    apply in_concat. exists (s_points s). split; [|exact Y2]. apply in_map. unfold chunks_at. apply filter_In. split; [exact Y1|]. apply PWriter.same_name_eq. unfold s_path. rewrite Y3, Y4. reflexivity.
  - intros s J. unfold chunks_at in J. apply filter_In in J. destruct J as [J1 J2]. apply PWriter.same_name_eq in J2. unfold sound_spots in SS. rewrite Forall_forall in SS. exact (OT _ _ _ (proj1 (SS s J1)) J2).
Qed.
(** Chunks that are referred to *)
Lemma reached : forall stages ps ds xs s, Forall (fun st => exists more, ps = st ++ more) stages -> Permutation ds (name_set (map device_part (concat (map (chunk_paths snap) (stages ++ [ps]))))) ->
  Forall2 (text_found p snap) (concat (map (texts_of snap (stages ++ [ps])) ds)) xs -> In s (spots snap 7 ps) ->
  ((exists x, In x xs /\ In (s_at s) (map fst (ts_chunks (f_meta x)))) <-> leads snap ps s).
Proof.
  intros stages ps ds xs s PR PD F J. split.
  - intros (x & X1 & X2). destruct (F2_in_r _ _ _ _ _ _ F X1) as ([st q] & K & X). apply in_concat in K. destruct K as (b & K1 & K2). apply in_map_iff in K1. destruct K1 as (d & <- & K1).
    unfold texts_of in K2. apply in_concat in K2. destruct K2 as (b & K2 & K3). apply in_map_iff in K2. destruct K2 as (st' & <- & K2). apply in_map_iff in K3. destruct K3 as (q' & E & _). injection E as -> ->.
    assert (P : exists more, ps = st ++ more). { apply in_app_or in K2. destruct K2 as [K2|[<-|[]]]; [rewrite Forall_forall in PR; auto|exists []; rewrite app_nil_r; reflexivity]. } destruct P as (more & ->).
    destruct X as (c & l' & E & X). cbn [fst snd] in *. cbv zeta in X. destruct X as (_ & _ & X3 & _). rewrite X3 in X2. apply in_map_iff in X2. destruct X2 as (s' & A & S').
    rewrite E in S'. unfold same_type in S'. apply filter_In in S'. destruct S' as [S1 S2]. apply Z.eqb_eq, dtype_code_inj in S2. rewrite <- E in S1. pose proof S1 as S3. unfold chunks_at in S3. apply filter_In in S3. destruct S3 as [S3 S4]. apply PWriter.same_name_eq in S4.
    assert (s' = s). { apply (rising_inj _ (proj2 (spots_rise snap (st ++ more) 7))); auto. rewrite spots_app. apply in_or_app. auto. } subst s'.
    exists c. unfold chunks_at in *. rewrite spots_app, filter_app. rewrite <- S4 in E. rewrite E. eexists. split; [reflexivity|exact S2].
  - intros (c & l & E & TY). destruct (listed_text stages ps (s_path s) ds xs PD F (text_listed _ _ J)) as (x & X1 & (c' & l' & E' & X)). cbn [fst snd] in *. cbv zeta in X. destruct X as (_ & _ & X3 & _). exists x. split; [exact X1|].
    rewrite X3. apply in_map. rewrite E. unfold same_type. apply filter_In. split; [rewrite <- E; unfold chunks_at; apply filter_In; split; [exact J|apply PWriter.same_name_refl]|]. rewrite TY. apply Z.eqb_refl.
Qed.
(** After a close everything acknowledged is in the file *)
Lemma closed_acked : forall w h ops ord l, trace p snap sc w h (ops ++ [OpClose ord]) l -> ops_ok (ops ++ [OpClose ord]) -> batches_ok (ops ++ [OpClose ord]) l -> h_flushed h = acked (ops ++ [OpClose ord]) l.
Proof.
  intros w h ops ord l T O B. pose proof (trace_acked p snap decomp HG sc Hsc _ _ _ _ T O B) as EA. rewrite <- EA. remember (ops ++ [OpClose ord]) as ops' eqn:E. destruct T as [out w N|w h ops0 l o w' a T H]; [destruct ops; discriminate|].
  apply app_inj_tail in E. destruct E as [-> ->]. pose proof O as [O1 O2]. rewrite map_app, zsum_app in O2. cbn [map zsum fold_right op_points] in O2. apply Forall_app in O1. destruct O1 as [O1 _].
  assert (O' : ops_ok ops) by (split; auto; lia). pose proof (trace_len _ _ _ _ _ _ _ T) as TL.
  assert (B' : batches_ok ops l). { unfold batches_ok in *. apply Forall2_app_inv_l in B. destruct B as (l1 & l2 & B1 & B2 & E). inversion B2 as [|? ? ? ? B3 B4]; subst. inversion B4; subst. apply app_inj_tail in E. destruct E as [<- _]. exact B1. }
  pose proof (counted_all p snap decomp HG sc Hsc _ _ _ _ T O' B') as K.
  assert (X : h_step sc (OpClose ord) (grew w w') h = if 0 <? h_counted h then h_flush h else h).
  { destruct (trace_ok p snap decomp HG sc Hsc _ _ _ _ T O') as (_ & its & W & _). unfold h_step. cbn [h_call].
    pose proof H as H'. cbn [step] in H'. unfold writer_close in H'. apply bind_ret in H'. destruct H' as ([w1 e] & FL & H'). cbn [fst] in H'. apply bind_ret in H'. destruct H' as (io & EF & H'). apply ret_inj in H'.
    destruct (flush_all_ok _ _ _ HG _ Hsc _ _ _ _ _ W FL) as [_ KK].
    assert (G : exists gs hh, winv p snap sc hh (its ++ gs) w1) by (destruct (0 <? h_counted h); [destruct KK as (new & K1 & _); eauto|subst w1; exists [], h; rewrite app_nil_r; exact W]). destruct G as (gs & hh & W1).
    assert (W' : w_io w' = io) by (injection H' as <- _; reflexivity). rewrite <- W' in EF. destruct (end_file_ok p _ _ _ (wi_healthy _ _ _ _ _ _ W1) EF) as (r & SX & _).
    assert (FB : file_bytes w' = file_bytes w1 ++ 2 :: r) by (apply SX).
    assert (GR : grew w w' = true). { unfold grew. rewrite FB, (wi_data _ _ _ _ _ _ W), (wi_data _ _ _ _ _ _ W1), file_of_app, !zlen_app, (zlen_cons _ 2 r). pose proof (zlen_nonneg _ r). pose proof (zlen_nonneg _ (file_of gs)). apply Z.ltb_lt. lia. }
    rewrite GR. reflexivity. }
  rewrite X. rewrite kept_all.
  - destruct (0 <? h_counted h); unfold h_all, h_flush; cbn [h_flushed h_recent]; rewrite ?app_nil_r; reflexivity.
  - destruct (h_recent h) as [|q r]; [left; auto|right]. rewrite K, zlen_cons. pose proof (zlen_nonneg _ r). lia.
Qed.
End Session.

Lemma reach_index : forall p snap decomp sc out w0 ops ord w l, good_snap snap decomp -> schema_ok sc ->
  writer_new sc (sink_new healthy) = (out, Some w0) -> run p snap w0 (ops ++ [OpClose ord]) = Ret (w, l) -> ops_ok (ops ++ [OpClose ord]) ->
  roomy_after snap sc (ops ++ [OpClose ord]) -> modest p snap sc (ops ++ [OpClose ord]) -> any_names sc (ops ++ [OpClose ord]) ->
  exists ps stages bs, written_any snap sc (ops ++ [OpClose ord]) (ps ++ [Tail bs]) (stages ++ [ps]) /\ file_bytes w = the_file snap (ps ++ [Tail bs]) /\
    (index_lists p snap decomp (stages ++ [ps]) (file_bytes w) /\ lookups_follow decomp (file_bytes w)) /\
    (batches_ok (ops ++ [OpClose ord]) l -> forall d m, series_points snap d m ps = series_of d m (acked (ops ++ [OpClose ord]) l)) /\ sound_spots snap sc ps.
Proof.
  intros p snap decomp sc out w0 ops ord w l HG Hsc N R O B M CN. destruct (run_trace _ _ _ _ _ _ _ _ N R) as (h & T).
  destruct (any_closed p snap decomp HG sc Hsc w h ops ord l T O B M CN) as (ps & stages & bs & A1 & A2 & A3 & A4 & A5). exists ps, stages, bs. do 3 (split; [assumption|]). split; [|exact A5].
  intros BO d m. rewrite A4, (closed_acked p snap decomp HG sc Hsc _ _ _ _ _ T O BO). reflexivity.
Qed.
Lemma reach_series : forall p snap decomp sc out w0 ops ord w l, good_snap snap decomp -> schema_ok sc ->
  writer_new sc (sink_new healthy) = (out, Some w0) -> run p snap w0 (ops ++ [OpClose ord]) = Ret (w, l) -> ops_ok (ops ++ [OpClose ord]) -> batches_ok (ops ++ [OpClose ord]) l ->
  roomy_after snap sc (ops ++ [OpClose ord]) -> modest p snap sc (ops ++ [OpClose ord]) -> any_names sc (ops ++ [OpClose ord]) ->
  let pts := acked (ops ++ [OpClose ord]) l in
  exists xs, index_read decomp (file_bytes w) = Some xs /\
    (forall d m ms, declares sc d m ms -> own_text sc d m -> series_of d m pts <> [] ->
       exists x, In x xs /\ f_key x = (device_part (d ++ [46] ++ m), m) /\ series_found p (ms_type ms) (series_of d m pts) x) /\
    (forall d m dt, one_type sc d m dt -> series_of d m pts <> [] ->
       exists x, In x xs /\ fst (f_key x) = device_part (d ++ [46] ++ m) /\ incl (tnums (series_of d m pts)) (f_points x)).
Proof.
  intros p snap decomp sc out w0 ops ord w l HG Hsc N R O BO B M CN pts. destruct (reach_index p snap decomp sc out w0 ops ord w l HG Hsc N R O B M CN) as (ps & stages & bs & _ & _ & ((ds & xs & X1 & X2 & X3) & _) & SP & SS).
  specialize (SP BO). fold pts in SP. exists xs. split; [exact X1|]. assert (K : forall d m, series_of d m pts <> [] -> exists x, In x xs /\ text_found p snap (ps, d ++ [46] ++ m) x).
  { intros d m NE. rewrite <- SP in NE. destruct (series_spot snap ps d m NE) as (s & S1 & <- & <-). exact (listed_text p snap stages ps (s_path s) ds xs X2 X3 (text_listed snap _ _ S1)). }
  split.
  - intros d m ms D OT NE. destruct (K d m NE) as (x & K1 & K2). exists x. rewrite <- SP. split; [exact K1|]. exact (found_own p snap sc Hsc ps d m ms x SS D OT K2).
  - intros d m dt OT NE. destruct (K d m NE) as (x & K1 & K2). exists x. rewrite <- SP. split; [exact K1|]. split; [|exact (found_one_type p snap sc ps d m dt x SS OT K2)].
    destruct K2 as (c & l' & _ & K2). cbn [fst snd] in K2. cbv zeta in K2. rewrite (proj1 K2). reflexivity.
Qed.
Lemma reach_chunks : forall p snap decomp sc out w0 ops ord w l, good_snap snap decomp -> schema_ok sc ->
  writer_new sc (sink_new healthy) = (out, Some w0) -> run p snap w0 (ops ++ [OpClose ord]) = Ret (w, l) -> ops_ok (ops ++ [OpClose ord]) -> batches_ok (ops ++ [OpClose ord]) l ->
  roomy_after snap sc (ops ++ [OpClose ord]) -> modest p snap sc (ops ++ [OpClose ord]) -> any_names sc (ops ++ [OpClose ord]) ->
  exists ps bs xs, file_bytes w = the_file snap (ps ++ [Tail bs]) /\ (forall d m, series_points snap d m ps = series_of d m (acked (ops ++ [OpClose ord]) l)) /\
    index_read decomp (file_bytes w) = Some xs /\
    forall s, In s (spots snap 7 ps) -> ((exists x, In x xs /\ In (s_at s) (map fst (ts_chunks (f_meta x)))) <-> leads snap ps s).
Proof.
  intros p snap decomp sc out w0 ops ord w l HG Hsc N R O BO B M CN. destruct (reach_index p snap decomp sc out w0 ops ord w l HG Hsc N R O B M CN) as (ps & stages & bs & W & FB & ((ds & xs & X1 & X2 & X3) & _) & SP & SS).
  exists ps, bs, xs. split; [exact FB|]. split; [exact (SP BO)|]. split; [exact X1|]. intros s J. apply (reached p snap stages ps ds xs s); auto.
  pose proof W as W'. unfold written_any in W'. remember (ops ++ [OpClose ord]) as ops' eqn:E. remember (ps ++ [Tail bs]) as qs eqn:E2. remember (stages ++ [ps]) as st eqn:E3. clear - W' E E2 E3. destruct W' as [|a ps0 stages0 o W0 C|a ps0 stages0 ord' bs' W0 ps' Q].
  - destruct ops; discriminate.
  - apply app_inj_tail in E. destruct E as [_ ->]. discriminate.
  - apply app_inj_tail in E3. destruct E3 as [-> <-]. pose proof (stages_prefix _ _ _ _ _ _ W0) as P. eapply Forall_impl; [|exact P]. cbn beta. intros s (m & ->). unfold ps'. rewrite <- app_assoc. eauto.
Qed.
