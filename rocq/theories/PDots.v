(** Records of closes with names of any kind (C62). *)
From Verif Require Export PAgain PBound SDots.
Ltac Zify.zify_post_hook ::= idtac.

(** ** Names *)
Lemma last_dot : forall q, In 46 q -> exists d m, q = d ++ [46] ++ m /\ ~ In 46 m.
Proof.
  induction q as [|c q IH] using rev_ind; intros I; [destruct I|]. destruct (Z.eq_dec c 46) as [->|N].
  - exists q, []. split; [reflexivity|intros []].
  - apply in_app_or in I. destruct I as [I|[I|[]]]; [|congruence]. destruct (IH I) as (d & m & -> & M). exists d, (m ++ [c]). split; [rewrite <- !app_assoc; reflexivity|].
    intros J. apply in_app_or in J. destruct J as [J|[J|[]]]; [auto|congruence].
Qed.
Lemma skip_nodot : forall l r, ~ In 46 l -> skip_segment (l ++ r) = skip_segment r.
Proof.
  induction l as [|c l IH]; intros r N; [reflexivity|]. cbn [app skip_segment]. destruct (Z.eqb_spec c 46) as [->|]; [exfalso; apply N; left; auto|]. apply IH. intros I. apply N. right. auto.
Qed.
Lemma device_part_of : forall q, device_of_path q = device_part q.
Proof.
  intros q. destruct (in_dec Z.eq_dec 46 q) as [I|N].
  - destruct (last_dot q I) as (d & m & -> & M). change (d ++ [46] ++ m) with (path_of d m) at 1. rewrite device_of_path_of by auto.
    unfold device_part. rewrite !rev_app_distr, <- app_assoc, skip_nodot by (rewrite <- in_rev; auto). cbn [rev app skip_segment]. change (46 =? 46) with true. cbv iota. rewrite rev_involutive. reflexivity.
  - unfold device_of_path, device_part. rewrite split_nodot by auto. cbn [removelast join_dot]. pose proof (skip_nodot (rev q) []) as X. rewrite app_nil_r in X. rewrite X by (rewrite <- in_rev; auto). reflexivity.
Qed.
Definition rising (l : list (list Z)) : Prop := StronglySorted str_lt l.
Lemma insert_new_in : forall x l y, In y (insert_new x l) <-> y = x \/ In y l.
Proof.
  intros x l y. induction l as [|z l IH]; cbn [insert_new]; [cbn; intuition congruence|]. destruct (same_name x z) eqn:E; [apply PWriter.same_name_eq in E; subst; cbn [In]; intuition congruence|].
  destruct (lex_leb x z); cbn [In]; [intuition congruence|]. rewrite IH. intuition congruence.
Qed.
Lemma name_set_in : forall l y, In y (name_set l) <-> In y l.
Proof.
  intros l y. induction l as [|x l IH]; [reflexivity|]. change (name_set (x :: l)) with (insert_new x (name_set l)). rewrite insert_new_in, IH. cbn [In]. intuition congruence.
Qed.
Lemma insert_new_rising : forall x l, rising l -> rising (insert_new x l).
Proof.
  intros x l S. induction S as [|y l S IH F]; [repeat constructor|]. cbn [insert_new]. destruct (same_name x y) eqn:E; [constructor; auto|].
  destruct (lex_leb x y) eqn:L.
  - assert (X : str_lt x y). { unfold str_lt. destruct (str_cmp x y) eqn:C; [apply str_cmp_eq in C; subst; rewrite PWriter.same_name_refl in E; discriminate|reflexivity|].
      exfalso. assert (K : lex_leb x y = false); [|congruence]. apply lex_leb_false, bytes_lt_iff. unfold str_lt. rewrite str_cmp_antisym, C. reflexivity. }
    constructor; [constructor; auto|]. constructor; [exact X|]. eapply Forall_impl; [|exact F]. intros z Z. eapply str_lt_trans; eauto.
  - apply lex_leb_false, bytes_lt_iff in L. constructor; [exact IH|]. apply Forall_forall. intros z Z. apply insert_new_in in Z. destruct Z as [->|Z]; [exact L|]. rewrite Forall_forall in F. auto.
Qed.
Lemma name_set_rising : forall l, rising (name_set l).
Proof. induction l as [|x l IH]; [constructor|]. exact (insert_new_rising x _ IH). Qed.
Lemma rising_same : forall a b, rising a -> rising b -> (forall x, In x a <-> In x b) -> a = b.
Proof.
  intros a b A B H. assert (K : forall l, map fst (map (fun x : list Z => (x, tt)) l) = l) by (intros l; rewrite map_map; apply map_id).
  rewrite <- (K a), <- (K b). f_equal. apply sorted_same; [unfold sorted; rewrite K; exact A|unfold sorted; rewrite K; exact B|].
  intros [x []]. rewrite !in_map_iff. split; intros (y & E & I); exists y; (split; [exact E|apply H; exact I]).
Qed.
Lemma rising_nodup : forall l, rising l -> NoDup l.
Proof. intros l S. exact (lt_nodup l S). Qed.

(** ** The records of a series, for chunks of several types *)
Lemma ts_fold_kept : forall p (several : bool) dt l acc,
  foldM (fun acc m => let '(buffer, st) := acc in
           if dtype_eqb (cm_type m) dt then let* st' := stats_merge p st (cm_stats m) in Ret (buffer ++ wbytes (chunk_meta_serialize several m), st')
           else Ret acc) l acc =
  foldM (fun acc m => let '(buffer, st) := acc in
           if dtype_eqb (cm_type m) dt then let* st' := stats_merge p st (cm_stats m) in Ret (buffer ++ wbytes (chunk_meta_serialize several m), st')
           else Ret acc) (filter (fun m => dtype_eqb (cm_type m) dt) l) acc.
Proof.
  intros p several dt l. induction l as [|cm l IH]; intros [b st]; [reflexivity|]. cbn [foldM filter]. destruct (dtype_eqb (cm_type cm) dt) eqn:E.
  - cbn [foldM]. rewrite E. destruct (stats_merge p st (cm_stats cm)) as [st'|e]; [|reflexivity]. cbn [bind]. apply IH.
  - cbn [bind]. apply IH.
Qed.
Lemma ts_meta_kept : forall p dt m0 l, cm_type m0 = dt -> let kept := filter (fun m => dtype_eqb (cm_type m) dt) (m0 :: l) in Forall (cm_wf dt) kept ->
  ts_meta_of p (m0 :: l) = let* st := merge_all p kept (stats_new dt) in
    Ret (mkTM (if several (m0 :: l) then 1 else 0) (zlen (ref_bytes (several (m0 :: l)) kept)) (cm_id m0) dt st (ref_bytes (several (m0 :: l)) kept)).
Proof.
  intros p dt m0 l E kept F. unfold ts_meta_of. rewrite E, ts_fold_kept. fold kept. rewrite (ts_fold p _ dt) by auto. fold (several (m0 :: l)).
  destruct (merge_all p kept (stats_new dt)); [|reflexivity]. cbn [bind app]. rewrite Z.lor_0_r. reflexivity.
Qed.

(** ** The chunks of a file, with their places *)
Definition entry := (Z * list Z * citem)%type.
Fixpoint group_list (d : list Z) (o : Z) (cs : list citem) : list entry :=
  match cs with [] => [] | c :: cs' => (o, d, c) :: group_list d (o + zlen (cbytes c)) cs' end.
Fixpoint chunk_list (o : Z) (its : list item) : list entry :=
  match its with
  | [] => []
  | it :: r => match it with GItem d cs => group_list d (o + zlen (ghead d)) cs | Raw _ => [] end ++ chunk_list (o + zlen (item_bytes it)) r
  end.
Definition e_at (x : entry) : Z := fst (fst x).
Definition e_dev (x : entry) : list Z := snd (fst x).
Definition e_item (x : entry) : citem := snd x.
Definition e_meta (x : entry) : chunk_meta := cmeta (e_at x) (c_cw (e_item x)).
Definition e_spot (x : entry) : spot := mkSpot (e_at x) (e_dev x) (c_name (e_item x)) (c_ms (e_item x)) (c_pts (e_item x)).
Lemma flat_list : forall its o, flat (metas o its) = map (fun x => (e_dev x, e_meta x)) (chunk_list o its).
Proof.
  induction its as [|it its IH]; intros o; [reflexivity|]. cbn [metas chunk_list]. rewrite flat_app, map_app, IH. f_equal. destruct it as [d cs|bs]; [|reflexivity].
  assert (R : flat (imetas o (GItem d cs)) = map (pair d) (cmetas (o + zlen (ghead d)) cs)).
  { unfold flat. destruct cs; cbn [imetas map concat fst snd]; [reflexivity|]. rewrite app_nil_r. reflexivity. }
  rewrite R. generalize (o + zlen (ghead d)). clear. induction cs as [|c cs IH]; intros o; [reflexivity|]. cbn [cmetas map group_list]. rewrite IH. reflexivity.
Qed.
Lemma spots_app : forall snap a b o, spots snap o (a ++ b) = spots snap o a ++ spots snap (o + zlen (data_bytes snap a)) b.
Proof.
  induction a as [|x a IH]; intros b o; cbn [app spots].
  - unfold data_bytes. cbn [map concat]. rewrite zlen_nil, Z.add_0_r. reflexivity.
  - rewrite IH, <- app_assoc. unfold data_bytes. cbn [map concat]. rewrite zlen_app, Z.add_assoc. reflexivity.
Qed.
Lemma list_in : forall its o x, In x (chunk_list o its) -> (exists a cs b, its = a ++ GItem (e_dev x) cs :: b /\ In (e_item x) cs) /\ o <= e_at x <= o + zlen (file_of its).
Proof.
  induction its as [|it its IH]; intros o x I; [destruct I|]. cbn [chunk_list] in I. unfold file_of. cbn [map concat]. rewrite zlen_app. fold (file_of its).
  pose proof (zlen_nonneg _ (file_of its)) as NF. pose proof (zlen_nonneg _ (item_bytes it)) as NI. apply in_app_or in I. destruct I as [I|I].
  - destruct it as [d cs|bs]; [|destruct I]. cbn [item_bytes] in *. rewrite zlen_app in *. pose proof (zlen_nonneg _ (ghead d)).
    assert (X : forall o, In x (group_list d o cs) -> e_dev x = d /\ In (e_item x) cs /\ o <= e_at x <= o + zlen (concat (map cbytes cs))).
    { clear. induction cs as [|c cs IH]; intros o I; [destruct I|]. cbn [group_list] in I. cbn [map concat]. rewrite zlen_app. pose proof (zlen_nonneg _ (cbytes c)). pose proof (zlen_nonneg _ (concat (map cbytes cs))).
      destruct I as [<-|I]; [cbn [e_dev e_item e_at fst snd]; split; [reflexivity|]; split; [left; reflexivity|lia]|]. apply IH in I. destruct I as (A & B & C). split; [exact A|]. split; [right; exact B|lia]. }
    apply X in I. destruct I as (A & B & C). split; [|lia]. exists [], cs, its. rewrite A. split; [reflexivity|exact B].
  - apply IH in I. destruct I as [(a & cs & b & -> & J) L]. split; [|lia]. exists (it :: a), cs, b. split; [reflexivity|exact J].
Qed.

(** ** Points of the chunks *)
Definition key_is (q : list Z * list Z) (x : entry) : bool := same_name (e_dev x) (fst q) && same_name (c_name (e_item x)) (snd q).
Definition e_count (x : entry) : Z := zlen (c_pts (e_item x)).
Lemma key_is_iff : forall q x, key_is q x = true <-> q = (e_dev x, c_name (e_item x)).
Proof. intros [a b] x. unfold key_is. cbn [fst snd]. rewrite andb_true_iff, !PWriter.same_name_eq. split; [intros [-> ->]; reflexivity|intros E; injection E as -> ->; auto]. Qed.
Lemma one_key : forall x keys, NoDup keys -> In (e_dev x, c_name (e_item x)) keys -> zsum (map (fun q => if key_is q x then e_count x else 0) keys) = e_count x.
Proof.
  intros x keys N I. induction keys as [|q keys IH]; [destruct I|]. inversion N as [|? ? N1 N2]; subst. cbn [map]. rewrite zsum_cons. destruct (key_is q x) eqn:E.
  - apply key_is_iff in E. subst q. assert (Z0 : forall l, ~ In (e_dev x, c_name (e_item x)) l -> zsum (map (fun q => if key_is q x then e_count x else 0) l) = 0).
    { induction l as [|r l IHl]; intros H; [reflexivity|]. cbn [map]. rewrite zsum_cons, IHl by (intros J; apply H; right; auto). destruct (key_is r x) eqn:E; [|lia]. apply key_is_iff in E. exfalso. apply H. left. auto. }
    rewrite Z0 by auto. lia.
  - destruct I as [I|I]; [subst q; exfalso; assert (X : key_is (e_dev x, c_name (e_item x)) x = true) by (apply key_is_iff; reflexivity); congruence|]. rewrite IH by auto. lia.
Qed.
Lemma count_keys : forall l keys, NoDup keys -> (forall x, In x l -> In (e_dev x, c_name (e_item x)) keys) ->
  zsum (map e_count l) = zsum (map (fun q => zsum (map e_count (filter (key_is q) l))) keys).
Proof.
  intros l keys N. induction l as [|x l IH]; intros H.
  - clear. change (zsum (map e_count [])) with 0. induction keys as [|q keys IH]; [reflexivity|]. change (0 = 0 + zsum (map (fun q => zsum (map e_count (filter (key_is q) []))) keys)). rewrite <- IH. reflexivity.
  - cbn [map]. rewrite zsum_cons, (IH (fun y Y => H y (or_intror Y))), <- (one_key x keys N (H x (or_introl eq_refl))), <- zsum_plus. f_equal. apply map_ext. intros q. cbn [filter]. destruct (key_is q x); [cbn [map]; rewrite zsum_cons; reflexivity|lia].
Qed.
Lemma list_series : forall d m its o, zlen (its_series d m its) = zsum (map e_count (filter (key_is (d, m)) (chunk_list o its))).
Proof.
  intros d m its. induction its as [|it its IH]; intros o; [reflexivity|]. unfold its_series. cbn [map concat chunk_list]. fold (its_series d m its).
  rewrite zlen_app, filter_app, map_app, zsum_app, (IH (o + zlen (item_bytes it))). f_equal. destruct it as [d' cs|bs]; [|reflexivity]. cbn [iseries]. generalize (o + zlen (ghead d')). clear. unfold cseries.
  induction cs as [|c cs IH]; intros o; [destruct (same_name d' d); reflexivity|]. cbn [filter group_list]. unfold key_is at 1. cbn [e_dev e_item fst snd]. specialize (IH (o + zlen (cbytes c))).
  destruct (same_name d' d); cbn [andb]; [|exact IH]. destruct (same_name (c_name c) m); [|exact IH]. cbn [map concat]. rewrite zlen_app, zsum_cons, IH. reflexivity.
Qed.
Lemma list_points : forall its o pts, (forall d m, its_series d m its = series_of d m pts) -> zsum (map e_count (chunk_list o its)) <= zlen pts.
Proof.
  intros its o pts H. set (keys := nodup (fun a b : list Z * list Z => ltac:(repeat decide equality)) (map (fun x => (e_dev x, c_name (e_item x))) (chunk_list o its))).
  assert (N : NoDup keys) by apply NoDup_nodup. rewrite (count_keys _ keys N).
  - etransitivity; [|exact (PBound.series_sum pts keys N)]. apply Z.eq_le_incl. f_equal. apply map_ext. intros [d m]. cbn [fst snd]. rewrite <- H. symmetry. apply list_series.
  - intros x I. apply nodup_In. apply (in_map (fun x => (e_dev x, c_name (e_item x)))). exact I.
Qed.
Lemma count_nonneg : forall l, 0 <= zsum (map e_count l).
Proof. induction l as [|x l IH]; [reflexivity|]. cbn [map]. rewrite zsum_cons. unfold e_count at 1. pose proof (zlen_nonneg _ (c_pts (e_item x))). lia. Qed.
Lemma count_filter : forall f l, zsum (map e_count (filter f l)) <= zsum (map e_count l).
Proof.
  intros f l. induction l as [|x l IH]; [reflexivity|]. cbn [filter map]. rewrite zsum_cons. assert (0 <= e_count x) by apply zlen_nonneg. destruct (f x); [cbn [map]; rewrite zsum_cons|]; lia.
Qed.
Lemma count_concat : forall l, zlen (concat (map (fun x => c_pts (e_item x)) l)) = zsum (map e_count l).
Proof. induction l as [|x l IH]; [reflexivity|]. cbn [map concat]. rewrite zlen_app, zsum_cons, IH. reflexivity. Qed.
Lemma filter_map_comm : forall A B (f : A -> B) (g : B -> bool) l, filter g (map f l) = map f (filter (fun x => g (f x)) l).
Proof. intros. induction l as [|x l IH]; [reflexivity|]. cbn [map filter]. rewrite IH. destruct (g (f x)); reflexivity. Qed.

Section Entries.
Variable p : profile.
Variable snap decomp : list Z -> option (list Z).
Hypothesis HG : good_snap snap decomp.
Variable sc : schema.
Hypothesis Hsc : schema_ok sc.
Variable its : list item.
Hypothesis HI : Forall (item_ok p snap sc) its.
Lemma entry_item : forall o x, In x (chunk_list o its) -> citem_ok p snap (e_item x) /\ declares sc (e_dev x) (c_name (e_item x)) (c_ms (e_item x)) /\ cw_id (c_cw (e_item x)) = c_name (e_item x) /\
  cw_type (c_cw (e_item x)) = ms_type (c_ms (e_item x)).
Proof.
  intros o x I. apply list_in in I. destruct I as [(a & cs & b & E & J) _]. pose proof HI as HI'. rewrite E in HI'. destruct (item_declares p snap sc Hsc _ _ _ _ _ HI' J) as [A B].
  destruct (citem_id p snap decomp HG _ A) as [C D]. auto.
Qed.
Lemma path_entry : forall o q, filter (on_path q) (flat (metas o its)) = map (fun x => (e_dev x, e_meta x)) (filter (fun x => same_name (s_path (e_spot x)) q) (chunk_list o its)).
Proof.
  intros o q. rewrite flat_list, filter_map_comm. f_equal. apply filter_ext_in. intros x I. destruct (entry_item o x I) as (_ & _ & C & _). unfold on_path, e_meta. cbn [fst snd cmeta cm_id]. rewrite C.
  apply eq_true_iff_eq. rewrite str_eqb_eq, PWriter.same_name_eq. reflexivity.
Qed.
End Entries.

Section Records.
Variable p : profile.
Variable snap decomp : list Z -> option (list Z).
Hypothesis HG : good_snap snap decomp.
Variable sc : schema.
Hypothesis Hsc : schema_ok sc.
Variable its : list item.
Hypothesis HI : Forall (item_ok p snap sc) its.
Variable rest : list Z.
Hypothesis HL : bulk its (MAGIC ++ [3]) rest.
Hypothesis HP : zsum (map e_count (chunk_list 7 its)) < 2 ^ 32.
Local Notation G := (metas 7 its).
Local Notation ps := (its_pieces its).
Local Notation all := (chunk_list 7 its).

Lemma spots_list : spots snap 7 ps = map e_spot all.
Proof.
  destruct HL as [L _]. revert HI L. clear - HG Hsc. generalize 7. induction its as [|it r IH]; intros o HI L; [reflexivity|]. inversion HI; inversion L; subst.
  unfold its_pieces in *. cbn [map concat chunk_list]. rewrite spots_app, map_app. destruct (item_image p snap decomp HG sc Hsc it) as [E P]; auto. rewrite E, IH by auto. f_equal.
  destruct it as [d cs|bs]; [|reflexivity]. destruct P as [P0 P]. cbn [item_pieces spots]. change (piece_bytes snap (Header d)) with ([0] ++ text d). rewrite <- P0. cbn [app]. clear - P.
  generalize (o + zlen (ghead d)). clear o. induction P as [|c cs E P IH]; intros o; [reflexivity|]. cbn [map spots group_list citem_piece app].
  change (Chunk d (c_name c) (c_ms c) (c_pts c)) with (citem_piece d c). rewrite E, IH. reflexivity.
Qed.
Lemma data_bound : 7 + zlen (file_of its) < 2 ^ 63.
Proof. clear HP. destruct HL as [_ L]. rewrite !zlen_app in L. change (zlen MAGIC) with 6 in L. change (zlen [3]) with 1 in L. pose proof (zlen_nonneg _ rest). lia. Qed.
Lemma entry_facts : forall x, In x all -> citem_ok p snap (e_item x) /\ declares sc (e_dev x) (c_name (e_item x)) (c_ms (e_item x)) /\ cw_id (c_cw (e_item x)) = c_name (e_item x) /\
  cw_type (c_cw (e_item x)) = ms_type (c_ms (e_item x)) /\ wrapS 64 (e_at x) = e_at x /\ 0 <= e_at x < 2 ^ 63.
Proof.
  intros x I. destruct (entry_item p snap decomp HG sc Hsc its HI 7 x I) as (A & B & C & D). do 4 (split; [assumption|]). apply list_in in I. destruct I as [_ L]. pose proof data_bound.
  pose proof (zlen_nonneg _ (file_of its)). split; [|lia]. change (2 ^ 63) with (2 ^ (64 - 1)) in *. apply wrapS_small; lia.
Qed.
Lemma path_spots : forall q, chunks_at snap q ps = map e_spot (filter (fun x => same_name (s_path (e_spot x)) q) all).
Proof. intros q. unfold chunks_at. rewrite spots_list, filter_map_comm. reflexivity. Qed.
Lemma paths_keys : map fst (chunk_map G) = chunk_paths snap ps.
Proof.
  destruct (chunk_map_spec G) as (S & N & E). apply rising_same; [exact S|apply name_set_rising|]. intros q. unfold chunk_paths. rewrite name_set_in, spots_list, map_map. split.
  - intros I. apply in_map_iff in I. destruct I as ([q' l] & <- & I). apply (getl_in _ _ _ _ S N) in I. destruct I as [I NE]. rewrite E, (path_entry p snap decomp HG sc Hsc its HI) in I. cbn [fst].
    destruct (filter (fun x => same_name (s_path (e_spot x)) q') all) as [|x r] eqn:EF; [cbn in I; congruence|].
    assert (J : In x all /\ same_name (s_path (e_spot x)) q' = true) by (apply (filter_In (fun x => same_name (s_path (e_spot x)) q')); rewrite EF; left; auto). destruct J as [J1 J2]. apply PWriter.same_name_eq in J2. subst q'.
    apply (in_map (fun x => s_path (e_spot x))). exact J1.
  - intros I. apply in_map_iff in I. destruct I as (x & <- & I). apply in_map_iff. exists (s_path (e_spot x), getl (s_path (e_spot x)) (chunk_map G)). split; [reflexivity|]. apply (getl_in _ _ _ _ S N). split; [reflexivity|].
    rewrite E, (path_entry p snap decomp HG sc Hsc its HI). intros X. apply map_eq_nil, map_eq_nil in X. assert (J : In x (filter (fun y => same_name (s_path (e_spot y)) (s_path (e_spot x))) all)) by (apply filter_In; split; [exact I|apply PWriter.same_name_refl]).
    rewrite X in J. destruct J.
Qed.

Lemma record_exact : forall q cms tm, In (q, cms) (chunk_map G) -> ts_meta_of p cms = Ret tm -> zlen (tser tm) < 2 ^ 32 ->
  row_of tm = (record_name (chunks_at snap q ps), record_bytes (chunks_at snap q ps)).
Proof.
  intros q cms tm I T L. destruct (chunk_map_spec G) as (S & N & E). apply (getl_in _ _ _ _ S N) in I. destruct I as [I NE]. rewrite E, (path_entry p snap decomp HG sc Hsc its HI), map_map in I. cbn [snd] in I. rewrite path_spots.
  set (lo := filter (fun x => same_name (s_path (e_spot x)) q) all) in *.
  assert (LA : incl lo all) by (intros x J; apply filter_In in J; apply J).
  destruct lo as [|x0 lo'] eqn:ELO; [cbn in I; congruence|]. cbn [map] in I. subst cms. change (map (fun x : entry => e_meta x) lo') with (map e_meta lo') in *.
  destruct (entry_facts x0 (LA x0 (or_introl eq_refl))) as (_ & D0 & ID & TY & _). set (dt := ms_type (c_ms (e_item x0))) in *.
  set (locs := filter (fun x => dtype_code (ms_type (c_ms (e_item x))) =? dtype_code dt) (x0 :: lo')).
  assert (LI : forall x, In x locs -> In x all /\ ms_type (c_ms (e_item x)) = dt).
  { intros x J. apply filter_In in J. destruct J as [J1 J2]. split; [apply LA; exact J1|]. apply Z.eqb_eq in J2. destruct (ms_type (c_ms (e_item x))), dt; try reflexivity; discriminate. }
  assert (KEPT : filter (fun m => dtype_eqb (cm_type m) dt) (map e_meta (x0 :: lo')) = map e_meta locs).
  { rewrite filter_map_comm. f_equal. apply filter_ext_in. intros x J. destruct (entry_facts x (LA x J)) as (_ & _ & _ & C & _). unfold e_meta. cbn [cmeta cm_type]. rewrite C. destruct (ms_type (c_ms (e_item x))), dt; reflexivity. }
  assert (CT : forall x, In x locs -> points_ok dt (c_pts (e_item x)) /\ tree_stats p dt (chunk_tree (pages_of dt (ms_enc (c_ms (e_item x))) (c_pts (e_item x)))) = Ret (cw_stats (c_cw (e_item x))) /\
      cw_type (c_cw (e_item x)) = dt /\ wbytes (stats_serialize (cw_stats (c_cw (e_item x)))) = stat_bytes dt (c_pts (e_item x)) (chunk_sum dt (pages_of dt (ms_enc (c_ms (e_item x))) (c_pts (e_item x))))).
  { intros x J. destruct (LI x J) as [J1 J2]. destruct (entry_facts x J1) as ([B1 B2 B3] & _). rewrite <- J2. destruct (buffer_exact p snap decomp HG _ _ _ _ B1 B3) as (_ & _ & K1 & K2 & _ & _ & K3).
    split; [apply B1|]. split; [exact K3|]. split; [exact K2|]. exact (stats_exact p snap decomp HG _ _ _ _ B1 B3). }
  assert (FW : Forall (cm_wf dt) (map e_meta locs)).
  { apply Forall_forall. intros cm J. apply in_map_iff in J. destruct J as (x & <- & J). destruct (CT x J) as (C1 & C2 & C4 & C5). destruct (entry_facts x (proj1 (LI x J))) as (_ & _ & _ & _ & W & W0).
    assert (P : points_ok dt (tree_points (chunk_tree (pages_of dt (ms_enc (c_ms (e_item x))) (c_pts (e_item x)))))) by (rewrite chunk_tree_points, pages_concat; auto).
    split; unfold e_meta; cbn [cmeta cm_type cm_stats cm_offset]; auto.
    - eapply tree_type; eauto.
    - eapply tree_wf; eauto.
    - rewrite W. assert (2 ^ 63 < 2 ^ 64) by reflexivity. lia. }
  cbn [map] in KEPT. rewrite (ts_meta_kept p dt) in T by (first [exact TY|rewrite KEPT; exact FW]). rewrite KEPT in T. apply bind_ret in T. destruct T as (st & M & T). rinj T.
  set (sv := several (e_meta x0 :: map e_meta lo')) in *.
  assert (SV : sv = negb (zlen (map e_spot (x0 :: lo')) =? 1)).
  { unfold sv, several, zlen. cbn [length map]. rewrite !map_length. destruct lo' as [|y l]; [reflexivity|]. cbn [length]. symmetry. apply negb_true_iff. apply Z.eqb_neq. lia. }
  assert (SAME : filter (fun y => dtype_code (ms_type (s_ms y)) =? dtype_code dt) (map e_spot (x0 :: lo')) = map e_spot locs) by apply filter_map_comm.
  assert (RB : ref_bytes sv (map e_meta locs) = concat (map (fun y => digits 8 (s_at y) ++
       (if sv then stat_bytes dt (s_points y) (chunk_sum dt (pages_of dt (ms_enc (s_ms y)) (s_points y))) else [])) (map e_spot locs))).
  { clear SV L. generalize sv. intros v. unfold ref_bytes. rewrite !map_map. f_equal. apply map_ext_in. intros x J. destruct (CT x J) as (_ & _ & _ & C5). destruct (entry_facts x (proj1 (LI x J))) as (_ & _ & _ & _ & W & _).
    unfold chunk_meta_serialize, e_meta, e_spot. cbn [wbytes cmeta cm_offset cm_stats s_at s_points s_ms]. rewrite W, digits_be. f_equal. destruct v; [exact C5|reflexivity]. }
  assert (MS : wbytes (stats_serialize st) = stat_bytes dt (concat (map s_points (map e_spot locs))) (SLayout.series_sum dt (map (fun y => pages_of dt (ms_enc (s_ms y)) (s_points y)) (map e_spot locs)))).
  { rewrite !map_map. cbn [e_spot s_points s_ms]. set (chunks := map (fun x => pages_of dt (ms_enc (c_ms (e_item x))) (c_pts (e_item x))) locs). set (pts := concat (map (fun x => c_pts (e_item x)) locs)).
    assert (TS : tree_stats p dt (series_tree chunks) = Ret st).
    { unfold series_tree. apply (series_tree_merge p dt (map e_meta locs) chunks Empty (stats_new dt) st); [|reflexivity|exact M].
      unfold chunks. clear - CT. assert (X : forall l, incl l locs -> Forall2 (fun cm pages => tree_stats p dt (chunk_tree pages) = Ret (cm_stats cm)) (map e_meta l) (map (fun x => pages_of dt (ms_enc (c_ms (e_item x))) (c_pts (e_item x))) l)).
      { induction l as [|x l IH]; intros H; [constructor|]. cbn [map]. constructor; [|apply IH; intros y Y; apply H; right; auto]. unfold e_meta. cbn [cmeta cm_stats]. apply (CT x). apply H. left. auto. }
      apply X. apply incl_refl. }
    assert (TP : tree_points (series_tree chunks) = pts).
    { rewrite series_tree_points. unfold chunks, pts. rewrite map_map. f_equal. apply map_ext. intros x. apply pages_concat. }
    assert (PB : zlen pts < 2 ^ 32).
    { unfold pts. rewrite count_concat. eapply Z.le_lt_trans; [|exact HP]. unfold locs. etransitivity; [apply count_filter|]. rewrite <- ELO. apply count_filter. }
    rewrite <- TP, <- series_tree_sum. apply (stat_bytes_ok p); auto; [|rewrite TP; auto].
    rewrite TP. unfold pts. clear - CT. assert (X : forall l, incl l locs -> points_ok dt (concat (map (fun x => c_pts (e_item x)) l))).
    { induction l as [|x l IH]; intros H; [constructor|]. cbn [map concat]. apply Forall_app. split; [apply (CT x); apply H; left; auto|apply IH; intros y Y; apply H; right; auto]. }
    apply X. apply incl_refl. }
  assert (NM : zlen (c_name (e_item x0)) < 2 ^ 31) by (apply (declares_short sc Hsc _ _ _ D0)).
  unfold row_of. cbn [tm_id]. unfold e_meta at 1. cbn [cmeta cm_id]. rewrite ID.
  assert (RN : record_name (map e_spot (x0 :: lo')) = c_name (e_item x0)) by reflexivity. 
  assert (RBY : record_bytes (map e_spot (x0 :: lo')) = [if sv then 1 else 0] ++ text (c_name (e_item x0)) ++ [dtype_code dt] ++ SLayout.leb (zlen (ref_bytes sv (map e_meta locs))) ++ wbytes (stats_serialize st) ++ ref_bytes sv (map e_meta locs)).
  { unfold record_bytes. cbn [map]. change (e_spot x0 :: map e_spot lo') with (map e_spot (x0 :: lo')). cbv zeta. change (ms_type (s_ms (e_spot x0))) with dt. rewrite SAME, <- SV, <- RB, <- MS. reflexivity. }
  rewrite RN, RBY. f_equal.
  set (rb := ref_bytes sv (map e_meta locs)) in *.
  assert (RL : zlen rb < 2 ^ 32).
  { unfold tser, ts_meta_serialize in L. cbn [wbytes tm_buffer tm_type tm_id tm_dtype tm_list_size tm_stats] in L. rewrite !zlen_app in L.
    repeat match type of L with context [zlen ?l] => lazymatch l with rb => fail | _ => first [is_var l; fail 1 | let v := fresh "v" in pose proof (zlen_nonneg _ l); set (v := zlen l) in *; clearbody v] end end. lia. }
  unfold tser, ts_meta_serialize. cbn [wbytes tm_buffer tm_type tm_id tm_dtype tm_list_size tm_stats]. pose proof (zlen_nonneg _ rb). rewrite wrapU_small by lia. rewrite leb_var by lia.
  unfold e_meta. cbn [cmeta cm_id]. rewrite ID, write_str_text by auto. rewrite app_nil_r. reflexivity.
Qed.
End Records.
