(** What is read through the index when names are of any kind (C63). *)
From Verif Require Export PDotsClose PRecloseIndex SDotsIndex.
Ltac Zify.zify_post_hook ::= idtac.

Lemma ts_roundtrip_flag : forall dt id (b : bool) l st, Forall (cm_wf dt) l -> stats_wf st -> st_type st = dt -> zlen id < 2 ^ 31 -> zlen (ref_bytes b l) < 2 ^ 32 ->
  ts_reads (mkTM (if b then 1 else 0) (zlen (ref_bytes b l)) id dt st (ref_bytes b l))
    (mkTsMeta id (dtype_code dt) (stat_of st) (map (ref_of b) l)).
Proof.
  intros dt id b l st F W T N L. pose proof (zlen_nonneg _ (ref_bytes b l)). split; [discriminate|]. intros rest.
  unfold tser, ts_meta_serialize. cbn [wbytes tm_type tm_id tm_dtype tm_list_size tm_stats tm_buffer]. rewrite app_nil_r, <- !app_assoc.
  unfold tsmeta_read. cbn [app byte_field]. rewrite write_str_roundtrip by auto. cbn [app byte_field].
  rewrite wrapU_small by lia. rewrite var_u32_roundtrip by lia. rewrite <- T at 1. rewrite (proj1 (stats_roundtrip_exact _ _ W)).
  rewrite take_app. rewrite (parts_many _ _ _ (map (ref_of b) l)); [reflexivity|apply ref_parts; auto|auto].
Qed.
(** The bytes of a listed chunk *)
Lemma entry_bytes : forall its pre x, In x (chunk_list (zlen pre) its) -> exists a b, pre ++ file_of its = a ++ cbytes (e_item x) ++ b /\ zlen a = e_at x.
Proof.
  induction its as [|it its IH]; intros pre x I; [destruct I|]. cbn [chunk_list] in I. unfold file_of. cbn [map concat]. fold (file_of its). apply in_app_or in I. destruct I as [I|I].
  - destruct it as [d cs|bs]; [|destruct I]. cbn [item_bytes].
    assert (X : forall cs pre, In x (group_list d (zlen pre) cs) -> exists a b, pre ++ concat (map cbytes cs) = a ++ cbytes (e_item x) ++ b /\ zlen a = e_at x).
    { clear. induction cs as [|c cs IH]; intros pre I; [destruct I|]. cbn [group_list] in I. cbn [map concat]. destruct I as [<-|I].
      - exists pre, (concat (map cbytes cs)). split; reflexivity.
      - rewrite <- zlen_app in I. apply IH in I. destruct I as (a & b & E & L). exists a, b. rewrite <- app_assoc in E. auto. }
    rewrite <- zlen_app in I. apply X in I. destruct I as (a & b & E & L). exists a, (b ++ file_of its). split; [|exact L]. rewrite !app_assoc in *. rewrite E. reflexivity.
  - rewrite <- zlen_app in I. apply IH in I. destruct I as (a & b & E & L). exists a, b. rewrite <- app_assoc in E. auto.
Qed.
Lemma entry_thin : forall its o x, In x (chunk_list o its) -> Forall light its -> thin (e_item x).
Proof.
  intros its o x I L. apply list_in in I. destruct I as [(a & cs & b & -> & J) _]. apply Forall_app in L. destruct L as [_ L]. apply Forall_inv in L. cbn [light] in L. rewrite Forall_forall in L. auto.
Qed.

Section Found.
Variable p : profile.
Variable snap decomp : list Z -> option (list Z).
Hypothesis HG : good_snap snap decomp.
Variable sc : schema.
Hypothesis Hsc : schema_ok sc.
Variable its : list item.
Hypothesis HI : Forall (item_ok p snap sc) its.
Variable rest : list Z.
Hypothesis HL : bulk its (MAGIC ++ [3]) rest.
Local Notation G := (metas 7 its).
Local Notation ps := (its_pieces its).
Local Notation all := (chunk_list 7 its).
Local Notation file := ((MAGIC ++ [3]) ++ file_of its ++ rest).

Lemma entry_chunk : forall x, In x all -> exists k, ck_ok p (e_item x) k /\ chunk_at decomp file (e_at x) = Some k.
Proof.
  intros x I. destruct (entry_facts p snap decomp HG sc Hsc its HI rest HL x I) as (A & B & _). pose proof (entry_thin _ _ _ I (proj1 HL)) as TH.
  change 7 with (zlen (MAGIC ++ [3])) in I. apply entry_bytes in I. destruct I as (a & b & E & L). rewrite app_assoc, E, <- !app_assoc. apply (chunk_at_ok p snap decomp HG); auto. exact (proj2 (declares_short sc Hsc _ _ _ B)).
Qed.
Lemma record_found : forall q cms tm, In (q, cms) (chunk_map G) -> ts_meta_of p cms = Ret tm -> zlen (tser tm) < 2 ^ 32 ->
  exists t x, ts_reads tm t /\ rd decomp file (device_part q) t = Some x /\ text_found p snap (ps, q) x.
Proof.
  intros q cms tm I T L. destruct (chunk_map_spec G) as (S & N & E). apply (getl_in _ _ _ _ S N) in I. destruct I as [I NE]. rewrite E, (path_entry p snap decomp HG sc Hsc its HI), map_map in I. cbn [snd] in I.
  pose proof (path_spots p snap decomp HG sc Hsc its HI rest HL q) as PS.
  set (lo := filter (fun x => same_name (s_path (e_spot x)) q) all) in *.
  assert (LA : incl lo all) by (intros x J; apply filter_In in J; apply J).
  destruct lo as [|x0 lo'] eqn:ELO; [cbn in I; congruence|]. cbn [map] in I. subst cms. change (map (fun x : entry => e_meta x) lo') with (map e_meta lo') in *.
  pose proof (entry_facts p snap decomp HG sc Hsc its HI rest HL) as EFS.
  destruct (EFS x0 (LA x0 (or_introl eq_refl))) as (_ & D0 & ID & TY & _). set (dt := ms_type (c_ms (e_item x0))) in *.
  set (locs := filter (fun x => dtype_code (ms_type (c_ms (e_item x))) =? dtype_code dt) (x0 :: lo')).
  assert (LI : forall x, In x locs -> In x all /\ ms_type (c_ms (e_item x)) = dt).
  { intros x J. apply filter_In in J. destruct J as [J1 J2]. split; [apply LA; exact J1|]. apply Z.eqb_eq in J2. destruct (ms_type (c_ms (e_item x))), dt; try reflexivity; discriminate. }
  assert (KEPT : filter (fun m => dtype_eqb (cm_type m) dt) (map e_meta (x0 :: lo')) = map e_meta locs).
  { rewrite filter_map_comm. f_equal. apply filter_ext_in. intros x J. destruct (EFS x (LA x J)) as (_ & _ & _ & C & _). unfold e_meta. cbn [cmeta cm_type]. rewrite C. destruct (ms_type (c_ms (e_item x))), dt; reflexivity. }
  assert (CUT : exists cuts ks, map (@concat _) cuts = map (fun x => c_pts (e_item x)) locs /\
     Forall2 (fun x pages => tree_stats p dt (chunk_tree pages) = Ret (cw_stats (c_cw (e_item x))) /\ points_ok dt (concat pages)) locs cuts /\
     Forall2 (fun pages k => chunk_points k = tnums (concat pages) /\ ch_type k = dtype_code dt /\ exists stored, Forall2 (page_holds p dt stored) pages (ch_pages k)) cuts ks /\
     Forall2 (fun x k => chunk_at decomp file (e_at x) = Some k /\ ch_name k = c_name (e_item x)) locs ks).
  { clear - LI EFS HG Hsc HI HL. induction locs as [|x locs IH].
    - exists [], []. repeat split; constructor.
    - destruct IH as (cuts & ks & A1 & A2 & A3 & A4); [intros y Y; apply LI; right; auto|]. destruct (LI x (or_introl eq_refl)) as [X1 X2].
      destruct (entry_chunk x X1) as (k & [K1 K2 K3 (pages & b & P1 & P2 & P3) _] & K). destruct (EFS x X1) as ([[B _] _ _] & _). rewrite X2 in *.
      exists (pages :: cuts), (k :: ks). cbn [map]. rewrite A1, P1. split; [reflexivity|]. split; [constructor; auto; rewrite P1; auto|]. split; [constructor; auto; rewrite P1; eauto|]. constructor; auto. }
  destruct CUT as (cuts & ks & C1 & C2 & C3 & C4).
  assert (TW : forall t s, points_ok dt (tree_points t) -> tree_stats p dt t = Ret s -> stats_wf s /\ st_type s = dt /\ same_stats (stat_of s) s).
  { intros t s A B. pose proof (tree_wf _ _ _ _ A B) as W. split; [exact W|]. split; [eapply tree_type; eauto|]. apply (stats_roundtrip_exact s []). exact W. }
  assert (CTW : forall pages st, tree_stats p dt (chunk_tree pages) = Ret st -> points_ok dt (concat pages) -> stats_wf st /\ st_type st = dt /\ same_stats (stat_of st) st).
  { intros pages st A B. apply (TW (chunk_tree pages)); auto. rewrite chunk_tree_points. exact B. }
  assert (FW : Forall (cm_wf dt) (map e_meta locs)).
  { apply Forall_forall. intros cm J. apply in_map_iff in J. destruct J as (x & <- & J). destruct (LI x J) as [J1 J2]. destruct (F2_in_l _ _ _ _ _ x C2 J) as (pages & _ & Y1 & Y2). destruct (CTW _ _ Y1 Y2) as (W1 & W2 & _).
    destruct (EFS x J1) as (_ & _ & _ & C & W & W0). split; unfold e_meta; cbn [cmeta cm_type cm_stats cm_offset]; auto; [congruence|].
    rewrite W. assert (2 ^ 63 < 2 ^ 64) by reflexivity. lia. }
  cbn [map] in KEPT. rewrite (ts_meta_kept p dt) in T by (first [exact TY|rewrite KEPT; exact FW]). rewrite KEPT in T. apply bind_ret in T. destruct T as (st & M & T). rinj T.
  set (sv := several (e_meta x0 :: map e_meta lo')) in *.
  assert (SV : sv = negb (zlen (map e_spot (x0 :: lo')) =? 1)).
  { unfold sv, several, zlen. cbn [length map]. rewrite !map_length. destruct lo' as [|y l]; [reflexivity|]. cbn [length]. symmetry. apply negb_true_iff. apply Z.eqb_neq. lia. }
  assert (TS : tree_stats p dt (series_tree cuts) = Ret st).
  { unfold series_tree. apply (series_tree_merge p dt (map e_meta locs) cuts Empty (stats_new dt) st); [|reflexivity|exact M]. apply F2_map_l. eapply F2_impl; [|exact C2]. cbn beta. unfold e_meta. cbn [cmeta cm_stats]. tauto. }
  assert (PO : points_ok dt (tree_points (series_tree cuts))).
  { rewrite series_tree_points. clear - C2. induction C2 as [|x pages locs cuts [_ X] F IH]; [constructor|]. cbn [map concat]. apply Forall_app. auto. }
  destruct (TW _ _ PO TS) as (W1 & W2 & W3).
  assert (NM : zlen (c_name (e_item x0)) < 2 ^ 31) by (apply (declares_short sc Hsc _ _ _ D0)).
  assert (R : zlen (ref_bytes sv (map e_meta locs)) < 2 ^ 32).
  { eapply Z.le_lt_trans; [|exact L]. unfold tser, ts_meta_serialize. cbn [wbytes tm_buffer]. rewrite !zlen_app. 
    match goal with |- zlen ?r <= _ => repeat match goal with |- context [zlen ?l] => lazymatch l with r => fail | _ => idtac end; let v := fresh "v" in pose proof (zlen_nonneg _ l); set (v := zlen l) in *; clearbody v end end. lia. }
  eexists. eexists (device_part q, _, ks). split; [apply (ts_roundtrip_flag dt (cm_id (e_meta x0)) sv (map e_meta locs) st FW W1 W2); [unfold e_meta; cbn [cmeta cm_id]; rewrite ID; exact NM|exact R]|].
  assert (OFF : forall x, In x locs -> cm_offset (e_meta x) = e_at x).
  { intros x J. destruct (EFS x (proj1 (LI x J))) as (_ & _ & _ & _ & W & _). unfold e_meta. cbn [cmeta cm_offset]. exact W. }
  assert (SAME : same_type (map e_spot (x0 :: lo')) = map e_spot locs) by (cbn [map same_type]; change (e_spot x0 :: map e_spot lo') with (map e_spot (x0 :: lo')); apply filter_map_comm).
  split.
  - unfold rd. cbn [ts_chunks]. rewrite map_map. cbn [ref_of fst]. rewrite map_map.
    rewrite (map_ext_in _ (fun x => chunk_at decomp file (e_at x))) by (intros x J; rewrite (OFF x J); reflexivity).
    rewrite (all_some_F2 _ _ (fun x => chunk_at decomp file (e_at x)) locs ks) by (eapply F2_impl; [|exact C4]; cbn beta; tauto). reflexivity.
  - unfold text_found. cbn [fst snd f_key f_meta ts_name ts_type ts_chunks ts_stats]. rewrite PS, SAME. exists (e_spot x0), (map e_spot lo'). split; [reflexivity|]. cbv zeta. cbn [e_spot s_ms s_name]. fold dt.
    split; [unfold e_meta; cbn [cmeta cm_id]; rewrite ID; reflexivity|]. split; [reflexivity|].
    split; [rewrite !map_map; apply map_ext_in; intros x J; cbn [ref_of fst e_spot s_at]; apply OFF; exact J|].
    split; [clear - C4; rewrite map_map; cbn [e_spot s_name]; induction C4 as [|x k locs ks [_ X] F IH]; [reflexivity|]; cbn [map]; rewrite X, IH; reflexivity|].
    exists cuts. split; [rewrite C1, map_map; reflexivity|]. split; [exact C3|]. split; [eauto|].
    rewrite SV. set (n := zlen (map e_spot (x0 :: lo'))). clearbody n. revert C2 CTW. clear. intros C2 CTW. induction C2 as [|x pages locs cuts [A B] F IH]; [constructor|]. cbn [map]. constructor; [|exact IH]. cbn [ref_of snd].
    destruct (Z.eqb_spec n 1) as [Y|Y]; cbn [negb]; [exact Y|]. split; [exact Y|]. exists (cm_stats (e_meta x)). unfold e_meta. cbn [cmeta cm_stats]. split; [exact A|]. apply (CTW pages); auto.
Qed.
End Found.

(** Lookups *)
Lemma F2_firstn : forall A B (R : A -> B -> Prop) n l l', Forall2 R l l' -> Forall2 R (firstn n l) (firstn n l').
Proof. intros A B R n. induction n as [|n IH]; intros l l' F; [constructor|]. destruct F; cbn [firstn]; constructor; auto. Qed.
Lemma F2_skipn : forall A B (R : A -> B -> Prop) n l l', Forall2 R l l' -> Forall2 R (skipn n l) (skipn n l').
Proof. intros A B R n. induction n as [|n IH]; intros l l' F; [exact F|]. destruct F; cbn [skipn]; [constructor|auto]. Qed.
Lemma F2_chop : forall A B (R : A -> B -> Prop) n l l', Forall2 R l l' -> Forall2 (Forall2 R) (chop n l) (chop n l').
Proof.
  intros A B R n l l' F. unfold chop. rewrite <- (F2_length _ _ _ _ _ F). generalize (length l) as f. revert F. intros F f. revert l l' F. induction f as [|f IH]; intros l l' F; [constructor|].
  destruct F as [|a b l l' X F]; [constructor|]. assert (G : Forall2 R (a :: l) (b :: l')) by (constructor; auto). cbn [chop_fuel]. constructor; [apply F2_firstn; exact G|apply IH, F2_skipn; exact G].
Qed.
Lemma pages_lookup : forall file m blocks tb o, Forall2 (Forall2 ts_reads) blocks tb -> Forall (fun b => b <> []) blocks -> at_ file o (tbytes (concat blocks)) -> Forall (fun tm => zlen (tm_id tm) < 2 ^ 31) (concat blocks) ->
  range_lookup file m (floor_range m (map entry_of (block_entries o blocks)) (o + zlen (tbytes (concat blocks)))) = match floor_page m tb with Some b => find (named m) b | None => None end /\
  (floor_range m (map entry_of (block_entries o blocks)) (o + zlen (tbytes (concat blocks))) = None <-> floor_page m tb = None).
Proof.
  intros file m blocks tb o F. revert o. induction F as [|b t1 bs tb F1 F IH]; intros o NE A N; [split; [reflexivity|split; reflexivity]|].
  cbn [concat] in *. rewrite tbytes_app in A. apply Forall_app in N. destruct N as [N1 N2].
  assert (R : read_range file (o, o + zlen (tbytes b)) = Some t1).
  { unfold read_range. cbn [fst snd]. rewrite (at_slice file o (tbytes b) (o + zlen (tbytes b))); auto.
    - apply parts_many; [apply ts_parts; auto|auto].
    - replace o with (o + zlen (@nil Z)) by (rewrite zlen_nil; lia). apply (at_sub _ _ [] _ (tbytes (concat bs))). exact A. }
  assert (A2 : at_ file (o + zlen (tbytes b)) (tbytes (concat bs))).
  { apply (at_sub _ _ _ _ []). rewrite app_nil_r. exact A. }
  destruct (IH _ (Forall_inv_tail NE) A2 N2) as [I1 I2]. rewrite tbytes_app, zlen_app, Z.add_assoc. set (e := o + zlen (tbytes b) + zlen (tbytes (concat bs))) in *.
  assert (H1 : exists t t1', t1 = t :: t1' /\ ts_name t = first_id b).
  { pose proof (Forall_inv NE) as NB. cbv beta in NB. destruct b as [|tm b]; [congruence|]. inversion F1 as [|? t ? t1' X1 X2]; subst. exists t, t1'. split; auto.
    cbn [first_id]. apply ts_reads_name; auto. apply (Forall_inv N1). }
  destruct H1 as (t & t1' & -> & TN). set (es := map entry_of (block_entries (o + zlen (tbytes b)) bs)) in *.
  assert (NX : match es with [] => e | (_, o') :: _ => o' end = o + zlen (tbytes b)).
  { unfold es, e. destruct bs as [|b' bs]; [|reflexivity]. cbn [block_entries map concat]. change (tbytes []) with (@nil Z). rewrite zlen_nil, Z.add_0_r. reflexivity. }
  cbn [block_entries map floor_range entry_of ie_name ie_offset floor_page]. fold es. rewrite NX, TN. destruct (floor_range m es e) as [r|] eqn:FR.
  - destruct (floor_page m tb) as [pg|] eqn:FP; [|destruct I2 as [_ I2]; specialize (I2 eq_refl); discriminate]. split; [exact I1|split; discriminate].
  - rewrite (proj1 I2 eq_refl). destruct (lex_leb (first_id b) m); [|split; [reflexivity|split; reflexivity]]. cbn [range_lookup]. rewrite R. split; [reflexivity|split; discriminate].
Qed.
Lemma leaf_pages : forall file l n ts m, leaf_ok file l n -> Forall2 ts_reads l ts -> Forall (fun tm => zlen (tm_id tm) < 2 ^ 31) l -> node_lookup file (node_of n) m = paged_lookup m ts.
Proof.
  intros file l n ts m [(o & bl & -> & <- & NE & _ & A & CU)] F N. pose proof (F2_chop _ _ _ 256 _ _ F) as FC. rewrite <- (cut256_chop bl NE CU) in FC.
  destruct (pages_lookup file m bl (chop 256 ts) o FC NE A N) as [B1 _]. unfold paged_lookup. change (fun t : tsmeta => same_name (ts_name t) m) with (named m). rewrite <- B1.
  unfold node_lookup, range_lookup, read_range. cbn [node_of leaf_node in_type node_type_code nd_type nd_entries nd_end in_children in_end Z.eqb Pos.eqb].
  destruct (floor_range _ _ _) as [[a b]|]; [|reflexivity]. cbn [fst snd]. destruct (slice a b file); reflexivity.
Qed.

Section Lists.
Variable p : profile.
Variable snap decomp : list Z -> option (list Z).
Hypothesis HG : good_snap snap decomp.
Variable sc : schema.
Hypothesis Hsc : schema_ok sc.
Variable file : list Z.
Hypothesis HLen : zlen file < 2 ^ 63.
(** What is needed of every close so far *)
Definition stage_good (s : list item) : Prop := Forall (item_ok p snap sc) s /\ exists rest, bulk s (MAGIC ++ [3]) rest /\ file = (MAGIC ++ [3]) ++ file_of s ++ rest.

Lemma stage_list : forall s t d, stage_good s -> lists p s t -> (forall tm, In tm (dev_metas_of d t) -> zlen (tser tm) < 2 ^ 32) ->
  exists ts xs, Forall2 ts_reads (dev_metas_of d t) ts /\
    Forall2 (text_found p snap) (map (pair (its_pieces s)) (filter (fun q => same_name (device_part q) d) (chunk_paths snap (its_pieces s)))) xs /\
    map (rd decomp file d) ts = map Some xs.
Proof.
  intros s t d [HI (rest & HL & EF)] F HB. rewrite <- (paths_keys p snap decomp HG sc Hsc s HI rest HL), <- (listed_paths p s t d F). unfold dev_metas_of in *.
  assert (K : forall e, In e (filter (of_device d) t) -> device_part (fst e) = d /\ exists cms, In (fst e, cms) (chunk_map (metas 7 s)) /\ ts_meta_of p cms = Ret (snd e)).
  { intros [q tm] J. apply filter_In in J. destruct J as [J JD]. unfold of_device in JD. cbn [fst snd] in *. apply str_eqb_eq in JD. rewrite device_part_of in JD. split; [exact JD|].
    destruct (F2_in_r _ _ _ _ _ _ F J) as ([q' cms] & C & C1 & C2). cbn [fst snd] in *. subst q'. eauto. }
  induction (filter (of_device d) t) as [|[q tm] l IH]; [exists [], []; repeat split; constructor|]. cbn [map fst snd] in *.
  destruct IH as (ts & xs & I1 & I2 & I3); [intros tm' J; apply HB; right; auto|intros e J; apply K; right; auto|]. destruct (K _ (or_introl eq_refl)) as (K1 & cms & K2 & K3). cbn [fst snd] in *.
  destruct (record_found p snap decomp HG sc Hsc s HI rest HL q cms tm K2 K3 (HB tm (or_introl eq_refl))) as (t0 & x & X1 & X2 & X3). rewrite <- EF, K1 in X2.
  exists (t0 :: ts), (x :: xs). cbn [map]. rewrite X2, I3. repeat split; constructor; auto.
Qed.
Lemma stages_list : forall d snaps tmss, Forall stage_good snaps -> Forall2 (lists p) snaps tmss -> (forall tm, In tm (concat (map (dev_metas_of d) tmss)) -> zlen (tser tm) < 2 ^ 32) ->
  exists ts xs, Forall2 ts_reads (concat (map (dev_metas_of d) tmss)) ts /\ Forall2 (text_found p snap) (texts_of snap (map its_pieces snaps) d) xs /\ map (rd decomp file d) ts = map Some xs.
Proof.
  intros d snaps tmss G F. induction F as [|s t snaps tmss X F IH]; intros HB; [exists [], []; repeat split; constructor|]. inversion G as [|? ? G1 G2]; subst. cbn [map concat] in HB.
  destruct (IH G2) as (ts & xs & I1 & I2 & I3); [intros tm J; apply HB; apply in_or_app; auto|]. destruct (stage_list s t d G1 X) as (ts1 & xs1 & J1 & J2 & J3); [intros tm J; apply HB; apply in_or_app; auto|].
  exists (ts1 ++ ts), (xs1 ++ xs). unfold texts_of in *. cbn [map concat]. split; [apply Forall2_app; auto|]. split; [apply Forall2_app; auto|]. rewrite !map_app, J3, I3. reflexivity.
Qed.
Lemma read_dev_any : forall snaps tmss d n o, Forall stage_good snaps -> Forall2 (lists p) snaps tmss ->
  let l := concat (map (dev_metas_of d) tmss) in zlen (tbytes l) < 2 ^ 32 -> Forall (fun tm => zlen (tm_id tm) < 2 ^ 31) l -> leaf_ok file l n -> at_ file o (nbytes n) ->
  exists xs, read_dev decomp file (d, o) = Some xs /\ Forall2 (text_found p snap) (texts_of snap (map its_pieces snaps) d) xs /\ forall m, entry_lookup file (d, o) m = paged_lookup m (map f_meta xs).
Proof.
  intros snaps tmss d n o G F l LT R4 LO AT. pose proof LO as [(o1 & bl & N1 & N2 & N3 & N4 & N5 & _)]. pose proof (at_range _ _ _ N5) as AR. pose proof (zlen_nonneg _ (tbytes l)) as TL.
  destruct (stages_list d snaps tmss G F) as (ts & xs & R1 & R2 & R3).
  { fold l. intros tm I. pose proof (tser_le tm l I). lia. }
  fold l in R1. exists xs. pose proof (rd_metas _ _ _ _ _ R3) as MT. unfold read_dev, entry_lookup. cbn [fst snd]. destruct (at_drop _ _ _ AT) as (b & ->).
  assert (OK : inode_ok n).
  { clearbody l. subst n. unfold inode_ok, leaf_node. cbn [in_children in_end]. split; [|split; [rewrite N2; lia|unfold zlen; rewrite block_entries_length; fold (zlen bl); lia]].
    eapply Forall_impl; [|exact (block_entries_ok bl o1 N3)]. rewrite N2. intros e (E1 & tm & E2 & E3). split; [|lia]. rewrite E3. rewrite Forall_forall in R4. exact (R4 tm E2). }
  unfold nbytes. rewrite (node_roundtrip _ _ OK).
  destruct (length file) as [|f] eqn:EL.
  - exfalso. destruct AT as (a' & b' & X & _). apply (f_equal (@length Z)) in X. rewrite !app_length, EL in X. unfold nbytes in X. rewrite node_bytes in X. rewrite !app_length in X. cbn [length] in X. lia.
  - split; [rewrite (measurements_leaf file l n ts f LO R1); rewrite R3; apply all_some_map|]. split; [exact R2|]. intros m. rewrite <- MT. apply (leaf_pages file l n ts m LO R1 R4).
Qed.
End Lists.

Section IndexClose.
Variable p : profile.
Variable snap decomp : list Z -> option (list Z).
Hypothesis HG : good_snap snap decomp.
Variable sc : schema.
Hypothesis Hsc : schema_ok sc.

Lemma dev_texts : forall s t d rest, Forall (item_ok p snap sc) s -> bulk s (MAGIC ++ [3]) rest -> lists p s t ->
  (dev_metas_of d t <> [] <-> exists q, In q (chunk_paths snap (its_pieces s)) /\ device_part q = d).
Proof.
  intros s t d rest HI HL F. rewrite <- (paths_keys p snap decomp HG sc Hsc s HI rest HL). pose proof (listed_paths p s t d F) as E. unfold dev_metas_of. split.
  - intros N. destruct (filter (of_device d) t) as [|e l]; [exfalso; apply N; reflexivity|]. cbn [map] in E. assert (J : In (fst e) (filter (fun q => same_name (device_part q) d) (map fst (chunk_map (metas 7 s))))) by (rewrite <- E; left; reflexivity).
    apply filter_In in J. destruct J as [J1 J2]. apply PWriter.same_name_eq in J2. eauto.
  - intros (q & J1 & J2) N. apply map_eq_nil in N. rewrite N in E. cbn [map] in E.
    assert (J : In q (filter (fun q => same_name (device_part q) d) (map fst (chunk_map (metas 7 s))))) by (apply filter_In; split; auto; rewrite J2; apply PWriter.same_name_refl). rewrite <- E in J. destruct J.
Qed.
Lemma index_any : forall h its w snaps tmss ord io', winv p snap sc h its w -> minv p snaps (io_tsmeta (w_io w)) tmss -> Forall (fun s => exists more, its = s ++ more) snaps ->
  few_paths sc (zlen snaps + 1) 65536 -> short_paths sc -> good_order ord ->
  end_file p ord (w_io w) = Ret io' -> Forall light its -> brief (sk_data (io_out (w_io w))) (sk_data (io_out io')) ->
  index_lists p snap decomp (map its_pieces (snaps ++ [its])) (sk_data (io_out io')) /\ lookups_follow decomp (sk_data (io_out io')).
Proof.
  intros h its w snaps tmss ord io' I MI PRE FE SP GO H LI L. set (file := sk_data (io_out io')) in *.
  pose proof (wi_items _ _ _ _ _ _ I) as HI. pose proof (wi_metas _ _ _ _ _ _ I) as HM.
  destruct (end_file_ok p ord _ _ (wi_healthy _ _ _ _ _ _ I) H) as (r & SX & _). pose proof (se_data _ _ _ SX) as SD'. change (sk_data (io_out (w_io w))) with (file_bytes w) in SD'. rewrite (wi_data _ _ _ _ _ _ I) in SD'. fold file in SD'.
  pose proof H as H'. unfold end_file in H'. cbv zeta in H'. apply bind_ret in H'. destruct H' as (tsm & M & H'). clear H'.
  pose proof M as M0. rewrite HM in M0. destruct (minv_close p snaps _ tmss its tsm MI M0) as (tms & [Q1 Q2 Q3 Q4]).
  set (snaps' := snaps ++ [its]) in *. set (tmss' := tmss ++ [tms]) in *.
  assert (PRE' : Forall (fun s => exists more, its = s ++ more) snaps').
  { apply Forall_app. split; [exact PRE|]. constructor; [|constructor]. exists []. rewrite app_nil_r. reflexivity. }
  assert (HI' : Forall (Forall (item_ok p snap sc)) snaps').
  { eapply Forall_impl; [|exact PRE']. cbn beta. intros s (more & E). rewrite E in HI. apply Forall_app in HI. apply HI. }
  assert (SG : Forall (stage_good p snap sc file) snaps').
  { apply Forall_forall. intros s J. rewrite Forall_forall in PRE', HI'. destruct (PRE' s J) as (more & E). split; [apply HI'; exact J|]. exists (file_of more ++ 2 :: r).
    assert (EF : file = (MAGIC ++ [3]) ++ file_of s ++ file_of more ++ 2 :: r) by (rewrite SD', E, file_of_app, <- !app_assoc; reflexivity). split; [|exact EF].
    split; [rewrite E in LI; apply Forall_app in LI; apply LI|]. rewrite <- EF. exact (proj2 L). }
  assert (TC : forall d, zlen (getl d tsm) <= 65536).
  { intros d. rewrite Q4. pose proof (listed_total p snap decomp HG sc Hsc d snaps' tmss' HI' Q1) as X. specialize (FE d). unfold snaps' in X. rewrite zlen_app in X. change (zlen [its]) with 1 in X. lia. }
  assert (NM : forall d tm, In tm (getl d tsm) -> zlen d < 2 ^ 31 /\ zlen (tm_id tm) < 2 ^ 31).
  { intros d tm J. rewrite Q4 in J. apply in_concat in J. destruct J as (x & J1 & J2). apply in_map_iff in J1. destruct J1 as (t & <- & J1). destruct (F2_in_r _ _ _ _ _ t Q1 J1) as (s & S1 & S2). rewrite Forall_forall in HI'. exact (listed_names p snap decomp HG sc Hsc s t d tm (HI' s S1) S2 SP J2). }
  assert (DN : forall d, In d (map fst tsm) <-> getl d tsm <> []).
  { intros d. unfold getl. split; [intros J; destruct (sm_get_some_in _ _ _ J) as (v & E); rewrite E; apply sm_get_in in E; unfold no_empty in Q3; rewrite Forall_forall in Q3; exact (Q3 _ E)|].
    intros N. destruct (sm_get d tsm) eqn:E; [|congruence]. apply sm_get_in in E. apply (in_map fst) in E. exact E. }
  destruct (footer_of_end p ord (w_io w) io' GO (wi_healthy _ _ _ _ _ _ I) (wi_pos _ _ _ _ _ _ I) H L) as (tsm' & imap & root & blk & A1 & A2 & _ & A3 & A4 & (n & A5 & _) & _).
  { intros tsm' d M' J. assert (tsm' = tsm) by congruence. subst tsm'. apply DN in J. destruct (getl d tsm) as [|tm l] eqn:E; [congruence|]. apply (NM d tm). rewrite E. left. reflexivity. }
  assert (tsm' = tsm) by congruence. subst tsm'. fold file in A3, A4, A5. rewrite (nonempty_id _ _ Q3) in *.
  assert (B : Forall (fun dl => zlen (snd dl) <= 65536) tsm).
  { apply Forall_forall. intros [d l] J. cbn [snd]. apply (getl_in _ _ _ _ Q2 Q3) in J. destruct J as [<- _]. apply TC. }
  specialize (A3 B). destruct A4 as [R1 R2].
  assert (RD : forall d nd o, In (d, nd) (ord imap) -> at_ file o (nbytes nd) -> exists xs, read_dev decomp file (d, o) = Some xs /\ Forall2 (text_found p snap) (texts_of snap (map its_pieces snaps') d) xs /\ forall m, entry_lookup file (d, o) m = paged_lookup m (map f_meta xs)).
  { intros d nd o J AT. apply (Permutation_in _ (GO imap)) in J. destruct (F2_in_r _ _ _ _ _ _ A3 J) as ([d' l] & J' & E1 & E2). cbn [fst snd] in *. subst d'.
    pose proof (end_file_rows _ _ _ _ _ (wi_healthy _ _ _ _ _ _ I) (wi_pos _ _ _ _ _ _ I) H M _ _ J') as LT. fold file in LT.
    apply (getl_in _ _ _ _ Q2 Q3) in J'. destruct J' as [<- NE]. assert (FI : Forall (fun tm => zlen (tm_id tm) < 2 ^ 31) (getl d tsm)) by (apply Forall_forall; intros tm K; apply (NM d tm K)).
    rewrite Q4 in E2, LT, FI. apply (read_dev_any p snap decomp HG sc Hsc file (proj2 L) snaps' tmss' d nd o SG Q1); auto. exact (Z.le_lt_trans _ _ _ LT (proj1 L)). }
  assert (XS : exists xss : list (list found), Forall2 (fun e xs => read_dev decomp file (entry_of e) = Some xs) (in_children root) xss /\
     Forall2 (text_found p snap) (concat (map (texts_of snap (map its_pieces snaps')) (map fst (ord imap)))) (concat xss) /\
     Forall2 (fun e xs => Forall (fun x => fst (f_key x) = fst (entry_of e)) xs /\ forall m, entry_lookup file (entry_of e) m = paged_lookup m (map f_meta xs)) (in_children root) xss).
  { revert R2 RD. clear. generalize (ord imap) (in_children root). intros im es R2. induction R2 as [|[d nd] e im es [E1 E2] R2 IH]; intros RD.
    - exists []. repeat split; constructor.
    - destruct IH as (xss & I1 & I2 & I3); [intros d' nd' o J; apply RD; right; auto|]. cbn [fst snd] in *. destruct (RD d nd _ (or_introl eq_refl) E2) as (xs & X1 & X2 & X3).
      exists (xs :: xss). cbn [map concat]. split; [constructor; auto; unfold entry_of; rewrite E1; exact X1|]. split; [apply Forall2_app; auto|]. constructor; [|exact I3]. unfold entry_of. rewrite E1. cbn [fst]. split; [|exact X3].
      apply Forall_forall. intros x J. destruct (F2_in_r _ _ _ _ _ _ X2 J) as (sq & K & (c & l & _ & Y)). cbv zeta in Y. rewrite (proj1 Y). cbn [fst]. unfold texts_of in K. apply in_concat in K. destruct K as (b & K1 & K2).
      apply in_map_iff in K1. destruct K1 as (st & <- & K1). apply in_map_iff in K2. destruct K2 as (q & <- & K2). apply filter_In in K2. destruct K2 as [_ K2]. apply PWriter.same_name_eq in K2. exact K2. }
  destruct XS as (xss & X1 & X2 & X3).
  assert (IR : index_read decomp file = Some (concat xss)).
  { rewrite (index_read_unfold decomp file _ A5) by (cbn [ft_root node_of nd_type]; rewrite R1; reflexivity). cbn [ft_root node_of nd_entries]. rewrite map_map.
    rewrite (all_some_F2 _ _ (fun e => read_dev decomp file (entry_of e)) _ _ X1). reflexivity. }
  assert (DE : map fst (nd_entries (node_of root)) = map fst (ord imap)).
  { cbn [node_of nd_entries]. rewrite map_map. clear - R2. induction R2 as [|a b l m [E _] R IH]; auto. cbn [map]. f_equal; auto. }
  split.
  2:{ intros xs d m RX. rewrite IR in RX. injection RX as <-. unfold lookup. rewrite A5. cbn [ft_root]. assert (ND : NoDup (map fst (nd_entries (node_of root)))).
    { rewrite DE. apply (Permutation_NoDup (Permutation_map fst (Permutation_sym (GO imap)))). rewrite A2. apply lt_nodup. exact Q2. }
    revert X3 ND. clear. cbn [node_of nd_entries]. rewrite map_map. generalize (in_children root). intros es X3. induction X3 as [|e xs es xss [Y1 Y2] X3 IH]; intros ND; [reflexivity|]. cbn [map find concat] in *.
    rewrite filter_app. inversion ND as [|? ? ND1 ND2]; subst. destruct (same_name (fst (entry_of e)) d) eqn:E.
    - rewrite (filter_all _ (fun x : found => same_name (fst (f_key x)) d) xs) by (intros x J; rewrite Forall_forall in Y1; rewrite (Y1 x J); exact E).
      assert (Z : filter (fun x : found => same_name (fst (f_key x)) d) (concat xss) = []).
      { apply PWriter.same_name_eq in E. clear - X3 ND1 E. induction X3 as [|e' ys es xss [W1 W2] X3 IH]; [reflexivity|]. cbn [map concat] in *. rewrite filter_app, IH by (intros K; apply ND1; right; exact K). rewrite app_nil_r.
        destruct (filter (fun x : found => same_name (fst (f_key x)) d) ys) as [|x l] eqn:EF; [reflexivity|]. exfalso. assert (J : In x (x :: l)) by (left; reflexivity). rewrite <- EF in J. apply filter_In in J. destruct J as [J1 J2].
        apply PWriter.same_name_eq in J2. rewrite Forall_forall in W1. rewrite (W1 x J1) in J2. apply ND1. left. transitivity d; [exact J2|symmetry; exact E]. }
      rewrite Z, app_nil_r. apply Y2.
    - assert (Z : filter (fun x : found => same_name (fst (f_key x)) d) xs = []).
      { destruct (filter (fun x : found => same_name (fst (f_key x)) d) xs) as [|x l] eqn:EF; [reflexivity|]. exfalso. assert (J : In x (x :: l)) by (left; reflexivity). rewrite <- EF in J. apply filter_In in J. destruct J as [J1 J2].
        rewrite Forall_forall in Y1. rewrite (Y1 x J1) in J2. congruence. }
      rewrite Z. cbn [app]. apply IH. exact ND2. }
  exists (map fst (ord imap)), (concat xss). split; [exact IR|]. split; [|exact X2].
  - assert (PE : Permutation (map fst (ord imap)) (map fst tsm)) by (rewrite <- A2; apply Permutation_map; apply GO). etransitivity; [exact PE|].
    apply NoDup_Permutation; [apply lt_nodup; exact Q2|apply rising_nodup, name_set_rising|]. intros d. rewrite DN, name_set_in, Q4, in_map_iff. split.
    + intros N. destruct (concat (map (dev_metas_of d) tmss')) as [|y ys] eqn:E; [congruence|]. assert (J : In y (concat (map (dev_metas_of d) tmss'))) by (rewrite E; left; reflexivity).
      apply in_concat in J. destruct J as (x & J1 & J2). apply in_map_iff in J1. destruct J1 as (t & <- & J1). destruct (F2_in_r _ _ _ _ _ t Q1 J1) as (s & S1 & S2).
      rewrite Forall_forall in SG. destruct (SG s S1) as (HIs & rest & HLs & _). destruct (proj1 (dev_texts s t d rest HIs HLs S2)) as (q & K1 & K2); [intros Y; rewrite Y in J2; destruct J2|].
      exists q. split; [exact K2|]. apply in_concat. exists (chunk_paths snap (its_pieces s)). split; [|exact K1]. rewrite map_map. apply (in_map (fun x => chunk_paths snap (its_pieces x))). exact S1.
    + intros (q & E & J) N. apply in_concat in J. destruct J as (x & J1 & J2). rewrite map_map in J1. apply in_map_iff in J1. destruct J1 as (s & <- & S1). destruct (F2_in_l _ _ _ _ _ s Q1 S1) as (t & T1 & T2).
      rewrite Forall_forall in SG. destruct (SG s S1) as (HIs & rest & HLs & _). apply (proj2 (dev_texts s t d rest HIs HLs T2)); [eauto|].
      destruct (dev_metas_of d t) as [|y ys] eqn:Y; [reflexivity|]. exfalso. assert (J : In y (concat (map (dev_metas_of d) tmss'))) by (apply in_concat; exists (dev_metas_of d t); split; [apply in_map; exact T1|rewrite Y; left; reflexivity]). rewrite N in J. destruct J.
Qed.
End IndexClose.
