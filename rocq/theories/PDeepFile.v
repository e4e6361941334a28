(** Closed files with a device of more than 65536 series (C53). *)
From Verif Require Export PPanic.
Ltac Zify.zify_post_hook ::= idtac.

Lemma tbytes_len : forall l, zlen l <= zlen (tbytes l).
Proof.
  induction l as [|m l IH]; [reflexivity|]. change (tbytes (m :: l)) with (tser m ++ tbytes l). rewrite zlen_cons, zlen_app.
  assert (1 <= zlen (tser m)); [|lia]. unfold tser, ts_meta_serialize. cbn [wbytes app]. rewrite zlen_cons. match goal with |- _ <= _ + zlen ?x => pose proof (zlen_nonneg _ x) end. lia.
Qed.
Lemma big_device : forall tsm oa imap ob d l, is_healthy oa -> device_loop 256 tsm oa = Ret (imap, ob) -> In (d, l) tsm -> 65536 < zlen l ->
  Forall (fun tm => zlen (tm_id tm) < 2 ^ 31) l ->
  exists root q, In (d, root) imap /\ points_to q InternalMeasurement root /\ in_end root = q /\ sk_pos oa <= q <= sk_pos ob /\
    Forall (fun e => zlen (ie_name e) < 2 ^ 31) (in_children root) /\ zlen (in_children root) <= zlen l + 1 /\ zlen l <= q - sk_pos oa /\ (tsm = [(d, l)] -> q = sk_pos ob).
Proof.
  induction tsm as [|[d0 l0] tsm IH]; intros oa imap ob d l Hh H I LB FN; [destruct I|]. cbn [device_loop] in H. destruct I as [X|I].
  - injection X as -> ->. destruct l as [|m l]; [rewrite zlen_nil in LB; lia|]. set (L := m :: l) in *.
    destruct (measurement_loop 256 0 L (index_node_new LeafMeasurement) [] oa) as [[cur queue] out1] eqn:M.
    pose proof (mloop_ext _ _ _ _ _ _ _ _ _ Hh M) as MX.
    destruct (mloop_queue_ok 256 (fun s => zlen s < 2 ^ 31) ltac:(lia) _ _ _ _ _ _ _ _ FN M) as (Q1 & Q2 & Q3 & Q4 & _ & Q6); try lia; try apply Forall_nil.
    assert (QN : queue <> []).
    { eapply (mloop_overfull 256 ltac:(lia) _ _ _ _ _ _ _ _ M); [lia|reflexivity|rewrite zlen_nil; lia|right; reflexivity|cbn; lia|cbn; lia]. }
    set (QQ := queue ++ [with_end (sk_pos out1) cur]) in *.
    destruct (root_loop_ok 256 (sk_pos out1) InternalMeasurement (fun s => zlen s < 2 ^ 31) ltac:(lia) (length QQ) QQ (le_n _)) as (root & R & K).
    { unfold QQ. destruct queue; discriminate. }
    { apply Forall_app. split; [exact Q1|]. apply Forall_cons; [|apply Forall_nil]. apply Q4. discriminate. }
    { apply Forall_app. split; [exact Q2|]. apply Forall_cons; [exact Q3|apply Forall_nil]. }
    unfold generate_root_node in H. rewrite R in H. cbn [bind] in H. apply bind_ret in H. destruct H as ([im o2] & H1 & H). cbn [fst snd] in H. rinj H.
    destruct (device_loop_ext _ _ _ _ _ (sk_ext_healthy _ _ _ MX Hh) H1) as [_ X2]. pose proof (se_pos _ _ _ X2) as P2. pose proof (se_pos _ _ _ MX) as P1.
    match type of P2 with _ = _ + zlen ?y => pose proof (zlen_nonneg _ y) end. pose proof (zlen_nonneg _ (tbytes L)).
    destruct K as (K1 & K2 & K3 & K4); [unfold QQ; rewrite app_length; cbn [length]; destruct queue; [congruence|cbn [length]; lia]|].
    exists root, (sk_pos out1). split; [left; reflexivity|]. split; [exact K1|]. split; [exact K2|]. split; [lia|]. split; [exact K3|]. split.
    { unfold QQ in K4. rewrite app_length in K4. cbn [length] in K4. rewrite zlen_nil in Q6. unfold zlen in *. lia. }
    split; [pose proof (tbytes_len L); lia|]. intros X. injection X as ->. cbn [device_loop] in H1. rinj H1. reflexivity.
  - destruct l0 as [|m0 l0].
    + destruct (IH _ _ _ _ _ Hh H I LB FN) as (root & q & A1 & A2 & A3 & A4 & A5 & A6 & A7 & _). exists root, q. do 7 (split; [auto|]). intros X. inversion X; subst. destruct I.
    + destruct (measurement_loop 256 0 (m0 :: l0) (index_node_new LeafMeasurement) [] oa) as [[cur queue] out1] eqn:M.
      pose proof (mloop_ext _ _ _ _ _ _ _ _ _ Hh M) as MX. apply bind_ret in H. destruct H as (r0 & _ & H). apply bind_ret in H. destruct H as ([im o2] & H1 & H). cbn [fst snd] in H. rinj H.
      destruct (IH _ _ _ _ _ (sk_ext_healthy _ _ _ MX Hh) H1 I LB FN) as (root & q & A1 & A2 & A3 & A4 & A5 & A6 & A7 & _). pose proof (se_pos _ _ _ MX) as P1. pose proof (zlen_nonneg _ (tbytes (m0 :: l0))).
      exists root, q. split; [right; exact A1|]. split; [auto|]. split; [auto|]. split; [lia|]. split; [auto|]. split; [auto|]. split; [lia|]. intros X. inversion X; subst. destruct I.
Qed.

(** ** A node all of whose entries lead back to it *)
Lemma loops_forever : forall file n o b r, drop o file = Some b -> node_read b = Some (n, r) -> nd_type n = 2 -> nd_entries n <> [] -> Forall (fun e => snd e = o) (nd_entries n) ->
  forall fuel, measurements fuel file n = None.
Proof.
  intros file n o b r D R T NE F. induction fuel as [|fuel IH]; [reflexivity|]. cbn [measurements]. rewrite T. change (2 =? 3) with false. change (2 =? 2) with true. cbn iota.
  destruct (nd_entries n) as [|e es]; [congruence|]. cbn [map all_some]. rewrite (Forall_inv F), D, R, IH. reflexivity.
Qed.

(** ** The closed file *)
Lemma large_device : forall p snap decomp sc w h ops l ord w' a d names, good_snap snap decomp -> schema_ok sc ->
  trace p snap sc w h ops l -> ops_ok ops -> no_close ops = true -> h_recent h = [] \/ 0 < h_counted h ->
  step p snap w (OpClose ord) = Ret (w', a) -> zlen (file_bytes w') < 2 ^ 32 -> good_order ord -> no_dots sc ->
  NoDup names -> 65536 < zlen names -> Forall (fun m => series_of d m (h_all h) <> []) names ->
  exists ft n o q, footer_read (file_bytes w') = Some ft /\ lost_device (file_bytes w') ft d n o q /\
    (forall m, lookup (file_bytes w') d m = None) /\
    ((forall d' m, series_of d' m (h_all h) <> [] -> d' = d) -> q = o /\ index_read decomp (file_bytes w') = None).
Proof.
  intros p snap decomp sc w h ops l ord w' a d names HG Hsc T O NC HR H L GO ND NN LN FN.
  destruct (close_parts p snap decomp HG sc Hsc _ _ _ _ _ _ _ T O NC H) as (w1 & its & I & IG & E).
  rewrite <- (kept_all h HR) in *. set (h1 := if 0 <? h_counted h then h_flush h else h) in *.
  destruct (end_file_ok p _ _ _ (wi_healthy _ _ _ _ _ _ I) E) as (r & X & _). pose proof (se_data _ _ _ X) as FB.
  assert (FE : sk_data (io_out (w_io w')) = (MAGIC ++ [3]) ++ file_of its ++ 2 :: r).
  { rewrite FB. change (sk_data (io_out (w_io w1))) with (file_bytes w1). rewrite (wi_data _ _ _ _ _ _ I), <- !app_assoc. reflexivity. }
  change (file_bytes w') with (sk_data (io_out (w_io w'))) in *.
  pose proof (wi_items _ _ _ _ _ _ I) as HI. pose proof (wi_metas _ _ _ _ _ _ I) as HM. change 7 with (zlen (MAGIC ++ [3])) in HM.
  assert (HL : bulk its (MAGIC ++ [3]) (2 :: r)) by (apply bulk_of; rewrite <- FE; exact L).
  pose proof (all_meta_ok p snap decomp HG sc Hsc its (MAGIC ++ [3]) (2 :: r) HI ND HL) as AM.
  assert (FC : forall m, In m names -> exists cms, In (path_of d m, cms) (filter (of_device d) (chunk_map (metas (zlen (MAGIC ++ [3])) its)))).
  { intros m J. rewrite Forall_forall in FN. apply FN in J. rewrite <- (wi_series _ _ _ _ _ _ I) in J.
    destruct (found_conv p snap decomp HG sc Hsc its (MAGIC ++ [3]) (2 :: r) HI ND HL d m J) as (cms & C1 & C2). exists cms. apply filter_In. auto. }
  rewrite <- FE, <- HM in AM. rewrite <- HM in FC. set (G := io_groups (w_io w1)) in *. 
  destruct (footer_of_end p ord (w_io w1) (w_io w') GO (wi_healthy _ _ _ _ _ _ I) (wi_pos _ _ _ _ _ _ I) E (brief_of _ _ L)) as (tsm & imap & root & blk & A1 & A2 & AL & _ & A4 & (n & A5 & _) & _ & _).
  { intros tsm d0 M J. rewrite (wi_tsmeta _ _ _ _ _ _ I IG) in M. destruct (metadata_loop_spec p _ None [] tsm M (sorted_nil _) (Forall_nil _)) as (tms & T1 & T2 & T3 & T4).
    destruct (sm_get_some_in _ _ _ J) as (v & Gv). pose proof (sm_get_in _ _ _ _ Gv) as Iv. unfold no_empty in T3. rewrite Forall_forall in T3. apply T3 in Iv. cbn [snd] in Iv.
    specialize (T4 d0). unfold getl in T4. rewrite Gv in T4. cbn [sm_get app] in T4. destruct (filter (of_device d0) tms) as [|e es] eqn:EF; [cbn in T4; congruence|].
    assert (K : In e tms /\ of_device d0 e = true) by (apply filter_In; rewrite EF; left; auto). destruct K as [K1 K2]. destruct (F2_in_r _ _ _ _ _ e T1 K1) as ([q cms] & K3 & K4 & _). cbn [fst] in K4.
    unfold of_device in K2. apply str_eqb_eq in K2. rewrite K4 in K2. destruct (cmap_key p decomp _ G _ AM q cms K3) as (d' & m & -> & K). rewrite device_of_path_of in K2 by apply K. subst d'.
    destruct K as (_ & NE & _ & FK). destruct cms; [congruence|]. apply (Forall_inv FK). }
  set (file := sk_data (io_out (w_io w'))) in *. clearbody file.
  rewrite (wi_tsmeta _ _ _ _ _ _ I IG) in A1. fold G in A1. destruct (metadata_loop_spec p _ None [] tsm A1 (sorted_nil _) (Forall_nil _)) as (tms & T1 & T2 & T3 & T4).
  assert (FT : forall d0, Forall2 (fun pm e => fst e = fst pm /\ ts_meta_of p (snd pm) = Ret (snd e)) (filter (of_device d0) (chunk_map G)) (filter (of_device d0) tms)).
  { intros d0. exact (F2_filter _ _ _ (of_device d0) (of_device d0) _ _ (fun a b H => f_equal (fun q => str_eqb (device_of_path q) d0) (eq_sym (proj1 H))) T1). }
  assert (BIG : 65536 < zlen (getl d tsm)).
  { rewrite T4. unfold getl. cbn [sm_get app]. unfold zlen. rewrite map_length, <- (F2_length _ _ _ _ _ (FT d)).
    assert (IN : incl (map (path_of d) names) (map fst (filter (of_device d) (chunk_map G)))).
    { intros q J. apply in_map_iff in J. destruct J as (m & <- & J). destruct (FC m J) as (cms & J'). apply (in_map fst) in J'. exact J'. }
    assert (NP : NoDup (map (path_of d) names)).
    { clear - NN. induction NN as [|m names NI NN IH]; [constructor|]. cbn [map]. constructor; [|exact IH]. intros J. apply in_map_iff in J. destruct J as (m' & EQ & J).
      unfold path_of in EQ. apply app_inv_head in EQ. injection EQ as ->. auto. }
    pose proof (NoDup_incl_length NP IN) as LE. rewrite !map_length in LE. unfold zlen in LN. lia. }
  assert (ID : In (d, getl d tsm) tsm). { apply (getl_in _ _ _ _ T2 T3). split; [reflexivity|]. intros Z. rewrite Z, zlen_nil in BIG. lia. }
  destruct AL as (oa & ob & x & L1 & L0 & L2 & L3 & L4 & L5 & L6). destruct (device_loop_ext _ _ _ _ _ L1 L2) as [_ DX].
  assert (TB : zlen (tbytes (getl d tsm)) <= zlen file).
  { rewrite L4, zlen_app, (se_data _ _ _ DX), zlen_app. pose proof (zlen_nonneg _ x). pose proof (zlen_nonneg _ (sk_data oa)). apply in_split in ID. destruct ID as (s1 & s2 & ES). rewrite ES at 2.
    rewrite map_app, concat_app, zlen_app. cbn [map concat snd]. rewrite zlen_app. match goal with |- _ <= _ + (zlen ?u + (_ + zlen ?v)) + _ => pose proof (zlen_nonneg _ u); pose proof (zlen_nonneg _ v) end. lia. }
  assert (FI : Forall (fun tm => zlen (tm_id tm) < 2 ^ 31) (getl d tsm)).
  { rewrite T4 in *. unfold getl in *. cbn [sm_get app] in *. destruct (dev_list p decomp file G _ AM d _ _ (FT d)) as (? & ? & _ & _ & _ & R4); auto.
    - intros b J. apply filter_In in J. exact J.
    - intros tm J. pose proof (tser_le tm _ J). lia. }
  destruct (big_device tsm oa imap ob d _ L1 L2 ID BIG FI) as (rt & q & B1 & (B2 & B3 & B4) & B5 & B6 & B7 & B8 & B9 & B10).
  destruct A4 as [R1 R2]. assert (JD : In (d, rt) (ord imap)) by (eapply Permutation_in; [apply Permutation_sym, GO|exact B1]).
  destruct (F2_in_l _ _ _ _ _ _ R2 JD) as (e & JE & EN & EA). cbn [fst snd] in EN, EA.
  assert (ZO : zlen (sk_data ob) <= zlen file) by (rewrite L4, zlen_app; pose proof (zlen_nonneg _ x); lia).
  assert (OK : inode_ok rt).
  { assert (Q1 : q + 1 <= zlen file).
    { pose proof (at_range _ _ _ EA) as AR. rewrite Forall_forall in L6. pose proof (L6 e JE) as LE. cbv beta in LE. unfold nbytes in AR. rewrite node_bytes, !zlen_app in AR.
      change (zlen [node_type_code (in_type rt)]) with 1 in AR. repeat match type of AR with context [zlen ?u] => lazymatch u with file => fail | _ => pose proof (zlen_nonneg _ u); generalize dependent (zlen u); intros end end. lia. }
    split; [|split; [lia|lia]]. apply Forall_forall. intros c J. rewrite Forall_forall in B4, B7. split; [exact (B7 c J)|]. rewrite (B4 c J). lia. }
  destruct (at_drop _ _ _ EA) as (rest & ED). pose proof (node_roundtrip rt rest OK) as NR. fold (nbytes rt) in NR.
  assert (ND2 : NoDup (map fst (nd_entries (node_of root)))).
  { cbn [node_of nd_entries]. rewrite map_map. replace (map (fun x0 => fst (entry_of x0)) (in_children root)) with (map fst (ord imap)).
    - apply (Permutation_NoDup (l := map fst imap)); [apply Permutation_map, Permutation_sym, GO|]. rewrite A2. rewrite (nonempty_id _ _ T3). apply lt_nodup. exact T2.
    - clear - R2. induction R2 as [|u v lu lv [EQ _] R IH]; auto. cbn [map entry_of fst]. rewrite IH, EQ. reflexivity. }
  assert (JN : In (d, ie_offset e) (nd_entries (node_of root))) by (cbn [node_of nd_entries]; rewrite <- EN; apply (in_map entry_of) in JE; exact JE).
  assert (LD : lost_device file (mkFooter (node_of root) (zlen (sk_data (io_out (w_io w1)))) blk n) d (node_of rt) (ie_offset e) q).
  { split; [exact JN|eexists _, _; split; [exact ED|exact NR]|cbn [node_of nd_type]; rewrite B2; reflexivity| |].
    - cbn [node_of nd_entries]. intros Z. apply map_eq_nil in Z. contradiction.
    - cbn [node_of nd_entries]. apply Forall_map. exact B4. }
  eexists _, (node_of rt), (ie_offset e), q. split; [exact A5|]. split; [exact LD|]. split.
  - intros m. unfold lookup. rewrite A5. cbn [ft_root]. destruct (find _ _) as [[d' o']|] eqn:F; [|reflexivity]. apply find_some in F. destruct F as [F1 F2]. cbn [fst] in F2. apply same_name_eq in F2. subst d'.
    assert (o' = ie_offset e). { pose proof (sm_get_nodup _ _ _ _ ND2 JN). pose proof (sm_get_nodup _ _ _ _ ND2 F1). congruence. }
    subst o'. unfold entry_lookup. cbn [snd]. rewrite ED, NR. unfold node_lookup. rewrite (ld_type _ _ _ _ _ _ LD). reflexivity.
  - intros ONE.
    assert (TS : tsm = [(d, getl d tsm)]).
    { rewrite HM in A1. pose proof (tsm_devices p snap decomp HG sc Hsc its _ HI [] tsm [d] (within_nil its) ND A1) as PD. rewrite (nonempty_id _ _ T3) in PD.
      assert (LDV : lists_devices (fun d m => its_series d m its <> []) [d]).
      { split; [apply NoDup_cons; [intros []|apply NoDup_nil]|]. intros d'. split.
        - intros [<-|[]]. destruct names as [|m names]; [rewrite zlen_nil in LN; lia|]. exists m. rewrite (wi_series _ _ _ _ _ _ I). exact (Forall_inv FN).
        - intros (m & J). rewrite (wi_series _ _ _ _ _ _ I) in J. left. symmetry. eapply ONE; eauto. }
      specialize (PD LDV). apply Permutation_length_1_inv in PD. destruct tsm as [|[k v] [|]]; try discriminate. destruct ID as [ID|[]]. rewrite <- ID at 1. reflexivity. }
    specialize (B10 TS). rewrite (nonempty_id _ _ T3), TS in A2. cbn [map fst] in A2. destruct imap as [|i0 [|]]; try discriminate.
    pose proof (GO [i0]) as P1. apply Permutation_sym, Permutation_length_1_inv in P1.
    pose proof (F2_length _ _ _ _ _ R2) as LR. rewrite P1 in LR. cbn [length] in LR. destruct (in_children root) as [|e' [|]] eqn:EQ2; try discriminate.
    destruct JE as [->|[]]. cbv iota in L5. split; [congruence|].
    rewrite (index_read_unfold decomp file _ A5) by (cbn [ft_root node_of nd_type]; rewrite R1; reflexivity). cbn [ft_root node_of nd_entries]. rewrite EQ2. cbn [map all_some]. unfold read_dev at 1. unfold entry_of at 1. cbn [fst snd].
    rewrite ED, NR. rewrite (loops_forever file (node_of rt) (ie_offset e) _ _ ED NR); auto; [apply LD|apply LD|]. replace (ie_offset e) with q by congruence. apply LD.
Qed.
