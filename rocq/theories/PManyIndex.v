(** What is read through the index with any number of records (C72). *)
From Verif Require Export PManyClose PDotsReach.
Ltac Zify.zify_post_hook ::= idtac.

Lemma device_loop_leaves : forall tsm out imap out', is_healthy out -> sk_pos out = zlen (sk_data out) -> no_empty tsm -> device_loop 256 tsm out = Ret (imap, out') ->
  Forall2 (fun dl dn => fst dn = fst dl /\ (zlen (snd dl) <= 65536 -> leaf_ok (sk_data out') (snd dl) (snd dn))) tsm imap.
Proof.
  induction tsm as [|[d l] tsm IH]; intros out imap out' Hh Hp NE H; cbn [device_loop] in H; [rinj H; constructor|].
  pose proof (Forall_inv NE) as NE1. apply Forall_inv_tail in NE. cbn [snd] in NE1. destruct l as [|m l]; [congruence|].
  set (L := m :: l) in *. destruct (measurement_loop 256 0 L (index_node_new LeafMeasurement) [] out) as [[cur queue] out1] eqn:E.
  destruct (mloop_many (length L) L [] out cur queue out1 (le_n _) NE1 Hh E) as (leaves & C1 & C2 & C3 & C4 & C5 & C6). clear E. cbn [app] in C1. rewrite C1 in H. clear C1.
  apply bind_ret in H. destruct H as (root & HR & H). apply bind_ret in H. destruct H as ([im o2] & H1 & H). cbn [fst snd] in H. rinj H.
  assert (P1 : sk_pos out1 = zlen (sk_data out1)). { rewrite (se_data _ _ _ C4), (se_pos _ _ _ C4), zlen_app. lia. }
  pose proof (IH out1 im out' (sk_ext_healthy _ _ _ C4 Hh) P1 NE H1) as A. constructor; [|exact A]. cbn [fst snd]. split; [reflexivity|]. intros S1.
  destruct (C5 S1) as (bl & -> & D1 & D2 & D3 & D4). unfold generate_root_node in HR. rewrite root_loop_S in HR. cbn [length Nat.eqb] in HR. rinj HR.
  destruct (device_loop_ext _ _ _ _ _ (sk_ext_healthy _ _ _ C4 Hh) H1) as [_ B]. rewrite (se_data _ _ _ B). apply leaf_ok_ext. split. exists (sk_pos out), bl.
  split; [reflexivity|]. split; [exact D1|]. split; [exact D2|]. split; [exact D4|]. split; [|exact D3]. rewrite (se_data _ _ _ C4), Hp. apply at_end.
Qed.

Section Many.
Variable p : profile.
Variable snap decomp : list Z -> option (list Z).
Hypothesis HG : good_snap snap decomp.
Variable sc : schema.
Hypothesis Hsc : schema_ok sc.

Lemma parts_many : forall h its w snaps tmss ord io', winv p snap sc h its w -> minv p snaps (io_tsmeta (w_io w)) tmss -> Forall (fun s => exists more, its = s ++ more) snaps ->
  short_paths sc -> good_order ord ->
  end_file p ord (w_io w) = Ret io' -> Forall light its -> brief (sk_data (io_out (w_io w))) (sk_data (io_out io')) ->
  parts_follow p snap decomp (map its_pieces (snaps ++ [its])) (sk_data (io_out io')).
Proof.
  intros h its w snaps tmss ord io' I MI PRE SP GO H LI L. set (file := sk_data (io_out io')) in *.
  pose proof (wi_items _ _ _ _ _ _ I) as HI. pose proof (wi_metas _ _ _ _ _ _ I) as HM.
  destruct (end_file_ok p ord _ _ (wi_healthy _ _ _ _ _ _ I) H) as (r & SX & _). pose proof (se_data _ _ _ SX) as SD'. change (sk_data (io_out (w_io w))) with (file_bytes w) in SD'. rewrite (wi_data _ _ _ _ _ _ I) in SD'. fold file in SD'.
  pose proof H as H'. unfold end_file in H'. cbv zeta in H'. apply bind_ret in H'. destruct H' as (tsm & M & H'). clear H'.
  pose proof M as M0. rewrite HM in M0. destruct (minv_close p snaps _ tmss its tsm MI M0) as (tms & [Q1 Q2 Q3 Q4]).
  set (snaps' := snaps ++ [its]) in *. set (tmss' := tmss ++ [tms]) in *.
  assert (PRE' : Forall (fun s => exists more, its = s ++ more) snaps').
  { apply Forall_app. split; [exact PRE|]. constructor; [|constructor]. exists []. rewrite app_nil_r. reflexivity. }
  assert (HI' : Forall (Forall (item_ok p snap sc)) snaps').
  { eapply Forall_impl; [|exact PRE']. cbn beta. intros s (more & E). rewrite E in HI. apply Forall_app in HI. apply HI. }
  assert (SG : Forall (stage_good p snap sc file) snaps').
  { apply Forall_forall. intros s J. rewrite Forall_forall in PRE', HI'. destruct (PRE' s J) as (more & E). split; [apply HI'; exact J|]. exists (file_of more ++ 2 :: r).
    assert (EF : file = (MAGIC ++ [3]) ++ file_of s ++ file_of more ++ 2 :: r) by (rewrite SD', E, file_of_app, <- !app_assoc; reflexivity). split; [|exact EF].
    split; [rewrite E in LI; apply Forall_app in LI; apply LI|]. rewrite <- EF. exact (proj2 L). }
  assert (NM : forall d tm, In tm (getl d tsm) -> zlen d < 2 ^ 31 /\ zlen (tm_id tm) < 2 ^ 31).
  { intros d tm J. rewrite Q4 in J. apply in_concat in J. destruct J as (x & J1 & J2). apply in_map_iff in J1. destruct J1 as (t & <- & J1). destruct (F2_in_r _ _ _ _ _ t Q1 J1) as (s & S1 & S2). rewrite Forall_forall in HI'. exact (listed_names p snap decomp HG sc Hsc s t d tm (HI' s S1) S2 SP J2). }
  assert (DN : forall d, In d (map fst tsm) <-> getl d tsm <> []).
  { intros d. unfold getl. split; [intros J; destruct (sm_get_some_in _ _ _ J) as (v & E); rewrite E; apply sm_get_in in E; unfold no_empty in Q3; rewrite Forall_forall in Q3; exact (Q3 _ E)|].
    intros N. destruct (sm_get d tsm) eqn:E; [|congruence]. apply sm_get_in in E. apply (in_map fst) in E. exact E. }
  destruct (footer_of_end p ord (w_io w) io' GO (wi_healthy _ _ _ _ _ _ I) (wi_pos _ _ _ _ _ _ I) H L) as (tsm' & imap & root & blk & A1 & A2 & AL & _ & A4 & (n & A5 & _) & _).
  { intros tsm' d M' J. assert (tsm' = tsm) by congruence. subst tsm'. apply DN in J. destruct (getl d tsm) as [|tm l] eqn:E; [congruence|]. apply (NM d tm). rewrite E. left. reflexivity. }
  assert (tsm' = tsm) by congruence. subst tsm'. fold file in AL, A4, A5. rewrite (nonempty_id _ _ Q3) in *.
  destruct A4 as [R1 R2]. destruct AL as (oa & ob & x & L1 & L0 & L2 & L3 & L4 & L5 & L6). destruct (device_loop_ext _ _ _ _ _ L1 L2) as [_ DX].
  assert (PA : sk_pos oa = zlen (sk_data oa)) by (rewrite (se_pos _ _ _ DX), (se_data _ _ _ DX), zlen_app in L3; lia).
  pose proof (device_loop_leaves _ _ _ _ L1 PA Q3 L2) as A3.
  assert (CT : forall d, zlen (getl d tsm) = zlen (texts_of snap (map its_pieces snaps') d)).
  { intros d. rewrite Q4. unfold texts_of. rewrite map_map. clear - Q1 SG HG Hsc. induction Q1 as [|s t l l' X F IH]; [reflexivity|]. inversion SG as [|? ? S1 S2]; subst. cbn [map concat]. rewrite !zlen_app, (IH S2). f_equal.
    destruct S1 as (HIs & rest & HLs & _). rewrite <- (paths_keys p snap decomp HG sc Hsc s HIs rest HLs), <- (listed_paths p s t d X). unfold dev_metas_of, zlen. rewrite !map_length. reflexivity. }
  assert (DE : map fst (nd_entries (node_of root)) = map fst (ord imap)).
  { cbn [node_of nd_entries]. rewrite map_map. clear - R2. induction R2 as [|a b l m [E _] R IH]; auto. cbn [map]. f_equal; auto. }
  assert (PE : Permutation (map fst (nd_entries (node_of root))) (map fst tsm)) by (rewrite DE, <- A2; apply Permutation_map; apply GO).
  assert (ND : NoDup (map fst (nd_entries (node_of root)))) by (apply (Permutation_NoDup (Permutation_sym PE)); apply lt_nodup; exact Q2).
  assert (FD : forall d o, In (d, o) (nd_entries (node_of root)) -> find (fun eo => same_name (fst eo) d) (nd_entries (node_of root)) = Some (d, o)).
  { intros d o J. destruct (find _ _) as [[d' o']|] eqn:F.
    - apply find_some in F. destruct F as [F1 F2]. cbn [fst] in F2. apply PWriter.same_name_eq in F2. subst d'. pose proof (sm_get_nodup _ _ _ _ ND J). pose proof (sm_get_nodup _ _ _ _ ND F1). congruence.
    - apply (find_none _ _ F) in J. cbn [fst] in J. rewrite PWriter.same_name_refl in J. discriminate. }
  eexists. split; [exact A5|]. cbn [ft_root]. split; [|split].
  - etransitivity; [exact PE|].
    apply NoDup_Permutation; [apply lt_nodup; exact Q2|apply rising_nodup, name_set_rising|]. intros d. rewrite DN, name_set_in, Q4, in_map_iff. split.
    + intros N. destruct (concat (map (dev_metas_of d) tmss')) as [|y ys] eqn:E; [congruence|]. assert (J : In y (concat (map (dev_metas_of d) tmss'))) by (rewrite E; left; reflexivity).
      apply in_concat in J. destruct J as (z & J1 & J2). apply in_map_iff in J1. destruct J1 as (t & <- & J1). destruct (F2_in_r _ _ _ _ _ t Q1 J1) as (s & S1 & S2).
      rewrite Forall_forall in SG. destruct (SG s S1) as (HIs & rest & HLs & _). destruct (proj1 (dev_texts p snap decomp HG sc Hsc s t d rest HIs HLs S2)) as (q & K1 & K2); [intros Y; rewrite Y in J2; destruct J2|].
      exists q. split; [exact K2|]. apply in_concat. exists (chunk_paths snap (its_pieces s)). split; [|exact K1]. rewrite map_map. apply (in_map (fun x => chunk_paths snap (its_pieces x))). exact S1.
    + intros (q & E & J) N. apply in_concat in J. destruct J as (z & J1 & J2). rewrite map_map in J1. apply in_map_iff in J1. destruct J1 as (s & <- & S1). destruct (F2_in_l _ _ _ _ _ s Q1 S1) as (t & T1 & T2).
      rewrite Forall_forall in SG. destruct (SG s S1) as (HIs & rest & HLs & _). apply (proj2 (dev_texts p snap decomp HG sc Hsc s t d rest HIs HLs T2)); [eauto|].
      destruct (dev_metas_of d t) as [|y ys] eqn:Y; [reflexivity|]. exfalso. assert (J : In y (concat (map (dev_metas_of d) tmss'))) by (apply in_concat; exists (dev_metas_of d t); split; [apply in_map; exact T1|rewrite Y; left; reflexivity]). rewrite N in J. destruct J.
  - intros d JD SM. rewrite <- CT in SM. apply in_map_iff in JD. destruct JD as ([d' o] & E & JD). cbn [fst] in E. subst d'. pose proof (FD d o JD) as FO.
    cbn [node_of nd_entries] in JD. apply in_map_iff in JD. destruct JD as (e & E & JE). unfold entry_of in E. injection E as E1 E2. destruct (F2_in_r _ _ _ _ _ _ R2 JE) as ([d' nd] & J & N1 & AT). cbn [fst snd] in N1, AT. rewrite E1 in N1. subst d'. rewrite E2 in AT.
    apply (Permutation_in _ (GO imap)) in J. destruct (F2_in_r _ _ _ _ _ _ A3 J) as ([d' l] & J' & N2 & N3). cbn [fst snd] in *. subst d'.
    pose proof (end_file_rows _ _ _ _ _ (wi_healthy _ _ _ _ _ _ I) (wi_pos _ _ _ _ _ _ I) H M _ _ J') as LT. fold file in LT.
    apply (getl_in _ _ _ _ Q2 Q3) in J'. destruct J' as [<- NE]. assert (FI : Forall (fun tm => zlen (tm_id tm) < 2 ^ 31) (getl d tsm)) by (apply Forall_forall; intros tm K; apply (NM d tm K)).
    specialize (N3 SM). assert (LO : leaf_ok file (getl d tsm) nd) by (rewrite L4; apply leaf_ok_ext; exact N3). rewrite Q4 in LO, LT, FI.
    destruct (read_dev_any p snap decomp HG sc Hsc file (proj2 L) snaps' tmss' d nd o SG Q1) as (xs & X1 & X2 & X3); auto; [exact (Z.le_lt_trans _ _ _ LT (proj1 L))|].
    exists xs. split; [|split; [exact X2|]].
    + unfold part_read. rewrite A5. cbn [ft_root]. rewrite FO. cbn [snd]. exact X1.
    + intros m. unfold lookup. rewrite A5. cbn [ft_root]. rewrite FO. apply X3.
  - intros d BG. rewrite <- CT in BG. assert (ID : In (d, getl d tsm) tsm). { apply (getl_in _ _ _ _ Q2 Q3). split; [reflexivity|]. intros Z. rewrite Z, zlen_nil in BG. lia. }
    assert (FI : Forall (fun tm => zlen (tm_id tm) < 2 ^ 31) (getl d tsm)) by (apply Forall_forall; intros tm K; apply (NM d tm K)).
    destruct (big_device tsm oa imap ob d _ L1 L2 ID BG FI) as (rt & q & B1 & (B2 & B3 & B4) & B5 & B6 & B7 & B8 & B9 & B10).
    assert (JD : In (d, rt) (ord imap)) by (eapply Permutation_in; [apply Permutation_sym, GO|exact B1]).
    destruct (F2_in_l _ _ _ _ _ _ R2 JD) as (e & JE & EN & EA). cbn [fst snd] in EN, EA.
    assert (ZO : zlen (sk_data ob) <= zlen file) by (rewrite L4, zlen_app; pose proof (zlen_nonneg _ x); lia).
    pose proof (end_file_rows _ _ _ _ _ (wi_healthy _ _ _ _ _ _ I) (wi_pos _ _ _ _ _ _ I) H M _ _ ID) as LT. fold file in LT. pose proof (proj1 L) as LB. pose proof (proj2 L) as LF. fold file in LB, LF. pose proof (tbytes_size (getl d tsm)) as LL.
    assert (OK : inode_ok rt).
    { assert (Q0 : q + 1 <= zlen file).
      { pose proof (at_range _ _ _ EA) as AR. rewrite Forall_forall in L6. pose proof (L6 e JE) as LE. cbv beta in LE. unfold nbytes in AR. rewrite node_bytes, !zlen_app in AR.
        change (zlen [node_type_code (in_type rt)]) with 1 in AR. repeat match type of AR with context [zlen ?u] => lazymatch u with file => fail | _ => pose proof (zlen_nonneg _ u); generalize dependent (zlen u); intros end end. lia. }
      pose proof (zlen_nonneg _ (sk_data oa)). split; [|split; [lia|lia]]. apply Forall_forall. intros c J. rewrite Forall_forall in B4, B7. split; [exact (B7 c J)|]. rewrite (B4 c J). lia. }
    destruct (at_drop _ _ _ EA) as (rest & ED). pose proof (node_roundtrip rt rest OK) as NR. fold (nbytes rt) in NR.
    assert (JN : In (d, ie_offset e) (nd_entries (node_of root))) by (cbn [node_of nd_entries]; rewrite <- EN; apply (in_map entry_of) in JE; exact JE).
    exists (node_of rt), (ie_offset e), q.
    match goal with |- lost_device file ?ft _ _ _ _ /\ _ => assert (LD : lost_device file ft d (node_of rt) (ie_offset e) q) end.
    { split; [exact JN|eexists _, _; split; [exact ED|exact NR]|cbn [node_of nd_type]; rewrite B2; reflexivity| |].
      - cbn [node_of nd_entries]. intros Z. apply map_eq_nil in Z. contradiction.
      - cbn [node_of nd_entries]. apply Forall_map. exact B4. }
    split; [exact LD|]. split.
    + intros m. unfold lookup. rewrite A5. cbn [ft_root]. rewrite (FD _ _ JN). unfold entry_lookup. cbn [snd]. rewrite ED, NR. unfold node_lookup. rewrite (ld_type _ _ _ _ _ _ LD). reflexivity.
    + intros ONE. assert (KS : forall k, In k (map fst tsm) -> k = d) by (intros k J; apply ONE; eapply Permutation_in; [apply Permutation_sym; exact PE|exact J]).
      assert (TS : tsm = [(d, getl d tsm)]).
      { pose proof (lt_nodup _ Q2) as N1. destruct tsm as [|[k v] [|[k' v'] r']]; [destruct ID| |].
        - destruct ID as [ID|[]]. rewrite <- ID at 1. reflexivity.
        - exfalso. cbn [map fst] in *. assert (k = d) by (apply KS; left; reflexivity). assert (k' = d) by (apply KS; right; left; reflexivity). subst k k'. inversion N1 as [|? ? N2 _]; subst. apply N2. left. reflexivity. }
      specialize (B10 TS). rewrite TS in A2. cbn [map fst] in A2. destruct imap as [|i0 [|]]; try discriminate.
      pose proof (GO [i0]) as P1. apply Permutation_sym, Permutation_length_1_inv in P1.
      pose proof (F2_length _ _ _ _ _ R2) as LR. rewrite P1 in LR. cbn [length] in LR. destruct (in_children root) as [|e' [|]] eqn:EQ2; try discriminate.
      destruct JE as [->|[]]. cbv iota in L5. split; [congruence|].
      rewrite (index_read_unfold decomp file _ A5) by (cbn [ft_root node_of nd_type]; rewrite R1; reflexivity). cbn [ft_root node_of nd_entries]. rewrite EQ2. cbn [map all_some]. unfold read_dev at 1. unfold entry_of at 1. cbn [fst snd].
      rewrite ED, NR. rewrite (loops_forever file (node_of rt) (ie_offset e) _ _ ED NR); auto; [apply LD|apply LD|]. replace (ie_offset e) with q by congruence. apply LD.
Qed.

(** After a close *)
Definition many_and_parts (stages : list (list piece)) (ps : list piece) (bs : list Z) : Prop :=
  many_close_appends snap stages ps bs /\ parts_follow p snap decomp stages (the_file snap ps ++ bs).
Lemma many_and_parts_ok : forall ops ord h its w snaps tmss io', free_names sc (ops ++ [OpClose ord]) -> zlen snaps = closes ops -> winv p snap sc h its w -> minv p snaps (io_tsmeta (w_io w)) tmss ->
  Forall (fun s => exists more, its = s ++ more) snaps -> zlen (h_all h) < 2 ^ 32 -> end_file p ord (w_io w) = Ret io' -> Forall light its -> brief (sk_data (io_out (w_io w))) (sk_data (io_out io')) ->
  exists bs, many_and_parts (map its_pieces (snaps ++ [its])) (its_pieces its) bs /\ sk_data (io_out io') = sk_data (io_out (w_io w)) ++ bs.
Proof.
  intros ops ord h its w snaps tmss io' [OR CN] LEN I MI PRE HB EF LG BR. rewrite closes_snoc in CN. cbn [is_close] in CN. destruct CN as (BN & SP); [pose proof (closes_nonneg ops); lia|].
  apply Forall_app in OR. destruct OR as [_ OR]. apply Forall_inv in OR. cbn beta iota in OR.
  destruct (close_many p snap decomp HG sc Hsc _ _ _ _ _ _ _ I MI PRE HB BN SP OR EF LG BR) as (bs & B1 & B2). exists bs. split; [|exact B2]. split; [exact B1|].
  pose proof (parts_many _ _ _ _ _ _ _ I MI PRE SP OR EF LG BR) as IX. rewrite B2 in IX. change (sk_data (io_out (w_io w))) with (file_bytes w) in IX. rewrite (wi_data _ _ _ _ _ _ I) in IX.
  unfold the_file. erewrite its_image; eauto using wi_items.
Qed.
Lemma many_closed : forall w h ops ord l, trace p snap sc w h (ops ++ [OpClose ord]) l -> ops_ok (ops ++ [OpClose ord]) -> roomy_after snap sc (ops ++ [OpClose ord]) -> modest p snap sc (ops ++ [OpClose ord]) -> free_names sc (ops ++ [OpClose ord]) ->
  exists ps stages bs, written_many snap sc (ops ++ [OpClose ord]) (ps ++ [Tail bs]) (stages ++ [ps]) /\ file_bytes w = the_file snap (ps ++ [Tail bs]) /\ parts_follow p snap decomp (stages ++ [ps]) (file_bytes w).
Proof.
  intros w h ops ord l T O B M CN. destruct (again_file p snap decomp HG sc Hsc (free_names sc) (free_app sc) many_and_parts many_and_parts_ok w h _ l T O B M CN) as (ps0 & stages0 & WR & FB).
  destruct (file_close _ _ _ _ _ _ _ WR) as (ps & st & bs & -> & -> & PA). exists ps, st, bs. split; [apply (file_mono many_and_parts); [|exact WR]; intros a b c X; apply X|]. split; [exact FB|].
  destruct PA as [_ PA]. replace (file_bytes w) with (the_file snap ps ++ bs); [exact PA|]. rewrite FB. unfold the_file, data_bytes. rewrite map_app, concat_app. cbn [map concat piece_bytes]. rewrite app_nil_r, <- !app_assoc. reflexivity.
Qed.
End Many.

(** ** Few records: as in C62 *)
Lemma texts_rows : forall snap stages d, zlen (texts_of snap stages d) = zlen (concat (map (fun ps => path_rows snap ps d) stages)).
Proof. intros snap stages d. unfold texts_of, path_rows. induction stages as [|ps stages IH]; [reflexivity|]. cbn [map concat]. rewrite !zlen_app, IH. unfold zlen. rewrite !map_length. reflexivity. Qed.
Lemma few_nodes : forall l o, Forall (fun dr => zlen (snd dr) <= 65536) l -> record_nodes o l = device_nodes o l.
Proof.
  induction l as [|[d rows] l IH]; intros o F; [reflexivity|]. pose proof (Forall_inv F) as F1. apply Forall_inv_tail in F. cbn [snd] in F1. cbn [record_nodes device_nodes]. rewrite (IH _ F). unfold record_node.
  destruct (Z.leb_spec (zlen rows) 65536); [reflexivity|lia].
Qed.
Lemma few_records : forall snap stages ps bs, (forall d, zlen (texts_of snap stages d) <= 65536) -> (many_close_appends snap stages ps bs <-> any_close_appends snap stages ps bs).
Proof.
  intros snap stages ps bs H. unfold many_close_appends, any_close_appends. rewrite few_nodes; [reflexivity|]. unfold stage_rows. rewrite Forall_map. apply Forall_forall. intros d _. cbn [snd]. rewrite <- texts_rows. apply H.
Qed.
