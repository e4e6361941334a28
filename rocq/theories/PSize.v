(** Sizes: encoded pages, chunk buffers and the memory estimate are at most 24 bytes per point plus a constant. *)
From Verif Require Export PPage PFlush.
Ltac Zify.zify_post_hook ::= idtac.

(** ** Encoded columns are no longer than estimated *)
Lemma flush_add : forall p k e e', ts2_flush p k e = Ret e' ->
  zlen (t_buf e') <= zlen (t_buf e) + match t_first e with None => 0 | Some _ => 24 + zlen (t_values e) * kbits k / 8 end.
Proof.
  intros p k e e' H. unfold ts2_flush in H. destruct (t_first e) as [first|] eqn:F.
  - apply bind_ret in H. destruct H as (ds & Hd & H). apply bind_ret in H. destruct H as (pl & Hp & H).
    apply ret_inj in H. subst e'. cbn [t_buf].
    assert (E : ds = rel_deltas k (t_min e) (t_values e)).
    { unfold rel_deltas. eapply mapM_inv; [|exact Hd]. cbn beta. intros a b _ Ha. apply arithS_inv in Ha; auto. apply kbits_pos. }
    subst ds. destruct (rel_pack k (t_min e) (t_values e)) as (pl' & Q & B & L & _). rewrite Q in Hp. apply ret_inj in Hp. subst pl'.
    rewrite !zlen_app, !be_bytes_zlen, L.
    pose proof (calc_width_acc k (rel_deltas k (t_min e) (t_values e)) 0) as [W _]; [pose proof (kbits_pos k); lia|].
    fold (calc_width k (rel_deltas k (t_min e) (t_values e))) in W.
    generalize dependent (calc_width k (rel_deltas k (t_min e) (t_values e))). intros w _ _ W.
    pose proof (zlen_nonneg _ (t_values e)) as Hn. set (n := zlen (t_values e)) in *.
    assert (n * w <= n * kbits k) by (apply Z.mul_le_mono_nonneg_l; lia).
    assert ((n * w + 7) / 8 <= n * kbits k / 8).
    { destruct k; cbn [kbits] in *.
      - replace (n * 64) with (n * 8 * 8) by lia. rewrite Z.div_mul by lia. apply Z.lt_succ_r, Z.div_lt_upper_bound; lia.
      - replace (n * 32) with (n * 4 * 8) by lia. rewrite Z.div_mul by lia. apply Z.lt_succ_r, Z.div_lt_upper_bound; lia. }
    assert (Z.of_nat (kbytes k) <= 8) by (destruct k; cbn; lia). lia.
  - apply ret_inj in H. subst e'. lia.
Qed.
Lemma ts2_encode_le : forall p k vs b, Forall (signed_in (kbits k)) vs -> ts2_encode p k vs = Ret b -> zlen b <= ts2_estimate (kbits k) vs.
Proof.
  intros p k vs b Hv H. unfold ts2_encode in H. apply bind_ret in H. destruct H as (e & He & H).
  apply bind_ret in H. destruct H as (r & Hs & H). apply ret_inj in H. subst b.
  unfold ts2_serialize in Hs. apply bind_ret in Hs. destruct Hs as (e1 & H1 & Hs). apply ret_inj in Hs. subst r. cbn [snd].
  apply flush_add in H1. rewrite <- (ts2_state_size p k vs e Hv He). pose proof (zlen_nonneg _ (t_values e)).
  assert (0 <= zlen (t_values e) * kbits k / 8) by (apply Z.div_pos; pose proof (kbits_pos k); nia). destruct (t_first e); lia.
Qed.
Lemma column_le : forall p dt enc vs r, Forall (value_ok dt) vs -> encode_column p dt enc vs = Ret (Some r) ->
  zlen r <= value_estimate dt enc (map value_num vs).
Proof.
  intros p dt enc vs r Hv H.
  assert (T : forall k, dt = kdtype k -> enc = TS2DIFF -> zlen r <= ts2_estimate (kbits k) (map value_num vs)).
  { intros k -> ->. unfold encode_column in H.
    replace (encoder_new (kdtype k) TS2DIFF) with (@inl encoder tserror (EncTs2 k (ts2_new k))) in H by (destruct k; reflexivity).
    rewrite ts2_encoder_write_all in H by auto. apply bind_ret in H. destruct H as (s & Hs & H).
    apply bind_ret in Hs. destruct Hs as (e & He & Hs). apply ret_inj in Hs. subst s.
    cbn [encoder_serialize] in H. apply bind_ret in H. destruct H as (x & Hx & H). apply bind_ret in Hx.
    destruct Hx as (y & Hy & Hx). apply ret_inj in Hx. subst x. apply ret_inj in H. cbn in H. inversion H; subst r.
    apply (ts2_encode_le p k (map value_num vs)).
    - clear - Hv. induction Hv as [|v vs Q _ IH]; cbn [map]; constructor; auto. destruct (value_ok_kind k v Q). auto.
    - unfold ts2_encode. rewrite He. cbn [bind]. rewrite Hy. reflexivity. }
  destruct enc; [|destruct dt; [apply (T KInt); auto|apply (T KLong); auto|discriminate]].
  unfold encode_column in H. assert (E : r = concat (map plain_bytes vs)).
  { destruct dt; cbn [encoder_new] in H; rewrite plain_write_all in H; cbn in H; inversion H; reflexivity. }
  subst r. rewrite (plain_len dt vs Hv). unfold value_estimate.
  assert (LN : zlen (map value_num vs) = zlen vs) by (unfold zlen; rewrite map_length; reflexivity). rewrite LN.
  destruct dt; try lia. fold (sum (map leb_len (map value_num vs))). pose proof (sum_leb_ge (map value_num vs)).
  pose proof (zlen_nonneg _ (map value_num vs)). lia.
Qed.
Lemma prepare_len : forall p dt enc pts w w', page_state p dt enc pts w -> points_ok dt pts -> pw_prepare p w = Ret w' ->
  zlen (pw_buffer w') <= 5 + page_estimate dt enc pts.
Proof.
  intros p dt enc pts w w' [A (e0 & B1 & B2) C D F G] Hok H. unfold pw_prepare in H.
  apply bind_ret in H. destruct H as (rt & Ht & H). apply bind_ret in H. destruct H as (rv & Hv & H).
  apply ret_inj in H. subst w'. cbn [pw_buffer].
  assert (T : ts2_encode p KLong (times pts) = Ret (snd rt)). { unfold ts2_encode. rewrite A. cbn [bind]. rewrite Ht. reflexivity. }
  assert (V : encode_column p dt enc (map snd pts) = Ret (Some (snd rv))). { unfold encode_column. rewrite B1, B2. cbn [bind]. rewrite Hv. reflexivity. }
  apply ts2_encode_le in T; [|eapply points_ok_times; eauto]. apply column_le in V; [|eapply points_ok_values; eauto].
  rewrite !zlen_app. unfold page_estimate. change (kbits KLong) with 64 in T.
  destruct (var_u32_len (wrapU 32 (zlen (snd rt)))) as [L _]; [apply wrapU32_range|]. lia.
Qed.

(** ** The estimate is at most 19 bytes per point *)
Lemma bit_length_le : forall u b, 1 <= b -> u < 2 ^ b -> bit_length u <= b.
Proof.
  intros u b Hb H. unfold bit_length. destruct (Z.eqb_spec u 0); [lia|]. destruct (Z_le_gt_dec u 0).
  - destruct u; cbn; lia.
  - apply Z.log2_lt_pow2 in H; lia.
Qed.
Lemma block_len_le : forall bits b, bits = 32 \/ bits = 64 -> length b = 129%nat -> block_len bits b <= 1161.
Proof.
  intros bits b Hb L. unfold block_len. set (ds := map (sgn bits) (steps b)).
  assert (Ld : zlen ds = 128) by (unfold ds, zlen; rewrite map_length, steps_length, L; reflexivity).
  assert (R : Forall (fun x => - 2 ^ (bits - 1) <= x < 2 ^ (bits - 1)) ds).
  { unfold ds. apply Forall_forall. intros x Hx. apply in_map_iff in Hx. destruct Hx as (y & <- & _). apply sgn_range. lia. }
  assert (N : ds <> []) by (intros Q; rewrite Q in Ld; discriminate).
  destruct (greatest_spec ds N) as [G _]. destruct (least_spec ds N) as [M _]. rewrite Forall_forall in R. pose proof (R _ G). pose proof (R _ M).
  assert (W : bit_length (greatest ds - least ds) <= bits).
  { apply bit_length_le; [lia|]. replace (2 ^ bits) with (2 ^ (bits - 1) + 2 ^ (bits - 1)); [lia|]. destruct Hb as [-> | ->]; reflexivity. }
  rewrite Ld. set (w := bit_length _) in *. assert ((128 * w + 7) / 8 <= 128 * bits / 8).
  { destruct Hb as [-> | ->]; (apply Z.lt_succ_r, Z.div_lt_upper_bound; [lia|]); [change (128 * 32 / 8) with 512|change (128 * 64 / 8) with 1024]; lia. }
  destruct Hb as [-> | ->]; [change (128 * 32 / 8) with 512 in *; change (32 / 8) with 4|change (128 * 64 / 8) with 1024 in *; change (64 / 8) with 8]; lia.
Qed.
Lemma ts2_estimate_le : forall bits vs, bits = 32 \/ bits = 64 -> ts2_estimate bits vs <= 9 * zlen vs + 24.
Proof.
  intros bits vs Hb. unfold ts2_estimate. pose proof (full_count vs) as FC.
  assert (G : fold_right Z.add 0 (map (block_len bits) (full_blocks vs)) <= 1161 * zlen (full_blocks vs)).
  { assert (F : Forall (fun b => length b = 129%nat) (full_blocks vs)).
    { unfold full_blocks. apply Forall_forall. intros b Q. apply filter_In in Q. apply Nat.eqb_eq. tauto. }
    clear FC. induction F as [|b l Q F IH]; cbn [map fold_right]; [rewrite zlen_nil; lia|]. rewrite zlen_cons. pose proof (block_len_le bits b Hb Q). lia. }
  rewrite FC in G. pose proof (Z.div_mod (zlen vs) 129 ltac:(lia)) as DM. pose proof (Z.mod_pos_bound (zlen vs) 129 ltac:(lia)) as MB.
  set (q := zlen vs / 129) in *. set (r := zlen vs mod 129) in *.
  assert (Z.max 0 (r - 1) * bits / 8 <= 8 * r). { apply Z.div_le_upper_bound; [lia|]. destruct Hb as [-> | ->]; lia. }
  lia.
Qed.
Lemma estimate_le : forall dt enc pts, page_estimate dt enc pts <= 19 * zlen pts + 48.
Proof.
  intros dt enc pts. unfold page_estimate. pose proof (ts2_estimate_le 64 (times pts) ltac:(auto)) as T.
  replace (zlen (times pts)) with (zlen pts) in T by (unfold zlen, times; rewrite map_length; reflexivity).
  set (vs := map value_num (map snd pts)). assert (LV : zlen vs = zlen pts) by (unfold vs, zlen; rewrite !map_length; reflexivity).
  pose proof (zlen_nonneg _ pts).
  assert (S : fold_right Z.add 0 (map leb_len vs) <= 5 * zlen vs).
  { clear. induction vs as [|x l IH]; [reflexivity|]. rewrite zlen_cons. cbn [map fold_right].
    assert (leb_len x <= 5) by (unfold leb_len; repeat destruct (_ <? _); lia). lia. }
  pose proof (ts2_estimate_le 64 vs ltac:(auto)). pose proof (ts2_estimate_le 32 vs ltac:(auto)).
  destruct enc, dt; cbn [value_estimate]; lia.
Qed.

(** ** Statistics *)
Lemma stats_size_le : forall s, 0 <= st_count s < 2 ^ 32 -> 0 < stats_serialized_size s <= 61.
Proof.
  intros s H. unfold stats_serialized_size. destruct (var_u32_len _ H) as (A & _ & ->). destruct (st_type s); lia.
Qed.
Lemma stats_bytes_le : forall s, 0 <= st_count s < 2 ^ 32 -> zlen (wbytes (stats_serialize s)) <= 61.
Proof.
  intros s H. unfold stats_serialize. cbn [wbytes]. rewrite !zlen_app, !be_bytes_zlen, zlen_nil. destruct (var_u32_len _ H) as (A & _ & _).
  destruct (st_type s); cbn [val_bytes Z.of_nat Pos.of_succ_nat Pos.succ]; lia.
Qed.
Lemma page_count : forall p dt pg s, points_ok dt pg -> page_stats p dt pg = Ret s -> 0 <= st_count s < 2 ^ 32.
Proof. intros p dt pg s H E. apply page_inv in E; auto. rewrite (si_count _ _ _ E). apply Z.mod_pos_bound. lia. Qed.

(** ** Chunk buffers *)
Section Size.
Variable p : profile.
Variable snap decomp : list Z -> option (list Z).
Hypothesis HG : good_snap snap decomp.

Lemma page_added : forall id dt comp enc c pages ims cur r, chunk_inv p decomp id dt comp enc c pages ims cur ->
  1 <= zlen cur <= 1048577 -> write_page_to_buffer p snap c = Ret r ->
  zlen (cw_buffer (fst r)) <= zlen (cw_buffer c) + 23 * zlen cur + 300.
Proof.
  intros id dt comp enc c pages ims cur r I Hc H. destruct I as [I1 I2 I3 I4 Iims Ipg Iok Itot Icur Inum Ist Ibuf Ifirst].
  unfold write_page_to_buffer in H. destruct (cw_page c) as [pw0|] eqn:EP.
  2: { destruct Icur as [-> _]. rewrite zlen_nil in Hc. lia. }
  apply bind_ret in H. destruct H as (pw & Hpw & H).
  assert (Hok : points_ok dt cur) by (apply Forall_app in Iok; tauto).
  pose proof (prepare_len _ _ _ _ _ _ Icur Hok Hpw) as PL. pose proof (estimate_le dt enc cur) as EL.
  destruct (prepare_spec _ _ _ _ _ _ Icur Hok (proj2 Hc) Hpw) as (P1 & P2 & P3 & P4 & P5).
  pose proof (zlen_nonneg _ (pw_buffer pw)) as Nb.
  match type of H with match ?m with _ => _ end = _ => set (cmp := m) in H end.
  assert (CM : exists body n, cmp = Some (body, n) /\ 0 <= n < 2 ^ 32 /\ zlen body <= 100 + 23 * zlen cur).
  { unfold cmp. rewrite I3. destruct comp.
    - eexists _, _. split; [reflexivity|]. split; [apply wrapU32_range|lia].
    - destruct (HG (pw_buffer pw) P2 ltac:(lia)) as (out & O1 & O2 & O3). rewrite O1. eexists _, _. split; [reflexivity|]. split; [apply wrapU32_range|].
      assert (zlen (pw_buffer pw) / 6 <= 9 + 4 * zlen cur) by (apply Z.div_le_upper_bound; lia). lia. }
  destruct CM as (body & n & CE & CN & CB). clearbody cmp. subst cmp. cbv zeta in H.
  set (sizes := wbytes (write_var_u32 (wrapU 32 (zlen (pw_buffer pw)))) ++ wbytes (write_var_u32 n)) in *.
  assert (SZ : zlen sizes <= 10).
  { unfold sizes. rewrite zlen_app. destruct (var_u32_len (wrapU 32 (zlen (pw_buffer pw)))) as [L1 _]; [apply wrapU32_range|]. destruct (var_u32_len n CN) as [L2 _]. lia. }
  apply bind_ret in H. destruct H as (bfs & Hb & H). destruct bfs as [[buffer fstats] swo].
  apply bind_ret in H. destruct H as (np & Hnp & H). apply bind_ret in H. destruct H as (st & Hst & H).
  apply ret_inj in H. subst r. cbn [fst cw_buffer].
  assert (SC : zlen (wbytes (stats_serialize (pw_stats pw))) <= 61). { apply stats_bytes_le. rewrite P4. eapply page_count; [exact Hok|apply Icur]. }
  destruct (Z.eqb_spec (cw_num_pages c) 0).
  - apply ret_inj in Hb. apply pair3 in Hb. destruct Hb as (<- & _ & _). rewrite !zlen_app. lia.
  - destruct (Z.eqb_spec (cw_num_pages c) 1).
    + destruct (cw_size_wo_stats c <=? zlen (cw_buffer c)); [|discriminate]. destruct (cw_first_stats c) as [fs|] eqn:FS; [|discriminate].
      apply ret_inj in Hb. apply pair3 in Hb. destruct Hb as (<- & _ & _).
      assert (FB : zlen (wbytes (stats_serialize fs)) <= 61).
      { rewrite Inum in *. destruct Iims as [|pg im pages ims J Iims]; [rewrite zlen_nil in *; lia|].
        destruct Iims; [|rewrite !zlen_cons in *; pose proof (zlen_nonneg _ l); lia]. destruct Ifirst as [F1 _]. inversion F1; subst fs.
        apply stats_bytes_le. eapply page_count; [|apply (io_stats _ _ _ _ _ _ _ J)]. apply Forall_app in Iok. destruct Iok as [O _].
        cbn [concat] in O. rewrite app_nil_r in O. exact O. }
      assert (FX : zlen (firstn (Z.to_nat (cw_size_wo_stats c)) (cw_buffer c)) + zlen (skipn (Z.to_nat (cw_size_wo_stats c)) (cw_buffer c)) = zlen (cw_buffer c)).
      { rewrite <- zlen_app, firstn_skipn. reflexivity. }
      rewrite !zlen_app. lia.
    + apply ret_inj in Hb. apply pair3 in Hb. destruct Hb as (<- & _ & _). rewrite !zlen_app. lia.
Qed.
Lemma check_added : forall id dt comp enc c pages ims cur c', chunk_inv p decomp id dt comp enc c pages ims cur ->
  1 <= zlen cur <= page_limit dt enc -> check_page_size p snap c = Ret c' ->
  let '(pages', _, _) := cut_at dt enc pages cur (cw_next_check c) in
  zlen (cw_buffer c') + 23 * zlen (concat pages) + 300 * zlen pages <= zlen (cw_buffer c) + 23 * zlen (concat pages') + 300 * zlen pages'.
Proof.
  intros id dt comp enc c pages ims cur c' I Hc H. unfold check_page_size in H. pose proof (limit_small dt enc) as L.
  pose proof (ci_cur _ _ _ _ _ _ _ _ _ _ I) as IC.
  destruct (cw_page c) as [pw|] eqn:EP.
  2: { destruct IC as [-> _]. rewrite zlen_nil in Hc. lia. }
  pose proof (ps_points _ _ _ _ _ IC) as PN. rewrite PN in H. unfold MAX_NUMBER_OF_POINTS_IN_PAGE in H.
  destruct (Z.gtb_spec (zlen cur) 1048576); [lia|]. unfold cut_at. rewrite Z.geb_leb in H.
  destruct (Z.ltb_spec (zlen cur) (cw_next_check c)).
  - replace (cw_next_check c <=? zlen cur) with false in H by (symmetry; apply Z.leb_gt; lia). apply ret_inj in H. subst c'. lia.
  - replace (cw_next_check c <=? zlen cur) with true in H by (symmetry; apply Z.leb_le; lia).
    apply bind_ret in H. destruct H as (sz & Hsz & H).
    assert (points_ok dt cur) by (pose proof (ci_ok _ _ _ _ _ _ _ _ _ _ I) as O; apply Forall_app in O; apply O).
    apply (estimate_ok p dt enc cur) in Hsz; auto; [|lia]. subst sz.
    change PAGE_SIZE_THRESHOLD with 65536 in H. rewrite Z.gtb_ltb in H. destruct (65536 <? page_estimate dt enc cur).
    + apply bind_ret in H. destruct H as (r & Hr & H). apply ret_inj in H. subst c'.
      pose proof (page_added _ _ _ _ _ _ _ _ _ I ltac:(lia) Hr). cbn [cw_with_next cw_buffer]. rewrite concat_app, !zlen_app. cbn [concat]. rewrite app_nil_r.
      rewrite zlen_cons, zlen_nil. lia.
    + apply ret_inj in H. subst c'. cbn [cw_with_next cw_buffer]. lia.
Qed.
Lemma write_added : forall id dt comp enc c pages ims cur t v c',
  chunk_inv p decomp id dt comp enc c pages ims cur -> zlen cur < page_limit dt enc ->
  i64_min <= t <= i64_max -> value_ok dt v -> zlen (concat pages ++ cur) + 1 < 2 ^ 32 ->
  cw_write p snap t v c = Ret (inl c') ->
  let '(pages', _, _) := cut_step dt enc (pages, cur, cw_next_check c) (t, v) in
  zlen (cw_buffer c') + 23 * zlen (concat pages) + 300 * zlen pages <= zlen (cw_buffer c) + 23 * zlen (concat pages') + 300 * zlen pages'.
Proof.
  intros id dt comp enc c pages ims cur t v c' I Hc Ht Hv Hl H. unfold cw_write in H.
  pose proof (ci_cur _ _ _ _ _ _ _ _ _ _ I) as IC.
  set (m := match cw_page c with Some pw => inl pw | None => pw_new (cw_type c) (cw_enc c) end) in H.
  destruct m as [pw|err] eqn:M; [|apply ret_inj in H; discriminate].
  assert (PS : page_state p dt enc cur pw).
  { unfold m in M. destruct (cw_page c).
    - inversion M; subst. exact IC.
    - destruct IC as [-> _]. rewrite (ci_type _ _ _ _ _ _ _ _ _ _ I), (ci_enc _ _ _ _ _ _ _ _ _ _ I) in M. apply page_state_new; auto. }
  apply bind_ret in H. destruct H as (pw' & Hw & H). apply bind_ret in H. destruct H as (c1 & H1 & H).
  apply ret_inj in H. inversion H; subst c1. clear H.
  pose proof (limit_small dt enc) as L. assert (Lc : zlen cur + 1 < 2 ^ 32) by lia.
  pose proof (page_state_write _ _ _ _ _ _ _ _ PS Hv Lc Hw) as PS'.
  assert (I' : chunk_inv p decomp id dt comp enc (cw_with_page (Some pw') c) pages ims (cur ++ [(t, v)])).
  { destruct I as [I1 I2 I3 I4 Iims Ipg Iok Itot Icur Inum Ist Ibuf Ifirst].
    split; cbn [cw_with_page cw_id cw_type cw_comp cw_enc cw_page cw_stats cw_num_pages cw_buffer cw_first_stats cw_size_wo_stats]; auto.
    - rewrite app_assoc. apply Forall_app. split; [auto|repeat constructor; cbn [fst snd]; auto; apply Ht].
    - rewrite app_assoc, zlen_app, zlen_cons, zlen_nil. lia. }
  assert (L1 : 1 <= zlen (cur ++ [(t, v)]) <= page_limit dt enc).
  { rewrite zlen_app, zlen_cons, zlen_nil. pose proof (zlen_nonneg _ cur). lia. }
  exact (check_added _ _ _ _ _ _ _ _ _ I' L1 H1).
Qed.
Lemma run_buffer : forall id dt comp enc pts c, points_ok dt pts -> zlen pts < 2 ^ 32 ->
  cw_run p snap pts (cw_new id dt comp enc) = Ret (inl c) ->
  let '(pages, _, _) := cut dt enc pts in zlen (cw_buffer c) <= 23 * zlen (concat pages) + 300 * zlen pages.
Proof.
  intros id dt comp enc pts. induction pts as [|[t v] l IH] using rev_ind; intros c Hok Hl H.
  - unfold cw_run in H. cbn [foldM] in H. apply ret_inj in H. inversion H; subst c. vm_compute. discriminate.
  - apply Forall_app in Hok. destruct Hok as [Hok Hx]. inversion Hx as [|? ? [Ht Hv] _]; subst. cbn [fst snd] in *.
    rewrite zlen_app, zlen_cons, zlen_nil in Hl. rewrite cw_run_snoc in H. apply bind_ret in H. destruct H as (s & Hs & H).
    destruct s as [c1|]; [|discriminate]. specialize (IH c1 Hok ltac:(lia) Hs). pose proof (run_cut p snap decomp HG _ _ _ _ _ _ Hok ltac:(lia) Hs) as RC. rewrite cut_snoc.
    pose proof (cut_ok dt enc l) as CI. pose proof (cut_concat dt enc l) as CC. destruct (cut dt enc l) as [[pages cur] next].
    destruct RC as (ims & I & <-). cbn [cut_inv] in CI. cbn [fst snd] in H.
    assert (W : let '(pages', _, _) := cut_step dt enc (pages, cur, cw_next_check c1) (t, v) in
      zlen (cw_buffer c) + 23 * zlen (concat pages) + 300 * zlen pages <= zlen (cw_buffer c1) + 23 * zlen (concat pages') + 300 * zlen pages').
    { refine (write_added _ _ _ _ _ _ _ _ _ _ _ I _ Ht Hv _ H); [tauto|rewrite CC; lia]. }
    destruct (cut_step dt enc (pages, cur, cw_next_check c1) (t, v)) as [[pages' cur'] next']. lia.
Qed.
Lemma pages_few : forall n (pages : list (list (Z * value))), Forall (fun pg => 1500 <= zlen pg <= n) pages -> 1500 * zlen pages <= zlen (concat pages).
Proof. intros n pages H. induction H; cbn [concat]; [rewrite !zlen_nil; lia|]. rewrite zlen_app, zlen_cons. lia. Qed.
(** Finished pages take at most 24 bytes per point. *)
Lemma run_buffer_le : forall id dt comp enc pts c, points_ok dt pts -> zlen pts < 2 ^ 32 ->
  cw_run p snap pts (cw_new id dt comp enc) = Ret (inl c) ->
  let '(pages, cur, _) := cut dt enc pts in zlen (cw_buffer c) <= 24 * zlen (concat pages) /\ zlen cur < page_limit dt enc /\
    exists ims, chunk_inv p decomp id dt comp enc c pages ims cur.
Proof.
  intros id dt comp enc pts c Hok Hl H. pose proof (run_buffer _ _ _ _ _ _ Hok Hl H) as B. pose proof (run_cut p snap decomp HG _ _ _ _ _ _ Hok Hl H) as RC.
  pose proof (cut_ok dt enc pts) as CI. destruct (cut dt enc pts) as [[pages cur] next]. destruct RC as (ims & I & _). cbn [cut_inv] in CI.
  destruct CI as (F & C & _). pose proof (pages_few _ _ F). pose proof (zlen_nonneg _ pages). split; [lia|]. split; [auto|eauto].
Qed.
(** The data of a sealed chunk. *)
Lemma sealed_buffer_le : forall id dt comp enc pts c, points_ok dt pts -> zlen pts < 2 ^ 32 ->
  cw_session p snap id dt comp enc pts = Ret (inl c) -> zlen (cw_buffer c) <= 24 * zlen pts + 300.
Proof.
  intros id dt comp enc pts c Hok Hl H. unfold cw_session in H. apply bind_ret in H.
  destruct H as (s & Hs & H). destruct s as [c1|]; [|discriminate]. apply bind_ret in H. destruct H as (c2 & Hc & H).
  apply ret_inj in H. assert (c2 = c) by congruence. subst c2. clear H.
  pose proof (run_buffer_le _ _ _ _ _ _ Hok Hl Hs) as R. pose proof (cut_concat dt enc pts) as CC.
  destruct (cut dt enc pts) as [[pages cur] next]. destruct R as (B & C & ims & I). rewrite <- CC, zlen_app. pose proof (limit_small dt enc).
  pose proof (zlen_nonneg _ cur). pose proof (zlen_nonneg _ (concat pages)).
  unfold seal_current_page in Hc. pose proof (ci_cur _ _ _ _ _ _ _ _ _ _ I) as IC. destruct (cw_page c1) as [pw|] eqn:EP.
  - rewrite (ps_points _ _ _ _ _ IC) in Hc. destruct (Z.gtb_spec (zlen cur) 0).
    + apply bind_ret in Hc. destruct Hc as (r & Hr & Hc). apply ret_inj in Hc. subst c. pose proof (page_added _ _ _ _ _ _ _ _ _ I ltac:(lia) Hr). lia.
    + apply ret_inj in Hc. subst c1. lia.
  - apply ret_inj in Hc. subst c1. lia.
Qed.
(** The estimate of an open chunk. *)
Lemma cw_estimate_le : forall id dt comp enc pts c, points_ok dt pts -> 24 * zlen pts + 150 < 2 ^ 32 ->
  cw_run p snap pts (cw_new id dt comp enc) = Ret (inl c) -> exists n, cw_estimate Debug c = Ret n /\ n <= 24 * zlen pts + 150.
Proof.
  intros id dt comp enc pts c Hok Hl H. pose proof (zlen_nonneg _ pts).
  pose proof (run_buffer_le _ _ _ _ _ _ Hok ltac:(lia) H) as R. pose proof (cut_concat dt enc pts) as CC.
  destruct (cut dt enc pts) as [[pages cur] next]. destruct R as (B & C & ims & I). rewrite <- CC, zlen_app in *. pose proof (limit_small dt enc).
  unfold cw_estimate. pose proof (ci_cur _ _ _ _ _ _ _ _ _ _ I) as IC.
  destruct (cw_page c) as [pw|]; [|exists 0; split; auto; lia].
  apply Forall_app in Hok. destruct Hok as [O1 O2]. destruct IC as [A (e0 & B1 & B2) D _ F G].
  pose proof (estimate_le dt enc cur) as EL. 
  assert (L1 : zlen (times cur) <= 2 ^ 21) by (unfold zlen, times in *; rewrite map_length; lia).
  assert (L2 : zlen (map snd cur) <= 2 ^ 21) by (unfold zlen in *; rewrite map_length; lia).
  destruct (ts2_sizes p KLong (times cur) _ (points_ok_times _ _ O2) L1 A) as (T1 & T2 & T3).
  destruct (value_sizes p dt enc _ _ _ B1 (points_ok_values _ _ O2) L2 B2) as (V1 & V2 & V3).
  change (kbits KLong) with 64 in T3. unfold page_estimate in EL.
  pose proof (stats_size_le _ (page_count _ _ _ _ O2 D)) as SL. pose proof (zlen_nonneg _ (cw_buffer c)) as NB.
  assert (WB : 0 <= wrapU 32 (zlen (cw_buffer c)) <= zlen (cw_buffer c)) by (unfold wrapU; split; [apply Z.mod_pos_bound; lia|apply Z.mod_le; lia]).
  pose proof (zlen_nonneg _ cur). unfold pw_estimate. rewrite arithU_ok by lia. cbn [bind]. rewrite arithU_ok by lia. cbn [bind]. rewrite arithU_ok by lia. cbn [bind].
  rewrite arithU_ok by lia. cbn [bind]. rewrite arithU_ok by lia. cbn [bind]. rewrite arithU_ok by lia.
  eexists. split; [reflexivity|]. lia.
Qed.
End Size.
