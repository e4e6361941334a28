(** The bytes of a chunk (C55). *)
From Verif Require Export PLayoutStats.
Ltac Zify.zify_post_hook ::= idtac.

Lemma nums_snd : forall pts, map value_num (map snd pts) = nums pts.
Proof. intros. unfold nums. apply map_map. Qed.
Lemma prepare_exact : forall p dt enc pts w w', page_state p dt enc pts w -> points_ok dt pts ->
  zlen pts <= 1048577 -> pw_prepare p w = Ret w' -> pw_buffer w' = page_content dt enc pts.
Proof.
  intros p dt enc pts w w' [A (e0 & B1 & B2) C D F G] Hok Hl H. unfold pw_prepare in H.
  apply bind_ret in H. destruct H as (rt & Ht & H). apply bind_ret in H. destruct H as (rv & Hv & H).
  apply ret_inj in H. subst w'. cbn [pw_buffer].
  assert (T : ts2_encode p KLong (times pts) = Ret (snd rt)).
  { unfold ts2_encode. rewrite A. cbn [bind]. rewrite Ht. reflexivity. }
  assert (V : encode_column p dt enc (map snd pts) = Ret (Some (snd rv))).
  { unfold encode_column. rewrite B1, B2. cbn [bind]. rewrite Hv. reflexivity. }
  pose proof (ts2_encode_size _ _ _ _ T) as [T1 T2].
  assert (L1 : zlen (times pts) = zlen pts) by (unfold zlen, times; rewrite map_length; auto). rewrite L1 in T2.
  pose proof (zlen_nonneg _ (snd rt)) as N1. rewrite wrapU_small by lia. rewrite leb_var by lia.
  rewrite (ts2_exact p KLong _ _ (points_ok_times _ _ Hok) T). rewrite (column_exact _ _ _ _ _ (points_ok_values _ _ Hok) V).
  unfold page_content. cbv zeta. rewrite nums_snd. reflexivity.
Qed.

Section Exact.
Variables (p : profile) (snap decomp : list Z -> option (list Z)).
Hypothesis HG : good_snap snap decomp.
(** The image of a page. *)
Definition eim (dt : dtype) (comp : compression) (enc : encoding) (pg : list (Z * value)) : image :=
  let c := page_content dt enc pg in
  let z := squeeze snap comp c in
  mkImage (leb (zlen c) ++ leb (zlen z)) (match page_stats p dt pg with Ret s => s | Panic _ => stats_new dt end) z.
Definition exact (dt : dtype) (comp : compression) (enc : encoding) (c : chunk_writer) (pages : list (list (Z * value))) : Prop :=
  cw_buffer c = buffer_of (map (eim dt comp enc) pages) /\
  match pages with
  | [] => cw_size_wo_stats c = 0
  | [pg] => cw_first_stats c = Some (im_stats (eim dt comp enc pg)) /\ cw_size_wo_stats c = zlen (im_head (eim dt comp enc pg))
  | _ => True
  end.
Lemma write_page_exact : forall id dt comp enc c pages ims cur r,
  chunk_inv p decomp id dt comp enc c pages ims cur -> 1 <= zlen cur <= 1048577 -> exact dt comp enc c pages ->
  write_page_to_buffer p snap c = Ret r -> exact dt comp enc (fst r) (pages ++ [cur]).
Proof.
  intros id dt comp enc c pages ims cur r I Hc [Ibuf Ifirst] H.
  destruct I as [I1 I2 I3 I4 Iims Ipg Iok Itot Icur Inum Ist _ _].
  unfold write_page_to_buffer in H. destruct (cw_page c) as [pw0|] eqn:EP.
  2: { destruct Icur as [-> _]. rewrite zlen_nil in Hc. lia. }
  apply bind_ret in H. destruct H as (pw & Hpw & H).
  assert (Hok : points_ok dt cur) by (apply Forall_app in Iok; tauto).
  destruct (prepare_spec _ _ _ _ _ _ Icur Hok (proj2 Hc) Hpw) as (P1 & P2 & P3 & P4 & P5).
  pose proof (prepare_exact _ _ _ _ _ _ Icur Hok (proj2 Hc) Hpw) as PE.
  pose proof (zlen_nonneg _ (pw_buffer pw)) as Nb.
  rewrite (wrapU_small 32 (zlen (pw_buffer pw))) in H by lia.
  match type of H with match ?m with _ => _ end = _ => set (cmp := m) in H end.
  assert (CM : exists body, cmp = Some (body, zlen body) /\ zlen body < 2 ^ 32 /\ body = squeeze snap comp (page_content dt enc cur)).
  { unfold cmp. rewrite I3, <- PE. destruct comp; cbn [squeeze].
    - eexists. split; [reflexivity|]. split; [lia|]. reflexivity.
    - destruct (HG (pw_buffer pw) P2 ltac:(lia)) as (out & O1 & O2 & O3). rewrite O1.
      assert (zlen (pw_buffer pw) / 6 <= zlen (pw_buffer pw)) by (apply Z.div_le_upper_bound; lia).
      exists out. pose proof (zlen_nonneg _ out). rewrite wrapU_small by lia. split; [reflexivity|]. split; [lia|reflexivity]. }
  destruct CM as (body & CE & CL & CU). clearbody cmp. subst cmp. pose proof (zlen_nonneg _ body) as Nbd.
  set (head := wbytes (write_var_u32 (zlen (pw_buffer pw))) ++ wbytes (write_var_u32 (zlen body))) in *.
  assert (HL : write_var_u32_ret (zlen (pw_buffer pw)) + write_var_u32_ret (zlen body) = zlen head).
  { unfold head. rewrite zlen_app.
    destruct (var_u32_len (zlen (pw_buffer pw)) ltac:(lia)) as (_ & -> & _).
    destruct (var_u32_len (zlen body) ltac:(lia)) as (_ & -> & _). reflexivity. }
  assert (HE : head = leb (zlen (pw_buffer pw)) ++ leb (zlen body)) by (unfold head; rewrite !leb_var by lia; reflexivity).
  set (im := mkImage head (pw_stats pw) body).
  assert (IM : eim dt comp enc cur = im).
  { unfold eim, im. cbv zeta. rewrite <- CU, <- PE, <- HE. rewrite (ps_stats _ _ _ _ _ Icur), P4. reflexivity. }
  cbv zeta in H. apply bind_ret in H. destruct H as (bfs & Hb & H). destruct bfs as [[buffer fstats] swo].
  apply bind_ret in H. destruct H as (np & Hnp & H). apply bind_ret in H. destruct H as (st & Hst & H).
  apply ret_inj in H. subst r. cbn [fst snd]. unfold exact. cbn [cw_buffer cw_first_stats cw_size_wo_stats].
  rewrite Inum in Hb. destruct pages as [|pg1 [|pg2 pages]].
  - cbn [zlen length Z.of_nat Z.eqb] in Hb. apply ret_inj in Hb. apply pair3 in Hb; destruct Hb as (<- & <- & <-).
    rewrite Ibuf. cbn [buffer_of map concat app]. rewrite IM. cbn [im_head im_body im im_stats]. rewrite Ifirst. split; [unfold head; reflexivity|].
    split; [reflexivity|]. rewrite <- HL. lia.
  - change (zlen [pg1]) with 1 in Hb. cbn [Z.eqb Pos.eqb] in Hb. destruct Ifirst as [F1 F2]. rewrite F2 in Hb.
    rewrite Ibuf in Hb. cbn [map] in Hb. set (im1 := eim dt comp enc pg1) in *. cbn [buffer_of] in Hb. rewrite zlen_app in Hb. pose proof (zlen_nonneg _ (im_body im1)).
    replace (zlen (im_head im1) <=? zlen (im_head im1) + zlen (im_body im1)) with true in Hb by lia.
    rewrite F1 in Hb. apply ret_inj in Hb. apply pair3 in Hb; destruct Hb as (<- & <- & <-). split; [|exact Logic.I].
    assert (K : Z.to_nat (zlen (im_head im1)) = length (im_head im1)) by (apply Nat2Z.id).
    rewrite K, firstn_app, skipn_app, firstn_all, skipn_all, Nat.sub_diag. cbn [firstn skipn app map].
    rewrite app_nil_r. rewrite IM. fold im1. cbn [buffer_of app map concat]. unfold with_stats. cbn [im im_head im_stats im_body].
    rewrite <- !app_assoc, app_nil_r. unfold head. rewrite <- !app_assoc. reflexivity.
  - pose proof (zlen_nonneg _ pages). rewrite !zlen_cons in Hb. replace (1 + (1 + zlen pages) =? 0) with false in Hb by lia.
    replace (1 + (1 + zlen pages) =? 1) with false in Hb by lia. apply ret_inj in Hb. apply pair3 in Hb; destruct Hb as (<- & <- & <-).
    split; [|exact Logic.I]. rewrite Ibuf. cbn [app map]. rewrite map_app. cbn [map]. rewrite IM. unfold buffer_of. cbn [map concat].
    destruct (map (eim dt comp enc) pages ++ [im]) eqn:Q; [destruct (map (eim dt comp enc) pages); discriminate|]. rewrite <- Q.
    rewrite map_app, concat_app. cbn [map concat]. change (with_stats im) with (head ++ wbytes (stats_serialize (pw_stats pw)) ++ body). unfold head. rewrite <- !app_assoc, app_nil_r. reflexivity.
Qed.

Lemma check_exact : forall id dt comp enc c pages ims cur c',
  chunk_inv p decomp id dt comp enc c pages ims cur -> 1 <= zlen cur <= page_limit dt enc -> exact dt comp enc c pages ->
  check_page_size p snap c = Ret c' ->
  let '(pages', cur', next') := cut_at dt enc pages cur (cw_next_check c) in exact dt comp enc c' pages'.
Proof.
  intros id dt comp enc c pages ims cur c' I Hc X H. unfold check_page_size in H. pose proof (limit_small dt enc) as L.
  pose proof (ci_cur _ _ _ _ _ _ _ _ _ _ I) as IC.
  destruct (cw_page c) as [pw|] eqn:EP.
  2: { destruct IC as [-> _]. rewrite zlen_nil in Hc. lia. }
  pose proof (ps_points _ _ _ _ _ IC) as PN. rewrite PN in H. unfold MAX_NUMBER_OF_POINTS_IN_PAGE in H.
  destruct (Z.gtb_spec (zlen cur) 1048576); [lia|]. unfold cut_at. rewrite Z.geb_leb in H.
  destruct (Z.ltb_spec (zlen cur) (cw_next_check c)).
  - replace (cw_next_check c <=? zlen cur) with false in H by (symmetry; apply Z.leb_gt; lia). apply ret_inj in H. subst c'. auto.
  - replace (cw_next_check c <=? zlen cur) with true in H by (symmetry; apply Z.leb_le; lia).
    apply bind_ret in H. destruct H as (sz & Hsz & H).
    assert (points_ok dt cur) by (pose proof (ci_ok _ _ _ _ _ _ _ _ _ _ I) as O; apply Forall_app in O; apply O).
    apply (estimate_ok p dt enc cur) in Hsz; auto; [|lia]. subst sz.
    change PAGE_SIZE_THRESHOLD with 65536 in H. rewrite Z.gtb_ltb in H. destruct (65536 <? page_estimate dt enc cur).
    + apply bind_ret in H. destruct H as (r & Hr & H). apply ret_inj in H. subst c'.
      exact (write_page_exact _ _ _ _ _ _ _ _ _ I ltac:(lia) X Hr).
    + apply ret_inj in H. subst c'. exact X.
Qed.
Lemma write_exact_cut : forall id dt comp enc c pages ims cur t v c',
  chunk_inv p decomp id dt comp enc c pages ims cur -> zlen cur < page_limit dt enc -> exact dt comp enc c pages ->
  i64_min <= t <= i64_max -> value_ok dt v -> zlen (concat pages ++ cur) + 1 < 2 ^ 32 ->
  cw_write p snap t v c = Ret (inl c') ->
  let '(pages', cur', next') := cut_step dt enc (pages, cur, cw_next_check c) (t, v) in exact dt comp enc c' pages'.
Proof.
  intros id dt comp enc c pages ims cur t v c' I Hc X Ht Hv Hl H. unfold cw_write in H.
  pose proof (ci_cur _ _ _ _ _ _ _ _ _ _ I) as IC.
  set (m := match cw_page c with Some pw => inl pw | None => pw_new (cw_type c) (cw_enc c) end) in H.
  destruct m as [pw|err] eqn:M; [|apply ret_inj in H; discriminate].
  assert (PS : page_state p dt enc cur pw).
  { unfold m in M. destruct (cw_page c).
    - inversion M; subst. exact IC.
    - destruct IC as [-> _]. rewrite (ci_type _ _ _ _ _ _ _ _ _ _ I), (ci_enc _ _ _ _ _ _ _ _ _ _ I) in M. apply page_state_new; auto. }
  apply bind_ret in H. destruct H as (pw' & Hw & H). apply bind_ret in H. destruct H as (c1 & H1 & H).
  apply ret_inj in H. inversion H; subst c1. clear H.
  pose proof (limit_small dt enc) as L. assert (Lc : zlen cur + 1 < 2 ^ 32) by lia.
  pose proof (page_state_write _ _ _ _ _ _ _ _ PS Hv Lc Hw) as PS'.
  assert (I' : chunk_inv p decomp id dt comp enc (cw_with_page (Some pw') c) pages ims (cur ++ [(t, v)])).
  { destruct I as [I1 I2 I3 I4 Iims Ipg Iok Itot Icur Inum Ist Ibuf Ifirst].
    split; cbn [cw_with_page cw_id cw_type cw_comp cw_enc cw_page cw_stats cw_num_pages cw_buffer cw_first_stats cw_size_wo_stats]; auto.
    - rewrite app_assoc. apply Forall_app. split; [auto|repeat constructor; cbn [fst snd]; auto; apply Ht].
    - rewrite app_assoc, zlen_app, zlen_cons, zlen_nil. lia. }
  assert (L1 : 1 <= zlen (cur ++ [(t, v)]) <= page_limit dt enc).
  { rewrite zlen_app, zlen_cons, zlen_nil. pose proof (zlen_nonneg _ cur). lia. }
  exact (check_exact _ _ _ _ _ _ _ _ _ I' L1 X H1).
Qed.
Lemma run_exact : forall id dt comp enc pts c, points_ok dt pts -> zlen pts < 2 ^ 32 ->
  cw_run p snap pts (cw_new id dt comp enc) = Ret (inl c) ->
  let '(pages, cur, next) := cut dt enc pts in exact dt comp enc c pages.
Proof.
  intros id dt comp enc pts. induction pts as [|[t v] l IH] using rev_ind; intros c Hok Hl H.
  - unfold cw_run in H. cbn [foldM] in H. apply ret_inj in H. inversion H; subst c. cbn. split; reflexivity.
  - apply Forall_app in Hok. destruct Hok as [Hok Hx]. inversion Hx as [|? ? [Ht Hv] _]; subst. cbn [fst snd] in *.
    rewrite zlen_app, zlen_cons, zlen_nil in Hl. rewrite cw_run_snoc in H. apply bind_ret in H. destruct H as (s & Hs & H).
    destruct s as [c1|]; [|discriminate]. specialize (IH c1 Hok ltac:(lia) Hs). pose proof (run_cut p snap decomp HG _ _ _ _ _ _ Hok ltac:(lia) Hs) as R.
    rewrite cut_snoc. pose proof (cut_ok dt enc l) as CI. pose proof (cut_concat dt enc l) as CC. destruct (cut dt enc l) as [[pages cur] next].
    destruct R as (ims & I & <-). cbn [cut_inv] in CI. cbn [fst snd] in H.
    refine (write_exact_cut _ _ _ _ _ _ _ _ _ _ _ I _ IH Ht Hv _ H); [tauto|rewrite CC; lia].
Qed.
(** The sealed chunk. *)
Lemma seal_exact : forall id dt comp enc pts c, points_ok dt pts -> zlen pts < 2 ^ 32 -> 
  cw_session p snap id dt comp enc pts = Ret (inl c) ->
  exact dt comp enc c (pages_of dt enc pts) /\ exists ims, chunk_inv p decomp id dt comp enc c (pages_of dt enc pts) ims [].
Proof.
  intros id dt comp enc pts c Hok Hl H. unfold cw_session in H. apply bind_ret in H.
  destruct H as (s & Hs & H). destruct s as [c1|]; [|discriminate]. apply bind_ret in H. destruct H as (c2 & Hc & H).
  apply ret_inj in H. assert (c2 = c) by congruence. subst c2. clear H. unfold pages_of.
  pose proof (run_cut p snap decomp HG _ _ _ _ _ _ Hok Hl Hs) as R. pose proof (run_exact _ _ _ _ _ _ Hok Hl Hs) as X.
  pose proof (cut_concat dt enc pts) as CC. pose proof (cut_ok dt enc pts) as CI.
  destruct (cut dt enc pts) as [[pages cur] next]. destruct R as (ims & I & _). cbn [cut_inv] in CI.
  pose proof (limit_small dt enc) as L.
  unfold seal_current_page in Hc. pose proof (ci_cur _ _ _ _ _ _ _ _ _ _ I) as IC. destruct (cw_page c1) as [pw|] eqn:EP.
  - rewrite (ps_points _ _ _ _ _ IC) in Hc. destruct cur as [|a cur].
    + rewrite zlen_nil in Hc. cbn in Hc. apply ret_inj in Hc. subst c1. rewrite app_nil_r. eauto.
    + pose proof (zlen_nonneg _ cur). destruct (Z.gtb_spec (zlen (a :: cur)) 0); [|rewrite zlen_cons in *; lia].
      apply bind_ret in Hc. destruct Hc as (r & Hr & Hc). apply ret_inj in Hc. subst c.
      split; [exact (write_page_exact _ _ _ _ _ _ _ _ _ I ltac:(lia) X Hr)|].
      destruct (write_page_ok p snap decomp HG _ _ _ _ _ _ _ _ _ I ltac:(lia) Hr) as (_ & im & I'). exists (ims ++ [im]). exact I'.
  - apply ret_inj in Hc. subst c1. destruct IC as [-> ->]. split; [auto|exists ims; exact I].
Qed.
End Exact.
Lemma pages_concat : forall dt enc pts, concat (pages_of dt enc pts) = pts.
Proof.
  intros. unfold pages_of. pose proof (cut_concat dt enc pts) as CC. destruct (cut dt enc pts) as [[pages cur] next].
  rewrite concat_app, <- CC. destruct cur; cbn [concat]; rewrite ?app_nil_r; reflexivity.
Qed.
Lemma fsum_snoc : forall l x, fsum (l ++ [x]) = SFadd 53 1024 (fsum l) x.
Proof. intros. unfold fsum. rewrite fold_left_app. reflexivity. Qed.
Lemma chunk_tree_sum : forall dt pages, tree_fsum dt (chunk_tree pages) = chunk_sum dt pages.
Proof.
  intros dt pages. induction pages as [|pg pages IH] using rev_ind; [reflexivity|]. rewrite chunk_tree_snoc. cbn [tree_fsum].
  unfold chunk_sum. rewrite map_app. cbn [map]. rewrite fsum_snoc, IH. reflexivity.
Qed.

From Verif Require Import PFlush.
Lemma write_str_text : forall s, zlen s < 2 ^ 31 -> wbytes (write_str s) = text s.
Proof.
  intros s H. pose proof (zlen_nonneg _ s). unfold write_str, text. cbn [wbytes]. rewrite wrapS_small by (change (2 ^ (32 - 1)) with (2 ^ 31); lia).
  rewrite leb_zigzag by lia. rewrite ?app_nil_r. reflexivity.
Qed.
Section Chunk.
Variables (p : profile) (snap decomp : list Z -> option (list Z)).
Hypothesis HG : good_snap snap decomp.
Lemma with_stats_exact : forall ms pg s, points_ok (ms_type ms) pg -> zlen pg < 2 ^ 32 -> page_stats p (ms_type ms) pg = Ret s ->
  with_stats (eim p snap (ms_type ms) (ms_comp ms) (ms_enc ms) pg) = page_bytes snap ms true pg.
Proof.
  intros ms pg s Hok Hl H. unfold with_stats, eim, page_bytes. cbv zeta. cbn [im_head im_stats im_body]. rewrite H.
  rewrite (stat_bytes_ok p (ms_type ms) (Page pg) s Hok Hl H). rewrite <- !app_assoc. reflexivity.
Qed.
Lemma points_ok_each : forall dt pages pg, points_ok dt (concat pages) -> In pg pages -> points_ok dt pg.
Proof. intros dt pages pg H I. apply Forall_forall. intros x Hx. unfold points_ok in H. rewrite Forall_forall in H. apply H. apply in_concat. eauto. Qed.
Lemma zlen_each : forall A (pages : list (list A)) pg, In pg pages -> zlen pg <= zlen (concat pages).
Proof.
  intros A pages pg. induction pages as [|x l IH]; [intros []|]. intros [->|H]; cbn [concat]; rewrite zlen_app; pose proof (zlen_nonneg _ pg).
  - pose proof (zlen_nonneg _ (concat l)). lia.
  - specialize (IH H). pose proof (zlen_nonneg _ x). lia.
Qed.
Lemma pages_image : forall ms pages, points_ok (ms_type ms) (concat pages) -> zlen (concat pages) < 2 ^ 32 ->
  (forall pg, In pg pages -> exists s, page_stats p (ms_type ms) pg = Ret s) ->
  buffer_of (map (eim p snap (ms_type ms) (ms_comp ms) (ms_enc ms)) pages) = pages_bytes snap ms pages.
Proof.
  intros ms pages Hok Hl HS. unfold pages_bytes.
  assert (W : map (fun pg => with_stats (eim p snap (ms_type ms) (ms_comp ms) (ms_enc ms) pg)) pages = map (page_bytes snap ms true) pages).
  { apply map_ext_in. intros pg Hpg. destruct (HS pg Hpg) as [s S]. eapply with_stats_exact; [eapply points_ok_each; eauto| |exact S]. pose proof (zlen_each _ _ _ Hpg). lia. }
  destruct pages as [|pg1 [|pg2 pages]].
  - reflexivity.
  - cbn [map]. change (zlen [pg1] =? 1) with true. cbn [negb buffer_of concat map]. unfold eim, page_bytes. cbn [im_head im_body].
    rewrite app_nil_r, <- !app_assoc. reflexivity.
  - pose proof (zlen_nonneg _ pages). replace (zlen (pg1 :: pg2 :: pages) =? 1) with false by (symmetry; rewrite !zlen_cons; apply Z.eqb_neq; lia).
    cbn [negb]. rewrite <- W. cbn [map]. unfold buffer_of. f_equal. cbn [map]. f_equal. f_equal. rewrite map_map. reflexivity.
Qed.
Lemma ims_stats : forall id dt comp enc c pages ims cur, chunk_inv p decomp id dt comp enc c pages ims cur -> forall pg, In pg pages -> exists s, page_stats p dt pg = Ret s.
Proof.
  intros id dt comp enc c pages ims cur I pg Hpg. pose proof (ci_ims _ _ _ _ _ _ _ _ _ _ I) as F. clear - F Hpg. induction F as [|x y l l' Hx F IH]; [destruct Hpg|].
  destruct Hpg as [->|Hpg]; [|auto]. eexists. apply Hx.
Qed.
Lemma buffer_exact : forall m ms pts c, pts_ok ms pts -> sealed p snap m ms pts c ->
  cw_buffer c = pages_bytes snap ms (pages_of (ms_type ms) (ms_enc ms) pts) /\ cw_num_pages c = zlen (pages_of (ms_type ms) (ms_enc ms) pts) /\
  cw_id c = m /\ cw_type c = ms_type ms /\ cw_comp c = ms_comp ms /\ cw_enc c = ms_enc ms /\
  tree_stats p (ms_type ms) (chunk_tree (pages_of (ms_type ms) (ms_enc ms) pts)) = Ret (cw_stats c).
Proof.
  intros m ms pts c [Hok Hl] H. destruct (seal_exact p snap decomp HG _ _ _ _ _ _ Hok Hl H) as ([X _] & ims & I).
  pose proof (pages_concat (ms_type ms) (ms_enc ms) pts) as PC. set (pages := pages_of (ms_type ms) (ms_enc ms) pts) in *.
  split; [|split; [apply I|split; [apply I|split; [apply I|split; [apply I|split; [apply I|apply I]]]]]].
  rewrite X. rewrite <- PC in Hok, Hl. apply pages_image; auto. exact (ims_stats _ _ _ _ _ _ _ _ I).
Qed.
(** The buffer of an open chunk. *)
Lemma open_exact : forall m ms pts c, pts_ok ms pts -> open_chunk p snap m ms pts c ->
  let '(pages, cur, _) := cut (ms_type ms) (ms_enc ms) pts in
  cw_buffer c = pages_bytes snap ms pages /\ zlen cur < page_limit (ms_type ms) (ms_enc ms) /\ concat pages ++ cur = pts /\
  exists ims, chunk_inv p decomp m (ms_type ms) (ms_comp ms) (ms_enc ms) c pages ims cur.
Proof.
  intros m ms pts c [Hok Hl] H. unfold open_chunk, new_chunk in H. pose proof (run_exact p snap decomp HG _ _ _ _ _ _ Hok Hl H) as X.
  pose proof (run_cut p snap decomp HG _ _ _ _ _ _ Hok Hl H) as R. pose proof (cut_concat (ms_type ms) (ms_enc ms) pts) as CC. pose proof (cut_ok (ms_type ms) (ms_enc ms) pts) as CI.
  destruct (cut (ms_type ms) (ms_enc ms) pts) as [[pages cur] next]. destruct R as (ims & I & _). destruct X as [X _]. cbn [cut_inv] in CI.
  split; [|split; [tauto|split; [exact CC|eauto]]]. rewrite X. rewrite <- CC in Hok, Hl. apply Forall_app in Hok. rewrite zlen_app in Hl. pose proof (zlen_nonneg _ cur).
  apply pages_image; [apply Hok|lia|exact (ims_stats _ _ _ _ _ _ _ _ I)].
Qed.
Lemma chunk_exact : forall m ms pts c, pts_ok ms pts -> sealed p snap m ms pts c -> pts <> [] -> zlen m < 2 ^ 31 -> zlen (cw_buffer c) < 2 ^ 32 ->
  chunk_bytes c = chunk_image snap m ms pts.
Proof.
  intros m ms pts c Hok H Hne Hm Hb. destruct (buffer_exact m ms pts c Hok H) as (B & N & I1 & I2 & I3 & I4 & _).
  unfold chunk_bytes, chunk_image. cbv zeta. rewrite N, I1, I2, I3, I4. unfold chunk_header. cbn [wbytes].
  pose proof (zlen_nonneg _ (cw_buffer c)). rewrite write_str_text by auto. rewrite wrapU_small by lia. rewrite leb_var by lia. rewrite B.
  assert (K : 1 <= zlen (pages_of (ms_type ms) (ms_enc ms) pts)).
  { pose proof (pages_concat (ms_type ms) (ms_enc ms) pts) as PC. destruct (pages_of (ms_type ms) (ms_enc ms) pts) as [|x l]; [cbn in PC; congruence|].
    rewrite zlen_cons. pose proof (zlen_nonneg _ l). lia. }
  replace (zlen (pages_of (ms_type ms) (ms_enc ms) pts) <=? 1) with (zlen (pages_of (ms_type ms) (ms_enc ms) pts) =? 1).
  2: { destruct (Z.eqb_spec (zlen (pages_of (ms_type ms) (ms_enc ms) pts)) 1), (Z.leb_spec (zlen (pages_of (ms_type ms) (ms_enc ms) pts)) 1); lia || reflexivity. }
  destruct (_ =? 1); cbn [Z.lor Pos.lor app]; rewrite <- !app_assoc; reflexivity.
Qed.
Lemma stats_exact : forall m ms pts c, pts_ok ms pts -> sealed p snap m ms pts c ->
  wbytes (stats_serialize (cw_stats c)) = stat_bytes (ms_type ms) pts (chunk_sum (ms_type ms) (pages_of (ms_type ms) (ms_enc ms) pts)).
Proof.
  intros m ms pts c Hok H. destruct (buffer_exact m ms pts c Hok H) as (_ & _ & _ & _ & _ & _ & T).
  assert (E : tree_points (chunk_tree (pages_of (ms_type ms) (ms_enc ms) pts)) = pts) by (rewrite chunk_tree_points; apply pages_concat).
  destruct Hok as [Hok Hl]. rewrite (stat_bytes_ok p (ms_type ms) _ _ ltac:(rewrite E; exact Hok) ltac:(rewrite E; exact Hl) T), chunk_tree_sum, E. reflexivity.
Qed.
End Chunk.
