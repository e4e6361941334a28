(** Pages and chunks: C13, C14. *)
From Verif Require Export MChunk SChunk PCol SStats SReader PStats PStats2 PFloat.
Ltac Zify.zify_post_hook ::= idtac.

Lemma foldM_app : forall A S (f : S -> A -> outcome S) l1 l2 s,
  foldM f (l1 ++ l2) s = (let* s' := foldM f l1 s in foldM f l2 s').
Proof.
  induction l1; intros; cbn [app foldM bind]; [reflexivity|].
  destruct (f s a); cbn [bind]; auto.
Qed.
Lemma foldM_snoc : forall A S (f : S -> A -> outcome S) l a s,
  foldM f (l ++ [a]) s = (let* s' := foldM f l s in f s' a).
Proof.
  intros. rewrite foldM_app. destruct (foldM f l s); cbn; auto. destruct (f a0 a); auto.
Qed.
Lemma Forall2_len : forall A B (R : A -> B -> Prop) l m, Forall2 R l m -> length l = length m.
Proof. induction 1; cbn; auto. Qed.
Lemma pair3 : forall A B C (a a' : A) (b b' : B) (c c' : C), (a, b, c) = (a', b', c') -> a = a' /\ b = b' /\ c = c'.
Proof. intros. repeat split; congruence. Qed.
Lemma bytes_app2 : forall a b, bytes a -> bytes b -> bytes (a ++ b).
Proof. intros. apply Forall_app. auto. Qed.

(** ** Sizes *)
Definition pending (e : ts2) : Z := match t_first e with None => 0 | Some _ => 1 + zlen (t_values e) end.
Lemma flush_size : forall p k e e', ts2_flush p k e = Ret e' -> bytes (t_buf e) ->
  bytes (t_buf e') /\ zlen (t_buf e') <= zlen (t_buf e) + 24 * pending e /\ pending e' = 0 /\
  (t_first e = None -> e' = e).
Proof.
  intros p k e e' H Hb. unfold ts2_flush in H. unfold pending. destruct (t_first e) as [first|] eqn:F.
  - apply bind_ret in H. destruct H as (ds & Hd & H). apply bind_ret in H. destruct H as (pl & Hp & H).
    apply ret_inj in H. subst e'. cbn [t_buf t_first].
    assert (E : ds = rel_deltas k (t_min e) (t_values e)).
    { unfold rel_deltas. eapply mapM_inv; [|exact Hd]. cbn beta. intros a b _ Ha.
      apply arithS_inv in Ha; auto. apply kbits_pos. }
    subst ds. destruct (rel_pack k (t_min e) (t_values e)) as (pl' & Q & B & L & _). rewrite Q in Hp.
    apply ret_inj in Hp. subst pl'.
    split; [|split; [|split; [reflexivity|discriminate]]].
    + repeat apply bytes_app2; auto using be_bytes_bytes.
    + rewrite !zlen_app, !be_bytes_zlen, L.
      pose proof (calc_width_acc k (rel_deltas k (t_min e) (t_values e)) 0) as [W _].
      { pose proof (kbits_pos k). lia. }
      fold (calc_width k (rel_deltas k (t_min e) (t_values e))) in W.
      generalize dependent (calc_width k (rel_deltas k (t_min e) (t_values e))). intros w _ _ W.
      pose proof (zlen_nonneg _ (t_values e)) as Hn. pose proof (kbits_pos k) as Kb.
      assert (zlen (t_values e) * w <= zlen (t_values e) * 64) by (apply Z.mul_le_mono_nonneg_l; lia).
      assert ((zlen (t_values e) * w + 7) / 8 <= zlen (t_values e) * 8).
      { apply Z.lt_succ_r, Z.div_lt_upper_bound; lia. }
      assert (Z.of_nat (kbytes k) <= 8) by (destruct k; cbn; lia). lia.
  - apply ret_inj in H. subst e'. rewrite F. split; [auto|]. split; [lia|]. auto.
Qed.

Lemma ts2_write_size : forall p k v e e' n, ts2_write p k v e = Ret e' ->
  bytes (t_buf e) -> zlen (t_buf e) + 24 * pending e <= 24 * n -> (t_first e = None -> t_values e = []) ->
  bytes (t_buf e') /\ zlen (t_buf e') + 24 * pending e' <= 24 * (n + 1) /\ (t_first e' = None -> t_values e' = []).
Proof.
  intros p k v e e' n H Hb Hn Hv. unfold ts2_write in H. apply bind_ret in H. destruct H as (e1 & H1 & H).
  assert (S1 : t_buf e1 = t_buf e /\ pending e1 = pending e + 1 /\ t_first e1 <> None).
  { unfold pending. destruct (t_first e) eqn:F.
    - apply bind_ret in H1. destruct H1 as (d & _ & H1). apply ret_inj in H1. subst e1. cbn [t_buf t_first t_values].
      rewrite zlen_app, zlen_cons, zlen_nil. split; [auto|]. split; [lia|discriminate].
    - apply ret_inj in H1. subst e1. cbn [t_buf t_first t_values]. rewrite Hv by auto. rewrite zlen_nil.
      split; [auto|]. split; [lia|discriminate]. }
  destruct S1 as (B1 & P1 & F1). destruct (zlen (t_values e1) =? 128).
  - assert (V : t_first e' = None -> t_values e' = []).
    { unfold ts2_flush in H. destruct (t_first e1); [|congruence]. apply bind_ret in H. destruct H as (? & _ & H).
      apply bind_ret in H. destruct H as (? & _ & H). apply ret_inj in H. subst e'. reflexivity. }
    apply flush_size in H; [|rewrite B1; auto]. destruct H as (A & B & C & _). rewrite B1 in B. 
    split; auto. split; [lia|auto].
  - apply ret_inj in H. subst e'. rewrite B1. split; auto. split; [lia|]. intros; congruence.
Qed.
Lemma ts2_write_all_size : forall p k vs e e' n, ts2_write_all p k vs e = Ret e' ->
  bytes (t_buf e) -> zlen (t_buf e) + 24 * pending e <= 24 * n -> (t_first e = None -> t_values e = []) ->
  bytes (t_buf e') /\ zlen (t_buf e') + 24 * pending e' <= 24 * (n + zlen vs).
Proof.
  unfold ts2_write_all. induction vs; cbn [foldM]; intros e e' n H Hb Hn Hv.
  - apply ret_inj in H. subst. rewrite zlen_nil. split; auto. lia.
  - apply bind_ret in H. destruct H as (e1 & H1 & H). destruct (ts2_write_size _ _ _ _ _ _ H1 Hb Hn Hv) as (A & B & C).
    rewrite zlen_cons. replace (n + (1 + zlen vs)) with (n + 1 + zlen vs) by lia. eapply IHvs; eauto.
Qed.
Lemma ts2_encode_size : forall p k vs b, ts2_encode p k vs = Ret b -> bytes b /\ zlen b <= 24 * zlen vs.
Proof.
  intros p k vs b H. unfold ts2_encode in H. apply bind_ret in H. destruct H as (e & He & H).
  apply bind_ret in H. destruct H as (r & Hs & H). apply ret_inj in H. subst b.
  unfold ts2_serialize in Hs. apply bind_ret in Hs. destruct Hs as (e1 & H1 & Hs). apply ret_inj in Hs. subst r. cbn [snd].
  destruct (ts2_write_all_size p k vs (ts2_new k) e 0 He) as [A B]; [constructor|unfold pending; cbn [t_first t_buf ts2_new]; rewrite zlen_nil; lia|auto|].
  apply flush_size in H1; auto. destruct H1 as (C & D & _). split; auto. lia.
Qed.
Lemma plain_bytes_size : forall dt v, value_ok dt v -> bytes (plain_bytes v) /\ zlen (plain_bytes v) <= 24.
Proof.
  intros dt v H. destruct dt, v; cbn in H; try tauto; cbn [plain_bytes].
  - split; [apply var_i32_bytes; auto|]. pose proof (var_i32_len v H). lia.
  - split; [apply be_bytes_bytes|]. rewrite be_bytes_zlen. lia.
  - split; [apply be_bytes_bytes|]. rewrite be_bytes_zlen. lia.
Qed.
Lemma plain_size : forall dt vs, Forall (value_ok dt) vs ->
  bytes (concat (map plain_bytes vs)) /\ zlen (concat (map plain_bytes vs)) <= 24 * zlen vs.
Proof.
  intros dt vs H. induction H; cbn [map concat].
  - split; [constructor|]. rewrite !zlen_nil. lia.
  - destruct IHForall as [A B]. destruct (plain_bytes_size dt x H) as [C D]. split; [apply bytes_app2; auto|].
    rewrite zlen_app, zlen_cons. lia.
Qed.
Lemma column_size : forall p dt enc vs r, Forall (value_ok dt) vs -> encode_column p dt enc vs = Ret (Some r) ->
  bytes r /\ zlen r <= 24 * zlen vs.
Proof.
  intros p dt enc vs r Hv H.
  assert (T : forall k, dt = kdtype k -> enc = TS2DIFF -> bytes r /\ zlen r <= 24 * zlen vs).
  { intros k -> ->. unfold encode_column in H.
    replace (encoder_new (kdtype k) TS2DIFF) with (@inl encoder tserror (EncTs2 k (ts2_new k))) in H by (destruct k; reflexivity).
    rewrite ts2_encoder_write_all in H by auto. apply bind_ret in H. destruct H as (s & Hs & H).
    apply bind_ret in Hs. destruct Hs as (e & He & Hs). apply ret_inj in Hs. subst s.
    cbn [encoder_serialize] in H. apply bind_ret in H. destruct H as (x & Hx & H). apply bind_ret in Hx.
    destruct Hx as (y & Hy & Hx). apply ret_inj in Hx. subst x. apply ret_inj in H. cbn in H. inversion H; subst r.
    assert (Q : ts2_encode p k (map value_num vs) = Ret (snd y)).
    { unfold ts2_encode. rewrite He. cbn [bind]. rewrite Hy. reflexivity. }
    apply ts2_encode_size in Q. unfold zlen at 2 in Q. rewrite map_length in Q. exact Q. }
  assert (P : enc = PLAIN -> bytes r /\ zlen r <= 24 * zlen vs).
  { intros ->. unfold encode_column in H. destruct dt; cbn [encoder_new] in H; rewrite plain_write_all in H;
      cbn in H; inversion H; subst r; eapply plain_size; eauto. }
  destruct enc; [auto|]. destruct dt; [apply (T KInt); auto|apply (T KLong); auto|discriminate].
Qed.

Lemma encoder_write_shape : forall p v e r, encoder_write p v e = Ret r -> encoder_reset (fst r) = encoder_reset e.
Proof.
  intros p v e r H. destruct e; cbn [encoder_write] in H.
  - apply ret_inj in H. subst r. reflexivity.
  - destruct (as_kind k v); [apply bind_ret in H; destruct H as (t & _ & H)|]; apply ret_inj in H; subst r; reflexivity.
Qed.
Lemma encoder_write_all_shape : forall p vs e e', encoder_write_all p vs e = Ret (Some e') -> encoder_reset e' = encoder_reset e.
Proof.
  intros p vs. unfold encoder_write_all. induction vs; cbn [foldM]; intros e e' H.
  - apply ret_inj in H. congruence.
  - apply bind_ret in H. destruct H as (s & Hs & H). apply bind_ret in Hs. destruct Hs as (r & Hr & Hs).
    apply ret_inj in Hs. subst s. destruct (snd r).
    + rewrite foldM_none in H. discriminate.
    + apply IHvs in H. apply encoder_write_shape in Hr. congruence.
Qed.
Lemma encoder_serialize_shape : forall p e r, encoder_serialize p e = Ret r -> encoder_reset (fst r) = encoder_reset e.
Proof.
  intros p e r H. destruct e; cbn [encoder_serialize] in H.
  - apply ret_inj in H. subst r. reflexivity.
  - apply bind_ret in H. destruct H as (t & _ & H). apply ret_inj in H. subst r. reflexivity.
Qed.
Lemma encoder_new_shape : forall dt enc e, encoder_new dt enc = inl e -> encoder_reset e = e.
Proof. intros dt enc e H. destruct dt, enc; inversion H; reflexivity. Qed.
Lemma encoder_new_kind : forall dt enc k e, encoder_new dt enc = inl (EncTs2 k e) -> dt = kdtype k.
Proof. intros dt enc k e H. destruct dt, enc; inversion H; reflexivity. Qed.

(** ** The current page *)
Definition pw_run (p : profile) (pts : list (Z * value)) (w : page_writer) : outcome page_writer :=
  foldM (fun w tv => pw_write p (fst tv) (snd tv) w) pts w.

Record page_state (p : profile) (dt : dtype) (enc : encoding) (pts : list (Z * value)) (w : page_writer) : Prop := {
  ps_time : ts2_write_all p KLong (times pts) (ts2_new KLong) = Ret (pw_time w);
  ps_value : exists e0, encoder_new dt enc = inl e0 /\ encoder_write_all p (map snd pts) e0 = Ret (Some (pw_value w));
  ps_stats : page_stats p dt pts = Ret (pw_stats w);
  ps_type : pw_type w = dt;
  ps_points : pw_points w = zlen pts;
  ps_buffer : pw_buffer w = [] }.

Lemma page_state_new : forall p dt enc w, pw_new dt enc = inl w -> page_state p dt enc [] w.
Proof.
  intros p dt enc w H. unfold pw_new in H. destruct (encoder_new dt enc) eqn:E; [|discriminate].
  inversion H; subst w. split; cbn; eauto.
Qed.
Lemma page_state_nil : forall p dt enc w, page_state p dt enc [] w -> pw_new dt enc = inl w.
Proof.
  intros p dt enc w [A (e0 & B1 & B2) C D F G]. unfold pw_new. rewrite B1. destruct w; cbn in *.
  apply ret_inj in A. apply ret_inj in B2. apply ret_inj in C. inversion B2. subst. reflexivity.
Qed.

Lemma page_state_write : forall p dt enc pts w t v w', page_state p dt enc pts w -> value_ok dt v ->
  zlen pts + 1 < 2 ^ 32 ->
  pw_write p t v w = Ret w' -> page_state p dt enc (pts ++ [(t, v)]) w'.
Proof.
  intros p dt enc pts w t v w' [A (e0 & B1 & B2) C D F G] Hv Hl H. unfold pw_write in H.
  apply bind_ret in H. destruct H as (te & Ht & H). apply bind_ret in H. destruct H as (ve & He & H).
  apply bind_ret in H. destruct H as (st & Hst & H). apply bind_ret in H. destruct H as (n & Hn & H).
  apply ret_inj in H. subst w'. split; cbn [pw_time pw_value pw_type pw_stats pw_points pw_buffer]; auto.
  - unfold ts2_write_all, times in *. rewrite map_app. cbn [map]. rewrite foldM_snoc, A. exact Ht.
  - exists e0. split; auto. unfold encoder_write_all in *. rewrite map_app. cbn [map snd]. rewrite foldM_snoc, B2.
    cbn [bind]. rewrite He. cbn [bind].
    assert (S : snd ve = None); [|rewrite S; reflexivity].
    assert (R : encoder_reset (pw_value w) = e0).
    { rewrite (encoder_write_all_shape p (map snd pts) e0) by exact B2. eapply encoder_new_shape; eauto. }
    destruct (pw_value w); cbn [encoder_write] in He.
    + apply ret_inj in He. subst ve. reflexivity.
    + cbn in R. subst e0. apply encoder_new_kind in B1. subst dt. destruct (value_ok_kind k v Hv) as [E _].
      rewrite E in He. apply bind_ret in He. destruct He as (t' & _ & He). apply ret_inj in He. subst ve. reflexivity.
  - unfold page_stats in *. rewrite foldM_snoc, C. exact Hst.
  - rewrite zlen_app, zlen_cons, zlen_nil. rewrite F in Hn. rewrite arithU_ok in Hn by (pose proof (zlen_nonneg _ pts); lia).
    apply ret_inj in Hn. lia.
Qed.

(** ** Sealing a page *)
Lemma combine_tnums : forall pts, combine (times pts) (map value_num (map snd pts)) = tnums pts.
Proof. induction pts as [|[t v] l IH]; cbn; [auto|]. f_equal. exact IH. Qed.
Lemma points_ok_times : forall dt pts, points_ok dt pts -> Forall (signed_in (kbits KLong)) (times pts).
Proof.
  intros dt pts H. unfold times. induction H as [|x l [A B] H IH]; cbn; constructor; auto.
  red. cbn. unfold i64_min, i64_max in A. lia.
Qed.
Lemma points_ok_values : forall dt pts, points_ok dt pts -> Forall (value_ok dt) (map snd pts).
Proof. intros dt pts H. induction H as [|x l [A B] H IH]; cbn; constructor; auto. Qed.

Lemma prepare_spec : forall p dt enc pts w w', page_state p dt enc pts w -> points_ok dt pts ->
  zlen pts <= 1048577 -> pw_prepare p w = Ret w' ->
  page_points (dtype_code dt) (encoding_code enc) (pw_buffer w') = Some (tnums pts) /\
  bytes (pw_buffer w') /\ zlen (pw_buffer w') <= 5 + 48 * zlen pts /\ pw_stats w' = pw_stats w /\
  page_state p dt enc [] (pw_reset {| pw_time := pw_time w'; pw_value := pw_value w'; pw_type := pw_type w';
                        pw_stats := pw_stats w'; pw_points := pw_points w'; pw_buffer := [] |}).
Proof.
  intros p dt enc pts w w' [A (e0 & B1 & B2) C D F G] Hok Hl H. unfold pw_prepare in H.
  apply bind_ret in H. destruct H as (rt & Ht & H). apply bind_ret in H. destruct H as (rv & Hv & H).
  apply ret_inj in H. subst w'. cbn [pw_time pw_value pw_type pw_stats pw_points pw_buffer].
  assert (T : ts2_encode p KLong (times pts) = Ret (snd rt)).
  { unfold ts2_encode. rewrite A. cbn [bind]. rewrite Ht. reflexivity. }
  assert (V : encode_column p dt enc (map snd pts) = Ret (Some (snd rv))).
  { unfold encode_column. rewrite B1, B2. cbn [bind]. rewrite Hv. reflexivity. }
  pose proof (ts2_encode_size _ _ _ _ T) as [T1 T2]. pose proof (points_ok_values _ _ Hok) as Hvs.
  pose proof (column_size _ _ _ _ _ Hvs V) as [V1 V2].
  pose proof (ts2_roundtrip _ _ _ _ (points_ok_times _ _ Hok) T) as T3.
  pose proof (column_roundtrip _ _ _ _ _ Hvs V) as V3.
  assert (L1 : zlen (times pts) = zlen pts) by (unfold zlen, times; rewrite map_length; auto).
  assert (L2 : zlen (map snd pts) = zlen pts) by (unfold zlen; rewrite map_length; auto).
  rewrite L1 in T2. rewrite L2 in V2. pose proof (zlen_nonneg _ (snd rt)) as N1. pose proof (zlen_nonneg _ pts).
  rewrite wrapU_small by lia.
  split; [|split; [|split; [|split; [auto|]]]].
  - unfold page_points. rewrite var_u32_roundtrip by lia. rewrite take_app. change 8 with (Z.of_nat (kbytes KLong)).
    rewrite T3, V3. replace (Nat.eqb _ _) with true; [rewrite combine_tnums; reflexivity|].
    symmetry. apply Nat.eqb_eq. unfold times. rewrite !map_length. reflexivity.
  - repeat apply bytes_app2; auto. apply var_u32_bytes. lia.
  - rewrite !zlen_app. destruct (var_u32_len (zlen (snd rt)) ltac:(lia)) as [Lv _]. lia.
  - apply page_state_new. unfold pw_new, pw_reset. rewrite B1. cbn [pw_time pw_value pw_type pw_stats pw_points pw_buffer].
    rewrite D. f_equal. f_equal. apply encoder_serialize_shape in Hv. apply encoder_write_all_shape in B2.
    apply encoder_new_shape in B1. congruence.
Qed.

Section Chunk.
Variable p : profile.
Variable snap decomp : list Z -> option (list Z).
Record image := mkImage { im_head : list Z; im_stats : stats; im_body : list Z }.
Record image_ok (dt : dtype) (comp : compression) (enc : encoding) (pg : list (Z * value)) (im : image) : Prop := {
  io_stats : page_stats p dt pg = Ret (im_stats im);
  io_body : exists content, page_points (dtype_code dt) (encoding_code enc) content = Some (tnums pg) /\
    zlen content < 2 ^ 32 /\ uncompress decomp (compression_code comp) (zlen content) (im_body im) = Some content /\
    zlen (im_body im) < 2 ^ 32 /\
    im_head im = wbytes (write_var_u32 (zlen content)) ++ wbytes (write_var_u32 (zlen (im_body im)));
  io_len : zlen (im_head im) + zlen (im_body im) <= 48 + 56 * zlen pg }.
Definition with_stats (im : image) : list Z := im_head im ++ wbytes (stats_serialize (im_stats im)) ++ im_body im.
Definition buffer_of (ims : list image) : list Z :=
  match ims with
  | [im] => im_head im ++ im_body im
  | _ => concat (map with_stats ims)
  end.

Lemma page_stats_wf : forall dt pg s, points_ok dt pg -> page_stats p dt pg = Ret s -> stats_wf s /\ st_type s = dt.
Proof.
  intros dt pg s H1 H2. split.
  - apply (tree_wf p dt (Page pg)); auto.
  - eapply page_stats_type; [|exact H2]. reflexivity.
Qed.

Lemma page_read_image : forall dt comp enc pg im b rest, points_ok dt pg -> image_ok dt comp enc pg im ->
  page_read decomp (dtype_code dt) (compression_code comp) (encoding_code enc) b
    ((if b then with_stats im else im_head im ++ im_body im) ++ rest) =
    Some (mkPage (if b then Some (stat_of (im_stats im)) else None) (tnums pg), rest) /\
  same_stats (stat_of (im_stats im)) (im_stats im).
Proof.
  intros dt comp enc pg im b rest Hok [S (content & C1 & C2 & C3 & C4 & C5)]. unfold page_read, with_stats.
  pose proof (page_stats_wf _ _ _ Hok S) as [W Ty].
  pose proof (zlen_nonneg _ content). pose proof (zlen_nonneg _ (im_body im)).
  destruct (stats_roundtrip_exact _ (im_body im ++ rest) W) as (R & Sm). split; [|exact Sm].
  destruct b; rewrite C5, <- !app_assoc, var_u32_roundtrip by lia; rewrite var_u32_roundtrip by lia.
  - rewrite Ty in R. rewrite R. rewrite take_app, C3, C1. reflexivity.
  - rewrite take_app, C3, C1. reflexivity.
Qed.

(** ** The state of a chunk writer: finished pages and the current page *)
Lemma chunk_tree_snoc : forall pages pg, chunk_tree (pages ++ [pg]) = Merge (chunk_tree pages) (Page pg).
Proof. intros. unfold chunk_tree. rewrite fold_left_app. reflexivity. Qed.
Lemma chunk_tree_points : forall pages, tree_points (chunk_tree pages) = concat pages.
Proof.
  induction pages using rev_ind; [reflexivity|]. rewrite chunk_tree_snoc, concat_app. cbn [tree_points concat].
  rewrite app_nil_r. congruence.
Qed.

Record chunk_inv (id : list Z) (dt : dtype) (comp : compression) (enc : encoding)
    (c : chunk_writer) (pages : list (list (Z * value))) (ims : list image) (cur : list (Z * value)) : Prop := {
  ci_id : cw_id c = id;
  ci_type : cw_type c = dt;
  ci_comp : cw_comp c = comp;
  ci_enc : cw_enc c = enc;
  ci_ims : Forall2 (image_ok dt comp enc) pages ims;
  ci_pages : Forall (fun pg => 1 <= zlen pg <= 1048577) pages;
  ci_ok : points_ok dt (concat pages ++ cur);
  ci_total : zlen (concat pages ++ cur) < 2 ^ 32;
  ci_cur : match cw_page c with Some w => page_state p dt enc cur w | None => cur = [] /\ pages = [] end;
  ci_num : cw_num_pages c = zlen pages;
  ci_stats : tree_stats p dt (chunk_tree pages) = Ret (cw_stats c);
  ci_buf : cw_buffer c = buffer_of ims;
  ci_first : match ims with
             | [] => cw_size_wo_stats c = 0
             | [im] => cw_first_stats c = Some (im_stats im) /\ cw_size_wo_stats c = zlen (im_head im)
             | _ => True
             end }.

Lemma chunk_inv_new : forall id dt comp enc, chunk_inv id dt comp enc (cw_new id dt comp enc) [] [] [].
Proof. intros. split; cbn; auto; try constructor; lia. Qed.

Lemma pages_le : forall pages : list (list (Z * value)), Forall (fun pg => 1 <= zlen pg <= 1048577) pages ->
  zlen pages <= zlen (concat pages).
Proof.
  induction 1; cbn [concat]; [rewrite !zlen_nil; lia|]. rewrite zlen_cons, zlen_app. lia.
Qed.

Lemma write_page_ok : good_snap snap decomp -> forall id dt comp enc c pages ims cur r,
  chunk_inv id dt comp enc c pages ims cur -> 1 <= zlen cur <= 1048577 ->
  write_page_to_buffer p snap c = Ret r ->
  snd r = true /\ exists im, chunk_inv id dt comp enc (fst r) (pages ++ [cur]) (ims ++ [im]) [].
Proof.
  intros HG id dt comp enc c pages ims cur r I Hc H. destruct I as [I1 I2 I3 I4 Iims Ipg Iok Itot Icur Inum Ist Ibuf Ifirst].
  unfold write_page_to_buffer in H. destruct (cw_page c) as [pw0|] eqn:EP.
  2: { destruct Icur as [-> _]. rewrite zlen_nil in Hc. lia. }
  apply bind_ret in H. destruct H as (pw & Hpw & H).
  assert (Hok : points_ok dt cur) by (apply Forall_app in Iok; tauto).
  destruct (prepare_spec _ _ _ _ _ _ Icur Hok (proj2 Hc) Hpw) as (P1 & P2 & P3 & P4 & P5).
  pose proof (zlen_nonneg _ (pw_buffer pw)) as Nb.
  rewrite (wrapU_small 32 (zlen (pw_buffer pw))) in H by lia.
  (* the compressed content *)
  match type of H with match ?m with _ => _ end = _ => set (cmp := m) in H end.
  assert (CM : exists body, cmp = Some (body, zlen body) /\ zlen body < 2 ^ 32 /\ zlen body <= 38 + 56 * zlen cur /\
    uncompress decomp (compression_code comp) (zlen (pw_buffer pw)) body = Some (pw_buffer pw)).
  { unfold cmp. rewrite I3. destruct comp.
    - eexists. split; [reflexivity|]. split; [lia|]. split; [lia|]. unfold uncompress. cbn [compression_code Z.eqb].
      fold (zlen (pw_buffer pw)). rewrite Z.eqb_refl. reflexivity.
    - destruct (HG (pw_buffer pw) P2 ltac:(lia)) as (out & O1 & O2 & O3). rewrite O1.
      assert (zlen (pw_buffer pw) / 6 <= zlen (pw_buffer pw)) by (apply Z.div_le_upper_bound; lia).
      exists out. pose proof (zlen_nonneg _ out). rewrite wrapU_small by lia. split; [reflexivity|]. split; [lia|].
      split. { assert (zlen (pw_buffer pw) / 6 <= 1 + 8 * zlen cur) by (apply Z.lt_succ_r, Z.div_lt_upper_bound; lia). lia. }
      unfold uncompress. cbn [compression_code Z.eqb Pos.eqb]. rewrite O2. fold (zlen (pw_buffer pw)). rewrite Z.eqb_refl. reflexivity. }
  destruct CM as (body & CE & CL & CB & CU). clearbody cmp. subst cmp. pose proof (zlen_nonneg _ body) as Nbd.
  set (head := wbytes (write_var_u32 (zlen (pw_buffer pw))) ++ wbytes (write_var_u32 (zlen body))) in *.
  assert (HL : write_var_u32_ret (zlen (pw_buffer pw)) + write_var_u32_ret (zlen body) = zlen head).
  { unfold head. rewrite zlen_app.
    destruct (var_u32_len (zlen (pw_buffer pw)) ltac:(lia)) as (_ & -> & _).
    destruct (var_u32_len (zlen body) ltac:(lia)) as (_ & -> & _). reflexivity. }
  cbv zeta in H. apply bind_ret in H. destruct H as (bfs & Hb & H). destruct bfs as [[buffer fstats] swo].
  apply bind_ret in H. destruct H as (np & Hnp & H). apply bind_ret in H. destruct H as (st & Hst & H).
  apply ret_inj in H. subst r. cbn [fst snd]. split; [reflexivity|].
  set (im := mkImage head (pw_stats pw) body).
  assert (IM : image_ok dt comp enc cur im).
  { split; cbn [im_stats im_head im_body im].
    - rewrite P4. apply Icur.
    - exists (pw_buffer pw). repeat split; auto. lia.
    - unfold head. rewrite zlen_app. destruct (var_u32_len (zlen (pw_buffer pw)) ltac:(lia)) as [? _].
      destruct (var_u32_len (zlen body) ltac:(lia)) as [? _]. lia. }
  exists im.
  assert (Tot : zlen pages + 1 < 2 ^ 32).
  { pose proof (pages_le pages Ipg). rewrite zlen_app in Itot. lia. }
  assert (B : buffer = buffer_of (ims ++ [im]) /\ match ims ++ [im] with
             | [] => swo = 0
             | [im] => fstats = Some (im_stats im) /\ swo = zlen (im_head im)
             | _ => True
             end).
  { rewrite Inum in Hb. assert (Leq : zlen pages = zlen ims) by (unfold zlen; rewrite (Forall2_len _ _ _ _ _ Iims); auto).
    rewrite Leq in Hb. destruct ims as [|im1 [|im2 ims]].
    - cbn [zlen length Z.of_nat Z.eqb] in Hb. apply ret_inj in Hb. apply pair3 in Hb; destruct Hb as (<- & <- & <-).
      rewrite Ibuf. cbn [buffer_of map concat app im_head im_body im im_stats]. rewrite Ifirst. split; [unfold head; reflexivity|].
      split; [reflexivity|]. rewrite <- HL. lia.
    - change (zlen [im1]) with 1 in Hb. cbn [Z.eqb Pos.eqb] in Hb. destruct Ifirst as [F1 F2]. rewrite F2 in Hb.
      rewrite Ibuf in Hb. cbn [buffer_of] in Hb. rewrite zlen_app in Hb. pose proof (zlen_nonneg _ (im_body im1)).
      replace (zlen (im_head im1) <=? zlen (im_head im1) + zlen (im_body im1)) with true in Hb by lia.
      rewrite F1 in Hb. apply ret_inj in Hb. apply pair3 in Hb; destruct Hb as (<- & <- & <-). split; [|exact Logic.I].
      assert (K : Z.to_nat (zlen (im_head im1)) = length (im_head im1)) by (apply Nat2Z.id).
      rewrite K, firstn_app, skipn_app, firstn_all, skipn_all, Nat.sub_diag. cbn [firstn skipn app].
      rewrite app_nil_r. cbn [buffer_of app map concat]. unfold with_stats. cbn [im im_head im_stats im_body].
      rewrite <- !app_assoc, app_nil_r. reflexivity.
    - pose proof (zlen_nonneg _ ims). rewrite !zlen_cons in Hb. replace (1 + (1 + zlen ims) =? 0) with false in Hb by lia.
      replace (1 + (1 + zlen ims) =? 1) with false in Hb by lia. apply ret_inj in Hb. apply pair3 in Hb; destruct Hb as (<- & <- & <-).
      split; [|exact Logic.I]. rewrite Ibuf.
      change ((im1 :: im2 :: ims) ++ [im]) with (im1 :: im2 :: (ims ++ [im])). unfold buffer_of. cbn [map concat].
      rewrite map_app, concat_app. cbn [map concat]. rewrite <- !app_assoc, app_nil_r. reflexivity. }
  destruct B as [B1 B2].
  split; cbn [cw_id cw_type cw_comp cw_enc cw_page cw_stats cw_num_pages cw_buffer cw_first_stats cw_size_wo_stats]; auto.
  - apply Forall2_app; auto.
  - apply Forall_app. auto.
  - rewrite concat_app. cbn [concat]. rewrite !app_nil_r. auto.
  - rewrite concat_app. cbn [concat]. rewrite !app_nil_r. auto.
  - rewrite Inum in Hnp. pose proof (zlen_nonneg _ pages). rewrite arithU_ok in Hnp by lia. apply ret_inj in Hnp.
    rewrite zlen_app, zlen_cons, zlen_nil. lia.
  - rewrite chunk_tree_snoc. cbn [tree_stats]. rewrite Ist. cbn [bind]. rewrite P4 in Hst.
    rewrite (ps_stats _ _ _ _ _ Icur). exact Hst.
Qed.

Lemma check_page_ok : good_snap snap decomp -> forall id dt comp enc c pages ims cur c',
  chunk_inv id dt comp enc c pages ims cur -> 1 <= zlen cur <= 1048577 ->
  check_page_size p snap c = Ret c' ->
  exists pages' ims' cur', chunk_inv id dt comp enc c' pages' ims' cur' /\ zlen cur' <= 1048576 /\
    concat pages' ++ cur' = concat pages ++ cur.
Proof.
  intros HG id dt comp enc c pages ims cur c' I Hc H. unfold check_page_size in H.
  pose proof (ci_cur _ _ _ _ _ _ _ _ I) as IC.
  assert (N : forall n c pages ims cur, chunk_inv id dt comp enc c pages ims cur -> chunk_inv id dt comp enc (cw_with_next n c) pages ims cur).
  { intros n c0 pg0 im0 cu0 I0. destruct I0. split; auto. }
  assert (S : forall n r, write_page_to_buffer p snap c = Ret r ->
    exists pages' ims' cur', chunk_inv id dt comp enc (match n with Some m => cw_with_next m (fst r) | None => fst r end) pages' ims' cur' /\
      zlen cur' <= 1048576 /\ concat pages' ++ cur' = concat pages ++ cur).
  { intros n r Hr. destruct (write_page_ok HG _ _ _ _ _ _ _ _ _ I Hc Hr) as (_ & im & I').
    exists (pages ++ [cur]), (ims ++ [im]), []. rewrite zlen_nil, concat_app. cbn [concat]. rewrite !app_nil_r.
    split; [destruct n; auto|]. split; [lia|auto]. }
  destruct (cw_page c) as [pw|] eqn:EP.
  - pose proof (ps_points _ _ _ _ _ IC) as PN. rewrite PN in H. unfold MAX_NUMBER_OF_POINTS_IN_PAGE in H.
    destruct (Z.gtb_spec (zlen cur) 1048576).
    + apply bind_ret in H. destruct H as (r & Hr & H). apply ret_inj in H. subst c'. exact (S None r Hr).
    + destruct (zlen cur >=? cw_next_check c).
      * apply bind_ret in H. destruct H as (sz & _ & H). destruct (sz >? PAGE_SIZE_THRESHOLD).
        -- apply bind_ret in H. destruct H as (r & Hr & H). apply ret_inj in H. subst c'.
           exact (S (Some MINIMUM_RECORD_COUNT_FOR_CHECK) r Hr).
        -- apply ret_inj in H. subst c'. exists pages, ims, cur. split; [apply N; auto|]. split; [lia|auto].
      * apply ret_inj in H. subst c'. exists pages, ims, cur. split; [auto|]. split; [lia|auto].
  - destruct IC as [-> _]. rewrite zlen_nil in Hc. lia.
Qed.

Lemma cw_write_ok : good_snap snap decomp -> forall id dt comp enc c pages ims cur t v c',
  chunk_inv id dt comp enc c pages ims cur -> zlen cur <= 1048576 ->
  i64_min <= t <= i64_max -> value_ok dt v -> zlen (concat pages ++ cur) + 1 < 2 ^ 32 ->
  cw_write p snap t v c = Ret (inl c') ->
  exists pages' ims' cur', chunk_inv id dt comp enc c' pages' ims' cur' /\ zlen cur' <= 1048576 /\
    concat pages' ++ cur' = (concat pages ++ cur) ++ [(t, v)].
Proof.
  intros HG id dt comp enc c pages ims cur t v c' I Hc Ht Hv Hl H. unfold cw_write in H.
  pose proof (ci_cur _ _ _ _ _ _ _ _ I) as IC.
  set (m := match cw_page c with Some pw => inl pw | None => pw_new (cw_type c) (cw_enc c) end) in H.
  destruct m as [pw|err] eqn:M; [|apply ret_inj in H; discriminate].
  assert (PS : page_state p dt enc cur pw).
  { unfold m in M. destruct (cw_page c).
    - inversion M; subst. exact IC.
    - destruct IC as [-> _]. rewrite (ci_type _ _ _ _ _ _ _ _ I), (ci_enc _ _ _ _ _ _ _ _ I) in M. apply page_state_new; auto. }
  apply bind_ret in H. destruct H as (pw' & Hw & H). apply bind_ret in H. destruct H as (c1 & H1 & H).
  apply ret_inj in H. inversion H; subst c1. clear H.
  assert (Lc : zlen cur + 1 < 2 ^ 32) by lia.
  pose proof (page_state_write _ _ _ _ _ _ _ _ PS Hv Lc Hw) as PS'.
  assert (I' : chunk_inv id dt comp enc (cw_with_page (Some pw') c) pages ims (cur ++ [(t, v)])).
  { destruct I as [I1 I2 I3 I4 Iims Ipg Iok Itot Icur Inum Ist Ibuf Ifirst].
    split; cbn [cw_with_page cw_id cw_type cw_comp cw_enc cw_page cw_stats cw_num_pages cw_buffer cw_first_stats cw_size_wo_stats]; auto.
    - rewrite app_assoc. apply Forall_app. split; [auto|repeat constructor; cbn [fst snd]; auto; apply Ht].
    - rewrite app_assoc, zlen_app, zlen_cons, zlen_nil. lia. }
  assert (L1 : 1 <= zlen (cur ++ [(t, v)]) <= 1048577).
  { rewrite zlen_app, zlen_cons, zlen_nil. pose proof (zlen_nonneg _ cur). lia. }
  destruct (check_page_ok HG _ _ _ _ _ _ _ _ _ I' L1 H1) as (pages' & ims' & cur' & A & B & C).
  exists pages', ims', cur'. split; auto. split; auto. rewrite C, app_assoc. reflexivity.
Qed.

Lemma cw_run_ok : good_snap snap decomp -> forall id dt comp enc pts c pages ims cur c',
  chunk_inv id dt comp enc c pages ims cur -> zlen cur <= 1048576 -> points_ok dt pts ->
  zlen (concat pages ++ cur) + zlen pts < 2 ^ 32 -> cw_run p snap pts c = Ret (inl c') ->
  exists pages' ims' cur', chunk_inv id dt comp enc c' pages' ims' cur' /\ zlen cur' <= 1048576 /\
    concat pages' ++ cur' = (concat pages ++ cur) ++ pts.
Proof.
  intros HG id dt comp enc pts. induction pts as [|[t v] l IH]; intros c pages ims cur c' I Hc Hok Hl H; unfold cw_run in H; cbn [foldM] in H.
  - apply ret_inj in H. inversion H; subst c'. exists pages, ims, cur. rewrite app_nil_r. auto.
  - apply bind_ret in H. destruct H as (s & Hs & H). destruct s as [c1|err].
    + inversion Hok as [|? ? [Ht Hv] Hok']; subst. cbn [fst snd] in *. rewrite zlen_cons in Hl. pose proof (zlen_nonneg _ l).
      destruct (cw_write_ok HG _ _ _ _ _ _ _ _ _ _ _ I Hc Ht Hv ltac:(lia) Hs) as (pg1 & im1 & cu1 & I1 & L1 & E1).
      destruct (IH c1 pg1 im1 cu1 c' I1 L1 Hok') as (pg2 & im2 & cu2 & I2 & L2 & E2).
      * rewrite E1, zlen_app, zlen_cons, zlen_nil. lia.
      * exact H.
      * exists pg2, im2, cu2. split; auto. split; auto. rewrite E2, E1, <- app_assoc. reflexivity.
    + exfalso. clear - H. induction l; cbn [foldM] in H; [apply ret_inj in H; discriminate|]. cbn [bind] in H. auto.
Qed.

Lemma seal_ok : good_snap snap decomp -> forall id dt comp enc c pages ims cur c',
  chunk_inv id dt comp enc c pages ims cur -> zlen cur <= 1048576 ->
  seal_current_page p snap c = Ret c' ->
  exists pages' ims', chunk_inv id dt comp enc c' pages' ims' [] /\ concat pages' = concat pages ++ cur.
Proof.
  intros HG id dt comp enc c pages ims cur c' I Hc H. unfold seal_current_page in H.
  pose proof (ci_cur _ _ _ _ _ _ _ _ I) as IC. destruct (cw_page c) as [pw|] eqn:EP.
  - rewrite (ps_points _ _ _ _ _ IC) in H. destruct (Z.gtb_spec (zlen cur) 0).
    + apply bind_ret in H. destruct H as (r & Hr & H). apply ret_inj in H. subst c'.
      assert (L1 : 1 <= zlen cur <= 1048577) by lia.
      destruct (write_page_ok HG _ _ _ _ _ _ _ _ _ I L1 Hr) as (_ & im & I').
      exists (pages ++ [cur]), (ims ++ [im]). split; auto. rewrite concat_app. cbn [concat]. rewrite app_nil_r. auto.
    + apply ret_inj in H. subst c'. assert (cur = []) by (destruct cur; auto; rewrite zlen_cons in *; pose proof (zlen_nonneg _ cur); lia).
      subst cur. exists pages, ims. rewrite app_nil_r. auto.
  - apply ret_inj in H. subst c'. destruct IC as [-> ->]. exists [], ims. auto.
Qed.

(** reading the buffer of a sealed chunk *)
Lemma buffer_read : forall dt comp enc pages ims, Forall2 (image_ok dt comp enc) pages ims -> Forall (points_ok dt) pages ->
  pages <> [] ->
  exists qs, chunk_data decomp (if zlen pages <=? 1 then 5 else 1) (dtype_code dt) (compression_code comp)
      (encoding_code enc) (buffer_of ims) = Some qs /\
    Forall2 (page_holds p dt (negb (zlen pages <=? 1))) pages qs.
Proof.
  intros dt comp enc pages ims H Hok Hne. destruct H as [|pg im pages ims H1 H]; [congruence|].
  inversion Hok as [|? ? Ok1 Ok2]; subst. destruct H as [|pg2 im2 pages ims H2 H].
  - change (zlen [pg]) with 1. cbn [Z.leb Z.compare Pos.compare Pos.compare_cont negb]. unfold chunk_data. cbn [Z.eqb Pos.eqb buffer_of].
    destruct (page_read_image _ _ _ _ _ false [] Ok1 H1) as (R & _). rewrite app_nil_r in R. rewrite R.
    eexists. split; [reflexivity|]. constructor; [|constructor]. split; reflexivity.
  - set (pgs := pg :: pg2 :: pages) in *. set (imgs := im :: im2 :: ims).
    assert (HH : Forall2 (image_ok dt comp enc) pgs imgs) by (constructor; [exact H1|constructor; auto]).
    replace (zlen pgs <=? 1) with false.
    2: { symmetry. unfold pgs. rewrite !zlen_cons. pose proof (zlen_nonneg _ pages). lia. }
    cbn [negb]. unfold chunk_data. change (1 =? 5) with false. change (1 =? 1) with true. cbn match.
    change (buffer_of imgs) with (concat (map with_stats imgs)).
    assert (Q : exists qs, parts (page_read decomp (dtype_code dt) (compression_code comp) (encoding_code enc) true)
        (concat (map with_stats imgs)) qs /\ Forall2 (page_holds p dt true) pgs qs).
    { clearbody pgs imgs. clear - HH Hok snap p decomp. induction HH as [|pg im pages ims H1 H IH].
      - exists []. split; [apply parts_nil|constructor].
      - inversion Hok as [|? ? Ok1 Ok2]; subst. destruct (IH Ok2) as (qs & (bs & E & F) & HQ).
        exists (mkPage (Some (stat_of (im_stats im))) (tnums pg) :: qs). split.
        + exists (with_stats im :: bs). cbn [map concat]. split; [congruence|]. constructor; auto. split.
          * unfold with_stats. intros E0. apply app_eq_nil in E0. destruct E0 as [E0 _].
            destruct H1 as [_ (ct & _ & C2 & _ & _ & C5)]. rewrite C5 in E0. apply app_eq_nil in E0. destruct E0 as [E0 _].
            pose proof (var_u32_len (zlen ct)) as L. pose proof (zlen_nonneg _ ct). rewrite E0, zlen_nil in L. lia.
          * intros rest. apply (page_read_image _ _ _ _ _ true rest Ok1 H1).
        + constructor; auto. split; [reflexivity|]. exists (stat_of (im_stats im)), (im_stats im). split; [auto|].
          split; [apply H1|]. apply (page_read_image _ _ _ _ _ true [] Ok1 H1). }
    destruct Q as (qs & Q1 & Q2). exists qs. split; auto. apply parts_many; auto.
Qed.
End Chunk.

(** ** Release builds never panic on well-typed points *)
Lemma ts2_flush_rel : forall k e, exists e', ts2_flush Release k e = Ret e'.
Proof.
  intros. unfold ts2_flush. destruct (t_first e); [|eauto].
  rewrite (mapM_ok _ _ _ (fun d => wrapS (kbits k) (d - t_min e))).
  - cbn [bind]. fold (rel_deltas k (t_min e) (t_values e)).
    destruct (rel_pack k (t_min e) (t_values e)) as (pl & Q & _). rewrite Q. cbn [bind]. eauto.
  - intros. apply arithS_release. apply kbits_pos.
Qed.
Lemma ts2_write_rel : forall k v e, exists e', ts2_write Release k v e = Ret e'.
Proof.
  intros. unfold ts2_write. destruct (t_first e).
  - rewrite arithS_release by apply kbits_pos. cbn [bind]. destruct (_ =? 128); [apply ts2_flush_rel|eauto].
  - cbn [bind]. destruct (_ =? 128); [apply ts2_flush_rel|eauto].
Qed.
Lemma encoder_write_rel : forall v e, exists r, encoder_write Release v e = Ret r.
Proof.
  intros. destruct e; cbn [encoder_write]; [eauto|]. destruct (as_kind k v); [|eauto].
  destruct (ts2_write_rel k z e) as [e' ->]. cbn. eauto.
Qed.
Lemma encoder_serialize_rel : forall e, exists r, encoder_serialize Release e = Ret r.
Proof.
  intros. destruct e; cbn [encoder_serialize]; [eauto|]. unfold ts2_serialize.
  destruct (ts2_flush_rel k e) as [e' ->]. cbn. eauto.
Qed.
Lemma pw_estimate_rel : forall w, exists n, pw_estimate Release w = Ret n.
Proof. intros. unfold pw_estimate. rewrite !arithU_release by lia. cbn [bind]. rewrite !arithU_release by lia. cbn [bind]. rewrite !arithU_release by lia. eauto. Qed.
Lemma pw_prepare_rel : forall w, exists w', pw_prepare Release w = Ret w'.
Proof.
  intros. unfold pw_prepare, ts2_serialize. destruct (ts2_flush_rel KLong (pw_time w)) as [e' ->]. cbn [bind].
  destruct (encoder_serialize_rel (pw_value w)) as [r ->]. cbn. eauto.
Qed.
Lemma pw_write_rel : forall dt enc pts w t v, page_state Release dt enc pts w -> points_ok dt pts -> value_ok dt v ->
  zlen pts + 1 < 2 ^ 32 -> exists w', pw_write Release t v w = Ret w'.
Proof.
  intros dt enc pts w t v S Hok Hv Hl. unfold pw_write.
  destruct (ts2_write_rel KLong t (pw_time w)) as [te ->]. cbn [bind].
  destruct (encoder_write_rel v (pw_value w)) as [ve ->]. cbn [bind].
  destruct (st_update_total Release dt pts (pw_stats w) t v) as [st ->]; auto.
  { apply (page_inv Release); auto. apply (ps_stats _ _ _ _ _ S). }
  cbn [bind]. rewrite arithU_release by lia. cbn [bind]. eauto.
Qed.
Lemma write_page_rel : forall snap decomp id dt comp enc c pages ims cur,
  chunk_inv Release decomp id dt comp enc c pages ims cur ->
  exists r, write_page_to_buffer Release snap c = Ret r.
Proof.
  intros snap decomp id dt comp enc c pages ims cur I. unfold write_page_to_buffer.
  pose proof (ci_cur _ _ _ _ _ _ _ _ _ _ I) as IC. destruct (cw_page c) as [pw0|]; [|eauto].
  destruct (pw_prepare_rel pw0) as [pw Hp]. rewrite Hp. cbn [bind].
  assert (ST : pw_stats pw = pw_stats pw0).
  { unfold pw_prepare in Hp. apply bind_ret in Hp. destruct Hp as (? & _ & Hp). apply bind_ret in Hp.
    destruct Hp as (? & _ & Hp). apply ret_inj in Hp. subst pw. reflexivity. }
  match goal with |- context [match ?m with None => Ret _ | _ => _ end] => destruct m as [[content cb]|] end; [|eauto].
  cbv zeta.
  match goal with |- context [bind ?m _] => assert (Q : exists b, m = Ret b) end.
  { pose proof (ci_num _ _ _ _ _ _ _ _ _ _ I) as N. pose proof (ci_first _ _ _ _ _ _ _ _ _ _ I) as F.
    pose proof (ci_buf _ _ _ _ _ _ _ _ _ _ I) as B.
    pose proof (Forall2_len _ _ _ _ _ (ci_ims _ _ _ _ _ _ _ _ _ _ I)) as L.
    destruct (cw_num_pages c =? 0); [eauto|]. destruct (Z.eqb_spec (cw_num_pages c) 1) as [E|]; [|eauto].
    rewrite E in N. unfold zlen in N. destruct ims as [|im [|im2 ims]]; cbn [length] in L; try lia.
    destruct F as [F1 F2]. rewrite F1, F2, B. cbn [buffer_of]. rewrite zlen_app. pose proof (zlen_nonneg _ (im_body im)).
    replace (zlen (im_head im) <=? zlen (im_head im) + zlen (im_body im)) with true by lia. eauto. }
  destruct Q as [[[b f] s] Q]. rewrite Q. cbn [bind]. rewrite arithU_release by lia. cbn [bind]. rewrite ST.
  destruct (st_merge_total Release dt (concat pages) cur (cw_stats c) (pw_stats pw0)) as [st Hs].
  - rewrite <- chunk_tree_points. apply (tree_inv Release).
    + rewrite chunk_tree_points. pose proof (ci_ok _ _ _ _ _ _ _ _ _ _ I) as K. apply Forall_app in K. tauto.
    + apply (ci_stats _ _ _ _ _ _ _ _ _ _ I).
  - apply (page_inv Release). pose proof (ci_ok _ _ _ _ _ _ _ _ _ _ I) as K. apply Forall_app in K. tauto. apply IC.
  - rewrite <- zlen_app. apply (ci_total _ _ _ _ _ _ _ _ _ _ I).
  - rewrite Hs. cbn [bind]. eauto.
Qed.
Lemma check_page_rel : forall snap decomp id dt comp enc c pages ims cur,
  chunk_inv Release decomp id dt comp enc c pages ims cur ->
  exists r, check_page_size Release snap c = Ret r.
Proof.
  intros snap decomp id dt comp enc c pages ims cur I. unfold check_page_size.
  destruct (write_page_rel snap _ _ _ _ _ _ _ _ _ I) as [r Hr]. rewrite Hr. cbn [bind].
  destruct (cw_page c) as [pw|]; [|eauto]. destruct (_ >? _); [eauto|]. destruct (_ >=? _); [|eauto].
  destruct (pw_estimate_rel pw) as [n ->]. cbn [bind]. destruct (n >? _); eauto.
Qed.
Lemma cw_write_rel : forall snap decomp id dt comp enc c pages ims cur t v,
  chunk_inv Release decomp id dt comp enc c pages ims cur -> col_ok dt enc ->
  i64_min <= t <= i64_max -> value_ok dt v -> zlen (concat pages ++ cur) + 1 < 2 ^ 32 ->
  exists c', cw_write Release snap t v c = Ret (inl c').
Proof.
  intros snap decomp id dt comp enc c pages ims cur t v I Hcol Ht Hv Hl. unfold cw_write.
  pose proof (ci_cur _ _ _ _ _ _ _ _ _ _ I) as IC.
  assert (Q : exists pw, (match cw_page c with Some pw => inl pw | None => pw_new (cw_type c) (cw_enc c) end) = inl pw /\
    page_state Release dt enc cur pw).
  { destruct (cw_page c) as [pw|]; [eauto|]. destruct IC as [-> _].
    rewrite (ci_type _ _ _ _ _ _ _ _ _ _ I), (ci_enc _ _ _ _ _ _ _ _ _ _ I).
    assert (exists w, pw_new dt enc = inl w) as [w W].
    { unfold pw_new. destruct dt, enc; cbn; eauto. exfalso. apply Hcol. auto. }
    exists w. split; auto. apply page_state_new; auto. }
  destruct Q as (pw & -> & PS). rewrite zlen_app in Hl. pose proof (zlen_nonneg _ (concat pages)).
  pose proof (ci_ok _ _ _ _ _ _ _ _ _ _ I) as K. apply Forall_app in K. destruct K as [K1 K2].
  destruct (pw_write_rel dt enc cur pw t v PS K2 Hv ltac:(lia)) as [pw' Hw]. rewrite Hw. cbn [bind].
  pose proof (page_state_write _ _ _ _ _ _ _ _ PS Hv ltac:(lia) Hw) as PS'.
  assert (I' : chunk_inv Release decomp id dt comp enc (cw_with_page (Some pw') c) pages ims (cur ++ [(t, v)])).
  { destruct I as [I1 I2 I3 I4 Iims Ipg Iok Itot Icur Inum Ist Ibuf Ifirst].
    split; cbn [cw_with_page cw_id cw_type cw_comp cw_enc cw_page cw_stats cw_num_pages cw_buffer cw_first_stats cw_size_wo_stats]; auto.
    - rewrite app_assoc. apply Forall_app. split; [auto|repeat constructor; cbn [fst snd]; auto; apply Ht].
    - rewrite app_assoc, !zlen_app, zlen_cons, zlen_nil. lia. }
  destruct (check_page_rel snap _ _ _ _ _ _ _ _ _ I') as [r ->]. cbn [bind]. eauto.
Qed.
Lemma seal_rel : forall snap decomp id dt comp enc c pages ims cur,
  chunk_inv Release decomp id dt comp enc c pages ims cur ->
  exists r, seal_current_page Release snap c = Ret r.
Proof.
  intros snap decomp id dt comp enc c pages ims cur I. unfold seal_current_page.
  destruct (write_page_rel snap _ _ _ _ _ _ _ _ _ I) as [r Hr]. rewrite Hr. cbn [bind].
  destruct (cw_page c) as [pw|]; [|eauto]. destruct (_ >? _); eauto.
Qed.

(** ** C13, C14 *)
Lemma cw_run_snoc : forall p snap pts tv c,
  cw_run p snap (pts ++ [tv]) c =
  (let* s := cw_run p snap pts c in
   match s with inl c => cw_write p snap (fst tv) (snd tv) c | inr e => Ret (inr e) end).
Proof. intros. unfold cw_run. rewrite foldM_snoc. reflexivity. Qed.

Lemma chunk_session : forall p snap decomp id dt comp enc pts c, good_snap snap decomp -> points_ok dt pts ->
  zlen pts < 2 ^ 32 -> cw_session p snap id dt comp enc pts = Ret (inl c) ->
  exists pages ims, chunk_inv p decomp id dt comp enc c pages ims [] /\ concat pages = pts.
Proof.
  intros p snap decomp id dt comp enc pts c HG Hok Hl H. unfold cw_session in H. apply bind_ret in H.
  destruct H as (s & Hs & H). destruct s as [c1|]; [|discriminate]. apply bind_ret in H. destruct H as (c2 & Hc & H).
  apply ret_inj in H. assert (c2 = c) by congruence. subst c2. clear H.
  destruct (cw_run_ok p snap decomp HG id dt comp enc pts _ [] [] [] c1 (chunk_inv_new p decomp id dt comp enc)) as (pg & im & cu & I & L & E); auto.
  { rewrite zlen_nil. lia. }
  destruct (seal_ok p snap decomp HG _ _ _ _ _ _ _ _ _ I L Hc) as (pg' & im' & I' & E').
  exists pg', im'. split; auto. rewrite E', E. reflexivity.
Qed.

Lemma points_ok_concat : forall dt pages, points_ok dt (concat pages) -> Forall (points_ok dt) pages.
Proof.
  intros dt pages. induction pages; cbn; intros H; [constructor|]. apply Forall_app in H. constructor; tauto.
Qed.

Lemma chunk_faithful : forall p snap decomp id dt comp enc pts c, good_snap snap decomp -> points_ok dt pts ->
  pts <> [] -> zlen pts < 2 ^ 32 -> cw_session p snap id dt comp enc pts = Ret (inl c) ->
  exists pages qs, concat pages = pts /\ Forall (fun pg => 1 <= zlen pg <= 1048577) pages /\
    cw_num_pages c = zlen pages /\
    chunk_data decomp (if zlen pages <=? 1 then 5 else 1) (dtype_code dt) (compression_code comp) (encoding_code enc)
      (cw_buffer c) = Some qs /\
    Forall2 (page_holds p dt (negb (zlen pages <=? 1))) pages qs /\
    tree_stats p dt (chunk_tree pages) = Ret (cw_stats c).
Proof.
  intros p snap decomp id dt comp enc pts c HG Hok Hne Hl H.
  destruct (chunk_session _ _ _ _ _ _ _ _ _ HG Hok Hl H) as (pages & ims & I & E).
  assert (Hpg : pages <> []) by (intros ->; cbn in E; congruence).
  rewrite <- E in Hok.
  destruct (buffer_read p snap decomp dt comp enc pages ims (ci_ims _ _ _ _ _ _ _ _ _ _ I) (points_ok_concat _ _ Hok) Hpg) as (qs & Q1 & Q2).
  exists pages, qs. split; [auto|]. split; [apply I|]. split; [apply I|]. rewrite (ci_buf _ _ _ _ _ _ _ _ _ _ I).
  split; [auto|]. split; [auto|]. apply I.
Qed.

Lemma chunk_release_total : forall snap decomp id dt comp enc pts, good_snap snap decomp -> points_ok dt pts ->
  zlen pts < 2 ^ 32 -> ~ (dt = FLOAT /\ enc = TS2DIFF) ->
  exists c, cw_session Release snap id dt comp enc pts = Ret (inl c).
Proof.
  intros snap decomp id dt comp enc pts HG Hok Hl Hcol.
  assert (R : forall pts, points_ok dt pts -> zlen pts < 2 ^ 32 -> exists c pg im cu, cw_run Release snap pts (cw_new id dt comp enc) = Ret (inl c) /\
     chunk_inv Release decomp id dt comp enc c pg im cu /\ zlen cu <= 1048576 /\ concat pg ++ cu = pts).
  { clear pts Hok Hl. induction pts as [|[t v] l IH] using rev_ind; intros Hok Hl.
    - exists (cw_new id dt comp enc), [], [], []. split; [reflexivity|]. split; [apply chunk_inv_new|]. rewrite zlen_nil. split; [lia|auto].
    - apply Forall_app in Hok. destruct Hok as [Hok Hx]. inversion Hx as [|? ? [Ht Hv] _]; subst. cbn [fst snd] in *.
      rewrite zlen_app, zlen_cons, zlen_nil in Hl. destruct IH as (c & pg & im & cu & Hr & I & L & E); [auto|lia|].
      rewrite cw_run_snoc, Hr. cbn [bind fst snd].
      destruct (cw_write_rel snap _ _ _ _ _ _ _ _ _ t v I Hcol Ht Hv ltac:(rewrite E; lia)) as [c' Hc]. exists c'.
      destruct (cw_write_ok Release snap decomp HG _ _ _ _ _ _ _ _ _ _ _ I L Ht Hv ltac:(rewrite E; lia) Hc) as (pg' & im' & cu' & I' & L' & E').
      exists pg', im', cu'. rewrite E', E. auto. }
  destruct (R pts Hok Hl) as (c & pg & im & cu & Hr & I & L & E). unfold cw_session. rewrite Hr. cbn [bind].
  destruct (seal_rel snap _ _ _ _ _ _ _ _ _ I) as [c' Hc]. rewrite Hc. cbn [bind]. eauto.
Qed.
Lemma pages_bounded : forall p snap decomp id dt comp enc pts c, good_snap snap decomp ->
  points_ok dt pts -> zlen pts < 2 ^ 32 -> cw_run p snap pts (cw_new id dt comp enc) = Ret (inl c) ->
  exists pages cur, concat pages ++ cur = pts /\ cw_num_pages c = zlen pages /\
    Forall (fun pg => 1 <= zlen pg <= 1048577) pages /\
    match cw_page c with Some w => pw_points w = zlen cur | None => cur = [] end /\ zlen cur <= 1048576 /\
    (pages <> [] -> exists qs, chunk_data decomp (if zlen pages <=? 1 then 5 else 1) (dtype_code dt)
        (compression_code comp) (encoding_code enc) (cw_buffer c) = Some qs /\
      map (fun q => zlen (pg_points q)) qs = map zlen pages).
Proof.
  intros p snap decomp id dt comp enc pts c HG Hok Hl H.
  destruct (cw_run_ok p snap decomp HG id dt comp enc pts _ [] [] [] c (chunk_inv_new p decomp id dt comp enc)) as (pg & im & cu & I & L & E); auto.
  { rewrite zlen_nil. lia. }
  cbn [concat app] in E. exists pg, cu. split; [auto|]. split; [apply I|]. split; [apply I|]. split; [|split; [auto|]].
  - pose proof (ci_cur _ _ _ _ _ _ _ _ _ _ I) as IC. destruct (cw_page c); [apply IC|tauto].
  - intros Hne. rewrite (ci_buf _ _ _ _ _ _ _ _ _ _ I).
    assert (K : Forall (points_ok dt) pg). { apply points_ok_concat. rewrite <- E in Hok. apply Forall_app in Hok. tauto. }
    destruct (buffer_read p snap decomp dt comp enc pg im (ci_ims _ _ _ _ _ _ _ _ _ _ I) K Hne) as (qs & Q1 & Q2).
    exists qs. split; auto. clear - Q2. induction Q2 as [|x y l l' [A _] Q IH]; cbn; auto. rewrite A. f_equal; auto.
    unfold zlen, tnums. rewrite map_length. reflexivity.
Qed.
