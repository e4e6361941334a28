(** A chunk writer whose compressor may fail: C47. *)
From Verif Require Export PChunk SComp.
Ltac Zify.zify_post_hook ::= idtac.

(** ** TS_2DIFF encoders that were flushed early (a page that could not be compressed) *)
Definition ts2_pre (pre : list Z) (e : ts2) : ts2 :=
  {| t_first := t_first e; t_min := t_min e; t_prev := t_prev e; t_values := t_values e; t_buf := pre ++ t_buf e |}.
Lemma flush_pre : forall p k pre e, ts2_flush p k (ts2_pre pre e) = (let* e' := ts2_flush p k e in Ret (ts2_pre pre e')).
Proof.
  intros. unfold ts2_flush. cbn [ts2_pre t_first t_min t_values t_buf]. destruct (t_first e); [|reflexivity].
  destruct (mapM _ _); cbn [bind]; [|reflexivity]. destruct (pack_loop _ _ _ _ _); cbn [bind]; [|reflexivity].
  unfold ts2_pre. cbn [t_first t_min t_prev t_values t_buf]. rewrite <- !app_assoc. reflexivity.
Qed.
Lemma write_pre : forall p k v pre e, ts2_write p k v (ts2_pre pre e) = (let* e' := ts2_write p k v e in Ret (ts2_pre pre e')).
Proof.
  intros. unfold ts2_write. cbn [ts2_pre t_first t_min t_prev t_values t_buf]. destruct (t_first e).
  - destruct (arithS p (kbits k) (v - t_prev e)) as [d|]; cbn [bind]; [|reflexivity].
    cbn [t_values]. destruct (_ =? 128); [|reflexivity]. rewrite <- flush_pre. reflexivity.
  - cbn [bind t_values]. destruct (_ =? 128); [|reflexivity]. rewrite <- flush_pre. reflexivity.
Qed.

Record ts2_holds (p : profile) (k : ts2kind) (e : ts2) (vs : list Z) : Prop := {
  th_rep : exists pre old e0 done cur, e = ts2_pre pre e0 /\ parts (ts2_block (Z.of_nat (kbytes k))) pre old /\
    ts2_rep p k e0 done cur /\ vs = concat old ++ concat done ++ cur;
  th_bytes : bytes (t_buf e);
  th_size : zlen (t_buf e) + 24 * pending e <= 24 * zlen vs;
  th_vals : t_first e = None -> t_values e = [] }.

Lemma parts_app : forall A (q : parser A) l1 xs1 l2 xs2, parts q l1 xs1 -> parts q l2 xs2 -> parts q (l1 ++ l2) (xs1 ++ xs2).
Proof.
  intros A q l1 xs1 l2 xs2 (b1 & E1 & F1) (b2 & E2 & F2). exists (b1 ++ b2). split.
  - rewrite concat_app. congruence.
  - apply Forall2_app; auto.
Qed.
Lemma holds_new : forall p k, ts2_holds p k (ts2_new k) [].
Proof.
  intros. split; cbn [ts2_new t_first t_values t_buf]; auto; try constructor.
  - exists [], [], (ts2_new k), [], []. split; [reflexivity|]. split; [apply parts_nil|]. split; [apply rep_new|reflexivity].
  - unfold pending. cbn [ts2_new t_first t_buf]. rewrite !zlen_nil. lia.
Qed.
Lemma holds_write : forall p k e vs v e', ts2_holds p k e vs -> signed_in (kbits k) v ->
  ts2_write p k v e = Ret e' -> ts2_holds p k e' (vs ++ [v]).
Proof.
  intros p k e vs v e' [(pre & old & e0 & done & cur & -> & P & R & E) B S V] Hv H.
  destruct (ts2_write_size _ _ _ _ _ _ H B S V) as (B' & S' & V').
  split; auto; [|rewrite zlen_app, zlen_cons, zlen_nil; lia].
  rewrite write_pre in H. apply bind_ret in H. destruct H as (e1 & H1 & H). apply ret_inj in H. subst e'.
  destruct (write_spec p k e0 done cur v R Hv) as [_ W]. destruct (W e1 H1) as [[_ R1]|[_ R1]].
  - exists pre, old, e1, done, (cur ++ [v]). split; [auto|]. split; [auto|]. split; [auto|]. rewrite E, <- !app_assoc. reflexivity.
  - exists pre, old, e1, (done ++ [cur ++ [v]]), []. split; [auto|]. split; [auto|]. split; [auto|].
    rewrite E, concat_app. cbn [concat]. rewrite !app_nil_r, <- !app_assoc. reflexivity.
Qed.
(** [serialize] yields bytes that decode to everything held; the encoder still holds it. *)
Lemma holds_serialize : forall p k e vs r, ts2_holds p k e vs -> ts2_serialize p k e = Ret r ->
  ts2_decode (Z.of_nat (kbytes k)) (snd r) = Some vs /\ bytes (snd r) /\ zlen (snd r) <= 24 * zlen vs /\
  ts2_holds p k (fst r) vs.
Proof.
  intros p k e vs r [(pre & old & e0 & done & cur & -> & P & R & E) B S V] H. unfold ts2_serialize in H.
  apply bind_ret in H. destruct H as (e1 & H1 & H). apply ret_inj in H. subst r. cbn [fst snd].
  pose proof (flush_size _ _ _ _ H1 B) as (B1 & S1 & Z1 & N1).
  rewrite flush_pre in H1. apply bind_ret in H1. destruct H1 as (e2 & H2 & H1). apply ret_inj in H1. subst e1.
  assert (Q : exists bs, parts (ts2_block (Z.of_nat (kbytes k))) (t_buf e2) bs /\ concat bs = concat done ++ cur /\
    t_first e2 = None /\ t_values e2 = [] /\ t_min e2 = kmax k).
  { destruct cur as [|f cur].
    - unfold ts2_flush in H2. rewrite (r_first _ _ _ _ _ R) in H2. cbn in H2. apply ret_inj in H2. subst e2.
      exists done. split; [apply R|]. rewrite app_nil_r. split; [auto|]. split; [apply (r_first _ _ _ _ _ R)|].
      pose proof (r_vals _ _ _ _ _ R) as RV. cbn in RV. split; [auto|]. rewrite (r_min _ _ _ _ _ R), RV. reflexivity.
    - destruct (flush_spec p k e0 done (f :: cur)) as [_ F]; [left; auto|discriminate|].
      destruct (F e2 H2) as (_ & F1 & F2 & F3 & F4). exists (done ++ [f :: cur]). split; auto.
      rewrite concat_app. cbn [concat]. rewrite app_nil_r. auto. }
  destruct Q as (bs & Q1 & Q2 & Q3 & Q4 & Q5).
  pose proof (parts_app _ _ _ _ _ _ P Q1) as PP. cbn [ts2_pre t_buf] in *.
  split; [|split; [auto|split; [lia|]]].
  - unfold ts2_decode. rewrite (parts_many _ _ _ _ _ PP) by lia. rewrite concat_app, Q2, E. reflexivity.
  - split; cbn [ts2_pre t_buf t_first t_values]; auto; [|lia].
    exists (pre ++ t_buf e2), (old ++ bs), {| t_first := None; t_min := kmax k; t_prev := t_prev e2; t_values := []; t_buf := [] |}, [], [].
    split; [unfold ts2_pre; cbn [t_first t_min t_prev t_values t_buf]; rewrite app_nil_r; congruence|].
    split; [auto|]. split; [|rewrite concat_app, Q2, E; cbn [concat]; rewrite !app_nil_r; reflexivity].
    split; cbn; auto; try lia; try congruence; [|apply parts_nil]. right. constructor.
Qed.

(** ** Value columns *)
Definition col_holds (p : profile) (dt : dtype) (enc : encoding) (e : encoder) (vs : list value) : Prop :=
  match e with
  | EncPlain dt' buf => enc = PLAIN /\ dt' = dt /\ buf = concat (map plain_bytes vs)
  | EncTs2 k t => enc = TS2DIFF /\ dt = kdtype k /\ ts2_holds p k t (map value_num vs)
  end.
Lemma col_new : forall p dt enc e, encoder_new dt enc = inl e -> col_holds p dt enc e [].
Proof. intros p dt enc e H. destruct dt, enc; inversion H; subst; (split; [reflexivity|split; [reflexivity|first [reflexivity|apply holds_new]]]). Qed.
Lemma col_write : forall p dt enc e vs v r, col_holds p dt enc e vs -> value_ok dt v -> encoder_write p v e = Ret r ->
  col_holds p dt enc (fst r) (vs ++ [v]).
Proof.
  intros p dt enc e vs v r I Hv H. destruct e; cbn [encoder_write] in H.
  - apply ret_inj in H. subst r. destruct I as (A & B & C). cbn [fst col_holds]. repeat (split; auto).
    rewrite map_app, concat_app. cbn. rewrite app_nil_r. congruence.
  - destruct I as (A & B & C). subst dt. destruct (value_ok_kind k v Hv) as [E S]. rewrite E in H.
    apply bind_ret in H. destruct H as (t' & H1 & H). apply ret_inj in H. subst r. cbn [fst col_holds].
    split; [auto|]. split; [auto|]. rewrite map_app. cbn [map]. eapply holds_write; eauto.
Qed.
Lemma col_serialize : forall p dt enc e vs r, col_holds p dt enc e vs -> Forall (value_ok dt) vs -> encoder_serialize p e = Ret r ->
  column_decode (dtype_code dt) (encoding_code enc) (snd r) = Some (map value_num vs) /\ bytes (snd r) /\
  zlen (snd r) <= 24 * zlen vs /\ col_holds p dt enc (fst r) vs.
Proof.
  intros p dt enc e vs r I Hv H. destruct e; cbn [encoder_serialize] in H.
  - apply ret_inj in H. subst r. cbn [fst snd]. pose proof I as (A & B & C). subst enc dt0 buf.
    destruct (plain_size dt vs Hv) as [S1 S2]. split; [|auto]. unfold column_decode. cbn [encoding_code Z.eqb].
    apply plain_decode_spec; auto.
  - destruct I as (A & B & C). subst enc dt. apply bind_ret in H. destruct H as (x & Hx & H). apply ret_inj in H. subst r.
    cbn [fst snd col_holds]. destruct (holds_serialize _ _ _ _ _ C Hx) as (D1 & D2 & D3 & D4).
    replace (zlen (map value_num vs)) with (zlen vs) in D3 by (unfold zlen; rewrite map_length; auto).
    split; [destruct k; exact D1|]. auto.
Qed.

(** ** Pages *)
Record page_holding (p : profile) (dt : dtype) (enc : encoding) (pts : list (Z * value)) (w : page_writer) : Prop := {
  ph_time : ts2_holds p KLong (pw_time w) (times pts);
  ph_value : col_holds p dt enc (pw_value w) (map snd pts);
  ph_shape : encoder_new dt enc = inl (encoder_reset (pw_value w));
  ph_stats : page_stats p dt pts = Ret (pw_stats w);
  ph_type : pw_type w = dt;
  ph_points : pw_points w = zlen pts }.

Lemma holding_new : forall p dt enc w, pw_new dt enc = inl w -> page_holding p dt enc [] w.
Proof.
  intros p dt enc w H. unfold pw_new in H. destruct (encoder_new dt enc) eqn:E; [|discriminate].
  inversion H; subst w. split; cbn [pw_time pw_value pw_stats pw_type pw_points times map]; auto.
  - apply holds_new.
  - apply col_new; auto.
  - rewrite (encoder_new_shape _ _ _ E). auto.
Qed.
Lemma holding_write : forall p dt enc pts w t v w', page_holding p dt enc pts w -> value_ok dt v ->
  i64_min <= t <= i64_max -> zlen pts + 1 < 2 ^ 32 -> pw_write p t v w = Ret w' ->
  page_holding p dt enc (pts ++ [(t, v)]) w'.
Proof.
  intros p dt enc pts w t v w' [A B0 B C D F] Hv Ht Hl H. unfold pw_write in H.
  apply bind_ret in H. destruct H as (te & Hte & H). apply bind_ret in H. destruct H as (ve & He & H).
  apply bind_ret in H. destruct H as (st & Hst & H). apply bind_ret in H. destruct H as (n & Hn & H).
  apply ret_inj in H. subst w'. split; cbn [pw_time pw_value pw_type pw_stats pw_points pw_buffer]; auto.
  - unfold times in *. rewrite map_app. cbn [map fst]. eapply holds_write; eauto. red. cbn. unfold i64_min, i64_max in Ht. lia.
  - rewrite map_app. cbn [map snd]. eapply col_write; eauto.
  - rewrite (encoder_write_shape _ _ _ _ He). auto.
  - unfold page_stats in *. rewrite foldM_snoc, C. exact Hst.
  - rewrite zlen_app, zlen_cons, zlen_nil. rewrite F in Hn. rewrite arithU_ok in Hn by (pose proof (zlen_nonneg _ pts); lia).
    apply ret_inj in Hn. lia.
Qed.
Definition max_points : Z := 67108864.
Lemma holding_prepare : forall p dt enc pts w w', page_holding p dt enc pts w -> points_ok dt pts ->
  zlen pts <= max_points -> pw_prepare p w = Ret w' ->
  page_points (dtype_code dt) (encoding_code enc) (pw_buffer w') = Some (tnums pts) /\
  bytes (pw_buffer w') /\ zlen (pw_buffer w') <= 5 + 48 * zlen pts /\ pw_stats w' = pw_stats w /\
  page_holding p dt enc pts w' /\ page_holding p dt enc [] (pw_reset {| pw_time := pw_time w'; pw_value := pw_value w'; pw_type := pw_type w';
                        pw_stats := pw_stats w'; pw_points := pw_points w'; pw_buffer := [] |}).
Proof.
  intros p dt enc pts w w' [A B0 B C D F] Hok Hl H. unfold max_points in Hl. unfold pw_prepare in H.
  apply bind_ret in H. destruct H as (rt & Ht & H). apply bind_ret in H. destruct H as (rv & Hv & H).
  apply ret_inj in H. subst w'. cbn [pw_time pw_value pw_type pw_stats pw_points pw_buffer].
  destruct (holds_serialize _ _ _ _ _ A Ht) as (T3 & T1 & T2 & T4). pose proof (points_ok_values _ _ Hok) as Hvs.
  destruct (col_serialize _ _ _ _ _ _ B0 Hvs Hv) as (V3 & V1 & V2 & V4).
  assert (L1 : zlen (times pts) = zlen pts) by (unfold zlen, times; rewrite map_length; auto).
  assert (L2 : zlen (map snd pts) = zlen pts) by (unfold zlen; rewrite map_length; auto).
  rewrite L1 in T2. rewrite L2 in V2. pose proof (zlen_nonneg _ (snd rt)) as N1. pose proof (zlen_nonneg _ pts).
  rewrite wrapU_small by lia.
  split; [|split; [|split; [|split; [auto|split]]]].
  - unfold page_points. rewrite var_u32_roundtrip by lia. rewrite take_app. change 8 with (Z.of_nat (kbytes KLong)).
    rewrite T3, V3. replace (Nat.eqb _ _) with true; [rewrite combine_tnums; reflexivity|].
    symmetry. apply Nat.eqb_eq. unfold times. rewrite !map_length. reflexivity.
  - repeat apply bytes_app2; auto. apply var_u32_bytes. lia.
  - rewrite !zlen_app. destruct (var_u32_len (zlen (snd rt)) ltac:(lia)) as [Lv _]. lia.
  - split; cbn [pw_time pw_value pw_type pw_stats pw_points pw_buffer]; auto.
    rewrite (encoder_serialize_shape _ _ _ Hv). auto.
  - apply holding_new. unfold pw_new, pw_reset. rewrite B. cbn [pw_time pw_value pw_type pw_stats pw_points pw_buffer].
    rewrite (encoder_serialize_shape _ _ _ Hv). rewrite D. reflexivity.
Qed.

(** ** Chunks *)
Section Chunk.
Variable p : profile.
Variable snap decomp : list Z -> option (list Z).
Notation image_ok := (image_ok p decomp).

Record chunk_held (id : list Z) (dt : dtype) (comp : compression) (enc : encoding)
    (c : chunk_writer) (pages : list (list (Z * value))) (ims : list image) (cur : list (Z * value)) : Prop := {
  h_id : cw_id c = id;
  h_type : cw_type c = dt;
  h_comp : cw_comp c = comp;
  h_enc : cw_enc c = enc;
  h_ims : Forall2 (image_ok dt comp enc) pages ims;
  h_pages : Forall (fun pg => 1 <= zlen pg) pages;
  h_ok : points_ok dt (concat pages ++ cur);
  h_total : zlen (concat pages ++ cur) <= max_points;
  h_cur : match cw_page c with Some w => page_holding p dt enc cur w | None => cur = [] /\ pages = [] end;
  h_num : cw_num_pages c = zlen pages;
  h_stats : tree_stats p dt (chunk_tree pages) = Ret (cw_stats c);
  h_buf : cw_buffer c = buffer_of ims;
  h_first : match ims with
             | [] => cw_size_wo_stats c = 0
             | [im] => cw_first_stats c = Some (im_stats im) /\ cw_size_wo_stats c = zlen (im_head im)
             | _ => True
             end }.

Lemma held_new : forall id dt comp enc, chunk_held id dt comp enc (cw_new id dt comp enc) [] [] [].
Proof. intros. split; cbn; auto; try apply Forall_nil; try apply Forall2_nil. discriminate. Qed.
Lemma held_pages_le : forall pages : list (list (Z * value)), Forall (fun pg => 1 <= zlen pg) pages ->
  zlen pages <= zlen (concat pages).
Proof. induction 1; cbn [concat]; [rewrite !zlen_nil; lia|]. rewrite zlen_cons, zlen_app. lia. Qed.
Lemma held_next : forall n id dt comp enc c pages ims cur, chunk_held id dt comp enc c pages ims cur ->
  chunk_held id dt comp enc (cw_with_next n c) pages ims cur.
Proof. intros n id dt comp enc c pages ims cur I. destruct I. split; auto. Qed.

Lemma write_page_held : fair_snap snap decomp -> forall id dt comp enc c pages ims cur r,
  chunk_held id dt comp enc c pages ims cur -> 1 <= zlen cur ->
  write_page_to_buffer p snap c = Ret r ->
  (snd r = true /\ exists im, chunk_held id dt comp enc (fst r) (pages ++ [cur]) (ims ++ [im]) []) \/
  (snd r = false /\ comp = SNAPPY /\ rejects snap dt enc cur /\ chunk_held id dt comp enc (fst r) pages ims cur).
Proof.
  intros HG id dt comp enc c pages ims cur r I Hc H. pose proof I as IALL.
  destruct I as [I1 I2 I3 I4 Iims Ipg Iok Itot Icur Inum Ist Ibuf Ifirst].
  unfold write_page_to_buffer in H. destruct (cw_page c) as [pw0|] eqn:EP.
  2: { destruct Icur as [-> _]. rewrite zlen_nil in Hc. lia. }
  apply bind_ret in H. destruct H as (pw & Hpw & H).
  assert (Hok : points_ok dt cur) by (apply Forall_app in Iok; tauto).
  assert (Hmax : zlen cur <= max_points) by (rewrite zlen_app in Itot; pose proof (zlen_nonneg _ (concat pages)); lia).
  destruct (holding_prepare _ _ _ _ _ _ Icur Hok Hmax Hpw) as (P1 & P2 & P3 & P4 & P6 & P5).
  unfold max_points in *.
  pose proof (zlen_nonneg _ (pw_buffer pw)) as Nb.
  rewrite (wrapU_small 32 (zlen (pw_buffer pw))) in H by lia.
  match type of H with match ?m with _ => _ end = _ => set (cmp := m) in H end.
  assert (CM : (cmp = None /\ comp = SNAPPY /\ snap (pw_buffer pw) = None) \/
    exists body, cmp = Some (body, zlen body) /\ zlen body < 2 ^ 32 /\ zlen body <= 38 + 56 * zlen cur /\
    uncompress decomp (compression_code comp) (zlen (pw_buffer pw)) body = Some (pw_buffer pw)).
  { unfold cmp. rewrite I3. destruct comp.
    - right. eexists. split; [reflexivity|]. split; [lia|]. split; [lia|]. unfold uncompress. cbn [compression_code Z.eqb].
      fold (zlen (pw_buffer pw)). rewrite Z.eqb_refl. reflexivity.
    - destruct (snap (pw_buffer pw)) as [out|] eqn:O1; [right|left; auto].
      destruct (HG (pw_buffer pw) out P2 ltac:(lia) O1) as (O2 & O3).
      assert (zlen (pw_buffer pw) / 6 <= 1 + 8 * zlen cur) by (apply Z.lt_succ_r, Z.div_lt_upper_bound; lia).
      exists out. pose proof (zlen_nonneg _ out). rewrite wrapU_small by lia. split; [reflexivity|]. split; [lia|].
      split; [lia|].
      unfold uncompress. cbn [compression_code Z.eqb Pos.eqb]. rewrite O2. fold (zlen (pw_buffer pw)). rewrite Z.eqb_refl. reflexivity. }
  destruct CM as [(CE & CS & CN)|(body & CE & CL & CB & CU)].
  { right. clearbody cmp. subst cmp. apply ret_inj in H. subst r. cbn [fst snd]. split; [reflexivity|]. split; [auto|].
    split; [exists (pw_buffer pw); auto|].
    split; cbn [cw_with_page cw_id cw_type cw_comp cw_enc cw_page cw_stats cw_num_pages cw_buffer cw_first_stats cw_size_wo_stats]; auto. }
  left. clearbody cmp. subst cmp. pose proof (zlen_nonneg _ body) as Nbd.
  set (head := wbytes (write_var_u32 (zlen (pw_buffer pw))) ++ wbytes (write_var_u32 (zlen body))) in *.
  assert (HL : write_var_u32_ret (zlen (pw_buffer pw)) + write_var_u32_ret (zlen body) = zlen head).
  { unfold head. rewrite zlen_app.
    destruct (var_u32_len (zlen (pw_buffer pw)) ltac:(lia)) as (_ & -> & _).
    destruct (var_u32_len (zlen body) ltac:(lia)) as (_ & -> & _). reflexivity. }
  cbv zeta in H. apply bind_ret in H. destruct H as (bfs & Hb & H). destruct bfs as [[buffer fstats] swo].
  apply bind_ret in H. destruct H as (np & Hnp & H). apply bind_ret in H. destruct H as (st & Hst & H).
  apply ret_inj in H. subst r. cbn [fst snd]. split; [reflexivity|].
  set (im := mkImage head (pw_stats pw) body).
  assert (IM : image_ok dt comp enc cur im).
  { split; cbn [im_stats im_head im_body im].
    - rewrite P4. apply Icur.
    - exists (pw_buffer pw). repeat split; auto. lia.
    - unfold head. rewrite zlen_app. destruct (var_u32_len (zlen (pw_buffer pw)) ltac:(lia)) as [? _].
      destruct (var_u32_len (zlen body) ltac:(lia)) as [? _]. lia. }
  exists im.
  assert (Tot : zlen pages + 1 < 2 ^ 32).
  { pose proof (held_pages_le pages Ipg). rewrite zlen_app in Itot. lia. }
  assert (B : buffer = buffer_of (ims ++ [im]) /\ match ims ++ [im] with
             | [] => swo = 0
             | [im] => fstats = Some (im_stats im) /\ swo = zlen (im_head im)
             | _ => True
             end).
  { rewrite Inum in Hb. assert (Leq : zlen pages = zlen ims) by (unfold zlen; rewrite (Forall2_len _ _ _ _ _ Iims); auto).
    rewrite Leq in Hb. destruct ims as [|im1 [|im2 ims]].
    - cbn [zlen length Z.of_nat Z.eqb] in Hb. apply ret_inj in Hb. apply pair3 in Hb; destruct Hb as (<- & <- & <-).
      rewrite Ibuf. cbn [buffer_of map concat app im_head im_body im im_stats]. rewrite Ifirst. split; [unfold head; reflexivity|].
      split; [reflexivity|]. rewrite <- HL. lia.
    - change (zlen [im1]) with 1 in Hb. cbn [Z.eqb Pos.eqb] in Hb. destruct Ifirst as [F1 F2]. rewrite F2 in Hb.
      rewrite Ibuf in Hb. cbn [buffer_of] in Hb. rewrite zlen_app in Hb. pose proof (zlen_nonneg _ (im_body im1)).
      replace (zlen (im_head im1) <=? zlen (im_head im1) + zlen (im_body im1)) with true in Hb by lia.
      rewrite F1 in Hb. apply ret_inj in Hb. apply pair3 in Hb; destruct Hb as (<- & <- & <-). split; [|exact Logic.I].
      assert (K : Z.to_nat (zlen (im_head im1)) = length (im_head im1)) by (apply Nat2Z.id).
      rewrite K, firstn_app, skipn_app, firstn_all, skipn_all, Nat.sub_diag. cbn [firstn skipn app].
      rewrite app_nil_r. cbn [buffer_of app map concat]. unfold with_stats. cbn [im im_head im_stats im_body].
      rewrite <- !app_assoc, app_nil_r. reflexivity.
    - pose proof (zlen_nonneg _ ims). rewrite !zlen_cons in Hb. replace (1 + (1 + zlen ims) =? 0) with false in Hb by lia.
      replace (1 + (1 + zlen ims) =? 1) with false in Hb by lia. apply ret_inj in Hb. apply pair3 in Hb; destruct Hb as (<- & <- & <-).
      split; [|exact Logic.I]. rewrite Ibuf.
      change ((im1 :: im2 :: ims) ++ [im]) with (im1 :: im2 :: (ims ++ [im])). unfold buffer_of. cbn [map concat].
      rewrite map_app, concat_app. cbn [map concat]. rewrite <- !app_assoc, app_nil_r. reflexivity. }
  destruct B as [B1 B2].
  split; cbn [cw_id cw_type cw_comp cw_enc cw_page cw_stats cw_num_pages cw_buffer cw_first_stats cw_size_wo_stats]; auto.
  - apply Forall2_app; auto.
  - apply Forall_app. auto.
  - rewrite concat_app. cbn [concat]. rewrite !app_nil_r. auto.
  - rewrite concat_app. cbn [concat]. rewrite !app_nil_r. auto.
  - rewrite Inum in Hnp. pose proof (zlen_nonneg _ pages). rewrite arithU_ok in Hnp by lia. apply ret_inj in Hnp.
    rewrite zlen_app, zlen_cons, zlen_nil. lia.
  - rewrite chunk_tree_snoc. cbn [tree_stats]. rewrite Ist. cbn [bind]. rewrite P4 in Hst.
    rewrite (ph_stats _ _ _ _ _ Icur). exact Hst.
Qed.

(** What sealing or checking may do: the open page becomes a page, or the compressor refused it and
    everything stays as it was. *)
Definition outcome_of (id : list Z) (dt : dtype) (comp : compression) (enc : encoding) (pages : list (list (Z * value)))
    (cur : list (Z * value)) (c' : chunk_writer) : Prop :=
  exists pages' ims' cur', chunk_held id dt comp enc c' pages' ims' cur' /\
    ((pages' = pages ++ [cur] /\ cur' = []) \/ (pages' = pages /\ cur' = cur)).
Lemma check_page_held : fair_snap snap decomp -> forall id dt comp enc c pages ims cur c',
  chunk_held id dt comp enc c pages ims cur -> 1 <= zlen cur ->
  check_page_size p snap c = Ret c' -> outcome_of id dt comp enc pages cur c'.
Proof.
  intros HG id dt comp enc c pages ims cur c' I Hc H. unfold check_page_size in H.
  assert (S : forall n r, write_page_to_buffer p snap c = Ret r ->
    outcome_of id dt comp enc pages cur (match n with Some m => cw_with_next m (fst r) | None => fst r end)).
  { intros n r Hr. destruct (write_page_held HG _ _ _ _ _ _ _ _ _ I Hc Hr) as [(_ & im & I')|(_ & _ & _ & I')].
    - exists (pages ++ [cur]), (ims ++ [im]), []. split; [destruct n; auto using held_next|auto].
    - exists pages, ims, cur. split; [destruct n; auto using held_next|auto]. }
  destruct (cw_page c) as [pw|] eqn:EP.
  - destruct (_ >? MAX_NUMBER_OF_POINTS_IN_PAGE).
    + apply bind_ret in H. destruct H as (r & Hr & H). apply ret_inj in H. subst c'. exact (S None r Hr).
    + destruct (_ >=? cw_next_check c).
      * apply bind_ret in H. destruct H as (sz & _ & H). destruct (sz >? PAGE_SIZE_THRESHOLD).
        -- apply bind_ret in H. destruct H as (r & Hr & H). apply ret_inj in H. subst c'.
           exact (S (Some MINIMUM_RECORD_COUNT_FOR_CHECK) r Hr).
        -- apply ret_inj in H. subst c'. exists pages, ims, cur. split; [apply held_next; auto|auto].
      * apply ret_inj in H. subst c'. exists pages, ims, cur. auto.
  - apply ret_inj in H. subst c'. exists pages, ims, cur. auto.
Qed.
Lemma outcome_points : forall id dt comp enc pages cur c', outcome_of id dt comp enc pages cur c' ->
  exists pages' ims' cur', chunk_held id dt comp enc c' pages' ims' cur' /\ concat pages' ++ cur' = concat pages ++ cur.
Proof.
  intros id dt comp enc pages cur c' (pages' & ims' & cur' & I & [[-> ->]|[-> ->]]).
  - exists (pages ++ [cur]), ims', []. split; auto. rewrite concat_app. cbn [concat]. rewrite !app_nil_r. auto.
  - exists pages, ims', cur. auto.
Qed.

Lemma write_open : forall id dt comp enc c pages ims cur pw t v pw',
  chunk_held id dt comp enc c pages ims cur ->
  (match cw_page c with Some pw => inl pw | None => pw_new (cw_type c) (cw_enc c) end) = inl pw ->
  i64_min <= t <= i64_max -> value_ok dt v -> zlen (concat pages ++ cur) + 1 <= max_points ->
  pw_write p t v pw = Ret pw' ->
  chunk_held id dt comp enc (cw_with_page (Some pw') c) pages ims (cur ++ [(t, v)]).
Proof.
  intros id dt comp enc c pages ims cur pw t v pw' I M Ht Hv Hl Hw.
  pose proof (h_cur _ _ _ _ _ _ _ _ I) as IC.
  assert (PS : page_holding p dt enc cur pw).
  { destruct (cw_page c).
    - inversion M; subst. exact IC.
    - destruct IC as [-> _]. rewrite (h_type _ _ _ _ _ _ _ _ I), (h_enc _ _ _ _ _ _ _ _ I) in M. apply holding_new; auto. }
  rewrite zlen_app in Hl. pose proof (zlen_nonneg _ (concat pages)).
  assert (Lc : zlen cur + 1 < 2 ^ 32) by (unfold max_points in Hl; lia).
  pose proof (holding_write _ _ _ _ _ _ _ _ PS Hv Ht Lc Hw) as PS'.
  destruct I as [I1 I2 I3 I4 Iims Ipg Iok Itot Icur Inum Ist Ibuf Ifirst].
  split; cbn [cw_with_page cw_id cw_type cw_comp cw_enc cw_page cw_stats cw_num_pages cw_buffer cw_first_stats cw_size_wo_stats]; auto.
  - rewrite app_assoc. apply Forall_app. split; [auto|repeat constructor; cbn [fst snd]; auto; apply Ht].
  - rewrite app_assoc, !zlen_app, zlen_cons, zlen_nil. lia.
Qed.

Lemma cw_write_held : fair_snap snap decomp -> forall id dt comp enc c pages ims cur t v c',
  chunk_held id dt comp enc c pages ims cur ->
  i64_min <= t <= i64_max -> value_ok dt v -> zlen (concat pages ++ cur) + 1 <= max_points ->
  cw_write p snap t v c = Ret (inl c') ->
  exists pages' ims' cur', chunk_held id dt comp enc c' pages' ims' cur' /\
    concat pages' ++ cur' = (concat pages ++ cur) ++ [(t, v)].
Proof.
  intros HG id dt comp enc c pages ims cur t v c' I Ht Hv Hl H. unfold cw_write in H.
  set (m := match cw_page c with Some pw => inl pw | None => pw_new (cw_type c) (cw_enc c) end) in H.
  destruct m as [pw|err] eqn:M; [|apply ret_inj in H; discriminate].
  apply bind_ret in H. destruct H as (pw' & Hw & H). apply bind_ret in H. destruct H as (c1 & H1 & H).
  apply ret_inj in H. inversion H; subst c1. clear H.
  pose proof (write_open _ _ _ _ _ _ _ _ _ _ _ _ I M Ht Hv Hl Hw) as I'.
  assert (L1 : 1 <= zlen (cur ++ [(t, v)])).
  { rewrite zlen_app, zlen_cons, zlen_nil. pose proof (zlen_nonneg _ cur). lia. }
  pose proof (check_page_held HG _ _ _ _ _ _ _ _ _ I' L1 H1) as O. apply outcome_points in O.
  destruct O as (pages' & ims' & cur' & A & B). exists pages', ims', cur'. split; auto. rewrite B, app_assoc. reflexivity.
Qed.

Lemma seal_held : fair_snap snap decomp -> forall id dt comp enc c pages ims cur c',
  chunk_held id dt comp enc c pages ims cur -> seal_current_page p snap c = Ret c' ->
  exists pages' ims' lost, chunk_held id dt comp enc c' pages' ims' lost /\ concat pages' ++ lost = concat pages ++ cur /\
    (lost = [] \/ comp = SNAPPY /\ rejects snap dt enc lost).
Proof.
  intros HG id dt comp enc c pages ims cur c' I H. unfold seal_current_page in H.
  pose proof (h_cur _ _ _ _ _ _ _ _ I) as IC. destruct (cw_page c) as [pw|] eqn:EP.
  - rewrite (ph_points _ _ _ _ _ IC) in H. destruct (Z.gtb_spec (zlen cur) 0).
    + apply bind_ret in H. destruct H as (r & Hr & H). apply ret_inj in H. subst c'.
      destruct (write_page_held HG _ _ _ _ _ _ _ _ _ I ltac:(lia) Hr) as [(_ & im & I')|(_ & R1 & R2 & I')].
      * exists (pages ++ [cur]), (ims ++ [im]), []. split; auto. rewrite concat_app. cbn [concat]. rewrite !app_nil_r. auto.
      * exists pages, ims, cur. auto.
    + apply ret_inj in H. subst c'. assert (cur = []) by (destruct cur; auto; rewrite zlen_cons in *; pose proof (zlen_nonneg _ cur); lia).
      subst cur. exists pages, ims, []. auto.
  - apply ret_inj in H. subst c'. destruct IC as [-> ->]. exists [], ims, []. auto.
Qed.

(** ** C47 *)
Lemma held_read : forall id dt comp enc c pages ims cur, chunk_held id dt comp enc c pages ims cur -> pages <> [] ->
  exists qs, chunk_data decomp (if zlen pages <=? 1 then 5 else 1) (dtype_code dt) (compression_code comp)
      (encoding_code enc) (cw_buffer c) = Some qs /\
    Forall2 (page_holds p dt (negb (zlen pages <=? 1))) pages qs.
Proof.
  intros id dt comp enc c pages ims cur I Hne. rewrite (h_buf _ _ _ _ _ _ _ _ I).
  apply (buffer_read p snap decomp); auto; [apply I|].
  apply points_ok_concat. pose proof (h_ok _ _ _ _ _ _ _ _ I) as K. apply Forall_app in K. tauto.
Qed.
Lemma held_has : forall id dt comp enc c pages ims cur, chunk_held id dt comp enc c pages ims cur -> chunk_has p decomp dt comp enc c pages.
Proof.
  intros id dt comp enc c pages ims cur I. split; [apply I|]. split.
  { eapply Forall_impl; [|apply I]. intros a Ha ->. rewrite zlen_nil in Ha. lia. }
  split; [apply I|]. split.
  - intros ->. rewrite (h_buf _ _ _ _ _ _ _ _ I). pose proof (h_ims _ _ _ _ _ _ _ _ I) as F. inversion F. reflexivity.
  - eapply held_read; eauto.
Qed.
Lemma cw_do_snoc : forall ops o c, cw_do p snap (ops ++ [o]) c = (let* s := cw_do p snap ops c in
   match s, o with
   | inr e, _ => Ret (inr e)
   | inl c, CWrite t v => cw_write p snap t v c
   | inl c, CSeal => let* c' := seal_current_page p snap c in Ret (inl c')
   end).
Proof. intros. unfold cw_do. rewrite foldM_snoc. reflexivity. Qed.
Lemma ops_points_snoc : forall ops o, ops_points (ops ++ [o]) = ops_points ops ++ op_points o.
Proof. intros. unfold ops_points. rewrite map_app, concat_app. cbn [map concat]. rewrite app_nil_r. reflexivity. Qed.
Lemma cw_do_held : fair_snap snap decomp -> forall id dt comp enc ops c, points_ok dt (ops_points ops) ->
  zlen (ops_points ops) <= max_points -> cw_do p snap ops (cw_new id dt comp enc) = Ret (inl c) ->
  exists pages ims cur, chunk_held id dt comp enc c pages ims cur /\ concat pages ++ cur = ops_points ops /\
    (forall ops', ops = ops' ++ [CSeal] -> cur = [] \/ comp = SNAPPY /\ rejects snap dt enc cur).
Proof.
  intros HG id dt comp enc ops. induction ops as [|o l IH] using rev_ind; intros c Hok Hl H.
  - unfold cw_do in H. cbn [foldM] in H. apply ret_inj in H. inversion H; subst c. exists [], [], []. split; [apply held_new|]. auto.
  - rewrite ops_points_snoc in *. apply Forall_app in Hok. destruct Hok as [Hok Hx]. rewrite zlen_app in Hl.
    rewrite cw_do_snoc in H. apply bind_ret in H. destruct H as (s & Hs & H).
    destruct s as [c1|]; [|apply ret_inj in H; discriminate]. pose proof (zlen_nonneg _ (op_points o)).
    destruct (IH c1 Hok ltac:(lia) Hs) as (pg & im & cu & I & E & _). destruct o as [t v|]; cbn [op_points] in *.
    + inversion Hx as [|? ? [Ht Hv] _]; subst. cbn [fst snd] in *. rewrite zlen_cons, zlen_nil in Hl.
      destruct (cw_write_held HG _ _ _ _ _ _ _ _ _ _ _ I Ht Hv ltac:(rewrite E; lia) H) as (pg' & im' & cu' & I' & E').
      exists pg', im', cu'. split; auto. split; [congruence|]. intros ops' Eq. apply app_inj_tail in Eq. destruct Eq. discriminate.
    + apply bind_ret in H. destruct H as (c2 & Hc & H). apply ret_inj in H. inversion H; subst c2.
      destruct (seal_held HG _ _ _ _ _ _ _ _ _ I Hc) as (pg' & im' & lost & I' & E' & R).
      exists pg', im', lost. split; auto. split; [rewrite app_nil_r; congruence|]. auto.
Qed.
Lemma comp_ops : fair_snap snap decomp -> forall id dt comp enc ops c, points_ok dt (ops_points ops) ->
  zlen (ops_points ops) <= 67108864 -> cw_do p snap ops (cw_new id dt comp enc) = Ret (inl c) ->
  exists pages cur, concat pages ++ cur = ops_points ops /\ chunk_has p decomp dt comp enc c pages /\
    match cw_page c with Some w => pw_points w = zlen cur | None => cur = [] end /\
    (forall ops', ops = ops' ++ [CSeal] -> cur = [] \/ comp = SNAPPY /\ rejects snap dt enc cur).
Proof.
  intros HG id dt comp enc ops c Hok Hl H. destruct (cw_do_held HG _ _ _ _ _ _ Hok Hl H) as (pages & ims & cur & I & E & S).
  exists pages, cur. split; auto. split; [eapply held_has; eauto|]. split; auto.
  pose proof (h_cur _ _ _ _ _ _ _ _ I) as IC. destruct (cw_page c); [apply IC|tauto].
Qed.
End Chunk.

(** Release builds never panic, whatever the compressor does. *)
Lemma write_page_held_rel : forall snap decomp id dt comp enc c pages ims cur,
  chunk_held Release decomp id dt comp enc c pages ims cur -> exists r, write_page_to_buffer Release snap c = Ret r.
Proof.
  intros snap decomp id dt comp enc c pages ims cur I. unfold write_page_to_buffer.
  pose proof (h_cur _ _ _ _ _ _ _ _ _ _ I) as IC. destruct (cw_page c) as [pw0|]; [|eauto].
  destruct (pw_prepare_rel pw0) as [pw Hp]. rewrite Hp. cbn [bind].
  assert (ST : pw_stats pw = pw_stats pw0).
  { unfold pw_prepare in Hp. apply bind_ret in Hp. destruct Hp as (? & _ & Hp). apply bind_ret in Hp.
    destruct Hp as (? & _ & Hp). apply ret_inj in Hp. subst pw. reflexivity. }
  match goal with |- context [match ?m with None => Ret _ | _ => _ end] => destruct m as [[content cb]|] end; [|eauto].
  cbv zeta.
  match goal with |- context [bind ?m _] => assert (Q : exists b, m = Ret b) end.
  { pose proof (h_num _ _ _ _ _ _ _ _ _ _ I) as N. pose proof (h_first _ _ _ _ _ _ _ _ _ _ I) as F.
    pose proof (h_buf _ _ _ _ _ _ _ _ _ _ I) as B.
    pose proof (Forall2_len _ _ _ _ _ (h_ims _ _ _ _ _ _ _ _ _ _ I)) as L.
    destruct (cw_num_pages c =? 0); [eauto|]. destruct (Z.eqb_spec (cw_num_pages c) 1) as [E|]; [|eauto].
    rewrite E in N. unfold zlen in N. destruct ims as [|im [|im2 ims]]; cbn [length] in L; try lia.
    destruct F as [F1 F2]. rewrite F1, F2, B. cbn [buffer_of]. rewrite zlen_app. pose proof (zlen_nonneg _ (im_body im)).
    replace (zlen (im_head im) <=? zlen (im_head im) + zlen (im_body im)) with true by lia. eauto. }
  destruct Q as [[[b f] s] Q]. rewrite Q. cbn [bind]. rewrite arithU_release by lia. cbn [bind]. rewrite ST.
  destruct (st_merge_total Release dt (concat pages) cur (cw_stats c) (pw_stats pw0)) as [st Hs].
  - rewrite <- chunk_tree_points. apply (tree_inv Release).
    + rewrite chunk_tree_points. pose proof (h_ok _ _ _ _ _ _ _ _ _ _ I) as K. apply Forall_app in K. tauto.
    + apply (h_stats _ _ _ _ _ _ _ _ _ _ I).
  - apply (page_inv Release). pose proof (h_ok _ _ _ _ _ _ _ _ _ _ I) as K. apply Forall_app in K. tauto. apply IC.
  - rewrite <- zlen_app. pose proof (h_total _ _ _ _ _ _ _ _ _ _ I) as T. unfold max_points in T. lia.
  - rewrite Hs. cbn [bind]. eauto.
Qed.
Lemma comp_release_total : forall snap decomp id dt comp enc ops, fair_snap snap decomp -> points_ok dt (ops_points ops) ->
  zlen (ops_points ops) <= 67108864 -> ~ (dt = FLOAT /\ enc = TS2DIFF) ->
  exists c, cw_do Release snap ops (cw_new id dt comp enc) = Ret (inl c).
Proof.
  intros snap decomp id dt comp enc ops HG Hok Hl Hcol. fold max_points in Hl. revert Hok Hl.
  induction ops as [|o l IH] using rev_ind; intros Hok Hl; [eexists; reflexivity|].
  rewrite ops_points_snoc in *. apply Forall_app in Hok. destruct Hok as [Hok Hx]. rewrite zlen_app in Hl.
  pose proof (zlen_nonneg _ (op_points o)). destruct IH as (c & Hr); [auto|lia|].
  destruct (cw_do_held Release snap decomp HG _ _ _ _ _ _ Hok ltac:(lia) Hr) as (pg & im & cu & I & E & _).
  rewrite cw_do_snoc, Hr. cbn [bind]. destruct o as [t v|]; cbn [op_points] in *.
  2: { unfold seal_current_page. destruct (write_page_held_rel snap _ _ _ _ _ _ _ _ _ I) as [r Hr']. rewrite Hr'. cbn [bind].
       destruct (cw_page c); [destruct (_ >? _)|]; cbn [bind]; eauto. }
  inversion Hx as [|? ? [Ht Hv] _]; subst. cbn [fst snd] in *. rewrite zlen_cons, zlen_nil in Hl. unfold cw_write.
  assert (Q : exists pw, (match cw_page c with Some pw => inl pw | None => pw_new (cw_type c) (cw_enc c) end) = inl pw /\
    page_holding Release dt enc cu pw).
  { pose proof (h_cur _ _ _ _ _ _ _ _ _ _ I) as IC. destruct (cw_page c) as [pw|]; [eauto|]. destruct IC as [-> _].
    rewrite (h_type _ _ _ _ _ _ _ _ _ _ I), (h_enc _ _ _ _ _ _ _ _ _ _ I).
    assert (exists w, pw_new dt enc = inl w) as [w W].
    { unfold pw_new. destruct dt, enc; cbn; eauto. exfalso. apply Hcol. auto. }
    exists w. split; auto. apply holding_new; auto. }
  destruct Q as (pw & M & PH). rewrite M.
  assert (W : exists pw', pw_write Release t v pw = Ret pw').
  { unfold pw_write. destruct (ts2_write_rel KLong t (pw_time pw)) as [te ->]. cbn [bind].
    destruct (encoder_write_rel v (pw_value pw)) as [ve ->]. cbn [bind].
    destruct (st_update_total Release dt cu (pw_stats pw) t v) as [st ->]; auto.
    - apply (page_inv Release); [|apply (ph_stats _ _ _ _ _ PH)].
      pose proof (h_ok _ _ _ _ _ _ _ _ _ _ I) as K. apply Forall_app in K. tauto.
    - assert (zlen cu <= zlen (ops_points l)) by (rewrite <- E, zlen_app; pose proof (zlen_nonneg _ (concat pg)); lia).
      unfold max_points in Hl. lia.
    - cbn [bind]. rewrite arithU_release by lia. cbn [bind]. eauto. }
  destruct W as [pw' W]. rewrite W. cbn [bind].
  assert (Hlt : zlen (concat pg ++ cu) + 1 <= max_points) by (rewrite E; lia).
  pose proof (write_open Release snap decomp _ _ _ _ _ _ _ _ pw t v pw' I M Ht Hv Hlt W) as I'.
  destruct (write_page_held_rel snap _ _ _ _ _ _ _ _ _ I') as [r Hr'].
  unfold check_page_size. rewrite Hr'. cbn [bind cw_with_page cw_page].
  destruct (_ >? _); [cbn [bind]; eauto|]. destruct (_ >=? _); [|cbn [bind]; eauto].
  destruct (pw_estimate_rel pw') as [n ->]. cbn [bind]. destruct (n >? _); cbn [bind]; eauto.
Qed.
