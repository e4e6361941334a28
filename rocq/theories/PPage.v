(** Page boundaries (C48). *)
From Verif Require Export PFloat32 SPage.
Ltac Zify.zify_post_hook ::= idtac.

(** ** Length of TS_2DIFF blocks *)
Lemma greatest_spec : forall l, l <> [] -> In (greatest l) l /\ Forall (fun x => x <= greatest l) l.
Proof.
  intros l. unfold greatest. assert (G : forall l a, (fold_right Z.max a l = a \/ In (fold_right Z.max a l) l) /\ a <= fold_right Z.max a l /\ Forall (fun x => x <= fold_right Z.max a l) l).
  { induction l0 as [|x l0 IH]; intros a; cbn [fold_right].
    - split; [auto|]. split; [lia|constructor].
    - destruct (IH a) as (A & B & C). split; [|split; [lia|]].
      + destruct (Z.max_spec x (fold_right Z.max a l0)) as [[_ ->]|[_ ->]]; [destruct A; [auto|right; right; auto]|right; left; auto].
      + constructor; [lia|]. eapply Forall_impl; [|exact C]. cbn. intros; lia. }
  destruct l as [|x l]; [congruence|]. intros _. cbn [hd]. destruct (G (x :: l) x) as (A & _ & C). split; [|auto].
  destruct A as [->|A]; [left|]; auto.
Qed.
Lemma least_spec : forall l, l <> [] -> In (least l) l /\ Forall (fun x => least l <= x) l.
Proof.
  intros l. unfold least. assert (G : forall l a, (fold_right Z.min a l = a \/ In (fold_right Z.min a l) l) /\ fold_right Z.min a l <= a /\ Forall (fun x => fold_right Z.min a l <= x) l).
  { induction l0 as [|x l0 IH]; intros a; cbn [fold_right].
    - split; [auto|]. split; [lia|constructor].
    - destruct (IH a) as (A & B & C). split; [|split; [lia|]].
      + destruct (Z.min_spec x (fold_right Z.min a l0)) as [[_ ->]|[_ ->]]; [right; left; auto|destruct A; [auto|right; right; auto]].
      + constructor; [lia|]. eapply Forall_impl; [|exact C]. cbn. intros; lia. }
  destruct l as [|x l]; [congruence|]. intros _. cbn [hd]. destruct (G (x :: l) x) as (A & _ & C). split; [|auto].
  destruct A as [->|A]; [left|]; auto.
Qed.
Lemma min_of_least : forall k l, Forall (signed_in (kbits k)) l -> l <> [] -> min_of k l = least l.
Proof.
  intros k l H Hne. destruct (min_of_spec k l H) as (A & _ & B). destruct (least_spec l Hne) as [C D].
  specialize (B Hne). rewrite Forall_forall in A, D. specialize (A _ C). specialize (D _ B). lia.
Qed.
Lemma bit_length_mono : forall a b, 0 <= a <= b -> bit_length a <= bit_length b.
Proof.
  intros a b H. unfold bit_length. destruct (Z.eqb_spec a 0); destruct (Z.eqb_spec b 0); try lia.
  - pose proof (Z.log2_nonneg b). lia.
  - pose proof (Z.log2_le_mono a b ltac:(lia)). lia.
Qed.
Lemma calc_width_le : forall k l w, 0 <= w -> Forall (fun v => get_value_width k v <= w) l -> calc_width k l <= w.
Proof.
  intros k l w Hw H. unfold calc_width. assert (G : forall a, a <= w -> fold_left (fun w v => Z.max w (get_value_width k v)) l a <= w).
  { induction H; cbn [fold_left]; intros a Ha; auto. apply IHForall. lia. }
  apply G; auto.
Qed.
Lemma width_spread : forall k ds, Forall (signed_in (kbits k)) ds -> ds <> [] ->
  calc_width k (rel_deltas k (least ds) ds) = bit_length (greatest ds - least ds).
Proof.
  intros k ds H Hne. pose proof (kbits_pos k) as Kb. destruct (least_spec ds Hne) as [L1 L2]. destruct (greatest_spec ds Hne) as [G1 G2].
  assert (W : forall d, In d ds -> get_value_width k (wrapS (kbits k) (d - least ds)) = bit_length (d - least ds)).
  { intros d Hd. unfold get_value_width, bit_length. rewrite Forall_forall in H, L2.
    pose proof (H _ Hd) as [A B]. pose proof (H _ L1) as [A' B']. specialize (L2 _ Hd). pose proof (pow2_split (kbits k) ltac:(lia)).
    replace (wrapU (kbits k) (wrapS (kbits k) (d - least ds))) with (d - least ds); [reflexivity|].
    unfold wrapU. rewrite wrapS_mod by lia. symmetry. apply Z.mod_small. lia. }
  apply Z.le_antisymm.
  - apply calc_width_le.
    + rewrite <- W by auto. apply width_range.
    + unfold rel_deltas. apply Forall_forall. intros x Hx. apply in_map_iff in Hx. destruct Hx as (d & <- & Hd). rewrite W by auto.
      apply bit_length_mono. rewrite Forall_forall in G2, L2. specialize (G2 _ Hd). specialize (L2 _ Hd). lia.
  - rewrite <- W by auto. pose proof (calc_width_ge k (rel_deltas k (least ds) ds)) as Q. rewrite Forall_forall in Q. apply Q.
    unfold rel_deltas. apply (in_map (fun d => wrapS (kbits k) (d - least ds))). auto.
Qed.
Lemma sgn_map : forall k l, map (sgn (kbits k)) l = map (wrapS (kbits k)) l.
Proof. intros. apply map_ext. intros. apply sgn_wrapS. pose proof (kbits_pos k). lia. Qed.
Lemma kbytes_div : forall k, Z.of_nat (kbytes k) = kbits k / 8.
Proof. destruct k; reflexivity. Qed.

Lemma flush_len : forall p k e e' b, ts2_flush p k e = Ret e' -> t_first e <> None ->
  t_values e = map (wrapS (kbits k)) (steps b) -> t_values e <> [] -> t_min e = min_of k (t_values e) ->
  zlen (t_buf e') = zlen (t_buf e) + block_len (kbits k) b.
Proof.
  intros p k e e' b H Hf Hv Hne Hm. pose proof (kbits_pos k) as Kb. unfold ts2_flush in H. destruct (t_first e) as [f|]; [|congruence].
  apply bind_ret in H. destruct H as (r & Hr & H).
  assert (r = rel_deltas k (t_min e) (t_values e)).
  { eapply mapM_inv; [|exact Hr]. cbn. intros a d _ Ha. eapply arithS_inv; [|exact Ha]. lia. }
  subst r. destruct (rel_pack k (t_min e) (t_values e)) as (payload & HP & _ & Hpl & _). rewrite HP in H. cbn [bind] in H.
  apply ret_inj in H. subst e'. cbn [t_buf]. rewrite !zlen_app, !be_bytes_zlen, Hpl.
  unfold block_len. rewrite sgn_map, <- Hv.
  assert (S : Forall (signed_in (kbits k)) (t_values e)) by (rewrite Hv; apply wrap_steps_signed).
  rewrite Hm, min_of_least, width_spread by auto. rewrite !kbytes_div. change (Z.of_nat 4) with 4. lia.
Qed.
Lemma write_len : forall p k v e e' done cur, ts2_rep p k e done cur -> ts2_write p k v e = Ret e' ->
  zlen (t_buf e') = zlen (t_buf e) + if (length cur =? 128)%nat then block_len (kbits k) (cur ++ [v]) else 0.
Proof.
  intros p k v e e' done cur R H. pose proof (kbits_pos k) as Kb. unfold ts2_write in H. apply bind_ret in H. destruct H as (e1 & H1 & H).
  assert (S : t_first e1 <> None /\ t_buf e1 = t_buf e /\ t_values e1 = map (wrapS (kbits k)) (steps (cur ++ [v])) /\ t_min e1 = min_of k (t_values e1)).
  { destruct cur as [|a cur _] using rev_ind.
    - rewrite (r_first _ _ _ _ _ R) in H1. cbn [hd_error] in H1. apply ret_inj in H1. subst e1. cbn.
      pose proof (r_vals _ _ _ _ _ R) as V. pose proof (r_min _ _ _ _ _ R) as M. cbn in V. rewrite V in *. split; [congruence|]. auto.
    - assert (F : exists f, t_first e = Some f). { rewrite (r_first _ _ _ _ _ R). destruct cur; cbn; eauto. }
      destruct F as [f F]. rewrite F in H1. apply bind_ret in H1. destruct H1 as (d & Hd & H1). apply ret_inj in H1. subst e1. cbn [t_first t_buf t_values t_min].
      apply arithS_inv in Hd; [|lia]. pose proof (r_prev _ _ _ _ _ R) as P. rewrite last_snoc in P. rewrite P in Hd by (destruct cur; discriminate). subst d.
      split; [congruence|]. split; [auto|]. split.
      + rewrite steps_snoc, map_app, (r_vals _ _ _ _ _ R). reflexivity.
      + rewrite min_of_snoc, (r_min _ _ _ _ _ R). reflexivity. }
  destruct S as (S1 & S2 & S3 & S4).
  assert (L : zlen (t_values e1) = Z.of_nat (length cur)).
  { unfold zlen. rewrite S3, map_length, steps_length, app_length. cbn. lia. }
  rewrite L in H. destruct (Nat.eqb_spec (length cur) 128) as [E|E].
  - rewrite E in H. cbn in H. rewrite <- S2. apply (flush_len p k e1 e' (cur ++ [v]) H S1 S3); [|exact S4]. intros Q. rewrite Q, E in L. discriminate.
  - replace (Z.of_nat (length cur) =? 128) with false in H by (symmetry; apply Z.eqb_neq; lia). apply ret_inj in H. subst e'. rewrite S2. lia.
Qed.
Definition sum (l : list Z) : Z := fold_right Z.add 0 l.
Lemma sum_app : forall a b, sum (a ++ b) = sum a + sum b.
Proof. unfold sum. induction a as [|x a IH]; intros b; cbn [fold_right app]; [reflexivity|]. rewrite IH. lia. Qed.
Lemma write_all_len : forall p k vs e done cur e', ts2_rep p k e done cur -> zlen (t_buf e) = sum (map (block_len (kbits k)) done) ->
  Forall (signed_in (kbits k)) vs -> ts2_write_all p k vs e = Ret e' ->
  exists done' cur', ts2_rep p k e' done' cur' /\ concat done' ++ cur' = concat done ++ cur ++ vs /\
    zlen (t_buf e') = sum (map (block_len (kbits k)) done').
Proof.
  unfold ts2_write_all. induction vs as [|v vs IH]; cbn [foldM]; intros e done cur e' R L Hv H.
  - apply ret_inj in H. subst e'. exists done, cur. rewrite app_nil_r. auto.
  - inversion Hv; subst. apply bind_ret in H. destruct H as (e1 & H1 & H). pose proof (write_len _ _ _ _ _ _ _ R H1) as WL.
    destruct (write_spec p k e done cur v R ltac:(auto)) as [_ W].
    destruct (W e1 H1) as [[Q R1]|[Q R1]].
    + replace (length cur =? 128)%nat with false in WL by (symmetry; apply Nat.eqb_neq; lia).
      destruct (IH _ _ _ _ R1 ltac:(lia) ltac:(auto) H) as (d' & c' & R' & E & F). exists d', c'. split; auto. split; auto.
      rewrite E, <- app_assoc. reflexivity.
    + rewrite Q in WL. cbn [Nat.eqb] in WL. assert (L1 : zlen (t_buf e1) = sum (map (block_len (kbits k)) (done ++ [cur ++ [v]]))).
      { rewrite map_app, sum_app. cbn [map sum fold_right]. lia. }
      destruct (IH _ _ _ _ R1 L1 ltac:(auto) H) as (d' & c' & R' & E & F). exists d', c'. split; auto. split; auto.
      rewrite E, concat_app. cbn [concat app]. rewrite app_nil_r, <- !app_assoc. reflexivity.
Qed.

Lemma ts2_state_size : forall p k vs e, Forall (signed_in (kbits k)) vs -> ts2_write_all p k vs (ts2_new k) = Ret e ->
  zlen (t_buf e) + (24 + zlen (t_values e) * kbits k / 8) = ts2_estimate (kbits k) vs.
Proof.
  intros p k vs e Hv H. destruct (write_all_len p k vs _ [] [] e (rep_new p k) eq_refl Hv H) as (done & cur & R & E & L).
  cbn [concat app] in E. pose proof (r_len _ _ _ _ _ R) as Lc. pose proof (r_dlen _ _ _ _ _ R) as Ld.
  assert (F : full_blocks vs = done).
  { unfold full_blocks. rewrite <- E, chop_concat by (auto; lia).
    rewrite filter_app. replace (filter _ done) with done.
    2: { symmetry. clear - Ld. induction Ld; cbn [filter]; auto. rewrite H. cbn [Nat.eqb]. f_equal; auto. }
    destruct cur as [|a cur]; [rewrite chop_nil; cbn; apply app_nil_r|]. rewrite chop_short by (try discriminate; lia).
    cbn [filter]. replace (length (a :: cur) =? 129)%nat with false by (symmetry; apply Nat.eqb_neq; lia). apply app_nil_r. }
  assert (M : zlen vs mod 129 = zlen cur).
  { rewrite <- E, zlen_app. assert (C : zlen (concat done) = 129 * zlen done).
    { clear - Ld. induction Ld; cbn [concat]; [reflexivity|]. rewrite zlen_app, zlen_cons, IHLd. unfold zlen at 1. rewrite H. lia. }
    rewrite C, Z.add_comm, Z.mul_comm, Z.mod_add by lia. apply Z.mod_small. unfold zlen. lia. }
  unfold ts2_estimate. rewrite F, M, L. unfold sum. f_equal. f_equal. f_equal. f_equal.
  rewrite (r_vals _ _ _ _ _ R). unfold zlen. rewrite map_length, steps_length. lia.
Qed.

(** ** Other encodings *)
Lemma var_i32_leb : forall n, - 2 ^ 31 <= n < 2 ^ 31 -> zlen (wbytes (write_var_i32 n)) = leb_len n.
Proof.
  intros n H. unfold write_var_i32. pose proof (zigzag_range n H) as R. rewrite write_var_u32_vb by auto. unfold leb_len.
  rewrite zigzag_spec in * by auto. set (u := if n <? 0 then - 2 * n - 1 else 2 * n) in *. clearbody u.
  change (2 ^ 7) with 128. change (2 ^ 14) with (128 * 128). change (2 ^ 21) with (128 * 128 * 128). change (2 ^ 28) with (128 * 128 * 128 * 128).
  cbn [vb]. destruct (Z.ltb_spec u 128); [reflexivity|].
  assert (D : forall a b, 0 < b -> (a / 128 <? b) = (a <? 128 * b)).
  { intros a b Hb. destruct (Z.ltb_spec (a / 128) b); symmetry.
    - apply Z.ltb_lt. apply Z.nle_gt. intros Q. assert (b <= a / 128) by (apply Z.div_le_lower_bound; lia). lia.
    - apply Z.ltb_ge. pose proof (Z.mul_div_le a 128 ltac:(lia)). lia. }
  rewrite !D by lia. rewrite !Z.mul_assoc.
  destruct (u <? 128 * 128); [reflexivity|]. destruct (u <? 128 * 128 * 128); [reflexivity|]. destruct (u <? 128 * 128 * 128 * 128); [reflexivity|].
  replace (u <? 128 * 128 * 128 * 128 * 128) with true by (symmetry; apply Z.ltb_lt; change (2 ^ 32) with 4294967296 in R; lia). reflexivity.
Qed.
Lemma plain_len : forall dt vs, Forall (value_ok dt) vs ->
  zlen (concat (map plain_bytes vs)) =
  match dt with INT32 => sum (map leb_len (map value_num vs)) | INT64 => 8 * zlen vs | FLOAT => 4 * zlen vs end.
Proof.
  intros dt vs H. induction H as [|v vs Hv H IH]; [destruct dt; reflexivity|]. cbn [map concat]. rewrite zlen_app, IH, zlen_cons.
  destruct dt, v; cbn in Hv; try tauto; cbn [plain_bytes value_num].
  - rewrite var_i32_leb by auto. reflexivity.
  - rewrite be_bytes_zlen. lia.
  - rewrite be_bytes_zlen. lia.
Qed.

(** ** The estimate of the page writer *)
Lemma ts2_sizes : forall p k vs e, Forall (signed_in (kbits k)) vs -> zlen vs <= 2 ^ 21 ->
  ts2_write_all p k vs (ts2_new k) = Ret e ->
  0 <= ts2_size e <= 2 ^ 26 /\ 0 <= ts2_max_byte_size k e <= 2 ^ 26 /\
  ts2_size e + ts2_max_byte_size k e = ts2_estimate (kbits k) vs.
Proof.
  intros p k vs e Hv Hn H.
  destruct (ts2_write_all_size p k vs (ts2_new k) e 0 H) as [_ B]; [constructor|unfold pending; cbn [t_first t_buf ts2_new]; rewrite zlen_nil; lia|auto|].
  destruct (write_all_sound p k vs _ [] [] e (rep_new p k) Hv H) as (done & cur & R & _).
  assert (V : 0 <= zlen (t_values e) <= 127).
  { rewrite (r_vals _ _ _ _ _ R). unfold zlen. rewrite map_length, steps_length. pose proof (r_len _ _ _ _ _ R). lia. }
  assert (0 <= pending e) by (unfold pending; destruct (t_first e); lia). pose proof (zlen_nonneg _ (t_buf e)).
  assert (K : 0 <= zlen (t_values e) * kbits k / 8 <= 1016).
  { split; [apply Z.div_pos; pose proof (kbits_pos k); nia|]. apply Z.div_le_upper_bound; [lia|]. destruct k; cbn [kbits]; lia. }
  rewrite <- (ts2_state_size p k vs e Hv H). unfold ts2_size, ts2_max_byte_size. rewrite !wrapU_small by lia. lia.
Qed.
Lemma value_sizes : forall p dt enc vs e0 e, encoder_new dt enc = inl e0 -> Forall (value_ok dt) vs -> zlen vs <= 2 ^ 21 ->
  encoder_write_all p vs e0 = Ret (Some e) ->
  0 <= encoder_size e <= 2 ^ 26 /\ 0 <= encoder_max_byte_size e <= 2 ^ 26 /\
  encoder_size e + encoder_max_byte_size e = value_estimate dt enc (map value_num vs).
Proof.
  intros p dt enc vs e0 e E0 Hv Hn H.
  assert (LN : zlen (map value_num vs) = zlen vs) by (unfold zlen; rewrite map_length; reflexivity).
  assert (T : forall k, dt = kdtype k -> enc = TS2DIFF -> 0 <= encoder_size e <= 2 ^ 26 /\ 0 <= encoder_max_byte_size e <= 2 ^ 26 /\
    encoder_size e + encoder_max_byte_size e = ts2_estimate (kbits k) (map value_num vs)).
  { intros k -> ->. replace e0 with (EncTs2 k (ts2_new k)) in H by (destruct k; cbn in E0; congruence).
    rewrite ts2_encoder_write_all in H by auto. apply bind_ret in H. destruct H as (t & Ht & H). apply ret_inj in H. inversion H; subst e.
    cbn [encoder_size encoder_max_byte_size]. apply (ts2_sizes p); auto; [|lia].
    clear - Hv. induction Hv as [|v vs Q _ IH]; cbn [map]; constructor; auto. destruct (value_ok_kind k v Q). auto. }
  destruct enc.
  - assert (e0 = EncPlain dt []) by (destruct dt; cbn in E0; congruence). subst e0. rewrite plain_write_all in H. cbn [app] in H. apply ret_inj in H. inversion H; subst e.
    destruct (plain_size dt vs Hv) as [_ B]. pose proof (plain_len dt vs Hv) as PL. pose proof (zlen_nonneg _ (concat (map plain_bytes vs))).
    cbn [encoder_size encoder_max_byte_size]. unfold value_estimate. rewrite LN. fold (sum (map leb_len (map value_num vs))).
    rewrite wrapU_small by lia. destruct dt; [rewrite wrapU_small by lia| |]; lia.
  - destruct dt; [apply (T KInt); auto|apply (T KLong); auto|discriminate].
Qed.
Lemma estimate_ok : forall p dt enc pts w s, page_state p dt enc pts w -> points_ok dt pts -> zlen pts <= 2 ^ 21 ->
  pw_estimate p w = Ret s -> s = page_estimate dt enc pts.
Proof.
  intros p dt enc pts w s PS Hok Hn H. destruct PS as [Pt (e0 & E0 & Pv) _ _ _ _].
  assert (L1 : zlen (times pts) <= 2 ^ 21) by (unfold zlen, times in *; rewrite map_length; auto).
  assert (L2 : zlen (map snd pts) <= 2 ^ 21) by (unfold zlen in *; rewrite map_length; auto).
  destruct (ts2_sizes p KLong (times pts) _ (points_ok_times _ _ Hok) L1 Pt) as (A1 & A2 & A3).
  destruct (value_sizes p dt enc _ _ _ E0 (points_ok_values _ _ Hok) L2 Pv) as (B1 & B2 & B3).
  assert (U : forall v r, 0 <= v < 2 ^ 32 -> arithU p 32 v = Ret r -> r = v) by (intros v r Hv Hr; rewrite arithU_ok in Hr by lia; apply ret_inj in Hr; auto).
  unfold pw_estimate in H. apply bind_ret in H. destruct H as (a & Ha & H). apply bind_ret in H. destruct H as (b & Hb & H).
  apply U in Ha; [|lia]. subst a. apply U in Hb; [|lia]. subst b. apply U in H; [|lia]. subst s.
  unfold page_estimate. change (kbits KLong) with 64 in A3. lia.
Qed.
Lemma next_check_eq : forall size points, next_check_estimate size points = next_check size points.
Proof.
  intros. unfold next_check_estimate, next_check. change (f32_of_Z PAGE_SIZE_THRESHOLD) with (binary32 65536).
  change (f32_of_Z size) with (binary32 size). change (f32_of_Z points) with (binary32 points).
  change f32_mul with (SFmul 24 128). change f32_div with (SFdiv 24 128).
  set (x := SFmul _ _ _ _). destruct x as [s|s| |s m e]; cbn [sf_trunc whole]; auto.
  set (mag := if e <? 0 then Z.pos m / 2 ^ (- e) else Z.pos m * 2 ^ e). assert (0 <= mag).
  { unfold mag. destruct (e <? 0) eqn:Q; [apply Z.div_pos; [lia|apply pow2_pos; apply Z.ltb_lt in Q; lia]|]. apply Z.ltb_ge in Q. pose proof (pow2_pos e Q). lia. }
  clearbody mag. destruct s; [apply Z.max_l; lia|apply Z.max_r; lia].
Qed.

(** ** Lower bounds of the estimate *)
Definition density (dt : dtype) (enc : encoding) : Z :=
  match enc, dt with
  | PLAIN, INT32 => 282 | PLAIN, INT64 => 1056 | PLAIN, FLOAT => 540 | TS2DIFF, INT32 => 40 | TS2DIFF, _ => 48
  end.
Lemma block_len_ge : forall bits b, 0 <= bits -> 8 + 2 * (bits / 8) <= block_len bits b.
Proof.
  intros bits b H. unfold block_len. set (ds := map _ _). set (w := bit_length _).
  assert (0 <= w) by (unfold w, bit_length; destruct (_ =? 0); [lia|]; pose proof (Z.log2_nonneg (greatest ds - least ds)); lia).
  assert (0 <= (zlen ds * w + 7) / 8) by (apply Z.div_pos; pose proof (zlen_nonneg _ ds); nia). lia.
Qed.
Lemma full_count : forall vs, zlen (full_blocks vs) = zlen vs / 129.
Proof.
  intros vs. unfold full_blocks.
  assert (G : forall n l, (length l <= n)%nat -> zlen (filter (fun b : list Z => (length b =? 129)%nat) (chop 129 l)) = zlen l / 129).
  { induction n; intros l Hl.
    - destruct l; [rewrite chop_nil; reflexivity|cbn in Hl; lia].
    - destruct (le_lt_dec 129 (length l)) as [Q|Q].
      + rewrite <- (firstn_skipn 129 l). rewrite chop_app by (try lia; rewrite firstn_length; lia). cbn [filter].
        rewrite firstn_length. replace (Nat.min 129 (length l)) with 129%nat by lia. cbn [Nat.eqb]. rewrite zlen_cons, IHn by (rewrite skipn_length; lia).
        rewrite zlen_app. replace (zlen (firstn 129 l)) with 129 by (unfold zlen; rewrite firstn_length; lia).
        replace (129 + zlen (skipn 129 l)) with (1 * 129 + zlen (skipn 129 l)) by lia. rewrite Z.div_add_l by lia. reflexivity.
      + rewrite (Z.div_small (zlen l)) by (unfold zlen; lia). destruct l as [|a l]; [rewrite chop_nil; reflexivity|].
        rewrite chop_short by (try discriminate; lia). cbn [filter]. replace (length (a :: l) =? 129)%nat with false by (symmetry; apply Nat.eqb_neq; lia). reflexivity. }
  apply (G (length vs)). lia.
Qed.
Lemma ts2_estimate_ge : forall bits vs, bits = 32 \/ bits = 64 ->
  (8 + 2 * (bits / 8)) * (zlen vs / 129) + 24 + Z.max 0 (zlen vs mod 129 - 1) * (bits / 8) <= ts2_estimate bits vs.
Proof.
  intros bits vs Hb. unfold ts2_estimate. rewrite <- full_count. 
  assert (G : forall l : list (list Z), (8 + 2 * (bits / 8)) * zlen l <= fold_right Z.add 0 (map (block_len bits) l)).
  { induction l as [|b l IH]; cbn [map fold_right]; [rewrite zlen_nil; lia|]. rewrite zlen_cons. pose proof (block_len_ge bits b ltac:(lia)). lia. }
  specialize (G (full_blocks vs)). 
  assert (Z.max 0 (zlen vs mod 129 - 1) * (bits / 8) = Z.max 0 (zlen vs mod 129 - 1) * bits / 8); [|lia].
  set (m := Z.max 0 _). destruct Hb as [-> | ->].
  - change 32 with (4 * 8) at 2. rewrite Z.mul_assoc, Z.div_mul by lia. reflexivity.
  - change 64 with (8 * 8) at 2. rewrite Z.mul_assoc, Z.div_mul by lia. reflexivity.
Qed.
Lemma sum_leb_ge : forall l, zlen l <= sum (map leb_len l).
Proof.
  induction l as [|x l IH]; [reflexivity|]. rewrite zlen_cons. cbn [map sum fold_right]. fold (sum (map leb_len l)).
  assert (1 <= leb_len x) by (unfold leb_len; repeat destruct (_ <? _); lia). lia.
Qed.
Lemma estimate_ge : forall dt enc pts, density dt enc * zlen pts <= 129 * page_estimate dt enc pts.
Proof.
  intros dt enc pts. unfold page_estimate. pose proof (ts2_estimate_ge 64 (times pts) ltac:(auto)) as T.
  replace (zlen (times pts)) with (zlen pts) in T by (unfold zlen, times; rewrite map_length; reflexivity).
  set (vs := map value_num (map snd pts)). assert (LV : zlen vs = zlen pts) by (unfold vs, zlen; rewrite !map_length; reflexivity).
  pose proof (Z.div_mod (zlen pts) 129 ltac:(lia)) as DM. pose proof (Z.mod_pos_bound (zlen pts) 129 ltac:(lia)) as MB. change (64 / 8) with 8 in T.
  set (q := zlen pts / 129) in *. set (r := zlen pts mod 129) in *. 
  destruct enc; destruct dt; cbn [density value_estimate].
  - pose proof (sum_leb_ge vs) as SG. unfold sum in SG. lia.
  - lia.
  - lia.
  - pose proof (ts2_estimate_ge 32 vs ltac:(auto)) as V. rewrite LV in V. fold q r in V. change (32 / 8) with 4 in V. lia.
  - pose proof (ts2_estimate_ge 64 vs ltac:(auto)) as V. rewrite LV in V. fold q r in V. change (64 / 8) with 8 in V. lia.
  - pose proof (ts2_estimate_ge 64 vs ltac:(auto)) as V. rewrite LV in V. fold q r in V. change (64 / 8) with 8 in V. lia.
Qed.
Lemma estimate_pos : forall dt enc pts, 0 < page_estimate dt enc pts.
Proof.
  intros. unfold page_estimate. assert (Q : forall bits vs, bits = 32 \/ bits = 64 -> 24 <= ts2_estimate bits vs).
  { intros bits vs Hb. pose proof (ts2_estimate_ge bits vs Hb) as T. pose proof (Z.div_pos (zlen vs) 129 (zlen_nonneg _ vs) ltac:(lia)).
    destruct Hb as [-> | ->]; [change (32 / 8) with 4 in T|change (64 / 8) with 8 in T]; nia. }
  pose proof (Q 64 (times pts) ltac:(auto)). set (vs := map value_num (map snd pts)). pose proof (zlen_nonneg _ vs). 
  pose proof (Q 64 vs ltac:(auto)). pose proof (Q 32 vs ltac:(auto)). pose proof (sum_leb_ge vs) as SG. unfold sum in SG.
  destruct enc, dt; cbn [value_estimate]; lia.
Qed.

(** ** The cut *)
Lemma limit_small : forall dt enc, 7989 < page_limit dt enc <= 211354.
Proof. intros [] []; cbn; lia. Qed.
Lemma limit_step : forall dt enc pts, 1 <= zlen pts -> page_estimate dt enc pts <= 65536 ->
  zlen pts < page_limit dt enc /\ next_check (page_estimate dt enc pts) (zlen pts) < page_limit dt enc.
Proof.
  intros dt enc pts Hn He. pose proof (estimate_ge dt enc pts) as G. pose proof (estimate_pos dt enc pts) as P.
  set (e := page_estimate dt enc pts) in *. set (n := zlen pts) in *. clearbody e n.
  assert (Hn2 : n < page_limit dt enc) by (destruct enc, dt; cbn [density page_limit] in *; lia).
  split; [auto|]. pose proof (limit_small dt enc).
  destruct (next_check_le e n) as [N0 N]; [lia|lia|]. rewrite next_check_eq in *. set (x := next_check e n) in *. clearbody x.
  assert (D : density dt enc * (2 ^ 46 * x) <= (2 ^ 23 + 1) * (2 ^ 23 + 1) * (65536 * 129)).
  { apply (Z.mul_le_mono_pos_r _ _ e); [lia|]. assert (0 < density dt enc) by (destruct enc, dt; reflexivity).
    transitivity (density dt enc * ((2 ^ 23 + 1) * (2 ^ 23 + 1) * (65536 * n))).
    - replace (density dt enc * (2 ^ 46 * x) * e) with (density dt enc * (2 ^ 46 * (x * e))) by ring. apply Z.mul_le_mono_nonneg_l; lia.
    - replace (density dt enc * ((2 ^ 23 + 1) * (2 ^ 23 + 1) * (65536 * n))) with ((2 ^ 23 + 1) * (2 ^ 23 + 1) * 65536 * (density dt enc * n)) by ring.
      replace ((2 ^ 23 + 1) * (2 ^ 23 + 1) * (65536 * 129) * e) with ((2 ^ 23 + 1) * (2 ^ 23 + 1) * 65536 * (129 * e)) by ring.
      apply Z.mul_le_mono_nonneg_l; [lia|auto]. }
  destruct enc, dt; cbn [density page_limit] in *; lia.
Qed.
Definition cut_at (dt : dtype) (enc : encoding) (pages : list (list (Z * value))) (cur : list (Z * value)) (next : Z) :=
  if zlen cur <? next then (pages, cur, next)
  else if 65536 <? page_estimate dt enc cur then (pages ++ [cur], [], 1500)
       else (pages, cur, next_check (page_estimate dt enc cur) (zlen cur)).
Definition cut_inv (dt : dtype) (enc : encoding) (s : list (list (Z * value)) * list (Z * value) * Z) : Prop :=
  let '(pages, cur, next) := s in
  Forall (fun pg => 1500 <= zlen pg <= page_limit dt enc) pages /\ zlen cur < page_limit dt enc /\ next <= page_limit dt enc /\
  match pages with [] => 7989 <= next \/ 7989 <= zlen cur | pg :: _ => 7989 <= zlen pg /\ (1500 <= next \/ 1500 <= zlen cur) end.
Lemma cut_step_inv : forall dt enc s tv, cut_inv dt enc s -> cut_inv dt enc (cut_step dt enc s tv).
Proof.
  intros dt enc [[pages cur] next] tv (A & B & C & D). pose proof (limit_small dt enc) as L.
  assert (Z1 : zlen (cur ++ [tv]) = zlen cur + 1) by (rewrite zlen_app, zlen_cons, zlen_nil; lia). pose proof (zlen_nonneg _ cur).
  unfold cut_step. destruct (Z.ltb_spec (zlen (cur ++ [tv])) next).
  - cbn [cut_inv]. split; [auto|]. split; [lia|]. split; [auto|]. destruct pages; [lia|]. split; [tauto|lia].
  - destruct (Z.ltb_spec 65536 (page_estimate dt enc (cur ++ [tv]))).
    + cbn [cut_inv]. split; [|split; [|split]].
      * apply Forall_app. split; [auto|]. constructor; [|constructor]. destruct pages; lia.
      * rewrite zlen_nil. lia.
      * lia.
      * destruct pages; cbn [app]; [lia|]. lia.
    + destruct (limit_step dt enc (cur ++ [tv])) as [E F]; [lia|lia|]. cbn [cut_inv]. split; [auto|]. split; [lia|]. split; [lia|].
      destruct pages; [lia|]. split; [tauto|lia].
Qed.
Lemma cut_ok : forall dt enc pts, cut_inv dt enc (cut dt enc pts).
Proof.
  intros dt enc pts. unfold cut. assert (G : forall l s, cut_inv dt enc s -> cut_inv dt enc (fold_left (cut_step dt enc) l s)).
  { induction l; cbn [fold_left]; auto using cut_step_inv. }
  apply G. pose proof (limit_small dt enc). cbn [cut_inv]. split; [constructor|]. rewrite zlen_nil. lia.
Qed.
Lemma cut_snoc : forall dt enc pts tv, cut dt enc (pts ++ [tv]) = cut_step dt enc (cut dt enc pts) tv.
Proof. intros. unfold cut. rewrite fold_left_app. reflexivity. Qed.
Lemma cut_concat : forall dt enc pts, let '(pages, cur, _) := cut dt enc pts in concat pages ++ cur = pts.
Proof.
  intros dt enc pts. induction pts as [|tv l IH] using rev_ind; [reflexivity|]. rewrite cut_snoc. destruct (cut dt enc l) as [[pages cur] next].
  unfold cut_step. destruct (_ <? next); [rewrite app_assoc, IH; reflexivity|]. destruct (65536 <? _).
  - rewrite concat_app. cbn [concat]. rewrite !app_nil_r, app_assoc, IH. reflexivity.
  - rewrite app_assoc, IH. reflexivity.
Qed.

Section Cut.
Variables (p : profile) (snap decomp : list Z -> option (list Z)).
Hypothesis HG : good_snap snap decomp.
Lemma check_cut : forall id dt comp enc c pages ims cur c',
  chunk_inv p decomp id dt comp enc c pages ims cur -> 1 <= zlen cur <= page_limit dt enc ->
  check_page_size p snap c = Ret c' ->
  let '(pages', cur', next') := cut_at dt enc pages cur (cw_next_check c) in
  exists ims', chunk_inv p decomp id dt comp enc c' pages' ims' cur' /\ cw_next_check c' = next'.
Proof.
  intros id dt comp enc c pages ims cur c' I Hc H. unfold check_page_size in H. pose proof (limit_small dt enc) as L.
  pose proof (ci_cur _ _ _ _ _ _ _ _ _ _ I) as IC.
  assert (N : forall n c pages ims cur, chunk_inv p decomp id dt comp enc c pages ims cur -> chunk_inv p decomp id dt comp enc (cw_with_next n c) pages ims cur).
  { intros n c0 pg0 im0 cu0 I0. destruct I0. split; auto. }
  destruct (cw_page c) as [pw|] eqn:EP.
  2: { destruct IC as [-> _]. rewrite zlen_nil in Hc. lia. }
  pose proof (ps_points _ _ _ _ _ IC) as PN. rewrite PN in H. unfold MAX_NUMBER_OF_POINTS_IN_PAGE in H.
  destruct (Z.gtb_spec (zlen cur) 1048576); [lia|]. unfold cut_at. rewrite Z.geb_leb in H.
  destruct (Z.ltb_spec (zlen cur) (cw_next_check c)).
  - replace (cw_next_check c <=? zlen cur) with false in H by (symmetry; apply Z.leb_gt; lia). apply ret_inj in H. subst c'. eauto.
  - replace (cw_next_check c <=? zlen cur) with true in H by (symmetry; apply Z.leb_le; lia).
    apply bind_ret in H. destruct H as (sz & Hsz & H).
    assert (points_ok dt cur) by (pose proof (ci_ok _ _ _ _ _ _ _ _ _ _ I) as O; apply Forall_app in O; apply O).
    apply (estimate_ok p dt enc cur) in Hsz; auto; [|lia]. subst sz.
    change PAGE_SIZE_THRESHOLD with 65536 in H. rewrite Z.gtb_ltb in H. destruct (65536 <? page_estimate dt enc cur).
    + apply bind_ret in H. destruct H as (r & Hr & H). apply ret_inj in H. subst c'.
      destruct (write_page_ok p snap decomp HG _ _ _ _ _ _ _ _ _ I ltac:(lia) Hr) as (_ & im & I'). exists (ims ++ [im]). split; [apply N; auto|reflexivity].
    + apply ret_inj in H. subst c'. exists ims. split; [apply N; auto|]. cbn [cw_with_next cw_next_check]. apply next_check_eq.
Qed.
Lemma write_cut : forall id dt comp enc c pages ims cur t v c',
  chunk_inv p decomp id dt comp enc c pages ims cur -> zlen cur < page_limit dt enc ->
  i64_min <= t <= i64_max -> value_ok dt v -> zlen (concat pages ++ cur) + 1 < 2 ^ 32 ->
  cw_write p snap t v c = Ret (inl c') ->
  let '(pages', cur', next') := cut_step dt enc (pages, cur, cw_next_check c) (t, v) in
  exists ims', chunk_inv p decomp id dt comp enc c' pages' ims' cur' /\ cw_next_check c' = next'.
Proof.
  intros id dt comp enc c pages ims cur t v c' I Hc Ht Hv Hl H. unfold cw_write in H.
  pose proof (ci_cur _ _ _ _ _ _ _ _ _ _ I) as IC.
  set (m := match cw_page c with Some pw => inl pw | None => pw_new (cw_type c) (cw_enc c) end) in H.
  destruct m as [pw|err] eqn:M; [|apply ret_inj in H; discriminate].
  assert (PS : page_state p dt enc cur pw).
  { unfold m in M. destruct (cw_page c).
    - inversion M; subst. exact IC.
    - destruct IC as [-> _]. rewrite (ci_type _ _ _ _ _ _ _ _ _ _ I), (ci_enc _ _ _ _ _ _ _ _ _ _ I) in M. apply page_state_new; auto. }
  apply bind_ret in H. destruct H as (pw' & Hw & H). apply bind_ret in H. destruct H as (c1 & H1 & H).
  apply ret_inj in H. inversion H; subst c1. clear H.
  pose proof (limit_small dt enc) as L. assert (Lc : zlen cur + 1 < 2 ^ 32) by lia.
  pose proof (page_state_write _ _ _ _ _ _ _ _ PS Hv Lc Hw) as PS'.
  assert (I' : chunk_inv p decomp id dt comp enc (cw_with_page (Some pw') c) pages ims (cur ++ [(t, v)])).
  { destruct I as [I1 I2 I3 I4 Iims Ipg Iok Itot Icur Inum Ist Ibuf Ifirst].
    split; cbn [cw_with_page cw_id cw_type cw_comp cw_enc cw_page cw_stats cw_num_pages cw_buffer cw_first_stats cw_size_wo_stats]; auto.
    - rewrite app_assoc. apply Forall_app. split; [auto|repeat constructor; cbn [fst snd]; auto; apply Ht].
    - rewrite app_assoc, zlen_app, zlen_cons, zlen_nil. lia. }
  assert (L1 : 1 <= zlen (cur ++ [(t, v)]) <= page_limit dt enc).
  { rewrite zlen_app, zlen_cons, zlen_nil. pose proof (zlen_nonneg _ cur). lia. }
  exact (check_cut _ _ _ _ _ _ _ _ _ I' L1 H1).
Qed.
Lemma run_cut : forall id dt comp enc pts c, points_ok dt pts -> zlen pts < 2 ^ 32 ->
  cw_run p snap pts (cw_new id dt comp enc) = Ret (inl c) ->
  let '(pages, cur, next) := cut dt enc pts in
  exists ims, chunk_inv p decomp id dt comp enc c pages ims cur /\ cw_next_check c = next.
Proof.
  intros id dt comp enc pts. induction pts as [|[t v] l IH] using rev_ind; intros c Hok Hl H.
  - unfold cw_run in H. cbn [foldM] in H. apply ret_inj in H. inversion H; subst c. cbn. exists []. split; [apply chunk_inv_new|reflexivity].
  - apply Forall_app in Hok. destruct Hok as [Hok Hx]. inversion Hx as [|? ? [Ht Hv] _]; subst. cbn [fst snd] in *.
    rewrite zlen_app, zlen_cons, zlen_nil in Hl. rewrite cw_run_snoc in H. apply bind_ret in H. destruct H as (s & Hs & H).
    destruct s as [c1|]; [|discriminate]. specialize (IH c1 Hok ltac:(lia) Hs). rewrite cut_snoc.
    pose proof (cut_ok dt enc l) as CI. pose proof (cut_concat dt enc l) as CC. destruct (cut dt enc l) as [[pages cur] next].
    destruct IH as (ims & I & <-). cbn [cut_inv] in CI. cbn [fst snd] in H.
    refine (write_cut _ _ _ _ _ _ _ _ _ _ _ I _ Ht Hv _ H); [tauto|rewrite CC; lia].
Qed.
(** Pages and open page while writing. *)
Lemma pages_cut : forall id dt comp enc pts c, points_ok dt pts -> zlen pts < 2 ^ 32 ->
  cw_run p snap pts (cw_new id dt comp enc) = Ret (inl c) ->
  let '(pages, cur, next) := cut dt enc pts in
  cw_num_pages c = zlen pages /\ cw_next_check c = next /\
  match cw_page c with Some w => pw_points w = zlen cur | None => cur = [] end /\
  (pages <> [] -> exists qs, chunk_data decomp (if zlen pages <=? 1 then 5 else 1) (dtype_code dt)
      (compression_code comp) (encoding_code enc) (cw_buffer c) = Some qs /\
    map pg_points qs = map tnums pages).
Proof.
  intros id dt comp enc pts c Hok Hl H. pose proof (run_cut _ _ _ _ _ _ Hok Hl H) as R. pose proof (cut_concat dt enc pts) as CC.
  destruct (cut dt enc pts) as [[pages cur] next]. destruct R as (ims & I & E). split; [apply I|]. split; [auto|]. split.
  - pose proof (ci_cur _ _ _ _ _ _ _ _ _ _ I) as IC. destruct (cw_page c); [apply IC|tauto].
  - intros Hne. rewrite (ci_buf _ _ _ _ _ _ _ _ _ _ I).
    assert (K : Forall (points_ok dt) pages). { apply points_ok_concat. rewrite <- CC in Hok. apply Forall_app in Hok. tauto. }
    destruct (buffer_read p snap decomp dt comp enc pages ims (ci_ims _ _ _ _ _ _ _ _ _ _ I) K Hne) as (qs & Q1 & Q2).
    exists qs. split; auto. clear - Q2. induction Q2 as [|x y l l' [A _] Q IH]; cbn; auto. rewrite A. f_equal; auto.
Qed.
(** The chunk after the final seal. *)
Lemma seal_cut : forall id dt comp enc pts c, points_ok dt pts -> zlen pts < 2 ^ 32 -> pts <> [] ->
  cw_session p snap id dt comp enc pts = Ret (inl c) ->
  let '(pages, cur, _) := cut dt enc pts in
  let all := pages ++ match cur with [] => [] | _ => [cur] end in
  cw_num_pages c = zlen all /\
  exists qs, chunk_data decomp (if zlen all <=? 1 then 5 else 1) (dtype_code dt)
      (compression_code comp) (encoding_code enc) (cw_buffer c) = Some qs /\
    map pg_points qs = map tnums all.
Proof.
  intros id dt comp enc pts c Hok Hl Hne H. unfold cw_session in H. apply bind_ret in H.
  destruct H as (s & Hs & H). destruct s as [c1|]; [|discriminate]. apply bind_ret in H. destruct H as (c2 & Hc & H).
  apply ret_inj in H. assert (c2 = c) by congruence. subst c2. clear H.
  pose proof (run_cut _ _ _ _ _ _ Hok Hl Hs) as R. pose proof (cut_concat dt enc pts) as CC. pose proof (cut_ok dt enc pts) as CI.
  destruct (cut dt enc pts) as [[pages cur] next]. destruct R as (ims & I & _). cbn [cut_inv] in CI. intros all.
  pose proof (limit_small dt enc) as L.
  assert (S : exists ims', chunk_inv p decomp id dt comp enc c all ims' []).
  { unfold seal_current_page in Hc. pose proof (ci_cur _ _ _ _ _ _ _ _ _ _ I) as IC. destruct (cw_page c1) as [pw|] eqn:EP.
    - rewrite (ps_points _ _ _ _ _ IC) in Hc. destruct cur as [|a cur].
      + rewrite zlen_nil in Hc. cbn in Hc. apply ret_inj in Hc. subst c1. unfold all. rewrite app_nil_r. eauto.
      + pose proof (zlen_nonneg _ cur). destruct (Z.gtb_spec (zlen (a :: cur)) 0); [|rewrite zlen_cons in *; lia].
        apply bind_ret in Hc. destruct Hc as (r & Hr & Hc). apply ret_inj in Hc. subst c.
        destruct (write_page_ok p snap decomp HG _ _ _ _ _ _ _ _ _ I ltac:(lia) Hr) as (_ & im & I'). exists (ims ++ [im]). exact I'.
    - apply ret_inj in Hc. subst c1. destruct IC as [-> ->]. exists ims. exact I. }
  assert (CA : concat all = pts).
  { unfold all. rewrite concat_app, <- CC. destruct cur; cbn [concat]; rewrite ?app_nil_r; reflexivity. }
  clearbody all. destruct S as (ims' & I'). split; [apply I'|]. rewrite (ci_buf _ _ _ _ _ _ _ _ _ _ I').
  assert (K : Forall (points_ok dt) all). { apply points_ok_concat. rewrite CA. exact Hok. }
  destruct (buffer_read p snap decomp dt comp enc all ims' (ci_ims _ _ _ _ _ _ _ _ _ _ I') K) as (qs & Q1 & Q2); [intros ->; cbn in CA; congruence|].
  exists qs. split; auto. clear - Q2. induction Q2 as [|x y l l' [A _] Q IH]; cbn; auto. rewrite A. f_equal; auto.
Qed.
End Cut.

(** ** First pages *)
Lemma cut_short : forall dt enc pts, zlen pts < 7989 -> cut dt enc pts = ([], pts, 7989).
Proof.
  intros dt enc pts. induction pts as [|tv l IH] using rev_ind; intros H; [reflexivity|].
  assert (H' := H). rewrite zlen_app, zlen_cons, zlen_nil in H'. rewrite cut_snoc, IH by lia. unfold cut_step.
  destruct (Z.ltb_spec (zlen (l ++ [tv])) 7989); [reflexivity|lia].
Qed.
Lemma cut_keeps : forall dt enc l pg pages cur next, exists rest cur' next',
  fold_left (cut_step dt enc) l (pg :: pages, cur, next) = (pg :: rest, cur', next').
Proof.
  intros dt enc l. induction l as [|tv l IH]; intros pg pages cur next; [eexists _, _, _; reflexivity|]. cbn [fold_left].
  unfold cut_step at 2. destruct (_ <? next); [apply IH|]. destruct (65536 <? _); [cbn [app]; apply IH|apply IH].
Qed.
Lemma cut_int64 : forall pts, 7989 <= zlen pts -> exists rest cur next,
  cut INT64 PLAIN pts = (firstn (Z.to_nat 7989) pts :: rest, cur, next).
Proof.
  intros pts H. set (a := firstn (Z.to_nat 7989) pts). set (b := skipn (Z.to_nat 7989) pts).
  replace (cut INT64 PLAIN pts) with (cut INT64 PLAIN (a ++ b)) by (unfold a, b; rewrite firstn_skipn; reflexivity).
  assert (La : zlen a = 7989) by (unfold a, zlen in *; rewrite firstn_length; lia). clearbody a b.
  destruct a as [|tv a _] using rev_ind; [rewrite zlen_nil in La; lia|].
  assert (La' := La). rewrite zlen_app, zlen_cons, zlen_nil in La'.
  unfold cut. rewrite fold_left_app. fold (cut INT64 PLAIN (a ++ [tv])). rewrite cut_snoc, cut_short by lia. unfold cut_step at 2.
  rewrite La. cbn [Z.ltb Z.compare Pos.compare Pos.compare_cont].
  assert (E : 65536 < page_estimate INT64 PLAIN (a ++ [tv])).
  { unfold page_estimate. pose proof (ts2_estimate_ge 64 (times (a ++ [tv])) ltac:(auto)) as T.
    replace (zlen (times (a ++ [tv]))) with 7989 in T by (rewrite <- La; unfold zlen, times; rewrite map_length; reflexivity).
    cbn [value_estimate]. replace (zlen (map value_num (map snd (a ++ [tv])))) with 7989 by (rewrite <- La; unfold zlen; rewrite !map_length; reflexivity).
    change (7989 / 129) with 61 in T. change (7989 mod 129) with 120 in T. change (64 / 8) with 8 in T. lia. }
  apply Z.ltb_lt in E. rewrite E. cbn [app]. apply cut_keeps.
Qed.
Lemma first_page_int64 : forall p snap decomp id comp pts c, good_snap snap decomp -> points_ok INT64 pts ->
  7989 <= zlen pts < 2 ^ 32 -> cw_session p snap id INT64 comp PLAIN pts = Ret (inl c) ->
  exists q qs, chunk_data decomp (if zlen pts =? 7989 then 5 else 1) (dtype_code INT64) (compression_code comp) (encoding_code PLAIN) (cw_buffer c)
      = Some (q :: qs) /\
    pg_points q = tnums (firstn (Z.to_nat 7989) pts).
Proof.
  intros p snap decomp id comp pts c HG Hok Hl H.
  assert (Hne : pts <> []) by (intros ->; rewrite zlen_nil in Hl; lia).
  pose proof (seal_cut p snap decomp HG id INT64 comp PLAIN pts c Hok ltac:(lia) Hne H) as S.
  destruct (cut_int64 pts ltac:(lia)) as (rest & cur & next & E). pose proof (cut_concat INT64 PLAIN pts) as CC. rewrite E in S, CC. 
  destruct S as (_ & qs & Q & M). set (a := firstn (Z.to_nat 7989) pts) in *. set (tl := rest ++ match cur with [] => [] | _ :: _ => [cur] end) in *.
  change ((a :: rest) ++ match cur with [] => [] | _ :: _ => [cur] end) with (a :: tl) in *.
  destruct qs as [|q qs]; [discriminate|]. cbn [map] in M. injection M as M1 M2. exists q, qs. split; [|auto].
  rewrite <- Q. f_equal. assert (La : zlen a = 7989) by (unfold a, zlen in *; rewrite firstn_length; lia).
  assert (CT : zlen a + zlen (concat tl) = zlen pts).
  { rewrite <- CC. cbn [concat]. rewrite <- app_assoc, zlen_app. f_equal. f_equal. unfold tl. rewrite concat_app. destruct cur; cbn [concat]; rewrite ?app_nil_r; reflexivity. }
  rewrite zlen_cons. pose proof (cut_ok INT64 PLAIN pts) as CI. rewrite E in CI. cbn [cut_inv] in CI. destruct CI as (CF & _). pose proof (Forall_inv_tail CF) as CR.
  destruct tl as [|b tl'] eqn:ET.
  - rewrite zlen_nil. cbn [concat] in CT. rewrite zlen_nil in CT. replace (zlen pts =? 7989) with true by (symmetry; apply Z.eqb_eq; lia). reflexivity.
  - rewrite zlen_cons. pose proof (zlen_nonneg _ tl'). replace (1 + (1 + zlen tl') <=? 1) with false by (symmetry; apply Z.leb_gt; lia).
    assert (1 <= zlen b).
    { destruct rest as [|r rest].
      - unfold tl in ET. destruct cur as [|x cur]; [discriminate|]. cbn [app] in ET. injection ET as E1 _. subst b. rewrite zlen_cons. pose proof (zlen_nonneg _ cur). lia.
      - unfold tl in ET. cbn [app] in ET. injection ET as E1 _. subst b. pose proof (Forall_inv CR) as C1. cbn beta in C1. lia. }
    cbn [concat] in CT. rewrite zlen_app in CT. pose proof (zlen_nonneg _ (concat tl')).
    replace (zlen pts =? 7989) with false by (symmetry; apply Z.eqb_neq; lia). reflexivity.
Qed.
