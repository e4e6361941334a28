(** The bytes of columns (C55). *)
From Verif Require Export PPage SLayout.
Ltac Zify.zify_post_hook ::= idtac.

(** ** Numbers *)
Lemma digits_be : forall n v, digits n v = be_bytes n v.
Proof.
  assert (S1 : forall n v, be_bytes (S n) v = be_bytes n (v / 256) ++ [v mod 256]).
  { induction n; intros v.
    - cbn [be_bytes app]. change (2 ^ (8 * Z.of_nat 0)) with 1. rewrite Z.div_1_r. reflexivity.
    - change (be_bytes (S (S n)) v) with ((v / 2 ^ (8 * Z.of_nat (S n))) mod 256 :: be_bytes (S n) v). rewrite IHn.
      cbn [be_bytes app]. f_equal. f_equal. rewrite Z.div_div by (try (apply pow2_pos; lia); lia). f_equal.
      change 256 with (2 ^ 8). rewrite <- Z.pow_add_r by lia. f_equal. lia. }
  induction n; intros v; [reflexivity|]. rewrite S1, <- IHn. reflexivity.
Qed.
Lemma leb_groups_vb : forall n u, leb_groups n u = vb n u.
Proof. induction n; intros u; cbn [leb_groups vb]; [reflexivity|]. destruct (u <? 128); [reflexivity|]. f_equal; [lia|auto]. Qed.
Lemma leb_var : forall u, 0 <= u < 2 ^ 32 -> wbytes (write_var_u32 u) = leb u.
Proof. intros u H. rewrite write_var_u32_vb by auto. unfold leb. rewrite leb_groups_vb. reflexivity. Qed.
Lemma leb_zigzag : forall n, - 2 ^ 31 <= n < 2 ^ 31 -> wbytes (write_var_i32 n) = leb (zigzag n).
Proof.
  intros n H. pose proof (zigzag_range n H) as R. unfold write_var_i32. rewrite leb_var by auto. rewrite zigzag_spec by auto. reflexivity.
Qed.
(** A list of bytes is the digits of its value. *)
Lemma digits_val : forall l, bytes l -> digits (length l) (be_val l) = l.
Proof.
  induction l as [|x l IH] using rev_ind; intros H; [reflexivity|]. apply bytes_app in H. destruct H as [H1 H2]. inversion H2 as [|? ? Hx _]; subst.
  rewrite app_length. cbn [length]. rewrite Nat.add_1_r. cbn [digits]. rewrite be_val_snoc. red in Hx.
  rewrite Z.div_add_l, Z.div_small, Z.add_0_r by lia. rewrite Z.add_comm, Z.mod_add, Z.mod_small by lia. rewrite IH by auto. reflexivity.
Qed.

(** ** TS_2DIFF *)
Lemma payload_exact : forall k ds payload, Forall (signed_in (kbits k)) ds -> ds <> [] ->
  let low := least ds in let w := bit_length (greatest ds - low) in let n := zlen ds * w in
  pack_loop k w 0 (rel_deltas k low ds) [] = Ret payload ->
  payload = digits (Z.to_nat ((n + 7) / 8)) (fold_left (fun a d => a * 2 ^ w + (d - low)) ds 0 * 2 ^ ((- n) mod 8)).
Proof.
  intros k ds payload S Hne low w n H. pose proof (kbits_pos k) as Kb.
  pose proof (width_spread k ds S Hne) as W. fold low w in W.
  pose proof (calc_width_range k (rel_deltas k low ds)) as Wr. rewrite W in Wr.
  pose proof (calc_width_ge k (rel_deltas k low ds)) as Wg. rewrite W in Wg.
  assert (Hsig : Forall (signed_in (kbits k)) (rel_deltas k low ds)).
  { unfold rel_deltas. apply Forall_forall. intros x Hx. apply in_map_iff in Hx. destruct Hx as (d & <- & _). red. apply wrapS_range. lia. }
  assert (Hfit : Forall (fits k w) (rel_deltas k low ds)).
  { rewrite Forall_forall in *. intros x Hx. apply width_fits; auto. split; [apply Wg; auto|lia]. }
  destruct (pack_loop_inv k w (rel_deltas k low ds) 0 [] 0 Wr ltac:(lia) Hfit) as (r & HR & Hb & Hp & HV & Hl & Hv).
  { replace (0 * w) with 0 by lia. apply bits_inv_nil. }
  rewrite H in HR. apply ret_inj in HR. subst r.
  assert (L : zlen (rel_deltas k low ds) = zlen ds) by (unfold rel_deltas, zlen; rewrite map_length; reflexivity).
  rewrite L, Z.add_0_l in *. fold n in Hp, HV, Hl, Hv.
  assert (F : fold_left (fun a v => a * 2 ^ w + v mod 2 ^ w) (rel_deltas k low ds) 0 = fold_left (fun a d => a * 2 ^ w + (d - low)) ds 0).
  { destruct (least_spec ds Hne) as [L1 L2]. destruct (greatest_spec ds Hne) as [G1 G2]. fold low in L1, L2.
    assert (Q : forall d, In d ds -> wrapS (kbits k) (d - low) mod 2 ^ w = d - low).
    { intros d Hd. rewrite Forall_forall in L2, G2, S. specialize (L2 _ Hd). specialize (G2 _ Hd). pose proof (S _ Hd) as [A B]. pose proof (S _ L1) as [A' B'].
      assert (D : d - low < 2 ^ w).
      { unfold w, bit_length. destruct (Z.eqb_spec (greatest ds - low) 0); [change (2 ^ 0) with 1; lia|].
        pose proof (Z.log2_spec (greatest ds - low) ltac:(lia)) as [_ LS]. rewrite Z.add_1_r. lia. }
      assert (E : wrapS (kbits k) (d - low) mod 2 ^ kbits k = d - low).
      { rewrite wrapS_mod by lia. apply Z.mod_small. pose proof (pow2_split (kbits k) ltac:(lia)). lia. }
      assert (P : 2 ^ kbits k = 2 ^ w * 2 ^ (kbits k - w)) by (rewrite <- Z.pow_add_r by lia; f_equal; lia).
      pose proof (pow2_pos w ltac:(lia)). pose proof (pow2_pos (kbits k - w) ltac:(lia)).
      rewrite P, Z.rem_mul_r in E by lia. 
      assert (X : (wrapS (kbits k) (d - low) mod 2 ^ w + 2 ^ w * ((wrapS (kbits k) (d - low) / 2 ^ w) mod 2 ^ (kbits k - w))) mod 2 ^ w = (d - low) mod 2 ^ w) by (rewrite E; reflexivity).
      rewrite (Z.mul_comm (2 ^ w)), Z.mod_add, Z.mod_mod in X by lia. rewrite X. apply Z.mod_small. lia. }
    clear - Q. clearbody w low. generalize 0 as a. unfold rel_deltas. induction ds as [|d ds IH]; intros a; cbn [map fold_left]; [reflexivity|].
    rewrite Q by (left; auto). apply IH. intros x Hx. apply Q. right. auto. }
  rewrite F in *. rewrite <- (digits_val payload Hb), Hv. f_equal; [unfold zlen in Hl; lia|]. f_equal. f_equal. rewrite Hl.
  pose proof (zlen_nonneg _ ds). assert (0 <= n) by (unfold n; nia). clear - H1.
  pose proof (Z.div_mod (n + 7) 8 ltac:(lia)). pose proof (Z.mod_pos_bound (n + 7) 8 ltac:(lia)).
  apply (Z.mod_unique _ _ (- ((n + 7) / 8))); lia.
Qed.

(** The encoder state between two values: [t_buf] holds the finished blocks. *)
Lemma flush_exact : forall p k e e' b, ts2_flush p k e = Ret e' -> t_first e = hd_error b -> b <> [] -> (length b <= 129)%nat ->
  t_values e = map (wrapS (kbits k)) (steps b) -> t_min e = min_of k (t_values e) ->
  t_buf e' = t_buf e ++ ts2_block_bytes (kbits k) b.
Proof.
  intros p k e e' b H Hf Hb Hlen Hv Hm. pose proof (kbits_pos k) as Kb. unfold ts2_flush in H. rewrite Hf in H.
  destruct b as [|f b]; [congruence|]. cbn [hd_error] in H. apply bind_ret in H. destruct H as (r & Hr & H).
  assert (r = rel_deltas k (t_min e) (t_values e)).
  { eapply mapM_inv; [|exact Hr]. cbn. intros a d _ Ha. eapply arithS_inv; [|exact Ha]. lia. }
  subst r. apply bind_ret in H. destruct H as (payload & HP & H). apply ret_inj in H. subst e'. cbn [t_buf]. f_equal.
  unfold ts2_block_bytes. rewrite sgn_map, <- Hv.
  assert (S : Forall (signed_in (kbits k)) (t_values e)) by (rewrite Hv; apply wrap_steps_signed).
  assert (Lv : 0 <= zlen (t_values e) <= 128).
  { unfold zlen. rewrite Hv, map_length, steps_length. cbn [length] in *. lia. }
  rewrite !digits_be. rewrite (wrapU_small 32 (zlen (t_values e))) by lia.
  replace (Z.to_nat (kbits k / 8)) with (kbytes k) by (destruct k; reflexivity). cbn [hd].
  destruct (t_values e) as [|d0 ds0] eqn:EV.
  - cbn in HP. apply ret_inj in HP. subst payload. rewrite Hm. cbn. reflexivity.
  - assert (Hne : d0 :: ds0 <> []) by discriminate. rewrite <- EV in *. clear EV.
    rewrite Hm, min_of_least in * by auto. pose proof (width_spread k _ S Hne) as W. pose proof (calc_width_range k (rel_deltas k (least (t_values e)) (t_values e))) as Wr.
    rewrite W in *. rewrite (wrapU_small 32) by lia. rewrite (payload_exact k _ _ S Hne HP). rewrite digits_be. reflexivity.
Qed.
Lemma write_exact : forall p k v e e' done cur, ts2_rep p k e done cur -> ts2_write p k v e = Ret e' ->
  t_buf e' = t_buf e ++ if (length cur =? 128)%nat then ts2_block_bytes (kbits k) (cur ++ [v]) else [].
Proof.
  intros p k v e e' done cur R H. pose proof (kbits_pos k) as Kb. unfold ts2_write in H. apply bind_ret in H. destruct H as (e1 & H1 & H).
  assert (S : t_first e1 = hd_error (cur ++ [v]) /\ t_buf e1 = t_buf e /\ t_values e1 = map (wrapS (kbits k)) (steps (cur ++ [v])) /\ t_min e1 = min_of k (t_values e1)).
  { destruct cur as [|a cur _] using rev_ind.
    - rewrite (r_first _ _ _ _ _ R) in H1. cbn [hd_error] in H1. apply ret_inj in H1. subst e1. cbn.
      pose proof (r_vals _ _ _ _ _ R) as V. pose proof (r_min _ _ _ _ _ R) as M. cbn in V. rewrite V in *. split; [congruence|]. auto.
    - assert (F : exists f, t_first e = Some f). { rewrite (r_first _ _ _ _ _ R). destruct cur; cbn; eauto. }
      destruct F as [f F]. rewrite F in H1. apply bind_ret in H1. destruct H1 as (d & Hd & H1). apply ret_inj in H1. subst e1. cbn [t_first t_buf t_values t_min].
      apply arithS_inv in Hd; [|lia]. pose proof (r_prev _ _ _ _ _ R) as P. rewrite last_snoc in P. rewrite P in Hd by (destruct cur; discriminate). subst d.
      split; [rewrite (r_first _ _ _ _ _ R) in *; destruct cur; cbn in *; congruence|]. split; [auto|]. split.
      + rewrite steps_snoc, map_app, (r_vals _ _ _ _ _ R). reflexivity.
      + rewrite min_of_snoc, (r_min _ _ _ _ _ R). reflexivity. }
  destruct S as (S1 & S2 & S3 & S4).
  assert (L : zlen (t_values e1) = Z.of_nat (length cur)).
  { unfold zlen. rewrite S3, map_length, steps_length, app_length. cbn. lia. }
  rewrite L in H. destruct (Nat.eqb_spec (length cur) 128) as [E|E].
  - rewrite E in H. cbn in H. rewrite <- S2. apply (flush_exact p k e1 e' (cur ++ [v]) H S1); auto; [destruct cur; discriminate|].
    rewrite app_length. cbn. lia.
  - replace (Z.of_nat (length cur) =? 128) with false in H by (symmetry; apply Z.eqb_neq; lia). apply ret_inj in H. subst e'. rewrite S2, app_nil_r. reflexivity.
Qed.
Lemma write_all_exact : forall p k vs e done cur e', ts2_rep p k e done cur -> t_buf e = concat (map (ts2_block_bytes (kbits k)) done) ->
  Forall (signed_in (kbits k)) vs -> ts2_write_all p k vs e = Ret e' ->
  exists done' cur', ts2_rep p k e' done' cur' /\ concat done' ++ cur' = concat done ++ cur ++ vs /\
    t_buf e' = concat (map (ts2_block_bytes (kbits k)) done').
Proof.
  unfold ts2_write_all. induction vs as [|v vs IH]; cbn [foldM]; intros e done cur e' R L Hv H.
  - apply ret_inj in H. subst e'. exists done, cur. rewrite app_nil_r. auto.
  - inversion Hv; subst. apply bind_ret in H. destruct H as (e1 & H1 & H). pose proof (write_exact _ _ _ _ _ _ _ R H1) as WL.
    destruct (write_spec p k e done cur v R ltac:(auto)) as [_ W].
    destruct (W e1 H1) as [[Q R1]|[Q R1]].
    + replace (length cur =? 128)%nat with false in WL by (symmetry; apply Nat.eqb_neq; lia). rewrite app_nil_r in WL.
      destruct (IH _ _ _ _ R1 ltac:(congruence) ltac:(auto) H) as (d' & c' & R' & E & F). exists d', c'. split; auto. split; auto.
      rewrite E, <- app_assoc. reflexivity.
    + rewrite Q in WL. cbn [Nat.eqb] in WL. assert (L1 : t_buf e1 = concat (map (ts2_block_bytes (kbits k)) (done ++ [cur ++ [v]]))).
      { rewrite map_app, concat_app. cbn [map concat]. rewrite app_nil_r. congruence. }
      destruct (IH _ _ _ _ R1 L1 ltac:(auto) H) as (d' & c' & R' & E & F). exists d', c'. split; auto. split; auto.
      rewrite E, concat_app. cbn [concat app]. rewrite app_nil_r, <- !app_assoc. reflexivity.
Qed.
Lemma ts2_exact : forall p k vs b, Forall (signed_in (kbits k)) vs -> ts2_encode p k vs = Ret b -> b = ts2_bytes (kbits k) vs.
Proof.
  intros p k vs b Hv H. unfold ts2_encode in H. apply bind_ret in H. destruct H as (e & He & H).
  apply bind_ret in H. destruct H as (r & Hs & H). apply ret_inj in H. subst b.
  unfold ts2_serialize in Hs. apply bind_ret in Hs. destruct Hs as (e1 & H1 & Hs). apply ret_inj in Hs. subst r. cbn [snd].
  destruct (write_all_exact p k vs _ [] [] e (rep_new p k) eq_refl Hv He) as (done & cur & R & E & L).
  cbn [concat app] in E. pose proof (r_len _ _ _ _ _ R) as Lc. pose proof (r_dlen _ _ _ _ _ R) as Ld.
  unfold ts2_bytes. rewrite <- E, chop_concat by (auto; lia). destruct cur as [|a cur].
  - unfold ts2_flush in H1. rewrite (r_first _ _ _ _ _ R) in H1. cbn [hd_error] in H1. apply ret_inj in H1. subst e1.
    rewrite chop_nil, app_nil_r. exact L.
  - rewrite chop_short by (try discriminate; lia). rewrite map_app, concat_app. cbn [map concat]. rewrite app_nil_r, <- L.
    apply (flush_exact p k e e1 (a :: cur) H1); [apply R|discriminate|lia|apply R|apply R].
Qed.
Lemma column_exact : forall p dt enc vs r, Forall (value_ok dt) vs -> encode_column p dt enc vs = Ret (Some r) ->
  r = column_bytes dt enc (map value_num vs).
Proof.
  intros p dt enc vs r Hv H.
  assert (T : forall k, dt = kdtype k -> enc = TS2DIFF -> r = ts2_bytes (kbits k) (map value_num vs)).
  { intros k -> ->. unfold encode_column in H.
    replace (encoder_new (kdtype k) TS2DIFF) with (@inl encoder tserror (EncTs2 k (ts2_new k))) in H by (destruct k; reflexivity).
    cbn iota in H. rewrite ts2_encoder_write_all in H by auto. apply (ts2_exact p k); [apply map_signed; auto|].
    unfold ts2_encode. destruct (ts2_write_all p k (map value_num vs) (ts2_new k)) as [e'|] eqn:E; [|discriminate].
    cbn [bind] in *. cbn [encoder_serialize] in H. destruct (ts2_serialize p k e') as [[e2 b]|] eqn:E2; [|discriminate].
    cbn [bind snd] in *. congruence. }
  destruct enc; [|destruct dt; [apply (T KInt); auto|apply (T KLong); auto|discriminate]].
  unfold encode_column, encoder_new in H.
  assert (HE : (let* s := encoder_write_all p vs (EncPlain dt []) in
         match s with Some e => let* r := encoder_serialize p e in Ret (Some (snd r)) | None => Ret None end) = Ret (Some r))
    by (destruct dt; exact H).
  rewrite plain_write_all in HE. cbn in HE. assert (r = concat (map plain_bytes vs)) by congruence. subst r.
  cbn [column_bytes]. clear - Hv. destruct dt; induction Hv as [|v vs Q _ IH]; cbn [map concat]; auto; rewrite IH; f_equal;
    destruct v; cbn in Q; try tauto; cbn [plain_bytes value_num]; rewrite ?digits_be; auto. apply leb_zigzag. auto.
Qed.
