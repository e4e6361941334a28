(** Bit packing: C06. *)
From Verif Require Export PVarint MEnc.

(** [r] holds exactly [pos] bits with value [V], padded with zeros to whole bytes *)
Definition bits_inv (r : list Z) (pos V : Z) : Prop :=
  bytes r /\ 0 <= pos /\ 0 <= V < 2 ^ pos /\
  zlen r = (pos + 7) / 8 /\ be_val r = V * 2 ^ (8 * zlen r - pos).

Lemma bytes_app : forall a b, bytes (a ++ b) <-> bytes a /\ bytes b.
Proof. intros. unfold bytes. apply Forall_app. Qed.

Lemma vec_set_app : forall A (pre : list A) c x, vec_set (pre ++ [c]) (length pre) x = pre ++ [x].
Proof. induction pre; intros; cbn; [reflexivity|]. rewrite IHpre. reflexivity. Qed.
Lemma vec_get_app : forall A (pre : list A) c, vec_get (pre ++ [c]) (length pre) = Ret c.
Proof.
  intros. unfold vec_get. rewrite nth_error_app2 by lia. rewrite Nat.sub_diag. reflexivity.
Qed.

(** the state after making room for the current byte *)
Lemma bits_inv_open : forall r pos V cnt index,
  bits_inv r pos V -> cnt = pos mod 8 -> Z.of_nat index = pos / 8 ->
  exists pre cur, (if (index <=? length r)%nat then vec_resize r (S index) else r) = pre ++ [cur] /\
    length pre = index /\ bytes pre /\ is_byte cur /\
    be_val pre * 256 + cur = V * 2 ^ (8 - cnt).
Proof.
  intros r pos V cnt index (Hb & Hp & HV & Hl & Hv) Hc Hi.
  pose proof (zlen_nonneg _ r). unfold zlen in *.
  destruct (Z.eq_dec cnt 0) as [E0|N0].
  - assert (length r = index) by lia.
    replace (index <=? length r)%nat with true by lia.
    exists r, 0. unfold vec_resize. rewrite firstn_all2 by lia.
    replace (S index - length r)%nat with 1%nat by lia. cbn [repeat].
    repeat (split; [auto; unfold is_byte; lia|]).
    rewrite Hv, E0. replace (8 * Z.of_nat (length r) - pos) with 0 by lia.
    change (2 ^ 0) with 1. change (2 ^ (8 - 0)) with 256. lia.
  - assert (L : length r = S index) by lia.
    replace (index <=? length r)%nat with true by lia.
    unfold vec_resize. rewrite firstn_all2 by lia. replace (S index - length r)%nat with 0%nat by lia.
    cbn [repeat]. rewrite app_nil_r.
    destruct (exists_last (l := r)) as (pre & cur & ->); [destruct r; [cbn in L; lia|discriminate]|].
    rewrite app_length in L. cbn [length] in L.
    apply bytes_app in Hb. destruct Hb as [Hb1 Hb2]. inversion Hb2; subst.
    exists pre, cur. repeat (split; [auto; lia|]).
    rewrite be_val_snoc in Hv. rewrite app_length in Hv. cbn [length] in Hv.
    replace (8 * Z.of_nat (length pre + 1) - pos) with (8 - pos mod 8) in Hv by lia. exact Hv.
Qed.

(** adding [m] bits [x] *)
Lemma bits_inv_step : forall pre cur pos V cnt index m x,
  0 <= pos -> 0 <= V < 2 ^ pos ->
  cnt = pos mod 8 -> Z.of_nat index = pos / 8 ->
  length pre = index -> bytes pre -> is_byte cur ->
  be_val pre * 256 + cur = V * 2 ^ (8 - cnt) ->
  1 <= m <= 8 - cnt -> 0 <= x < 2 ^ m ->
  bits_inv (pre ++ [cur + x * 2 ^ (8 - cnt - m)]) (pos + m) (V * 2 ^ m + x).
Proof.
  intros pre cur pos V cnt index m x Hp HV Hc Hi Hl Hb Hcur Hv Hm Hx.
  assert (Hcnt : 0 <= cnt < 8) by lia.
  assert (P1 : 2 ^ (8 - cnt) = 2 ^ m * 2 ^ (8 - cnt - m)).
  { rewrite <- Z.pow_add_r by lia. f_equal. lia. }
  pose proof (pow2_pos (8 - cnt - m) ltac:(lia)) as Pk.
  pose proof (pow2_pos cnt ltac:(lia)) as Pc.
  pose proof (pow2_pos m ltac:(lia)) as Pm.
  assert (P2 : 256 = 2 ^ cnt * 2 ^ (8 - cnt)).
  { rewrite <- Z.pow_add_r by lia. replace (cnt + (8 - cnt)) with 8 by lia. reflexivity. }
  red in Hcur.
  (* cur is a multiple of 2^(8-cnt), hence at most 256 - 2^(8-cnt) *)
  assert (Hmul : cur = 2 ^ (8 - cnt) * (V - be_val pre * 2 ^ cnt)) by nia.
  assert (Hq : 0 <= V - be_val pre * 2 ^ cnt <= 2 ^ cnt - 1) by nia.
  assert (Hbyte : 0 <= cur + x * 2 ^ (8 - cnt - m) < 256).
  { assert (x * 2 ^ (8 - cnt - m) <= 2 ^ (8 - cnt) - 2 ^ (8 - cnt - m)) by nia. nia. }
  assert (HL : zlen (pre ++ [cur + x * 2 ^ (8 - cnt - m)]) = Z.of_nat index + 1).
  { rewrite zlen_app, zlen_cons, zlen_nil. unfold zlen. lia. }
  repeat split.
  - apply bytes_app. split; auto. constructor; [exact Hbyte|constructor].
  - lia.
  - nia.
  - rewrite Z.pow_add_r by lia. nia.
  - rewrite HL. lia.
  - rewrite be_val_snoc, HL.
    replace (8 * (Z.of_nat index + 1) - (pos + m)) with (8 - cnt - m) by lia. nia.
Qed.

(** the byte [y] computed by the loops *)
Lemma pack_y : forall number w m cnt,
  0 <= cnt < 8 -> 1 <= m <= 8 - cnt -> m <= w ->
  (cnt = 0 \/ 0 <= number < 2 ^ w) ->
  wrapU 8 (Z.shiftl (wrapU 8 (Z.shiftr number (w - m))) (8 - (cnt + m)))
  = (number / 2 ^ (w - m)) mod 2 ^ m * 2 ^ (8 - cnt - m).
Proof.
  intros number w m cnt Hc Hm Hw Hn.
  rewrite Z.shiftr_div_pow2, Z.shiftl_mul_pow2 by lia. unfold wrapU.
  replace (8 - (cnt + m)) with (8 - cnt - m) by lia.
  set (q := number / 2 ^ (w - m)).
  pose proof (pow2_pos (8 - cnt - m) ltac:(lia)) as Pk.
  assert (P8 : 2 ^ 8 = 2 ^ (cnt + m) * 2 ^ (8 - cnt - m)).
  { rewrite <- Z.pow_add_r by lia. f_equal. lia. }
  rewrite P8 at 2. rewrite Z.mul_mod_distr_r by (try lia; pose proof (pow2_pos (cnt + m) ltac:(lia)); lia).
  f_equal.
  assert (E : (q mod 2 ^ 8) mod 2 ^ (cnt + m) = q mod 2 ^ (cnt + m)).
  { rewrite P8. rewrite Z.rem_mul_r by (pose proof (pow2_pos (cnt + m) ltac:(lia)); lia).
    rewrite Z.mul_comm, Z.mod_add by (pose proof (pow2_pos (cnt + m) ltac:(lia)); lia).
    apply Z.mod_mod. pose proof (pow2_pos (cnt + m) ltac:(lia)); lia. }
  rewrite E. destruct Hn as [->|Hn]; [f_equal|].
  assert (0 <= q < 2 ^ m).
  { unfold q. split.
    - apply Z.div_pos; [lia|]. apply pow2_pos; lia.
    - apply Z.div_lt_upper_bound; [apply pow2_pos; lia|]. rewrite <- Z.pow_add_r by lia.
      replace (w - m + m) with w by lia. lia. }
  rewrite !Z.mod_small; auto. rewrite Z.pow_add_r by lia.
  pose proof (pow2_pos cnt ltac:(lia)). nia.
Qed.

(** masks keep the bits already present *)
Lemma mask_long : forall cur cnt, is_byte cur -> 0 <= cnt < 8 -> cur mod 2 ^ (8 - cnt) = 0 ->
  Z.land cur (wrapU 8 (Z.lnot (Z.ones (8 - cnt)))) = cur.
Proof.
  intros cur cnt Hb Hc Hz. red in Hb. unfold wrapU. rewrite Z.ones_equiv.
  unfold Z.lnot. rewrite <- !Z.sub_1_r.
  replace (- (2 ^ (8 - cnt) - 1) - 1) with (- 2 ^ (8 - cnt)) by lia.
  assert (P8 : 2 ^ 8 = 2 ^ cnt * 2 ^ (8 - cnt)).
  { rewrite <- Z.pow_add_r by lia. f_equal. lia. }
  pose proof (pow2_pos (8 - cnt) ltac:(lia)). pose proof (pow2_pos cnt ltac:(lia)).
  assert (E : (- 2 ^ (8 - cnt)) mod 2 ^ 8 = (2 ^ cnt - 1) * 2 ^ (8 - cnt)).
  { symmetry. apply Z.mod_unique with (-1); [left; nia|]. nia. }
  rewrite E, land_high by lia.
  rewrite Z.mod_small.
  - pose proof (Z.div_mod cur (2 ^ (8 - cnt)) ltac:(lia)). lia.
  - split; [apply Z.div_pos; lia|]. apply Z.div_lt_upper_bound; [lia|].
    change (2 ^ 8) with 256 in P8. nia.
Qed.

Lemma mask_int : forall cur cnt m, is_byte cur -> 0 <= cnt < 8 -> 1 <= m <= 8 - cnt ->
  cur mod 2 ^ (8 - cnt) = 0 ->
  Z.land cur (wrapU 8 (Z.lnot (Z.shiftl 1 (8 - cnt) - Z.shiftl 1 (8 - (cnt + m))))) = cur.
Proof.
  intros cur cnt m Hb Hc Hm Hz. red in Hb. rewrite !Z.shiftl_1_l.
  apply Z.bits_inj'. intros i Hi. rewrite Z.land_spec.
  destruct (Z.lt_ge_cases i 8).
  2:{ replace cur with (cur mod 2 ^ 8) by (apply Z.mod_small; change (2 ^ 8) with 256; lia).
      rewrite Z.mod_pow2_bits_high by lia. reflexivity. }
  unfold wrapU. rewrite Z.mod_pow2_bits_low by lia. rewrite Z.lnot_spec by lia.
  destruct (Z.lt_ge_cases i (8 - cnt)).
  - replace (Z.testbit cur i) with false; [reflexivity|].
    rewrite <- (Z.mod_pow2_bits_low cur (8 - cnt)) by lia. rewrite Hz, Z.bits_0. reflexivity.
  - replace (2 ^ (8 - cnt) - 2 ^ (8 - (cnt + m))) with ((2 ^ (8 - cnt) - 2 ^ (8 - (cnt + m))) mod 2 ^ (8 - cnt)).
    + rewrite Z.mod_pow2_bits_high by lia. apply andb_true_r.
    + apply Z.mod_small. pose proof (pow2_pos (8 - (cnt + m)) ltac:(lia)).
      assert (2 ^ (8 - (cnt + m)) <= 2 ^ (8 - cnt)) by (apply Z.pow_le_mono_r; lia). lia.
Qed.

Lemma cur_multiple : forall pre cur V cnt, 0 <= cnt < 8 ->
  be_val pre * 256 + cur = V * 2 ^ (8 - cnt) -> cur mod 2 ^ (8 - cnt) = 0.
Proof.
  intros. assert (P2 : 256 = 2 ^ cnt * 2 ^ (8 - cnt)).
  { rewrite <- Z.pow_add_r by lia. replace (cnt + (8 - cnt)) with 8 by lia. reflexivity. }
  rewrite P2 in H0. assert (cur = (V - be_val pre * 2 ^ cnt) * 2 ^ (8 - cnt)) as -> by lia.
  apply Z.mod_mul. pose proof (pow2_pos (8 - cnt) ltac:(lia)). lia.
Qed.

Lemma lor_field : forall cur x cnt m, 0 <= cnt < 8 -> 1 <= m <= 8 - cnt ->
  cur mod 2 ^ (8 - cnt) = 0 -> 0 <= x < 2 ^ m ->
  Z.lor cur (x * 2 ^ (8 - cnt - m)) = cur + x * 2 ^ (8 - cnt - m).
Proof.
  intros. pose proof (pow2_pos (8 - cnt) ltac:(lia)). pose proof (pow2_pos (8 - cnt - m) ltac:(lia)).
  assert (P1 : 2 ^ (8 - cnt) = 2 ^ m * 2 ^ (8 - cnt - m)).
  { rewrite <- Z.pow_add_r by lia. f_equal. lia. }
  assert (E : cur = cur / 2 ^ (8 - cnt) * 2 ^ (8 - cnt)).
  { pose proof (Z.div_mod cur (2 ^ (8 - cnt)) ltac:(lia)). lia. }
  rewrite Z.lor_comm, E, lor_shift_add; [lia|lia|].
  split; [apply Z.mul_nonneg_nonneg; lia|]. rewrite P1. apply Z.mul_lt_mono_pos_r; lia.
Qed.

(** splitting the low [w] bits of a number *)
Lemma mod_split : forall number w m, 0 <= m <= w ->
  number mod 2 ^ w = (number / 2 ^ (w - m)) mod 2 ^ m * 2 ^ (w - m) + number mod 2 ^ (w - m).
Proof.
  intros. assert (P : 2 ^ w = 2 ^ (w - m) * 2 ^ m).
  { rewrite <- Z.pow_add_r by lia. f_equal. lia. }
  pose proof (pow2_pos (w - m) ltac:(lia)). pose proof (pow2_pos m ltac:(lia)).
  rewrite P, Z.rem_mul_r by lia. lia.
Qed.

Lemma fin_eq : forall V m w number x, 0 <= m <= w -> x = (number / 2 ^ (w - m)) mod 2 ^ m ->
  (V * 2 ^ m + x) * 2 ^ (w - m) + number mod 2 ^ (w - m) = V * 2 ^ w + number mod 2 ^ w.
Proof.
  intros V m w number x Hm ->. rewrite (mod_split number w m) by auto.
  replace (2 ^ w) with (2 ^ m * 2 ^ (w - m)) by (rewrite <- Z.pow_add_r by lia; f_equal; lia). ring.
Qed.

Lemma long_round : forall r pos V cnt index w,
  0 < w -> bits_inv r pos V -> cnt = pos mod 8 -> Z.of_nat index = pos / 8 ->
  exists m pre cur,
    m = (if w + cnt >=? 8 then 8 - cnt else w) /\ 0 <= cnt < 8 /\ 1 <= m <= 8 - cnt /\ m <= w /\
    (cnt + m = 8 \/ (cnt + m <> 8 /\ w - m = 0)) /\
    (if (index <=? length r)%nat then vec_resize r (S index) else r) = pre ++ [cur] /\
    index = length pre /\ is_byte cur /\ cur mod 2 ^ (8 - cnt) = 0 /\
    (forall x, 0 <= x < 2 ^ m ->
       Z.lor cur (x * 2 ^ (8 - cnt - m)) = cur + x * 2 ^ (8 - cnt - m) /\
    bits_inv (pre ++ [cur + x * 2 ^ (8 - cnt - m)]) (pos + m) (V * 2 ^ m + x)).
Proof.
  intros r pos V cnt index w Hw Hinv Hc Hi.
  assert (Hcnt : 0 <= cnt < 8) by lia.
  destruct (bits_inv_open r pos V cnt index Hinv Hc Hi) as (pre & cur & Hres & Hlen & Hbp & Hbc & Hval).
  pose proof (cur_multiple _ _ _ _ Hcnt Hval) as Hmul.
  exists (if w + cnt >=? 8 then 8 - cnt else w), pre, cur.
  split; [reflexivity|]. split; [exact Hcnt|].
  assert (1 <= (if w + cnt >=? 8 then 8 - cnt else w) <= 8 - cnt) by (destruct (w + cnt >=? 8) eqn:E; clear - E Hw Hcnt; lia).
  split; [assumption|].
  split; [destruct (w + cnt >=? 8) eqn:E; clear - E Hw Hcnt; lia|].
  split; [destruct (w + cnt >=? 8) eqn:E; clear - E Hw Hcnt; lia|].
  split; [exact Hres|]. split; [auto|]. split; [auto|]. split; [auto|].
  intros x Hx. split; [apply lor_field; auto|].
  destruct Hinv as (_ & Hpos & HV & _ & _). eapply bits_inv_step; eauto.
Qed.

Lemma to_bytes_long_loop_spec : forall fuel number r cnt index w pos V,
  (Z.to_nat w <= fuel)%nat -> 0 <= w ->
  bits_inv r pos V -> cnt = pos mod 8 -> Z.of_nat index = pos / 8 ->
  (cnt = 0 \/ 0 <= number < 2 ^ w) ->
  exists r', to_bytes_long_loop fuel number r cnt index w = Ret r' /\
    bits_inv r' (pos + w) (V * 2 ^ w + number mod 2 ^ w).
Proof.
  induction fuel; intros number r cnt index w pos V Hf Hw Hinv Hc Hi Hn.
  - assert (w = 0) by lia. subst w. cbn. exists r. split; auto.
    change (2 ^ 0) with 1. rewrite Z.mod_1_r. replace (pos + 0) with pos by lia.
    replace (V * 1 + 0) with V by lia. auto.
  - cbn [to_bytes_long_loop]. destruct (Z.eq_dec w 0) as [->|Hw0].
    { cbn. exists r. split; auto. change (2 ^ 0) with 1. rewrite Z.mod_1_r. replace (pos + 0) with pos by lia.
      replace (V * 1 + 0) with V by lia. auto. }
    replace (w >? 0) with true by lia.
    destruct (long_round r pos V cnt index w ltac:(lia) Hinv Hc Hi)
      as (m & pre & cur & Em & Hcnt & Hm & Hmw & Hm' & Hres & -> & Hbc & Hmul & Hstep).
    rewrite <- Em. clear Em. rewrite (pack_y number w m cnt) by auto.
    destruct (Hstep ((number / 2 ^ (w - m)) mod 2 ^ m)) as [Hlor Hinv'].
    { apply Z.mod_pos_bound, pow2_pos. lia. }
    cbv zeta. rewrite Hres, vec_get_app. cbn [bind]. rewrite mask_long, Hlor by auto. rewrite vec_set_app.
    pose proof (fin_eq V m w number _ ltac:(lia) eq_refl) as FIN.
    remember ((number / 2 ^ (w - m)) mod 2 ^ m) as x eqn:Ex. clear Ex Hlor Hstep.
    destruct Hm' as [E8|[L8 W0]].
    + rewrite (proj2 (Z.eqb_eq _ _) E8).
      assert (Ew : pos + w = pos + m + (w - m)) by (clear; lia).
      destruct (IHfuel number (pre ++ [cur + x * 2 ^ (8 - cnt - m)]) 0 (S (length pre)) (w - m) (pos + m) (V * 2 ^ m + x))
        as (r' & HR & HI); auto.
      * clear - Hf Hm Hmw. lia.
      * clear - Hmw. lia.
      * clear - E8 Hc. lia.
      * clear - E8 Hc Hi. lia.
      * exists r'. split; auto. rewrite Ew, <- FIN. auto.
    + rewrite (proj2 (Z.eqb_neq _ _) L8), W0 in *.
      exists (pre ++ [cur + x * 2 ^ (8 - cnt - m)]). split; [destruct fuel; reflexivity|].
      change (2 ^ 0) with 1 in FIN. rewrite Z.mod_1_r in FIN.
      rewrite <- FIN. replace (pos + w) with (pos + m) by (clear - W0; lia).
      replace ((V * 2 ^ m + x) * 1 + 0) with (V * 2 ^ m + x) by (clear; lia). auto.
Qed.

Lemma to_bytes_int_loop_spec : forall fuel number r cnt index w pos V,
  (Z.to_nat w <= fuel)%nat -> 0 <= w <= 32 ->
  bits_inv r pos V -> cnt = pos mod 8 -> Z.of_nat index = pos / 8 ->
  (cnt = 0 \/ 0 <= number < 2 ^ w) ->
  exists r', to_bytes_int_loop fuel number r cnt index w = Ret r' /\
    bits_inv r' (pos + w) (V * 2 ^ w + number mod 2 ^ w).
Proof.
  induction fuel; intros number r cnt index w pos V Hf Hw Hinv Hc Hi Hn.
  - assert (w = 0) by lia. subst w. cbn. exists r. split; auto.
    change (2 ^ 0) with 1. rewrite Z.mod_1_r. replace (pos + 0) with pos by lia.
    replace (V * 1 + 0) with V by lia. auto.
  - cbn [to_bytes_int_loop]. destruct (Z.eq_dec w 0) as [->|Hw0].
    { cbn. exists r. split; auto. change (2 ^ 0) with 1. rewrite Z.mod_1_r. replace (pos + 0) with pos by lia.
      replace (V * 1 + 0) with V by lia. auto. }
    replace (w >? 0) with true by lia.
    destruct (long_round r pos V cnt index w ltac:(lia) Hinv Hc Hi)
      as (m & pre & cur & Em & Hcnt & Hm & Hmw & Hm' & Hres & -> & Hbc & Hmul & Hstep).
    rewrite <- Em. clear Em. rewrite (pack_y number w m cnt) by auto.
    destruct (Hstep ((number / 2 ^ (w - m)) mod 2 ^ m)) as [Hlor Hinv'].
    { apply Z.mod_pos_bound, pow2_pos. lia. }
    cbv zeta. rewrite Hres, vec_get_app. cbn [bind]. rewrite mask_int, Hlor by auto. rewrite vec_set_app.
    pose proof (fin_eq V m w number _ ltac:(lia) eq_refl) as FIN.
    remember ((number / 2 ^ (w - m)) mod 2 ^ m) as x eqn:Ex. clear Ex Hlor Hstep.
    assert (Emask : Z.land number (Z.lnot (wrapS 32 (Z.shiftl (-1) (w - m)))) = number mod 2 ^ (w - m)).
    { rewrite Z.shiftl_mul_pow2 by lia. rewrite wrapS_small; [|lia|].
      - replace (Z.lnot (-1 * 2 ^ (w - m))) with (2 ^ (w - m) - 1) by (unfold Z.lnot; lia).
        apply land_ones_mod. lia.
      - assert (2 ^ (w - m) <= 2 ^ 31) by (apply Z.pow_le_mono_r; [lia|clear - Hw Hm; lia]).
        pose proof (pow2_pos (w - m) ltac:(lia)). change (2 ^ (32 - 1)) with (2 ^ 31). lia. }
    rewrite Emask.
    destruct Hm' as [E8|[L8 W0]].
    + rewrite (proj2 (Z.eqb_eq _ _) E8).
      assert (Ew : pos + w = pos + m + (w - m)) by (clear; lia).
      destruct (IHfuel (number mod 2 ^ (w - m)) (pre ++ [cur + x * 2 ^ (8 - cnt - m)]) 0 (S (length pre)) (w - m) (pos + m) (V * 2 ^ m + x))
        as (r' & HR & HI); auto.
      * clear - Hf Hm Hmw. lia.
      * clear - Hw Hm Hmw. lia.
      * clear - E8 Hc. lia.
      * clear - E8 Hc Hi. lia.
      * exists r'. split; auto. rewrite Z.mod_mod in HI by (pose proof (pow2_pos (w - m) ltac:(lia)); lia).
        rewrite Ew, <- FIN. auto.
    + rewrite (proj2 (Z.eqb_neq _ _) L8), W0 in *.
      exists (pre ++ [cur + x * 2 ^ (8 - cnt - m)]). split; [destruct fuel; reflexivity|].
      change (2 ^ 0) with 1 in FIN. rewrite Z.mod_1_r in FIN.
      rewrite <- FIN. replace (pos + w) with (pos + m) by (clear - W0; lia).
      replace ((V * 2 ^ m + x) * 1 + 0) with (V * 2 ^ m + x) by (clear; lia). auto.
Qed.

(** one element *)
Lemma to_bytes_spec : forall k number r pos w V,
  0 <= w <= kbits k -> bits_inv r pos V -> (pos mod 8 = 0 \/ 0 <= number < 2 ^ w) ->
  exists r', to_bytes k number r pos w = Ret r' /\
    bits_inv r' (pos + w) (V * 2 ^ w + number mod 2 ^ w).
Proof.
  intros k number r pos w V Hw Hinv Hn.
  assert (Hp : 0 <= pos) by (destruct Hinv; tauto).
  assert (E7 : Z.land pos 7 = pos mod 8) by (apply (land_ones_mod pos 3); lia).
  assert (E3 : Z.of_nat (Z.to_nat (Z.shiftr pos 3)) = pos / 8).
  { rewrite Z.shiftr_div_pow2 by lia. change (2 ^ 3) with 8. lia. }
  assert (Ew : wrapU 8 w = w).
  { apply wrapU_small. change (2 ^ 8) with 256. destruct k; cbn in Hw; lia. }
  destruct k; cbn [to_bytes kbits] in *.
  - unfold to_bytes_long. rewrite Ew, E7. apply to_bytes_long_loop_spec; auto; lia.
  - unfold to_bytes_int. rewrite Ew, E7. apply to_bytes_int_loop_spec; auto; lia.
Qed.

(** the fields of a list, most significant first *)
Definition packed (w : Z) (l : list Z) : Z := fold_left (fun a v => a * 2 ^ w + v mod 2 ^ w) l 0.

(** element widths accepted by the packer: the value fits, or the width is the full word *)
Definition fits (k : ts2kind) (w : Z) (v : Z) : Prop := 0 <= v < 2 ^ w \/ w = kbits k.

Lemma pack_loop_inv : forall k w l i r V,
  0 <= w <= kbits k -> 0 <= i -> Forall (fits k w) l ->
  bits_inv r (i * w) V ->
  exists r', pack_loop k w i l r = Ret r' /\
    bits_inv r' ((i + zlen l) * w) (fold_left (fun a v => a * 2 ^ w + v mod 2 ^ w) l V).
Proof.
  induction l; intros i r V Hw Hi Hf Hinv.
  - cbn. exists r. rewrite zlen_nil. replace (i + 0) with i by lia. auto.
  - inversion Hf as [|? ? Ha Hl]; subst. cbn [pack_loop fold_left].
    destruct (to_bytes_spec k a r (i * w) w V Hw Hinv) as (r1 & -> & H1).
    { destruct Ha as [|E]; auto. left. rewrite E.
      replace (i * kbits k) with (i * (kbits k / 8) * 8) by (destruct k; cbn [kbits]; [change (64 / 8) with 8|change (32 / 8) with 4]; lia).
      apply Z.mod_mul. lia. }
    cbn [bind].
    replace (i * w + w) with ((i + 1) * w) in H1 by lia.
    destruct (IHl (i + 1) r1 (V * 2 ^ w + a mod 2 ^ w) Hw ltac:(lia) Hl H1) as (r2 & -> & HF).
    exists r2. rewrite zlen_cons. replace (i + (1 + zlen l)) with (i + 1 + zlen l) by lia. auto.
Qed.

Lemma bits_inv_nil : bits_inv [] 0 0.
Proof. repeat split; try constructor; try lia. Qed.

Lemma packed_snoc : forall w l x, packed w (l ++ [x]) = packed w l * 2 ^ w + x mod 2 ^ w.
Proof. intros. unfold packed. rewrite fold_left_app. reflexivity. Qed.

Lemma packed_field : forall w l i, 0 <= w -> (i < length l)%nat ->
  (packed w l / 2 ^ ((zlen l - 1 - Z.of_nat i) * w)) mod 2 ^ w = nth i l 0 mod 2 ^ w.
Proof.
  intros w l i Hw. pose proof (pow2_pos w Hw) as Pw. induction l using rev_ind; intros Hi.
  - cbn in Hi. lia.
  - rewrite packed_snoc, zlen_app, zlen_cons, zlen_nil. rewrite app_length in Hi. cbn [length] in Hi.
    pose proof (Z.mod_pos_bound x (2 ^ w) Pw) as Bx.
    destruct (Nat.eq_dec i (length l)) as [->|].
    + rewrite app_nth2, Nat.sub_diag by lia. cbn [nth].
      replace (zlen l + (1 + 0) - 1 - Z.of_nat (length l)) with 0 by (unfold zlen; lia).
      change (2 ^ (0 * w)) with 1. rewrite Z.div_1_r, Z.add_comm, Z.mod_add by (clear - Pw; lia).
      apply Z.mod_mod. clear - Pw; lia.
    + rewrite app_nth1 by lia. rewrite <- IHl by lia. f_equal.
      assert (Hl : 0 <= zlen l - 1 - Z.of_nat i) by (unfold zlen; lia).
      replace ((zlen l + (1 + 0) - 1 - Z.of_nat i) * w) with (w + (zlen l - 1 - Z.of_nat i) * w) by lia.
      rewrite Z.pow_add_r by nia. rewrite <- Z.div_div by (try apply pow2_pos; try nia; clear - Pw; lia).
      f_equal. rewrite Z.div_add_l by (clear - Pw; lia). rewrite Z.div_small by exact Bx. apply Z.add_0_r.
Qed.

(** C06: every element sits in its own bit field, the rest is zero padding *)
Lemma pack_fields : forall k w l,
  0 <= w <= kbits k -> Forall (fits k w) l ->
  exists r, pack_loop k w 0 l [] = Ret r /\ bytes r /\ zlen r = (zlen l * w + 7) / 8 /\
    (forall i, (i < length l)%nat -> bit_field (be_val r) (8 * zlen r) (Z.of_nat i) w = nth i l 0 mod 2 ^ w) /\
    be_val r mod 2 ^ (8 * zlen r - zlen l * w) = 0.
Proof.
  intros k w l Hw Hf.
  destruct (pack_loop_inv k w l 0 [] 0 Hw ltac:(lia) Hf) as (r & HR & Hb & Hp & HV & Hl & Hv).
  { replace (0 * w) with 0 by lia. apply bits_inv_nil. }
  rewrite Z.add_0_l in *. fold (packed w l) in *.
  pose proof (zlen_nonneg _ l) as Hzl.
  assert (Hpad : 0 <= 8 * zlen r - zlen l * w) by (rewrite Hl; clear; lia).
  pose proof (pow2_pos _ Hpad) as Pp.
  exists r. split; [exact HR|]. split; [exact Hb|]. split; [exact Hl|]. split.
  - intros i Hi. unfold bit_field. rewrite Hv. rewrite <- packed_field by (try lia; auto). f_equal.
    assert (Hj : 0 <= (zlen l - 1 - Z.of_nat i) * w) by (apply Z.mul_nonneg_nonneg; [unfold zlen; lia|lia]).
    replace (8 * zlen r - (Z.of_nat i + 1) * w) with ((8 * zlen r - zlen l * w) + (zlen l - 1 - Z.of_nat i) * w) by (clear; lia).
    rewrite Z.pow_add_r by auto. rewrite <- Z.div_div by (try apply pow2_pos; auto; clear - Pp; lia).
    rewrite Z.div_mul by (clear - Pp; lia). reflexivity.
  - rewrite Hv. apply Z.mod_mul. clear - Pp; lia.
Qed.
