(** Serialization of statistics (C12). *)
From Verif Require Export PStats.
Ltac Zify.zify_post_hook ::= idtac.

Lemma digits2_pos_bound : forall m, 2 ^ (Zpos (digits2_pos m) - 1) <= Zpos m < 2 ^ Zpos (digits2_pos m).
Proof.
  induction m; cbn [digits2_pos].
  - rewrite Pos2Z.inj_succ. replace (Z.succ (Z.pos (digits2_pos m)) - 1) with (Z.succ (Z.pos (digits2_pos m) - 1)) by lia.
    rewrite !Z.pow_succ_r by lia. lia.
  - rewrite Pos2Z.inj_succ. replace (Z.succ (Z.pos (digits2_pos m)) - 1) with (Z.succ (Z.pos (digits2_pos m) - 1)) by lia.
    rewrite !Z.pow_succ_r by lia. lia.
  - cbn. lia.
Qed.
Lemma bounded_cases : forall m e, bounded 53 1024 m e = true ->
  -1074 <= e <= 971 /\ Zpos m < 2 ^ 53 /\ (Zpos m < 2 ^ 52 -> e = -1074).
Proof.
  intros m e H. unfold bounded, canonical_mantissa in H. apply andb_prop in H. destruct H as [H1 H2].
  apply Zeq_bool_eq in H1. unfold fexp, emin in H1. pose proof (digits2_pos_bound m) as D.
  set (d := Z.pos (digits2_pos m)) in *. assert (0 < d) by (unfold d; lia).
  assert (d <= 53) by lia. split; [lia|]. split.
  - eapply Z.lt_le_trans; [apply D|]. apply Z.pow_le_mono_r; lia.
  - intros Hm. destruct (Z.eq_dec d 53); [|lia]. exfalso. rewrite e0 in D. change (53 - 1) with 52 in D. lia.
Qed.
Lemma f64_pattern : forall f, valid_binary 53 1024 f = true ->
  0 <= f64_to_bits f < 2 ^ 64 /\ f64_of_pattern (f64_to_bits f) = f.
Proof.
  intros f H. destruct f as [s|s| |s m e].
  - destruct s; split; cbn; try lia; reflexivity.
  - destruct s; split; cbn; try lia; reflexivity.
  - split; [cbn; lia|reflexivity].
  - apply bounded_cases in H. destruct H as (He & Hm & Hs). unfold f64_to_bits, f64_of_pattern.
    change (2 ^ 63) with 9223372036854775808. change (2 ^ 64) with 18446744073709551616.
    change (2 ^ 52) with 4503599627370496 in *. change (2 ^ 11) with 2048. change (2 ^ 53) with 9007199254740992 in *.
    set (B := (if Z.pos m <? 4503599627370496 then Z.pos m else (e + 1075) * 4503599627370496 + (Z.pos m - 4503599627370496))).
    assert (HB : 0 <= B < 9223372036854775808) by (unfold B; destruct (Z.pos m <? 4503599627370496) eqn:E; lia).
    split; [destruct s; lia|].
    assert (ES : (9223372036854775808 <=? (if s then 9223372036854775808 else 0) + B) = s) by (destruct s; lia).
    assert (EM : ((if s then 9223372036854775808 else 0) + B) mod 4503599627370496 = B mod 4503599627370496).
    { destruct s; [|reflexivity]. replace (9223372036854775808 + B) with (B + 2048 * 4503599627370496) by lia. apply Z.mod_add. lia. }
    assert (EE : (((if s then 9223372036854775808 else 0) + B) / 4503599627370496) mod 2048 = (B / 4503599627370496)).
    { assert (0 <= B / 4503599627370496 < 2048) by dlia.
      destruct s.
      - replace (9223372036854775808 + B) with (B + 2048 * 4503599627370496) by lia. rewrite Z.div_add by lia.
        rewrite <- Z.add_mod_idemp_r by lia. change (2048 mod 2048) with 0. rewrite Z.add_0_r. apply Z.mod_small. auto.
      - cbn [Z.add]. apply Z.mod_small. auto. }
    rewrite ES, EM, EE. clear ES EM EE.
    destruct (Z.pos m <? 4503599627370496) eqn:E.
    + rewrite (Z.div_small B) by (unfold B; lia). rewrite (Z.mod_small B) by (unfold B; lia). unfold B.
      cbn [Z.eqb]. rewrite Hs by lia. reflexivity.
    + assert (Q : B / 4503599627370496 = e + 1075) by (unfold B; symmetry; apply (Z.div_unique _ _ _ (Z.pos m - 4503599627370496)); lia).
      assert (R : B mod 4503599627370496 = Z.pos m - 4503599627370496) by (unfold B; symmetry; apply (Z.mod_unique _ _ (e + 1075)); lia).
      rewrite Q, R. replace (e + 1075 =? 2047) with false by lia. replace (e + 1075 =? 0) with false by lia.
      replace (Z.pos m - 4503599627370496 + 4503599627370496) with (Z.pos m) by lia.
      replace (e + 1075 - 1075) with e by lia. reflexivity.
Qed.

Lemma be_unsigned_small : forall n v rest, 0 <= v < 256 ^ Z.of_nat n ->
  be_unsigned (Z.of_nat n) (be_bytes n v ++ rest) = Some (v, rest).
Proof. intros. rewrite be_unsigned_be_bytes. rewrite Z.mod_small by auto. reflexivity. Qed.
Lemma be_signed_small : forall n v rest, (1 <= n)%nat -> - 2 ^ (8 * Z.of_nat n - 1) <= v < 2 ^ (8 * Z.of_nat n - 1) ->
  be_signed (Z.of_nat n) (be_bytes n v ++ rest) = Some (v, rest).
Proof. intros. apply be_signed_be_bytes; auto. Qed.

Definition tycode (d : dtype) : Z := match d with INT32 => 1 | INT64 => 2 | FLOAT => 3 end.
Lemma stat_value_spec : forall d v rest, num_ok d v ->
  stat_value (tycode d) (be_bytes (val_bytes d) v ++ rest) = Some (v, rest).
Proof.
  intros d v rest H. destruct d; cbn [tycode stat_value val_bytes Z.eqb Pos.eqb]; unfold stat_value; cbn [Z.eqb Pos.eqb].
  - apply (be_signed_small 4); [lia|exact H].
  - apply (be_signed_small 8); [lia|exact H].
  - apply (be_unsigned_small 4). exact H.
Qed.
Definition stat_of (s : stats) : stat_fields :=
  mkSF (st_count s) (st_ts_first s) (st_ts_last s) (st_min s) (st_max s) (st_first s) (st_last s) (sum_bits (st_sum s)).
Lemma stats_roundtrip_exact : forall s rest, stats_wf s ->
  stat_read (dtype_code (st_type s)) (wbytes (stats_serialize s) ++ rest) = Some (stat_of s, rest) /\ same_stats (stat_of s) s.
Proof.
  intros s rest (Hc & Ht1 & Ht2 & Hv & Hs).
  assert (HV : num_ok (st_type s) (st_min s) /\ num_ok (st_type s) (st_max s) /\ num_ok (st_type s) (st_first s) /\ num_ok (st_type s) (st_last s)).
  { destruct (st_type s); inversion Hv as [|? ? A1 B1]; inversion B1 as [|? ? A2 B2]; inversion B2 as [|? ? A3 B3];
      inversion B3 as [|? ? A4 B4]; cbn in *; unfold signed_in in *; auto. }
  destruct HV as (V1 & V2 & V3 & V4).
  assert (SS : stat_sum (tycode (st_type s)) (be_bytes 8 (sum_bits (st_sum s)) ++ rest) = Some (sum_bits (st_sum s), rest) /\
     match st_sum s with SumI z => sum_bits (st_sum s) = z | SumF f => f64_of_pattern (sum_bits (st_sum s)) = f end).
  { unfold stat_sum. destruct (st_type s), (st_sum s) as [z|f]; try tauto; cbn [tycode Z.eqb Pos.eqb sum_bits].
    - split; auto. apply (be_signed_small 8); [lia|exact Hs].
    - destruct (f64_pattern f Hs). split; auto. apply (be_unsigned_small 8). exact H.
    - destruct (f64_pattern f Hs). split; auto. apply (be_unsigned_small 8). exact H. }
  destruct SS as (SS & SM).
  split; [|repeat split; auto].
  replace (dtype_code (st_type s)) with (tycode (st_type s)) by (destruct (st_type s); reflexivity).
  unfold stats_serialize, stat_read. cbn [wbytes]. rewrite <- !app_assoc. rewrite app_nil_r || cbn [app].
  rewrite var_u32_roundtrip by auto.
  unfold i64_min, i64_max in *. rewrite !(be_signed_small 8) by (cbn; lia).
  rewrite !stat_value_spec by auto. rewrite SS. reflexivity.
Qed.
Lemma stats_roundtrip : forall s rest, stats_wf s ->
  exists sf, stat_read (dtype_code (st_type s)) (wbytes (stats_serialize s) ++ rest) = Some (sf, rest) /\ same_stats sf s.
Proof. intros s rest H. eexists. apply stats_roundtrip_exact; auto. Qed.
Lemma stats_size : forall s, 0 <= st_count s < 2 ^ 32 ->
  stats_serialized_size s = zlen (wbytes (stats_serialize s)).
Proof.
  intros s H. unfold stats_serialize, stats_serialized_size. cbn [wbytes]. rewrite !zlen_app, !be_bytes_zlen, zlen_nil.
  destruct (var_u32_len _ H) as (_ & _ & ->). destruct (st_type s); cbn [val_bytes]; lia.
Qed.
