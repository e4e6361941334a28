(** Binary64 arithmetic of the standard library only produces canonical numbers. *)
From Verif Require Export PStats2.
Ltac Zify.zify_post_hook ::= idtac.

Lemma digits2_unique : forall m d, 2 ^ (d - 1) <= Zpos m < 2 ^ d -> Zpos (digits2_pos m) = d.
Proof.
  intros m d H. pose proof (digits2_pos_bound m) as B. set (k := Zpos (digits2_pos m)) in *.
  assert (1 <= k) by (unfold k; lia).
  assert (0 <= d) by (destruct (Z_lt_le_dec d 0); auto; rewrite (Z.pow_neg_r 2 d) in H by lia; lia).
  assert (~ d < k). { intros L. assert (2 ^ d <= 2 ^ (k - 1)) by (apply Z.pow_le_mono_r; lia). lia. }
  assert (~ k < d). { intros L. assert (2 ^ k <= 2 ^ (d - 1)) by (apply Z.pow_le_mono_r; lia). lia. }
  lia.
Qed.
Lemma shr_1_div : forall r, 0 <= shr_m r -> shr_m (shr_1 r) = shr_m r / 2.
Proof.
  intros [m r s] H. cbn [shr_m] in *. unfold shr_1. destruct m as [|[p|p|]|]; try lia; cbn [shr_m]; auto.
  - rewrite Pos2Z.inj_xI. apply (Z.div_unique _ _ _ 1); lia.
  - rewrite Pos2Z.inj_xO. apply (Z.div_unique _ _ _ 0); lia.
Qed.
Lemma iter_shr : forall n r, 0 <= shr_m r -> shr_m (iter_pos shr_1 n r) = shr_m r / 2 ^ Zpos n.
Proof.
  induction n; intros r H; cbn [iter_pos].
  - assert (H1 : 0 <= shr_m (shr_1 r)) by (rewrite shr_1_div by auto; apply Z.div_pos; lia).
    assert (H2 : 0 <= shr_m (iter_pos shr_1 n (shr_1 r))) by (rewrite IHn by auto; apply Z.div_pos; lia).
    rewrite !IHn, shr_1_div by auto. rewrite !Z.div_div by lia.
    rewrite (Pos2Z.inj_xI n). replace (2 * Z.pos n + 1) with (1 + Z.pos n + Z.pos n) by lia.
    rewrite (Z.pow_add_r 2 (1 + Z.pos n)), (Z.pow_add_r 2 1), Z.mul_assoc by lia. reflexivity.
  - assert (H1 : 0 <= shr_m (iter_pos shr_1 n r)) by (rewrite IHn by auto; apply Z.div_pos; lia).
    rewrite !IHn by auto. rewrite !Z.div_div by lia.
    rewrite (Pos2Z.inj_xO n). replace (2 * Z.pos n) with (Z.pos n + Z.pos n) by lia. rewrite (Z.pow_add_r 2 (Z.pos n)) by lia. reflexivity.
  - apply shr_1_div. auto.
Qed.
Lemma shr_spec : forall r e n, 0 <= shr_m r -> 0 <= n -> shr_m (fst (shr r e n)) = shr_m r / 2 ^ n /\ snd (shr r e n) = e + n.
Proof.
  intros r e n H Hn. destruct n; try lia; cbn [shr fst snd].
  - rewrite Z.div_1_r. lia.
  - rewrite iter_shr by auto. auto.
Qed.
Lemma round_ne_cases : forall m l, round_nearest_even m l = m \/ round_nearest_even m l = m + 1.
Proof. intros m [|[]]; cbn; auto. destruct (Z.even m); auto. Qed.

Lemma round_aux_valid : forall sx mx ex, 
  ex <= Z.max (Zpos (digits2_pos mx) + ex - 53) (-1074) ->
  valid_binary 53 1024 (binary_round_aux 53 1024 sx (Zpos mx) ex loc_Exact) = true.
Proof.
  intros sx mx ex H. unfold binary_round_aux, shr_fexp, fexp, emin. cbn [Zdigits2].
  pose proof (digits2_pos_bound mx) as D. set (d := Zpos (digits2_pos mx)) in *. assert (1 <= d) by (unfold d; lia).
  change (3 - 1024 - 53) with (-1074). set (e1 := Z.max (d + ex - 53) (-1074)) in *.
  destruct (shr (shr_record_of_loc (Z.pos mx) loc_Exact) ex (e1 - ex)) as [r1 e'] eqn:E1.
  pose proof (shr_spec (shr_record_of_loc (Z.pos mx) loc_Exact) ex (e1 - ex) ltac:(cbn; lia) ltac:(lia)) as S1.
  rewrite E1 in S1. cbn [fst snd shr_m shr_record_of_loc] in S1. destruct S1 as [S1 S2].
  assert (EQ : e' = e1) by lia. clear S2 E1. subst e'.
  set (m' := shr_m r1) in *. set (n := e1 - ex) in *. assert (Hn : 0 <= n) by (unfold n; lia).
  assert (P : 0 < 2 ^ n) by (apply pow2_pos; lia).
  assert (M0 : 0 <= m') by (rewrite S1; apply Z.div_pos; lia).
  assert (M1 : m' < 2 ^ 53).
  { rewrite S1. apply Z.div_lt_upper_bound; [lia|]. eapply Z.lt_le_trans; [apply D|].
    rewrite <- Z.pow_add_r by lia. apply Z.pow_le_mono_r; unfold n, e1; lia. }
  assert (M2 : -1074 < e1 -> 2 ^ 52 <= m').
  { intros L. rewrite S1. apply Z.div_le_lower_bound; [lia|]. rewrite <- Z.pow_add_r by lia.
    replace (n + 52) with (d - 1) by (unfold n, e1 in *; lia). apply D. }
  assert (E0 : -1074 <= e1) by (unfold e1; lia).
  clearbody m' e1. clear S1 D.
  set (m1 := round_nearest_even m' (loc_of_shr_record r1)).
  assert (B : 0 <= m1 <= 2 ^ 53 /\ (-1074 < e1 -> 2 ^ 52 <= m1)).
  { unfold m1. destruct (round_ne_cases m' (loc_of_shr_record r1)) as [-> | ->]; lia. }
  clearbody m1. destruct B as [B1 B2]. clear M0 M1 M2 P Hn n H.
  cbn [shr_record_of_loc].
  destruct (Z.eq_dec m1 (2 ^ 53)) as [E|E].
  - subst m1. change (Zdigits2 (2 ^ 53)) with 54. 
    replace (Z.max (54 + e1 - 53) (-1074) - e1) with 1 by lia. change (2 ^ 53) with 9007199254740992. cbn [shr iter_pos shr_1 shr_m].
    destruct (e1 + 1 <=? 1024 - 53) eqn:Q; [|reflexivity]. cbn [valid_binary]. unfold bounded, canonical_mantissa, fexp, emin.
    rewrite Q, andb_true_r. apply Zeq_is_eq_bool. change (Z.pos (digits2_pos 4503599627370496)) with 53. lia.
  - destruct m1 as [|m1|]; [| |lia].
    + cbn [Zdigits2]. replace (Z.max (0 + e1 - 53) (-1074) - e1) with 0 by lia. reflexivity.
    + cbn [Zdigits2]. pose proof (digits2_pos_bound m1) as D.
      assert (L1 : Zpos (digits2_pos m1) <= 53).
      { destruct (Z_le_gt_dec (Zpos (digits2_pos m1)) 53); auto. exfalso.
        assert (2 ^ 53 <= 2 ^ (Zpos (digits2_pos m1) - 1)) by (apply Z.pow_le_mono_r; lia). lia. }
      assert (L2 : -1074 < e1 -> Zpos (digits2_pos m1) = 53).
      { intros L. apply digits2_unique. change (53 - 1) with 52. lia. }
      assert (Q0 : Z.max (Z.pos (digits2_pos m1) + e1 - 53) (-1074) = e1) by lia.
      rewrite Q0, Z.sub_diag. cbn [shr shr_m].
      destruct (e1 <=? 1024 - 53) eqn:Q; [|reflexivity]. cbn [valid_binary]. unfold bounded, canonical_mantissa, fexp, emin.
      rewrite Q, andb_true_r. apply Zeq_is_eq_bool. exact Q0.
Qed.
Lemma digits_shift : forall k m, Zpos (digits2_pos (shift_pos k m)) = Zpos (digits2_pos m) + Zpos k.
Proof.
  intros k m. apply digits2_unique. pose proof (digits2_pos_bound m) as B. rewrite Zpower.shift_pos_correct.
  change (Z.pow_pos 2 k) with (2 ^ Z.pos k).
  replace (Z.pos (digits2_pos m) + Z.pos k - 1) with (Z.pos (digits2_pos m) - 1 + Z.pos k) by lia.
  rewrite !Z.pow_add_r by lia. pose proof (pow2_pos (Zpos k) ltac:(lia)). 
  set (a := 2 ^ Z.pos k) in *. set (x := 2 ^ (Z.pos (digits2_pos m) - 1)) in *. set (y := 2 ^ Z.pos (digits2_pos m)) in *.
  clearbody a x y. nia.
Qed.
Lemma round_valid : forall sx m e, valid_binary 53 1024 (binary_round 53 1024 sx m e) = true.
Proof.
  intros. unfold binary_round, shl_align, fexp, emin. change (3 - 1024 - 53) with (-1074).
  destruct (Z.max (Z.pos (digits2_pos m) + e - 53) (-1074) - e) as [|q|q] eqn:E.
  - apply round_aux_valid. lia.
  - apply round_aux_valid. lia.
  - apply round_aux_valid. rewrite digits_shift. lia.
Qed.
Lemma normalize_valid : forall m e s, valid_binary 53 1024 (binary_normalize 53 1024 m e s) = true.
Proof. intros [|m|m] e s; cbn [binary_normalize]; [reflexivity|apply round_valid|apply round_valid]. Qed.
Lemma add_valid : forall x y, valid_binary 53 1024 x = true -> valid_binary 53 1024 y = true ->
  valid_binary 53 1024 (SFadd 53 1024 x y) = true.
Proof.
  intros [sx|sx| |sx mx ex] [sy|sy| |sy my ey] Hx Hy; cbn [SFadd]; auto;
    try (destruct (Bool.eqb sx sy); reflexivity). apply normalize_valid.
Qed.
Lemma to_f64_valid : forall d n, valid_binary 53 1024 (to_f64 d n) = true.
Proof.
  intros d n. destruct d; cbn [to_f64]; try apply normalize_valid.
  destruct (f32_of_bits n); try reflexivity. apply normalize_valid.
Qed.
Lemma fsum_valid : forall l x, Forall (fun f => valid_binary 53 1024 f = true) l -> valid_binary 53 1024 x = true ->
  valid_binary 53 1024 (fold_left (SFadd 53 1024) l x) = true.
Proof. induction l; cbn; intros x H Hx; auto. inversion H; subst. apply IHl; auto. apply add_valid; auto. Qed.
Lemma tree_fsum_valid : forall d t, valid_binary 53 1024 (tree_fsum d t) = true.
Proof.
  induction t; cbn [tree_fsum]; auto.
  - apply fsum_valid; [|reflexivity]. apply Forall_forall. intros x Hx. apply in_map_iff in Hx. destruct Hx as (n & <- & _).
    apply to_f64_valid.
  - apply add_valid; auto.
Qed.

(** every accumulated statistics value is well formed *)
Lemma nums_in_ok : forall d pts t n, Forall (num_ok d) (nums pts) -> In (t, n) (tnums pts) -> num_ok d n.
Proof.
  intros d pts t n H Hin. unfold tnums, nums in *. apply in_map_iff in Hin. destruct Hin as ([t' v] & E & Hin).
  inversion E; subst. rewrite Forall_forall in H. apply H. apply in_map_iff. exists (t', v) || exists (t, v). auto.
Qed.
Lemma zero_ok : forall d, num_ok d 0.
Proof. destruct d; cbn; lia. Qed.
Lemma tree_wf : forall p d t s, points_ok d (tree_points t) -> tree_stats p d t = Ret s -> stats_wf s.
Proof.
  intros p d t s Hok Hs. pose proof (tree_inv p d t s Hok Hs) as I.
  assert (TS : (i64_min <= st_ts_first s <= i64_max) /\ (i64_min <= st_ts_last s <= i64_max)).
  { pose proof (si_first _ _ _ I) as SF. pose proof (si_last _ _ _ I) as SL. assert (X : forall t0 n, In (t0, n) (tnums (tree_points t)) -> i64_min <= t0 <= i64_max).
    { intros t0 n Hin. apply in_map_iff in Hin. destruct Hin as (tv & E & Hin). inversion E; subst.
      apply (proj1 (Forall_forall _ _) Hok tv Hin). }
    split.
    - destruct SF as [F|[-> _]]; [eapply X; eauto|unfold i64_min, i64_max; lia].
    - destruct SL as [F|[-> _]]; [eapply X; eauto|unfold i64_min, i64_max; lia]. }
  assert (NF : num_ok d (st_first s) /\ num_ok d (st_last s)).
  { pose proof (si_first _ _ _ I) as SF. pose proof (si_last _ _ _ I) as SL. pose proof (si_nums _ _ _ I) as SN. split.
    - destruct SF as [F|[_ ->]]; [eapply nums_in_ok; eauto|apply zero_ok].
    - destruct SL as [F|[_ ->]]; [eapply nums_in_ok; eauto|apply zero_ok]. }
  destruct TS as [T1 T2]. destruct NF as [N1 N2].
  split; [rewrite (si_count _ _ _ I); apply Z.mod_pos_bound; lia|]. split; [exact T1|]. split; [exact T2|].
  pose proof (si_min_ok _ _ _ I) as N3. pose proof (si_max_ok _ _ _ I) as N4. rewrite (si_type _ _ _ I).
  split.
  - destruct d; repeat constructor; cbn in *; unfold signed_in; cbn; try tauto; lia.
  - destruct (match d with INT32 => true | _ => false end) eqn:ED.
    + destruct d; try discriminate. pose proof (si_sum _ _ _ I) as S. cbn in S. rewrite S. apply wrapS_range. lia.
    + destruct (float_sum p d t s) as [_ S]; auto; [intros ->; discriminate|]. rewrite S.
      pose proof (tree_fsum_valid d t). destruct d; auto. discriminate.
Qed.
