(** Statistics: C09-C12. *)
From Verif Require Export PCol SStats.

(** f32 comparison is comparison of keys *)
Definition f32_class (s : bool) (a : Z) : spec_float :=
  if a >? 0x7F800000 then S754_nan
  else if a =? 0x7F800000 then S754_infinity s
  else if a =? 0 then S754_zero s
  else if a <? 2 ^ 23 then S754_finite s (Z.to_pos a) (-149)
  else S754_finite s (Z.to_pos (a mod 2 ^ 23 + 2 ^ 23)) (a / 2 ^ 23 - 150).

Lemma f32_of_bits_class : forall b, 0 <= b < 2 ^ 32 ->
  f32_of_bits b = f32_class (b >=? 2 ^ 31) (b mod 2 ^ 31).
Proof.
  intros b Hb. unfold f32_of_bits, f32_class.
  assert (T : Z.testbit b 31 = (b >=? 2 ^ 31)).
  { rewrite Z.testbit_eqb by lia.
    destruct (Z_lt_le_dec b (2 ^ 31)).
    - rewrite Z.div_small by lia. cbn. lia.
    - replace (b / 2 ^ 31) with 1 by dlia. cbn. lia. }
  rewrite T. set (s := b >=? 2 ^ 31). clearbody s.
  set (a := b mod 2 ^ 31).
  assert (Ha : 0 <= a < 2 ^ 31) by (unfold a; dlia).
  assert (E1 : (b / 2 ^ 23) mod 256 = a / 2 ^ 23) by (unfold a; dlia).
  assert (E2 : b mod 2 ^ 23 = a mod 2 ^ 23) by (unfold a; dlia).
  rewrite E1, E2. clear E1 E2. clearbody a.
  pose proof (Z.div_mod a (2 ^ 23) ltac:(lia)) as D. pose proof (Z.mod_pos_bound a (2 ^ 23) ltac:(lia)) as B.
  set (q := a / 2 ^ 23) in *. set (m := a mod 2 ^ 23) in *. clearbody q m.
  change (2 ^ 23) with 8388608 in *. change (2 ^ 31) with 2147483648 in *.
  destruct (q =? 255) eqn:E255.
  - destruct (m =? 0) eqn:M0.
    + replace (a >? 2139095040) with false by lia. replace (a =? 2139095040) with true by lia. reflexivity.
    + replace (a >? 2139095040) with true by lia. reflexivity.
  - replace (a >? 2139095040) with false by lia. replace (a =? 2139095040) with false by lia.
    destruct (q =? 0) eqn:E0.
    + destruct m as [|m|m]; [|replace (a =? 0) with false by lia|lia].
      * replace (a =? 0) with true by lia. reflexivity.
      * replace (a <? 8388608) with true by lia. replace a with (Z.pos m) by lia. reflexivity.
    + replace (a =? 0) with false by lia. replace (a <? 8388608) with false by lia.
      destruct (m + 8388608) eqn:EM; try lia. reflexivity.
Qed.

Lemma mag_compare : forall a b, 0 < a < 0x7F800000 -> 0 < b < 0x7F800000 ->
  (let '(m1, e1) := if a <? 2 ^ 23 then (Z.to_pos a, -149) else (Z.to_pos (a mod 2 ^ 23 + 2 ^ 23), a / 2 ^ 23 - 150) in
   let '(m2, e2) := if b <? 2 ^ 23 then (Z.to_pos b, -149) else (Z.to_pos (b mod 2 ^ 23 + 2 ^ 23), b / 2 ^ 23 - 150) in
   match Z.compare e1 e2 with Lt => Lt | Gt => Gt | Eq => Pcompare m1 m2 Eq end) = Z.compare a b.
Proof.
  intros a b Ha Hb. change (2 ^ 23) with 8388608.
  assert (PC : forall x y, 0 < x -> 0 < y -> Pcompare (Z.to_pos x) (Z.to_pos y) Eq = Z.compare x y).
  { intros x y Hx Hy. change (Pcompare (Z.to_pos x) (Z.to_pos y) Eq) with (Pos.compare (Z.to_pos x) (Z.to_pos y)).
    rewrite Pos2Z.inj_compare. rewrite !Z2Pos.id by lia. reflexivity. }
  destruct (a <? 8388608) eqn:A; destruct (b <? 8388608) eqn:B.
  - rewrite Z.compare_refl. apply PC; lia.
  - destruct (Z.compare_spec (-149) (b / 8388608 - 150)).
    + rewrite PC by dlia. symmetry. destruct (Z.compare_spec a b); symmetry;
        [apply Z.compare_eq_iff|apply Z.compare_lt_iff|apply Z.compare_gt_iff]; dlia.
    + symmetry. apply Z.compare_lt_iff. lia.
    + exfalso. dlia.
  - destruct (Z.compare_spec (a / 8388608 - 150) (-149)).
    + rewrite PC by dlia. symmetry. destruct (Z.compare_spec a b); symmetry;
        [apply Z.compare_eq_iff|apply Z.compare_lt_iff|apply Z.compare_gt_iff]; dlia.
    + exfalso. dlia.
    + symmetry. apply Z.compare_gt_iff. lia.
  - destruct (Z.compare_spec (a / 8388608 - 150) (b / 8388608 - 150)).
    + rewrite PC by dlia. symmetry. destruct (Z.compare_spec a b); symmetry;
        [apply Z.compare_eq_iff|apply Z.compare_lt_iff|apply Z.compare_gt_iff]; dlia.
    + symmetry. apply Z.compare_lt_iff. dlia.
    + symmetry. apply Z.compare_gt_iff. dlia.
Qed.

Lemma class_ltb : forall s1 a s2 b, 0 <= a < 2 ^ 31 -> 0 <= b < 2 ^ 31 ->
  SFltb (f32_class s1 a) (f32_class s2 b) =
  (a <=? 0x7F800000) && (b <=? 0x7F800000) && ((if s1 then - a else a) <? (if s2 then - b else b)).
Proof.
  intros s1 a s2 b Ha Hb. unfold f32_class.
  destruct (a >? 2139095040) eqn:A1; [replace (a <=? 2139095040) with false by lia; reflexivity|].
  replace (a <=? 2139095040) with true by lia.
  destruct (b >? 2139095040) eqn:B1.
  { replace (b <=? 2139095040) with false by lia. unfold SFltb, SFcompare.
    destruct (a =? 2139095040), (a =? 0), (a <? 2 ^ 23); reflexivity. }
  replace (b <=? 2139095040) with true by lia. cbn [andb].
  destruct (a =? 2139095040) eqn:A2.
  { destruct (b =? 2139095040) eqn:B2; [destruct s1, s2; cbn [SFltb SFcompare]; lia|].
    destruct (b =? 0) eqn:B0; [destruct s1, s2; cbn [SFltb SFcompare]; lia|].
    destruct (b <? 2 ^ 23); destruct s1, s2; cbn [SFltb SFcompare]; lia. }
  destruct (b =? 2139095040) eqn:B2.
  { destruct (a =? 0) eqn:A0; [destruct s1, s2; cbn [SFltb SFcompare]; lia|].
    destruct (a <? 2 ^ 23); destruct s1, s2; cbn [SFltb SFcompare]; lia. }
  destruct (a =? 0) eqn:A0.
  { destruct (b =? 0) eqn:B0; [destruct s1, s2; cbn [SFltb SFcompare]; lia|].
    destruct (b <? 2 ^ 23); destruct s1, s2; cbn [SFltb SFcompare]; lia. }
  destruct (b =? 0) eqn:B0.
  { destruct (a <? 2 ^ 23); destruct s1, s2; cbn [SFltb SFcompare]; lia. }
  pose proof (mag_compare a b ltac:(lia) ltac:(lia)) as M.
  destruct (a <? 2 ^ 23) eqn:A3, (b <? 2 ^ 23) eqn:B3; unfold SFltb, SFcompare; destruct s1, s2; try lia;
    cbv zeta in M;
    repeat match goal with |- context [match Z.compare ?x ?y with _ => _ end] => destruct (Z.compare x y) end;
    try (rewrite M); 
    try (destruct (Z.compare_spec a b); try discriminate; cbn; lia).
Qed.

Lemma f32_ltb_key : forall a b, 0 <= a < 2 ^ 32 -> 0 <= b < 2 ^ 32 ->
  (f32_ltb a b = true <-> ~ f32_nan a /\ ~ f32_nan b /\ f32_key a < f32_key b).
Proof.
  intros a b Ha Hb. unfold f32_ltb. rewrite !f32_of_bits_class by auto.
  rewrite class_ltb by (apply Z.mod_pos_bound; lia). unfold f32_nan, f32_key.
  assert (Ka : (if a >=? 2 ^ 31 then - (a mod 2 ^ 31) else a mod 2 ^ 31) = if a <? 2 ^ 31 then a else 2 ^ 31 - a).
  { destruct (a <? 2 ^ 31) eqn:E; [replace (a >=? 2 ^ 31) with false by lia|replace (a >=? 2 ^ 31) with true by lia]; dlia. }
  assert (Kb : (if b >=? 2 ^ 31 then - (b mod 2 ^ 31) else b mod 2 ^ 31) = if b <? 2 ^ 31 then b else 2 ^ 31 - b).
  { destruct (b <? 2 ^ 31) eqn:E; [replace (b >=? 2 ^ 31) with false by lia|replace (b >=? 2 ^ 31) with true by lia]; dlia. }
  rewrite Ka, Kb. lia.
Qed.

(** number ranges per type *)
Definition num_ok (d : dtype) (n : Z) : Prop :=
  match d with
  | INT32 => - 2 ^ 31 <= n < 2 ^ 31
  | INT64 => - 2 ^ 63 <= n < 2 ^ 63
  | FLOAT => 0 <= n < 2 ^ 32
  end.
Lemma value_num_ok : forall d v, value_ok d v -> num_ok d (value_num v).
Proof. intros d v H. destruct d, v; cbn in *; tauto. Qed.
Lemma val_max_ok : forall d, num_ok d (val_max d).
Proof. destruct d; cbn; unfold i32_max, i64_max, f32_max_bits; lia. Qed.
Lemma val_min_ok : forall d, num_ok d (val_min d).
Proof. destruct d; cbn; unfold i32_min, i64_min, f32_min_bits; lia. Qed.

Lemma val_ltb_trans : forall d a b c, num_ok d a -> num_ok d b -> num_ok d c ->
  val_ltb d a b = true -> val_ltb d b c = true -> val_ltb d a c = true.
Proof.
  intros d a b c Ha Hb Hc H1 H2. destruct d; cbn in *; try lia.
  apply f32_ltb_key in H1; auto. apply f32_ltb_key in H2; auto. apply f32_ltb_key; auto. intuition lia.
Qed.

Lemma val_ltb_irrefl : forall d a, num_ok d a -> val_ltb d a a = false.
Proof.
  intros d a Ha. destruct d; cbn in *; try lia.
  destruct (f32_ltb a a) eqn:E; auto. apply f32_ltb_key in E; auto. lia.
Qed.

Definition not_nan (d : dtype) (n : Z) : Prop := match d with FLOAT => ~ f32_nan n | _ => True end.
Lemma val_ltb_nn : forall d a b, num_ok d a -> num_ok d b -> val_ltb d a b = true -> not_nan d a /\ not_nan d b.
Proof. intros d a b Ha Hb H. destruct d; cbn in *; auto. apply f32_ltb_key in H; tauto. Qed.
Lemma val_ltb_total : forall d a b c, num_ok d a -> num_ok d b -> num_ok d c -> not_nan d c ->
  val_ltb d a b = true -> val_ltb d a c = true \/ val_ltb d c b = true.
Proof.
  intros d a b c Ha Hb Hc Hn H. destruct d; cbn in *; try lia.
  rewrite !f32_ltb_key in * by auto. destruct (Z_lt_le_dec (f32_key a) (f32_key c)); [left|right]; intuition lia.
Qed.

Record st_inv (d : dtype) (pts : list (Z * value)) (s : stats) : Prop := {
  si_type : st_type s = d;
  si_count : st_count s = zlen pts mod 2 ^ 32;
  si_tf : Forall (fun t => st_ts_first s <= t) (times pts);
  si_first : In (st_ts_first s, st_first s) (tnums pts) \/ (st_ts_first s = i64_max /\ st_first s = 0);
  si_tl : Forall (fun t => t <= st_ts_last s) (times pts);
  si_last : In (st_ts_last s, st_last s) (tnums pts) \/ (st_ts_last s = i64_min /\ st_last s = 0);
  si_min : Forall (fun v => val_ltb d v (st_min s) = false) (nums pts);
  si_min_in : In (st_min s) (nums pts) \/ st_min s = val_max d;
  si_max : Forall (fun v => val_ltb d (st_max s) v = false) (nums pts);
  si_max_in : In (st_max s) (nums pts) \/ st_max s = val_min d;
  si_min_ok : num_ok d (st_min s);
  si_max_ok : num_ok d (st_max s);
  si_min_nn : not_nan d (st_min s);
  si_max_nn : not_nan d (st_max s);
  si_min_top : val_ltb d (val_max d) (st_min s) = false;
  si_max_bot : val_ltb d (st_max s) (val_min d) = false;
  si_nums : Forall (num_ok d) (nums pts);
  si_sum : match d with INT32 => st_sum s = SumI (wrapS 64 (zsum (nums pts))) | _ => exists f, st_sum s = SumF f end }.

Lemma st_inv_new : forall d, st_inv d [] (stats_new d).
Proof.
  intros d. split; cbn; auto; try constructor; try (apply val_max_ok); try (apply val_min_ok);
    try (apply val_ltb_irrefl; first [apply val_max_ok|apply val_min_ok]);
    destruct d; cbn; eauto; unfold f32_nan, f32_max_bits, f32_min_bits; intros H; vm_compute in H; discriminate.
Qed.

Lemma zsum_app : forall a b, zsum (a ++ b) = zsum a + zsum b.
Proof. unfold zsum. induction a; intros; cbn [fold_right app]; [lia|]. rewrite IHa. lia. Qed.
Lemma wrapS_add : forall n a b, 1 <= n -> wrapS n (wrapS n a + b) = wrapS n (a + b).
Proof.
  intros n a b Hn. pose proof (pow2_pos n ltac:(lia)).
  apply (signed_unique n); auto; try (apply wrapS_range; auto).
  rewrite !wrapS_mod by auto. rewrite <- (Z.add_mod_idemp_l (wrapS n a) b) by lia. rewrite wrapS_mod by auto.
  rewrite Z.add_mod_idemp_l by lia. reflexivity.
Qed.
Lemma wrapS_add2 : forall n a b, 1 <= n -> wrapS n (wrapS n a + wrapS n b) = wrapS n (a + b).
Proof. intros. rewrite wrapS_add by auto. rewrite Z.add_comm, wrapS_add by auto. f_equal. lia. Qed.

Lemma arithU_mod : forall p v r a, arithU p 32 v = Ret r -> v mod 2 ^ 32 = a mod 2 ^ 32 -> r = a mod 2 ^ 32.
Proof. intros p v r a H E. apply arithU_inv in H; [|lia]. subst r. exact E. Qed.

Lemma times_app : forall a b, times (a ++ b) = times a ++ times b.
Proof. intros. apply map_app. Qed.
Lemma nums_app : forall a b, nums (a ++ b) = nums a ++ nums b.
Proof. intros. apply map_app. Qed.
Lemma tnums_app : forall a b, tnums (a ++ b) = tnums a ++ tnums b.
Proof. intros. apply map_app. Qed.

(** one update *)
Lemma st_inv_update : forall p d pts s t v s', st_inv d pts s -> value_ok d v ->
  stats_update p t v s = Ret s' -> st_inv d (pts ++ [(t, v)]) s'.
Proof.
  intros p d pts s t v s' I Hv H. destruct I.
  assert (HR : stats_update_raw p t (value_num v) s = Ret s').
  { unfold stats_update in H. rewrite si_type0 in H. destruct d, v; cbn in Hv; try tauto; exact H. }
  clear H. unfold stats_update_raw in HR. rewrite si_type0 in HR.
  destruct (if t <? st_ts_first s then (t, value_num v) else (st_ts_first s, st_first s)) as [tf fv] eqn:EF.
  destruct (if t >? st_ts_last s then (t, value_num v) else (st_ts_last s, st_last s)) as [tl lv] eqn:EL.
  apply bind_ret in HR. destruct HR as (c & Hc & HR). apply bind_ret in HR. destruct HR as (sm & Hs & HR).
  apply ret_inj in HR. subst s'. pose proof (value_num_ok _ _ Hv) as Hn.
  assert (IN : forall x, In x (nums pts) -> In x (nums (pts ++ [(t, v)]))) by (intros; rewrite nums_app; apply in_or_app; auto).
  assert (INV : In (value_num v) (nums (pts ++ [(t, v)]))) by (rewrite nums_app; apply in_or_app; right; left; reflexivity).
  assert (INT : forall x, In x (tnums pts) -> In x (tnums (pts ++ [(t, v)]))) by (intros; rewrite tnums_app; apply in_or_app; auto).
  assert (INTV : In (t, value_num v) (tnums (pts ++ [(t, v)]))) by (rewrite tnums_app; apply in_or_app; right; left; reflexivity).
  split; cbn [st_type st_count st_ts_first st_first st_ts_last st_last st_min st_max st_sum]; auto.
  - eapply arithU_mod; [exact Hc|]. rewrite si_count0, zlen_app, zlen_cons, zlen_nil.
    rewrite Z.add_mod_idemp_l by lia. reflexivity.
  - rewrite times_app. cbn. apply Forall_app. destruct (t <? st_ts_first s) eqn:E; inversion EF; subst.
    + split; [|repeat constructor; lia]. eapply Forall_impl; [|exact si_tf0]. cbn; intros; lia.
    + split; [auto|repeat constructor; lia].
  - destruct (t <? st_ts_first s) eqn:E; inversion EF; subst; [left; auto|]. destruct si_first0; auto.
  - rewrite times_app. cbn. apply Forall_app. destruct (t >? st_ts_last s) eqn:E; inversion EL; subst.
    + split; [|repeat constructor; lia]. eapply Forall_impl; [|exact si_tl0]. cbn; intros; lia.
    + split; [auto|repeat constructor; lia].
  - destruct (t >? st_ts_last s) eqn:E; inversion EL; subst; [left; auto|]. destruct si_last0; auto.
  - rewrite nums_app. cbn. apply Forall_app. destruct (val_ltb d (value_num v) (st_min s)) eqn:E.
    + split.
      * rewrite Forall_forall in *. intros x Hx. destruct (val_ltb d x (value_num v)) eqn:E2; auto.
        rewrite <- (si_min0 x Hx). symmetry.
        eapply val_ltb_trans; [| | |exact E2|exact E]; auto.
      * repeat constructor. apply val_ltb_irrefl. auto.
    + split; auto.
  - destruct (val_ltb d (value_num v) (st_min s)); [left; auto|]. destruct si_min_in0; auto.
  - rewrite nums_app. cbn. apply Forall_app. destruct (val_ltb d (st_max s) (value_num v)) eqn:E.
    + split.
      * rewrite Forall_forall in *. intros x Hx. destruct (val_ltb d (value_num v) x) eqn:E2; auto.
        rewrite <- (si_max0 x Hx). symmetry.
        eapply val_ltb_trans; [| | |exact E|exact E2]; auto.
      * repeat constructor. apply val_ltb_irrefl. auto.
    + split; auto.
  - destruct (val_ltb d (st_max s) (value_num v)); [left; auto|]. destruct si_max_in0; auto.
  - destruct (val_ltb d (value_num v) (st_min s)); auto.
  - destruct (val_ltb d (st_max s) (value_num v)); auto.
  - destruct (val_ltb d (value_num v) (st_min s)) eqn:E; auto. apply val_ltb_nn in E; tauto.
  - destruct (val_ltb d (st_max s) (value_num v)) eqn:E; auto. apply val_ltb_nn in E; tauto.
  - destruct (val_ltb d (value_num v) (st_min s)) eqn:E; auto. destruct (val_ltb d (val_max d) (value_num v)) eqn:E2; auto.
    rewrite <- si_min_top0. symmetry. eapply val_ltb_trans; [| | |exact E2|exact E]; auto. apply val_max_ok.
  - destruct (val_ltb d (st_max s) (value_num v)) eqn:E; auto. destruct (val_ltb d (value_num v) (val_min d)) eqn:E2; auto.
    rewrite <- si_max_bot0. symmetry. eapply val_ltb_trans; [| | |exact E|exact E2]; auto. apply val_min_ok.
  - rewrite nums_app. cbn. apply Forall_app. auto.
  - rewrite nums_app, zsum_app. cbn [nums map zsum fold_right snd].
    destruct d; cbn [val_to_sum] in Hs.
    + rewrite si_sum0 in Hs. cbn [sum_add] in Hs. apply bind_ret in Hs. destruct Hs as (z & Hz & Hs).
      apply ret_inj in Hs. subst sm. apply arithS_inv in Hz; [|lia]. subst z. rewrite wrapS_add by lia.
      do 2 f_equal. lia.
    + destruct si_sum0 as [f Hf]. rewrite Hf in Hs. cbn in Hs. inversion Hs. eauto.
    + destruct si_sum0 as [f Hf]. rewrite Hf in Hs. cbn in Hs. inversion Hs. eauto.
Qed.

(** merging *)
Lemma st_inv_merge : forall p d a b s o r, st_inv d a s -> st_inv d b o ->
  stats_merge p s o = Ret r -> st_inv d (a ++ b) r.
Proof.
  intros p d a b s o r Is Io H. destruct Is, Io. unfold stats_merge in H.
  rewrite si_type0, si_type1 in H. replace (dtype_eqb d d) with true in H by (destruct d; reflexivity).
  destruct (if st_ts_first o <? st_ts_first s then (st_ts_first o, st_first o) else (st_ts_first s, st_first s)) as [tf fv] eqn:EF.
  destruct (if st_ts_last o >? st_ts_last s then (st_ts_last o, st_last o) else (st_ts_last s, st_last s)) as [tl lv] eqn:EL.
  apply bind_ret in H. destruct H as (c & Hc & HR). apply bind_ret in HR. destruct HR as (sm & Hs & HR).
  apply ret_inj in HR. subst r.
  assert (INa : forall x, In x (nums a) -> In x (nums (a ++ b))) by (intros; rewrite nums_app; apply in_or_app; auto).
  assert (INb : forall x, In x (nums b) -> In x (nums (a ++ b))) by (intros; rewrite nums_app; apply in_or_app; auto).
  assert (ITa : forall x, In x (tnums a) -> In x (tnums (a ++ b))) by (intros; rewrite tnums_app; apply in_or_app; auto).
  assert (ITb : forall x, In x (tnums b) -> In x (tnums (a ++ b))) by (intros; rewrite tnums_app; apply in_or_app; auto).
  split; cbn [st_type st_count st_ts_first st_first st_ts_last st_last st_min st_max st_sum]; auto.
  - eapply arithU_mod; [exact Hc|]. rewrite si_count0, si_count1, zlen_app.
    rewrite Z.add_mod_idemp_l, Z.add_mod_idemp_r by lia. reflexivity.
  - rewrite times_app. apply Forall_app. destruct (st_ts_first o <? st_ts_first s) eqn:E; inversion EF; subst; split; auto.
    + eapply Forall_impl; [|exact si_tf0]. cbn; intros; lia.
    + eapply Forall_impl; [|exact si_tf1]. cbn; intros; lia.
  - destruct (st_ts_first o <? st_ts_first s) eqn:E; inversion EF; subst.
    + destruct si_first1; auto.
    + destruct si_first0; auto.
  - rewrite times_app. apply Forall_app. destruct (st_ts_last o >? st_ts_last s) eqn:E; inversion EL; subst; split; auto.
    + eapply Forall_impl; [|exact si_tl0]. cbn; intros; lia.
    + eapply Forall_impl; [|exact si_tl1]. cbn; intros; lia.
  - destruct (st_ts_last o >? st_ts_last s) eqn:E; inversion EL; subst.
    + destruct si_last1; auto.
    + destruct si_last0; auto.
  - rewrite nums_app. apply Forall_app. destruct (val_ltb d (st_min o) (st_min s)) eqn:E; split; auto.
    + rewrite Forall_forall in *. intros x Hx. destruct (val_ltb d x (st_min o)) eqn:E2; auto.
      rewrite <- (si_min0 x Hx). symmetry. eapply val_ltb_trans; [| | |exact E2|exact E]; auto.
    + rewrite Forall_forall in *. intros x Hx. destruct (val_ltb d x (st_min s)) eqn:E2; auto.
      destruct (val_ltb_total d x (st_min s) (st_min o)) as [T|T]; auto.
      * rewrite (si_min1 x Hx) in T. discriminate.
      * congruence.
  - destruct (val_ltb d (st_min o) (st_min s)); [destruct si_min_in1|destruct si_min_in0]; auto.
  - rewrite nums_app. apply Forall_app. destruct (val_ltb d (st_max s) (st_max o)) eqn:E; split; auto.
    + rewrite Forall_forall in *. intros x Hx. destruct (val_ltb d (st_max o) x) eqn:E2; auto.
      rewrite <- (si_max0 x Hx). symmetry. eapply val_ltb_trans; [| | |exact E|exact E2]; auto.
    + rewrite Forall_forall in *. intros x Hx. destruct (val_ltb d (st_max s) x) eqn:E2; auto.
      destruct (val_ltb_total d (st_max s) x (st_max o)) as [T|T]; auto.
      * congruence.
      * rewrite (si_max1 x Hx) in T. discriminate.
  - destruct (val_ltb d (st_max s) (st_max o)); [destruct si_max_in1|destruct si_max_in0]; auto.
  - destruct (val_ltb d (st_min o) (st_min s)); auto.
  - destruct (val_ltb d (st_max s) (st_max o)); auto.
  - destruct (val_ltb d (st_min o) (st_min s)); auto.
  - destruct (val_ltb d (st_max s) (st_max o)); auto.
  - destruct (val_ltb d (st_min o) (st_min s)); auto.
  - destruct (val_ltb d (st_max s) (st_max o)); auto.
  - rewrite nums_app. apply Forall_app. auto.
  - rewrite nums_app, zsum_app. destruct d.
    + rewrite si_sum0, si_sum1 in Hs. cbn [sum_add] in Hs. apply bind_ret in Hs. destruct Hs as (z & Hz & Hs).
      apply ret_inj in Hs. subst sm. apply arithS_inv in Hz; [|lia]. subst z. rewrite wrapS_add2 by lia. reflexivity.
    + destruct si_sum0 as [f Hf], si_sum1 as [g Hg]. rewrite Hf, Hg in Hs. cbn in Hs. inversion Hs. eauto.
    + destruct si_sum0 as [f Hf], si_sum1 as [g Hg]. rewrite Hf, Hg in Hs. cbn in Hs. inversion Hs. eauto.
Qed.

Lemma page_inv_gen : forall p d l pts s s', st_inv d pts s -> points_ok d l ->
  foldM (fun s tv => stats_update p (fst tv) (snd tv) s) l s = Ret s' -> st_inv d (pts ++ l) s'.
Proof.
  induction l as [|[t v] l IH]; cbn [foldM]; intros pts s s' I H F.
  - apply ret_inj in F. subst. rewrite app_nil_r. auto.
  - inversion H as [|? ? [Ht Hv] Hl]; subst. apply bind_ret in F. destruct F as (s1 & F1 & F).
    cbn [fst snd] in *. replace (pts ++ (t, v) :: l) with ((pts ++ [(t, v)]) ++ l) by (rewrite <- app_assoc; reflexivity).
    eapply IH; eauto. eapply st_inv_update; eauto.
Qed.
Lemma page_inv : forall p d l s, points_ok d l -> page_stats p d l = Ret s -> st_inv d l s.
Proof. intros p d l s H F. apply (page_inv_gen p d l [] (stats_new d) s (st_inv_new d) H F). Qed.

Lemma tree_inv : forall p d t s, points_ok d (tree_points t) -> tree_stats p d t = Ret s ->
  st_inv d (tree_points t) s.
Proof.
  induction t; cbn [tree_points tree_stats]; intros s H F.
  - apply ret_inj in F. subst. apply st_inv_new.
  - eapply page_inv; eauto.
  - apply Forall_app in H. destruct H. apply bind_ret in F. destruct F as (x & Fx & F).
    apply bind_ret in F. destruct F as (y & Fy & F). eapply st_inv_merge; eauto.
Qed.

Lemma zsum_bound : forall l, Forall (num_ok INT32) l -> - (zlen l * 2 ^ 31) <= zsum l <= zlen l * 2 ^ 31.
Proof.
  intros l H. induction H; cbn; [unfold zlen; cbn; lia|]. cbn in H. rewrite zlen_cons. unfold zsum in *. cbn [fold_right]. lia.
Qed.

Lemma st_update_total : forall p d pts s t v, st_inv d pts s -> value_ok d v -> zlen pts + 1 < 2 ^ 32 ->
  exists s', stats_update p t v s = Ret s'.
Proof.
  intros p d pts s t v I Hv Hl. destruct I. pose proof (zlen_nonneg _ pts).
  assert (HR : stats_update p t v s = stats_update_raw p t (value_num v) s).
  { unfold stats_update. rewrite si_type0. destruct d, v; cbn in Hv; try tauto; reflexivity. }
  rewrite HR. unfold stats_update_raw. rewrite si_type0.
  destruct (if t <? st_ts_first s then (t, value_num v) else (st_ts_first s, st_first s)) as [tf fv].
  destruct (if t >? st_ts_last s then (t, value_num v) else (st_ts_last s, st_last s)) as [tl lv].
  rewrite si_count0, Z.mod_small by lia. rewrite arithU_ok by lia. cbn [bind].
  pose proof (value_num_ok _ _ Hv) as Hn.
  destruct d; cbn [val_to_sum].
  - rewrite si_sum0. pose proof (zsum_bound _ si_nums0) as B. unfold zlen, nums in B. rewrite map_length in B.
    fold (nums pts) in B. fold (zlen pts) in B. cbn in Hn. cbn [sum_add].
    rewrite wrapS_small by lia. rewrite arithS_ok by lia. cbn. eauto.
  - destruct si_sum0 as [f ->]. cbn. eauto.
  - destruct si_sum0 as [f ->]. cbn. eauto.
Qed.
Lemma st_merge_total : forall p d a b s o, st_inv d a s -> st_inv d b o -> zlen a + zlen b < 2 ^ 32 ->
  exists r, stats_merge p s o = Ret r.
Proof.
  intros p d a b s o Is Io Hl. destruct Is, Io. pose proof (zlen_nonneg _ a). pose proof (zlen_nonneg _ b).
  unfold stats_merge. rewrite si_type0, si_type1. replace (dtype_eqb d d) with true by (destruct d; reflexivity).
  destruct (if st_ts_first o <? st_ts_first s then (st_ts_first o, st_first o) else (st_ts_first s, st_first s)) as [tf fv].
  destruct (if st_ts_last o >? st_ts_last s then (st_ts_last o, st_last o) else (st_ts_last s, st_last s)) as [tl lv].
  rewrite si_count0, si_count1, !Z.mod_small by lia. rewrite arithU_ok by lia. cbn [bind].
  destruct d.
  - rewrite si_sum0, si_sum1. pose proof (zsum_bound _ si_nums0) as B0. pose proof (zsum_bound _ si_nums1) as B1.
    unfold zlen, nums in B0, B1. rewrite map_length in B0, B1. fold (nums a) in B0. fold (nums b) in B1.
    fold (zlen a) in B0. fold (zlen b) in B1. cbn [sum_add].
    rewrite !wrapS_small by lia. rewrite arithS_ok by lia. cbn. eauto.
  - destruct si_sum0 as [f ->], si_sum1 as [g ->]. cbn. eauto.
  - destruct si_sum0 as [f ->], si_sum1 as [g ->]. cbn. eauto.
Qed.
Lemma page_total_gen : forall p d l pts s, st_inv d pts s -> points_ok d l -> zlen pts + zlen l < 2 ^ 32 ->
  exists s', foldM (fun s tv => stats_update p (fst tv) (snd tv) s) l s = Ret s'.
Proof.
  induction l as [|[t v] l IH]; cbn [foldM]; intros pts s I H L; [eauto|].
  inversion H as [|? ? [Ht Hv] Hl]; subst. rewrite zlen_cons in L. pose proof (zlen_nonneg _ l). cbn [fst snd] in *.
  destruct (st_update_total p d pts s t v I Hv ltac:(lia)) as [s1 E1]. rewrite E1. cbn [bind].
  eapply IH; [eapply st_inv_update; eauto|auto|]. rewrite zlen_app, zlen_cons, zlen_nil. lia.
Qed.
Lemma tree_total : forall p d t, points_ok d (tree_points t) -> zlen (tree_points t) < 2 ^ 32 ->
  exists s, tree_stats p d t = Ret s.
Proof.
  induction t; cbn [tree_points tree_stats]; intros H L.
  - eauto.
  - apply (page_total_gen p d pts [] (stats_new d) (st_inv_new d) H). rewrite zlen_nil. lia.
  - apply Forall_app in H. destruct H as [H1 H2]. rewrite zlen_app in L.
    pose proof (zlen_nonneg _ (tree_points t1)). pose proof (zlen_nonneg _ (tree_points t2)).
    destruct (IHt1 H1 ltac:(lia)) as [x Ex]. destruct (IHt2 H2 ltac:(lia)) as [y Ey]. rewrite Ex, Ey. cbn [bind].
    apply (st_merge_total p d _ _ x y (tree_inv p d t1 x H1 Ex) (tree_inv p d t2 y H2 Ey)). lia.
Qed.

(** C09 *)
Lemma in_tnums_times : forall t n pts, In (t, n) (tnums pts) -> In t (times pts).
Proof.
  intros t n pts H. unfold tnums, times in *. apply in_map_iff in H. destruct H as ([t' v] & E & H).
  apply in_map_iff. eexists. split; [|exact H]. inversion E. reflexivity.
Qed.
Definition int_exact (s : stats) (pts : list (Z * value)) : Prop :=
  st_count s = zlen pts /\
  is_min (st_ts_first s) (times pts) /\ In (st_ts_first s, st_first s) (tnums pts) /\
  is_max (st_ts_last s) (times pts) /\ In (st_ts_last s, st_last s) (tnums pts) /\
  is_min (st_min s) (nums pts) /\ is_max (st_max s) (nums pts).

Lemma inv_first : forall d pts s, st_inv d pts s -> Exists (fun t => t < i64_max) (times pts) ->
  is_min (st_ts_first s) (times pts) /\ In (st_ts_first s, st_first s) (tnums pts).
Proof.
  intros d pts s I H. destruct I. apply Exists_exists in H. destruct H as (t & Hin & Ht).
  assert (In (st_ts_first s, st_first s) (tnums pts)).
  { destruct si_first0 as [|[E _]]; auto. rewrite Forall_forall in si_tf0. specialize (si_tf0 t Hin). lia. }
  split; [split; auto; eapply in_tnums_times; eauto|auto].
Qed.
Lemma inv_last : forall d pts s, st_inv d pts s -> Exists (fun t => i64_min < t) (times pts) ->
  is_max (st_ts_last s) (times pts) /\ In (st_ts_last s, st_last s) (tnums pts).
Proof.
  intros d pts s I H. destruct I. apply Exists_exists in H. destruct H as (t & Hin & Ht).
  assert (In (st_ts_last s, st_last s) (tnums pts)).
  { destruct si_last0 as [|[E _]]; auto. rewrite Forall_forall in si_tl0. specialize (si_tl0 t Hin). lia. }
  split; [split; auto; eapply in_tnums_times; eauto|auto].
Qed.
Lemma inv_minmax_int : forall d pts s, st_inv d pts s -> d <> FLOAT -> pts <> [] ->
  is_min (st_min s) (nums pts) /\ is_max (st_max s) (nums pts).
Proof.
  intros d pts s I Hd Hne. destruct I.
  assert (Hn : exists n, In n (nums pts) /\ num_ok d n).
  { destruct pts as [|[t v] pts]; [congruence|]. exists (value_num v). split; [left; reflexivity|].
    cbn in si_nums0. inversion si_nums0; auto. }
  destruct Hn as (n & Hin & Hok).
  assert (A : Forall (fun v => st_min s <= v) (nums pts)).
  { eapply Forall_impl; [|exact si_min0]. destruct d; cbn; try congruence; intros; lia. }
  assert (B : Forall (fun v => v <= st_max s) (nums pts)).
  { eapply Forall_impl; [|exact si_max0]. destruct d; cbn; try congruence; intros; lia. }
  split; split; auto.
  - destruct si_min_in0 as [|E]; auto. rewrite Forall_forall in A. specialize (A n Hin).
    assert (st_min s = n) by (rewrite E in *; destruct d; cbn in *; unfold i32_max, i64_max in *; try congruence; lia).
    congruence.
  - destruct si_max_in0 as [|E]; auto. rewrite Forall_forall in B. specialize (B n Hin).
    assert (st_max s = n) by (rewrite E in *; destruct d; cbn in *; unfold i32_min, i64_min in *; try congruence; lia).
    congruence.
Qed.
Lemma int_stats_exact : forall p d t, d <> FLOAT -> points_ok d (tree_points t) ->
  zlen (tree_points t) < 2 ^ 32 ->
  Exists (fun t => t < i64_max) (times (tree_points t)) -> Exists (fun t => i64_min < t) (times (tree_points t)) ->
  exists s, tree_stats p d t = Ret s /\
    st_count s = zlen (tree_points t) /\
    is_min (st_ts_first s) (times (tree_points t)) /\ In (st_ts_first s, st_first s) (tnums (tree_points t)) /\
    is_max (st_ts_last s) (times (tree_points t)) /\ In (st_ts_last s, st_last s) (tnums (tree_points t)) /\
    is_min (st_min s) (nums (tree_points t)) /\ is_max (st_max s) (nums (tree_points t)).
Proof.
  intros p d t Hd Hok Hl He1 He2. destruct (tree_total p d t Hok Hl) as [s Es]. exists s. split; [exact Es|].
  pose proof (tree_inv p d t s Hok Es) as I.
  destruct (inv_first _ _ _ I He1) as [A B]. destruct (inv_last _ _ _ I He2) as [C D].
  assert (tree_points t <> []) by (intros E; rewrite E in He1; inversion He1).
  destruct (inv_minmax_int _ _ _ I Hd H) as [E F].
  pose proof (zlen_nonneg _ (tree_points t)).
  split; [rewrite (si_count _ _ _ I); apply Z.mod_small; lia|]. auto 10.
Qed.

(** C10 *)
Lemma int32_sum_exact : forall p t s, points_ok INT32 (tree_points t) -> zlen (tree_points t) < 2 ^ 32 ->
  tree_stats p INT32 t = Ret s -> st_sum s = SumI (zsum (nums (tree_points t))).
Proof.
  intros p t s Hok Hl Hs. pose proof (tree_inv p INT32 t s Hok Hs) as I. destruct I. cbn in si_sum0. rewrite si_sum0.
  f_equal. apply wrapS_small; [lia|]. pose proof (zsum_bound _ si_nums0) as B. unfold zlen, nums in B. rewrite map_length in B.
  fold (nums (tree_points t)) in B. fold (zlen (tree_points t)) in B. lia.
Qed.
Lemma page_fsum_gen : forall p d l s s' f, d <> INT32 -> st_type s = d -> Forall (fun tv => value_ok d (snd tv)) l ->
  st_sum s = SumF f ->
  foldM (fun s tv => stats_update p (fst tv) (snd tv) s) l s = Ret s' ->
  st_type s' = d /\ st_sum s' = SumF (fold_left (SFadd 53 1024) (map (to_f64 d) (nums l)) f).
Proof.
  induction l as [|[t v] l IH]; cbn [foldM nums map fold_left]; intros s s' f Hd Ht Hv Hs F.
  - apply ret_inj in F. subst. auto.
  - inversion Hv as [|? ? Hv1 Hv2]; subst. apply bind_ret in F. destruct F as (s1 & F1 & F). cbn [fst snd] in *.
    assert (HR : stats_update_raw p t (value_num v) s = Ret s1).
    { unfold stats_update in F1. destruct (st_type s), v; cbn in Hv1; try tauto; exact F1. }
    unfold stats_update_raw in HR.
    destruct (if t <? st_ts_first s then (t, value_num v) else (st_ts_first s, st_first s)) as [tf fv].
    destruct (if t >? st_ts_last s then (t, value_num v) else (st_ts_last s, st_last s)) as [tl lv].
    apply bind_ret in HR. destruct HR as (c & Hc & HR). apply bind_ret in HR. destruct HR as (sm & Hsm & HR).
    apply ret_inj in HR. subst s1. rewrite Hs in Hsm.
    refine (IH _ _ _ Hd _ Hv2 _ F); [reflexivity|]. cbn [st_sum snd].
    destruct (st_type s); [congruence| |]; cbn [sum_add val_to_sum] in Hsm; apply ret_inj in Hsm; subst sm; [reflexivity|].
    unfold f64_add, f64_of_f32, to_f64. destruct (f32_of_bits (value_num v)) as [| | |sg m e]; try reflexivity.
Qed.
Lemma page_stats_type : forall p d l s s', st_type s = d ->
  foldM (fun s tv => stats_update p (fst tv) (snd tv) s) l s = Ret s' -> st_type s' = d.
Proof.
  induction l as [|[t v] l IH]; cbn [foldM]; intros s s' Ht F; [apply ret_inj in F; subst; auto|].
  apply bind_ret in F. destruct F as (s1 & F1 & F). eapply IH; [|exact F]. cbn [fst snd] in F1.
  assert (exists n, stats_update_raw p t n s = Ret s1) as [n HR].
  { unfold stats_update in F1. destruct (st_type s), v; try discriminate; eauto. }
  unfold stats_update_raw in HR.
  destruct (if t <? st_ts_first s then (t, n) else (st_ts_first s, st_first s)) as [tf fv].
  destruct (if t >? st_ts_last s then (t, n) else (st_ts_last s, st_last s)) as [tl lv].
  apply bind_ret in HR. destruct HR as (c & Hc & HR). apply bind_ret in HR. destruct HR as (sm & Hsm & HR).
  apply ret_inj in HR. subst s1. auto.
Qed.
Lemma float_sum : forall p d t s, d <> INT32 -> points_ok d (tree_points t) ->
  tree_stats p d t = Ret s -> st_type s = d /\ st_sum s = SumF (tree_fsum d t).
Proof.
  induction t; cbn [tree_points tree_stats tree_fsum]; intros s Hd H F.
  - apply ret_inj in F. subst. cbn. destruct d; [congruence| |]; auto.
  - apply (page_fsum_gen p d pts (stats_new d) s (S754_zero false)); auto.
    + eapply Forall_impl; [|exact H]. cbn; tauto.
    + destruct d; [congruence| |]; reflexivity.
  - apply Forall_app in H. destruct H as [H1 H2]. apply bind_ret in F. destruct F as (x & Fx & F).
    apply bind_ret in F. destruct F as (y & Fy & F).
    destruct (IHt1 x Hd H1 Fx) as [T1 S1]. destruct (IHt2 y Hd H2 Fy) as [T2 S2].
    unfold stats_merge in F. rewrite T1, T2 in F. replace (dtype_eqb d d) with true in F by (destruct d; reflexivity).
    destruct (if st_ts_first y <? st_ts_first x then (st_ts_first y, st_first y) else (st_ts_first x, st_first x)) as [tf fv].
    destruct (if st_ts_last y >? st_ts_last x then (st_ts_last y, st_last y) else (st_ts_last x, st_last x)) as [tl lv].
    apply bind_ret in F. destruct F as (c & Hc & F). rewrite S1, S2 in F. cbn in F. apply ret_inj in F. subst s. auto.
Qed.

(** C11 *)
Lemma not_ltb_key : forall a b, 0 <= a < 2 ^ 32 -> 0 <= b < 2 ^ 32 -> ~ f32_nan a -> ~ f32_nan b ->
  f32_ltb a b = false -> f32_key b <= f32_key a.
Proof.
  intros a b Ha Hb Na Nb H. destruct (Z_lt_le_dec (f32_key a) (f32_key b)); auto.
  assert (f32_ltb a b = true) by (apply f32_ltb_key; auto). congruence.
Qed.
Lemma is_nan_spec : forall v, num_ok FLOAT v -> (bits_nan v = true <-> f32_nan v).
Proof. intros. unfold bits_nan, f32_nan. lia. Qed.
Lemma float_minmax : forall p t s, points_ok FLOAT (tree_points t) -> tree_stats p FLOAT t = Ret s ->
  In (st_min s) (f32_max_bits :: real_nums (tree_points t)) /\
  Forall (fun v => f32_key (st_min s) <= f32_key v) (f32_max_bits :: real_nums (tree_points t)) /\
  In (st_max s) (f32_min_bits :: real_nums (tree_points t)) /\
  Forall (fun v => f32_key v <= f32_key (st_max s)) (f32_min_bits :: real_nums (tree_points t)).
Proof.
  intros p t s Hok Hs. pose proof (tree_inv p FLOAT t s Hok Hs) as I. destruct I. cbn [val_ltb val_max val_min not_nan] in *.
  pose proof (val_max_ok FLOAT) as KM. pose proof (val_min_ok FLOAT) as Km. cbn [val_max val_min num_ok] in *.
  assert (NM : ~ f32_nan f32_max_bits) by (intros Q; vm_compute in Q; discriminate).
  assert (Nm : ~ f32_nan f32_min_bits) by (intros Q; vm_compute in Q; discriminate).
  assert (RI : forall v, In v (nums (tree_points t)) -> ~ f32_nan v -> In v (real_nums (tree_points t))).
  { intros v Hv Hn. apply filter_In. split; auto. unfold bits_nan, f32_nan in *. lia. }
  assert (IR : forall v, In v (real_nums (tree_points t)) -> In v (nums (tree_points t)) /\ ~ f32_nan v).
  { intros v Hv. apply filter_In in Hv. destruct Hv. split; auto. unfold bits_nan, f32_nan in *. lia. }
  rewrite Forall_forall in si_min0, si_max0, si_nums0.
  split; [|split; [|split]].
  - destruct si_min_in0 as [H|H]; [right; apply RI; auto|left; auto].
  - apply Forall_cons; [apply not_ltb_key; auto|]. rewrite Forall_forall. intros v Hv. destruct (IR v Hv).
    apply not_ltb_key; auto; apply (si_nums0 v); auto.
  - destruct si_max_in0 as [H|H]; [right; apply RI; auto|left; auto].
  - apply Forall_cons; [apply not_ltb_key; auto|]. rewrite Forall_forall. intros v Hv. destruct (IR v Hv).
    apply not_ltb_key; auto; apply (si_nums0 v); auto.
Qed.
Lemma finite_bits : forall b, 0 <= b < 2 ^ 32 -> f32_finite b ->
  (f32_key f32_max_bits <= f32_key b -> b = f32_max_bits) /\ (f32_key b <= f32_key f32_min_bits -> b = f32_min_bits).
Proof.
  intros b Hb Hf. unfold f32_finite, f32_key, f32_max_bits, f32_min_bits in *.
  change (2 ^ 31) with 2147483648 in *. change (2 ^ 32) with 4294967296 in *.
  destruct (b <? 2147483648) eqn:E; cbn -[Z.modulo]; dlia.
Qed.
Lemma float_minmax_finite : forall p t s, points_ok FLOAT (tree_points t) -> tree_stats p FLOAT t = Ret s ->
  Exists f32_finite (nums (tree_points t)) ->
  (In (st_min s) (nums (tree_points t)) /\ In (st_max s) (nums (tree_points t))) /\
  Forall (fun v => ~ f32_nan v -> f32_key (st_min s) <= f32_key v <= f32_key (st_max s)) (nums (tree_points t)).
Proof.
  intros p t s Hok Hs Hf. destruct (float_minmax p t s Hok Hs) as (A & B & C & D).
  assert (N : Forall (fun n => 0 <= n < 2 ^ 32) (nums (tree_points t))) by (apply (si_nums FLOAT _ s); eapply tree_inv; eauto).
  rewrite Forall_forall in N. inversion B as [|? ? _ B']; subst. inversion D as [|? ? _ D']; subst.
  rewrite Forall_forall in B', D'.
  assert (F : forall v, In v (nums (tree_points t)) -> ~ f32_nan v -> f32_key (st_min s) <= f32_key v <= f32_key (st_max s)).
  { intros v Hv Hn. assert (In v (real_nums (tree_points t))) by (apply filter_In; split; auto; unfold bits_nan, f32_nan in *; lia).
    split; auto. }
  apply Exists_exists in Hf. destruct Hf as (n & Hn & Hf). destruct (finite_bits n (N n Hn) Hf) as (K2 & K3).
  assert (Hnn : ~ f32_nan n) by (unfold f32_nan, f32_finite in *; lia). pose proof (F n Hn Hnn).
  split; [split|rewrite Forall_forall; auto].
  - destruct A as [A|A]; [|apply filter_In in A; tauto]. rewrite <- A in H |- *. rewrite <- K2; auto. lia.
  - destruct C as [C|C]; [|apply filter_In in C; tauto]. rewrite <- C in H |- *. rewrite <- K3; auto. lia.
Qed.

(** NaN points do not influence the extremes *)
Lemma update_nan : forall p t b s s', f32_nan b -> 0 <= b < 2 ^ 32 -> num_ok FLOAT (st_min s) -> num_ok FLOAT (st_max s) ->
  stats_update p t (VFloat b) s = Ret s' -> st_type s = FLOAT -> st_min s' = st_min s /\ st_max s' = st_max s.
Proof.
  intros p t b s s' Hn Hb H1 H2 H Ht. unfold stats_update in H. rewrite Ht in H. unfold stats_update_raw in H.
  destruct (if t <? st_ts_first s then (t, b) else (st_ts_first s, st_first s)) as [tf fv].
  destruct (if t >? st_ts_last s then (t, b) else (st_ts_last s, st_last s)) as [tl lv].
  apply bind_ret in H. destruct H as (c & Hc & H). apply bind_ret in H. destruct H as (sm & Hsm & H).
  apply ret_inj in H. subst s'. cbn [st_min st_max]. rewrite Ht. cbn [val_ltb].
  assert (f32_ltb b (st_min s) = false) as -> by (destruct (f32_ltb b (st_min s)) eqn:E; auto; apply f32_ltb_key in E; auto; tauto).
  assert (f32_ltb (st_max s) b = false) as -> by (destruct (f32_ltb (st_max s) b) eqn:E; auto; apply f32_ltb_key in E; auto; tauto).
  auto.
Qed.
Lemma update_same : forall p t v s1 s2 s1' s2', st_type s1 = st_type s2 -> st_min s1 = st_min s2 -> st_max s1 = st_max s2 ->
  stats_update p t v s1 = Ret s1' -> stats_update p t v s2 = Ret s2' -> st_min s1' = st_min s2' /\ st_max s1' = st_max s2'.
Proof.
  intros p t v s1 s2 s1' s2' Ht Hm HM H1 H2. unfold stats_update in *. rewrite Ht in H1.
  assert (exists n, stats_update_raw p t n s1 = Ret s1' /\ stats_update_raw p t n s2 = Ret s2') as (n & R1 & R2).
  { destruct (st_type s2), v; try discriminate; eauto. }
  unfold stats_update_raw in R1, R2.
  destruct (if t <? st_ts_first s1 then (t, n) else (st_ts_first s1, st_first s1)) as [tf fv].
  destruct (if t >? st_ts_last s1 then (t, n) else (st_ts_last s1, st_last s1)) as [tl lv].
  destruct (if t <? st_ts_first s2 then (t, n) else (st_ts_first s2, st_first s2)) as [tf2 fv2].
  destruct (if t >? st_ts_last s2 then (t, n) else (st_ts_last s2, st_last s2)) as [tl2 lv2].
  apply bind_ret in R1. destruct R1 as (c & Hc & R1). apply bind_ret in R1. destruct R1 as (sm & Hsm & R1).
  apply bind_ret in R2. destruct R2 as (c2 & Hc2 & R2). apply bind_ret in R2. destruct R2 as (sm2 & Hsm2 & R2).
  apply ret_inj in R1, R2. subst. cbn [st_min st_max]. rewrite Ht, Hm, HM. auto.
Qed.
Lemma stats_update_type : forall p t v s s', stats_update p t v s = Ret s' -> st_type s' = st_type s.
Proof.
  intros p t v s s' H.
  assert (foldM (fun s tv => stats_update p (fst tv) (snd tv) s) [(t, v)] s = Ret s') as F by (cbn; rewrite H; reflexivity).
  symmetry. eapply page_stats_type in F; [|reflexivity]. auto.
Qed.
Lemma page_drop_nan : forall p l a b s1 s2 s1' s2', st_inv FLOAT a s1 -> st_inv FLOAT b s2 ->
  st_min s1 = st_min s2 -> st_max s1 = st_max s2 -> points_ok FLOAT l ->
  foldM (fun s tv => stats_update p (fst tv) (snd tv) s) l s1 = Ret s1' ->
  foldM (fun s tv => stats_update p (fst tv) (snd tv) s) (filter (fun tv => negb (is_nan_value (snd tv))) l) s2 = Ret s2' ->
  st_min s1' = st_min s2' /\ st_max s1' = st_max s2'.
Proof.
  induction l as [|[t v] l IH]; cbn [foldM filter]; intros a b s1 s2 s1' s2' I1 I2 Hm HM Hok F1 F2.
  - apply ret_inj in F1, F2. subst. auto.
  - inversion Hok as [|? ? [Ht Hv] Hl]; subst. cbn [fst snd] in *.
    apply bind_ret in F1. destruct F1 as (s3 & F1 & G1).
    pose proof (st_inv_update p FLOAT a s1 t v s3 I1 Hv F1) as I3.
    destruct (is_nan_value v) eqn:E; cbn [negb] in F2.
    + assert (Q : st_min s3 = st_min s1 /\ st_max s3 = st_max s1).
      { destruct v; cbn in Hv, E; try tauto. eapply update_nan; eauto; try apply I1. unfold f32_nan. lia. }
      destruct Q. eapply (IH _ b s3 s2); eauto; congruence.
    + cbn [foldM] in F2. apply bind_ret in F2. destruct F2 as (s4 & F2 & G2). cbn [fst snd] in F2.
      pose proof (st_inv_update p FLOAT b s2 t v s4 I2 Hv F2) as I4.
      destruct (update_same p t v s1 s2 s3 s4) as [Q1 Q2]; auto.
      { rewrite (si_type _ _ _ I1), (si_type _ _ _ I2). reflexivity. }
      eapply (IH _ _ s3 s4); eauto.
Qed.
Lemma points_ok_drop : forall d t, points_ok d (tree_points t) -> points_ok d (tree_points (drop_nan t)).
Proof.
  induction t; cbn [tree_points drop_nan]; intros H; auto.
  - apply Forall_forall. intros x Hx. apply filter_In in Hx. destruct Hx as [Hx _].
    exact (proj1 (Forall_forall _ _) H x Hx).
  - apply Forall_app in H. destruct H. apply Forall_app. split; [exact (IHt1 H)|exact (IHt2 H0)].
Qed.
Lemma tree_drop_nan : forall p t s s', points_ok FLOAT (tree_points t) ->
  tree_stats p FLOAT t = Ret s -> tree_stats p FLOAT (drop_nan t) = Ret s' ->
  st_min s = st_min s' /\ st_max s = st_max s'.
Proof.
  induction t; cbn [tree_points tree_stats drop_nan]; intros s s' H F1 F2.
  - rewrite F1 in F2. apply ret_inj in F2. subst. auto.
  - eapply page_drop_nan; [apply st_inv_new|apply st_inv_new|reflexivity|reflexivity|exact H|exact F1|exact F2].
  - apply Forall_app in H. destruct H as [H1 H2].
    apply bind_ret in F1. destruct F1 as (x & Fx & F1). apply bind_ret in F1. destruct F1 as (y & Fy & F1).
    apply bind_ret in F2. destruct F2 as (x' & Fx' & F2). apply bind_ret in F2. destruct F2 as (y' & Fy' & F2).
    destruct (IHt1 _ _ H1 Fx Fx') as [A1 A2]. destruct (IHt2 _ _ H2 Fy Fy') as [B1 B2].
    pose proof (tree_inv _ _ _ _ H1 Fx) as I1. pose proof (tree_inv _ _ _ _ H2 Fy) as I2.
    pose proof (tree_inv _ _ _ _ (points_ok_drop _ _ H1) Fx') as I3. pose proof (tree_inv _ _ _ _ (points_ok_drop _ _ H2) Fy') as I4.
    apply si_type in I1, I2, I3, I4. unfold stats_merge in *. rewrite I1, I2, I3, I4 in *. cbn [dtype_eqb] in *.
    destruct (if st_ts_first y <? st_ts_first x then _ else _) as [tf fv].
    destruct (if st_ts_last y >? st_ts_last x then _ else _) as [tl lv].
    destruct (if st_ts_first y' <? st_ts_first x' then _ else _) as [tf2 fv2].
    destruct (if st_ts_last y' >? st_ts_last x' then _ else _) as [tl2 lv2].
    apply bind_ret in F1. destruct F1 as (c & Hc & R1). apply bind_ret in R1. destruct R1 as (sm & Hsm & R1).
    apply bind_ret in F2. destruct F2 as (c2 & Hc2 & R2). apply bind_ret in R2. destruct R2 as (sm2 & Hsm2 & R2).
    apply ret_inj in R1, R2. subst. cbn [st_min st_max]. rewrite A1, A2, B1, B2. auto.
Qed.
Lemma float_only_inf : forall p t s, tree_points t <> [] -> points_ok FLOAT (tree_points t) -> tree_stats p FLOAT t = Ret s ->
  (Forall (eq 0x7F800000) (nums (tree_points t)) -> st_min s = f32_max_bits /\ st_max s = 0x7F800000) /\
  (Forall (eq 0xFF800000) (nums (tree_points t)) -> st_max s = f32_min_bits /\ st_min s = 0xFF800000).
Proof.
  intros p t s Hne Hok Hs. destruct (float_minmax p t s Hok Hs) as (A & B & C & D).
  inversion B as [|? ? B0 B']; subst. inversion D as [|? ? D0 D']; subst. clear B D. rewrite Forall_forall in B', D'.
  assert (X : exists n, In n (nums (tree_points t))).
  { destruct (tree_points t) as [|[t0 v0] l]; [congruence|]. exists (value_num v0). left. reflexivity. }
  destruct X as [n Hn].
  split; intros H; rewrite Forall_forall in H; pose proof (H n Hn); subst n;
    match goal with Hn : In ?c _ |- _ => assert (HR : In c (real_nums (tree_points t))) by (apply filter_In; split; auto);
      specialize (B' _ HR); specialize (D' _ HR) end; split.
  - destruct A as [A|A]; auto. apply filter_In in A. destruct A as [A _]. rewrite <- (H _ A) in B0. vm_compute in B0. congruence.
  - destruct C as [C|C]; [|apply filter_In in C; destruct C; symmetry; auto]. rewrite <- C in D'. vm_compute in D'. congruence.
  - destruct C as [C|C]; auto. apply filter_In in C. destruct C as [C _]. rewrite <- (H _ C) in D0. vm_compute in D0. congruence.
  - destruct A as [A|A]; [|apply filter_In in A; destruct A; symmetry; auto]. rewrite <- A in B'. vm_compute in B'. congruence.
Qed.
