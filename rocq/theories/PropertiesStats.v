(** Properties C09-C12: statistics. An [mtree] (SStats.v) is any way of splitting points into pages and
    merging the page statistics. *)
From Verif Require Import PFloat.

(** C09. The timestamp hypotheses are the sharp ones: some timestamp below i64::MAX (else the first
    value is not recorded) and some above i64::MIN. *)
Theorem C09_int_stats_exact : forall p d t, d <> FLOAT -> points_ok d (tree_points t) ->
  zlen (tree_points t) < 2 ^ 32 ->
  Exists (fun t => t < i64_max) (times (tree_points t)) -> Exists (fun t => i64_min < t) (times (tree_points t)) ->
  exists s, tree_stats p d t = Ret s /\
    st_count s = zlen (tree_points t) /\
    is_min (st_ts_first s) (times (tree_points t)) /\ In (st_ts_first s, st_first s) (tnums (tree_points t)) /\
    is_max (st_ts_last s) (times (tree_points t)) /\ In (st_ts_last s, st_last s) (tnums (tree_points t)) /\
    is_min (st_min s) (nums (tree_points t)) /\ is_max (st_max s) (nums (tree_points t)).
Proof. exact int_stats_exact. Qed.
Print Assumptions C09_int_stats_exact.
Example C09_case :
  let t := Merge (Merge Empty (Page [(5, VInt 3); (7, VInt (-9))])) (Page [(9, VInt 3)]) in
  points_ok INT32 (tree_points t) /\ Exists (fun t => t < i64_max) (times (tree_points t)) /\
  Exists (fun t => i64_min < t) (times (tree_points t)) /\
  match tree_stats Debug INT32 t with
  | Ret s => (st_count s, st_ts_first s, st_ts_last s, st_first s, st_last s, st_min s, st_max s) = (3, 5, 9, 3, 3, -9, 3)
  | Panic _ => False end.
Proof.
  cbv zeta. split; [repeat constructor; cbn; unfold i64_min, i64_max; try lia; discriminate|].
  split; [left; reflexivity|]. split; [left; reflexivity|]. vm_compute. reflexivity.
Qed.
(** Without the first timestamp hypothesis the claim is false: the first value is reported as 0. *)
Theorem C09_first_at_max_refuted : exists t s, points_ok INT32 (tree_points t) /\ tree_points t <> [] /\
  tree_stats Release INT32 t = Ret s /\ ~ In (st_ts_first s, st_first s) (tnums (tree_points t)).
Proof.
  exists (Page [(i64_max, VInt 5)]). eexists. split; [repeat constructor; cbn; unfold i64_min, i64_max; try lia; discriminate|].
  split; [discriminate|]. split; [vm_compute; reflexivity|]. cbn. intros [H|[]]. discriminate.
Qed.
Print Assumptions C09_first_at_max_refuted.

(** C10. *)
Theorem C10_int32_sum_exact : forall p t s, points_ok INT32 (tree_points t) -> zlen (tree_points t) < 2 ^ 32 ->
  tree_stats p INT32 t = Ret s -> st_sum s = SumI (zsum (nums (tree_points t))).
Proof. exact int32_sum_exact. Qed.
Print Assumptions C10_int32_sum_exact.
Theorem C10_int32_never_overflows : forall p t, points_ok INT32 (tree_points t) -> zlen (tree_points t) < 2 ^ 32 ->
  exists s, tree_stats p INT32 t = Ret s.
Proof. exact (fun p => tree_total p INT32). Qed.
Print Assumptions C10_int32_never_overflows.
Theorem C10_float_sum_per_page : forall p d t s, d <> INT32 -> points_ok d (tree_points t) ->
  tree_stats p d t = Ret s -> st_sum s = SumF (tree_fsum d t).
Proof. exact (fun p d t s H1 H2 H3 => proj2 (float_sum p d t s H1 H2 H3)). Qed.
Print Assumptions C10_float_sum_per_page.
Example C10_case :
  match tree_stats Debug INT32 (Merge (Page [(1, VInt (-2147483648)); (2, VInt (-2147483648))]) (Page [(3, VInt 7)])) with
  | Ret s => st_sum s = SumI (-4294967289) | Panic _ => False end /\
  (* 2^53 + 1 + 1: one page rounds twice down, two pages keep the 2 *)
  tree_fsum INT64 (Page [(1, VLong (2 ^ 53)); (2, VLong 1); (3, VLong 1)]) = S754_finite false 4503599627370496 1 /\
  tree_fsum INT64 (Merge (Page [(1, VLong (2 ^ 53))]) (Page [(2, VLong 1); (3, VLong 1)])) = S754_finite false 4503599627370497 1.
Proof. vm_compute. auto. Qed.

(** C11. Full description (bit patterns; [f32_key] is IEEE order, [real_nums] drops NaN patterns): the
    minimum is the least of f32::MAX and the non-NaN values, the maximum the largest of f32::MIN and the
    non-NaN values. *)
Theorem C11_float_minmax : forall p t s, points_ok FLOAT (tree_points t) -> tree_stats p FLOAT t = Ret s ->
  In (st_min s) (f32_max_bits :: real_nums (tree_points t)) /\
  Forall (fun v => f32_key (st_min s) <= f32_key v) (f32_max_bits :: real_nums (tree_points t)) /\
  In (st_max s) (f32_min_bits :: real_nums (tree_points t)) /\
  Forall (fun v => f32_key v <= f32_key (st_max s)) (f32_min_bits :: real_nums (tree_points t)).
Proof. exact float_minmax. Qed.
Print Assumptions C11_float_minmax.
(** One finite value is enough for the extremes to be real values of the series. *)
Theorem C11_float_minmax_finite : forall p t s, points_ok FLOAT (tree_points t) -> tree_stats p FLOAT t = Ret s ->
  Exists f32_finite (nums (tree_points t)) ->
  (In (st_min s) (nums (tree_points t)) /\ In (st_max s) (nums (tree_points t))) /\
  Forall (fun v => ~ f32_nan v -> f32_key (st_min s) <= f32_key v <= f32_key (st_max s)) (nums (tree_points t)).
Proof. exact float_minmax_finite. Qed.
Print Assumptions C11_float_minmax_finite.
Theorem C11_only_infinity : forall p t s, tree_points t <> [] -> points_ok FLOAT (tree_points t) ->
  tree_stats p FLOAT t = Ret s ->
  (Forall (eq 0x7F800000) (nums (tree_points t)) -> st_min s = f32_max_bits /\ st_max s = 0x7F800000) /\
  (Forall (eq 0xFF800000) (nums (tree_points t)) -> st_max s = f32_min_bits /\ st_min s = 0xFF800000).
Proof. exact float_only_inf. Qed.
Print Assumptions C11_only_infinity.
Theorem C11_nan_ignored : forall p t s s', points_ok FLOAT (tree_points t) ->
  tree_stats p FLOAT t = Ret s -> tree_stats p FLOAT (drop_nan t) = Ret s' ->
  st_min s = st_min s' /\ st_max s = st_max s'.
Proof. exact tree_drop_nan. Qed.
Print Assumptions C11_nan_ignored.
(** 1.5, NaN, -0.0, 2.0 over two pages; and a single +infinity. *)
Example C11_case :
  let t := Merge (Page [(1, VFloat 0x3FC00000); (2, VFloat 0x7FC00000)]) (Page [(3, VFloat 0x80000000); (4, VFloat 0x40000000)]) in
  points_ok FLOAT (tree_points t) /\ Exists f32_finite (nums (tree_points t)) /\
  match tree_stats Debug FLOAT t with
  | Ret s => (st_min s, st_max s) = (0x80000000, 0x40000000) | Panic _ => False end /\
  match tree_stats Debug FLOAT (drop_nan t) with
  | Ret s => (st_min s, st_max s) = (0x80000000, 0x40000000) | Panic _ => False end /\
  match tree_stats Debug FLOAT (Page [(1, VFloat 0x7F800000)]) with
  | Ret s => (st_min s, st_max s) = (f32_max_bits, 0x7F800000) | Panic _ => False end.
Proof.
  cbv zeta. split; [repeat constructor; cbn; unfold i64_min, i64_max; try lia; discriminate|].
  split; [left; vm_compute; reflexivity|]. vm_compute. auto.
Qed.

(** C12. *)
Theorem C12_stats_roundtrip : forall s rest, stats_wf s ->
  exists sf, stat_read (dtype_code (st_type s)) (wbytes (stats_serialize s) ++ rest) = Some (sf, rest) /\ same_stats sf s.
Proof. exact stats_roundtrip. Qed.
Print Assumptions C12_stats_roundtrip.
Theorem C12_stats_size : forall s, 0 <= st_count s < 2 ^ 32 ->
  stats_serialized_size s = zlen (wbytes (stats_serialize s)).
Proof. exact stats_size. Qed.
Print Assumptions C12_stats_size.
(** Every statistics value the accumulation can produce is well formed, so both apply to it. *)
Theorem C12_reachable_wf : forall p d t s, points_ok d (tree_points t) -> tree_stats p d t = Ret s -> stats_wf s.
Proof. exact tree_wf. Qed.
Print Assumptions C12_reachable_wf.
Example C12_case :
  match tree_stats Release INT64 (Page [(1, VLong (-5)); (2, VLong 300)]) with
  | Ret s => stat_read 2 (wbytes (stats_serialize s) ++ [1; 2]) =
             Some (mkSF 2 1 2 (-5) 300 (-5) 300 0x4072700000000000, [1; 2]) /\ stats_serialized_size s = 57
  | Panic _ => False end.
Proof. vm_compute. auto. Qed.
