(** The example programs (C52). *)
From Verif Require Export PBuild PSchema MExample SExample.
Ltac Zify.zify_post_hook ::= idtac.

(** ** Loops *)
Lemma for_expect : forall p snap (f : Z -> list op) (body : Z -> writer -> outcome writer),
  (forall i w w' , run p snap w (f i) = Ret (w', map (fun _ => AOk) (f i)) -> body i w = Ret w') ->
  forall n i w w', run p snap w (flat_map f (zrange i n)) = Ret (w', map (fun _ => AOk) (flat_map f (zrange i n))) -> for_loop n i body w = Ret w'.
Proof.
  intros p snap f body B n. induction n as [|n IH]; intros i w w' R; cbn [zrange flat_map for_loop] in *; [cbn [run map] in R; rinj R; reflexivity|].
  apply run_app_inv in R. destruct R as (w1 & l1 & l2 & R1 & R2 & E). rewrite map_app in E.
  assert (L : length l1 = length (f i)). { clear - R1. revert R1. generalize (f i). intros ops. revert w l1. induction ops as [|o ops IH]; intros w l1 R; cbn [run] in R; [rinj R; reflexivity|].
    apply bind_ret in R. destruct R as ([w2 a] & _ & R). apply bind_ret in R. destruct R as ([w3 l3] & R & R'). cbn [fst snd] in R'. rinj R'. cbn [length]. f_equal. eapply IH; eauto. }
  assert (E2 : l1 = map (fun _ => AOk) (f i) /\ l2 = map (fun _ => AOk) (flat_map f (zrange (i + 1) n))).
  { revert L E. generalize (map (fun _ : op => AOk) (flat_map f (zrange (i + 1) n))). generalize (f i). intros ops x. revert l1 R1. intros l1 _. revert ops. induction l1 as [|a l1 IHl]; intros [|o ops] L E; cbn in *; try discriminate; auto.
    injection E as <- E. injection L as L. destruct (IHl ops L E) as [-> ->]. auto. }
  destruct E2 as [-> ->]. rewrite (B _ _ _ R1). cbn [bind]. apply IH. exact R2.
Qed.

(** ** Ranges *)
Lemma zrange_len : forall n i, zlen (zrange i n) = Z.of_nat n.
Proof. induction n as [|n IH]; intros i; cbn [zrange]; [reflexivity|]. rewrite zlen_cons, IH. lia. Qed.
Lemma zrange_in : forall n i x, In x (zrange i n) -> i <= x < i + Z.of_nat n.
Proof. induction n as [|n IH]; intros i x H; cbn [zrange In] in H; [contradiction|]. destruct H as [->|H]; [lia|]. apply IH in H. lia. Qed.
Lemma zrange_increasing : forall n i lo, lo < i -> increasing lo (zrange i n).
Proof. induction n as [|n IH]; intros i lo H; cbn [zrange increasing]; [exact I|]. split; [exact H|]. apply IH. lia. Qed.
Lemma flat_map_single : forall A B (f : A -> B) l, flat_map (fun x => [f x]) l = map f l.
Proof. induction l as [|x l IH]; cbn [flat_map map app]; [reflexivity|]. rewrite IH. reflexivity. Qed.
Lemma series_of_app : forall d m a b, series_of d m (a ++ b) = series_of d m a ++ series_of d m b.
Proof. intros. unfold series_of. rewrite filter_app, map_app. reflexivity. Qed.
Lemma series_of_flat : forall A d m (g : A -> list point) l, series_of d m (flat_map g l) = flat_map (fun i => series_of d m (g i)) l.
Proof. induction l as [|x l IH]; cbn [flat_map]; [reflexivity|]. rewrite series_of_app, IH. reflexivity. Qed.
Lemma input_flat : forall A (f : A -> list op) l, input (flat_map f l) = flat_map (fun i => input (f i)) l.
Proof.
  unfold input. induction l as [|x l IH]; cbn [flat_map]; [reflexivity|]. rewrite map_app, concat_app, IH. reflexivity.
Qed.
Lemma Forall_flat : forall A B (P : B -> Prop) (g : A -> list B) l, (forall x, In x l -> Forall P (g x)) -> Forall P (flat_map g l).
Proof.
  intros A B P g l H. induction l as [|x l IH]; cbn [flat_map]; [apply Forall_nil|]. apply Forall_app. split; [apply H; left; reflexivity|].
  apply IH. intros y Y. apply H. right. exact Y.
Qed.

(** ** Small integers as binary32 *)
Lemma f32_as_exact : forall i, 0 <= i < 2 ^ 24 -> f32_as i = f32_of_small i.
Proof.
  intros i H. unfold f32_of_small. destruct (Z.eqb_spec i 0) as [->|N]; [reflexivity|].
  destruct (f32_of_Z_exact i) as (m & e & E & Nm & Ee & V); [lia|]. unfold f32_as. rewrite E. unfold f32_to_bits, norm32, val32 in *.
  replace (e + 200) with ((- - e) + 200) in V by lia.
  assert (M : Zpos m = i * 2 ^ (- e)).
  { assert (2 ^ 200 = 2 ^ (- e) * 2 ^ (- - e + 200)) by (rewrite <- Z.pow_add_r by lia; f_equal; lia).
    rewrite H0, Z.mul_assoc in V. apply Z.mul_cancel_r in V; [exact V|]. apply Z.pow_nonzero; lia. }
  assert (P : 0 < 2 ^ (- e)) by (apply Z.pow_pos_nonneg; lia).
  assert (K : Z.log2 i = 23 + e).
  { apply Z.log2_unique; [lia|]. assert (A : 2 ^ (23 + e) * 2 ^ (- e) = 2 ^ 23) by (rewrite <- Z.pow_add_r by lia; f_equal; lia).
    assert (B : 2 ^ Z.succ (23 + e) * 2 ^ (- e) = 2 ^ 24) by (rewrite <- Z.pow_add_r by lia; f_equal; lia). nia. }
  cbv zeta. rewrite K. destruct (Z.ltb_spec (Zpos m) (2 ^ 23)); [lia|].
  replace (23 - (23 + e)) with (- e) by lia. rewrite M.
  assert (A : 2 ^ (23 + e) * 2 ^ (- e) = 2 ^ 23) by (rewrite <- Z.pow_add_r by lia; f_equal; lia). nia.
Qed.
Lemma f32_of_small_range : forall i, 0 <= i < 2 ^ 24 -> 0 <= f32_of_small i < 2 ^ 31.
Proof.
  intros i H. unfold f32_of_small. destruct (Z.eqb_spec i 0) as [->|N]; [lia|]. cbv zeta. pose proof (Z.log2_nonneg i).
  destruct (Z.log2_spec i) as [L U]; [lia|].
  assert (K : Z.log2 i < 24) by (apply Z.log2_lt_pow2; lia). set (k := Z.log2 i) in *.
  assert (P : 0 < 2 ^ (23 - k)) by (apply Z.pow_pos_nonneg; lia).
  assert (A : 2 ^ k * 2 ^ (23 - k) = 2 ^ 23) by (rewrite <- Z.pow_add_r by lia; f_equal; lia).
  rewrite Z.pow_succ_r in U by lia. nia.
Qed.

(** ** benchmark.rs *)
Definition bench_sc : schema := [(s_d1, [(s_s, mkMS INT64 PLAIN UNCOMPRESSED)])].
Lemma bench_simple : schema_simple s_d1 s_s INT64 PLAIN UNCOMPRESSED = Ret bench_sc.
Proof. reflexivity. Qed.
Lemma one_op : forall p snap o w w', run p snap w [o] = Ret (w', map (fun _ => AOk) [o]) -> step p snap w o = Ret (w', AOk).
Proof.
  intros p snap o w w' R. cbn [run map] in R. apply bind_ret in R. destruct R as ([w1 a] & S & R). apply bind_ret in R. destruct R as ([w2 l] & R2 & R).
  cbn [fst snd] in R. rinj R2. rinj R. congruence.
Qed.
Lemma two_ops : forall p snap o1 o2 w w', run p snap w [o1; o2] = Ret (w', map (fun _ => AOk) [o1; o2]) ->
  exists w1, step p snap w o1 = Ret (w1, AOk) /\ step p snap w1 o2 = Ret (w', AOk).
Proof.
  intros p snap o1 o2 w w' R. change [o1; o2] with ([o1] ++ [o2]) in R at 1. apply run_app_inv in R. destruct R as (w1 & l1 & l2 & R1 & R2 & E).
  cbn [run] in R1, R2. apply bind_ret in R1. destruct R1 as ([x1 a1] & S1 & R1). rinj R1. apply bind_ret in R2. destruct R2 as ([x2 a2] & S2 & R2). rinj R2.
  cbn [map app fst snd] in *. injection E as -> ->. exists x1. auto.
Qed.
Lemma bench_sc_facts : schema_ok bench_sc /\ no_dots bench_sc /\ byte_names bench_sc /\ series_count bench_sc <= 41.
Proof.
  assert (D : forall d m ms, declares bench_sc d m ms -> d = s_d1 /\ m = s_s).
  { intros d m ms (g & [E|[]] & I). inversion E; subst. destruct I as [I|[]]. inversion I; subst. auto. }
  split; [|split; [|split]].
  - split; repeat constructor; cbn; tauto.
  - intros d m ms H I. apply D in H. destruct H as [_ ->]. destruct I as [I|[]]; discriminate.
  - intros d m ms H. apply D in H. destruct H as [-> ->]. repeat constructor; lia.
  - vm_compute. discriminate.
Qed.
Lemma bench_sc_builds : all_plain bench_sc /\ hashes_fine bench_sc.
Proof.
  split; intros d m ms (g & [E|[]] & I); inversion E; subst; destruct I as [I|[]]; inversion I; subst; [reflexivity|vm_compute; reflexivity].
Qed.
Definition bench_op (i : Z) : list op := [OpWrite s_d1 s_s i (VLong i)].
Lemma bench_input : forall n, input (flat_map bench_op (zrange 0 (Z.to_nat n))) = benchmark_points s_d1 s_s n.
Proof.
  intros n. rewrite input_flat. unfold benchmark_points, of_series. rewrite map_map. cbn [fst snd]. rewrite <- flat_map_single. reflexivity.
Qed.
Lemma bench_bound : forall n, 0 <= n -> 24 * n <= size_bound bench_sc n.
Proof.
  intros n H. unfold size_bound. assert (0 <= most_flushes bench_sc n).
  { unfold most_flushes. assert (0 <= 24 * n / (2 ^ 27 - 150 * series_count bench_sc)); [|lia]. apply Z.div_pos; [lia|vm_compute; reflexivity]. }
  change (per_flush bench_sc) with 461. change (per_file bench_sc) with 286. lia.
Qed.
Theorem benchmark_file : forall snap decomp ord n, good_snap snap decomp -> good_order ord -> 0 <= n -> size_bound bench_sc n < 2 ^ 32 ->
  exists file, (forall p, benchmark p snap healthy ord n = Ret file) /\ zlen file <= size_bound bench_sc n /\ holds decomp file (benchmark_points s_d1 s_s n).
Proof.
  intros snap decomp ord n HG GO Hn B. destruct bench_sc_facts as (F1 & F2 & F3 & F4). destruct bench_sc_builds as [F5 F6]. pose proof (bench_bound n Hn).
  assert (L : zlen (benchmark_points s_d1 s_s n) = n). { unfold benchmark_points, of_series. unfold zlen. rewrite !map_length. fold (zlen (zrange 0 (Z.to_nat n))). rewrite zrange_len. lia. }
  destruct (small_both snap decomp bench_sc (flat_map bench_op (zrange 0 (Z.to_nat n))) ord HG F1 F2 F3 GO F4) as (out & w0 & w & w' & N & R & R1 & S & Hd).
  - apply Forall_flat. intros i I. apply zrange_in in I. apply Forall_cons; [|apply Forall_nil]. split; [|discriminate]. cbn. unfold i64_min, i64_max. lia.
  - rewrite bench_input. unfold benchmark_points, of_series. rewrite map_map. apply Forall_map. apply Forall_forall. intros i _. exists (mkMS INT64 PLAIN UNCOMPRESSED). split; [|reflexivity].
    eexists. split; [left; reflexivity|left; reflexivity].
  - rewrite bench_input. apply in_order_keys. apply Forall_forall. intros q Q. unfold benchmark_points, of_series in Q. apply in_map_iff in Q. destruct Q as (tv & <- & _). cbn [pt_device pt_name].
    rewrite <- bench_input, input_flat, series_of_flat. change (fun i => series_of s_d1 s_s (input (bench_op i))) with (fun i => [(i, VLong i)]).
    rewrite flat_map_single, map_map. cbn [fst]. rewrite map_id. apply zrange_increasing. lia.
  - rewrite bench_input, L. exact B.
  - exact F5.
  - exact F6.
  - rewrite bench_input, L in *. exists (file_bytes w'). split; [|auto]. intros p. specialize (R p). specialize (R1 p). unfold benchmark. rewrite bench_simple. cbn [bind]. unfold write_ts_file. rewrite N.
    rewrite (for_expect p snap bench_op _) with (w' := w); [|intros i x x' X; apply one_op in X; rewrite X; reflexivity|exact R1]. cbn [bind].
    rewrite run_snoc, R1 in R. cbn [bind fst snd] in R. destruct (step p snap w (OpClose ord)) as [[x a]|]; [|discriminate]. cbn [bind fst snd] in *. rinj R. reflexivity.
Qed.

(** ** benchmark2.rs *)
Definition bench2_sc (c : compression) : schema :=
  let g := [(s_s1, mkMS INT64 PLAIN c); (s_s2, mkMS FLOAT PLAIN c)] in [(s_d1, g); (s_d2, g)].
Lemma bench2_schema : forall c, benchmark2_schema c = Ret (bench2_sc c).
Proof. reflexivity. Qed.
Lemma bench2_sc_facts : forall c, schema_ok (bench2_sc c) /\ no_dots (bench2_sc c) /\ byte_names (bench2_sc c) /\ series_count (bench2_sc c) <= 41.
Proof.
  intros c.
  assert (D : forall d m ms, declares (bench2_sc c) d m ms -> (d = s_d1 \/ d = s_d2) /\ (m = s_s1 \/ m = s_s2)).
  { intros d m ms (g & [E|[E|[]]] & I); inversion E; subst; destruct I as [I|[I|[]]]; inversion I; subst; auto. }
  split; [|split; [|split]].
  - split; repeat constructor; cbn; try tauto; intros [|[]]; try discriminate; tauto.
  - intros d m ms H I. apply D in H. destruct H as [_ [->| ->]]; destruct I as [I|[I|[]]]; discriminate.
  - intros d m ms H. apply D in H. destruct H as [[->| ->] [->| ->]]; repeat constructor; lia.
  - vm_compute. discriminate.
Qed.
Lemma bench2_sc_builds : forall c, all_plain (bench2_sc c) /\ hashes_fine (bench2_sc c).
Proof.
  intros c. split; intros d m ms (g & [E|[E|[]]] & I); inversion E; subst; destruct I as [I|[I|[]]]; inversion I; subst; try reflexivity; vm_compute; reflexivity.
Qed.
Definition bench2_op (i : Z) : list op :=
  let vs := [(s_s1, VLong i); (s_s2, VFloat (f32_as i))] in [OpWriteMany s_d1 i vs; OpWriteMany s_d2 i vs].
Lemma flat_map_ext_in : forall A B (f g : A -> list B) l, (forall x, In x l -> f x = g x) -> flat_map f l = flat_map g l.
Proof.
  induction l as [|x l IH]; intros H; cbn [flat_map]; [reflexivity|]. rewrite H by (left; reflexivity). f_equal. apply IH. intros y Y. apply H. right. exact Y.
Qed.
Lemma bench2_input : forall n, n <= 2 ^ 24 -> input (flat_map bench2_op (zrange 0 (Z.to_nat n))) = benchmark2_points s_d1 s_d2 s_s1 s_s2 n.
Proof.
  intros n H. rewrite input_flat. apply flat_map_ext_in. intros i I. apply zrange_in in I. rewrite <- f32_as_exact by lia. reflexivity.
Qed.
Lemma bench2_bound : forall c n, 0 <= n -> n <= 2 ^ 24 -> size_bound (bench2_sc c) (4 * n) < 2 ^ 32.
Proof.
  intros c n H L. unfold size_bound, most_flushes. change (series_count (bench2_sc c)) with 4. change (per_flush (bench2_sc c)) with 1832. change (per_file (bench2_sc c)) with 856.
  assert (24 * (4 * n) / (2 ^ 27 - 150 * 4) <= 13); [|lia]. apply Z.div_le_upper_bound; lia.
Qed.
Lemma flat_map_len : forall A B (f : A -> list B) k l, (forall x, zlen (f x) = k) -> zlen (flat_map f l) = k * zlen l.
Proof.
  intros A B f k l H. induction l as [|x l IH]; cbn [flat_map]; [rewrite !zlen_nil; lia|]. rewrite zlen_app, zlen_cons, IH, H. lia.
Qed.
Theorem benchmark2_file : forall snap decomp ord n, good_snap snap decomp -> good_order ord -> 0 <= n <= 2 ^ 24 ->
  exists file, (forall p, benchmark2 p snap healthy ord n = Ret file) /\ zlen file <= size_bound (bench2_sc SNAPPY) (4 * n) /\
    holds decomp file (benchmark2_points s_d1 s_d2 s_s1 s_s2 n).
Proof.
  intros snap decomp ord n HG GO [Hn Hm]. destruct (bench2_sc_facts SNAPPY) as (F1 & F2 & F3 & F4). destruct (bench2_sc_builds SNAPPY) as [F5 F6]. pose proof (bench2_bound SNAPPY n Hn Hm) as B.
  assert (L : zlen (benchmark2_points s_d1 s_d2 s_s1 s_s2 n) = 4 * n). { unfold benchmark2_points. rewrite (flat_map_len _ _ _ 4) by reflexivity. rewrite zrange_len. lia. }
  destruct (small_both snap decomp (bench2_sc SNAPPY) (flat_map bench2_op (zrange 0 (Z.to_nat n))) ord HG F1 F2 F3 GO F4) as (out & w0 & w & w' & N & R & R1 & S & Hd).
  - apply Forall_flat. intros i I. apply zrange_in in I. pose proof (f32_of_small_range i ltac:(lia)) as X. rewrite <- f32_as_exact in X by lia.
    assert (C : forall d, write_call (OpWriteMany d i [(s_s1, VLong i); (s_s2, VFloat (f32_as i))])).
    { intros d. split; [|discriminate]. split; [unfold i64_min, i64_max; lia|]. apply Forall_cons; [cbn [snd value_machine]; lia|]. apply Forall_cons; [cbn [snd value_machine]; lia|]. apply Forall_nil. }
    apply Forall_cons; [apply C|]. apply Forall_cons; [apply C|]. apply Forall_nil.
  - rewrite bench2_input by lia. apply Forall_flat. intros i _.
    assert (D : forall d m ms v, In d [s_d1; s_d2] -> In (m, ms) [(s_s1, mkMS INT64 PLAIN SNAPPY); (s_s2, mkMS FLOAT PLAIN SNAPPY)] -> storable ms v = true -> point_storable (bench2_sc SNAPPY) (mkPoint d m i v)).
    { intros d m ms v Id Im Sv. exists ms. split; [|exact Sv]. exists [(s_s1, mkMS INT64 PLAIN SNAPPY); (s_s2, mkMS FLOAT PLAIN SNAPPY)]. split; [|exact Im].
      cbn [pt_device]. destruct Id as [<-|[<-|[]]]; [left; reflexivity|right; left; reflexivity]. }
    repeat (apply Forall_cons; [eapply D; [cbn; tauto| |]|]); try apply Forall_nil; try (left; reflexivity); try (right; left; reflexivity); reflexivity.
  - rewrite bench2_input by lia. apply in_order_keys. apply Forall_forall. intros q Q. unfold benchmark2_points in Q. apply in_flat_map in Q. destruct Q as (i & _ & Q).
    assert (G : forall d m v, (forall j, series_of d m [mkPoint s_d1 s_s1 j (VLong j); mkPoint s_d1 s_s2 j (VFloat (f32_of_small j)); mkPoint s_d2 s_s1 j (VLong j); mkPoint s_d2 s_s2 j (VFloat (f32_of_small j))] = [(j, v j)]) ->
      increasing (-1) (map fst (series_of d m (benchmark2_points s_d1 s_d2 s_s1 s_s2 n)))).
    { intros d m v E. unfold benchmark2_points. rewrite series_of_flat, (flat_map_ext_in _ _ _ (fun j => [(j, v j)])) by (intros; apply E).
      rewrite flat_map_single, map_map. cbn [fst]. rewrite map_id. apply zrange_increasing. lia. }
    destruct Q as [<-|[<-|[<-|[<-|[]]]]]; cbn [pt_device pt_name]; eapply G; intros j; cbn; reflexivity.
  - rewrite bench2_input, L by lia. exact B.
  - exact F5.
  - exact F6.
  - rewrite bench2_input, L in * by lia. exists (file_bytes w'). split; [|auto]. intros p. specialize (R p). specialize (R1 p). unfold benchmark2. rewrite bench2_schema. cbn [bind]. rewrite N.
    rewrite (for_expect p snap bench2_op _) with (w' := w); [| |exact R1].
    + cbn [bind]. rewrite run_snoc, R1 in R. cbn [bind fst snd] in R. destruct (step p snap w (OpClose ord)) as [[x a]|]; [|discriminate]. cbn [bind fst snd] in *. rinj R. reflexivity.
    + intros i x x' X. apply two_ops in X. destruct X as (x1 & X1 & X2). cbv zeta. rewrite X1. cbn [expect_ok bind fst snd]. rewrite X2. reflexivity.
Qed.

(** ** The quickstart *)
Lemma quickstart_input : input quickstart_ops = quickstart_points s_d1 s_d2 s_s1 s_s2.
Proof. reflexivity. Qed.
Theorem quickstart_result : forall p snap, quickstart p snap healthy = Ret (MAGIC ++ [3], [AOk; AOk; AOk]).
Proof. intros p snap. destruct p; vm_compute; reflexivity. Qed.
Theorem header_holds_nothing : forall decomp pts, ~ holds decomp (MAGIC ++ [3]) pts.
Proof. intros decomp pts [(cs & E & _) _]. vm_compute in E. discriminate. Qed.
Theorem quickstart_closed : forall snap decomp ord, good_snap snap decomp -> good_order ord ->
  exists out w0 w w', writer_new (bench2_sc UNCOMPRESSED) (sink_new healthy) = (out, Some w0) /\ (forall p, run p snap w0 quickstart_ops = Ret (w, [AOk; AOk; AOk]) /\
    step p snap w (OpClose ord) = Ret (w', AUnit)) /\ holds decomp (file_bytes w') (quickstart_points s_d1 s_d2 s_s1 s_s2).
Proof.
  intros snap decomp ord HG GO. destruct (bench2_sc_facts UNCOMPRESSED) as (F1 & F2 & F3 & F4). destruct (bench2_sc_builds UNCOMPRESSED) as [F5 F6].
  destruct (small_both snap decomp (bench2_sc UNCOMPRESSED) quickstart_ops ord HG F1 F2 F3 GO F4) as (out & w0 & w & w' & N & R & R1 & _ & Hd).
  - unfold quickstart_ops. repeat (apply Forall_cons; [split; [split; [vm_compute; split; discriminate|repeat (apply Forall_cons || apply Forall_nil); vm_compute; split; discriminate || reflexivity]|discriminate]|]). apply Forall_nil.
  - unfold input, quickstart_ops. cbn [map concat op_list app fst snd].
    repeat (apply Forall_cons; [eexists; split; [unfold declares; cbn [pt_device pt_name]; eexists; split; [cbn; eauto|cbn; eauto]|reflexivity]|]). apply Forall_nil.
  - apply in_order_keys. unfold input, quickstart_ops. cbn [map concat op_list app fst snd]. repeat (apply Forall_cons; [vm_compute; auto|]). apply Forall_nil.
  - vm_compute. reflexivity.
  - exact F5.
  - exact F6.
  - exists out, w0, w, w'. split; [exact N|]. rewrite quickstart_input in Hd. split; [|exact Hd]. intros p. specialize (R p). specialize (R1 p). split; [exact R1|].
    rewrite run_snoc, R1 in R. cbn [bind fst snd] in R. destruct (step p snap w (OpClose ord)) as [[x a]|]; [|discriminate]. cbn [bind fst snd] in *. injection R as <- E. rewrite E. reflexivity.
Qed.

(** ** The numbers in the sources *)
Lemma benchmark_shipped : forall snap decomp ord, good_snap snap decomp -> good_order ord ->
  exists file, (forall p, benchmark p snap healthy ord 100000001 = Ret file) /\ zlen file <= 2400008608 /\ holds decomp file (benchmark_points s_d1 s_s 100000001).
Proof.
  intros snap decomp ord HG GO. assert (B : size_bound bench_sc 100000001 <= 2400008608) by (vm_compute; discriminate).
  destruct (benchmark_file snap decomp ord 100000001 HG GO ltac:(lia)) as (file & R & S & H); [lia|]. exists file. split; [exact R|]. split; [lia|exact H].
Qed.
Lemma benchmark2_shipped : forall snap decomp ord, good_snap snap decomp -> good_order ord ->
  exists file, (forall p, benchmark2 p snap healthy ord 10000001 = Ret file) /\ zlen file <= 960015608 /\ holds decomp file (benchmark2_points s_d1 s_d2 s_s1 s_s2 10000001).
Proof.
  intros snap decomp ord HG GO. assert (B : size_bound (bench2_sc SNAPPY) (4 * 10000001) <= 960015608) by (vm_compute; discriminate).
  destruct (benchmark2_file snap decomp ord 10000001 HG GO ltac:(lia)) as (file & R & S & H). exists file. split; [exact R|]. split; [lia|exact H].
Qed.
