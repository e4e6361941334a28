(** Property C60: how many points the writer holds in memory. Without compression the points between two flushes are
    bounded by the schema alone, up to the values of rejected batches; those are not counted, trigger no flush, and
    so are not bounded by anything. *)
From Verif Require Import PropertiesWriter PropertiesIndex PropertiesLarge PLarge PComplete PLayoutSession PBufferCase PBuffer SBuffer SAmple.
Open Scope list_scope. Open Scope Z_scope.
Ltac Zify.zify_post_hook ::= idtac.

(** The points in memory, and the count at which the writer looks at its memory next. *)
Theorem C60_buffered : forall p snap decomp sc L w h ops l, good_snap snap decomp -> schema_ok sc -> uncompressed sc L -> 0 < L ->
  trace p snap sc w h ops l -> ops_ok ops -> no_close ops = true -> roomy snap sc ops ->
  zlen (h_recent h) <= capacity L + refused snap sc ops /\ w_next_check w <= capacity L.
Proof. exact writer_buffer. Qed.
Print Assumptions C60_buffered.

(** Hence sessions without compression are ample (C59), whatever the number of calls, if batches are small and few
    values are in rejected batches. *)
Theorem C60_ample : forall snap sc L ops B, schema_ok sc -> uncompressed sc L -> 0 < L -> Forall (fun o => op_points o <= B) ops -> 0 <= B ->
  150 * series_count sc < 2 ^ 27 ->
  24 * (capacity L + refused snap sc ops + B) + (most_flushes sc (zsum (map op_points ops)) + 1) * per_flush sc + per_file sc < 2 ^ 32 -> ample snap sc ops.
Proof. exact ample_of. Qed.
Print Assumptions C60_ample.

(** The other way round, the file has at least [L] bytes for 129 points that are no longer in memory. *)
Theorem C60_open_least : forall p snap decomp sc L w h ops l, good_snap snap decomp -> schema_ok sc -> uncompressed sc L -> 0 < L ->
  trace p snap sc w h ops l -> ops_ok ops -> no_close ops = true -> roomy snap sc ops -> modest p snap sc ops ->
  L * (zlen (h_all h) - capacity L - refused snap sc ops) <= 129 * zlen (file_bytes w).
Proof. exact writer_least. Qed.
Print Assumptions C60_open_least.
Theorem C60_closed_least : forall p snap decomp sc L out w0 ops ord w l, good_snap snap decomp -> schema_ok sc -> uncompressed sc L -> 0 < L ->
  writer_new sc (sink_new healthy) = (out, Some w0) -> run p snap w0 (ops ++ [OpClose ord]) = Ret (w, l) -> ops_ok ops -> no_close ops = true ->
  roomy snap sc ops -> modest p snap sc (ops ++ [OpClose ord]) -> good_order ord ->
  no_dots sc -> small_devices sc -> byte_names sc -> short_paths sc ->
  L * zlen (List.concat (final_flushes (session_of snap sc ops))) <= 129 * zlen (file_bytes w).
Proof. exact closed_least. Qed.
Print Assumptions C60_closed_least.

(** ** A session of any length below 2^32 *)
Definition big_start : writer := match writer_new big_sc (sink_new healthy) with (_, Some w) => w | _ => ix_start end.
Lemma big_new : exists out, writer_new big_sc (sink_new healthy) = (out, Some big_start).
Proof. eexists. vm_compute. reflexivity. Qed.
Lemma big_names : no_dots big_sc /\ small_devices big_sc /\ byte_names big_sc /\ short_paths big_sc.
Proof.
  assert (X : forall d m ms, declares big_sc d m ms -> d = [100] /\ m = [97]).
  { intros d m ms (g & [I|[]] & J). injection I as <- <-. destruct J as [J|[]]. injection J as <- <-. auto. }
  split; [|split; [|split]].
  - intros d m ms H I. apply X in H. destruct H as [_ ->]. destruct I as [I|[]]; discriminate.
  - repeat constructor; cbn; discriminate.
  - intros d m ms H. apply X in H. destruct H as [-> ->]. repeat constructor; lia.
  - intros d m ms H. apply X in H. destruct H as [-> ->]. reflexivity.
Qed.
Lemma ticks_final : forall snap n, List.concat (final_flushes (session_of snap big_sc (map tick (seq 0 n)))) = map pt (seq 0 n).
Proof.
  intros snap n. destruct (ticks_new snap n) as ((j & J & E) & _). unfold final_flushes. rewrite concat_app, session_flushed, E. cbn [h_flushed h_recent h_counted].
  replace (map pt (seq 0 n)) with (map pt (seq 0 j) ++ map pt (seq j (n - j))).
  2: { rewrite <- map_app. pose proof (seq_app j (n - j) 0) as X. rewrite Nat.add_0_l in X. rewrite <- X. replace (j + (n - j))%nat with n by lia. reflexivity. }
  f_equal. destruct (n - j)%nat; [reflexivity|]. cbn [Z.of_nat Z.ltb Z.compare List.concat]. apply app_nil_r.
Qed.
Lemma ticks_closable : forall n, (0 < n)%nat -> closable big_sc (map pt (seq 0 n)) = true.
Proof.
  intros n H. assert (N : stored_names [100] [([97], mkMS INT64 PLAIN UNCOMPRESSED)] (map pt (seq 0 n)) = [[97]]).
  { unfold stored_names. cbn [map filter fst]. rewrite pt_series. destruct n; [lia|]. reflexivity. }
  unfold closable, stored_paths, stored_devices, big_sc. cbn [flat_map map filter fst snd]. rewrite N. vm_compute. reflexivity.
Qed.
Theorem C60_any_length : forall n, 0 < Z.of_nat n < 2 ^ 32 -> exists w l,
  let ops := map tick (seq 0 n) in
  run Release ex_snap big_start (ops ++ [OpClose (@rev _)]) = Ret (w, l) /\
  ample ex_snap big_sc ops /\ ops_ok ops /\ zsum (map op_points ops) = Z.of_nat n /\ 8 * Z.of_nat n <= zlen (file_bytes w).
Proof.
  intros n Hn. destruct big_new as (out & N). destruct big_names as (ND & SD & BN & SP).
  pose proof (ticks_ample ex_snap n ltac:(lia)) as A. pose proof (ample_roomy _ _ _ A) as R. pose proof (ticks_ok n ltac:(lia)) as O. pose proof (ticks_open n) as NC.
  pose proof (C59_closed_session ex_snap ex_snap big_sc out big_start (map tick (seq 0 n)) (@rev _) ex_snap_good big_sc_ok N O NC R ND BN SP) as C.
  destruct (ticks_new ex_snap n) as (_ & l & P). rewrite P, ticks_final, ticks_closable in C by lia. destruct C as (w & C). exists w, (l ++ [AUnit]). cbv zeta.
  split; [exact C|]. split; [exact A|]. split; [exact O|]. split; [apply ticks_points|].
  destruct (C59_ample Release ex_snap ex_snap big_sc (map tick (seq 0 n)) (@rev _) ex_snap_good big_sc_ok O NC A ND SD order_rev) as [_ M].
  pose proof (C60_closed_least Release ex_snap ex_snap big_sc 1056 out big_start (map tick (seq 0 n)) (@rev _) w _ ex_snap_good big_sc_ok big_uncompressed ltac:(lia) N C O NC R M order_rev ND SD BN SP) as K.
  rewrite ticks_final in K. unfold zlen at 1 in K. rewrite map_length, seq_length in K. lia.
Qed.
Print Assumptions C60_any_length.
(** A file of more than 8 GiB: the theorems of C59 hold for it, those that assume a file below 4 GiB say nothing. *)
Example C60_large_case : exists ops w l, run Release ex_snap big_start (ops ++ [OpClose (@rev _)]) = Ret (w, l) /\ ample ex_snap big_sc ops /\ ops_ok ops /\
  no_close ops = true /\ refused ex_snap big_sc ops = 0 /\ uncompressed big_sc 1056 /\ capacity 1056 = 16395915 /\ 2 ^ 33 <= zlen (file_bytes w).
Proof.
  assert (E : Z.of_nat (Z.to_nat (2 ^ 30)) = 2 ^ 30) by (apply Z2Nat.id; lia).
  destruct (C60_any_length (Z.to_nat (2 ^ 30))) as (w & l & R & A & O & _ & F); [rewrite E; lia|]. rewrite E in F.
  exists (map tick (seq 0 (Z.to_nat (2 ^ 30)))), w, l. split; [exact R|]. split; [exact A|]. split; [exact O|]. split; [apply ticks_open|]. split; [apply ticks_refused|].
  split; [exact big_uncompressed|]. split; [reflexivity|]. lia.
Qed.

(** ** Rejected batches *)
(** Not bounded: the writer holds as many points as one likes, by its own estimate eight times as much memory as
    the 128 MiB at which it should flush, and has neither counted nor written any of them. *)
Theorem C60_unbounded_refuted : forall n, Z.of_nat n <= 2 ^ 27 -> exists ops w h mem,
  run Release ex_snap big_start ops = Ret (w, repeat (AErr EOutOfOrderData) n) /\ ops_ok ops /\ no_close ops = true /\
  trace Release ex_snap big_sc w h ops (repeat (AErr EOutOfOrderData) n) /\
  zlen (h_recent h) = Z.of_nat n /\ h_counted h = 0 /\ w_records w = 0 /\ file_bytes w = magic ++ [3] /\
  mem_size Release (w_groups w) = Ret mem /\ 8 * Z.of_nat n <= mem.
Proof.
  intros n Hn. destruct big_new as (out & N). pose proof (twices_roomy ex_snap n Hn) as R. pose proof (twices_ok n ltac:(lia)) as O. pose proof (twices_open n) as NC.
  pose proof (C59_session ex_snap ex_snap big_sc out big_start (map twice (seq 0 n)) ex_snap_good big_sc_ok N O NC R) as C.
  destruct (twices_new ex_snap n) as [S P]. rewrite P in C. destruct C as (w & C). destruct (run_trace _ _ _ _ _ _ _ _ N C) as (h & T).
  destruct (trace_roomy Release ex_snap ex_snap ex_snap_good big_sc big_sc_ok _ _ _ _ T O NC R) as (E & its & (I & _ & F & _) & _). rewrite S in *. subst h. cbn [held ss_hist ss_flushes] in *.
  assert (LN : zlen (map pt (seq 0 n)) = Z.of_nat n) by (unfold zlen; rewrite map_length, seq_length; reflexivity).
  destruct (estimate_bound Release ex_snap ex_snap big_sc w _ _ _ ex_snap_good big_sc_ok T O) as (mem & M & _).
  { unfold memory_bound. cbn [h_recent]. rewrite LN. change (series_count big_sc) with 1. lia. }
  exists (map twice (seq 0 n)), w, (mkHist [] (map pt (seq 0 n)) 0), mem. repeat (split; [first [assumption|reflexivity]|]).
  split; [exact (wi_records _ _ _ _ _ _ I)|]. split.
  - rewrite (C59_open Release ex_snap ex_snap big_sc out big_start _ w _ ex_snap_good big_sc_ok N C O NC R); [rewrite S; reflexivity|].
    destruct big_names as (ND & SD & _). destruct (C59_ample Release ex_snap ex_snap big_sc (map twice (seq 0 n)) (@rev _) ex_snap_good big_sc_ok O NC (twices_ample ex_snap n Hn) ND SD order_rev) as [_ MO].
    intros out' w1 a o b w2 l2 w3 r N' E' R' S'. apply (MO out' w1 a o (b ++ [OpClose (@rev _)]) w2 l2 w3 r N'); auto. rewrite E', <- app_assoc. reflexivity.
  - split; [exact M|]. rewrite (memory_exact Release ex_snap ex_snap ex_snap_good big_sc big_sc_ok _ _ _ mem I); [| |exact M].
    + cbn [h_recent]. pose proof (memory_ge ex_snap big_sc 1056 (map pt (seq 0 n)) big_uncompressed ltac:(lia)) as G. rewrite LN in G. lapply G; [lia|].
      apply Forall_forall. intros q Iq. apply in_map_iff in Iq. destruct Iq as (i & <- & _). reflexivity.
    + cbn [h_recent]. rewrite LN. change (series_count big_sc) with 1. lia.
Qed.
Print Assumptions C60_unbounded_refuted.
