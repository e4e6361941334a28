(** Sessions of any length on one uncompressed series of 64-bit integers (C60). *)
From Verif Require Import PBuffer PComplete SBuffer SAmple.
Ltac Zify.zify_post_hook ::= idtac.

Definition big_sc : schema := [([100], [([97], mkMS INT64 PLAIN UNCOMPRESSED)])].
Definition tick (i : nat) : op := OpWrite [100] [97] (Z.of_nat i) (VLong (Z.of_nat i)).
(** The second value of the batch is out of order, so the batch is rejected; the first one stays. *)
Definition twice (i : nat) : op := OpWriteMany [100] (Z.of_nat i) [([97], VLong (Z.of_nat i)); ([97], VLong (Z.of_nat i))].
Definition pt (i : nat) : point := mkPoint [100] [97] (Z.of_nat i) (VLong (Z.of_nat i)).

Lemma big_sc_ok : schema_ok big_sc.
Proof. split; [|]; repeat constructor; cbn; try tauto; intros []; congruence. Qed.
Lemma big_uncompressed : uncompressed big_sc 1056.
Proof.
  intros d m ms (g & I & J). destruct I as [I|[]]. injection I as <- <-. destruct J as [J|[]]. injection J as <- <-. split; [reflexivity|apply Z.le_refl].
Qed.
Lemma pt_series : forall l, series_of [100] [97] (map pt l) = map (fun i => (Z.of_nat i, VLong (Z.of_nat i))) l.
Proof. induction l as [|i l IH]; [reflexivity|]. unfold series_of in *. cbn [map filter]. change (same_name (pt_device (pt i)) [100] && same_name (pt_name (pt i)) [97]) with true. cbn [map]. rewrite IH. reflexivity. Qed.
Lemma last_lt : forall l x k, x < k -> Forall (fun y => y < k) l -> last l x < k.
Proof. induction l as [|y l IH]; intros x k H F; [exact H|]. inversion F; subst. destruct l; [assumption|]. apply (IH x); auto. Qed.
Lemma pt_last : forall f c j k, (j <= k)%nat -> last_time (mkHist f (map pt (seq j (k - j))) c) [100] [97] < Z.of_nat k.
Proof.
  intros f c j k H. unfold last_time. cbn [h_recent]. rewrite pt_series, map_map. apply last_lt; [lia|]. apply Forall_forall. intros y I. apply in_map_iff in I. destruct I as (i & <- & I). apply in_seq in I. cbn [fst]. lia.
Qed.
Lemma pt_snoc : forall j k, (j <= k)%nat -> map pt (seq j (k - j)) ++ [pt k] = map pt (seq j (S k - j)).
Proof. intros j k H. replace (S k - j)%nat with (S (k - j)) by lia. rewrite seq_S, map_app. cbn [map]. replace (j + (k - j))%nat with k by lia. reflexivity. Qed.
Lemma big_admits : forall f c j k, (j <= k)%nat -> admits big_sc (mkHist f (map pt (seq j (k - j))) c) [100] [97] (Z.of_nat k) = true.
Proof. intros f c j k H. unfold admits. change (is_declared big_sc [100] [97]) with true. cbn [andb]. apply Z.ltb_lt, pt_last, H. Qed.

(** ** Accepted writes *)
Definition ticked (k : nat) (s : session) : Prop :=
  exists j, (j <= k)%nat /\ ss_hist s = mkHist (map pt (seq 0 j)) (map pt (seq j (k - j))) (Z.of_nat (k - j)).
Lemma tick_call : forall snap k s, ticked k s -> ticked (S k) (session_call snap big_sc s (tick k)) /\ call_panics big_sc s (tick k) = false.
Proof.
  intros snap k s (j & J & E). unfold session_call, tick. cbn [h_call call_panics call_ok stores]. rewrite E, (big_admits _ _ j k J). split; [|reflexivity].
  assert (X : h_count 1 (h_store (mkPoint [100] [97] (Z.of_nat k) (VLong (Z.of_nat k))) (mkHist (map pt (seq 0 j)) (map pt (seq j (k - j))) (Z.of_nat (k - j)))) =
    mkHist (map pt (seq 0 j)) (map pt (seq j (S k - j))) (Z.of_nat (S k - j))).
  { unfold h_count, h_store. cbn [h_flushed h_recent h_counted]. fold (pt k). rewrite pt_snoc by exact J. f_equal. lia. }
  rewrite X. destruct (_ && _); [|exists j; split; [lia|reflexivity]]. destruct (_ && _); [|exists j; split; [lia|reflexivity]].
  exists (S k). split; [lia|]. cbn [ss_hist]. unfold h_flush. cbn [h_flushed h_recent]. rewrite <- map_app.
  rewrite Nat.sub_diag. cbn [seq map Z.of_nat]. pose proof (seq_app j (S k - j) 0) as X2. rewrite Nat.add_0_l in X2. rewrite <- X2. replace (j + (S k - j))%nat with (S k) by lia. reflexivity.
Qed.
Lemma ticks : forall snap n k s, ticked k s -> ticked (k + n) (fold_left (session_call snap big_sc) (map tick (seq k n)) s) /\
  exists l, replies snap big_sc s (map tick (seq k n)) = Some l.
Proof.
  intros snap n. induction n as [|n IH]; intros k s T; cbn [seq map fold_left replies].
  - rewrite Nat.add_0_r. split; [exact T|]. eexists. reflexivity.
  - destruct (tick_call snap k s T) as [T' P]. rewrite P. destruct (IH (S k) _ T') as (T2 & l & R). rewrite R. split; [|eexists; reflexivity]. replace (k + S n)%nat with (S k + n)%nat by lia. exact T2.
Qed.
Lemma ticks_new : forall snap n, ticked n (session_of snap big_sc (map tick (seq 0 n))) /\ exists l, replies snap big_sc session_new (map tick (seq 0 n)) = Some l.
Proof. intros snap n. apply (ticks snap n 0 session_new). exists 0%nat. split; [lia|reflexivity]. Qed.
Lemma ticks_points : forall k n, zsum (map op_points (map tick (seq k n))) = Z.of_nat n.
Proof. intros k n. revert k. induction n as [|n IH]; intros k; [reflexivity|]. cbn [seq map]. rewrite zsum_cons, IH. cbn [tick op_points]. lia. Qed.
Lemma ticks_ok : forall n, Z.of_nat n < 2 ^ 32 -> ops_ok (map tick (seq 0 n)).
Proof.
  intros n H. split; [|rewrite ticks_points; exact H]. apply Forall_forall. intros o I. apply in_map_iff in I. destruct I as (i & <- & I). apply in_seq in I. cbn [tick op_ok value_machine]. unfold i64_min, i64_max. lia.
Qed.
Lemma ticks_open : forall n, no_close (map tick (seq 0 n)) = true.
Proof. intros n. unfold no_close. apply forallb_forall. intros o I. apply in_map_iff in I. destruct I as (i & <- & _). reflexivity. Qed.
Lemma ticks_refused : forall snap n k s, refused_from snap big_sc s (map tick (seq k n)) = 0.
Proof. intros snap n. induction n as [|n IH]; intros k s; [reflexivity|]. cbn [seq map refused_from]. unfold tick at 1. rewrite IH. reflexivity. Qed.
Lemma ticks_ample : forall snap n, Z.of_nat n < 2 ^ 32 -> ample snap big_sc (map tick (seq 0 n)).
Proof.
  intros snap n H. apply (ample_of snap big_sc 1056 _ 1); [exact big_sc_ok|exact big_uncompressed|lia| |lia|reflexivity|].
  - apply Forall_forall. intros o I. apply in_map_iff in I. destruct I as (i & <- & _). apply Z.le_refl.
  - unfold refused. rewrite ticks_refused, ticks_points. pose proof (flushes_mono big_sc (Z.of_nat n) (2 ^ 32) ltac:(reflexivity) ltac:(lia)) as F.
    change (most_flushes big_sc (2 ^ 32)) with 769 in F. change (per_flush big_sc) with 460. change (per_file big_sc) with 283. change (capacity 1056) with 16395915. lia.
Qed.

(** ** Rejected batches *)
Definition held (k : nat) : session := mkSession [] (mkHist [] (map pt (seq 0 k)) 0) 100.
Lemma twice_call : forall snap k, session_call snap big_sc (held k) (twice k) = held (S k) /\ call_panics big_sc (held k) (twice k) = false /\
  reply big_sc (ss_hist (held k)) (twice k) = AErr EOutOfOrderData /\ call_ok big_sc (twice k) (ss_hist (held k)) = false.
Proof.
  intros snap k. pose proof (big_admits [] 0 0 k ltac:(lia)) as A. rewrite Nat.sub_0_r in A.
  pose proof (pt_last [] 0 0 k ltac:(lia)) as P. rewrite Nat.sub_0_r in P.
  set (h := mkHist [] (map pt (seq 0 k)) 0) in *. set (h1 := h_store (mkPoint [100] [97] (Z.of_nat k) (VLong (Z.of_nat k))) h).
  assert (E1 : h1 = mkHist [] (map pt (seq 0 (S k))) 0).
  { unfold h1, h_store, h. cbn [h_flushed h_recent h_counted]. fold (pt k). pose proof (pt_snoc 0 k ltac:(lia)) as X. rewrite !Nat.sub_0_r in X. rewrite X. reflexivity. }
  assert (L1 : last_time h1 [100] [97] = Z.of_nat k).
  { rewrite E1. unfold last_time. cbn [h_recent]. rewrite pt_series, map_map, seq_S, map_app. cbn [map Nat.add]. rewrite last_last. reflexivity. }
  assert (A1 : admits big_sc h1 [100] [97] (Z.of_nat k) = false) by (unfold admits; rewrite L1, Z.ltb_irrefl; apply andb_false_r).
  pose proof (proj2 (verdict_admits big_sc h [100] [97] (Z.of_nat k) big_sc_ok) A) as V.
  assert (CO : call_ok big_sc (twice k) h = false).
  { unfold twice. cbn [call_ok b_verdict]. rewrite V. fold h1. destruct (h_verdict big_sc h1 [100] [97] (Z.of_nat k)) eqn:V1; auto. apply (verdict_admits big_sc h1 _ _ _ big_sc_ok) in V1. congruence. }
  split; [|split; [|split; [|exact CO]]].
  - unfold session_call. cbn [held ss_hist ss_next ss_flushes]. fold h. rewrite CO. cbn [andb]. unfold held. f_equal. unfold twice. cbn [h_call h_batch]. rewrite A. fold h1. rewrite A1. rewrite E1. reflexivity.
  - unfold call_panics, twice. cbn [held ss_hist ss_next stores nothing]. fold h. rewrite A. fold h1. rewrite A1. reflexivity.
  - unfold reply, twice. cbn [held ss_hist batch_reply]. fold h. change (has_device big_sc [100]) with true. change (is_declared big_sc [100] [97]) with true. cbv iota.
    fold h1. rewrite L1, Z.leb_refl. destruct (Z.of_nat k <=? last_time h [100] [97]); reflexivity.
Qed.
Lemma twices : forall snap n k, fold_left (session_call snap big_sc) (map twice (seq k n)) (held k) = held (k + n) /\
  replies snap big_sc (held k) (map twice (seq k n)) = Some (repeat (AErr EOutOfOrderData) n).
Proof.
  intros snap n. induction n as [|n IH]; intros k; cbn [seq map fold_left replies repeat].
  - rewrite Nat.add_0_r. auto.
  - destruct (twice_call snap k) as (E & P & R & _). rewrite E, P, R. destruct (IH (S k)) as [I1 I2]. rewrite I1, I2. replace (k + S n)%nat with (S k + n)%nat by lia. auto.
Qed.
Lemma twices_new : forall snap n, session_of snap big_sc (map twice (seq 0 n)) = held n /\
  replies snap big_sc session_new (map twice (seq 0 n)) = Some (repeat (AErr EOutOfOrderData) n).
Proof. intros snap n. exact (twices snap n 0). Qed.
Lemma twices_points : forall k n, zsum (map op_points (map twice (seq k n))) = 2 * Z.of_nat n.
Proof. intros k n. revert k. induction n as [|n IH]; intros k; [reflexivity|]. cbn [seq map]. rewrite zsum_cons, IH. unfold twice at 1. cbn [op_points]. rewrite !zlen_cons, zlen_nil. lia. Qed.
Lemma twices_ok : forall n, Z.of_nat n < 2 ^ 31 -> ops_ok (map twice (seq 0 n)).
Proof.
  intros n H. split; [|rewrite twices_points; lia]. apply Forall_forall. intros o I. apply in_map_iff in I. destruct I as (i & <- & I). apply in_seq in I. cbn [twice op_ok value_machine]. unfold i64_min, i64_max.
  split; [lia|]. repeat constructor; cbn [snd value_machine]; lia.
Qed.
Lemma twices_open : forall n, no_close (map twice (seq 0 n)) = true.
Proof. intros n. unfold no_close. apply forallb_forall. intros o I. apply in_map_iff in I. destruct I as (i & <- & _). reflexivity. Qed.
Lemma split_seq : forall f : nat -> op, forall n a o b, map f (seq 0 n) = a ++ o :: b -> a = map f (seq 0 (length a)) /\ (length a < n)%nat /\ o = f (length a).
Proof.
  intros f n a o b E. assert (L : (length a < n)%nat). { apply (f_equal (@length _)) in E. rewrite map_length, seq_length, app_length in E. cbn [length] in E. lia. }
  split; [|split; [exact L|]].
  - apply (f_equal (firstn (length a))) in E. rewrite firstn_app, firstn_all, Nat.sub_diag in E. cbn [firstn] in E. rewrite app_nil_r in E. rewrite <- E at 1. rewrite firstn_map. f_equal.
    replace n with (length a + (n - length a))%nat by lia. rewrite seq_app. cbn [Nat.add]. rewrite firstn_app, seq_length, Nat.sub_diag. cbn [firstn]. rewrite app_nil_r. apply firstn_all2. rewrite seq_length. lia.
  - apply (f_equal (fun l => nth_error l (length a))) in E. rewrite nth_error_app2, Nat.sub_diag in E by lia. cbn [nth_error] in E.
    rewrite nth_error_map in E. assert (X : nth_error (seq 0 n) (length a) = Some (length a)). { rewrite (nth_error_nth' (seq 0 n) 0%nat) by (rewrite seq_length; lia). rewrite seq_nth by lia. reflexivity. }
    rewrite X in E. cbn in E. congruence.
Qed.
Lemma twices_roomy : forall snap n, Z.of_nat n <= 2 ^ 27 -> roomy snap big_sc (map twice (seq 0 n)).
Proof.
  intros snap n H. split; [reflexivity|]. intros a o b E. destruct (split_seq twice n a o b E) as (E1 & L & ->). rewrite E1. destruct (twices_new snap (length a)) as [S _]. rewrite S. cbn [held ss_hist h_recent].
  unfold zlen at 1. rewrite !map_length, !seq_length. unfold twice. cbn [op_points]. rewrite !zlen_cons, zlen_nil. change (series_count big_sc) with 1. lia.
Qed.
Lemma twices_ample : forall snap n, Z.of_nat n <= 2 ^ 27 -> ample snap big_sc (map twice (seq 0 n)).
Proof.
  intros snap n H. split; [reflexivity|]. split.
  - intros a o b E. destruct (twices_roomy snap n H) as [_ R]. destruct (split_seq twice n a o b E) as (E1 & L & ->). rewrite E1. destruct (twices_new snap (length a)) as [S _]. rewrite S. cbn [held ss_hist h_recent].
    unfold zlen at 1. rewrite !map_length, !seq_length. unfold twice. cbn [op_points]. rewrite !zlen_cons, zlen_nil. change (per_flush big_sc) with 460. lia.
  - destruct (twices_new snap n) as [S _]. rewrite S. cbn [held ss_hist h_recent]. unfold zlen. rewrite map_length, seq_length, twices_points.
    pose proof (flushes_mono big_sc (2 * Z.of_nat n) (2 ^ 32) ltac:(reflexivity) ltac:(lia)) as F. change (most_flushes big_sc (2 ^ 32)) with 769 in F. change (per_flush big_sc) with 460. change (per_file big_sc) with 283. lia.
Qed.
