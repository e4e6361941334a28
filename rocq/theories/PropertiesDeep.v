(** Property C53: a device with more than 65536 series. The data are in the file, but the index entry of the
    device leads to an internal node all of whose entries lead to one place; with a single device that place is
    the node itself, and the index cannot be read. *)
From Verif Require Import PropertiesWriter PropertiesIndex PDeepSession.
Open Scope list_scope. Open Scope Z_scope.

(** ** Material for the examples: one device with [n] series of one point each, written by one batch *)
Definition wide_name (i : Z) : list Z := [100 + i / 10000; 100 + (i / 100) mod 100; 100 + i mod 100].
Definition wide_names (n : nat) : list (list Z) := map (fun k => wide_name (Z.of_nat k)) (seq 0 n).
Definition wide_sc (n : nat) : schema := [([100], map (fun m => (m, mkMS INT32 PLAIN UNCOMPRESSED)) (wide_names n))].
Definition wide_ops (n : nat) : list op := [OpWriteMany [100] 1 (map (fun m => (m, VInt 7)) (wide_names n))].

Lemma wide_inj : forall i j, 0 <= i -> 0 <= j -> wide_name i = wide_name j -> i = j.
Proof.
  intros i j Hi Hj E. unfold wide_name in E. injection E as E1 E2 E3.
  pose proof (Z.div_mod i 100 ltac:(lia)). pose proof (Z.div_mod j 100 ltac:(lia)).
  pose proof (Z.div_mod (i / 100) 100 ltac:(lia)). pose proof (Z.div_mod (j / 100) 100 ltac:(lia)).
  rewrite Z.div_div in * by lia. change (100 * 100) with 10000 in *. lia.
Qed.
Lemma wide_nodup : forall n, NoDup (wide_names n).
Proof.
  intros n. unfold wide_names. apply FinFun.Injective_map_NoDup; [|apply seq_NoDup].
  intros i j E. apply wide_inj in E; lia.
Qed.
Lemma wide_len : forall n, zlen (wide_names n) = Z.of_nat n.
Proof. intros n. unfold zlen, wide_names. rewrite map_length, seq_length. reflexivity. Qed.
Lemma wide_in : forall n m, Z.of_nat n <= 1000000 -> In m (wide_names n) -> ~ In 46 m /\ zlen m = 3 /\ Forall (fun b => 0 <= b < 256) m.
Proof.
  intros n m L H. unfold wide_names in H. apply in_map_iff in H. destruct H as (k & <- & H). apply in_seq in H. unfold wide_name.
  assert (A : 0 <= Z.of_nat k / 10000 < 100) by (split; [apply Z.div_pos|apply Z.div_lt_upper_bound]; lia).
  pose proof (Z.mod_pos_bound (Z.of_nat k / 100) 100 ltac:(lia)). pose proof (Z.mod_pos_bound (Z.of_nat k) 100 ltac:(lia)).
  split; [|split; [reflexivity|]].
  - intros [X|[X|[X|[]]]]; lia.
  - repeat apply Forall_cons; try apply Forall_nil; lia.
Qed.
Lemma wide_declares : forall n d m ms, declares (wide_sc n) d m ms -> d = [100] /\ In m (wide_names n) /\ ms = mkMS INT32 PLAIN UNCOMPRESSED.
Proof.
  intros n d m ms (g & [E|[]] & H). injection E as <- <-. apply in_map_iff in H. destruct H as (x & E & H). injection E as <- <-. auto.
Qed.
Lemma wide_input : forall n, input (wide_ops n) = map (fun m => mkPoint [100] m 1 (VInt 7)) (wide_names n).
Proof. intros n. unfold input, wide_ops. cbn [map op_list concat]. rewrite app_nil_r, map_map. reflexivity. Qed.
Lemma wide_series : forall names d m, NoDup names -> series_of d m (map (fun m => mkPoint [100] m 1 (VInt 7)) names) =
  if same_name [100] d then if in_dec (list_eq_dec Z.eq_dec) m names then [(1, VInt 7)] else [] else [].
Proof.
  intros names d m N. unfold series_of. destruct (same_name [100] d) eqn:D.
  - induction names as [|x names IH]; [reflexivity|]. inversion N as [|? ? N1 N2]; subst. cbn [map filter pt_device pt_name]. rewrite D. cbn [andb].
    specialize (IH N2). destruct (same_name x m) eqn:E.
    + apply same_name_eq in E. subst x. cbn [map pt_time pt_value]. rewrite IH. destruct (in_dec _ m names) as [I|I]; [elim (N1 I)|].
      destruct (in_dec _ m (m :: names)) as [J|J]; [reflexivity|]. elim J. left. reflexivity.
    + rewrite IH. destruct (in_dec _ m names) as [I|I]; destruct (in_dec _ m (x :: names)) as [J|J]; auto.
      * elim J. right. exact I.
      * destruct J as [->|J]; [|elim (I J)]. rewrite PWriter.same_name_refl in E. discriminate.
  - induction names as [|x names IH]; [reflexivity|]. inversion N as [|? ? N1 N2]; subst. cbn [map filter pt_device pt_name]. rewrite D. cbn [andb]. apply IH. exact N2.
Qed.

(** ** Every session that was not closed before *)
Theorem C53_large_device : forall p snap decomp sc w h ops l ord w' a d names, good_snap snap decomp -> schema_ok sc ->
  trace p snap sc w h ops l -> ops_ok ops -> no_close ops = true -> h_recent h = [] \/ 0 < h_counted h ->
  step p snap w (OpClose ord) = Ret (w', a) -> zlen (file_bytes w') < 2 ^ 32 -> good_order ord -> no_dots sc ->
  NoDup names -> 65536 < zlen names -> Forall (fun m => series_of d m (h_all h) <> []) names ->
  exists ft n o q, footer_read (file_bytes w') = Some ft /\ lost_device (file_bytes w') ft d n o q /\
    (forall m, lookup (file_bytes w') d m = None) /\
    ((forall d' m, series_of d' m (h_all h) <> [] -> d' = d) -> q = o /\ index_read decomp (file_bytes w') = None).
Proof. exact large_device. Qed.
Print Assumptions C53_large_device.

(** ** A whole session of in-order, well-typed calls on one device with more than 65536 series: every call is
    acknowledged; when the close returns (C23) and the file is below 4 GiB, reading it front to back yields
    exactly the input, reading it through the index yields nothing *)
Theorem C53_large_session : forall snap decomp sc ops d names paths, good_snap snap decomp -> schema_ok sc -> no_dots sc -> byte_names sc -> short_paths sc ->
  24 * zlen (input ops) + 150 * series_count sc < 2 ^ 32 -> Forall write_call ops -> Forall (point_storable sc) (input ops) -> in_order (input ops) ->
  NoDup names -> 65536 < zlen names -> (forall d' m, series_of d' m (input ops) <> [] <-> d' = d /\ In m names) ->
  lists_paths (fun d m => series_of d m (input ops) <> []) paths ->
  let cap := bloom_bits (zlen paths) in
  exists out w0 w, writer_new sc (sink_new healthy) = (out, Some w0) /\ run Release snap w0 ops = Ret (w, map (fun _ => AOk) ops) /\
    forall ord, good_order ord ->
    ((exists w', step Release snap w (OpClose ord) = Ret (w', AUnit)) <->
     (forall s seed, In s paths -> In seed [5; 7; 11; 19; 31] -> ~ (path_hash s seed = - 2 ^ 31 /\ 2 ^ 31 mod cap <> 0)) /\ (cap mod 8 = 0 \/ 4 <= cap mod 8)) /\
    forall w', step Release snap w (OpClose ord) = Ret (w', AUnit) -> zlen (file_bytes w') < 2 ^ 32 ->
      (exists cs, read_file decomp (file_bytes w') = Some cs /\ forall d m, SReader.series_in cs d m = tnums (series_of d m (input ops))) /\
      index_read decomp (file_bytes w') = None /\
      exists ft n o, footer_read (file_bytes w') = Some ft /\ lost_device (file_bytes w') ft d n o o.
Proof. exact large_session. Qed.
Print Assumptions C53_large_session.

(** All the hypotheses of the two theorems about the session hold for every [n] from 65537 to 1000000. *)
Lemma wide_ok : forall n, 65536 < Z.of_nat n <= 1000000 ->
  let sc := wide_sc n in let ops := wide_ops n in
  schema_ok sc /\ no_dots sc /\ byte_names sc /\ short_paths sc /\ 24 * zlen (input ops) + 150 * series_count sc < 2 ^ 32 /\
  Forall write_call ops /\ Forall (point_storable sc) (input ops) /\ in_order (input ops) /\ NoDup (wide_names n) /\ 65536 < zlen (wide_names n) /\
  (forall d' m, series_of d' m (input ops) <> [] <-> d' = [100] /\ In m (wide_names n)) /\
  lists_paths (fun d m => series_of d m (input ops) <> []) (map (fun m => [100] ++ [46] ++ m) (wide_names n)).
Proof.
  intros n L sc ops. pose proof (wide_nodup n) as ND. pose proof (wide_len n) as WL.
  assert (SO : forall d' m, series_of d' m (input ops) <> [] <-> d' = [100] /\ In m (wide_names n)).
  { intros d' m. unfold ops. rewrite wide_input, wide_series by exact ND. destruct (same_name [100] d') eqn:E.
    - apply same_name_eq in E. subst d'. destruct (in_dec _ m (wide_names n)); split; try tauto. intros _. discriminate.
    - split; [congruence|]. intros [-> _]. rewrite PWriter.same_name_refl in E. discriminate. }
  split; [|split; [|split; [|split; [|split; [|split; [|split; [|split; [|split; [|split; [|split]]]]]]]]]].
  - split; [constructor; [intros []|constructor]|]. apply Forall_cons; [|apply Forall_nil]. cbn [fst snd]. split; [reflexivity|]. rewrite map_map. cbn [fst]. rewrite map_id. split; [exact ND|].
    apply Forall_forall. intros x H. apply in_map_iff in H. destruct H as (m & <- & H). apply wide_in in H; [|lia]. cbn [fst]. lia.
  - intros d m ms H. apply wide_declares in H. destruct H as (_ & H & _). apply wide_in in H; [|lia]. tauto.
  - intros d m ms H. apply wide_declares in H. destruct H as (-> & H & _). apply wide_in in H; [|lia]. cbn [app]. repeat (apply Forall_cons; [lia|]). tauto.
  - intros d m ms H. apply wide_declares in H. destruct H as (-> & H & _). apply wide_in in H; [|lia]. cbn [app]. rewrite !zlen_cons. lia.
  - unfold ops, sc. rewrite wide_input. unfold series_count, wide_sc. cbn [map snd]. unfold zlen in *. rewrite !map_length. rewrite WL. unfold zsum. cbn [fold_right]. lia.
  - apply Forall_cons; [|apply Forall_nil]. split.
    + split; [unfold i64_min, i64_max; lia|]. apply Forall_forall. intros x H. apply in_map_iff in H. destruct H as (m & <- & H). cbn. lia.
    + cbn [op_list]. intros X. apply (f_equal zlen) in X. unfold zlen in X, WL. rewrite !map_length in X. cbn [length] in X. lia.
  - unfold ops. rewrite wide_input. apply Forall_forall. intros x H. apply in_map_iff in H. destruct H as (m & <- & H). exists (mkMS INT32 PLAIN UNCOMPRESSED). split; [|reflexivity].
    eexists. split; [left; reflexivity|]. cbn [pt_name]. apply in_map_iff. exists m. auto.
  - intros d m. unfold ops. rewrite wide_input, wide_series by exact ND. destruct (same_name _ _); [|exact I]. destruct (in_dec _ _ _); [|exact I]. cbn. lia.
  - exact ND.
  - lia.
  - exact SO.
  - split.
    + apply FinFun.Injective_map_NoDup; [|exact ND]. intros x y E. cbn in E. congruence.
    + intros q. rewrite in_map_iff. split.
      * intros (m & <- & H). exists [100], m. split; [reflexivity|]. apply SO. auto.
      * intros (d & m & -> & H). apply SO in H. destruct H as [-> H]. exists m. auto.
Qed.
Example C53_case : let n := Z.to_nat 65537 in good_snap ex_snap ex_snap /\ schema_ok (wide_sc n) /\ no_dots (wide_sc n) /\ byte_names (wide_sc n) /\ short_paths (wide_sc n) /\
  24 * zlen (input (wide_ops n)) + 150 * series_count (wide_sc n) < 2 ^ 32 /\ Forall write_call (wide_ops n) /\ Forall (point_storable (wide_sc n)) (input (wide_ops n)) /\ in_order (input (wide_ops n)) /\
  NoDup (wide_names n) /\ 65536 < zlen (wide_names n) /\ (forall d' m, series_of d' m (input (wide_ops n)) <> [] <-> d' = [100] /\ In m (wide_names n)) /\
  lists_paths (fun d m => series_of d m (input (wide_ops n)) <> []) (map (fun m => [100] ++ [46] ++ m) (wide_names n)) /\
  bloom_bits 65537 = 408638 /\ 408638 mod 8 = 6 /\ 65537 = zlen (map (fun m => [100] ++ [46] ++ m) (wide_names n)).
Proof.
  intros n. assert (Z.of_nat n = 65537) as E by (apply Z2Nat.id; lia). split; [exact ex_snap_good|]. destruct (wide_ok n ltac:(lia)) as (A1 & A2 & A3 & A4 & A5 & A6 & A7 & A8 & A9 & A10 & A11 & A12).
  do 12 (split; [assumption|]). split; [vm_compute; reflexivity|]. split; [reflexivity|].
  pose proof (wide_len n) as WL. unfold zlen in *. rewrite map_length, WL. symmetry. exact E.
Qed.

(** The mechanism at degree 2 (the writer's degree is 256), five series: the device's node has two entries,
    both leading to the end of the leaf data, where the node itself is written. *)
Example C53_degree_two_case :
  let m := fun i => mkTM 0 0 [i] INT32 (stats_new INT32) [] in
  match device_loop 2 [([100], [m 97; m 98; m 99; m 100; m 101])] (sink_new healthy) with
  | Ret ([(d, n)], o) => d = [100] /\ in_type n = InternalMeasurement /\ in_children n = [mkIE [101] (sk_pos o); mkIE [97] (sk_pos o)] /\ in_end n = sk_pos o
  | _ => False
  end.
Proof. vm_compute. repeat split; reflexivity. Qed.
