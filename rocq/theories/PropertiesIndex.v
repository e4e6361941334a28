(** Properties C17, C18, C20, C21, C24: what a reader that starts from the tail of a closed file finds.
    [footer_read], [index_read], [scan_file] (SReader.v) and [lookup], [series_found] (SIndex.v) are the
    independent reader; [ord] is the iteration order of the device hash map. *)
From Verif Require Import PropertiesWriter PStored.
From Coq Require Import String.
Open Scope list_scope. Open Scope Z_scope.

(** ** Material for the examples: devices "d" and "e" *)
Definition ix_sc : schema :=
  [([100], [([97], mkMS INT32 PLAIN UNCOMPRESSED); ([98], mkMS INT64 TS2DIFF SNAPPY)]);
   ([101], [([97], mkMS FLOAT PLAIN UNCOMPRESSED); ([99], mkMS INT32 PLAIN UNCOMPRESSED)])].
Lemma ix_sc_ok : schema_ok ix_sc.
Proof. split; [|]; repeat constructor; cbn; try tauto; try (intros [|[|]]; congruence); intros []; congruence. Qed.
Lemma ix_declares : forall d m ms, declares ix_sc d m ms -> (d = [100] /\ (m = [97] \/ m = [98])) \/ (d = [101] /\ (m = [97] \/ m = [99])).
Proof.
  intros d m ms (g & [E|[E|[]]] & I); inversion E; subst; cbn in I; destruct I as [I|[I|[]]]; inversion I; subst; auto.
Qed.
Lemma ix_names : no_dots ix_sc /\ small_devices ix_sc /\ short_paths ix_sc /\ byte_names ix_sc.
Proof.
  split; [|split; [|split]].
  - intros d m ms H I. apply ix_declares in H. destruct H as [(_ & [-> | ->])|(_ & [-> | ->])]; destruct I as [I|[]]; discriminate.
  - repeat constructor; cbn; discriminate.
  - intros d m ms H. apply ix_declares in H. destruct H as [(-> & [-> | ->])|(-> & [-> | ->])]; reflexivity.
  - intros d m ms H. apply ix_declares in H. destruct H as [(-> & [-> | ->])|(-> & [-> | ->])]; repeat constructor; lia.
Qed.
Definition ix_ops : list op :=
  [OpWrite [100] [97] 5 (VInt 7); OpWrite [101] [97] 5 (VFloat 0x3FC00000); OpWriteMany [100] 6 [([97], VInt 1); ([98], VLong (-4))];
   OpWrite [101] [97] 4 (VFloat 0)].
Definition ix_start : writer := match writer_new ix_sc (sink_new healthy) with (_, Some w) => w | (o, None) => mkW (mkIO o None [] None [] []) [] 0 0 [] end.
Definition ix_run : writer * list answer := Eval vm_compute in
  match run Release ex_snap ix_start ix_ops with Ret r => r | Panic _ => (ix_start, []) end.
Example ix_new : exists out, writer_new ix_sc (sink_new healthy) = (out, Some ix_start).
Proof. eexists. vm_compute. reflexivity. Qed.
Example ix_runs : run Release ex_snap ix_start ix_ops = Ret ix_run /\ snd ix_run = [AOk; AOk; AOk; AErr EOutOfOrderData].
Proof. vm_compute. auto. Qed.
Example ix_ok : ops_ok ix_ops /\ no_close ix_ops = true /\ batches_ok ix_ops (snd ix_run).
Proof.
  split; [|split; [reflexivity|]].
  - split; [|reflexivity]. repeat constructor; cbn; discriminate.
  - rewrite (proj2 ix_runs). repeat constructor.
Qed.
Lemma order_id : good_order (fun l => l).
Proof. intros l. apply Permutation_refl. Qed.
Lemma order_rev : good_order (@rev _).
Proof. intros l. apply Permutation_sym, Permutation_rev. Qed.
Definition ix_file : list Z := Eval vm_compute in
  match step Release ex_snap (fst ix_run) (OpClose (fun l => l)) with Ret (w', _) => file_bytes w' | Panic _ => [] end.
Definition ix_file_rev : list Z := Eval vm_compute in
  match step Release ex_snap (fst ix_run) (OpClose (@rev _)) with Ret (w', _) => file_bytes w' | Panic _ => [] end.
Example ix_closes : (exists w', step Release ex_snap (fst ix_run) (OpClose (fun l => l)) = Ret (w', AUnit) /\ file_bytes w' = ix_file) /\
  (exists w', step Release ex_snap (fst ix_run) (OpClose (@rev _)) = Ret (w', AUnit) /\ file_bytes w' = ix_file_rev).
Proof. split; eexists; vm_compute; eauto. Qed.

(** ** C17. Every series with data, and nothing else, is found through the index, once, with exactly its
    accepted points and its statistics; it is also found by the lookup of one series. *)
Theorem C17_index_holds_accepted : forall p snap decomp sc w h ops l ord w' a, good_snap snap decomp -> schema_ok sc ->
  trace p snap sc w h ops l -> ops_ok ops -> no_close ops = true -> h_recent h = [] \/ 0 < h_counted h ->
  step p snap w (OpClose ord) = Ret (w', a) -> zlen (file_bytes w') < 2 ^ 32 -> good_order ord -> no_dots sc -> small_devices sc ->
  exists xs, index_read decomp (file_bytes w') = Some xs /\ NoDup (map f_key xs) /\
    (forall d m, In (d, m) (map f_key xs) <-> series_of d m (h_all h) <> []) /\
    (forall x d m, In x xs -> f_key x = (d, m) -> f_points x = tnums (series_of d m (h_all h)) /\ lookup (file_bytes w') d m = Some (f_meta x) /\
       exists ms, declares sc d m ms /\ series_found p (ms_type ms) (series_of d m (h_all h)) x).
Proof. exact index_accepted. Qed.
Print Assumptions C17_index_holds_accepted.
Theorem C17_index_holds_acknowledged : forall p snap decomp sc out w0 ops w l ord w' a, good_snap snap decomp -> schema_ok sc ->
  writer_new sc (sink_new healthy) = (out, Some w0) -> run p snap w0 ops = Ret (w, l) ->
  ops_ok ops -> no_close ops = true -> batches_ok ops l ->
  step p snap w (OpClose ord) = Ret (w', a) -> zlen (file_bytes w') < 2 ^ 32 -> good_order ord -> no_dots sc -> small_devices sc ->
  exists xs, index_read decomp (file_bytes w') = Some xs /\ NoDup (map f_key xs) /\
    (forall d m, In (d, m) (map f_key xs) <-> series_of d m (acked ops l) <> []) /\
    (forall x d m, In x xs -> f_key x = (d, m) -> f_points x = tnums (series_of d m (acked ops l)) /\ lookup (file_bytes w') d m = Some (f_meta x)).
Proof. exact index_acked. Qed.
Print Assumptions C17_index_holds_acknowledged.
(** The series statistics in terms of the points (any series of the index). The hypothesis on times: if all
    times are i64::MAX the first value is not recorded (C09_first_at_max_refuted). *)
Theorem C17_statistics : forall p snap decomp sc w h ops l ord w' a xs x d m ms, good_snap snap decomp -> schema_ok sc ->
  trace p snap sc w h ops l -> ops_ok ops -> no_close ops = true -> h_recent h = [] \/ 0 < h_counted h ->
  step p snap w (OpClose ord) = Ret (w', a) -> zlen (file_bytes w') < 2 ^ 32 -> good_order ord -> no_dots sc -> small_devices sc ->
  index_read decomp (file_bytes w') = Some xs -> In x xs -> f_key x = (d, m) -> declares sc d m ms ->
  let pts := series_of d m (h_all h) in let s := ts_stats (f_meta x) in
  Exists (fun tv => fst tv < i64_max) pts ->
  sf_count s = zlen pts /\ is_min (sf_start s) (times pts) /\ is_max (sf_end s) (times pts) /\
  In (sf_start s, sf_first s) (tnums pts) /\ In (sf_end s, sf_last s) (tnums pts) /\
  (ms_type ms <> FLOAT -> is_min (sf_min s) (nums pts) /\ is_max (sf_max s) (nums pts)) /\
  (ms_type ms = INT32 -> sf_sum s = zsum (nums pts)) /\
  (ms_type ms = FLOAT -> Exists f32_finite (nums pts) -> In (sf_min s) (nums pts) /\ In (sf_max s) (nums pts) /\
     Forall (fun v => ~ f32_nan v -> f32_key (sf_min s) <= f32_key v <= f32_key (sf_max s)) (nums pts)).
Proof. exact index_statistics. Qed.
Print Assumptions C17_statistics.
Example C17_case : good_snap ex_snap ex_snap /\ schema_ok ix_sc /\ no_dots ix_sc /\ small_devices ix_sc /\ zlen ix_file_rev < 2 ^ 32 /\
  option_map (map (fun x => (f_key x, f_points x, sf_count (ts_stats (f_meta x)), sf_sum (ts_stats (f_meta x))))) (index_read ex_snap ix_file_rev) =
  Some [([101], [97], [(5, 0x3FC00000)], 1, 0x3FF8000000000000); ([100], [97], [(5, 7); (6, 1)], 2, 8); ([100], [98], [(6, -4)], 1, 0xC010000000000000)].
Proof.
  split; [exact ex_snap_good|]. split; [exact ix_sc_ok|]. split; [apply ix_names|]. split; [apply ix_names|]. split; [reflexivity|]. vm_compute. reflexivity.
Qed.

(** ** C18 *)
Theorem C18_framing : forall p snap decomp sc w h ops l ord w' a, good_snap snap decomp -> schema_ok sc ->
  trace p snap sc w h ops l -> ops_ok ops -> no_close ops = true ->
  step p snap w (OpClose ord) = Ret (w', a) -> zlen (file_bytes w') < 2 ^ 32 -> good_order ord -> short_paths sc ->
  exists cs data meta foot nb root off bloom l1 l2,
    file_bytes w' = magic ++ [3] ++ data ++ [2] ++ meta ++ foot ++ nb ++ magic /\ zlen nb = 4 /\ be_val nb = zlen foot /\
    node_read foot = Some (root, l1) /\ be_unsigned 8 l1 = Some (off, l2) /\ bloom_read l2 = Some (bloom, []) /\
    off = zlen (magic ++ [3] ++ data) /\
    scan_file decomp (file_bytes w') = Some (cs, [2] ++ meta ++ foot ++ nb ++ magic).
Proof. intros p snap decomp sc w h ops l ord w' a HG Hs. exact (framing p snap decomp HG sc Hs w h ops l ord w' a). Qed.
Print Assumptions C18_framing.
Example C18_case : option_map (fun ft => (ft_meta ft, ft_size ft)) (footer_read ix_file) = Some (145, 74) /\ nth_error ix_file 145 = Some 2.
Proof. split; vm_compute; reflexivity. Qed.

(** ** C20 *)
Theorem C20_measurements_sorted : forall p snap decomp sc w h ops l ord w' a, good_snap snap decomp -> schema_ok sc ->
  trace p snap sc w h ops l -> ops_ok ops -> no_close ops = true -> h_recent h = [] \/ 0 < h_counted h ->
  step p snap w (OpClose ord) = Ret (w', a) -> zlen (file_bytes w') < 2 ^ 32 -> good_order ord -> no_dots sc -> small_devices sc ->
  exists ft xs, footer_read (file_bytes w') = Some ft /\ index_read decomp (file_bytes w') = Some xs /\
    (* the names of each device in index order *)
    (forall d, StronglySorted bytes_lt (names_of d xs)) /\
    (* the measurement node of each device: its entries are sorted, one for every 256 series *)
    Forall (fun eo => exists b n b', drop (snd eo) (file_bytes w') = Some b /\ node_read b = Some (n, b') /\ nd_type n = 3 /\
                      StronglySorted bytes_lt (map fst (nd_entries n)) /\ node_shape (file_bytes w') n (metas_of (fst eo) xs)) (nd_entries (ft_root ft)) /\
    (* searching the entries of one device finds a series iff it is there *)
    (forall d m, lookup (file_bytes w') d m = option_map f_meta (find (fun x => same_name (fst (f_key x)) d && same_name (snd (f_key x)) m) xs)).
Proof. exact index_sorted. Qed.
Print Assumptions C20_measurements_sorted.
(** The root lists the devices with data in the order of the hash map: [imap] is the sorted device map. *)
Theorem C20_devices_in_hash_order : forall p snap decomp sc w h ops l ord w' a, good_snap snap decomp -> schema_ok sc ->
  trace p snap sc w h ops l -> ops_ok ops -> no_close ops = true -> h_recent h = [] \/ 0 < h_counted h ->
  step p snap w (OpClose ord) = Ret (w', a) -> zlen (file_bytes w') < 2 ^ 32 -> good_order ord -> no_dots sc -> small_devices sc ->
  exists ft (imap : list (str * index_node)), footer_read (file_bytes w') = Some ft /\
    map fst (nd_entries (ft_root ft)) = map fst (ord imap) /\ StronglySorted bytes_lt (map fst imap) /\
    NoDup (map fst (nd_entries (ft_root ft))) /\
    (forall d, In d (map fst (nd_entries (ft_root ft))) <-> exists m, series_of d m (h_all h) <> []).
Proof. exact index_devices. Qed.
Print Assumptions C20_devices_in_hash_order.
Example C20_case :
  option_map (fun ft => map fst (nd_entries (ft_root ft))) (footer_read ix_file) = Some [[100]; [101]] /\
  option_map (fun ft => map fst (nd_entries (ft_root ft))) (footer_read ix_file_rev) = Some [[101]; [100]] /\
  option_map ts_name (lookup ix_file_rev [100] [98]) = Some [98] /\ lookup ix_file_rev [101] [98] = None.
Proof. vm_compute. auto. Qed.

(** ** C21, for the filter read back from a closed file *)
Theorem C21_closed_file : forall p snap decomp sc w h ops l ord w' a, good_snap snap decomp -> schema_ok sc ->
  trace p snap sc w h ops l -> ops_ok ops -> no_close ops = true -> h_recent h = [] \/ 0 < h_counted h ->
  step p snap w (OpClose ord) = Ret (w', a) -> zlen (file_bytes w') < 2 ^ 32 -> good_order ord -> short_paths sc -> byte_names sc ->
  exists ft, footer_read (file_bytes w') = Some ft /\
    forall d m, series_of d m (h_all h) <> [] -> might_contain (ft_bloom ft) (d ++ [46] ++ m) = true.
Proof. exact closed_bloom. Qed.
Print Assumptions C21_closed_file.
Example C21_file_case : match footer_read ix_file with
  | Some ft => might_contain (ft_bloom ft) [101; 46; 97] = true /\ might_contain (ft_bloom ft) [101; 46; 99] = false
  | None => False end.
Proof. vm_compute. auto. Qed.

(** ** C24 *)
Theorem C24_series_apart : forall p snap decomp sc w h ops l ord w' a, good_snap snap decomp -> schema_ok sc ->
  trace p snap sc w h ops l -> ops_ok ops -> no_close ops = true -> h_recent h = [] \/ 0 < h_counted h ->
  step p snap w (OpClose ord) = Ret (w', a) -> zlen (file_bytes w') < 2 ^ 32 -> good_order ord -> no_dots sc -> small_devices sc ->
  exists xs, index_read decomp (file_bytes w') = Some xs /\
    (forall d m, series_of d m (h_all h) <> [] -> exists pre x post, xs = pre ++ x :: post /\ f_key x = (d, m) /\
       f_points x = tnums (series_of d m (h_all h)) /\ Forall (fun y => f_key y <> (d, m)) (pre ++ post)) /\
    Forall (fun x => is_declared sc (fst (f_key x)) (snd (f_key x)) = true) xs.
Proof. exact index_apart. Qed.
Print Assumptions C24_series_apart.
Example C24_case : schema_ok ix_sc /\ no_dots ix_sc /\ small_devices ix_sc /\ zlen ix_file < 2 ^ 32 /\
  option_map (map (fun x => (f_key x, f_points x, is_declared ix_sc (fst (f_key x)) (snd (f_key x))))) (index_read ex_snap ix_file) =
  Some [([100], [97], [(5, 7); (6, 1)], true); ([100], [98], [(6, -4)], true); ([101], [97], [(5, 0x3FC00000)], true)].
Proof. split; [exact ix_sc_ok|]. split; [apply ix_names|]. split; [apply ix_names|]. split; [reflexivity|]. vm_compute. reflexivity. Qed.
(** d / "a.b" and d.a / "b" end up in one entry, which names neither of them. *)
Definition dot_sc : schema := [([100], [([97; 46; 98], mkMS INT32 PLAIN UNCOMPRESSED)]); ([100; 46; 97], [([98], mkMS INT32 PLAIN UNCOMPRESSED)])].
Theorem C24_dots_merge_refuted : exists w0 w w' xs out, writer_new dot_sc (sink_new healthy) = (out, Some w0) /\
  run Release ex_snap w0 [OpWrite [100] [97; 46; 98] 5 (VInt 7); OpWrite [100; 46; 97] [98] 3 (VInt 8)] = Ret (w, [AOk; AOk]) /\
  step Release ex_snap w (OpClose (fun l => l)) = Ret (w', AUnit) /\ index_read ex_snap (file_bytes w') = Some xs /\
  map (fun x => (f_key x, f_points x)) xs = [(([100; 46; 97], [97; 46; 98]), [(5, 7); (3, 8)])].
Proof. do 5 eexists. do 4 (split; [vm_compute; reflexivity|]). vm_compute. reflexivity. Qed.
Print Assumptions C24_dots_merge_refuted.
(** d / "a.b" alone is listed under the device "d.a", which was never declared. *)
Theorem C24_dots_undeclared_refuted : exists w0 w w' xs out, let sc := [([100], [([97; 46; 98], mkMS INT32 PLAIN UNCOMPRESSED)])] in
  writer_new sc (sink_new healthy) = (out, Some w0) /\ has_device sc [100; 46; 97] = false /\
  run Release ex_snap w0 [OpWrite [100] [97; 46; 98] 5 (VInt 7)] = Ret (w, [AOk]) /\
  step Release ex_snap w (OpClose (fun l => l)) = Ret (w', AUnit) /\ index_read ex_snap (file_bytes w') = Some xs /\
  map f_key xs = [([100; 46; 97], [97; 46; 98])].
Proof. do 5 eexists. cbv zeta. do 5 (split; [vm_compute; reflexivity|]). vm_compute. reflexivity. Qed.
Print Assumptions C24_dots_undeclared_refuted.
