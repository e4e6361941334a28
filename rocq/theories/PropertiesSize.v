(** Property C51: whole sessions judged from their inputs: the answers, the file and its size.
    [size_bound], [input], [in_order], [holds] (SSize.v, SSession.v) speak about the schema, the calls and the
    bytes of the file only. *)
From Verif Require Import PropertiesWriter PropertiesIndex PSession.
Open Scope list_scope. Open Scope Z_scope.

(** ** Material for the examples: the schema of C17, in-order calls *)
Definition c51_ops : list op :=
  [OpWrite [100] [97] 5 (VInt 7); OpWrite [101] [97] 5 (VFloat 0x3FC00000); OpWriteMany [100] 6 [([97], VInt 1); ([98], VLong (-4))]].
Definition c51_run : writer * list answer := Eval vm_compute in
  match run Release ex_snap ix_start c51_ops with Ret r => r | Panic _ => (ix_start, []) end.
Definition c51_file : list Z := Eval vm_compute in
  match step Release ex_snap (fst c51_run) (OpClose (fun l => l)) with Ret (w', _) => file_bytes w' | Panic _ => [] end.

(** ** The size of a closed file, for every session that was not closed before *)
Theorem C51_file_size : forall p snap decomp sc w h ops l ord w' a, good_snap snap decomp -> schema_ok sc ->
  trace p snap sc w h ops l -> ops_ok ops -> no_close ops = true -> 24 * zsum (map op_points ops) + 150 * series_count sc < 2 ^ 32 ->
  150 * series_count sc < 2 ^ 27 -> no_dots sc -> small_devices sc -> good_order ord ->
  step p snap w (OpClose ord) = Ret (w', a) -> zlen (file_bytes w') <= size_bound sc (zlen (h_all h)).
Proof. intros p snap decomp sc w h ops l ord w' a HG Hsc. exact (file_size_le p snap decomp HG sc Hsc w h ops l ord w' a). Qed.
Print Assumptions C51_file_size.

(** ** The Bloom filter takes between 6.23522 and 6.23523 bits per series (plus one) *)
Theorem C51_filter_size : forall n, 42 <= n <= 300000000 -> 623522 * n < 100000 * bloom_bits n <= 623523 * n + 100000.
Proof. exact bloom_bits_bounds. Qed.
Print Assumptions C51_filter_size.
Theorem C51_filter_size_small : forall n, 0 <= n <= 41 -> bloom_bits n = 256.
Proof. exact bits_256. Qed.
Print Assumptions C51_filter_size_small.
Example C51_filter_case : bloom_bits 42 = 262 /\ 623522 * 42 < 100000 * 262 <= 623523 * 42 + 100000 /\ bloom_bits 41 = 256.
Proof. vm_compute. repeat split; reflexivity || discriminate. Qed.

(** ** A session of in-order, well-typed calls on a healthy sink: every call is acknowledged, and the close
    yields a file of bounded size holding exactly the input, unless the close panics for one of the three
    reasons of C23 *)
Theorem C51_session_file : forall snap decomp sc ops ord paths devs, good_snap snap decomp -> schema_ok sc -> no_dots sc -> small_devices sc -> byte_names sc -> good_order ord ->
  150 * series_count sc < 2 ^ 27 -> Forall write_call ops -> Forall (point_storable sc) (input ops) -> in_order (input ops) -> size_bound sc (zlen (input ops)) < 2 ^ 32 ->
  lists_paths (fun d m => series_of d m (input ops) <> []) paths -> lists_devices (fun d m => series_of d m (input ops) <> []) devs ->
  let cap := bloom_bits (zlen paths) in
  exists out w0 w, writer_new sc (sink_new healthy) = (out, Some w0) /\ run Release snap w0 ops = Ret (w, map (fun _ => AOk) ops) /\
    ((exists w', step Release snap w (OpClose ord) = Ret (w', AUnit) /\ zlen (file_bytes w') <= size_bound sc (zlen (input ops)) /\ holds decomp (file_bytes w') (input ops)) <->
     zlen devs <= 256 /\ (forall s seed, In s paths -> In seed [5; 7; 11; 19; 31] -> ~ (path_hash s seed = - 2 ^ 31 /\ 2 ^ 31 mod cap <> 0)) /\ (cap mod 8 = 0 \/ 4 <= cap mod 8)).
Proof. exact session_file. Qed.
Print Assumptions C51_session_file.

(** ** With at most 41 series none of the three reasons can occur *)
Theorem C51_small_session : forall snap decomp sc ops ord, good_snap snap decomp -> schema_ok sc -> no_dots sc -> byte_names sc -> good_order ord -> series_count sc <= 41 ->
  Forall write_call ops -> Forall (point_storable sc) (input ops) -> in_order (input ops) -> size_bound sc (zlen (input ops)) < 2 ^ 32 ->
  exists out w0 w w', writer_new sc (sink_new healthy) = (out, Some w0) /\ run Release snap w0 (ops ++ [OpClose ord]) = Ret (w', map (fun _ => AOk) ops ++ [AUnit]) /\
    run Release snap w0 ops = Ret (w, map (fun _ => AOk) ops) /\ zlen (file_bytes w') <= size_bound sc (zlen (input ops)) /\ holds decomp (file_bytes w') (input ops).
Proof. exact small_session. Qed.
Print Assumptions C51_small_session.

(** ** Below 128 MiB of buffered data the file stays the 7-byte header until the close *)
Theorem C51_header_until_close : forall p snap decomp sc w h ops l, good_snap snap decomp -> schema_ok sc -> trace p snap sc w h ops l -> ops_ok ops -> no_close ops = true ->
  24 * zsum (map op_points ops) + 150 * series_count sc <= 2 ^ 27 -> file_bytes w = MAGIC ++ [3] /\ h_flushed h = [].
Proof. exact header_only. Qed.
Print Assumptions C51_header_until_close.

Example C51_case : good_snap ex_snap ex_snap /\ schema_ok ix_sc /\ no_dots ix_sc /\ small_devices ix_sc /\ byte_names ix_sc /\ good_order (fun l => l) /\ series_count ix_sc = 4 /\
  Forall write_call c51_ops /\ Forall (point_storable ix_sc) (input c51_ops) /\ in_order (input c51_ops) /\ zlen (input c51_ops) = 4 /\ size_bound ix_sc 4 = 2754 /\
  run Release ex_snap ix_start c51_ops = Ret (fst c51_run, [AOk; AOk; AOk]) /\ file_bytes (fst c51_run) = [84; 115; 70; 105; 108; 101; 3] /\ zlen c51_file = 448 /\
  24 * zsum (map op_points c51_ops) + 150 * series_count ix_sc = 696.
Proof.
  split; [exact ex_snap_good|]. split; [exact ix_sc_ok|]. split; [apply ix_names|]. split; [apply ix_names|]. split; [apply ix_names|]. split; [exact order_id|]. split; [reflexivity|].
  split. { repeat (apply Forall_cons; [split; [split; [vm_compute; split; discriminate|repeat (apply Forall_cons || apply Forall_nil); vm_compute; split; discriminate || reflexivity]|discriminate]|]). apply Forall_nil. }
  split. { unfold input, c51_ops. cbn [map concat op_list app fst snd].
    repeat (apply Forall_cons; [eexists; split; [unfold declares; cbn [pt_device pt_name]; eexists; split; [cbn; eauto|cbn; eauto]|reflexivity]|]). apply Forall_nil. }
  split. { apply in_order_keys. unfold input, c51_ops. cbn [map concat op_list app fst snd]. repeat (apply Forall_cons; [vm_compute; auto|]). apply Forall_nil. }
  vm_compute. repeat split; reflexivity.
Qed.
