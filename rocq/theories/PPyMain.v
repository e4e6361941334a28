(** The program in rust.py (C67). *)
From Verif Require Export PExample PPy SPyMain MPyMain.
Ltac Zify.zify_post_hook ::= idtac.

(** ** The same program with the writer alone *)
Definition py_sc : schema := [(pm_device, [(pm_name, mkMS INT32 PLAIN UNCOMPRESSED)])].
Definition py_op (i : Z) : list op := [OpWrite pm_device pm_name i (VInt i)].
Definition int_loop (p : profile) (snap : compressor) (n : nat) (i : Z) : writer -> outcome writer :=
  for_loop n i (fun i w => expect_ok (step p snap w (OpWrite pm_device pm_name i (VInt i)))).

(** ** The state inside the loop *)
Definition pm_buf1 : list Z := [100; 49; 0].
Definition pm_buf2 : list Z := [115; 49; 0].
Definition looping (f : ffi) (st : py) (w : writer) : Prop :=
  f_bufs f 1 = Some pm_buf1 /\ f_bufs f 2 = Some pm_buf2 /\
  (exists bs, f_writers f 2 = Some (mkFW pm_file bs w) /\ Forall (fun b => b = (1, pm_device) \/ b = (2, pm_name)) bs) /\
  (forall h, h <> 2 -> f_writers f h = None) /\ (forall h, h <> 1 -> f_schemas f h = None) /\ f_schemas f 1 <> None /\ f_files f = [] /\
  py_schemas st 0 = Some (mkPyS [(pm_name, 2); (pm_device, 1)] (Some 1)) /\ py_writers st 1 = Some (mkPyW 0 (Some 2)).
Lemma borrows_intact : forall f bs, f_bufs f 1 = Some pm_buf1 -> f_bufs f 2 = Some pm_buf2 ->
  Forall (fun b => b = (1, pm_device) \/ b = (2, pm_name)) bs -> intact (f_bufs f) bs = true.
Proof.
  intros f bs B1 B2 H. unfold intact. apply forallb_forall. intros b I. rewrite Forall_forall in H. destruct (H b I) as [->| ->]; cbn [fst snd].
  - rewrite B1. reflexivity.
  - rewrite B2. reflexivity.
Qed.
Lemma int_ok : forall i, 0 <= i < 2 ^ 31 -> c_int i = true.
Proof. intros i H. unfold c_int, in_span. apply andb_true_intro. split; apply Z.leb_le; lia. Qed.
Lemma write_plan : forall st i, 0 <= i < 2 ^ 31 -> py_schemas st 0 = Some (mkPyS [(pm_name, 2); (pm_device, 1)] (Some 1)) -> py_writers st 1 = Some (mkPyW 0 (Some 2)) ->
  py_plan st (PyWrite 1 pm_device pm_name i i) =
    ([FWriteInt32 2 1 2 i i], fun _ => set_schema st 0 (Some (mkPyS [(pm_name, 2); (pm_device, 1)] (Some 1))) (py_addr st), PyNone).
Proof.
  intros st i Hi S W. unfold py_plan. rewrite W, S. cbn [ps_refs ps_inst].
  change (holder_get pm_device (py_addr st) [(pm_name, 2); (pm_device, 1)]) with (Some (@nil fcall, py_addr st, [(pm_name, 2); (pm_device, 1)], 1)). cbv iota beta.
  change (holder_get pm_name (py_addr st) [(pm_name, 2); (pm_device, 1)]) with (Some (@nil fcall, py_addr st, [(pm_name, 2); (pm_device, 1)], 2)). cbv iota beta zeta.
  rewrite (int_ok i Hi). reflexivity.
Qed.
Lemma loop_step : forall p snap env f st w i, looping f st w -> 0 <= i < 2 ^ 31 ->
  match expect_ok (step p snap w (OpWrite pm_device pm_name i (VInt i))) with
  | Ret w' => exists f' st', py_call p snap env (PyWrite 1 pm_device pm_name i i) (f, st) = CVal (f', st', false) /\ looping f' st' w'
  | Panic _ => py_call p snap env (PyWrite 1 pm_device pm_name i i) (f, st) = CAbort
  end.
Proof.
  intros p snap env f st w i (B1 & B2 & (bs & FW & BS) & OW & OS & S1 & FF & PS & PW) Hi.
  assert (E : py_call p snap env (PyWrite 1 pm_device pm_name i i) (f, st) =
    let! r := (let! r := frun p snap env f [FWriteInt32 2 1 2 i i] in CVal (fst r, set_schema st 0 (Some (mkPyS [(pm_name, 2); (pm_device, 1)] (Some 1))) (py_addr st), PyNone)) in CVal (fst r, is_exc (snd r))).
  { unfold py_call, pystep. cbn [fst snd]. rewrite (write_plan st i Hi PS PW). reflexivity. }
  rewrite E. clear E. cbn [frun fstep]. unfold ffi_write_int32. change (2 =? 0) with false. cbv iota. unfold c_str. change (1 =? 0) with false. change (2 =? 0) with false. cbv iota.
  rewrite B1, B2. change (until_nul pm_buf1) with (Some pm_device). change (until_nul pm_buf2) with (Some pm_name). cbv iota. cbn [cbind].
  rewrite FW. cbn [fw_borrows fw_writer fw_file]. rewrite (borrows_intact f bs B1 B2 BS). cbn [negb]. cbv iota.
  change (to_str pm_device) with (CVal pm_device). change (to_str pm_name) with (CVal pm_name). cbn [cbind].
  cbn [step]. destruct (writer_write p snap pm_device pm_name i (VInt i) w) as [[w' a]|pc] eqn:WW; [|reflexivity].
  cbn [of_outcome cbind fst snd expect_ok bind]. destruct (write_answer _ _ _ _ _ _ _ _ _ WW) as [->|[e ->]]; [|reflexivity].
  cbn [cbind fst snd is_exc]. eexists _, _. split; [reflexivity|].
  unfold looping. cbn [f_bufs f_schemas f_writers f_files py_schemas py_writers set_schema].
  split; [exact B1|]. split; [exact B2|]. split.
  { eexists. split; [reflexivity|]. destruct (keeps_name w pm_device pm_name); [constructor; [right; reflexivity|exact BS]|exact BS]. }
  split; [intros h Hh; unfold upd; destruct (Z.eqb_spec h 2); [contradiction|apply OW; exact Hh]|].
  split; [exact OS|]. split; [exact S1|]. split; [exact FF|]. split; [reflexivity|exact PW].
Qed.
Lemma loop_over : forall p snap env f st w, looping f st w ->
  exists st', py_call p snap env (PyWrite 1 pm_device pm_name (2 ^ 31) (2 ^ 31)) (f, st) = CVal (f, st', true) /\ looping f st' w.
Proof.
  intros p snap env f st w (B1 & B2 & BW & OW & OS & S1 & FF & PS & PW).
  exists (set_schema st 0 (Some (mkPyS [(pm_name, 2); (pm_device, 1)] (Some 1))) (py_addr st)). split.
  - unfold py_call, pystep. cbn [fst snd]. unfold py_plan. rewrite PW, PS. cbn [ps_refs ps_inst].
    change (holder_get pm_device (py_addr st) [(pm_name, 2); (pm_device, 1)]) with (Some (@nil fcall, py_addr st, [(pm_name, 2); (pm_device, 1)], 1)). cbv iota beta.
    change (holder_get pm_name (py_addr st) [(pm_name, 2); (pm_device, 1)]) with (Some (@nil fcall, py_addr st, [(pm_name, 2); (pm_device, 1)], 2)). cbv iota beta zeta.
    change (c_int (2 ^ 31)) with false. reflexivity.
  - unfold looping. cbn [py_schemas py_writers set_schema]. split; [exact B1|]. split; [exact B2|]. split; [exact BW|]. split; [exact OW|]. split; [exact OS|]. split; [exact S1|].
    split; [exact FF|]. split; [reflexivity|exact PW].
Qed.
Lemma loop_run : forall p snap env n i f st w, looping f st w -> 0 <= i <= 2 ^ 31 ->
  match int_loop p snap (Z.to_nat (Z.min (Z.of_nat n) (2 ^ 31 - i))) i w with
  | Ret w' => exists f' st', py_for n i (fun i => py_call p snap env (PyWrite 1 pm_device pm_name i i)) (f, st) = CVal (f', st', 2 ^ 31 - i <? Z.of_nat n) /\ looping f' st' w'
  | Panic _ => py_for n i (fun i => py_call p snap env (PyWrite 1 pm_device pm_name i i)) (f, st) = CAbort
  end.
Proof.
  intros p snap env. unfold int_loop. induction n as [|n IH]; intros i f st w L Hi.
  - replace (Z.min (Z.of_nat 0) (2 ^ 31 - i)) with 0 by lia. change (Z.to_nat 0) with 0%nat. cbn [for_loop py_for]. exists f, st. split; [|exact L].
    destruct (Z.ltb_spec (2 ^ 31 - i) (Z.of_nat 0)); [lia|reflexivity].
  - destruct (Z.eq_dec i (2 ^ 31)) as [->|Ni].
    + replace (Z.min (Z.of_nat (S n)) (2 ^ 31 - 2 ^ 31)) with 0 by lia. change (Z.to_nat 0) with 0%nat. cbn [for_loop].
      destruct (loop_over p snap env f st w L) as (st' & E & L'). exists f, st'. split; [|exact L'].
      cbn [py_for]. rewrite E. cbn [cbind snd fst]. destruct (Z.ltb_spec (2 ^ 31 - 2 ^ 31) (Z.of_nat (S n))); [reflexivity|lia].
    + replace (Z.to_nat (Z.min (Z.of_nat (S n)) (2 ^ 31 - i))) with (S (Z.to_nat (Z.min (Z.of_nat n) (2 ^ 31 - (i + 1))))) by lia. cbn [for_loop py_for].
      replace (2 ^ 31 - i <? Z.of_nat (S n)) with (2 ^ 31 - (i + 1) <? Z.of_nat n) by (destruct (Z.ltb_spec (2 ^ 31 - i) (Z.of_nat (S n))), (Z.ltb_spec (2 ^ 31 - (i + 1)) (Z.of_nat n)); lia).
      pose proof (loop_step p snap env f st w i L ltac:(lia)) as S. destruct (expect_ok (step p snap w (OpWrite pm_device pm_name i (VInt i)))) as [w'|]; cbn [bind].
      * destruct S as (f' & st' & E & L'). rewrite E. cbn [cbind snd fst]. apply IH; [exact L'|lia].
      * rewrite S. reflexivity.
Qed.

(** ** Begin and end *)
Definition pm_start (f : ffi) (st : py) : Prop :=
  f = mkFfi (upd 2 (Some pm_buf2) (upd 1 (Some pm_buf1) (fun _ => None))) (upd 1 (Some (mkFS py_sc [(1, pm_device); (2, pm_name)])) (fun _ => None)) (fun _ => None) [] 2 /\
  st = mkPy (upd 0 (Some (mkPyS [(pm_name, 2); (pm_device, 1)] (Some 1))) (fun _ => None)) (fun _ => None) 1 3.
Lemma schema_made : forall p snap env, exists f st, pystep p snap env (ffi_new, py_new) (PySchema pm_device pm_name 1 0 0) = CVal (f, st, PyObj 0) /\ pm_start f st.
Proof. intros p snap env. eexists _, _. split; [reflexivity|]. split; reflexivity. Qed.
Lemma writer_made : forall p snap env f st, pm_start f st ->
  match e_parent env pm_file, e_create env pm_file, snd (writer_new py_sc (sink_new (e_sched env pm_file))) with
  | true, true, Some w => exists f' st', pystep p snap env (f, st) (PyWriter pm_file 0) = CVal (f', st', PyObj 1) /\ looping f' st' w
  | _, _, _ => pystep p snap env (f, st) (PyWriter pm_file 0) = CAbort
  end.
Proof.
  intros p snap env f st [-> ->].
  assert (P : py_plan (mkPy (upd 0 (Some (mkPyS [(pm_name, 2); (pm_device, 1)] (Some 1))) (fun _ => None)) (fun _ => None) 1 3) (PyWriter pm_file 0) =
    ([CBuf 3 (pm_file ++ [0]); FWriterNew 3 1; CFree 3],
     fun rets => mkPy (upd 0 (Some (mkPyS [(pm_name, 2); (pm_device, 1)] (Some 1))) (fun _ => None)) (upd 1 (Some (mkPyW 0 (Some (nth 1 rets 0)))) (fun _ => None)) 2 4, PyObj 1)) by reflexivity.
  unfold pystep. cbn [fst snd]. rewrite P. clear P. cbn [frun fstep cbind fst snd]. unfold ffi_writer_new. cbn [f_bufs f_schemas f_writers f_files f_next].
  change (c_str _ 3) with (CVal pm_file). cbn [cbind]. change (upd 1 (Some (mkFS py_sc [(1, pm_device); (2, pm_name)])) (fun _ => None) 1) with (Some (mkFS py_sc [(1, pm_device); (2, pm_name)])). cbv iota.
  cbn [fs_borrows fs_schema]. change (intact _ _) with true. cbn [negb]. cbv iota. change (to_str pm_file) with (CVal pm_file). cbn [cbind]. unfold file_new.
  destruct (e_parent env pm_file); cbn [negb]; [|reflexivity]. destruct (e_create env pm_file); cbn [negb]; [|reflexivity]. cbn [of_outcome cbind].
  destruct (snd (writer_new py_sc (sink_new (e_sched env pm_file)))) as [w|]; cbn [expect cbind]; [|reflexivity].
  eexists _, _. split; [reflexivity|]. unfold looping. cbn [f_bufs f_schemas f_writers f_files py_schemas py_writers fst snd nth].
  split; [reflexivity|]. split; [reflexivity|]. split; [eexists; split; [reflexivity|]; constructor; [left; reflexivity|constructor; [right; reflexivity|constructor]]|].
  split; [intros h Hh; unfold upd; destruct (Z.eqb_spec h 2); [contradiction|reflexivity]|].
  split; [intros h Hh; unfold upd; destruct (Z.eqb_spec h 1); [contradiction|reflexivity]|].
  split; [discriminate|]. split; [reflexivity|]. split; reflexivity.
Qed.
Lemma program_end : forall p snap env f st w, looping f st w ->
  match step p snap w (OpClose (e_order env)) with
  | Ret (w', _) => exists f1 st1 f2 st2, py_call p snap env (PyClose 1) (f, st) = CVal (f1, st1, false) /\ py_call p snap env (PyFree 0) (f1, st1) = CVal (f2, st2, false) /\
      f_files f2 = [(2, (pm_file, file_bytes w'))] /\ no_boxes f2
  | Panic _ => py_call p snap env (PyClose 1) (f, st) = CAbort
  end.
Proof.
  intros p snap env f st w (B1 & B2 & (bs & FW & BS) & OW & OS & S1 & FF & PS & PW).
  assert (E : py_call p snap env (PyClose 1) (f, st) =
    let! r := (let! r := frun p snap env f [FClose 2] in CVal (fst r, set_writer st 1 (Some (mkPyW 0 None)), PyNone)) in CVal (fst r, is_exc (snd r))).
  { unfold py_call, pystep. cbn [fst snd]. unfold py_plan. rewrite PW. reflexivity. }
  rewrite E. clear E. cbn [frun fstep]. unfold ffi_close. change (2 =? 0) with false. cbv iota. rewrite FW. cbn [fw_borrows fw_writer fw_file].
  rewrite (borrows_intact f bs B1 B2 BS). cbn [negb]. cbv iota. cbn [step].
  destruct (writer_close p snap (e_order env) w) as [[w' a]|pc]; [|reflexivity]. cbn [of_outcome cbind fst snd is_exc].
  eexists _, _, _, _. split; [reflexivity|].
  destruct (f_schemas f 1) as [s|] eqn:S; [|contradiction S1; reflexivity].
  split; [|split].
  - unfold py_call, pystep. cbn [fst snd]. unfold py_plan. cbn [py_schemas set_writer]. rewrite PS. cbn [frun fstep]. unfold ffi_schema_free.
    change (1 =? 0) with false. cbv iota. cbn [f_schemas]. rewrite S. cbn [cbind fst snd is_exc]. reflexivity.
  - cbn [f_files]. rewrite FF. reflexivity.
  - intros h. cbn [f_schemas f_writers]. unfold upd. split; [destruct (Z.eqb_spec h 1); [reflexivity|apply OS; assumption]|destruct (Z.eqb_spec h 2); [reflexivity|apply OW; assumption]].
Qed.

(** ** The whole program *)
Theorem main_is : forall p snap env n, 0 <= n ->
  match e_parent env pm_file, e_create env pm_file, snd (writer_new py_sc (sink_new (e_sched env pm_file))) with
  | true, true, Some w =>
      match (let* w1 := int_loop p snap (Z.to_nat (Z.min n (2 ^ 31))) 0 w in step p snap w1 (OpClose (e_order env))) with
      | Ret (w', _) => exists f st, py_main p snap env n = CVal (f, st, 2 ^ 31 <? n) /\ f_files f = [(2, (pm_file, file_bytes w'))] /\ no_boxes f
      | Panic _ => py_main p snap env n = CAbort
      end
  | _, _, _ => py_main p snap env n = CAbort
  end.
Proof.
  intros p snap env n Hn. unfold py_main, py_with. destruct (schema_made p snap env) as (f0 & st0 & E0 & S0). rewrite E0. cbn [cbind fst snd]. clear E0.
  pose proof (writer_made p snap env f0 st0 S0) as M. destruct (e_parent env pm_file); [|rewrite M; reflexivity].
  destruct (e_create env pm_file); [|rewrite M; reflexivity].
  destruct (snd (writer_new py_sc (sink_new (e_sched env pm_file)))) as [w|]; [|rewrite M; reflexivity].
  destruct M as (f1 & st1 & E1 & L1). rewrite E1. cbn [cbind fst snd]. clear E1 S0.
  pose proof (loop_run p snap env (Z.to_nat n) 0 f1 st1 w L1 ltac:(lia)) as R. rewrite Z2Nat.id, Z.sub_0_r in R by lia.
  destruct (int_loop p snap (Z.to_nat (Z.min n (2 ^ 31))) 0 w) as [w1|]; [|cbn [bind]; rewrite R; reflexivity].
  destruct R as (f2 & st2 & E2 & L2). rewrite E2. cbn [cbind fst snd bind]. clear E2 L1.
  pose proof (program_end p snap env f2 st2 w1 L2) as T. destruct (step p snap w1 (OpClose (e_order env))) as [[w' a]|].
  - destruct T as (f3 & st3 & f4 & st4 & E3 & E4 & FF & NB). rewrite E3. cbn [cbind fst snd orb]. rewrite E4. cbn [cbind fst snd]. rewrite !orb_false_r. eauto.
  - rewrite T. reflexivity.
Qed.

Theorem main_defined : forall p snap env n, 0 <= n -> py_main p snap env n <> CUndef.
Proof.
  intros p snap env n Hn. pose proof (main_is p snap env n Hn) as M.
  destruct (e_parent env pm_file), (e_create env pm_file), (snd (writer_new py_sc (sink_new (e_sched env pm_file)))); try (rewrite M; discriminate).
  destruct (let* w1 := _ in _) as [[w' a]|]; [destruct M as (f & st & E & _); rewrite E; discriminate|rewrite M; discriminate].
Qed.
Theorem main_status : forall p snap env n f st e, 0 <= n -> py_main p snap env n = CVal (f, st, e) ->
  (e = true <-> 2 ^ 31 < n) /\ no_boxes f /\ exists h file, f_files f = [(h, (pm_file, file))].
Proof.
  intros p snap env n f st e Hn E. pose proof (main_is p snap env n Hn) as M. rewrite E in M.
  destruct (e_parent env pm_file), (e_create env pm_file), (snd (writer_new py_sc (sink_new (e_sched env pm_file)))); try discriminate M.
  destruct (let* w1 := _ in _) as [[w' a]|]; [|discriminate M]. destruct M as (f' & st' & E' & FF & NB). injection E' as <- <- ->.
  split; [apply Z.ltb_lt|]. split; [exact NB|]. eauto.
Qed.
Theorem main_no_file : forall p snap env n, 0 <= n -> e_parent env pm_file = false \/ e_create env pm_file = false \/ snd (writer_new py_sc (sink_new (e_sched env pm_file))) = None ->
  py_main p snap env n = CAbort.
Proof.
  intros p snap env n Hn H. pose proof (main_is p snap env n Hn) as M.
  destruct (e_parent env pm_file), (e_create env pm_file), (snd (writer_new py_sc (sink_new (e_sched env pm_file)))); try exact M; destruct H as [H|[H|H]]; discriminate.
Qed.

(** ** What the file holds *)
Lemma py_sc_facts : schema_ok py_sc /\ no_dots py_sc /\ byte_names py_sc /\ series_count py_sc <= 41.
Proof.
  assert (D : forall d m ms, declares py_sc d m ms -> d = pm_device /\ m = pm_name).
  { intros d m ms (g & [E|[]] & I). inversion E; subst. destruct I as [I|[]]. inversion I; subst. auto. }
  split; [|split; [|split]].
  - split; repeat constructor; cbn; tauto.
  - intros d m ms H I. apply D in H. destruct H as [_ ->]. destruct I as [I|[I|[]]]; discriminate.
  - intros d m ms H. apply D in H. destruct H as [-> ->]. repeat constructor; lia.
  - vm_compute. discriminate.
Qed.
Lemma py_sc_builds : all_plain py_sc /\ hashes_fine py_sc.
Proof.
  split; intros d m ms (g & [E|[]] & I); inversion E; subst; destruct I as [I|[]]; inversion I; subst; [reflexivity|vm_compute; reflexivity].
Qed.
Lemma py_input : forall n, input (flat_map py_op (zrange 0 (Z.to_nat n))) = python_points pm_device pm_name n.
Proof.
  intros n. rewrite input_flat. unfold python_points, of_series. rewrite map_map. cbn [fst snd]. rewrite <- flat_map_single. reflexivity.
Qed.
Lemma py_bound : forall n, 0 <= n -> 24 * n <= size_bound py_sc n.
Proof.
  intros n H. unfold size_bound. assert (0 <= most_flushes py_sc n).
  { unfold most_flushes. assert (0 <= 24 * n / (2 ^ 27 - 150 * series_count py_sc)); [|lia]. apply Z.div_pos; [lia|vm_compute; reflexivity]. }
  assert (0 <= per_flush py_sc) by (vm_compute; discriminate). assert (0 <= per_file py_sc) by (vm_compute; discriminate). nia.
Qed.
Theorem main_file : forall snap decomp env n, good_snap snap decomp -> e_parent env pm_file = true -> e_create env pm_file = true -> e_sched env pm_file = healthy ->
  good_order (e_order env) -> 0 <= n -> size_bound py_sc n < 2 ^ 32 ->
  exists file, (forall p, exists f st h, py_main p snap env n = CVal (f, st, false) /\ f_files f = [(h, (pm_file, file))] /\ no_boxes f) /\
    zlen file <= size_bound py_sc n /\ holds decomp file (python_points pm_device pm_name n).
Proof.
  intros snap decomp env n HG EP EC ES GO Hn B. destruct py_sc_facts as (F1 & F2 & F3 & F4). destruct py_sc_builds as [F5 F6]. pose proof (py_bound n Hn).
  assert (L : zlen (python_points pm_device pm_name n) = n). { unfold python_points, of_series. unfold zlen. rewrite !map_length. fold (zlen (zrange 0 (Z.to_nat n))). rewrite zrange_len. lia. }
  destruct (small_both snap decomp py_sc (flat_map py_op (zrange 0 (Z.to_nat n))) (e_order env) HG F1 F2 F3 GO F4) as (out & w0 & w & w' & N & R & R1 & S & Hd).
  - apply Forall_flat. intros i I. apply zrange_in in I. apply Forall_cons; [|apply Forall_nil]. split; [|discriminate]. cbn. unfold i64_min, i64_max. lia.
  - rewrite py_input. unfold python_points, of_series. rewrite map_map. apply Forall_map. apply Forall_forall. intros i _. exists (mkMS INT32 PLAIN UNCOMPRESSED). split; [|reflexivity].
    eexists. split; [left; reflexivity|left; reflexivity].
  - rewrite py_input. apply in_order_keys. apply Forall_forall. intros q Q. unfold python_points, of_series in Q. apply in_map_iff in Q. destruct Q as (tv & <- & _). cbn [pt_device pt_name].
    rewrite <- py_input, input_flat, series_of_flat. change (fun i => series_of pm_device pm_name (input (py_op i))) with (fun i => [(i, VInt i)]).
    rewrite flat_map_single, map_map. cbn [fst]. rewrite map_id. apply zrange_increasing. lia.
  - rewrite py_input, L. exact B.
  - exact F5.
  - exact F6.
  - rewrite py_input, L in *. exists (file_bytes w'). split; [|auto]. intros p. specialize (R p). specialize (R1 p). pose proof (main_is p snap env n Hn) as M. rewrite EP, EC, ES, N in M. cbn [snd] in M.
    replace (Z.min n (2 ^ 31)) with n in M by lia. unfold int_loop in M.
    rewrite (for_expect p snap py_op _) with (w' := w) in M; [|intros i x x' X; apply one_op in X; rewrite X; reflexivity|exact R1]. cbn [bind] in M.
    rewrite run_snoc, R1 in R. cbn [bind fst snd] in R. destruct (step p snap w (OpClose (e_order env))) as [[x a]|]; [|discriminate]. cbn [bind fst snd] in *. rinj R.
    destruct M as (f & st & E & FF & NB). destruct (Z.ltb_spec (2 ^ 31) n); [lia|]. exists f, st, 2. auto.
Qed.
Theorem main_shipped : forall snap decomp env, good_snap snap decomp -> e_parent env pm_file = true -> e_create env pm_file = true -> e_sched env pm_file = healthy ->
  good_order (e_order env) ->
  exists file, (forall p, exists f st h, py_main p snap env 10000001 = CVal (f, st, false) /\ f_files f = [(h, (pm_file, file))] /\ no_boxes f) /\
    zlen file <= 240000000 + 2000 /\ holds decomp file (python_points pm_device pm_name 10000001).
Proof.
  intros snap decomp env HG EP EC ES GO. assert (B : size_bound py_sc 10000001 <= 240000000 + 2000) by (vm_compute; discriminate).
  destruct (main_file snap decomp env 10000001 HG EP EC ES GO ltac:(lia)) as (file & R & S & H); [lia|]. exists file.
  split; [exact R|]. split; [lia|exact H].
Qed.
