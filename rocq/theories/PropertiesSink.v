(** C32, C33, C34: what reaches the disk under faults. The sink's schedule is arbitrary: it decides
    for every single write call whether all, some or none of the bytes are taken. *)
From Verif Require Import PCrash.

Local Definition sc1 : schema := [([100], [([115], mkMS INT32 PLAIN UNCOMPRESSED)])].
Local Definition ops1 : list op := [OpWrite [100] [115] 1 (VInt 7); OpClose (fun l => l); OpClose (fun l => l)].
Local Definition start (sched : nat -> fault) : writer :=
  match snd (writer_new sc1 (sink_new sched)) with Some w => w | None => mkW (mkIO (sink_new sched) None [] None [] []) [] 0 0 [] end.
Local Definition bytes_after (sched : nat -> fault) (ops : list op) : list byte * list answer :=
  match run Release (fun _ => None) (start sched) ops with Ret (w, l) => (file_bytes w, l) | Panic _ => ([], []) end.
(** writes of one or two bytes at a time, and a failing 10th call *)
Local Definition flaky : nat -> fault := fun n => if (n =? 9)%nat then FFail else FShort (1 + n mod 2).

(** C32. Every call only appends, for every schedule. *)
Theorem C32_append_only : forall p snap w o w' a, step p snap w o = Ret (w', a) ->
  exists tail, file_bytes w' = file_bytes w ++ tail.
Proof. intros p snap w o w' a H. apply step_app in H. destruct H as [l [H _ _]]. exists l. exact H. Qed.
Print Assumptions C32_append_only.
Theorem C32_history_append_only : forall p snap w ops w' l, run p snap w ops = Ret (w', l) ->
  exists tail, file_bytes w' = file_bytes w ++ tail.
Proof. exact run_data. Qed.
Print Assumptions C32_history_append_only.
(** A crash (or a disk that stops working) at any write call [k] leaves a prefix of the file the same
    history delivers without the crash. *)
Theorem C32_crash_prefix : forall p snap sc sched k oa wa ob wb ops wa' la wb' lb,
  writer_new sc (sink_new sched) = (oa, Some wa) -> writer_new sc (sink_new (crash_at k sched)) = (ob, Some wb) ->
  run p snap wa ops = Ret (wa', la) -> run p snap wb ops = Ret (wb', lb) ->
  exists t, file_bytes wa' = file_bytes wb' ++ t.
Proof. exact crash_prefix. Qed.
Print Assumptions C32_crash_prefix.
Example C32_case :
  bytes_after (crash_at 9 healthy) ops1 =
    (firstn 14 (fst (bytes_after healthy ops1)), [AOk; AUnit; AUnit]) /\
  zlen (fst (bytes_after healthy ops1)) = 371.
Proof. vm_compute. auto. Qed.

(** C33. *)
Theorem C33_position : forall p snap sc sched out w ops w' l, writer_new sc (sink_new sched) = (out, Some w) ->
  run p snap w ops = Ret (w', l) -> sk_pos (io_out (w_io w')) = zlen (file_bytes w').
Proof. exact run_pos. Qed.
Print Assumptions C33_position.
Example C33_case :
  match run Release (fun _ => None) (start flaky) ops1 with
  | Ret (w, _) => sk_pos (io_out (w_io w)) = 95 /\ zlen (file_bytes w) = 95 | Panic _ => False end.
Proof. vm_compute. auto. Qed.

(** C34. Creation succeeds exactly if the whole header was delivered. *)
Theorem C34_create : forall sc sched out' r, writer_new sc (sink_new sched) = (out', r) ->
  (r <> None <-> sk_data out' = [84; 115; 70; 105; 108; 101; 3]).
Proof. exact create_iff. Qed.
Print Assumptions C34_create.
(** No later call ever answers with an I/O error. *)
Theorem C34_never_reported : forall p snap w o w' e, step p snap w o = Ret (w', AErr e) ->
  e = EOutOfOrderData \/ exists x, e = EIllegalState x.
Proof. exact step_err. Qed.
Print Assumptions C34_never_reported.
(** On a disk that fails right after the header no history ever gets anything else into the file. *)
Theorem C34_dead_disk : forall p snap sc ops w' l out w, writer_new sc (sink_new (dead_after 2)) = (out, Some w) ->
  run p snap w ops = Ret (w', l) -> file_bytes w' = [84; 115; 70; 105; 108; 101; 3].
Proof. exact dead_disk_header. Qed.
Print Assumptions C34_dead_disk.
(** ... although every call may report success. *)
Theorem C34_no_loss_without_error_refuted : exists sched ops w, snd (writer_new sc1 (sink_new sched)) = Some w /\
  exists w', run Release (fun _ => None) w ops = Ret (w', [AOk; AOk; AUnit]) /\ file_bytes w' = [84; 115; 70; 105; 108; 101; 3].
Proof.
  exists (dead_after 2), [OpWrite [100] [115] 1 (VInt 7); OpWriteMany [100] 2 [([115], VInt 8)]; OpClose (fun l => l)], (start (dead_after 2)).
  split; [vm_compute; reflexivity|]. vm_compute. eexists. split; reflexivity.
Qed.
Print Assumptions C34_no_loss_without_error_refuted.
Example C34_case :
  snd (writer_new sc1 (sink_new (dead_after 2))) <> None /\ snd (writer_new sc1 (sink_new (dead_after 1))) = None /\
  snd (writer_new sc1 (sink_new flaky)) <> None.
Proof. vm_compute. repeat split; discriminate. Qed.
