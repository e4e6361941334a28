(** C70: what the iteration order of the hash map can change in a file. *)
From Verif Require Import POrder PropertiesWriter PropertiesIndex.
Open Scope list_scope. Open Scope Z_scope.

(** Two sessions with the same calls, whatever the schema, the compressor, the build and the iteration orders of the
    closes, on a healthy disk: both panic, for the same reason, or neither does; then the answers are the same, and the
    files are alike: they differ only in the order of the devices in the indexes, one per close. *)
Theorem C70_order : forall p snap sc out w0 ops1 ops2, writer_new sc (sink_new healthy) = (out, Some w0) -> Forall2 same_call ops1 ops2 ->
  (forall e, run p snap w0 ops1 = Panic e <-> run p snap w0 ops2 = Panic e) /\
  (forall w1 l1, run p snap w0 ops1 = Ret (w1, l1) -> exists w2, run p snap w0 ops2 = Ret (w2, l1) /\
     alike (close_count ops1) (file_bytes w1) (file_bytes w2) /\ zlen (file_bytes w1) = zlen (file_bytes w2)).
Proof. exact orders_only. Qed.
Print Assumptions C70_order.
(** Files that are alike without an index are the same. *)
Theorem C70_alike : forall a b, alike 0 a b <-> a = b.
Proof. intros a b. split; [apply alike_none|]. intros <-. apply alike_refl. Qed.
Print Assumptions C70_alike.

(** "d.a" and "e.bbbb": their nodes have different lengths. *)
Definition od_sc : schema := [([100], [([97], mkMS INT32 PLAIN UNCOMPRESSED)]); ([101], [([98; 98; 98; 98], mkMS INT32 PLAIN UNCOMPRESSED)])].
Definition od_start (sched : nat -> fault) : writer := match writer_new od_sc (sink_new sched) with (_, Some w) => w | (o, None) => mkW (mkIO o None [] None [] []) [] 0 0 [] end.
Definition od_ops (ord : hash_order) : list op :=
  [OpWrite [100] [97] 5 (VInt 7); OpWrite [101] [98; 98; 98; 98] 6 (VInt 8); OpClose ord; OpWrite [100] [97] 9 (VInt 7); OpClose ord].
Example C70_case : (exists out, writer_new od_sc (sink_new healthy) = (out, Some (od_start healthy))) /\
  Forall2 same_call (od_ops (fun l => l)) (od_ops (@rev _)) /\ close_count (od_ops (@rev _)) = 2%nat /\
  (exists w, run Debug ex_snap (od_start healthy) (od_ops (fun l => l)) = Ret (w, [AOk; AOk; AUnit; AOk; AUnit])).
Proof.
  split; [eexists; vm_compute; reflexivity|]. split; [|split; [reflexivity|eexists; vm_compute; reflexivity]].
  repeat constructor; intros l; try apply Permutation_refl; apply Permutation_sym, Permutation_rev.
Qed.
(** "The order changes nothing" is false. *)
Theorem C70_same_refuted : exists w1 w2 l, run Release ex_snap (od_start healthy) (od_ops (fun l => l)) = Ret (w1, l) /\
  run Release ex_snap (od_start healthy) (od_ops (@rev _)) = Ret (w2, l) /\ file_bytes w1 <> file_bytes w2.
Proof. eexists _, _, _. split; [vm_compute; reflexivity|]. split; [vm_compute; reflexivity|]. vm_compute. discriminate. Qed.
Print Assumptions C70_same_refuted.
(** On a disk that fails once, even the length of the file depends on the order. *)
Theorem C70_disk_refuted : exists sched w1 w2 l, run Release ex_snap (od_start sched) (od_ops (fun l => l)) = Ret (w1, l) /\
  run Release ex_snap (od_start sched) (od_ops (@rev _)) = Ret (w2, l) /\ zlen (file_bytes w1) <> zlen (file_bytes w2).
Proof.
  exists (fun j => if (j =? 54)%nat then FFail else FFull). eexists _, _, _. split; [vm_compute; reflexivity|]. split; [vm_compute; reflexivity|]. vm_compute. discriminate.
Qed.
Print Assumptions C70_disk_refuted.
