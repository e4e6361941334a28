(** Properties C21 (the filter alone) and C22. [path_hash] (SMurmur.v) is canonical MurmurHash3 x64-128, checked
    there against published vectors; [bloom_read] (SReader.v) and [might_contain] (SBloom.v) are a reader. *)
From Verif Require Import PBloom.

(** ** C22 *)
Theorem C22_hash_is_murmur3 : forall s seed, Forall isbyte s -> zlen s < 2 ^ 31 -> 0 <= seed < 2 ^ 31 ->
  murmur_hash Release s seed = Ret (path_hash s seed).
Proof. exact murmur_spec. Qed.
Print Assumptions C22_hash_is_murmur3.
(** "root.d.s", seed 5: 8 bytes; and 19 bytes (one block and a tail) *)
Example C22_case : murmur_hash Release [114; 111; 111; 116; 46; 100; 46; 115] 5 = Ret (path_hash [114; 111; 111; 116; 46; 100; 46; 115] 5)
  /\ murmur_hash Release (map Z.of_nat (seq 97 19)) 31 = Ret (path_hash (map Z.of_nat (seq 97 19)) 31).
Proof. split; apply C22_hash_is_murmur3; try (unfold zlen; cbn; lia); try lia; repeat (apply Forall_cons; [unfold isbyte; cbn; lia|]); apply Forall_nil. Qed.
(** A build with overflow checks computes the same or panics ... *)
Theorem C22_any_build : forall p s seed r, Forall isbyte s -> zlen s < 2 ^ 31 -> 0 <= seed < 2 ^ 31 ->
  murmur_hash p s seed = Ret r -> r = path_hash s seed.
Proof. intros p s seed r F L S E. apply murmur_rel in E. rewrite murmur_spec in E by assumption. congruence. Qed.
Print Assumptions C22_any_build.
(** ... and it does panic on a path of ordinary length: "root.sg.device1.temp". *)
Theorem C22_debug_overflow_refuted : exists s, Forall isbyte s /\ zlen s < 2 ^ 31 /\ murmur_hash Debug s 5 = Panic POverflow.
Proof.
  exists [114; 111; 111; 116; 46; 115; 103; 46; 100; 101; 118; 105; 99; 101; 49; 46; 116; 101; 109; 112].
  split; [repeat (apply Forall_cons; [unfold isbyte; cbn; lia|]); apply Forall_nil|]. split; [unfold zlen; cbn; lia|vm_compute; reflexivity].
Qed.
Print Assumptions C22_debug_overflow_refuted.

(** ** C21, for the filter as a data structure: every list of paths, every filter size. Whenever building and
    serializing succeed, the reader gets the block back from the bytes and finds every path. *)
Theorem C21_filter_no_false_negatives : forall p paths b bw rest, Forall path_ok paths ->
  bloom_build p paths = Ret b -> bloom_serialize b = Ret bw ->
  exists blk, bloom_read (wbytes bw ++ rest) = Some (blk, rest) /\ bb_size blk = bloom_bits (zlen paths) /\ bb_count blk = 5 /\
    forall s, In s paths -> might_contain blk s = true.
Proof. exact filter_complete. Qed.
Print Assumptions C21_filter_no_false_negatives.
Example C21_filter_case : match bloom_build Release [[97; 46; 98]; [97; 46; 99]] with
  | Ret b => match bloom_serialize b with
             | Ret bw => match bloom_read (wbytes bw) with
                         | Some (blk, []) => map (might_contain blk) [[97; 46; 98]; [97; 46; 99]; [97; 46; 100]] = [true; true; false]
                         | _ => False end
             | _ => False end
  | _ => False end.
Proof. vm_compute. reflexivity. Qed.
(** When building and serializing succeed in a release build: exactly these two panics are possible. *)
Theorem C23_filter_panics : forall paths, Forall path_ok paths ->
  let cap := bloom_bits (zlen paths) in
  let bad := existsb (fun s => existsb (bad_hash cap s) hash_seeds) paths in
  (exists bw, (let* b := bloom_build Release paths in bloom_serialize b) = Ret bw) <-> bad = false /\ (cap mod 8 = 0 \/ 4 <= cap mod 8).
Proof. exact filter_panics. Qed.
Print Assumptions C23_filter_panics.
(** 44 paths: 275 bits, 3 modulo 8. *)
Theorem C23_44_paths : forall paths, Forall path_ok paths -> zlen paths = 44 ->
  (let* b := bloom_build Release paths in bloom_serialize b) = Panic PIndex.
Proof. exact filter_44. Qed.
Print Assumptions C23_44_paths.
Example C23_44_case : bloom_bits 44 = 275 /\ bits_fit 275 = false.
Proof. vm_compute. auto. Qed.
