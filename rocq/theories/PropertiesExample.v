(** Property C52: the programs shipped with the library, run on a healthy sink, in either build. The files of the
    two benchmarks, the same in both builds, hold exactly the numbers they count through; the quickstart never closes its writer. *)
From Verif Require Import PropertiesWriter PropertiesIndex PExample.
Open Scope list_scope. Open Scope Z_scope.

(** ** benchmark.rs with any number of rounds that fits the offsets of the format *)
Theorem C52_benchmark : forall snap decomp ord n, good_snap snap decomp -> good_order ord -> 0 <= n -> size_bound bench_sc n < 2 ^ 32 ->
  exists file, (forall p, benchmark p snap healthy ord n = Ret file) /\ zlen file <= size_bound bench_sc n /\ holds decomp file (benchmark_points s_d1 s_s n).
Proof. exact benchmark_file. Qed.
Print Assumptions C52_benchmark.

(** ** ... in particular with the number in the source *)
Theorem C52_benchmark_as_shipped : forall snap decomp ord, good_snap snap decomp -> good_order ord ->
  exists file, (forall p, benchmark p snap healthy ord 100000001 = Ret file) /\ zlen file <= 2400008608 /\ holds decomp file (benchmark_points s_d1 s_s 100000001).
Proof. exact benchmark_shipped. Qed.
Print Assumptions C52_benchmark_as_shipped.

(** ** benchmark2.rs, as long as every [i as f32] is exact *)
Theorem C52_benchmark2 : forall snap decomp ord n, good_snap snap decomp -> good_order ord -> 0 <= n <= 2 ^ 24 ->
  exists file, (forall p, benchmark2 p snap healthy ord n = Ret file) /\ zlen file <= size_bound (bench2_sc SNAPPY) (4 * n) /\
    holds decomp file (benchmark2_points s_d1 s_d2 s_s1 s_s2 n).
Proof. exact benchmark2_file. Qed.
Print Assumptions C52_benchmark2.
Theorem C52_benchmark2_as_shipped : forall snap decomp ord, good_snap snap decomp -> good_order ord ->
  exists file, (forall p, benchmark2 p snap healthy ord 10000001 = Ret file) /\ zlen file <= 960015608 /\ holds decomp file (benchmark2_points s_d1 s_d2 s_s1 s_s2 10000001).
Proof. exact benchmark2_shipped. Qed.
Print Assumptions C52_benchmark2_as_shipped.
(** the conversion is exact below 2^24 and not at 2^24 + 1 *)
Theorem C52_exact_floats : forall i, 0 <= i < 2 ^ 24 -> f32_as i = f32_of_small i.
Proof. exact f32_as_exact. Qed.
Print Assumptions C52_exact_floats.
Theorem C52_exact_floats_refuted : exists i, i = 2 ^ 24 + 1 /\ f32_as i = f32_as (i - 1).
Proof. exists (2 ^ 24 + 1). split; vm_compute; reflexivity. Qed.
Print Assumptions C52_exact_floats_refuted.

(** ** The quickstart: every call answers [Ok], the file is the bare header, from which no reader gets
    anything; with a close it would hold the four points *)
Theorem C52_quickstart_stores_nothing : forall p snap, quickstart p snap healthy = Ret (MAGIC ++ [3], [AOk; AOk; AOk]).
Proof. exact quickstart_result. Qed.
Print Assumptions C52_quickstart_stores_nothing.
Theorem C52_header_unreadable : forall decomp pts, ~ holds decomp (MAGIC ++ [3]) pts.
Proof. exact header_holds_nothing. Qed.
Print Assumptions C52_header_unreadable.
Theorem C52_quickstart_with_close : forall snap decomp ord, good_snap snap decomp -> good_order ord ->
  exists out w0 w w', writer_new (bench2_sc UNCOMPRESSED) (sink_new healthy) = (out, Some w0) /\ (forall p, run p snap w0 quickstart_ops = Ret (w, [AOk; AOk; AOk]) /\
    step p snap w (OpClose ord) = Ret (w', AUnit)) /\ holds decomp (file_bytes w') (quickstart_points s_d1 s_d2 s_s1 s_s2).
Proof. exact quickstart_closed. Qed.
Print Assumptions C52_quickstart_with_close.

Example C52_case : good_snap ex_snap ex_snap /\ good_order (fun l => l) /\ size_bound bench_sc 3 = 819 /\
  benchmark_points s_d1 s_s 3 = [mkPoint s_d1 s_s 0 (VLong 0); mkPoint s_d1 s_s 1 (VLong 1); mkPoint s_d1 s_s 2 (VLong 2)] /\
  match benchmark Release ex_snap healthy (fun l => l) 3 with
  | Ret file => zlen file = 235 /\ option_map (fun cs => SReader.series_in cs s_d1 s_s) (read_file ex_snap file) = Some [(0, 0); (1, 1); (2, 2)]
  | Panic _ => False
  end /\
  match benchmark2 Release ex_snap healthy (fun l => l) 2 with
  | Ret file => option_map (fun cs => (SReader.series_in cs s_d1 s_s1, SReader.series_in cs s_d2 s_s2)) (read_file ex_snap file) = Some ([(0, 0); (1, 1)], [(0, 0); (1, 0x3F800000)])
  | Panic _ => False
  end.
Proof. split; [exact ex_snap_good|]. split; [exact order_id|]. vm_compute. repeat split; reflexivity. Qed.
