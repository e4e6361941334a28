(** The example programs (examples/src/bin/benchmark.rs, benchmark2.rs, the quickstart of lib.rs) and the
    helper they use (writer/test_utils.rs). Timing and printing are not modelled; [File::create] empties the
    file, so each of the ten rounds is one run on a fresh sink. *)
From Verif Require Export MWriter MSchema MFloat.

(** [Result::expect] (std) on the result of a write, examples/src/bin/benchmark.rs:24, benchmark2.rs:74, 84 *)
Definition expect_ok (r : outcome (writer * answer)) : outcome writer :=
  let* x := r in match snd x with AOk => Ret (fst x) | _ => Panic PUnwrap end.
(** [for i in from..from+n] (std), examples/src/bin/benchmark.rs:23, benchmark2.rs:59 *)
Fixpoint for_loop {A} (n : nat) (from : Z) (body : Z -> A -> outcome A) (a : A) : outcome A :=
  match n with
  | O => Ret a
  | S n' => let* a' := body from a in for_loop n' (from + 1) body a'
  end.

(** [write_ts_file] writer/test_utils.rs:27-41: [None] is the [Err] of [TsFileWriter::new] *)
Definition write_ts_file (p : profile) (snap : compressor) (sc : schema) (sched : nat -> fault)
  (code : writer -> outcome writer) (ord : hash_order) : outcome (option (list Z)) :=
  match writer_new sc (sink_new sched) with
  | (_, None) => Ret None
  | (_, Some w) =>
      let* w1 := code w in
      let* r := step p snap w1 (OpClose ord) in
      Ret (Some (file_bytes (fst r)))
  end.

(** "d1", "d2", "s", "s1", "s2", benchmark.rs:12-13, benchmark2.rs:15-41 *)
Definition s_d1 : str := [100; 49].
(** "d2", benchmark2.rs:32 *)
Definition s_d2 : str := [100; 50].
(** "s", benchmark.rs:13 *)
Definition s_s : str := [115].
(** "s1", benchmark2.rs:18 *)
Definition s_s1 : str := [115; 49].
(** "s2", benchmark2.rs:24 *)
Definition s_s2 : str := [115; 50].

(** One round of benchmark.rs:11-30; [n] is 100000001 there *)
Definition benchmark (p : profile) (snap : compressor) (sched : nat -> fault) (ord : hash_order) (n : Z) : outcome (list Z) :=
  let* sc := schema_simple s_d1 s_s INT64 PLAIN UNCOMPRESSED in
  let* r := write_ts_file p snap sc sched
    (for_loop (Z.to_nat n) 0 (fun i w => expect_ok (step p snap w (OpWrite s_d1 s_s i (VLong i))))) ord in
  match r with Some file => Ret file | None => Panic PUnwrap end.

(** [x.to_bits()] for an [f32] (std), as [f64_to_bits], benchmark2.rs:71, 81: values are kept as bit patterns *)
Definition f32_to_bits (x : spec_float) : Z :=
  match x with
  | S754_zero s => if s then 2 ^ 31 else 0
  | S754_infinity s => (if s then 2 ^ 31 else 0) + 255 * 2 ^ 23
  | S754_nan => 255 * 2 ^ 23 + 2 ^ 22
  | S754_finite s m e =>
      (if s then 2 ^ 31 else 0)
      + (if Zpos m <? 2 ^ 23 then Zpos m else (e + 150) * 2 ^ 23 + (Zpos m - 2 ^ 23))
  end.
(** [i as f32] (std): round to nearest, benchmark2.rs:71, 81 *)
Definition f32_as (i : Z) : Z := f32_to_bits (f32_of_Z i).

(** benchmark2.rs:13-48 *)
Definition benchmark2_schema (c : compression) : outcome schema :=
  let dev := device_builder_add s_s2 FLOAT PLAIN c (device_builder_add s_s1 INT64 PLAIN c device_builder_new) in
  let* g1 := device_builder_build dev in
  let* g2 := device_builder_build dev in
  Ret (schema_builder_build (schema_builder_add s_d2 g2 (schema_builder_add s_d1 g1 schema_builder_new))).
(** One round of benchmark2.rs:53-86; [n] is 10000001 there *)
Definition benchmark2 (p : profile) (snap : compressor) (sched : nat -> fault) (ord : hash_order) (n : Z) : outcome (list Z) :=
  let* sc := benchmark2_schema SNAPPY in
  match writer_new sc (sink_new sched) with
  | (_, None) => Panic PUnwrap
  | (_, Some w) =>
      let* w1 := for_loop (Z.to_nat n) 0 (fun i w =>
        let vs := [(s_s1, VLong i); (s_s2, VFloat (f32_as i))] in
        let* w' := expect_ok (step p snap w (OpWriteMany s_d1 i vs)) in
        expect_ok (step p snap w' (OpWriteMany s_d2 i vs))) w in
      let* r := step p snap w1 (OpClose ord) in
      Ret (file_bytes (fst r))
  end.

(** The three calls of the quickstart, lib.rs:73-81; 13.0 and 14.0 as bit patterns *)
Definition quickstart_ops : list op :=
  [OpWriteMany s_d1 1 [(s_s1, VLong 13); (s_s2, VFloat 0x41500000)];
   OpWrite s_d2 s_s1 1 (VLong 14); OpWrite s_d2 s_s2 1 (VFloat 0x41600000)].
(** The quickstart, lib.rs:26-81: results are ignored, the writer is dropped without a close (there is no
    [Drop] for it). The second component are the results nobody looks at. *)
Definition quickstart (p : profile) (snap : compressor) (sched : nat -> fault) : outcome (list Z * list answer) :=
  let* sc := benchmark2_schema UNCOMPRESSED in
  match writer_new sc (sink_new sched) with
  | (_, None) => Panic PUnwrap
  | (_, Some w) => let* r := run p snap w quickstart_ops in Ret (file_bytes (fst r), snd r)
  end.
