(** Validation of the model against the repository's remaining tests: integers (writer/mod.rs:1033-1079), bit packing
    (writer/encoding/time_encoder.rs:262-301), builders (writer/schema.rs:100-131) and sessions that only assert that
    nothing fails (writer/mod.rs:932-1030, 1548-1565, 1788-1803). Tests of the model, not proofs. *)
From Verif Require Import MWriter MSchema TFile.

(** [read_var_int] writer/mod.rs:1033 *)
Example test_read_var_int : forallb (fun n =>
    match read_var_u32 Debug (wbytes (write_var_u32 n)) with Ret (Some (m, [])) => m =? n | _ => false end)
  [1; 12; 123; 1234; 12345; 123456; 1234567; 12345678; 123456789] = true.
Proof. vm_compute. reflexivity. Qed.
(** [write_var_int], [write_var_int_2], [write_var_int_3] writer/mod.rs:1049, 1062, 1072 *)
Example test_write_var_int : map (fun n => (write_var_u32_ret n, wbytes (write_var_u32 n))) [123456789; 128; 13] =
  [(4, [149; 154; 239; 58]); (2, [128; 1]); (1, [13])].
Proof. vm_compute. reflexivity. Qed.

(** [test_long_to_bytes], [test_long_to_bytes_2], [test_long_to_bytes_3], [test_int_to_bytes]
    writer/encoding/time_encoder.rs:262, 273, 284, 294: numbers packed one after the other *)
Example test_to_bytes :
  map (fun x => let '(k, width, l) := x in pack_loop k width 0 l []) [(KLong, 4, [1; 1; 1]); (KLong, 7, [1; 1; 1]); (KLong, 7, [0; 81]); (KInt, 4, [1; 1; 1])] =
  [Ret [17; 16]; Ret [2; 4; 8]; Ret [1; 68]; Ret [17; 16]].
Proof. vm_compute. reflexivity. Qed.

(** [use_fluent_builder] writer/schema.rs:100 *)
Example test_use_fluent_builder :
  match device_builder_build (device_builder_add s_s2 INT32 PLAIN UNCOMPRESSED (device_builder_add s_s1 INT32 PLAIN UNCOMPRESSED device_builder_new)) with
  | Ret g => let s := schema_builder_build (schema_builder_add s_d1 g schema_builder_new) in
             length s = 1%nat /\ option_map (@length _) (hm_get s_d1 s) = Some 2%nat
  | Panic _ => False
  end.
Proof. vm_compute. auto. Qed.

(** Answers of a session, if it does not panic. *)
Definition answers_of (p : profile) (s : schema) (ops : list op) : option (list answer) :=
  match snd (writer_new s (sink_new healthy)) with
  | None => None
  | Some w => match run p no_snap w ops with Ret (_, l) => Some l | Panic _ => None end
  end.
Definition s_root_sg_d1 : str := [114; 111; 111; 116; 46; 115; 103; 46; 100; 49].
(** [write_file_5] writer/mod.rs:932, first 10 of 100 rounds. In a debug build the close hashes "root.sg.d1.s1" and
    "root.sg.d1.s2" without overflow. *)
Definition file_5_schema : schema := [(s_root_sg_d1, [(s_s1, mkMS INT32 PLAIN UNCOMPRESSED); (s_s2, mkMS INT32 PLAIN UNCOMPRESSED)])].
Definition file_5_ops : list op :=
  flat_map (fun i => [OpWrite s_root_sg_d1 s_s1 (Z.of_nat i) (VInt (Z.of_nat i)); OpWrite s_root_sg_d1 s_s2 (Z.of_nat i) (VInt (Z.of_nat i))]) (seq 0 10) ++ [OpClose id_ord].
Example test_write_file_5 : answers_of Debug file_5_schema file_5_ops = Some (repeat AOk 20 ++ [AUnit]).
Proof. vm_compute. reflexivity. Qed.
(** [write_i64], [write_float] writer/mod.rs:971, 1002; 3.141 is 0x40490625 *)
Example test_write_i64 : answers_of Debug [(s_d1, [(s_s1, mkMS INT64 PLAIN UNCOMPRESSED)])] [OpWrite s_d1 s_s1 0 (VLong 0); OpClose id_ord] = Some [AOk; AUnit].
Proof. vm_compute. reflexivity. Qed.
Example test_write_float : answers_of Debug [(s_d1, [(s_s1, mkMS FLOAT PLAIN UNCOMPRESSED)])] [OpWrite s_d1 s_s1 0 (VFloat 0x40490625); OpClose id_ord] = Some [AOk; AUnit].
Proof. vm_compute. reflexivity. Qed.
(** [write_out_of_order_data] writer/mod.rs:1548 *)
Example test_write_out_of_order_data :
  match schema_simple s_d1 s_s1 INT64 PLAIN UNCOMPRESSED with
  | Ret s => answers_of Debug s [OpWrite s_d1 s_s1 1 (VLong 1); OpWrite s_d1 s_s1 1 (VLong 1)] = Some [AOk; AErr EOutOfOrderData]
  | Panic _ => False
  end.
Proof. vm_compute. reflexivity. Qed.
(** [use_ts2diff] writer/mod.rs:1788 *)
Example test_use_ts2diff :
  match schema_simple s_d1 s_s1 INT64 TS2DIFF UNCOMPRESSED with
  | Ret s => answers_of Debug s [OpWrite s_d1 s_s1 1 (VLong 1); OpClose id_ord] = Some [AOk; AUnit]
  | Panic _ => False
  end.
Proof. vm_compute. reflexivity. Qed.
