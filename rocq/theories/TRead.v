(** Validation of the readers on the specification side (SReader, SIndex, SSnappy) against the byte arrays asserted by
    the repository's own tests (writer/mod.rs:881-1785): from these arrays they get the points the tests write, front to
    back, through the index and by name. *)
From Verif Require Import SIndex SSnappy TFile.

Definition front (file : list byte) (d m : str) : option (list (Z * Z)) := option_map (fun cs => SReader.series_in cs d m) (read_file snappy_read file).
Definition through_index (file : list byte) : option (list (list Z * list Z * list (Z * Z))) := option_map (map (fun x => (f_key x, f_points x))) (index_read snappy_read file).
Definition by_name (file : list byte) (d m : str) : option (Z * Z * Z) :=
  option_map (fun t => (sf_count (ts_stats t), sf_start (ts_stats t), sf_end (ts_stats t))) (lookup file d m).
Definition diagonal (n : nat) : list (Z * Z) := map (fun i => (Z.of_nat i, Z.of_nat i)) (seq 0 n).

Example read_file_test_4 : front exp_write_file_test_4 s_d1 s_s1 = Some [(1, 13); (10, 14); (100, 15)] /\
  through_index exp_write_file_test_4 = Some [(s_d1, s_s1, [(1, 13); (10, 14); (100, 15)])] /\ by_name exp_write_file_test_4 s_d1 s_s1 = Some (3, 1, 100).
Proof. vm_compute. auto. Qed.
Example read_multiple_types :
  through_index exp_write_multiple_types = Some [(s_d1, s_s1, [(1, 13)]); (s_d1, s_s2, [(1, 14)]); (s_d1, s_s3, [(1, 0x41700000)])] /\
  by_name exp_write_multiple_types s_d1 s_s3 = Some (1, 1, 1) /\ by_name exp_write_multiple_types s_d1 s_s = None.
Proof. vm_compute. auto. Qed.
Example read_datapoints : map through_index [exp_write_datapoint_int32; exp_write_datapoint_int64; exp_write_datapoint_float] =
  [Some [(s_d1, s_s, [(1, 13)])]; Some [(s_d1, s_s, [(1, 13)])]; Some [(s_d1, s_s, [(1, 0x41500000)])]].
Proof. vm_compute. reflexivity. Qed.
Example read_ts2diff : map through_index [exp_write_i64_ts2diff; exp_write_i32_ts2diff] = [Some [(s_d1, s_s1, diagonal 10)]; Some [(s_d1, s_s1, diagonal 10)]].
Proof. vm_compute. reflexivity. Qed.
Example read_int32_1000 : front exp_write_datapoint_int32_1000 s_d1 s_s = Some (diagonal 1001) /\
  through_index exp_write_datapoint_int32_1000 = Some [(s_d1, s_s, diagonal 1001)] /\ by_name exp_write_datapoint_int32_1000 s_d1 s_s = Some (1001, 0, 1000).
Proof. vm_compute. auto. Qed.
(** Snappy payloads; what the crate snap makes, if these tests of the repository pass (they were not run). *)
Example read_snappy : map through_index [exp_write_i64_snappy; exp_write_snappy_complex] =
  [Some [(s_d1, s_s1, [(1, 13)])]; Some [(s_d1, s_s1, [(1, 13)]); (s_d1, s_s2, [(1, 0x41600000)]); (s_d2, s_s1, [(1, 15)])]].
Proof. vm_compute. reflexivity. Qed.
