(** Properties C01-C08: var-ints, strings, bit packing, TS_2DIFF and PLAIN columns. *)
From Verif Require Import PCol.

(** C01. Unsigned var-ints, read back by a standard LEB128 reader, with any suffix. *)
Theorem C01_var_u32_roundtrip : forall n rest, 0 <= n < 2 ^ 32 ->
  leb128 (wbytes (write_var_u32 n) ++ rest) = Some (n, rest).
Proof. exact var_u32_roundtrip. Qed.
Print Assumptions C01_var_u32_roundtrip.
Theorem C01_var_u32_length : forall n, 0 <= n < 2 ^ 32 ->
  1 <= zlen (wbytes (write_var_u32 n)) <= 5 /\
  write_var_u32_ret n = zlen (wbytes (write_var_u32 n)) /\
  size_var_u32 n = zlen (wbytes (write_var_u32 n)).
Proof. exact var_u32_len. Qed.
Print Assumptions C01_var_u32_length.
Example C01_case : leb128 (wbytes (write_var_u32 4294967295) ++ [7; 8]) = Some (4294967295, [7; 8]) /\
  wbytes (write_var_u32 300) = [172; 2].
Proof. vm_compute. auto. Qed.

(** C02. Signed var-ints and strings. *)
Theorem C02_var_i32_roundtrip : forall n rest, - 2 ^ 31 <= n < 2 ^ 31 ->
  leb128_signed (wbytes (write_var_i32 n) ++ rest) = Some (n, rest).
Proof. exact var_i32_roundtrip. Qed.
Print Assumptions C02_var_i32_roundtrip.
Theorem C02_var_i32_length : forall n, - 2 ^ 31 <= n < 2 ^ 31 ->
  1 <= zlen (wbytes (write_var_i32 n)) <= 5 /\ size_var_i32 n = zlen (wbytes (write_var_i32 n)).
Proof. exact var_i32_len. Qed.
Print Assumptions C02_var_i32_length.
Theorem C02_write_str_roundtrip : forall s rest, zlen s < 2 ^ 31 ->
  str_field (wbytes (write_str s) ++ rest) = Some (s, rest).
Proof. exact write_str_roundtrip. Qed.
Print Assumptions C02_write_str_roundtrip.
Example C02_case : leb128_signed (wbytes (write_var_i32 (-2147483648)) ++ [1]) = Some (-2147483648, [1]) /\
  str_field (wbytes (write_str [115; 49]) ++ [9]) = Some ([115; 49], [9]).
Proof. vm_compute. auto. Qed.

(** C03. The crate's own reader inverts the writer exactly when no byte 0xFF is emitted. *)
Theorem C03_read_var_u32_iff : forall p n rest, 0 <= n < 2 ^ 32 ->
  (read_var_u32 p (wbytes (write_var_u32 n) ++ rest) = Ret (Some (n, rest))
   <-> ~ In 255 (wbytes (write_var_u32 n))).
Proof. exact read_var_u32_iff. Qed.
Print Assumptions C03_read_var_u32_iff.
Example C03_case : read_var_u32 Release (wbytes (write_var_u32 300) ++ [5]) = Ret (Some (300, [5])) /\
  read_var_u32 Release (wbytes (write_var_u32 255) ++ [5]) = Ret (Some (255, [1; 5])) /\
  read_var_u32 Release (wbytes (write_var_u32 16383) ++ []) <> Ret (Some (16383, [])).
Proof. vm_compute. repeat split; discriminate. Qed.

(** C04, C05. TS_2DIFF columns: whenever encoding succeeds (always, in a release build) the reader
    recovers the exact sequence. *)
Theorem C04_ts2_long_lossless : forall vs, Forall (signed_in 64) vs ->
  exists bytes, ts2_encode Release KLong vs = Ret bytes /\ ts2_decode 8 bytes = Some vs.
Proof.
  exact (fun vs H => match ts2_release_total KLong vs H with
                     | ex_intro _ b E => ex_intro _ b (conj E (ts2_roundtrip Release KLong vs b H E)) end).
Qed.
Print Assumptions C04_ts2_long_lossless.
Theorem C04_ts2_long_lossless_debug : forall vs bytes, Forall (signed_in 64) vs ->
  ts2_encode Debug KLong vs = Ret bytes -> ts2_decode 8 bytes = Some vs.
Proof. exact (ts2_roundtrip Debug KLong). Qed.
Print Assumptions C04_ts2_long_lossless_debug.
Example C04_case : Forall (signed_in 64) [0; 9223372036854775807; -9223372036854775808; 5] /\
  match ts2_encode Release KLong [0; 9223372036854775807; -9223372036854775808; 5] with
  | Ret b => ts2_decode 8 b = Some [0; 9223372036854775807; -9223372036854775808; 5]
  | Panic _ => False end.
Proof. split; [repeat constructor; discriminate|vm_compute; reflexivity]. Qed.

Theorem C05_ts2_int_lossless : forall vs, Forall (signed_in 32) vs ->
  exists bytes, ts2_encode Release KInt vs = Ret bytes /\ ts2_decode 4 bytes = Some vs.
Proof.
  exact (fun vs H => match ts2_release_total KInt vs H with
                     | ex_intro _ b E => ex_intro _ b (conj E (ts2_roundtrip Release KInt vs b H E)) end).
Qed.
Print Assumptions C05_ts2_int_lossless.
Theorem C05_ts2_int_lossless_debug : forall vs bytes, Forall (signed_in 32) vs ->
  ts2_encode Debug KInt vs = Ret bytes -> ts2_decode 4 bytes = Some vs.
Proof. exact (ts2_roundtrip Debug KInt). Qed.
Print Assumptions C05_ts2_int_lossless_debug.
Example C05_case : Forall (signed_in 32) [2147483647; -2147483648; 3; 3] /\
  match ts2_encode Release KInt [2147483647; -2147483648; 3; 3] with
  | Ret b => ts2_decode 4 b = Some [2147483647; -2147483648; 3; 3]
  | Panic _ => False end.
Proof. split; [repeat constructor; discriminate|vm_compute; reflexivity]. Qed.

(** C06. The packed bytes are the concatenation of the [w]-bit fields, then zero padding. *)
Theorem C06_bit_packing : forall k w l, 0 <= w <= kbits k -> Forall (fun v => 0 <= v < 2 ^ w) l ->
  exists r, pack_loop k w 0 l [] = Ret r /\ Forall (fun b => 0 <= b < 256) r /\
    zlen r = (zlen l * w + 7) / 8 /\
    (forall i, (i < length l)%nat -> bit_field (be_val r) (8 * zlen r) (Z.of_nat i) w = nth i l 0) /\
    be_val r mod 2 ^ (8 * zlen r - zlen l * w) = 0.
Proof. exact pack_concat. Qed.
Print Assumptions C06_bit_packing.
(** Full-width fields hold any signed value (negative block-relative deltas). *)
Theorem C06_bit_packing_full_width : forall k l, Forall (signed_in (kbits k)) l ->
  exists r, pack_loop k (kbits k) 0 l [] = Ret r /\ zlen r = zlen l * Z.of_nat (kbytes k) /\
    (forall i, (i < length l)%nat -> sgn (kbits k) (bit_field (be_val r) (8 * zlen r) (Z.of_nat i) (kbits k)) = nth i l 0).
Proof. exact pack_concat_any. Qed.
Print Assumptions C06_bit_packing_full_width.
Example C06_case : Forall (fun v => 0 <= v < 2 ^ 3) [5; 2; 7] /\ pack_loop KLong 3 0 [5; 2; 7] [] = Ret [171; 128].
Proof. split; [repeat constructor; discriminate|vm_compute; reflexivity]. Qed.

(** C07. Overflow checks. *)
Theorem C07_time_column_never_panics : forall ts, StronglySorted Z.lt ts -> Forall (fun t => 0 <= t <= i64_max) ts ->
  exists bytes, ts2_encode Debug KLong ts = Ret bytes.
Proof. exact time_debug_total. Qed.
Print Assumptions C07_time_column_never_panics.
Theorem C07_value_column_iff : forall dt vs, Forall (value_ok dt) vs -> dt <> FLOAT ->
  ((exists r, encode_column Debug dt TS2DIFF vs = Ret (Some r)) <->
   Forall (block_fits (match dt with INT32 => 32 | _ => 64 end)) (chop 129 (map value_num vs))).
Proof. exact column_debug_iff. Qed.
Print Assumptions C07_value_column_iff.
Theorem C07_same_bytes : forall dt enc vs r,
  encode_column Debug dt enc vs = Ret r -> encode_column Release dt enc vs = Ret r.
Proof. exact column_mono. Qed.
Print Assumptions C07_same_bytes.
Theorem C07_same_time_bytes : forall k vs bytes,
  ts2_encode Debug k vs = Ret bytes -> ts2_encode Release k vs = Ret bytes.
Proof. exact ts2_encode_mono. Qed.
Print Assumptions C07_same_time_bytes.
Example C07_case : StronglySorted Z.lt [0; 1; 9223372036854775807] /\
  encode_column Debug INT32 TS2DIFF [VInt 2147483647; VInt (-2)] = Panic POverflow /\
  (exists r, encode_column Debug INT32 TS2DIFF [VInt 2147483647; VInt 0; VInt (-1)] = Ret r) /\
  ~ block_fits 32 [2147483647; -2].
Proof.
  split; [repeat constructor|]. split; [vm_compute; reflexivity|]. split; [eexists; vm_compute; reflexivity|].
  intros [H _]. inversion H as [|? ? [A B]]. vm_compute in A. congruence.
Qed.

(** C08. PLAIN columns, in either build. *)
Theorem C08_plain_lossless : forall p dt vs, Forall (value_ok dt) vs ->
  exists bytes, encode_column p dt PLAIN vs = Ret (Some bytes) /\
    column_decode (dtype_code dt) (encoding_code PLAIN) bytes = Some (map value_num vs).
Proof.
  exact (fun p dt vs H => match plain_total p dt vs with
           | ex_intro _ b E => ex_intro _ b (conj E (column_roundtrip p dt PLAIN vs b H E)) end).
Qed.
Print Assumptions C08_plain_lossless.
(** All supported columns (PLAIN or TS_2DIFF) in a release build. *)
Theorem C08_column_lossless : forall p dt enc vs bytes, Forall (value_ok dt) vs ->
  encode_column p dt enc vs = Ret (Some bytes) ->
  column_decode (dtype_code dt) (encoding_code enc) bytes = Some (map value_num vs).
Proof. exact column_roundtrip. Qed.
Print Assumptions C08_column_lossless.
Example C08_case : Forall (value_ok FLOAT) [VFloat 2143289345; VFloat 2147483648] /\
  (exists b, encode_column Debug FLOAT PLAIN [VFloat 2143289345; VFloat 2147483648] = Ret (Some b) /\
     column_decode 3 0 b = Some [2143289345; 2147483648]).
Proof. split; [repeat constructor; discriminate|eexists; split; vm_compute; reflexivity]. Qed.
