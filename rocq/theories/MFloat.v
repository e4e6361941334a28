(** IEEE-754 arithmetic used by the code, on [Coq.Floats.SpecFloat] (executable, axiom free). *)
From Verif Require Export MTypes.
From Coq Require Export SpecFloat.

(** binary32 and binary64 operations (round to nearest even). [as f32] at writer/chunk_writer.rs:327-328. *)
Definition f32_of_Z (v : Z) : spec_float := binary_normalize 24 128 v 0 false.
(** [/] at writer/chunk_writer.rs:327 *)
Definition f32_div := SFdiv 24 128.
(** [*] at writer/chunk_writer.rs:328 *)
Definition f32_mul := SFmul 24 128.
(** [as f64] at writer/mod.rs:727 and, in [value as $sum], writer/statistics.rs:173 *)
Definition f64_of_Z (v : Z) : spec_float := binary_normalize 53 1024 v 0 false.
(** [+] at writer/mod.rs:728, [+=] at writer/statistics.rs:154, 173 *)
Definition f64_add := SFadd 53 1024.
(** [*] at writer/mod.rs:727-728 *)
Definition f64_mul := SFmul 53 1024.
(** [/] at writer/mod.rs:727-728 *)
Definition f64_div := SFdiv 53 1024.
(** [0 as $sum], writer/statistics.rs:134 *)
Definition f64_zero : spec_float := S754_zero false.

(** The [f32] with the given 32-bit pattern ([f32::from_bits]).
    Needed because values are kept as bit patterns: writer/statistics.rs:157-174 for [f32]. *)
Definition f32_of_bits (b : Z) : spec_float :=
  let s := Z.testbit b 31 in
  let ex := (b / 2 ^ 23) mod 256 in
  let man := b mod 2 ^ 23 in
  if ex =? 255 then (if man =? 0 then S754_infinity s else S754_nan)
  else if ex =? 0 then
    match man with Zpos m => S754_finite s m (-149) | _ => S754_zero s end
  else match man + 2 ^ 23 with Zpos m => S754_finite s m (ex - 150) | _ => S754_nan end.

(** [x as f64] for [x : f32] (exact). [value as $sum], writer/statistics.rs:173. *)
Definition f64_of_f32 (x : spec_float) : spec_float :=
  match x with
  | S754_finite s m e => binary_normalize 53 1024 (if s then Zneg m else Zpos m) e s
  | _ => x
  end.

(** [x.to_bits()] for an [f64]. The bit pattern of a NaN produced by arithmetic is hardware
    dependent; the model uses the positive quiet NaN. Through [sum_value.to_be_bytes()], writer/statistics.rs:188. *)
Definition f64_to_bits (x : spec_float) : Z :=
  match x with
  | S754_zero s => if s then 2 ^ 63 else 0
  | S754_infinity s => (if s then 2 ^ 63 else 0) + 2047 * 2 ^ 52
  | S754_nan => 2047 * 2 ^ 52 + 2 ^ 51
  | S754_finite s m e =>
      (if s then 2 ^ 63 else 0)
      + (if Zpos m <? 2 ^ 52 then Zpos m
         else (e + 1075) * 2 ^ 52 + (Zpos m - 2 ^ 52))
  end.

(** [a < b] on [f32] (false if either is NaN). writer/statistics.rs:147, 150, 166, 169. *)
Definition f32_ltb (a b : Z) : bool := SFltb (f32_of_bits a) (f32_of_bits b).

(** [x as iN]/[x as uN] from floats: truncate toward zero, saturate, NaN gives 0.
    writer/chunk_writer.rs:326-328, writer/mod.rs:727-728. *)
Definition sf_trunc (lo hi : Z) (x : spec_float) : Z :=
  match x with
  | S754_zero _ | S754_nan => 0
  | S754_infinity s => if s then lo else hi
  | S754_finite s m e =>
      let mag := if e <? 0 then Zpos m / 2 ^ (- e) else Zpos m * 2 ^ e in
      let v := if s then - mag else mag in
      Z.max lo (Z.min hi v)
  end.

(** [f32::MAX] and [f32::MIN] as bit patterns (std). writer/statistics.rs:129. *)
Definition f32_max_bits : Z := 0x7F7FFFFF.
(** writer/statistics.rs:130 *)
Definition f32_min_bits : Z := 0xFF7FFFFF.

(** [2.0_f64.ln()] (writer/mod.rs:725) and [0.05_f64.ln()] (writer/mod.rs:721-727 with the default
    configuration, writer/ts_file_config.rs:16-18, where clamping 0.05 to [0.01, 0.1] is the
    identity): correctly rounded binary64 values, trusted constants. *)
Definition f64_ln2 : spec_float := S754_finite false 6243314768165359 (-53).
(** writer/mod.rs:727-728, see above *)
Definition f64_ln_005 : spec_float := S754_finite true 6745789375439761 (-51).
