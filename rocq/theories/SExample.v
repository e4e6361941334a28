(** Specification side of the example programs: the points they are meant to store. *)
From Verif Require Export SSession.

(** [n] integers from [i] on *)
Fixpoint zrange (i : Z) (n : nat) : list Z := match n with O => [] | S n' => i :: zrange (i + 1) n' end.
(** The binary32 pattern of a natural number below 2^24: exponent and fraction of its leading bit. *)
Definition f32_of_small (i : Z) : Z :=
  if i =? 0 then 0 else let k := Z.log2 i in (k + 127) * 2 ^ 23 + (i - 2 ^ k) * 2 ^ (23 - k).
(** Points of one series given as time and value *)
Definition of_series (d m : list Z) (l : list (Z * value)) : list point := map (fun tv => mkPoint d m (fst tv) (snd tv)) l.
(** What benchmark.rs should store *)
Definition benchmark_points (d m : list Z) (n : Z) : list point := of_series d m (map (fun i => (i, VLong i)) (zrange 0 (Z.to_nat n))).
(** What benchmark2.rs should store *)
Definition benchmark2_points (d1 d2 s1 s2 : list Z) (n : Z) : list point :=
  flat_map (fun i => [mkPoint d1 s1 i (VLong i); mkPoint d1 s2 i (VFloat (f32_of_small i)); mkPoint d2 s1 i (VLong i); mkPoint d2 s2 i (VFloat (f32_of_small i))])
    (zrange 0 (Z.to_nat n)).
(** What the quickstart should store: 13 and 13.0, 14 and 14.0 *)
Definition quickstart_points (d1 d2 s1 s2 : list Z) : list point :=
  [mkPoint d1 s1 1 (VLong 13); mkPoint d1 s2 1 (VFloat (f32_of_small 13)); mkPoint d2 s1 1 (VLong 14); mkPoint d2 s2 1 (VFloat (f32_of_small 14))].
