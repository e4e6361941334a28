(** Binary64 multiplication and division of positive numbers up to rounding, and the size of the Bloom filter. *)
From Verif Require Export PFloat32 PBloom.
Ltac Zify.zify_post_hook ::= idtac.

(** [m * 2^e], scaled by 2^200 to stay in [Z]. *)
Definition norm64 (m : positive) : Prop := 2 ^ 52 <= Zpos m < 2 ^ 53.
Lemma norm64_digits : forall m, norm64 m -> Zpos (digits2_pos m) = 53.
Proof. intros m H. apply digits2_unique. exact H. Qed.
Lemma round_aux64 : forall sx mx ex lx d, Zpos (digits2_pos mx) = d -> 53 <= d -> -190 <= ex -> d + ex <= 100 ->
  exists m e, binary_round_aux 53 1024 sx (Zpos mx) ex lx = S754_finite sx m e /\ norm64 m /\
    d + ex - 53 <= e <= d + ex - 52 /\ (Zpos mx - 2 ^ (d - 53)) * 2 ^ (ex + 200) <= val32 m e <= (Zpos mx + 2 ^ (d - 53)) * 2 ^ (ex + 200).
Proof.
  intros sx mx ex lx d D D1 E1 E2. pose proof (digits2_pos_bound mx) as B. rewrite D in B.
  unfold binary_round_aux, shr_fexp, fexp, emin. change (3 - 1024 - 53) with (-1074). cbn [Zdigits2]. rewrite D.
  replace (Z.max (d + ex - 53) (-1074) - ex) with (d - 53) by lia. set (n := d - 53) in *.
  destruct (shr (shr_record_of_loc (Z.pos mx) lx) ex n) as [r1 e1] eqn:S.
  destruct (shr_spec (shr_record_of_loc (Z.pos mx) lx) ex n) as [S1 S2]; [rewrite shr_of_loc_m; lia|unfold n; lia|].
  rewrite S in S1, S2. cbn [fst snd] in S1, S2. rewrite shr_of_loc_m in S1.
  assert (P : 0 < 2 ^ n) by (apply pow2_pos; unfold n; lia).
  set (m' := shr_m r1) in *.
  assert (M1 : 2 ^ 52 <= m' < 2 ^ 53).
  { rewrite S1. split.
    - apply Z.div_le_lower_bound; [lia|]. rewrite <- Z.pow_add_r by (unfold n; lia). replace (n + 52) with (d - 1) by (unfold n; lia). lia.
    - apply Z.div_lt_upper_bound; [lia|]. rewrite <- Z.pow_add_r by (unfold n; lia). replace (n + 53) with d by (unfold n; lia). lia. }
  assert (M2 : m' * 2 ^ n <= Zpos mx) by (rewrite S1, Z.mul_comm; apply Z.mul_div_le; lia).
  assert (M3 : Zpos mx - 2 ^ n <= m' * 2 ^ n).
  { rewrite S1. pose proof (Z.div_mod (Zpos mx) (2 ^ n) ltac:(lia)). pose proof (Z.mod_pos_bound (Zpos mx) (2 ^ n) P). rewrite (Z.mul_comm (_ / _)). lia. }
  clearbody m'. set (m1 := round_nearest_even m' (loc_of_shr_record r1)).
  assert (B1 : 2 ^ 52 <= m1 <= 2 ^ 53 /\ m' <= m1 <= m' + 1).
  { unfold m1. destruct (round_ne_cases m' (loc_of_shr_record r1)) as [-> | ->]; lia. }
  clearbody m1. destruct B1 as [B1 B2].
  assert (V : (Zpos mx - 2 ^ n) * 2 ^ (ex + 200) <= m1 * 2 ^ (e1 + 200) <= (Zpos mx + 2 ^ n) * 2 ^ (ex + 200)).
  { rewrite S2. replace (ex + n + 200) with (n + (ex + 200)) by lia. rewrite (Z.pow_add_r 2 n (ex + 200)) by (unfold n; lia).
    pose proof (pow2_pos (ex + 200) ltac:(lia)). rewrite Z.mul_assoc. split; (apply Z.mul_le_mono_nonneg_r; [lia|]);
    set (a := 2 ^ n) in *; clearbody a; clear - M2 M3 B2 P; nia. }
  assert (N : n = d - 53) by reflexivity. clearbody n. subst e1. cbn [shr_record_of_loc].
  destruct (Z.eq_dec m1 (2 ^ 53)) as [E|E].
  - subst m1. change (Zdigits2 (2 ^ 53)) with 54.
    replace (Z.max (54 + (ex + n) - 53) (-1074) - (ex + n)) with 1 by lia. change (2 ^ 53) with 9007199254740992 in *. cbn [shr iter_pos shr_1 shr_m].
    replace (ex + n + 1 <=? 1024 - 53) with true by (symmetry; apply Z.leb_le; lia).
    exists 4503599627370496%positive, (ex + n + 1). split; [reflexivity|]. split; [split; reflexivity|]. split; [lia|].
    unfold val32. replace (ex + n + 1 + 200) with (1 + (ex + n + 200)) by lia. rewrite (Z.pow_add_r 2 1) by lia. rewrite Z.mul_assoc. exact V.
  - destruct m1 as [|m1|]; [lia| |lia].
    assert (N1 : norm64 m1) by (unfold norm64; lia).
    cbn [Zdigits2]. rewrite (norm64_digits m1 N1). replace (Z.max (53 + (ex + n) - 53) (-1074) - (ex + n)) with 0 by lia.
    cbn [shr shr_m]. replace (ex + n <=? 1024 - 53) with true by (symmetry; apply Z.leb_le; lia).
    exists m1, (ex + n). split; [reflexivity|]. split; [auto|]. split; [lia|]. exact V.
Qed.
Lemma round_aux_exact64 : forall sx m e, norm64 m -> -149 <= e <= 76 ->
  binary_round_aux 53 1024 sx (Zpos m) e loc_Exact = S754_finite sx m e.
Proof.
  intros sx m e N H. unfold binary_round_aux, shr_fexp, fexp, emin. change (3 - 1024 - 53) with (-1074). cbn [Zdigits2].
  rewrite (norm64_digits m N). replace (Z.max (53 + e - 53) (-1074) - e) with 0 by lia.
  cbn [shr shr_record_of_loc shr_m loc_of_shr_record round_nearest_even Zdigits2]. rewrite (norm64_digits m N).
  replace (Z.max (53 + e - 53) (-1074) - e) with 0 by lia. cbn [shr shr_m].
  replace (e <=? 1024 - 53) with true by (symmetry; apply Z.leb_le; lia). reflexivity.
Qed.
(** Integers below 2^53 are represented exactly. *)
Lemma f64_of_neg_exact : forall n, 0 < n < 2 ^ 53 ->
  exists m e, f64_of_Z (- n) = S754_finite true m e /\ norm64 m /\ -52 <= e <= 0 /\ val32 m e = n * 2 ^ 200.
Proof.
  intros n H. destruct n as [|q|]; try lia. pose proof (digits2_pos_bound q) as B. set (d := Zpos (digits2_pos q)) in *.
  assert (Hd : 1 <= d <= 53).
  { split; [unfold d; lia|]. destruct (Z_le_gt_dec d 53); auto. assert (2 ^ 53 <= 2 ^ (d - 1)) by (apply Z.pow_le_mono_r; lia). lia. }
  cbn [Z.opp]. unfold f64_of_Z, binary_normalize, binary_round, shl_align, fexp, emin. fold d. change (3 - 1024 - 53) with (-1074).
  replace (Z.max (d + 0 - 53) (-1074) - 0) with (d - 53) by lia. replace (Z.max (d + 0 - 53) (-1074)) with (d - 53) by lia.
  destruct (d - 53) as [|x|x] eqn:E; [|lia|].
  - assert (d = 53) by lia. exists q, 0. assert (norm64 q) by (unfold norm64; replace 52 with (d - 1) by lia; replace 53 with d by lia; exact B).
    rewrite round_aux_exact64 by (auto; lia). split; [reflexivity|]. split; [auto|]. split; [lia|]. unfold val32. reflexivity.
  - assert (D2 : Zpos (digits2_pos (shift_pos x q)) = 53) by (rewrite digits_shift; fold d; lia).
    assert (N : norm64 (shift_pos x q)) by (unfold norm64; pose proof (digits2_pos_bound (shift_pos x q)) as B2; rewrite D2 in B2; exact B2).
    exists (shift_pos x q), (Zneg x). rewrite round_aux_exact64 by (auto; lia). split; [reflexivity|]. split; [auto|]. split; [lia|].
    unfold val32. rewrite Zpower.shift_pos_correct. change (Z.pow_pos 2 x) with (2 ^ Z.pos x).
    rewrite (Z.mul_comm (2 ^ Z.pos x)), <- Z.mul_assoc, <- Z.pow_add_r by lia. f_equal. f_equal. lia.
Qed.
(** [a] is [b] up to one part in 2^51. *)
Definition close_to (a b : Z) : Prop := (2 ^ 52 - 2) * b <= 2 ^ 52 * a <= (2 ^ 52 + 1) * b.
Lemma mul64 : forall s1 m1 e1 s2 m2 e2, norm64 m1 -> norm64 m2 -> -150 <= e1 + e2 <= -10 -> -200 <= e1 -> -200 <= e2 ->
  exists m e, f64_mul (S754_finite s1 m1 e1) (S754_finite s2 m2 e2) = S754_finite (xorb s1 s2) m e /\ norm64 m /\
    e1 + e2 + 52 <= e <= e1 + e2 + 54 /\ close_to (val32 m e * 2 ^ 200) (val32 m1 e1 * val32 m2 e2).
Proof.
  intros s1 m1 e1 s2 m2 e2 N1 N2 H H1 H2. unfold f64_mul, SFmul.
  assert (D : 105 <= Zpos (digits2_pos (m1 * m2)) <= 106).
  { pose proof (digits2_pos_bound (m1 * m2)) as B. rewrite Pos2Z.inj_mul in B. unfold norm64 in *. set (d := Zpos (digits2_pos (m1 * m2))) in *. split.
    - destruct (Z_le_gt_dec 105 d); auto. assert (2 ^ d <= 2 ^ 104) by (apply Z.pow_le_mono_r; lia). change (2 ^ 104) with (2 ^ 52 * 2 ^ 52) in *. nia.
    - destruct (Z_le_gt_dec d 106); auto. assert (2 ^ 106 <= 2 ^ (d - 1)) by (apply Z.pow_le_mono_r; lia). change (2 ^ 106) with (2 ^ 53 * 2 ^ 53) in *. nia. }
  destruct (round_aux64 (xorb s1 s2) (m1 * m2) (e1 + e2) loc_Exact _ eq_refl) as (m & e & E & Nm & E2 & V1 & V2); try lia.
  exists m, e. split; [exact E|]. split; [auto|]. split; [lia|].
  pose proof (digits_low (m1 * m2)) as DL. set (d := Zpos (digits2_pos (m1 * m2))) in *.
  replace (d - 1) with (52 + (d - 53)) in DL by lia. rewrite Z.pow_add_r in DL by lia.
  pose proof (pow2_pos (e1 + e2 + 200) ltac:(lia)) as P2.
  assert (EQ : val32 m1 e1 * val32 m2 e2 = Zpos (m1 * m2) * 2 ^ (e1 + e2 + 200) * 2 ^ 200).
  { unfold val32. rewrite Pos2Z.inj_mul.
    replace (Z.pos m1 * 2 ^ (e1 + 200) * (Z.pos m2 * 2 ^ (e2 + 200))) with (Z.pos m1 * Z.pos m2 * (2 ^ (e1 + 200) * 2 ^ (e2 + 200))) by ring.
    rewrite <- Z.pow_add_r by lia. replace (e1 + 200 + (e2 + 200)) with ((e1 + e2 + 200) + 200) by lia. rewrite (Z.pow_add_r 2 (e1 + e2 + 200)) by lia. ring. }
  unfold close_to. rewrite EQ. set (u := 2 ^ (d - 53)) in *. set (x := 2 ^ (e1 + e2 + 200)) in *. set (y := 2 ^ 200). assert (0 < y) by reflexivity.
  set (v := val32 m e) in *. set (z := Zpos (m1 * m2)) in *. assert (PZ : 0 < z) by reflexivity. clearbody u x y v z. clear - V1 V2 DL P2 H0 PZ. rewrite !Z.mul_assoc. split; (apply Z.mul_le_mono_nonneg_r; [lia|]).
  - transitivity (2 ^ 52 * ((z - u) * x)); [|lia]. rewrite Z.mul_assoc. apply Z.mul_le_mono_nonneg_r; lia.
  - transitivity (2 ^ 52 * ((z + u) * x)); [lia|]. rewrite Z.mul_assoc. apply Z.mul_le_mono_nonneg_r; lia.
Qed.
Lemma div64 : forall s1 m1 e1 s2 m2 e2, norm64 m1 -> norm64 m2 -> -100 <= e1 - e2 <= 80 -> -200 <= e1 -> -200 <= e2 ->
  exists m e, f64_div (S754_finite s1 m1 e1) (S754_finite s2 m2 e2) = S754_finite (xorb s1 s2) m e /\ norm64 m /\
    e1 - e2 - 54 <= e <= e1 - e2 - 50 /\ close_to (val32 m e * val32 m2 e2) (val32 m1 e1 * 2 ^ 200).
Proof.
  intros s1 m1 e1 s2 m2 e2 N1 N2 H H1 H2. unfold f64_div, SFdiv, SFdiv_core_binary. cbn [Zdigits2]. rewrite (norm64_digits m1 N1), (norm64_digits m2 N2).
  unfold fexp, emin. change (3 - 1024 - 53) with (-1074).
  replace (Z.min (Z.max (53 + e1 - (53 + e2) - 53) (-1074)) (e1 - e2)) with (e1 - e2 - 53) by lia.
  replace (e1 - e2 - (e1 - e2 - 53)) with 53 by lia. rewrite Z.shiftl_mul_pow2 by lia.
  pose proof (Z_div_mod (Zpos m1 * 2 ^ 53) (Zpos m2) ltac:(lia)) as DM. destruct (Z.div_eucl (Zpos m1 * 2 ^ 53) (Z.pos m2)) as [q r] eqn:DE.
  destruct DM as [DM R]. unfold norm64 in N1, N2. set (s := xorb s1 s2).
  assert (Q : 2 ^ 52 <= q <= 2 ^ 54).
  { change (2 ^ 53) with 9007199254740992 in *. change (2 ^ 52) with 4503599627370496 in *. change (2 ^ 54) with 18014398509481984 in *. nia. }
  destruct q as [|q|]; try lia.
  assert (D : 53 <= Zpos (digits2_pos q) <= 55).
  { pose proof (digits2_pos_bound q) as B. set (d := Zpos (digits2_pos q)) in *. split.
    - destruct (Z_le_gt_dec 53 d); auto. assert (2 ^ d <= 2 ^ 52) by (apply Z.pow_le_mono_r; lia). lia.
    - destruct (Z_le_gt_dec d 55); auto. assert (2 ^ 55 <= 2 ^ (d - 1)) by (apply Z.pow_le_mono_r; lia). lia. }
  destruct (round_aux64 s q (e1 - e2 - 53) (new_location (Z.pos m2) r) _ eq_refl) as (m & e & E & Nm & E2 & V1 & V2); try lia.
  exists m, e. split; [exact E|]. split; [exact Nm|]. split; [lia|].
  (* the quotient is cut by less than one unit, the rounding by less than one unit in the last place *)
  pose proof (digits_low q) as DL. set (d := Zpos (digits2_pos q)) in *.
  replace (d - 1) with (52 + (d - 53)) in DL by lia. rewrite Z.pow_add_r in DL by lia. assert (1 <= 2 ^ (d - 53)) by (pose proof (pow2_pos (d - 53) ltac:(lia)); lia).
  set (v := val32 m e) in *. unfold val32.
  pose proof (pow2_pos (e2 + 200) ltac:(lia)) as P1. pose proof (pow2_pos (e1 - e2 - 53 + 200) ltac:(lia)) as P2.
  assert (PE : 2 ^ (e1 - e2 - 53 + 200) * 2 ^ (e2 + 200) * 2 ^ 53 = 2 ^ (e1 + 200) * 2 ^ 200).
  { rewrite <- !Z.pow_add_r by lia. f_equal. lia. }
  unfold close_to. replace (Zpos m1 * 2 ^ (e1 + 200) * 2 ^ 200) with (Zpos m1 * (2 ^ (e1 + 200) * 2 ^ 200)) by ring. rewrite <- PE.
  replace (Z.pos m1 * (2 ^ (e1 - e2 - 53 + 200) * 2 ^ (e2 + 200) * 2 ^ 53)) with ((Zpos m1 * 2 ^ 53) * (2 ^ (e1 - e2 - 53 + 200) * 2 ^ (e2 + 200))) by ring. rewrite DM.
  set (u := 2 ^ (d - 53)) in *. set (x := 2 ^ (e1 - e2 - 53 + 200)) in *. set (y := 2 ^ (e2 + 200)) in *. set (z := Zpos q) in *. set (w := Zpos m2) in *.
  clearbody u x y v z w. clear - V1 V2 DL P1 P2 R H0 N2. assert (0 < w) by lia.
  replace (2 ^ 52 * (v * (w * y))) with ((2 ^ 52 * v) * (w * y)) by ring. split.
  - transitivity ((2 ^ 52 * (z - u) * x) * (w * y)).
    + replace ((2 ^ 52 - 2) * ((w * z + r) * (x * y))) with ((2 ^ 52 - 2) * (w * z + r) * (x * y)) by ring.
      replace (2 ^ 52 * (z - u) * x * (w * y)) with (2 ^ 52 * (z - u) * w * (x * y)) by ring.
      apply Z.mul_le_mono_nonneg_r; [apply Z.mul_nonneg_nonneg; lia|].
      transitivity ((2 ^ 52 - 2) * (w * (z + 1))); [apply Z.mul_le_mono_nonneg_l; lia|].
      replace ((2 ^ 52 - 2) * (w * (z + 1))) with ((2 ^ 52 - 2) * (z + 1) * w) by ring. apply Z.mul_le_mono_nonneg_r; [lia|]. lia.
    + apply Z.mul_le_mono_nonneg_r; [apply Z.mul_nonneg_nonneg; lia|]. rewrite <- Z.mul_assoc. apply Z.mul_le_mono_nonneg_l; lia.
  - transitivity ((2 ^ 52 * (z + u) * x) * (w * y)).
    + apply Z.mul_le_mono_nonneg_r; [apply Z.mul_nonneg_nonneg; lia|]. rewrite <- Z.mul_assoc. apply Z.mul_le_mono_nonneg_l; lia.
    + replace ((2 ^ 52 + 1) * ((w * z + r) * (x * y))) with ((2 ^ 52 + 1) * (w * z + r) * (x * y)) by ring.
      replace (2 ^ 52 * (z + u) * x * (w * y)) with (2 ^ 52 * (z + u) * w * (x * y)) by ring.
      apply Z.mul_le_mono_nonneg_r; [apply Z.mul_nonneg_nonneg; lia|].
      transitivity ((2 ^ 52 + 1) * (w * z)); [|apply Z.mul_le_mono_nonneg_l; lia].
      replace ((2 ^ 52 + 1) * (w * z)) with ((2 ^ 52 + 1) * z * w) by ring. apply Z.mul_le_mono_nonneg_r; lia.
Qed.

(** ** The number of bits of the filter: -ln 0.05 / (ln 2)^2 = 6.235224... per series *)
Lemma trunc_val : forall m e lo hi, -200 <= e -> lo <= 0 -> 0 <= hi -> let t := sf_trunc lo hi (S754_finite false m e) in
  0 <= t <= hi /\ t * 2 ^ 200 <= val32 m e /\ (t < hi -> val32 m e < (t + 1) * 2 ^ 200).
Proof.
  intros m e lo hi H L Hh. unfold sf_trunc. set (mag := if e <? 0 then Z.pos m / 2 ^ (- e) else Z.pos m * 2 ^ e).
  assert (M : 0 <= mag /\ mag * 2 ^ 200 <= val32 m e < (mag + 1) * 2 ^ 200).
  { unfold mag, val32. destruct (e <? 0) eqn:Q.
    - apply Z.ltb_lt in Q. pose proof (pow2_pos (- e) ltac:(lia)) as P. split; [apply Z.div_pos; lia|].
      replace (2 ^ 200) with (2 ^ (- e) * 2 ^ (e + 200)) by (rewrite <- Z.pow_add_r by lia; f_equal; lia).
      rewrite !Z.mul_assoc. pose proof (pow2_pos (e + 200) ltac:(lia)). pose proof (Z.div_mod (Zpos m) (2 ^ (- e)) ltac:(lia)) as DM.
      pose proof (Z.mod_pos_bound (Zpos m) (2 ^ (- e)) P). split; [apply Z.mul_le_mono_nonneg_r|apply Z.mul_lt_mono_pos_r]; try lia.
    - apply Z.ltb_ge in Q. pose proof (pow2_pos e ltac:(lia)). split; [lia|]. rewrite Z.pow_add_r by lia. lia. }
  clearbody mag. cbv zeta. destruct M as [M0 M]. set (t := Z.max lo (Z.min hi mag)). assert (T : t = Z.min hi mag) by (unfold t; lia). clearbody t. subst t.
  split; [lia|]. split; [|intros X; replace (Z.min hi mag) with mag by lia; lia].
  assert (Z.min hi mag * 2 ^ 200 <= mag * 2 ^ 200) by (apply Z.mul_le_mono_nonneg_r; lia). lia.
Qed.
Lemma raw_size : forall n, 0 < n < 2 ^ 31 -> 0 <= bloom_raw_size n <= i32_max /\ 100000 * bloom_raw_size n <= 623523 * n /\
  (bloom_raw_size n < i32_max -> 623522 * n < 100000 * (bloom_raw_size n + 1)).
Proof.
  intros n H. unfold bloom_raw_size. destruct (f64_of_neg_exact n ltac:(lia)) as (m0 & e0 & -> & N0 & E0 & V0).
  unfold f64_ln_005, f64_ln2.
  assert (NA : norm64 6745789375439761) by (split; reflexivity || (vm_compute; discriminate)).
  assert (NL : norm64 6243314768165359) by (split; reflexivity || (vm_compute; discriminate)).
  destruct (mul64 true m0 e0 true 6745789375439761 (-51) N0 NA) as (m1 & e1 & -> & N1 & E1 & C1); try lia.
  cbn [xorb]. destruct (div64 false m1 e1 false 6243314768165359 (-53) N1 NL) as (m2 & e2 & -> & N2 & E2 & C2); try lia.
  cbn [xorb]. destruct (div64 false m2 e2 false 6243314768165359 (-53) N2 NL) as (m3 & e3 & -> & N3 & E3 & C3); try lia.
  cbn [xorb]. destruct (trunc_val m3 e3 i32_min i32_max) as (T1 & T2 & T3); [lia|vm_compute; discriminate|vm_compute; discriminate|].
  set (t := sf_trunc i32_min i32_max (S754_finite false m3 e3)) in *. clearbody t. rewrite V0 in C1.
  set (A := val32 6745789375439761 (-51)) in *. set (L := val32 6243314768165359 (-53)) in *. set (Y := 2 ^ 200) in *.
  set (v1 := val32 m1 e1) in *. set (v2 := val32 m2 e2) in *. set (v3 := val32 m3 e3) in *.
  assert (PY : 0 < Y) by reflexivity. assert (PA : 0 < A) by reflexivity. assert (PL : 0 < L) by reflexivity.
  unfold close_to in *. clearbody v1 v2 v3. set (K := 2 ^ 52) in *. assert (PK : 2 < K) by reflexivity.
  assert (F1 : (K - 2) * (n * A) <= K * v1 <= (K + 1) * (n * A)).
  { split; apply (Z.mul_le_mono_pos_r _ _ Y PY); [transitivity ((K - 2) * (n * Y * A)); [|transitivity (K * (v1 * Y)); [tauto|]]|transitivity (K * (v1 * Y)); [|transitivity ((K + 1) * (n * Y * A)); [tauto|]]]; apply Z.eq_le_incl; ring. }
  assert (F2 : (K - 2) * ((K - 2) * (n * A) * Y) <= K * K * (v2 * L) <= (K + 1) * ((K + 1) * (n * A) * Y)).
  { split.
    - transitivity ((K - 2) * (K * v1 * Y)); [apply Z.mul_le_mono_nonneg_l; [lia|]; apply Z.mul_le_mono_nonneg_r; lia|].
      replace ((K - 2) * (K * v1 * Y)) with (K * ((K - 2) * (v1 * Y))) by ring. rewrite <- (Z.mul_assoc K K). apply Z.mul_le_mono_nonneg_l; lia.
    - transitivity ((K + 1) * (K * v1 * Y)); [|apply Z.mul_le_mono_nonneg_l; [lia|]; apply Z.mul_le_mono_nonneg_r; lia].
      replace ((K + 1) * (K * v1 * Y)) with (K * ((K + 1) * (v1 * Y))) by ring. rewrite <- (Z.mul_assoc K K). apply Z.mul_le_mono_nonneg_l; lia. }
  assert (F3 : (K - 2) * ((K - 2) * ((K - 2) * (n * A) * Y)) * Y <= K * K * K * (v3 * L * L) <= (K + 1) * ((K + 1) * ((K + 1) * (n * A) * Y)) * Y).
  { split.
    - transitivity ((K - 2) * (K * K * (v2 * L)) * Y); [apply Z.mul_le_mono_nonneg_r; [lia|]; apply Z.mul_le_mono_nonneg_l; lia|].
      replace ((K - 2) * (K * K * (v2 * L)) * Y) with (K * K * L * ((K - 2) * (v2 * Y))) by ring. replace (K * K * K * (v3 * L * L)) with (K * K * L * (K * (v3 * L))) by ring.
      apply Z.mul_le_mono_nonneg_l; [|lia]. apply Z.mul_nonneg_nonneg; [apply Z.mul_nonneg_nonneg|]; lia.
    - transitivity ((K + 1) * (K * K * (v2 * L)) * Y); [|apply Z.mul_le_mono_nonneg_r; [lia|]; apply Z.mul_le_mono_nonneg_l; lia].
      replace ((K + 1) * (K * K * (v2 * L)) * Y) with (K * K * L * ((K + 1) * (v2 * Y))) by ring. replace (K * K * K * (v3 * L * L)) with (K * K * L * (K * (v3 * L))) by ring.
      apply Z.mul_le_mono_nonneg_l; [|lia]. apply Z.mul_nonneg_nonneg; [apply Z.mul_nonneg_nonneg|]; lia. }
  clear F1 F2 C1 C2 C3. set (B := K * K * K * (L * L) * Y). assert (PB : 0 < B) by reflexivity.
  assert (UP : (K + 1) * (K + 1) * (K + 1) * A * Y * Y * 100000 <= 623523 * B) by (vm_compute; discriminate).
  assert (LO : 623522 * B <= (K - 2) * (K - 2) * (K - 2) * A * Y * Y * 100000) by (vm_compute; discriminate).
  assert (PC : 0 < K * K * K * (L * L)) by reflexivity. set (C := K * K * K * (L * L)) in *.
  replace (K * K * K * (v3 * L * L)) with (C * v3) in F3 by (unfold C; ring).
  replace ((K + 1) * ((K + 1) * ((K + 1) * (n * A) * Y)) * Y) with ((K + 1) * (K + 1) * (K + 1) * A * Y * Y * n) in F3 by ring.
  replace ((K - 2) * ((K - 2) * ((K - 2) * (n * A) * Y)) * Y) with ((K - 2) * (K - 2) * (K - 2) * A * Y * Y * n) in F3 by ring.
  set (U := (K + 1) * (K + 1) * (K + 1) * A * Y * Y) in *. set (W := (K - 2) * (K - 2) * (K - 2) * A * Y * Y) in *.
  assert (EB : B = C * Y) by reflexivity. clearbody B U W C Y. clear - T1 T2 T3 F3 UP LO PB PC PY EB H. split; [exact T1|]. split.
  - apply (Z.mul_le_mono_pos_r _ _ B PB). transitivity (100000 * (U * n)).
    + rewrite EB. replace (100000 * t * (C * Y)) with (100000 * (C * (t * Y))) by ring. apply Z.mul_le_mono_nonneg_l; [lia|].
      transitivity (C * v3); [|lia]. apply Z.mul_le_mono_nonneg_l; lia.
    + replace (100000 * (U * n)) with (U * 100000 * n) by ring. replace (623523 * n * B) with (623523 * B * n) by ring. apply Z.mul_le_mono_nonneg_r; lia.
  - intros X. specialize (T3 X). apply (Z.mul_lt_mono_pos_r B _ _ PB). apply Z.le_lt_trans with (W * 100000 * n).
    + replace (623522 * n * B) with (623522 * B * n) by ring. apply Z.mul_le_mono_nonneg_r; lia.
    + replace (W * 100000 * n) with (100000 * (W * n)) by ring. apply Z.le_lt_trans with (100000 * (C * v3)); [lia|].
      rewrite EB. replace (100000 * (t + 1) * (C * Y)) with (100000 * (C * ((t + 1) * Y))) by ring. apply Z.mul_lt_mono_pos_l; [lia|]. apply Z.mul_lt_mono_pos_l; lia.
Qed.
Lemma raw_size_0 : bloom_raw_size 0 = 0.
Proof. vm_compute. reflexivity. Qed.
(** The filter of [n] series: 6.23522... bits each, rounded up past the next integer, at least 256. *)
Lemma bloom_bits_bounds : forall n, 42 <= n <= 300000000 -> 623522 * n < 100000 * bloom_bits n <= 623523 * n + 100000.
Proof.
  intros n H. destruct (raw_size n ltac:(lia)) as (A & B & C). unfold bloom_bits. rewrite (wrapS_small 32 n) by (change (2 ^ (32 - 1)) with 2147483648; lia).
  change i32_max with 2147483647 in *. specialize (C ltac:(lia)). rewrite wrapS_small by (change (2 ^ (32 - 1)) with 2147483648; lia).
  assert (256 <= bloom_raw_size n + 1) by lia. lia.
Qed.
Lemma bloom_bits_le : forall n, 0 <= n <= 300000000 -> bloom_bits n <= 7 * n + 256.
Proof.
  intros n H. destruct (Z.eq_dec n 0) as [->|]; [vm_compute; discriminate|]. destruct (raw_size n ltac:(lia)) as (A & B & C).
  unfold bloom_bits. rewrite (wrapS_small 32 n) by (change (2 ^ (32 - 1)) with 2147483648; lia).
  change i32_max with 2147483647 in *. rewrite wrapS_small by (change (2 ^ (32 - 1)) with 2147483648; lia). lia.
Qed.
