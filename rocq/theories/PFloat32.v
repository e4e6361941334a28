(** Upper bounds for binary32 division and multiplication of positive numbers. *)
From Verif Require Export PFloat PChunk.
Ltac Zify.zify_post_hook ::= idtac.

(** [m * 2^e], scaled by 2^200 to stay in [Z]. *)
Definition val32 (m : positive) (e : Z) : Z := Zpos m * 2 ^ (e + 200).
Definition norm32 (m : positive) : Prop := 2 ^ 23 <= Zpos m < 2 ^ 24.
Lemma norm32_digits : forall m, norm32 m -> Zpos (digits2_pos m) = 24.
Proof. intros m H. apply digits2_unique. exact H. Qed.
Lemma shr_of_loc_m : forall m l, shr_m (shr_record_of_loc m l) = m.
Proof. intros m [|[]]; reflexivity. Qed.

Lemma round_aux_le : forall mx ex lx d, Zpos (digits2_pos mx) = d -> 24 <= d -> -149 <= ex -> d + ex <= 100 ->
  exists m e, binary_round_aux 24 128 false (Zpos mx) ex lx = S754_finite false m e /\ norm32 m /\
    -149 <= e /\ d + ex - 24 <= e <= d + ex - 23 /\ val32 m e <= (Zpos mx + 2 ^ (d - 24)) * 2 ^ (ex + 200).
Proof.
  intros mx ex lx d D D1 E1 E2. pose proof (digits2_pos_bound mx) as B. rewrite D in B.
  unfold binary_round_aux, shr_fexp, fexp, emin. change (3 - 128 - 24) with (-149). cbn [Zdigits2]. rewrite D.
  replace (Z.max (d + ex - 24) (-149) - ex) with (d - 24) by lia. set (n := d - 24) in *.
  destruct (shr (shr_record_of_loc (Z.pos mx) lx) ex n) as [r1 e1] eqn:S.
  destruct (shr_spec (shr_record_of_loc (Z.pos mx) lx) ex n) as [S1 S2]; [rewrite shr_of_loc_m; lia|unfold n; lia|].
  rewrite S in S1, S2. cbn [fst snd] in S1, S2. rewrite shr_of_loc_m in S1.
  assert (P : 0 < 2 ^ n) by (apply pow2_pos; unfold n; lia).
  set (m' := shr_m r1) in *.
  assert (M1 : 2 ^ 23 <= m' < 2 ^ 24).
  { rewrite S1. split.
    - apply Z.div_le_lower_bound; [lia|]. rewrite <- Z.pow_add_r by (unfold n; lia). replace (n + 23) with (d - 1) by (unfold n; lia). lia.
    - apply Z.div_lt_upper_bound; [lia|]. rewrite <- Z.pow_add_r by (unfold n; lia). replace (n + 24) with d by (unfold n; lia). lia. }
  assert (M2 : m' * 2 ^ n <= Zpos mx) by (rewrite S1, Z.mul_comm; apply Z.mul_div_le; lia).
  clearbody m'. set (m1 := round_nearest_even m' (loc_of_shr_record r1)).
  assert (B1 : 2 ^ 23 <= m1 <= 2 ^ 24 /\ m1 <= m' + 1).
  { unfold m1. destruct (round_ne_cases m' (loc_of_shr_record r1)) as [-> | ->]; lia. }
  clearbody m1. destruct B1 as [B1 B2].
  assert (V : m1 * 2 ^ (e1 + 200) <= (Zpos mx + 2 ^ n) * 2 ^ (ex + 200)).
  { rewrite S2. replace (ex + n + 200) with (n + (ex + 200)) by lia. rewrite Z.pow_add_r by (unfold n; lia).
    pose proof (pow2_pos (ex + 200) ltac:(lia)). rewrite Z.mul_assoc. apply Z.mul_le_mono_nonneg_r; [lia|].
    set (a := 2 ^ n) in *. clearbody a. clear - M2 B2 P. nia. }
  assert (N : n = d - 24) by reflexivity. clearbody n. subst e1. cbn [shr_record_of_loc].
  destruct (Z.eq_dec m1 (2 ^ 24)) as [E|E].
  - subst m1. change (Zdigits2 (2 ^ 24)) with 25.
    replace (Z.max (25 + (ex + n) - 24) (-149) - (ex + n)) with 1 by lia. change (2 ^ 24) with 16777216 in *. cbn [shr iter_pos shr_1 shr_m].
    replace (ex + n + 1 <=? 128 - 24) with true by (symmetry; apply Z.leb_le; lia).
    exists 8388608%positive, (ex + n + 1). split; [reflexivity|]. split; [split; reflexivity|]. split; [lia|]. split; [lia|].
    unfold val32. replace (ex + n + 1 + 200) with (1 + (ex + n + 200)) by lia. rewrite Z.pow_add_r by lia. 
    rewrite Z.mul_assoc. exact V.
  - destruct m1 as [|m1|]; [lia| |lia]. 
    assert (N1 : norm32 m1) by (unfold norm32; lia).
    cbn [Zdigits2]. rewrite (norm32_digits m1 N1). replace (Z.max (24 + (ex + n) - 24) (-149) - (ex + n)) with 0 by lia.
    cbn [shr shr_m]. replace (ex + n <=? 128 - 24) with true by (symmetry; apply Z.leb_le; lia).
    exists m1, (ex + n). split; [reflexivity|]. split; [auto|]. split; [lia|]. split; [lia|]. exact V.
Qed.
Lemma round_aux_exact : forall m e, norm32 m -> -149 <= e <= 76 ->
  binary_round_aux 24 128 false (Zpos m) e loc_Exact = S754_finite false m e.
Proof.
  intros m e N H. unfold binary_round_aux, shr_fexp, fexp, emin. change (3 - 128 - 24) with (-149). cbn [Zdigits2].
  rewrite (norm32_digits m N). replace (Z.max (24 + e - 24) (-149) - e) with 0 by lia.
  cbn [shr shr_record_of_loc shr_m loc_of_shr_record round_nearest_even Zdigits2]. rewrite (norm32_digits m N).
  replace (Z.max (24 + e - 24) (-149) - e) with 0 by lia. cbn [shr shr_m].
  replace (e <=? 128 - 24) with true by (symmetry; apply Z.leb_le; lia). reflexivity.
Qed.
(** Integers below 2^24 are represented exactly. *)
Lemma f32_of_Z_exact : forall n, 0 < n < 2 ^ 24 ->
  exists m e, f32_of_Z n = S754_finite false m e /\ norm32 m /\ -23 <= e <= 0 /\ val32 m e = n * 2 ^ 200.
Proof.
  intros n H. destruct n as [|q|]; try lia. pose proof (digits2_pos_bound q) as B. set (d := Zpos (digits2_pos q)) in *.
  assert (Hd : 1 <= d <= 24).
  { split; [unfold d; lia|]. destruct (Z_le_gt_dec d 24); auto. assert (2 ^ 24 <= 2 ^ (d - 1)) by (apply Z.pow_le_mono_r; lia). lia. }
  unfold f32_of_Z, binary_normalize, binary_round, shl_align, fexp, emin. fold d. change (3 - 128 - 24) with (-149).
  replace (Z.max (d + 0 - 24) (-149) - 0) with (d - 24) by lia. replace (Z.max (d + 0 - 24) (-149)) with (d - 24) by lia.
  destruct (d - 24) as [|x|x] eqn:E; [|lia|].
  - assert (d = 24) by lia. exists q, 0. assert (norm32 q) by (unfold norm32; replace 23 with (d - 1) by lia; replace 24 with d by lia; exact B).
    rewrite round_aux_exact by (auto; lia). split; [reflexivity|]. split; [auto|]. split; [lia|]. unfold val32. reflexivity.
  - assert (D2 : Zpos (digits2_pos (shift_pos x q)) = 24) by (rewrite digits_shift; fold d; lia).
    assert (N : norm32 (shift_pos x q)) by (unfold norm32; pose proof (digits2_pos_bound (shift_pos x q)) as B2; rewrite D2 in B2; exact B2).
    exists (shift_pos x q), (Zneg x). rewrite round_aux_exact by (auto; lia). split; [reflexivity|]. split; [auto|]. split; [lia|].
    unfold val32. rewrite Zpower.shift_pos_correct. change (Z.pow_pos 2 x) with (2 ^ Z.pos x).
    rewrite (Z.mul_comm (2 ^ Z.pos x)), <- Z.mul_assoc, <- Z.pow_add_r by lia. f_equal. f_equal. lia.
Qed.
Lemma digits_low : forall q, 2 ^ (Zpos (digits2_pos q) - 1) <= Zpos q.
Proof. intros. apply digits2_pos_bound. Qed.
Lemma div_65536_le : forall m2 e2, norm32 m2 -> -23 <= e2 <= 0 ->
  exists m e, f32_div (S754_finite false 8388608 (-7)) (S754_finite false m2 e2) = S754_finite false m e /\ norm32 m /\
    -31 <= e <= 2 /\ 2 ^ 23 * (val32 m e * val32 m2 e2) <= (2 ^ 23 + 1) * 2 ^ 416.
Proof.
  intros m2 e2 N H. unfold f32_div, SFdiv, SFdiv_core_binary. cbn [Zdigits2]. rewrite (norm32_digits m2 N).
  change (Z.pos (digits2_pos 8388608)) with 24. unfold fexp, emin. change (3 - 128 - 24) with (-149).
  replace (Z.min (Z.max (24 + -7 - (24 + e2) - 24) (-149)) (-7 - e2)) with (-31 - e2) by lia.
  replace (-7 - e2 - (-31 - e2)) with 24 by lia. change (Z.shiftl 8388608 24) with (2 ^ 47).
  pose proof (Z_div_mod (2 ^ 47) (Zpos m2) ltac:(lia)) as DM. destruct (Z.div_eucl (2 ^ 47) (Z.pos m2)) as [q r] eqn:DE.
  destruct DM as [DM R]. unfold norm32 in N. cbn [xorb].
  assert (Q : 2 ^ 23 <= q <= 2 ^ 24).
  { change (2 ^ 47) with 140737488355328 in DM. change (2 ^ 23) with 8388608 in *. change (2 ^ 24) with 16777216 in *. nia. }
  destruct q as [|q|]; try lia. 
  assert (D : 24 <= Zpos (digits2_pos q) <= 25).
  { pose proof (digits2_pos_bound q) as B. set (d := Zpos (digits2_pos q)) in *. split.
    - destruct (Z_le_gt_dec 24 d); auto. assert (2 ^ d <= 2 ^ 23) by (apply Z.pow_le_mono_r; lia). lia.
    - destruct (Z_le_gt_dec d 25); auto. assert (2 ^ 25 <= 2 ^ (d - 1)) by (apply Z.pow_le_mono_r; lia). lia. }
  destruct (round_aux_le q (-31 - e2) (new_location (Z.pos m2) r) _ eq_refl) as (m & e & E & Nm & E1 & E2 & V); try lia.
  exists m, e. split; [exact E|]. split; [exact Nm|]. split; [lia|].
  pose proof (digits_low q) as DL. set (d := Zpos (digits2_pos q)) in *.
  replace (d - 1) with (23 + (d - 24)) in DL by lia. rewrite Z.pow_add_r in DL by lia.
  set (v := val32 m e) in *. clearbody v. unfold val32.
  replace (2 ^ 23 * (v * (Z.pos m2 * 2 ^ (e2 + 200)))) with ((2 ^ 23 * v) * Zpos m2 * 2 ^ (e2 + 200)) by ring.
  pose proof (pow2_pos (e2 + 200) ltac:(lia)) as P1. pose proof (pow2_pos (-31 - e2 + 200) ltac:(lia)) as P2.
  transitivity (((2 ^ 23 + 1) * Zpos q * 2 ^ (-31 - e2 + 200)) * Zpos m2 * 2 ^ (e2 + 200)).
  - apply Z.mul_le_mono_nonneg_r; [lia|]. apply Z.mul_le_mono_nonneg_r; [lia|].
    transitivity (2 ^ 23 * ((Z.pos q + 2 ^ (d - 24)) * 2 ^ (-31 - e2 + 200))); [lia|].
    rewrite Z.mul_assoc. apply Z.mul_le_mono_nonneg_r; [lia|]. lia.
  - replace ((2 ^ 23 + 1) * Z.pos q * 2 ^ (-31 - e2 + 200) * Z.pos m2 * 2 ^ (e2 + 200))
      with ((2 ^ 23 + 1) * (Zpos m2 * Zpos q * (2 ^ (-31 - e2 + 200) * 2 ^ (e2 + 200)))) by ring.
    rewrite <- Z.pow_add_r by lia. replace (-31 - e2 + 200 + (e2 + 200)) with 369 by lia.
    apply Z.mul_le_mono_nonneg_l; [lia|]. change (2 ^ 416) with (2 ^ 47 * 2 ^ 369). apply Z.mul_le_mono_nonneg_r; lia.
Qed.
Lemma mul_le32 : forall m1 e1 m2 e2, norm32 m1 -> norm32 m2 -> -100 <= e1 + e2 <= 50 -> -200 <= e1 -> -200 <= e2 ->
  exists m e, f32_mul (S754_finite false m1 e1) (S754_finite false m2 e2) = S754_finite false m e /\
    -149 <= e /\ 2 ^ 23 * val32 m e * 2 ^ 200 <= (2 ^ 23 + 1) * (val32 m1 e1 * val32 m2 e2).
Proof.
  intros m1 e1 m2 e2 N1 N2 H H1 H2. unfold f32_mul, SFmul. cbn [xorb].
  assert (D : 24 <= Zpos (digits2_pos (m1 * m2)) <= 48).
  { pose proof (digits2_pos_bound (m1 * m2)) as B. rewrite Pos2Z.inj_mul in B. unfold norm32 in *. set (d := Zpos (digits2_pos (m1 * m2))) in *. split.
    - destruct (Z_le_gt_dec 24 d); auto. assert (2 ^ d <= 2 ^ 23) by (apply Z.pow_le_mono_r; lia). nia.
    - destruct (Z_le_gt_dec d 48); auto. assert (2 ^ 48 <= 2 ^ (d - 1)) by (apply Z.pow_le_mono_r; lia). change (2 ^ 48) with (2 ^ 24 * 2 ^ 24) in *. nia. }
  destruct (round_aux_le (m1 * m2) (e1 + e2) loc_Exact _ eq_refl) as (m & e & E & Nm & E1 & E2 & V); try lia.
  exists m, e. split; [exact E|]. split; [exact E1|].
  pose proof (digits_low (m1 * m2)) as DL. set (d := Zpos (digits2_pos (m1 * m2))) in *.
  replace (d - 1) with (23 + (d - 24)) in DL by lia. rewrite Z.pow_add_r in DL by lia.
  pose proof (pow2_pos (e1 + e2 + 200) ltac:(lia)) as P2.
  transitivity ((2 ^ 23 + 1) * (Zpos (m1 * m2) * 2 ^ (e1 + e2 + 200)) * 2 ^ 200).
  - apply Z.mul_le_mono_nonneg_r; [lia|].
    transitivity (2 ^ 23 * ((Z.pos (m1 * m2) + 2 ^ (d - 24)) * 2 ^ (e1 + e2 + 200))); [apply Z.mul_le_mono_nonneg_l; [lia|exact V]|].
    rewrite !Z.mul_assoc. apply Z.mul_le_mono_nonneg_r; [lia|]. lia.
  - unfold val32. rewrite Pos2Z.inj_mul. apply Z.eq_le_incl.
    replace (Z.pos m1 * 2 ^ (e1 + 200) * (Z.pos m2 * 2 ^ (e2 + 200))) with (Z.pos m1 * Z.pos m2 * (2 ^ (e1 + 200) * 2 ^ (e2 + 200))) by ring.
    rewrite <- Z.pow_add_r by lia. replace (e1 + 200 + (e2 + 200)) with ((e1 + e2 + 200) + 200) by lia. rewrite (Z.pow_add_r 2 (e1 + e2 + 200)) by lia. ring.
Qed.
(** The next check is at most [65536 * points / size], up to the rounding of two operations. *)
Lemma next_check_le : forall size points, 0 < size < 2 ^ 24 -> 0 < points < 2 ^ 24 ->
  0 <= next_check_estimate size points /\
  2 ^ 46 * (next_check_estimate size points * size) <= (2 ^ 23 + 1) * (2 ^ 23 + 1) * (65536 * points).
Proof.
  intros s n Hs Hn. unfold next_check_estimate.
  destruct (f32_of_Z_exact s Hs) as (ms & es & -> & Ns & Es & Vs). destruct (f32_of_Z_exact n Hn) as (mn & en & -> & Nn & En & Vn).
  change (f32_of_Z PAGE_SIZE_THRESHOLD) with (S754_finite false 8388608 (-7)).
  destruct (div_65536_le ms es Ns Es) as (mr & er & -> & Nr & Er & Vr).
  destruct (mul_le32 mr er mn en Nr Nn) as (m & e & -> & Ee & V); try lia.
  unfold sf_trunc. set (mag := if e <? 0 then Z.pos m / 2 ^ (- e) else Z.pos m * 2 ^ e).
  assert (M : 0 <= mag /\ mag * 2 ^ 200 <= val32 m e).
  { unfold mag, val32. destruct (e <? 0) eqn:Q.
    - apply Z.ltb_lt in Q. pose proof (pow2_pos (- e) ltac:(lia)) as P. split; [apply Z.div_pos; lia|].
      replace (2 ^ 200) with (2 ^ (- e) * 2 ^ (e + 200)) by (rewrite <- Z.pow_add_r by lia; f_equal; lia).
      rewrite Z.mul_assoc. apply Z.mul_le_mono_nonneg_r; [pose proof (pow2_pos (e + 200) ltac:(lia)); lia|].
      rewrite Z.mul_comm. apply Z.mul_div_le. lia.
    - apply Z.ltb_ge in Q. pose proof (pow2_pos e ltac:(lia)). split; [lia|]. rewrite Z.pow_add_r by lia. lia. }
  destruct M as [M0 M]. clearbody mag. set (v := Z.max 0 _). assert (Hv : 0 <= v <= mag) by (unfold v; lia). clearbody v. split; [lia|].
  rewrite Vs in Vr. rewrite Vn in V. set (x := val32 m e) in *. set (y := val32 mr er) in *.
  assert (0 <= y) by (unfold y, val32; pose proof (pow2_pos (er + 200) ltac:(lia)); lia). clearbody x y. clear Er Ee Es En Nr Nn Ns.
  assert (A1 : 2 ^ 23 * x <= (2 ^ 23 + 1) * (y * n)) by (change (2 ^ 200) with (2 ^ 200) in V; set (P := 2 ^ 200) in *; assert (0 < P) by reflexivity; clearbody P; nia).
  assert (A2 : 2 ^ 23 * (y * s) <= (2 ^ 23 + 1) * 2 ^ 216).
  { change (2 ^ 416) with (2 ^ 216 * 2 ^ 200) in Vr. set (P := 2 ^ 200) in *. assert (0 < P) by reflexivity. clearbody P. clear - Vr H0.
    apply (Z.mul_le_mono_pos_r _ _ P); [lia|]. lia. }
  apply (Z.mul_le_mono_pos_r _ _ (2 ^ 200)); [reflexivity|].
  transitivity (2 ^ 46 * (x * s)).
  { rewrite <- Z.mul_assoc. apply Z.mul_le_mono_nonneg_l; [lia|]. replace (v * s * 2 ^ 200) with (v * 2 ^ 200 * s) by ring.
    apply Z.mul_le_mono_nonneg_r; [lia|]. assert (v * 2 ^ 200 <= mag * 2 ^ 200) by (apply Z.mul_le_mono_nonneg_r; lia). lia. }
  change (2 ^ 46) with (2 ^ 23 * 2 ^ 23).
  replace (2 ^ 23 * 2 ^ 23 * (x * s)) with ((2 ^ 23 * x) * (2 ^ 23 * s)) by ring.
  transitivity ((2 ^ 23 + 1) * (y * n) * (2 ^ 23 * s)); [apply Z.mul_le_mono_nonneg_r; lia|].
  replace ((2 ^ 23 + 1) * (y * n) * (2 ^ 23 * s)) with ((2 ^ 23 + 1) * n * (2 ^ 23 * (y * s))) by ring.
  replace ((2 ^ 23 + 1) * (2 ^ 23 + 1) * (65536 * n) * 2 ^ 200) with ((2 ^ 23 + 1) * n * ((2 ^ 23 + 1) * (65536 * 2 ^ 200))) by ring.
  change (65536 * 2 ^ 200) with (2 ^ 216). apply Z.mul_le_mono_nonneg_l; [lia|exact A2].
Qed.
