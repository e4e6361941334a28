(** Proofs about the hash function (C22): the signed arithmetic of the code agrees with the unsigned
    reference algorithm modulo 2^64. *)
From Verif Require Export PBase SMurmur MMurmur.
Ltac Zify.zify_post_hook ::= idtac.

(** ** congruence modulo 2^64 *)
Lemma u64_range : forall x, 0 <= u64 x < 2 ^ 64.
Proof. intros x. unfold u64. apply Z.mod_pos_bound. lia. Qed.
Lemma u64_id : forall x, 0 <= x < 2 ^ 64 -> u64 x = x.
Proof. intros x H. unfold u64. apply Z.mod_small. auto. Qed.
Lemma u64_u64 : forall x, u64 (u64 x) = u64 x.
Proof. intros. apply u64_id, u64_range. Qed.
Lemma u64_wrapS : forall x, u64 (wrapS 64 x) = u64 x.
Proof.
  intros x. unfold u64, wrapS. cbv zeta. destruct (_ <? _).
  - apply Z.mod_mod. lia.
  - replace (x mod 2 ^ 64 - 2 ^ 64) with (x mod 2 ^ 64 + (-1) * 2 ^ 64) by lia. rewrite Z_mod_plus_full. apply Z.mod_mod. lia.
Qed.
Lemma u64_wrapU : forall x, wrapU 64 x = u64 x. Proof. reflexivity. Qed.
Lemma u64_add : forall a b, u64 (a + b) = u64 (u64 a + u64 b).
Proof. intros. unfold u64. apply Z.add_mod. lia. Qed.
Lemma u64_addl : forall a b, u64 (a + b) = u64 (u64 a + b).
Proof. intros. unfold u64. rewrite Z.add_mod_idemp_l; lia. Qed.
Lemma u64_mul : forall a b, u64 (a * b) = u64 (u64 a * b).
Proof. intros. unfold u64. rewrite Z.mul_mod_idemp_l; lia. Qed.
Lemma u64_bits : forall x n, 0 <= n -> Z.testbit (u64 x) n = Z.testbit x n && (n <? 64).
Proof.
  intros x n H. unfold u64. destruct (n <? 64) eqn:E.
  - rewrite Z.mod_pow2_bits_low by lia. rewrite andb_true_r. auto.
  - rewrite Z.mod_pow2_bits_high by lia. rewrite andb_false_r. auto.
Qed.
Lemma u64_lxor : forall a b, u64 (Z.lxor a b) = Z.lxor (u64 a) (u64 b).
Proof.
  intros. apply Z.bits_inj'. intros n H. rewrite Z.lxor_spec, !u64_bits, Z.lxor_spec by auto.
  destruct (Z.testbit a n), (Z.testbit b n), (n <? 64); reflexivity.
Qed.
Lemma u64_lor : forall a b, u64 (Z.lor a b) = Z.lor (u64 a) (u64 b).
Proof.
  intros. apply Z.bits_inj'. intros n H. rewrite Z.lor_spec, !u64_bits, Z.lor_spec by auto.
  destruct (Z.testbit a n), (Z.testbit b n), (n <? 64); reflexivity.
Qed.
(** disjoint bits *)
Lemma high_bit : forall b n k, 0 <= n <= k -> 0 <= b < 2 ^ n -> Z.testbit b k = false.
Proof.
  intros b n k H B. rewrite <- (Z.mod_small b (2 ^ n)) by lia. apply Z.mod_pow2_bits_high. lia.
Qed.
Lemma lxor_add : forall q b n, 0 <= n -> 0 <= b < 2 ^ n -> Z.lxor (q * 2 ^ n) b = q * 2 ^ n + b.
Proof.
  intros q b n Hn Hb. symmetry. apply Z.add_nocarry_lxor. apply Z.bits_inj'. intros k Hk. rewrite Z.land_spec, Z.bits_0.
  destruct (Z.ltb_spec k n).
  - rewrite Z.mul_pow2_bits_low by lia. reflexivity.
  - rewrite (high_bit b n k) by lia. apply andb_false_r.
Qed.
Lemma lor_add : forall q b n, 0 <= n -> 0 <= b < 2 ^ n -> Z.lor (q * 2 ^ n) b = q * 2 ^ n + b.
Proof.
  intros q b n Hn Hb. rewrite <- lxor_add by auto. apply Z.bits_inj'. intros k Hk. rewrite Z.lor_spec, Z.lxor_spec.
  destruct (Z.ltb_spec k n).
  - rewrite Z.mul_pow2_bits_low by lia. destruct (Z.testbit b k); reflexivity.
  - rewrite (high_bit b n k) by lia.
    destruct (Z.testbit (q * 2 ^ n) k); reflexivity.
Qed.

Lemma rot_spec : forall v r, 0 < r < 64 -> u64 (rotl64 v r) = rot (u64 v) r.
Proof.
  intros v r H. unfold rotl64, rot. change (wrapU 64 v) with (u64 v). rewrite u64_lor, !u64_wrapS, Z.shiftl_mul_pow2, Z.shiftr_div_pow2 by lia.
  assert (P : 2 ^ 64 = 2 ^ (64 - r) * 2 ^ r) by (rewrite <- Z.pow_add_r by lia; f_equal; lia).
  assert (P1 : 0 < 2 ^ r) by (apply Z.pow_pos_nonneg; lia). assert (P2 : 0 < 2 ^ (64 - r)) by (apply Z.pow_pos_nonneg; lia).
  pose proof (u64_range v) as R.
  assert (D : 0 <= u64 v / 2 ^ (64 - r) < 2 ^ r). { split; [apply Z.div_pos; lia|]. apply Z.div_lt_upper_bound; lia. }
  rewrite (u64_id (u64 v / _)).
  - rewrite <- u64_mul. unfold u64 at 1 3. rewrite P at 1 2. rewrite Z.mul_mod_distr_r by lia. apply lor_add; lia.
  - rewrite P. nia.
Qed.
Lemma rot_range : forall x r, 0 < r < 64 -> 0 <= x < 2 ^ 64 -> 0 <= rot x r < 2 ^ 64.
Proof.
  intros x r H R. rewrite <- (u64_id x R). rewrite <- rot_spec by auto. apply u64_range.
Qed.
Lemma arith_release : forall x, exists y, arithS Release 64 x = Ret y /\ u64 y = u64 x.
Proof. intros x. unfold arithS. destruct (_ && _); eexists; split; try reflexivity. apply u64_wrapS. Qed.
Lemma c1_spec : forall k, u64 (k * mm_c1) = u64 (k * C1).
Proof. intros k. rewrite (Z.mul_comm k), u64_mul. unfold mm_c1. rewrite u64_wrapS. rewrite <- u64_mul, Z.mul_comm. reflexivity. Qed.
Lemma c2_spec : forall k, u64 (k * mm_c2) = u64 (k * C2).
Proof. intros k. rewrite (Z.mul_comm k), u64_mul. unfold mm_c2. rewrite u64_wrapS. rewrite <- u64_mul, Z.mul_comm. reflexivity. Qed.
Lemma u64_mul' : forall a b y, u64 a = y -> u64 (a * b) = u64 (y * b).
Proof. intros a b y <-. apply u64_mul. Qed.

Lemma mix1_spec : forall k1 a b, u64 a = u64 (k1 * mm_c1) -> u64 b = u64 (rotl64 a 31 * mm_c2) -> u64 b = mix1 (u64 k1).
Proof.
  intros k1 a b A B. rewrite B, c2_spec. unfold mix1. apply u64_mul'. rewrite rot_spec by lia. rewrite A, c1_spec. rewrite u64_mul. reflexivity.
Qed.
Lemma mix2_spec : forall k1 a b, u64 a = u64 (k1 * mm_c2) -> u64 b = u64 (rotl64 a 33 * mm_c1) -> u64 b = mix2 (u64 k1).
Proof.
  intros k1 a b A B. rewrite B, c1_spec. unfold mix2. apply u64_mul'. rewrite rot_spec by lia. rewrite A, c2_spec. rewrite u64_mul. reflexivity.
Qed.

Lemma round_spec : forall k1 k2 h1 h2 b H1 H2, u64 k1 = le_val (firstn 8 b) -> u64 k2 = le_val (skipn 8 b) -> u64 h1 = H1 -> u64 h2 = H2 ->
  exists g1 g2, mm_round Release k1 k2 (h1, h2) = Ret (g1, g2) /\ (u64 g1, u64 g2) = mm_block b H1 H2.
Proof.
  intros k1 k2 h1 h2 b H1 H2 K1 K2 E1 E2. unfold mm_round, mm_block. cbv zeta.
  destruct (arith_release (k1 * mm_c1)) as (a1 & -> & A1). cbn [bind].
  destruct (arith_release (rotl64 a1 31 * mm_c2)) as (a2 & -> & A2). cbn [bind].
  destruct (arith_release (rotl64 (Z.lxor h1 a2) 27 + h2)) as (a3 & -> & A3). cbn [bind].
  destruct (arith_release (a3 * 5)) as (a4 & -> & A4). cbn [bind].
  destruct (arith_release (a4 + 0x52dce729)) as (g1 & -> & A5). cbn [bind].
  destruct (arith_release (k2 * mm_c2)) as (b1 & -> & B1). cbn [bind].
  destruct (arith_release (rotl64 b1 33 * mm_c1)) as (b2 & -> & B2). cbn [bind].
  destruct (arith_release (rotl64 (Z.lxor h2 b2) 31 + g1)) as (b3 & -> & B3). cbn [bind].
  destruct (arith_release (b3 * 5)) as (b4 & -> & B4). cbn [bind].
  destruct (arith_release (b4 + 0x38495ab5)) as (g2 & -> & B5). cbn [bind].
  exists g1, g2. split; [reflexivity|].
  pose proof (mix1_spec _ _ _ A1 A2) as M1. pose proof (mix2_spec _ _ _ B1 B2) as M2. rewrite K1 in M1. rewrite K2 in M2.
  assert (X1 : u64 a3 = u64 (rot (Z.lxor H1 (mix1 (le_val (firstn 8 b)))) 27 + H2)).
  { rewrite A3, u64_add, rot_spec, u64_lxor, M1, E1, E2 by lia. reflexivity. }
  assert (G1 : u64 g1 = u64 (u64 (rot (Z.lxor H1 (mix1 (le_val (firstn 8 b)))) 27 + H2) * 5 + 0x52dce729)).
  { rewrite A5, u64_addl, A4, (u64_mul' _ 5 _ X1), <- u64_addl. reflexivity. }
  assert (X2 : u64 b3 = u64 (rot (Z.lxor H2 (mix2 (le_val (skipn 8 b)))) 31 + u64 g1)).
  { rewrite B3, u64_add, rot_spec, u64_lxor, M2, E2 by lia. reflexivity. }
  assert (G2 : u64 g2 = u64 (u64 (rot (Z.lxor H2 (mix2 (le_val (skipn 8 b)))) 31 + u64 g1) * 5 + 0x38495ab5)).
  { rewrite B5, u64_addl, B4, (u64_mul' _ 5 _ X2), <- u64_addl. reflexivity. }
  f_equal; [exact G1|]. rewrite G2, G1. reflexivity.
Qed.

(** ** reading the key *)
Definition isbyte (b : Z) : Prop := 0 <= b < 256.
Lemma at_app : forall pre rest j, mm_at (pre ++ rest) (length pre + j) = nth j rest 0.
Proof. intros. unfold mm_at. rewrite app_nth2 by lia. f_equal. lia. Qed.
Lemma wrap8 : forall b, isbyte b -> exists s, wrapS 64 (Z.shiftl b 56) = s * 2 ^ 56 /\ (s = b \/ s = b - 256).
Proof.
  intros b H. unfold isbyte in H. unfold wrapS. cbv zeta. rewrite Z.shiftl_mul_pow2 by lia. change (2 ^ (64 - 1)) with (2 ^ 63). rewrite Z.mod_small by lia.
  destruct (Z.ltb_spec (b * 2 ^ 56) (2 ^ 63)); [exists b; auto|]. exists (b - 256). split; auto. lia.
Qed.
Lemma block_spec : forall b0 b1 b2 b3 b4 b5 b6 b7, isbyte b0 -> isbyte b1 -> isbyte b2 -> isbyte b3 -> isbyte b4 -> isbyte b5 -> isbyte b6 -> isbyte b7 ->
  u64 (b0 + Z.shiftl b1 8 + Z.shiftl b2 16 + Z.shiftl b3 24 + Z.shiftl b4 32 + Z.shiftl b5 40 + Z.shiftl b6 48 + wrapS 64 (Z.shiftl b7 56))
  = le_val [b0; b1; b2; b3; b4; b5; b6; b7].
Proof.
  intros. destruct (wrap8 b7) as (s & -> & S); auto. rewrite !Z.shiftl_mul_pow2 by lia. unfold isbyte in *. cbn [le_val].
  destruct S; subst s.
  - rewrite u64_id by lia. lia.
  - unfold u64. symmetry. apply Z.mod_unique with (-1); [left; lia|]. lia.
Qed.
Lemma get_block_spec : forall pre rest b0 b1 b2 b3 b4 b5 b6 b7 i o, length pre = o -> (8 * i)%nat = o -> Forall isbyte [b0; b1; b2; b3; b4; b5; b6; b7] ->
  u64 (get_block (pre ++ [b0; b1; b2; b3; b4; b5; b6; b7] ++ rest) 0 i) = le_val [b0; b1; b2; b3; b4; b5; b6; b7].
Proof.
  intros pre rest b0 b1 b2 b3 b4 b5 b6 b7 i o L E F. unfold get_block. cbv zeta.
  replace (0 + 8 * i)%nat with (length pre) by lia. rewrite !at_app.
  replace (mm_at (pre ++ [b0; b1; b2; b3; b4; b5; b6; b7] ++ rest) (length pre)) with b0 by (symmetry; replace (length pre) with (length pre + 0)%nat by lia; apply at_app).
  cbn [nth app]. repeat match goal with H : Forall _ (_ :: _) |- _ => inversion H; clear H; subst end. apply block_spec; auto.
Qed.

Lemma body_spec : forall n i pre rest h1 h2, length pre = (16 * i)%nat -> (16 * n <= length rest)%nat -> Forall isbyte rest ->
  exists g1 g2, mm_body Release (pre ++ rest) i n (h1, h2) = Ret (g1, g2) /\
    mm_blocks n rest (u64 h1) (u64 h2) = mm_blocks 0 (skipn (16 * n) rest) (u64 g1) (u64 g2).
Proof.
  induction n as [|n IH]; intros i pre rest h1 h2 L R F; [exists h1, h2; split; reflexivity|].
  do 16 (destruct rest as [|? rest]; [cbn in R; lia|]).
  repeat match goal with H : Forall _ (_ :: _) |- _ => let A := fresh in pose proof (Forall_inv H) as A; apply Forall_inv_tail in H end.
  cbn [mm_body]. 
  match goal with |- context [get_block (pre ++ ?a0 :: ?a1 :: ?a2 :: ?a3 :: ?a4 :: ?a5 :: ?a6 :: ?a7 :: ?a8 :: ?a9 :: ?a10 :: ?a11 :: ?a12 :: ?a13 :: ?a14 :: ?a15 :: rest) 0 (i * 2)] =>
    set (key := pre ++ a0 :: a1 :: a2 :: a3 :: a4 :: a5 :: a6 :: a7 :: a8 :: a9 :: a10 :: a11 :: a12 :: a13 :: a14 :: a15 :: rest);
    assert (K1 : u64 (get_block key 0 (i * 2)) = le_val (firstn 8 [a0; a1; a2; a3; a4; a5; a6; a7; a8; a9; a10; a11; a12; a13; a14; a15]))
      by (apply (get_block_spec pre (a8 :: a9 :: a10 :: a11 :: a12 :: a13 :: a14 :: a15 :: rest) a0 a1 a2 a3 a4 a5 a6 a7 (i * 2) (16 * i)); [exact L|lia|repeat (apply Forall_cons; [assumption|]); apply Forall_nil]);
    assert (K2 : u64 (get_block key 0 (i * 2 + 1)) = le_val (skipn 8 [a0; a1; a2; a3; a4; a5; a6; a7; a8; a9; a10; a11; a12; a13; a14; a15]));
    [replace key with ((pre ++ [a0; a1; a2; a3; a4; a5; a6; a7]) ++ [a8; a9; a10; a11; a12; a13; a14; a15] ++ rest) by (unfold key; rewrite <- app_assoc; reflexivity);
     apply (get_block_spec _ rest a8 a9 a10 a11 a12 a13 a14 a15 (i * 2 + 1) (16 * i + 8)); [rewrite app_length; cbn [length]; lia|lia|repeat (apply Forall_cons; [assumption|]); apply Forall_nil]
    |destruct (round_spec _ _ h1 h2 _ _ _ K1 K2 eq_refl eq_refl) as (e1 & e2 & E & B); rewrite E; cbn [bind];
     destruct (IH (S i) (pre ++ [a0; a1; a2; a3; a4; a5; a6; a7; a8; a9; a10; a11; a12; a13; a14; a15]) rest e1 e2) as (g1 & g2 & G & M)]
  end.
  - rewrite app_length. cbn [length]. lia.
  - cbn [length] in R. lia.
  - auto.
  - exists g1, g2. split.
    + rewrite <- G. unfold key. rewrite <- app_assoc. reflexivity.
    + replace (16 * S n)%nat with (S (S (S (S (S (S (S (S (S (S (S (S (S (S (S (S (16 * n)))))))))))))))))%nat by lia. cbn [skipn]. rewrite <- M.
      cbn [mm_blocks firstn skipn]. cbn [firstn skipn] in B. rewrite <- B. reflexivity.
Qed.

(** ** the tail *)
Lemma acc_spec : forall n m q b, 0 <= n -> m = n + 8 -> isbyte b -> Z.lxor (q * 2 ^ m) (Z.shiftl b n) = (q * 256 + b) * 2 ^ n.
Proof.
  intros n m q b Hn -> Hb. unfold isbyte in Hb. rewrite Z.shiftl_mul_pow2 by lia. rewrite Z.pow_add_r by lia. change (2 ^ 8) with 256.
  replace (q * (2 ^ n * 256)) with (q * 2 ^ 8 * 2 ^ n) by (change (2 ^ 8) with 256; lia).
  rewrite <- !(Z.shiftl_mul_pow2 _ n) by lia. rewrite <- Z.shiftl_lxor. f_equal. rewrite lxor_add by lia. change (2 ^ 8) with 256. lia.
Qed.
Lemma acc_zero : forall n b, 0 <= n -> Z.lxor 0 (Z.shiftl b n) = b * 2 ^ n.
Proof. intros. rewrite Z.lxor_0_l, Z.shiftl_mul_pow2; auto. Qed.
Lemma acc_last : forall q b, isbyte b -> Z.lxor (q * 2 ^ 8) b = q * 256 + b.
Proof. intros q b H. unfold isbyte in H. rewrite lxor_add by lia. change (2 ^ 8) with 256. lia. Qed.
Lemma fin1 : forall k h K H, u64 k = K -> u64 h = H ->
  u64 (Z.lxor h (wrapS 64 (rotl64 (wrapS 64 (k * mm_c1)) 31 * mm_c2))) = Z.lxor H (mix1 K).
Proof.
  intros k h K H E1 E2. rewrite u64_lxor, E2. f_equal. rewrite (mix1_spec k (wrapS 64 (k * mm_c1)) _ (u64_wrapS _) (u64_wrapS _)), E1. reflexivity.
Qed.
Lemma fin2 : forall k h K H, u64 k = K -> u64 h = H ->
  u64 (Z.lxor h (wrapS 64 (rotl64 (wrapS 64 (k * mm_c2)) 33 * mm_c1))) = Z.lxor H (mix2 K).
Proof.
  intros k h K H E1 E2. rewrite u64_lxor, E2. f_equal. rewrite (mix2_spec k (wrapS 64 (k * mm_c2)) _ (u64_wrapS _) (u64_wrapS _)), E1. reflexivity.
Qed.
Lemma mix_zero : forall h, Z.lxor h (mix1 0) = h /\ Z.lxor h (mix2 0) = h.
Proof. intros h. change (mix1 0) with 0. change (mix2 0) with 0. rewrite Z.lxor_0_r. auto. Qed.
Lemma at_app0 : forall pre rest, mm_at (pre ++ rest) (length pre) = nth 0 rest 0.
Proof. intros. rewrite <- (at_app pre rest 0). f_equal. lia. Qed.

Ltac tail_case h2 :=
    repeat match goal with H : Forall _ (_ :: _) |- _ => let A := fresh in pose proof (Forall_inv H) as A; apply Forall_inv_tail in H end;
    cbn [length mm_tail mm_tail_step]; rewrite ?at_app, ?at_app0; cbn [nth];
    try match goal with |- context [wrapS 64 (Z.shiftl ?b 56)] => 
      let s := fresh "s" in let S := fresh "S" in destruct (wrap8 b) as (s & -> & S); [assumption|]; rewrite (Z.lxor_0_l (s * 2 ^ 56)) end;
    rewrite ?acc_zero by lia;
    rewrite ?(acc_spec 48 56) by (assumption || reflexivity || lia);
    rewrite ?(acc_spec 40 48) by (assumption || reflexivity || lia);
    rewrite ?(acc_spec 32 40) by (assumption || reflexivity || lia);
    rewrite ?(acc_spec 24 32) by (assumption || reflexivity || lia);
    rewrite ?(acc_spec 16 24) by (assumption || reflexivity || lia);
    rewrite ?(acc_spec 8 16) by (assumption || reflexivity || lia);
    rewrite ?acc_last by assumption; rewrite ?Z.lxor_0_l;
    eexists; eexists; eexists; eexists; (split; [reflexivity|]);
    cbn [mm_blocks firstn skipn]; unfold isbyte in *;
    f_equal; symmetry;
    [ apply fin1; [|reflexivity]; cbn [le_val];
      first [rewrite u64_id by lia; lia
            |match goal with S : ?s = _ \/ ?s = _ |- _ => destruct S; subst s;
               [rewrite u64_id by lia; lia|unfold u64; symmetry; apply Z.mod_unique with (-1); [left; lia|lia]] end]
    | first [apply fin2; [|reflexivity]; cbn [le_val]; rewrite u64_id by lia; lia
            |cbn [le_val]; destruct (mix_zero (u64 h2)) as [_ ->]; reflexivity] ].
Lemma Forall_skipn : forall A (P : A -> Prop) n l, Forall P l -> Forall P (skipn n l).
Proof. intros A P n. induction n; intros [|x l] H; cbn; auto. apply IHn. apply Forall_inv_tail in H. exact H. Qed.
Lemma tail_spec : forall pre rest h1 h2, (length rest < 16)%nat -> Forall isbyte rest ->
  exists k1 k2 g1 g2, mm_tail (pre ++ rest) (length pre) (length rest) (0, 0, h1, h2) = (k1, k2, g1, g2) /\
    mm_blocks 0 rest (u64 h1) (u64 h2) = (u64 g1, u64 g2).
Proof.
  intros pre rest h1 h2 L F.
  destruct rest as [|b0 rest]; [exists 0, 0, h1, h2; split; [reflexivity|]; cbn [mm_blocks firstn skipn le_val]; destruct (mix_zero (u64 h1)) as [-> _]; destruct (mix_zero (u64 h2)) as [_ ->]; reflexivity|].
  destruct rest as [|b1 rest]; [tail_case h2|].
  destruct rest as [|b2 rest]; [tail_case h2|].
  destruct rest as [|b3 rest]; [tail_case h2|].
  destruct rest as [|b4 rest]; [tail_case h2|].
  destruct rest as [|b5 rest]; [tail_case h2|].
  destruct rest as [|b6 rest]; [tail_case h2|].
  destruct rest as [|b7 rest]; [tail_case h2|].
  destruct rest as [|b8 rest]; [tail_case h2|].
  destruct rest as [|b9 rest]; [tail_case h2|].
  destruct rest as [|b10 rest]; [tail_case h2|].
  destruct rest as [|b11 rest]; [tail_case h2|].
  destruct rest as [|b12 rest]; [tail_case h2|].
  destruct rest as [|b13 rest]; [tail_case h2|].
  destruct rest as [|b14 rest]; [tail_case h2|].
  destruct rest as [|b15 rest]; [tail_case h2|].
  exfalso. cbn [length] in L. lia.
Qed.

(** ** the whole hash *)
Lemma xorshift_spec : forall k, u64 (mm_xorshift k) = Z.lxor (u64 k) (u64 k / 2 ^ 33).
Proof.
  intros k. unfold mm_xorshift. rewrite u64_lxor, u64_wrapS. f_equal. change (wrapU 64 k) with (u64 k). rewrite Z.shiftr_div_pow2 by lia.
  pose proof (u64_range k). apply u64_id. split; [apply Z.div_pos; lia|]. apply Z.div_lt_upper_bound; lia.
Qed.
Lemma fmix_spec : forall k, u64 (mm_fmix k) = avalanche (u64 k).
Proof.
  intros k. unfold mm_fmix, avalanche. cbv zeta. rewrite xorshift_spec, u64_wrapS.
  assert (E : u64 (mm_xorshift (wrapS 64 (mm_xorshift k * 0xff51afd7ed558ccd)) * 0xc4ceb9fe1a85ec53) =
    u64 (Z.lxor (u64 (Z.lxor (u64 k) (u64 k / 2 ^ 33) * 0xff51afd7ed558ccd)) (u64 (Z.lxor (u64 k) (u64 k / 2 ^ 33) * 0xff51afd7ed558ccd) / 2 ^ 33) * 0xc4ceb9fe1a85ec53)).
  { apply u64_mul'. rewrite xorshift_spec, u64_wrapS. rewrite (u64_mul' _ _ _ (xorshift_spec k)). reflexivity. }
  rewrite E. reflexivity.
Qed.
Lemma mod_mod_pow : forall x, (x mod 2 ^ 64) mod 2 ^ 32 = x mod 2 ^ 32.
Proof. intros x. change (2 ^ 64) with (2 ^ 32 * 2 ^ 32). rewrite Z.rem_mul_r by lia. rewrite Z.mul_comm, Z.mod_add by lia. apply Z.mod_mod. lia. Qed.
Lemma murmur_spec : forall s seed, Forall isbyte s -> zlen s < 2 ^ 31 -> 0 <= seed < 2 ^ 31 ->
  murmur_hash Release s seed = Ret (path_hash s seed).
Proof.
  intros s seed F L S. unfold murmur_hash, inner_hash, path_hash, murmur3_x64_128.
  set (n := (length s / 16)%nat).
  assert (Hn : (16 * n <= length s)%nat) by (unfold n; apply Nat.mul_div_le; lia).
  destruct (body_spec n 0 [] s seed seed eq_refl Hn F) as (g1 & g2 & B & M). cbn [app] in B. rewrite B. cbn [bind].
  rewrite (u64_id seed) in M by lia.
  assert (Hm : (length s mod 16)%nat = length (skipn (16 * n) s)). { rewrite skipn_length. unfold n. rewrite Nat.mod_eq by lia. reflexivity. }
  assert (Hp : length (firstn (16 * n) s) = (n * 16)%nat) by (rewrite firstn_length; lia).
  destruct (tail_spec (firstn (16 * n) s) (skipn (16 * n) s) g1 g2) as (k1 & k2 & h1 & h2 & T & M2).
  { rewrite <- Hm. apply Nat.mod_upper_bound. lia. }
  { apply Forall_skipn. exact F. }
  rewrite firstn_skipn, Hp, <- Hm in T. rewrite T. rewrite M, M2. cbv zeta.
  set (len := Z.of_nat (length s)). assert (U : u64 len = len) by (apply u64_id; unfold zlen in L; unfold len; lia).
  destruct (arith_release (Z.lxor h1 len + Z.lxor h2 len)) as (a1 & -> & A1). cbn [bind].
  destruct (arith_release (Z.lxor h2 len + a1)) as (a2 & -> & A2). cbn [bind]. f_equal.
  rewrite u64_add, !u64_lxor, U in A1. rewrite u64_add, u64_lxor, U in A2.
  unfold wrapS at 1. 
  assert (W : forall x y, u64 x = u64 y -> (let u := x mod 2 ^ 32 in if u <? 2 ^ (32 - 1) then u else u - 2 ^ 32) = (y + 2 ^ 31) mod 2 ^ 32 - 2 ^ 31).
  { intros x y E. assert (E2 : x mod 2 ^ 32 = y mod 2 ^ 32). { unfold u64 in E. rewrite <- (mod_mod_pow x), <- (mod_mod_pow y), E. reflexivity. }
    cbv zeta. rewrite E2. rewrite <- Z.add_mod_idemp_l by lia. pose proof (Z.mod_pos_bound y (2 ^ 32) ltac:(lia)). change (2 ^ (32 - 1)) with (2 ^ 31).
    destruct (Z.ltb_spec (y mod 2 ^ 32) (2 ^ 31)).
    - rewrite (Z.mod_small (y mod 2 ^ 32 + 2 ^ 31)) by lia. lia.
    - rewrite <- (Z.mod_unique (y mod 2 ^ 32 + 2 ^ 31) (2 ^ 32) 1 (y mod 2 ^ 32 + 2 ^ 31 - 2 ^ 32)); [lia|left; lia|lia]. }
  apply W. rewrite u64_wrapS.
  assert (X1 : u64 (wrapS 64 (mm_fmix a1 + mm_fmix a2)) = u64 (avalanche (u64 a1) + avalanche (u64 a2))).
  { rewrite u64_wrapS, u64_add, !fmix_spec. reflexivity. }
  assert (X2 : u64 (wrapS 64 (mm_fmix a2 + wrapS 64 (mm_fmix a1 + mm_fmix a2))) = u64 (avalanche (u64 a2) + u64 (avalanche (u64 a1) + avalanche (u64 a2)))).
  { rewrite u64_wrapS, u64_add, X1, fmix_spec. reflexivity. }
  rewrite u64_add, X1, X2, A2, A1. reflexivity.
Qed.
