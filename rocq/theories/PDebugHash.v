(** Hashes and filters of debug builds (C58). *)
From Verif Require Import PProfile PBloom PFloat64 SDebug.
Ltac Zify.zify_post_hook ::= idtac.

Definition sg (x : Z) : Prop := - 2 ^ 63 <= x < 2 ^ 63.
Lemma s64_eq : forall x U, sg x -> u64 x = U -> s64 U = x.
Proof.
  intros x U S <-. unfold sg in S. unfold s64, u64. destruct (Z_lt_le_dec x 0).
  - replace (x mod 2 ^ 64) with (x + 2 ^ 64) by (apply Z.mod_unique with (-1); lia). destruct (Z.ltb_spec (x + 2 ^ 64) (2 ^ 63)); lia.
  - rewrite Z.mod_small by lia. destruct (Z.ltb_spec x (2 ^ 63)); lia.
Qed.
Lemma sg_shift : forall x, sg x <-> Z.shiftr x 63 = 0 \/ Z.shiftr x 63 = -1.
Proof.
  intros x. rewrite Z.shiftr_div_pow2 by lia. unfold sg. pose proof (Z.div_mod x (2 ^ 63) ltac:(lia)). pose proof (Z.mod_pos_bound x (2 ^ 63) ltac:(lia)).
  split; intros; [|lia]. assert (-1 <= x / 2 ^ 63 < 1) by (split; [apply Z.div_le_lower_bound; lia|apply Z.div_lt_upper_bound; lia]). lia.
Qed.
Lemma sg_lxor : forall a b, sg a -> sg b -> sg (Z.lxor a b).
Proof. intros a b A B. apply sg_shift. apply sg_shift in A, B. rewrite Z.shiftr_lxor. destruct A as [-> | ->], B as [-> | ->]; auto. Qed.
Lemma sg_lor : forall a b, sg a -> sg b -> sg (Z.lor a b).
Proof. intros a b A B. apply sg_shift. apply sg_shift in A, B. rewrite Z.shiftr_lor. destruct A as [-> | ->], B as [-> | ->]; auto. Qed.
Lemma sg_wrap : forall x, sg (wrapS 64 x).
Proof. intros x. apply (wrapS_range 64 x). lia. Qed.
Lemma sg_rot : forall v r, sg (rotl64 v r).
Proof. intros. unfold rotl64. apply sg_lor; apply sg_wrap. Qed.

Lemma arith_debug : forall v, arithS Debug 64 v = if inside 64 v then Ret v else Panic POverflow.
Proof. reflexivity. Qed.
Lemma arith_inside : forall p v, inside 64 v = true -> arithS p 64 v = Ret v /\ sg v.
Proof. intros p v H. unfold arithS. unfold inside in H. rewrite H. split; [reflexivity|]. apply andb_prop in H. destruct H as [A B]. apply Z.leb_le in A. apply Z.ltb_lt in B. split; assumption. Qed.

Lemma c1_word : mm_c1 = s64 C1. Proof. reflexivity. Qed.
Lemma c2_word : mm_c2 = s64 C2. Proof. reflexivity. Qed.
(** One number: either side panics, or both go on. *)
Ltac number N :=
  rewrite N, arith_debug;
  match goal with |- context [if inside 64 ?v then _ else _] =>
    let I := fresh "I" in let S := fresh "S" in let R := fresh "R" in
    destruct (inside 64 v) eqn:I; cbn [andb bind]; [|reflexivity];
    destruct (arith_inside Release _ I) as [R S]; rewrite R; clear R; cbn [bind]
  end.
Lemma round_debug : forall k1 k2 h1 h2 b, sg k1 -> sg k2 -> sg h1 -> sg h2 -> u64 k1 = le_val (firstn 8 b) -> u64 k2 = le_val (skipn 8 b) ->
  mm_round Debug k1 k2 (h1, h2) = if forallb (inside 64) (block_numbers b (u64 h1) (u64 h2)) then mm_round Release k1 k2 (h1, h2) else Panic POverflow.
Proof.
  intros k1 k2 h1 h2 b SK1 SK2 SH1 SH2 K1 K2. unfold mm_round, block_numbers. cbv zeta. cbn [forallb].
  set (L1 := le_val (firstn 8 b)) in *. set (L2 := le_val (skipn 8 b)) in *.
  assert (N1 : s64 L1 * s64 C1 = k1 * mm_c1) by (rewrite (s64_eq k1 L1), c1_word; auto). number N1.
  assert (U1 : u64 (k1 * mm_c1) = u64 (L1 * C1)) by (rewrite c1_spec, u64_mul, K1; reflexivity).
  set (r1 := rotl64 (k1 * mm_c1) 31). assert (V1 : u64 r1 = rot (u64 (L1 * C1)) 31) by (unfold r1; rewrite rot_spec, U1 by lia; reflexivity).
  assert (N2 : s64 (rot (u64 (L1 * C1)) 31) * s64 C2 = r1 * mm_c2) by (rewrite (s64_eq r1 _ (sg_rot _ _) V1), c2_word; reflexivity). number N2.
  assert (U2 : u64 (r1 * mm_c2) = mix1 L1) by (rewrite c2_spec, u64_mul, V1; reflexivity).
  set (x1 := rotl64 (Z.lxor h1 (r1 * mm_c2)) 27). assert (X1 : u64 x1 = rot (Z.lxor (u64 h1) (mix1 L1)) 27) by (unfold x1; rewrite rot_spec, u64_lxor, U2 by lia; reflexivity).
  assert (N3 : s64 (rot (Z.lxor (u64 h1) (mix1 L1)) 27) + s64 (u64 h2) = x1 + h2) by (rewrite (s64_eq x1 _ (sg_rot _ _) X1), (s64_eq h2 _ SH2 eq_refl); reflexivity). number N3.
  assert (U3 : u64 (x1 + h2) = u64 (rot (Z.lxor (u64 h1) (mix1 L1)) 27 + u64 h2)) by (rewrite u64_add, X1; reflexivity).
  set (a' := u64 (rot (Z.lxor (u64 h1) (mix1 L1)) 27 + u64 h2)) in *.
  assert (N4 : s64 a' * 5 = (x1 + h2) * 5) by (rewrite (s64_eq (x1 + h2) a'); auto). number N4.
  assert (U4 : u64 ((x1 + h2) * 5) = u64 (a' * 5)) by (rewrite u64_mul, U3; reflexivity).
  assert (N5 : s64 (u64 (a' * 5)) + 0x52dce729 = (x1 + h2) * 5 + 0x52dce729) by (rewrite (s64_eq ((x1 + h2) * 5) _); auto). number N5.
  set (g1 := (x1 + h2) * 5 + 0x52dce729) in *.
  assert (U5 : u64 g1 = u64 (a' * 5 + 0x52dce729)) by (unfold g1; rewrite u64_addl, U4, <- u64_addl; reflexivity).
  set (G1 := u64 (a' * 5 + 0x52dce729)) in *.
  assert (N6 : s64 L2 * s64 C2 = k2 * mm_c2) by (rewrite (s64_eq k2 L2), c2_word; auto). number N6.
  assert (U6 : u64 (k2 * mm_c2) = u64 (L2 * C2)) by (rewrite c2_spec, u64_mul, K2; reflexivity).
  set (r2 := rotl64 (k2 * mm_c2) 33). assert (V2 : u64 r2 = rot (u64 (L2 * C2)) 33) by (unfold r2; rewrite rot_spec, U6 by lia; reflexivity).
  assert (N7 : s64 (rot (u64 (L2 * C2)) 33) * s64 C1 = r2 * mm_c1) by (rewrite (s64_eq r2 _ (sg_rot _ _) V2), c1_word; reflexivity). number N7.
  assert (U7 : u64 (r2 * mm_c1) = mix2 L2) by (rewrite c1_spec, u64_mul, V2; reflexivity).
  set (x2 := rotl64 (Z.lxor h2 (r2 * mm_c1)) 31). assert (X2 : u64 x2 = rot (Z.lxor (u64 h2) (mix2 L2)) 31) by (unfold x2; rewrite rot_spec, u64_lxor, U7 by lia; reflexivity).
  assert (N8 : s64 (rot (Z.lxor (u64 h2) (mix2 L2)) 31) + s64 G1 = x2 + g1) by (rewrite (s64_eq x2 _ (sg_rot _ _) X2), (s64_eq g1 G1); auto). number N8.
  assert (U8 : u64 (x2 + g1) = u64 (rot (Z.lxor (u64 h2) (mix2 L2)) 31 + G1)) by (rewrite u64_add, X2, U5; reflexivity).
  set (c' := u64 (rot (Z.lxor (u64 h2) (mix2 L2)) 31 + G1)) in *.
  assert (N9 : s64 c' * 5 = (x2 + g1) * 5) by (rewrite (s64_eq (x2 + g1) c'); auto). number N9.
  assert (U9 : u64 ((x2 + g1) * 5) = u64 (c' * 5)) by (rewrite u64_mul, U8; reflexivity).
  assert (N10 : s64 (u64 (c' * 5)) + 0x38495ab5 = (x2 + g1) * 5 + 0x38495ab5) by (rewrite (s64_eq ((x2 + g1) * 5) _); auto). number N10.
  reflexivity.
Qed.
Lemma round_sg : forall p k1 k2 h g, mm_round p k1 k2 h = Ret g -> sg (fst g) /\ sg (snd g).
Proof.
  intros p k1 k2 [h1 h2] g H. unfold mm_round in H.
  assert (A : forall v r, arithS p 64 v = Ret r -> sg r).
  { intros v r R. rewrite (arithS_inv p 64 v r ltac:(lia) R). apply sg_wrap. }
  repeat (apply bind_ret in H; let E := fresh "E" in destruct H as (? & E & H)). apply ret_inj in H. subst g. cbn [fst snd]. split; eapply A; eauto.
Qed.
Lemma get_block_sg : forall key i, Forall isbyte key -> sg (get_block key 0 i).
Proof.
  intros key i F. assert (B : forall j, isbyte (mm_at key j)). { intros j. unfold mm_at. destruct (nth_in_or_default j key 0) as [N| ->]; [rewrite Forall_forall in F; auto|unfold isbyte; lia]. }
  unfold get_block. cbv zeta. match goal with |- context [wrapS 64 (Z.shiftl ?b 56)] => pose proof (sg_wrap (Z.shiftl b 56)) as W; destruct (wrap8 b (B _)) as (s & E & _); rewrite E in * end.
  rewrite !Z.shiftl_mul_pow2 by lia.
  repeat match goal with |- context [mm_at key ?j] => let x := fresh "x" in pose proof (B j); set (x := mm_at key j) in *; clearbody x end.
  unfold isbyte, sg in *. lia.
Qed.
Lemma tail_sg : forall key off n k1 k2 h1 h2 k1' k2' g1 g2, sg h1 -> sg h2 -> mm_tail key off n (k1, k2, h1, h2) = (k1', k2', g1, g2) -> sg g1 /\ sg g2.
Proof.
  intros key off n. induction n as [|n IH]; intros k1 k2 h1 h2 k1' k2' g1 g2 S1 S2 H; [cbn in H; inversion H; subst; auto|].
  cbn [mm_tail] in H. destruct (mm_tail_step key off (S n) (k1, k2, h1, h2)) as [[[a1 a2] b1] b2] eqn:E.
  assert (sg b1 /\ sg b2) as [B1 B2]; [|eapply IH; [exact B1|exact B2|exact H]]. unfold mm_tail_step in E.
  do 16 (destruct n as [|n]; [inversion E; subst; split; auto; apply sg_lxor; auto; apply sg_wrap|]). inversion E; subst. auto.
Qed.

Lemma body_debug : forall n i pre rest h1 h2 len, length pre = (16 * i)%nat -> (16 * n <= length rest)%nat -> Forall isbyte (pre ++ rest) -> sg h1 -> sg h2 ->
  forall g1 g2, mm_body Release (pre ++ rest) i n (h1, h2) = Ret (g1, g2) ->
  sg g1 /\ sg g2 /\
  (forallb (inside 64) (hash_numbers n rest (u64 h1) (u64 h2) len) = true <->
   mm_body Debug (pre ++ rest) i n (h1, h2) = Ret (g1, g2) /\ forallb (inside 64) (hash_numbers 0 (skipn (16 * n) rest) (u64 g1) (u64 g2) len) = true).
Proof.
  induction n as [|n IH]; intros i pre rest h1 h2 len L R F S1 S2 g1 g2 H.
  - cbn [mm_body] in *. apply ret_inj in H. inversion H; subst. split; [auto|]. split; [auto|]. cbn [Nat.mul skipn]. tauto.
  - assert (X : exists b rest', rest = b ++ rest' /\ length b = 16%nat).
    { exists (firstn 16 rest), (skipn 16 rest). rewrite firstn_skipn, firstn_length. split; auto. lia. }
    destruct X as (b & rest' & -> & LB). cbn [mm_body] in *.
    assert (FB : Forall isbyte b) by (apply Forall_app in F; destruct F as [_ F]; apply Forall_app in F; tauto).
    set (key := pre ++ b ++ rest') in *.
    assert (K1 : u64 (get_block key 0 (i * 2)) = le_val (firstn 8 b)).
    { do 16 (destruct b as [|? b]; [discriminate LB|]). destruct b; [|discriminate LB]. unfold key.
      match goal with |- u64 (get_block (pre ++ [?a0; ?a1; ?a2; ?a3; ?a4; ?a5; ?a6; ?a7; ?a8; ?a9; ?a10; ?a11; ?a12; ?a13; ?a14; ?a15] ++ rest') 0 (i * 2)) = _ =>
        apply (get_block_spec pre (a8 :: a9 :: a10 :: a11 :: a12 :: a13 :: a14 :: a15 :: rest') a0 a1 a2 a3 a4 a5 a6 a7 (i * 2) (16 * i)); [exact L|lia|] end.
      repeat match goal with H : Forall _ (_ :: _) |- _ => let A := fresh in pose proof (Forall_inv H) as A; apply Forall_inv_tail in H end.
      repeat (apply Forall_cons; [assumption|]); apply Forall_nil. }
    assert (K2 : u64 (get_block key 0 (i * 2 + 1)) = le_val (skipn 8 b)).
    { do 16 (destruct b as [|? b]; [discriminate LB|]). destruct b; [|discriminate LB]. unfold key.
      match goal with |- u64 (get_block (pre ++ [?a0; ?a1; ?a2; ?a3; ?a4; ?a5; ?a6; ?a7; ?a8; ?a9; ?a10; ?a11; ?a12; ?a13; ?a14; ?a15] ++ rest') 0 _) = _ =>
        replace (pre ++ [a0; a1; a2; a3; a4; a5; a6; a7; a8; a9; a10; a11; a12; a13; a14; a15] ++ rest') with ((pre ++ [a0; a1; a2; a3; a4; a5; a6; a7]) ++ [a8; a9; a10; a11; a12; a13; a14; a15] ++ rest') by (rewrite <- app_assoc; reflexivity);
        apply (get_block_spec _ rest' a8 a9 a10 a11 a12 a13 a14 a15 (i * 2 + 1) (16 * i + 8)); [rewrite app_length; cbn [length]; lia|lia|] end.
      repeat match goal with H : Forall _ (_ :: _) |- _ => let A := fresh in pose proof (Forall_inv H) as A; apply Forall_inv_tail in H end.
      repeat (apply Forall_cons; [assumption|]); apply Forall_nil. }
    apply bind_ret in H. destruct H as ([e1 e2] & H1 & H). destruct (round_sg _ _ _ _ _ H1) as [SE1 SE2]. cbn [fst snd] in SE1, SE2.
    destruct (round_spec _ _ h1 h2 _ _ _ K1 K2 eq_refl eq_refl) as (e1' & e2' & E' & B). rewrite H1 in E'. apply ret_inj in E'. inversion E'; subst e1' e2'. clear E'.
    rewrite (round_debug _ _ h1 h2 b (get_block_sg _ _ F) (get_block_sg _ _ F) S1 S2 K1 K2).
    assert (FI : firstn 16 (b ++ rest') = b) by (rewrite firstn_app, LB, Nat.sub_diag, firstn_O, app_nil_r; apply firstn_all2; lia).
    assert (SI : skipn 16 (b ++ rest') = rest') by (rewrite skipn_app, LB, Nat.sub_diag, skipn_O, skipn_all2 by lia; reflexivity).
    assert (SN : skipn (16 * S n) (b ++ rest') = skipn (16 * n) rest').
    { replace (16 * S n)%nat with (16 + 16 * n)%nat by lia. rewrite skipn_app, skipn_all2 by lia. cbn [app]. f_equal. lia. }
    cbn [hash_numbers]. rewrite FI, SI, SN, <- B. rewrite forallb_app, andb_true_iff.
    assert (HK : key = (pre ++ b) ++ rest') by (unfold key; rewrite app_assoc; reflexivity). rewrite HK in H, H1, F |- *.
    destruct (IH (S i) (pre ++ b) rest' e1 e2 len) with (g1 := g1) (g2 := g2) as (G1 & G2 & G3); auto.
    { rewrite app_length. lia. }
    { rewrite app_length, LB in R. lia. }
    split; [auto|]. split; [auto|]. rewrite G3. rewrite H1.
    destruct (forallb (inside 64) (block_numbers b (u64 h1) (u64 h2))); cbn [bind]; [tauto|]. split; intros [X Y]; discriminate.
Qed.
Lemma murmur_debug : forall s seed, path_ok s -> 0 <= seed < 2 ^ 31 ->
  ((exists r, murmur_hash Debug s seed = Ret r) <-> forallb (inside 64) (hash_numbers (length s / 16) s seed seed (zlen s)) = true).
Proof.
  intros s seed [F L] S. unfold murmur_hash, inner_hash. set (n := (length s / 16)%nat).
  assert (Hn : (16 * n <= length s)%nat) by (unfold n; apply Nat.mul_div_le; lia).
  destruct (body_spec n 0 [] s seed seed eq_refl Hn F) as (g1 & g2 & B & M). cbn [app] in B.
  assert (SS : sg seed) by (unfold sg; lia).
  destruct (body_debug n 0 [] s seed seed (zlen s) eq_refl Hn F SS SS g1 g2 B) as (G1 & G2 & G3). cbn [app] in G3. rewrite (u64_id seed) in G3 by lia. rewrite G3. clear G3.
  assert (Hm : (length s mod 16)%nat = length (skipn (16 * n) s)). { rewrite skipn_length. unfold n. rewrite Nat.mod_eq by lia. reflexivity. }
  assert (Hp : length (firstn (16 * n) s) = (n * 16)%nat) by (rewrite firstn_length; lia).
  destruct (tail_spec (firstn (16 * n) s) (skipn (16 * n) s) g1 g2) as (k1 & k2 & h1 & h2 & T & M2).
  { rewrite <- Hm. apply Nat.mod_upper_bound. lia. }
  { apply Forall_skipn. exact F. }
  rewrite firstn_skipn, Hp, <- Hm in T. destruct (tail_sg _ _ _ _ _ _ _ _ _ _ _ G1 G2 T) as [SH1 SH2].
  cbn [mm_blocks] in M2. pose proof (f_equal fst M2) as M3. pose proof (f_equal snd M2) as M4. cbn [fst snd] in M3, M4. cbn [hash_numbers]. rewrite M3, M4.
  assert (SL : sg (zlen s)) by (pose proof (zlen_nonneg _ s); unfold sg; lia). pose proof (zlen_nonneg _ s) as NL. change (Z.of_nat (length s)) with (zlen s).
  assert (UL : u64 (zlen s) = zlen s) by (apply u64_id; lia).
  set (a := Z.lxor h1 (zlen s)). set (b := Z.lxor h2 (zlen s)).
  assert (UA : u64 a = Z.lxor (u64 h1) (zlen s)) by (unfold a; rewrite u64_lxor, UL; reflexivity).
  assert (UB : u64 b = Z.lxor (u64 h2) (zlen s)) by (unfold b; rewrite u64_lxor, UL; reflexivity).
  assert (SA : sg a) by (apply sg_lxor; auto). assert (SB : sg b) by (apply sg_lxor; auto).
  rewrite <- UA, <- UB. rewrite (s64_eq a _ SA eq_refl), (s64_eq b _ SB eq_refl). cbn [forallb]. rewrite andb_true_r.
  split.
  - intros [r H]. apply bind_ret in H. destruct H as (x & H & _). apply bind_ret in H. destruct H as ([y1 y2] & H & H').
    assert (Y : mm_body Release s 0 n (seed, seed) = Ret (y1, y2)) by (apply mm_body_refines; exact H). rewrite B in Y. apply ret_inj in Y. inversion Y; subst y1 y2.
    split; [exact H|]. rewrite T in H'. cbv zeta in H'. fold a b in H'. rewrite arith_debug in H'. destruct (inside 64 (a + b)) eqn:I; [|discriminate]. cbn [bind andb] in *.
    destruct (arith_inside Debug _ I) as [_ SAB]. rewrite arith_debug in H'. rewrite (s64_eq (a + b) _ SAB) by (rewrite u64_add; reflexivity).
    destruct (inside 64 (b + (a + b))); [reflexivity|discriminate].
  - intros [H I]. apply andb_prop in I. destruct I as [I1 I2]. rewrite H. cbn [bind]. rewrite T. cbv zeta. fold a b. destruct (arith_inside Debug _ I1) as [R1 SAB]. rewrite R1. cbn [bind].
    rewrite (s64_eq (a + b) _ SAB) in I2 by (rewrite u64_add; reflexivity). destruct (arith_inside Debug _ I2) as [R2 _]. rewrite R2. cbn [bind]. eauto.
Qed.

(** ** The filter *)
Lemma abs_debug : forall h, - 2 ^ 31 <= h < 2 ^ 31 -> ((exists a, abs_i32 Debug h = Ret a) <-> (h =? - 2 ^ 31) = false).
Proof.
  intros h R. unfold abs_i32, arithS. change (2 ^ (32 - 1)) with (2 ^ 31). destruct (Z.eqb_spec h (- 2 ^ 31)) as [->|N].
  - change (Z.abs (- 2 ^ 31)) with (2 ^ 31). rewrite (proj2 (Z.ltb_ge (2 ^ 31) (2 ^ 31))), andb_false_r by lia. split; [intros [a A]; discriminate|discriminate].
  - rewrite (proj2 (Z.leb_le _ _)), (proj2 (Z.ltb_lt (Z.abs h) (2 ^ 31))) by lia. cbn [andb]. split; eauto.
Qed.
Lemma hash_debug : forall cap seed s, path_ok s -> 0 <= seed < 2 ^ 31 -> ((exists i, hash_function Debug (cap, seed) s = Ret i) <-> hash_fine s seed = true).
Proof.
  intros cap seed s P S. unfold hash_function, hash_fine. rewrite andb_true_iff, negb_true_iff. rewrite <- (murmur_debug s seed P S). rewrite <- (abs_debug (path_hash s seed) (path_hash_range s seed)).
  destruct P as [F L]. pose proof (murmur_spec s seed F L S) as MS. split.
  - intros [i H]. apply bind_ret in H. destruct H as (h & H1 & H). apply bind_ret in H. destruct H as (a & H2 & _). pose proof (murmur_rel _ _ _ _ H1) as H3. rewrite MS in H3. apply ret_inj in H3. subst h. eauto.
  - intros [[r H] [a A]]. pose proof (murmur_rel _ _ _ _ H) as H3. rewrite MS in H3. apply ret_inj in H3. subst r. rewrite H. cbn [bind]. rewrite A. cbn [bind]. eauto.
Qed.
(** A fold that returns in a release build returns in a debug build if every step does. *)
Lemma foldM_debug : forall A B (f g : B -> A -> outcome B) l b r, (forall b x, In x l -> (exists r, f b x = Ret r) -> exists r, g b x = Ret r) ->
  (forall b x r, g b x = Ret r -> f b x = Ret r) -> foldM f l b = Ret r -> exists r, foldM g l b = Ret r.
Proof.
  intros A B f g l. induction l as [|x l IH]; intros b r H1 H2 H; cbn [foldM] in *; [eauto|]. apply bind_ret in H. destruct H as (b1 & E & H).
  destruct (H1 b x (or_introl eq_refl)) as [b2 E2]; [eauto|]. pose proof (H2 _ _ _ E2) as E3. rewrite E in E3. apply ret_inj in E3. subst b2. rewrite E2. cbn [bind].
  apply (IH b1 r); auto. intros b' x' I. apply H1. right. exact I.
Qed.
Lemma foldM_all : forall A B (f : B -> A -> outcome B) l b r, foldM f l b = Ret r -> forall x, In x l -> exists b' r', f b' x = Ret r'.
Proof.
  intros A B f l. induction l as [|y l IH]; intros b r H x I; [destruct I|]. cbn [foldM] in H. apply bind_ret in H. destruct H as (b1 & E & H). destruct I as [->|I]; [eauto|]. eapply IH; eauto.
Qed.
Lemma empty_func : forall p n b, bloom_empty p n = Ret b -> exists cap, bf_func b = map (fun s => (cap, s)) hash_seeds.
Proof.
  intros p n b H. unfold bloom_empty in H. apply bind_ret in H. destruct H as (sz & _ & H). apply ret_inj in H. subst b. rewrite hash_count. exists (Z.max sz cfg_minimal_size). reflexivity.
Qed.
Lemma add_func : forall p q b b', bloom_add p q b = Ret b' -> bf_func b' = bf_func b.
Proof. intros p q b b' H. unfold bloom_add in H. apply bind_ret in H. destruct H as (x & _ & H). apply ret_inj in H. subst b'. reflexivity. Qed.
Lemma seed_small : forall s, In s hash_seeds -> 0 <= s < 2 ^ 31.
Proof. intros s I. cbn in I. lia. Qed.
Lemma add_debug : forall cap q b, path_ok q -> bf_func b = map (fun s => (cap, s)) hash_seeds -> (exists r, bloom_add Release q b = Ret r) ->
  ((exists r, bloom_add Debug q b = Ret r) <-> forallb (hash_fine q) hash_seeds = true).
Proof.
  intros cap q b P E [r R]. rewrite forallb_forall. unfold bloom_add in *. apply bind_ret in R. destruct R as (bits & R & _). rewrite E in *. split.
  - intros [r' H] s I. apply bind_ret in H. destruct H as (bits' & H & _).
    destruct (foldM_all _ _ _ _ _ _ H (cap, s)) as (b1 & b2 & X); [apply in_map; exact I|]. apply bind_ret in X. destruct X as (i & X & _). apply (hash_debug cap s q P (seed_small s I)). eauto.
  - intros H. destruct (foldM_debug _ _ (fun bits f => let* i := hash_function Release f q in set_bit bits i) (fun bits f => let* i := hash_function Debug f q in set_bit bits i) (map (fun s => (cap, s)) hash_seeds) (bf_bits b) bits) as [x ->]; [| |exact R|cbn [bind]; eauto].
    + intros b0 [c s] I [r' X]. apply in_map_iff in I. destruct I as (s' & Y & I). inversion Y; subst c s'. apply bind_ret in X. destruct X as (i & X1 & X2).
      destruct (proj2 (hash_debug cap s q P (seed_small s I)) (H s I)) as [i' D]. pose proof (hash_rel _ _ _ _ D) as D'. rewrite X1 in D'. apply ret_inj in D'. subst i'. rewrite D. cbn [bind]. eauto.
    + intros b0 f r' X. apply bind_ret in X. destruct X as (i & X1 & X2). rewrite (hash_rel _ _ _ _ X1). exact X2.
Qed.
Lemma empty_debug : forall n, 0 <= n <= 300000000 -> exists b, bloom_empty Debug n = Ret b.
Proof.
  intros n N. assert (R : 0 <= bloom_raw_size n < i32_max).
  { destruct (Z.eq_dec n 0) as [->|M]; [rewrite raw_size_0; unfold i32_max; lia|]. destruct (raw_size n ltac:(lia)) as (A & B & _). unfold i32_max in *. change (2 ^ 31) with 2147483648. lia. }
  unfold bloom_empty. rewrite arithS_ok; [cbn [bind]; eauto|]. unfold i32_max in R. change (2 ^ (32 - 1)) with (2 ^ 31). lia.
Qed.
Lemma build_debug : forall paths, Forall path_ok paths -> zlen paths <= 300000000 -> (exists r, bloom_build Release paths = Ret r) ->
  ((exists r, bloom_build Debug paths = Ret r) <-> forallb (fun q => forallb (hash_fine q) hash_seeds) paths = true).
Proof.
  intros paths F L [r R]. unfold bloom_build in *. pose proof (zlen_nonneg _ paths) as NL. rewrite (wrapS_small 32) in * by (change (2 ^ (32 - 1)) with 2147483648; lia).
  destruct (empty_debug (zlen paths) ltac:(lia)) as [b0 E]. assert (E' : bloom_empty Release (zlen paths) = Ret b0).
  { revert E. unfold bloom_empty. apply refines_bind; [apply arithS_refines|intros; apply refines_refl]. }
  rewrite E. rewrite E' in R. cbn [bind] in *. destruct (empty_func _ _ _ E) as [cap C]. clear E E' L NL. revert b0 r R C.
  induction F as [|q paths P F IH]; intros b0 r R C; cbn [foldM forallb] in *; [split; eauto|]. apply bind_ret in R. destruct R as (b1 & R1 & R). rewrite andb_true_iff.
  rewrite <- (add_debug cap q b0 P C) by eauto. assert (C1 : bf_func b1 = map (fun s => (cap, s)) hash_seeds) by (rewrite (add_func _ _ _ _ R1); exact C). rewrite <- (IH b1 r R C1). split.
  - intros [x X]. apply bind_ret in X. destruct X as (b2 & X1 & X). pose proof (add_rel _ _ _ _ X1) as X2. rewrite R1 in X2. apply ret_inj in X2. subst b2. eauto.
  - intros [[b2 X1] [x X]]. pose proof (add_rel _ _ _ _ X1) as X2. rewrite R1 in X2. apply ret_inj in X2. subst b2. rewrite X1. cbn [bind]. eauto.
Qed.
