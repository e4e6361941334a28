(** Basic lemmas: wrapping, byte order, lists, ordered maps. *)
From Coq Require Export Lia ZifyBool ZifyNat ZifyN.
From Verif Require Export MBase SFormat.
Ltac Zify.zify_post_hook ::= Z.div_mod_to_equations.

Arguments Z.mul : simpl never.
Arguments Z.add : simpl never.
Arguments Z.sub : simpl never.
Arguments Z.pow : simpl never.
Arguments Z.of_nat : simpl never.
Arguments Z.div : simpl never.
Arguments Z.modulo : simpl never.

Definition is_byte (b : Z) : Prop := 0 <= b < 256.
Definition bytes (l : list Z) : Prop := Forall is_byte l.

Lemma zlen_app : forall A (a b : list A), zlen (a ++ b) = zlen a + zlen b.
Proof. intros. unfold zlen. rewrite app_length. lia. Qed.
Lemma zlen_cons : forall A (x : A) l, zlen (x :: l) = 1 + zlen l.
Proof. intros. unfold zlen. cbn [length]. lia. Qed.
Lemma zlen_nil : forall A, zlen (@nil A) = 0.
Proof. reflexivity. Qed.
Lemma zlen_nonneg : forall A (l : list A), 0 <= zlen l.
Proof. intros. unfold zlen. lia. Qed.

Lemma pow2_pos : forall n, 0 <= n -> 0 < 2 ^ n.
Proof. intros. apply Z.pow_pos_nonneg; lia. Qed.

Lemma wrapU_small : forall n v, 0 <= v < 2 ^ n -> wrapU n v = v.
Proof. intros. unfold wrapU. apply Z.mod_small. lia. Qed.
Lemma wrapU_range : forall n v, 0 <= n -> 0 <= wrapU n v < 2 ^ n.
Proof. intros. unfold wrapU. apply Z.mod_pos_bound. apply pow2_pos; lia. Qed.

Lemma pow2_split : forall n, 1 <= n -> 2 ^ n = 2 * 2 ^ (n - 1).
Proof. intros. replace n with (1 + (n - 1)) at 1 by lia. rewrite Z.pow_add_r by lia. lia. Qed.

Lemma wrapS_range : forall n v, 1 <= n -> - 2 ^ (n - 1) <= wrapS n v < 2 ^ (n - 1).
Proof.
  intros. unfold wrapS. pose proof (pow2_split n H). pose proof (pow2_pos (n - 1) ltac:(lia)).
  pose proof (Z.mod_pos_bound v (2 ^ n) ltac:(lia)).
  destruct (Z.ltb_spec (v mod 2 ^ n) (2 ^ (n - 1))); lia.
Qed.
Lemma wrapS_mod : forall n v, 1 <= n -> wrapS n v mod 2 ^ n = v mod 2 ^ n.
Proof.
  intros. unfold wrapS. pose proof (pow2_pos n ltac:(lia)).
  destruct (Z.ltb_spec (v mod 2 ^ n) (2 ^ (n - 1))).
  - apply Z.mod_mod. lia.
  - rewrite <- (Z.mod_add _ 1) by lia. replace (v mod 2 ^ n - 2 ^ n + 1 * 2 ^ n) with (v mod 2 ^ n) by lia.
    apply Z.mod_mod. lia.
Qed.
(** two values in the signed range that agree modulo [2^n] are equal *)
Lemma signed_unique : forall n a b, 1 <= n ->
  - 2 ^ (n - 1) <= a < 2 ^ (n - 1) -> - 2 ^ (n - 1) <= b < 2 ^ (n - 1) ->
  a mod 2 ^ n = b mod 2 ^ n -> a = b.
Proof.
  intros n a b Hn Ha Hb E. pose proof (pow2_split n Hn). pose proof (pow2_pos (n - 1) ltac:(lia)).
  pose proof (Z.div_mod a (2 ^ n) ltac:(lia)). pose proof (Z.div_mod b (2 ^ n) ltac:(lia)).
  assert (a - b = 2 ^ n * (a / 2 ^ n - b / 2 ^ n)) by lia.
  assert (a / 2 ^ n - b / 2 ^ n = 0) by nia. nia.
Qed.
Lemma wrapS_small : forall n v, 1 <= n -> - 2 ^ (n - 1) <= v < 2 ^ (n - 1) -> wrapS n v = v.
Proof.
  intros. apply (signed_unique n); auto using wrapS_range, wrapS_mod.
Qed.
Lemma sgn_range : forall n v, 1 <= n -> - 2 ^ (n - 1) <= sgn n v < 2 ^ (n - 1).
Proof.
  intros. unfold sgn. pose proof (pow2_split n H). pose proof (pow2_pos (n - 1) ltac:(lia)).
  pose proof (Z.mod_pos_bound (v + 2 ^ (n - 1)) (2 ^ n) ltac:(lia)). lia.
Qed.
Lemma sgn_mod : forall n v, 1 <= n -> sgn n v mod 2 ^ n = v mod 2 ^ n.
Proof.
  intros. unfold sgn. pose proof (pow2_pos n ltac:(lia)).
  rewrite Zminus_mod_idemp_l. f_equal. lia.
Qed.
Lemma sgn_wrapS : forall n v, 1 <= n -> sgn n v = wrapS n v.
Proof.
  intros. apply (signed_unique n); auto using sgn_range, wrapS_range.
  rewrite sgn_mod, wrapS_mod; auto.
Qed.
Lemma sgn_eq : forall n v w, 1 <= n -> - 2 ^ (n - 1) <= w < 2 ^ (n - 1) ->
  v mod 2 ^ n = w mod 2 ^ n -> sgn n v = w.
Proof.
  intros. apply (signed_unique n); auto using sgn_range. rewrite sgn_mod; auto.
Qed.

Lemma arithU_ok : forall p n v, 0 <= v < 2 ^ n -> arithU p n v = Ret v.
Proof. intros. unfold arithU. replace ((0 <=? v) && (v <? 2 ^ n)) with true by lia. reflexivity. Qed.
Lemma arithS_ok : forall p n v, - 2 ^ (n - 1) <= v < 2 ^ (n - 1) -> arithS p n v = Ret v.
Proof.
  intros. unfold arithS. replace ((- 2 ^ (n - 1) <=? v) && (v <? 2 ^ (n - 1))) with true by lia. reflexivity.
Qed.
Lemma arithS_release : forall n v, 1 <= n -> arithS Release n v = Ret (wrapS n v).
Proof.
  intros. unfold arithS. destruct ((- 2 ^ (n - 1) <=? v) && (v <? 2 ^ (n - 1))) eqn:E; auto.
  rewrite wrapS_small; auto; lia.
Qed.
Lemma arithU_release : forall n v, 0 <= n -> arithU Release n v = Ret (wrapU n v).
Proof.
  intros. unfold arithU. destruct ((0 <=? v) && (v <? 2 ^ n)) eqn:E; auto.
  rewrite wrapU_small; auto; lia.
Qed.
Lemma arithU_inv : forall p n v r, 0 <= n -> arithU p n v = Ret r -> r = wrapU n v.
Proof.
  intros p n v r Hn. unfold arithU. destruct ((0 <=? v) && (v <? 2 ^ n)) eqn:E.
  - intros [= <-]. rewrite wrapU_small; auto; lia.
  - destruct p; intros [=]; auto.
Qed.
Lemma arithS_inv : forall p n v r, 1 <= n -> arithS p n v = Ret r -> r = wrapS n v.
Proof.
  intros p n v r Hn. unfold arithS. destruct ((- 2 ^ (n - 1) <=? v) && (v <? 2 ^ (n - 1))) eqn:E.
  - intros [= <-]. rewrite wrapS_small; auto; lia.
  - destruct p; intros [=]; auto.
Qed.

(** bind *)
Lemma bind_ret : forall A B (m : outcome A) (f : A -> outcome B) b,
  bind m f = Ret b -> exists a, m = Ret a /\ f a = Ret b.
Proof. intros A B [a|p] f b H; cbn in H; [eauto|discriminate]. Qed.

Ltac inv_bind H :=
  match type of H with
  | bind _ _ = Ret _ => let a := fresh "a" in let E := fresh "E" in
      apply bind_ret in H; destruct H as [a [E H]]
  end.

(** big-endian bytes *)
Lemma be_bytes_length : forall n v, length (be_bytes n v) = n.
Proof. induction n; intros; cbn [be_bytes length]; auto. Qed.
Lemma be_bytes_zlen : forall n v, zlen (be_bytes n v) = Z.of_nat n.
Proof. intros. unfold zlen. rewrite be_bytes_length. reflexivity. Qed.
Lemma be_bytes_bytes : forall n v, bytes (be_bytes n v).
Proof.
  induction n; intros; cbn [be_bytes]; constructor; [|apply IHn].
  red. apply Z.mod_pos_bound. lia.
Qed.

Lemma be_val_app : forall a b, be_val (a ++ b) = be_val a * 256 ^ zlen b + be_val b.
Proof.
  intros a b. unfold be_val. rewrite fold_left_app. generalize (fold_left (fun a0 b0 : Z => a0 * 256 + b0) a 0).
  revert b. induction b as [|x b IH] using rev_ind; intros z.
  - rewrite zlen_nil. cbn [fold_left]. change (256 ^ 0) with 1. lia.
  - rewrite !fold_left_app. cbn [fold_left]. rewrite (IH z), zlen_app, zlen_cons, zlen_nil.
    replace (zlen b + (1 + 0)) with (zlen b + 1) by lia.
    rewrite Z.pow_add_r by (pose proof (zlen_nonneg _ b); lia). change (256 ^ 1) with 256. lia.
Qed.
Lemma be_val_cons : forall x l, be_val (x :: l) = x * 256 ^ zlen l + be_val l.
Proof. intros. change (x :: l) with ([x] ++ l). rewrite be_val_app. cbn. lia. Qed.
Lemma be_val_nil : be_val [] = 0. Proof. reflexivity. Qed.
Lemma be_val_snoc : forall l x, be_val (l ++ [x]) = be_val l * 256 + x.
Proof. intros. rewrite be_val_app. cbn. change (256 ^ zlen [x]) with 256. lia. Qed.

Lemma pow256 : forall n, 0 <= n -> 256 ^ n = 2 ^ (8 * n).
Proof. intros. rewrite Z.pow_mul_r by lia. reflexivity. Qed.

Lemma be_val_range : forall l, bytes l -> 0 <= be_val l < 256 ^ zlen l.
Proof.
  induction 1 as [|x l Hx Hl IH]; [rewrite zlen_nil, be_val_nil; change (256 ^ 0) with 1; lia|].
  rewrite be_val_cons, zlen_cons. rewrite Z.pow_add_r by (try apply zlen_nonneg; lia).
  red in Hx. change (256 ^ 1) with 256. nia.
Qed.

Lemma be_val_be_bytes : forall n v, be_val (be_bytes n v) = v mod 256 ^ Z.of_nat n.
Proof.
  induction n; intros; cbn [be_bytes].
  - cbn. rewrite Z.mod_1_r. reflexivity.
  - rewrite be_val_cons, IHn, be_bytes_zlen.
    rewrite <- (pow256 (Z.of_nat n)) by lia.
    replace (Z.of_nat (S n)) with (Z.of_nat n + 1) by lia. rewrite Z.pow_add_r by lia.
    change (256 ^ 1) with 256.
    pose proof (Z.pow_pos_nonneg 256 (Z.of_nat n) ltac:(lia) ltac:(lia)) as Hp.
    rewrite Z.rem_mul_r by lia. lia.
Qed.

Lemma take_app : forall a b, take (zlen a) (a ++ b) = Some (a, b).
Proof.
  intros. unfold take.
  replace ((0 <=? zlen a) && (zlen a <=? Z.of_nat (length (a ++ b)))) with true
    by (unfold zlen; rewrite app_length; lia).
  unfold zlen. rewrite Nat2Z.id, firstn_app, skipn_app, firstn_all, skipn_all, Nat.sub_diag. cbn.
  rewrite app_nil_r. reflexivity.
Qed.
Lemma take_app_n : forall n a b, n = zlen a -> take n (a ++ b) = Some (a, b).
Proof. intros; subst; apply take_app. Qed.

Lemma be_unsigned_be_bytes : forall n v rest,
  be_unsigned (Z.of_nat n) (be_bytes n v ++ rest) = Some (v mod 256 ^ Z.of_nat n, rest).
Proof.
  intros. unfold be_unsigned. rewrite take_app_n by (rewrite be_bytes_zlen; reflexivity).
  rewrite be_val_be_bytes. reflexivity.
Qed.
Lemma be_signed_be_bytes : forall n v rest, (1 <= n)%nat ->
  - 2 ^ (8 * Z.of_nat n - 1) <= v < 2 ^ (8 * Z.of_nat n - 1) ->
  be_signed (Z.of_nat n) (be_bytes n v ++ rest) = Some (v, rest).
Proof.
  intros. unfold be_signed. rewrite take_app_n by (rewrite be_bytes_zlen; reflexivity).
  rewrite be_val_be_bytes, pow256 by lia. f_equal. f_equal.
  apply sgn_eq; try lia. apply Z.mod_mod. pose proof (pow2_pos (8 * Z.of_nat n) ltac:(lia)). lia.
Qed.

(** bit operations *)
Lemma lor_shift_add : forall a b k, 0 <= k -> 0 <= a < 2 ^ k -> Z.lor a (b * 2 ^ k) = a + b * 2 ^ k.
Proof.
  intros a b k Hk Ha. rewrite <- Z.lxor_lor, <- Z.add_nocarry_lxor; auto.
  all: apply Z.bits_inj'; intros i Hi; rewrite Z.land_spec, Z.bits_0;
    destruct (Z.lt_ge_cases i k).
  all: try (rewrite Z.mul_pow2_bits_low by lia; apply andb_false_r).
  all: replace a with (a mod 2 ^ k) by (apply Z.mod_small; lia);
    rewrite Z.mod_pow2_bits_high by lia; reflexivity.
Qed.
Lemma land_ones_mod : forall a k, 0 <= k -> Z.land a (2 ^ k - 1) = a mod 2 ^ k.
Proof. intros. rewrite <- Z.land_ones by lia. rewrite Z.ones_equiv. f_equal. Qed.
Lemma land_high : forall a k m, 0 <= k -> 0 <= m -> Z.land a ((2 ^ m - 1) * 2 ^ k) = (a / 2 ^ k) mod 2 ^ m * 2 ^ k.
Proof.
  intros. rewrite <- land_ones_mod by lia. rewrite <- Z.shiftr_div_pow2 by lia.
  rewrite <- !Z.shiftl_mul_pow2 by lia. rewrite Z.shiftl_land.
  apply Z.bits_inj'. intros i Hi. rewrite !Z.land_spec.
  rewrite (Z.shiftl_spec (Z.shiftr a k)) by lia.
  destruct (Z.lt_ge_cases i k).
  - rewrite Z.shiftl_spec_low by lia. rewrite !andb_false_r. reflexivity.
  - rewrite Z.shiftr_spec by lia. f_equal. f_equal. lia.
Qed.
