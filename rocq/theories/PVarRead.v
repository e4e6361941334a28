(** The reader of variable-length integers on any bytes (C03). *)
From Verif Require Export PVarint SVarRead.
From Coq Require Znumtheory.
Ltac Zify.zify_post_hook ::= idtac.

Lemma all_bytes : forall P : Z -> bool, forallb P (map Z.of_nat (seq 0 256)) = true -> forall b, 0 <= b < 256 -> P b = true.
Proof.
  intros P H b B. rewrite forallb_forall in H. apply H. apply in_map_iff. exists (Z.to_nat b). split; [lia|]. apply in_seq. lia.
Qed.
Lemma ends_test : forall b, 0 <= b < 256 -> negb (b =? 255) && negb (Z.land b 0x80 =? 0) = negb ((b <? 128) || (b =? 255)).
Proof.
  intros b B. apply eqb_prop. revert b B. apply (all_bytes (fun b => Bool.eqb (negb (b =? 255) && negb (Z.land b 0x80 =? 0)) (negb ((b <? 128) || (b =? 255))))). vm_compute. reflexivity.
Qed.
Lemma low_bits : forall b, 0 <= b < 256 -> (b <? 128) || (b =? 255) = false -> Z.land b 0x7F = b - 128.
Proof.
  intros b B H. apply orb_false_elim in H. destruct H as [H _]. apply Z.ltb_ge in H. rewrite var_low.
  symmetry. apply (Z.mod_unique b 128 1); lia.
Qed.
Lemma shl_release : forall v j, 0 <= j -> shl_u32 Release v ((7 * j) mod 256) = Ret ((v * 2 ^ ((7 * j) mod 32)) mod 2 ^ 32).
Proof.
  intros v j J. assert (M : ((7 * j) mod 256) mod 32 = (7 * j) mod 32). { symmetry. apply Znumtheory.Zmod_div_mod; [lia|lia|exists 8; reflexivity]. }
  unfold shl_u32. destruct (Z.ltb_spec ((7 * j) mod 256) 32) as [L|L].
  - assert (0 <= (7 * j) mod 256) by (apply Z.mod_pos_bound; lia). rewrite Z.mod_small in M by lia. rewrite Z.shiftl_mul_pow2 by lia. unfold wrapU. rewrite M. reflexivity.
  - rewrite M. rewrite Z.shiftl_mul_pow2 by (apply Z.mod_pos_bound; lia). reflexivity.
Qed.
Lemma shl_debug : forall v j, 0 <= j <= 4 -> shl_u32 Debug v (7 * j) = Ret ((v * 2 ^ ((7 * j) mod 32)) mod 2 ^ 32).
Proof.
  intros v j J. unfold shl_u32. destruct (Z.ltb_spec (7 * j) 32) as [L|L]; [|lia]. rewrite (Z.mod_small (7 * j) 32) by lia. rewrite Z.shiftl_mul_pow2 by lia. reflexivity.
Qed.
Lemma next_release : forall j, 0 <= j -> arithU Release 8 ((7 * j) mod 256 + 7) = Ret ((7 * (j + 1)) mod 256).
Proof.
  intros j J. assert (E : ((7 * j) mod 256 + 7) mod 256 = (7 * (j + 1)) mod 256). { rewrite Z.add_mod_idemp_l by lia. f_equal. lia. }
  unfold arithU. destruct ((0 <=? (7 * j) mod 256 + 7) && ((7 * j) mod 256 + 7 <? 2 ^ 8)) eqn:K.
  - apply andb_prop in K. destruct K as [K1 K2]. apply Z.leb_le in K1. apply Z.ltb_lt in K2. change (2 ^ 8) with 256 in K2. rewrite Z.mod_small in E by lia. rewrite E. reflexivity.
  - unfold wrapU. change (2 ^ 8) with 256. rewrite E. reflexivity.
Qed.
Definition is_byte (b : Z) : Prop := 0 <= b < 256.
Lemma loop_release : forall f value j b rest, (length rest < f)%nat -> 0 <= j -> is_byte b -> Forall is_byte rest ->
  read_var_loop Release f value ((7 * j) mod 256) b rest =
  match var_split (b :: rest) with None => Ret None | Some (cs, e, r) => Ret (Some (fold_left Z.lor (var_bits j cs e) value, r)) end.
Proof.
  induction f as [|f IH]; intros value j b rest F J B R; [lia|]. cbn [read_var_loop var_split]. rewrite (ends_test b B). destruct ((b <? 128) || (b =? 255)) eqn:E; cbn [negb].
  - rewrite shl_release by lia. cbn [bind var_bits fold_left]. reflexivity.
  - rewrite shl_release, next_release by lia. cbn [bind]. rewrite (low_bits b B E). destruct rest as [|x rest]; [reflexivity|]. cbn [read_byte]. cbn [length] in F. inversion R as [|? ? X R']; subst.
    rewrite IH by (auto; lia). destruct (var_split (x :: rest)) as [[[cs e] r]|]; reflexivity.
Qed.
Lemma loop_debug : forall f value j b rest, (length rest < f)%nat -> 0 <= j <= 5 -> is_byte b -> Forall is_byte rest ->
  read_var_loop Debug f value (7 * j) b rest =
  match var_split (b :: rest) with
  | None => if 5 <? j + zlen (b :: rest) then Panic POverflow else Ret None
  | Some (cs, e, r) => if 4 <? j + zlen cs then Panic POverflow else Ret (Some (fold_left Z.lor (var_bits j cs e) value, r))
  end.
Proof.
  induction f as [|f IH]; intros value j b rest F J B R; [lia|].
  assert (J5 : j = 5 \/ j <= 4) by lia. destruct J5 as [->|J4].
  - assert (P : forall v, shl_u32 Debug v (7 * 5) = Panic POverflow) by (intros; reflexivity). cbn [read_var_loop]. rewrite !P. cbn [bind].
    assert (Q : match var_split (b :: rest) with None => if 5 <? 5 + zlen (b :: rest) then Panic POverflow else Ret None | Some (cs, e, r) => if 4 <? 5 + zlen cs then Panic POverflow else Ret (Some (fold_left Z.lor (var_bits 5 cs e) value, r)) end = Panic POverflow).
    { destruct (var_split (b :: rest)) as [[[cs e] r]|].
      - pose proof (zlen_nonneg _ cs). destruct (Z.ltb_spec 4 (5 + zlen cs)); [reflexivity|lia].
      - rewrite zlen_cons. pose proof (zlen_nonneg _ rest). destruct (Z.ltb_spec 5 (5 + (1 + zlen rest))); [reflexivity|lia]. }
    rewrite Q. destruct (negb (b =? 255) && negb (Z.land b 128 =? 0)); reflexivity.
  - cbn [read_var_loop]. rewrite (ends_test b B). cbn [var_split]. destruct ((b <? 128) || (b =? 255)) eqn:E; cbn [negb].
    + rewrite shl_debug by lia. cbn [bind var_bits fold_left]. change (zlen []) with 0. destruct (Z.ltb_spec 4 (j + 0)); [lia|reflexivity].
    + rewrite shl_debug by lia. cbn [bind]. assert (A : arithU Debug 8 (7 * j + 7) = Ret (7 * (j + 1))).
      { unfold arithU. destruct (Z.leb_spec 0 (7 * j + 7)); [|lia]. change (2 ^ 8) with 256. destruct (Z.ltb_spec (7 * j + 7) 256); [|lia]. cbn [andb]. f_equal. lia. }
      rewrite A. cbn [bind]. rewrite (low_bits b B E). destruct rest as [|x rest].
      * cbn [read_byte var_split]. change (zlen [b]) with 1. destruct (Z.ltb_spec 5 (j + 1)); [lia|reflexivity].
      * cbn [read_byte]. cbn [length] in F. inversion R as [|? ? X R']; subst. rewrite IH by (auto; lia). destruct (var_split (x :: rest)) as [[[cs e] r]|].
        -- rewrite zlen_cons. replace (j + (1 + zlen cs)) with (j + 1 + zlen cs) by lia. reflexivity.
        -- rewrite (zlen_cons _ b). replace (j + (1 + zlen (x :: rest))) with (j + 1 + zlen (x :: rest)) by lia. reflexivity.
Qed.
Lemma read_any : forall p input, Forall is_byte input -> read_var_u32 p input = var_result p input.
Proof.
  intros p input F. unfold read_var_u32, var_result. destruct input as [|b rest]; [destruct p; reflexivity|]. cbn [read_byte]. inversion F as [|? ? B R]; subst. destruct p.
  - change 0 with (7 * 0) at 2. rewrite loop_debug by (auto; lia). change (0 + zlen (b :: rest)) with (zlen (b :: rest)). destruct (var_split (b :: rest)) as [[[cs e] r]|]; reflexivity.
  - change 0 with ((7 * 0) mod 256) at 2. rewrite loop_release by (auto; lia). destruct (var_split (b :: rest)) as [[[cs e] r]|]; reflexivity.
Qed.
(** ** Up to five bytes the value is that of LEB128 *)
Lemma lor_add : forall a b n, 0 <= n -> 0 <= a < 2 ^ n -> Z.lor a (b * 2 ^ n) = a + b * 2 ^ n.
Proof.
  intros a b n N A. rewrite <- Z.shiftl_mul_pow2 by exact N. symmetry. rewrite Z.add_nocarry_lxor; [|].
  - apply Z.bits_inj'. intros i I. rewrite Z.lxor_spec, Z.lor_spec, Z.shiftl_spec by exact I. destruct (Z.ltb_spec i n) as [L|L].
    + rewrite (Z.testbit_neg_r b) by lia. destruct (Z.testbit a i); reflexivity.
    + assert (Z.testbit a i = false) as ->; [|destruct (Z.testbit b (i - n)); reflexivity]. destruct (Z.eq_dec a 0) as [->|NZ]; [apply Z.testbit_0_l|]. apply Z.bits_above_log2; [lia|]. apply Z.log2_lt_pow2; [lia|]. eapply Z.lt_le_trans; [apply A|]. apply Z.pow_le_mono_r; lia.
  - apply Z.bits_inj'. intros i I. rewrite Z.land_spec, Z.shiftl_spec, Z.testbit_0_l by exact I. destruct (Z.ltb_spec i n) as [L|L].
    + rewrite (Z.testbit_neg_r b) by lia. apply andb_false_r.
    + assert (Z.testbit a i = false) as ->; [|reflexivity]. destruct (Z.eq_dec a 0) as [->|NZ]; [apply Z.testbit_0_l|]. apply Z.bits_above_log2; [lia|]. apply Z.log2_lt_pow2; [lia|]. eapply Z.lt_le_trans; [apply A|]. apply Z.pow_le_mono_r; lia.
Qed.
Lemma lor_part : forall a v n, 0 <= n < 32 -> 0 <= a < 2 ^ n -> Z.lor a ((v * 2 ^ n) mod 2 ^ 32) = (a + v * 2 ^ n) mod 2 ^ 32.
Proof.
  intros a v n N A. assert (E : (v * 2 ^ n) mod 2 ^ 32 = (v mod 2 ^ (32 - n)) * 2 ^ n). { replace (2 ^ 32) with (2 ^ (32 - n) * 2 ^ n) by (rewrite <- Z.pow_add_r by lia; f_equal; lia). apply Z.mul_mod_distr_r; apply Z.pow_nonzero; lia. }
  rewrite E, lor_add by lia. rewrite <- E. assert (P : 0 < 2 ^ n) by (apply Z.pow_pos_nonneg; lia).
  assert (B : 0 <= v mod 2 ^ (32 - n) < 2 ^ (32 - n)) by (apply Z.mod_pos_bound, Z.pow_pos_nonneg; lia).
  assert (Q : 2 ^ 32 = 2 ^ (32 - n) * 2 ^ n) by (rewrite <- Z.pow_add_r by lia; f_equal; lia).
  rewrite Z.add_mod by (apply Z.pow_nonzero; lia). rewrite E. assert (A2 : a mod 2 ^ 32 = a). { apply Z.mod_small. split; [lia|]. eapply Z.lt_le_trans; [apply A|]. apply Z.pow_le_mono_r; lia. } rewrite A2. symmetry. apply Z.mod_small. nia.
Qed.
Lemma value_sum : forall cs e a j, 0 <= j -> j + zlen cs <= 4 -> Forall (fun c => 128 <= c < 256) cs -> 0 <= a < 2 ^ (7 * j) ->
  fold_left Z.lor (var_bits j cs e) a = (a + 2 ^ (7 * j) * var_sum cs e) mod 2 ^ 32.
Proof.
  induction cs as [|c cs IH]; intros e a j J L F A.
  - change (zlen []) with 0 in L. cbn [var_bits fold_left var_sum]. rewrite (Z.mod_small (7 * j)) by lia. rewrite lor_part by lia. f_equal. lia.
  - rewrite zlen_cons in L. pose proof (zlen_nonneg _ cs). inversion F as [|? ? C F']; subst. cbn [var_bits fold_left var_sum]. rewrite (Z.mod_small (7 * j)) by lia.
    assert (P : 2 ^ (7 * (j + 1)) = 128 * 2 ^ (7 * j)) by (replace (7 * (j + 1)) with (7 + 7 * j) by lia; rewrite Z.pow_add_r by lia; reflexivity).
    assert (P0 : 0 < 2 ^ (7 * j)) by (apply Z.pow_pos_nonneg; lia).
    assert (P1 : 128 * 2 ^ (7 * j) <= 2 ^ 28) by (rewrite <- P; apply Z.pow_le_mono_r; lia). change (2 ^ 28) with 268435456 in P1.
    assert (X : a + (c - 128) * 2 ^ (7 * j) < 128 * 2 ^ (7 * j)) by nia. assert (Y : 0 <= (c - 128) * 2 ^ (7 * j)) by nia.
    rewrite lor_part by lia. change (2 ^ 32) with 4294967296 at 1. rewrite (Z.mod_small (a + (c - 128) * 2 ^ (7 * j))) by lia. rewrite IH by (auto; lia). f_equal. rewrite P. ring.
Qed.
Lemma split_cs : forall input cs e r, Forall is_byte input -> var_split input = Some (cs, e, r) -> input = cs ++ e :: r /\ Forall (fun c => 128 <= c < 255) cs /\ (0 <= e < 128 \/ e = 255).
Proof.
  induction input as [|b input IH]; intros cs e r F H; [discriminate|]. cbn [var_split] in H. inversion F as [|? ? B F']; subst. unfold is_byte in B. destruct ((b <? 128) || (b =? 255)) eqn:E.
  - injection H as <- <- <-. apply orb_prop in E. split; [reflexivity|]. split; [constructor|]. destruct E as [E|E]; [apply Z.ltb_lt in E|apply Z.eqb_eq in E]; lia.
  - destruct (var_split input) as [[[cs' e'] r']|] eqn:S; [|discriminate]. injection H as <- <- <-. destruct (IH _ _ _ F' eq_refl) as (-> & I2 & I3). apply orb_false_elim in E. destruct E as [E1 E2]. apply Z.ltb_ge in E1. apply Z.eqb_neq in E2.
    split; [reflexivity|]. split; [constructor; [lia|exact I2]|exact I3].
Qed.
Lemma read_short : forall input cs e r, Forall is_byte input -> var_split input = Some (cs, e, r) -> zlen cs <= 4 -> var_value cs e = var_sum cs e mod 2 ^ 32.
Proof.
  intros input cs e r F H L. destruct (split_cs _ _ _ _ F H) as (_ & C & _). unfold var_value. rewrite (value_sum cs e 0 0); [|lia|lia| |split; [lia|reflexivity]].
  - f_equal. change (2 ^ (7 * 0)) with 1. lia.
  - eapply Forall_impl; [|exact C]. cbn. intros. lia.
Qed.
