(** Variable-length integers and strings: C01, C02, C03. *)
From Verif Require Export PBase MVarint.

(** bytes emitted for a number, as a function of the fuel *)
Fixpoint vb (f : nat) (n : Z) : list Z :=
  match f with
  | O => []
  | S f' => if n <? 128 then [n] else (n mod 128 + 128) :: vb f' (n / 128)
  end.

Lemma var_test : forall n, 0 <= n < 2 ^ 32 -> (Z.land n 0xFFFFFF80 =? 0) = (n <? 128).
Proof.
  intros n Hn. change 0xFFFFFF80 with ((2 ^ 25 - 1) * 2 ^ 7).
  rewrite land_high by lia. change (2 ^ 7) with 128.
  rewrite (Z.mod_small (n / 128)) by lia. lia.
Qed.
Lemma var_low : forall n, Z.land n 0x7F = n mod 128.
Proof. intros. change 0x7F with (2 ^ 7 - 1). rewrite land_ones_mod by lia. reflexivity. Qed.
Lemma var_cont : forall n, Z.lor (Z.land n 0x7F) 0x80 = n mod 128 + 128.
Proof.
  intros. rewrite var_low. change 0x80 with (1 * 2 ^ 7).
  rewrite lor_shift_add by (try lia; change (2 ^ 7) with 128; lia). reflexivity.
Qed.

Lemma write_var_loop_spec : forall f n pos, 0 <= n < 2 ^ 32 -> n < 2 ^ (7 * Z.of_nat f) -> (0 < f)%nat ->
  wbytes (fst (write_var_loop f n pos)) = vb f n /\
  snd (write_var_loop f n pos) = pos - 1 + zlen (vb f n) /\
  size_var_loop f n pos = pos - 1 + zlen (vb f n).
Proof.
  induction f; intros n pos Hn Hf H0; [lia|].
  cbn [write_var_loop size_var_loop vb]. rewrite var_test by lia.
  destruct (Z.ltb_spec n 128); cbn [negb].
  - cbn [fst snd wbytes]. rewrite var_low, Z.mod_small by lia. rewrite zlen_cons, zlen_nil. repeat split; lia.
  - rewrite Z.shiftr_div_pow2 by lia. change (2 ^ 7) with 128.
    assert (Hf' : n / 128 < 2 ^ (7 * Z.of_nat f)).
    { replace (7 * Z.of_nat (S f)) with (7 * Z.of_nat f + 7) in Hf by lia.
      rewrite Z.pow_add_r in Hf by lia. change (2 ^ 7) with 128 in Hf. lia. }
    destruct f as [|f]; [change (2 ^ (7 * Z.of_nat 0)) with 1 in Hf'; lia|].
    destruct (IHf (n / 128) (pos + 1) ltac:(lia) Hf' ltac:(lia)) as (A & B & C).
    destruct (write_var_loop (S f) (n / 128) (pos + 1)) as [w q] eqn:E.
    cbn [fst snd] in *. cbn [wbytes]. rewrite A, var_cont, C, B, zlen_cons. repeat split; lia.
Qed.

Lemma write_var_u32_vb : forall n, 0 <= n < 2 ^ 32 -> wbytes (write_var_u32 n) = vb 5 n.
Proof. intros. apply write_var_loop_spec; try lia. Qed.

Lemma vb_leb128 : forall f n rest, 0 <= n < 2 ^ (7 * Z.of_nat f) -> (0 < f)%nat ->
  leb128 (vb f n ++ rest) = Some (n, rest).
Proof.
  induction f; intros n rest Hf H0; [lia|].
  cbn [vb]. destruct (Z.ltb_spec n 128).
  - cbn [app leb128]. replace (n <? 128) with true by lia. reflexivity.
  - assert (Hf' : n / 128 < 2 ^ (7 * Z.of_nat f)).
    { replace (7 * Z.of_nat (S f)) with (7 * Z.of_nat f + 7) in Hf by lia.
      rewrite Z.pow_add_r in Hf by lia. change (2 ^ 7) with 128 in Hf. lia. }
    destruct f as [|f]; [change (2 ^ (7 * Z.of_nat 0)) with 1 in Hf'; lia|].
    cbn [app]. cbn [leb128]. replace (n mod 128 + 128 <? 128) with false by lia.
    rewrite IHf by lia. f_equal. f_equal. lia.
Qed.

Lemma vb_length : forall f n, (0 < f)%nat -> (1 <= length (vb f n) <= f)%nat.
Proof.
  induction f; intros n H0; [lia|]. cbn [vb]. destruct (n <? 128); cbn [length]; [lia|].
  destruct f; [cbn; lia|]. specialize (IHf (n / 128) ltac:(lia)). lia.
Qed.
Lemma vb_bytes : forall f n, 0 <= n -> bytes (vb f n).
Proof.
  induction f; intros n H; cbn [vb]; [constructor|].
  destruct (Z.ltb_spec n 128); constructor; try (red; lia); [constructor|apply IHf; lia].
Qed.

(** C01 *)
Lemma var_u32_roundtrip : forall n rest, 0 <= n < 2 ^ 32 ->
  leb128 (wbytes (write_var_u32 n) ++ rest) = Some (n, rest).
Proof. intros. rewrite write_var_u32_vb by lia. apply vb_leb128; [change (2 ^ (7 * Z.of_nat 5)) with 34359738368; lia|lia]. Qed.
Lemma var_u32_len : forall n, 0 <= n < 2 ^ 32 ->
  1 <= zlen (wbytes (write_var_u32 n)) <= 5 /\
  write_var_u32_ret n = zlen (wbytes (write_var_u32 n)) /\
  size_var_u32 n = zlen (wbytes (write_var_u32 n)).
Proof.
  intros. rewrite write_var_u32_vb by lia. unfold write_var_u32_ret, size_var_u32.
  destruct (write_var_loop_spec 5 n 1) as (_ & B & C); try lia.
  pose proof (vb_length 5 n ltac:(lia)). unfold zlen in *. lia.
Qed.
Lemma var_u32_bytes : forall n, 0 <= n < 2 ^ 32 -> bytes (wbytes (write_var_u32 n)).
Proof. intros. rewrite write_var_u32_vb by lia. apply vb_bytes. lia. Qed.

(** C02 *)
Lemma zigzag_spec : forall n, - 2 ^ 31 <= n < 2 ^ 31 ->
  zigzag_u32 n = (if n <? 0 then - 2 * n - 1 else 2 * n).
Proof.
  intros n Hn. unfold zigzag_u32. rewrite Z.shiftl_mul_pow2 by lia. change (2 ^ 1) with 2.
  destruct (Z.ltb_spec n 0).
  - unfold Z.lnot. rewrite <- Z.sub_1_r.
    assert (E : wrapS 32 (n * 2) mod 2 ^ 32 = (n * 2) mod 2 ^ 32) by (apply wrapS_mod; lia).
    pose proof (wrapS_range 32 (n * 2) ltac:(lia)). unfold wrapU.
    change (2 ^ (32 - 1)) with 2147483648 in *. change (2 ^ 32) with 4294967296 in *.
    change (2 ^ 31) with 2147483648 in *. lia.
  - unfold wrapU. assert (E : wrapS 32 (n * 2) mod 2 ^ 32 = (n * 2) mod 2 ^ 32) by (apply wrapS_mod; lia).
    rewrite E. rewrite Z.mod_small; lia.
Qed.
Lemma zigzag_range : forall n, - 2 ^ 31 <= n < 2 ^ 31 -> 0 <= zigzag_u32 n < 2 ^ 32.
Proof. intros. rewrite zigzag_spec by lia. destruct (n <? 0) eqn:E; lia. Qed.
Lemma unzigzag_zigzag : forall n, - 2 ^ 31 <= n < 2 ^ 31 -> unzigzag (zigzag_u32 n) = n.
Proof.
  intros. rewrite zigzag_spec by lia. unfold unzigzag. destruct (Z.ltb_spec n 0).
  - replace (- 2 * n - 1) with (1 + 2 * (- n - 1)) by lia. rewrite Z.even_add_mul_2. cbn [Z.even]. lia.
  - replace (2 * n) with (0 + 2 * n) at 1 by lia. rewrite Z.even_add_mul_2. cbn [Z.even]. lia.
Qed.
Lemma var_i32_roundtrip : forall n rest, - 2 ^ 31 <= n < 2 ^ 31 ->
  leb128_signed (wbytes (write_var_i32 n) ++ rest) = Some (n, rest).
Proof.
  intros. unfold leb128_signed, write_var_i32. rewrite var_u32_roundtrip by (apply zigzag_range; lia).
  rewrite unzigzag_zigzag by lia. reflexivity.
Qed.
Lemma var_i32_len : forall n, - 2 ^ 31 <= n < 2 ^ 31 ->
  1 <= zlen (wbytes (write_var_i32 n)) <= 5 /\ size_var_i32 n = zlen (wbytes (write_var_i32 n)).
Proof.
  intros. unfold size_var_i32, write_var_i32. pose proof (var_u32_len _ (zigzag_range n H)). lia.
Qed.
Lemma var_i32_bytes : forall n, - 2 ^ 31 <= n < 2 ^ 31 -> bytes (wbytes (write_var_i32 n)).
Proof. intros. apply var_u32_bytes, zigzag_range; lia. Qed.
Lemma write_str_roundtrip : forall s rest, zlen s < 2 ^ 31 ->
  str_field (wbytes (write_str s) ++ rest) = Some (s, rest).
Proof.
  intros. unfold str_field, write_str. cbn [wbytes]. rewrite app_nil_r, <- app_assoc.
  pose proof (zlen_nonneg _ s).
  rewrite wrapS_small by (change (2 ^ (32 - 1)) with (2 ^ 31); lia).
  rewrite var_i32_roundtrip by lia. apply take_app.
Qed.
Lemma write_str_len : forall s, zlen s < 2 ^ 31 ->
  zlen (wbytes (write_str s)) = size_var_i32 (zlen s) + zlen s.
Proof.
  intros. unfold write_str. cbn [wbytes]. rewrite app_nil_r, zlen_app.
  pose proof (zlen_nonneg _ s).
  rewrite wrapS_small by (change (2 ^ (32 - 1)) with (2 ^ 31); lia).
  destruct (var_i32_len (zlen s)); lia.
Qed.

(** C03 *)
Lemma shl_u32_small : forall p v i, 0 <= i <= 28 -> 0 <= v -> v * 2 ^ i < 2 ^ 32 ->
  shl_u32 p v i = Ret (v * 2 ^ i).
Proof.
  intros. unfold shl_u32. replace (i <? 32) with true by lia.
  rewrite Z.shiftl_mul_pow2 by lia. rewrite wrapU_small; auto.
  pose proof (pow2_pos i ltac:(lia)). nia.
Qed.

Lemma land_80 : forall b, 0 <= b < 256 -> (Z.land b 0x80 =? 0) = (b <? 128).
Proof.
  intros. change 0x80 with ((2 ^ 1 - 1) * 2 ^ 7). rewrite land_high by lia.
  change (2 ^ 7) with 128. change (2 ^ 1) with 2. lia.
Qed.

Lemma shl_u32_total : forall p v i, 0 <= i <= 28 -> exists s, shl_u32 p v i = Ret s.
Proof. intros. unfold shl_u32. replace (i <? 32) with true by lia. eauto. Qed.

Lemma read_var_spec : forall p f n value i fuel b tail rest,
  0 <= n < 2 ^ (7 * Z.of_nat f) -> (0 < f)%nat -> 0 <= i -> i + 7 * Z.of_nat f <= 35 ->
  0 <= value < 2 ^ i -> value + n * 2 ^ i < 2 ^ 32 ->
  vb f n = b :: tail -> (length tail < fuel)%nat ->
  (~ In 255 (vb f n) -> read_var_loop p fuel value i b (tail ++ rest) = Ret (Some (value + n * 2 ^ i, rest))) /\
  (In 255 (vb f n) -> exists v r, read_var_loop p fuel value i b (tail ++ rest) = Ret (Some (v, r)) /\
                       (length rest < length r)%nat).
Proof.
  induction f; intros n value i fuel b tail rest Hf H0 Hi Hif Hv Hlt Hvb Hfuel; [lia|].
  cbn [vb] in Hvb |- *. destruct fuel as [|fuel]; [lia|].
  destruct (Z.ltb_spec n 128) as [L|G].
  - injection Hvb as <- <-. cbn [app read_var_loop].
    assert (Hn255 : negb (n =? 255) && negb (Z.land n 128 =? 0) = false)
      by (rewrite land_80 by lia; lia).
    rewrite Hn255. rewrite shl_u32_small by nia. cbn [bind].
    rewrite lor_shift_add by lia. split; [reflexivity|]. intros [E|[]]; lia.
  - injection Hvb as <- <-.
    assert (Hf' : n / 128 < 2 ^ (7 * Z.of_nat f)).
    { replace (7 * Z.of_nat (S f)) with (7 * Z.of_nat f + 7) in Hf by lia.
      rewrite Z.pow_add_r in Hf by lia. change (2 ^ 7) with 128 in Hf. lia. }
    destruct f as [|f]; [change (2 ^ (7 * Z.of_nat 0)) with 1 in Hf'; lia|].
    assert (Hp7 : 2 ^ (i + 7) = 128 * 2 ^ i) by (rewrite Z.pow_add_r by lia; change (2 ^ 7) with 128; lia).
    pose proof (pow2_pos i ltac:(lia)) as Hpi.
    destruct (vb (S f) (n / 128)) as [|b' tail'] eqn:Hvb'.
    { pose proof (vb_length (S f) (n / 128) ltac:(lia)). rewrite Hvb' in *. cbn in *. lia. }
    cbn [read_var_loop].
    destruct (Z.eq_dec (n mod 128 + 128) 255) as [E255|N255].
    + rewrite E255. change (negb (255 =? 255) && _) with false. cbn iota.
      destruct (shl_u32_total p 255 i ltac:(lia)) as [sh ->]. cbn [bind].
      split; [intros HN; exfalso; apply HN; left; reflexivity|]. intros _. eexists _, _. split; [reflexivity|].
      cbn [app length]. rewrite app_length. lia.
    + assert (T : negb (n mod 128 + 128 =? 255) && negb (Z.land (n mod 128 + 128) 128 =? 0) = true)
        by (rewrite land_80 by lia; lia).
      rewrite T.
      assert (Hland : Z.land (n mod 128 + 128) 127 = n mod 128) by (rewrite var_low; lia).
      rewrite Hland.
      rewrite shl_u32_small by nia. cbn [bind]. rewrite lor_shift_add by lia.
      rewrite arithU_ok by (change (2 ^ 8) with 256; lia). cbn [bind app read_byte].
      destruct (IHf (n / 128) (value + n mod 128 * 2 ^ i) (i + 7) fuel b' tail' rest) as [A B];
        try lia; try (rewrite Hp7; nia); auto.
      { cbn [length] in Hfuel. lia. }
      assert (EQ : value + n mod 128 * 2 ^ i + n / 128 * 2 ^ (i + 7) = value + n * 2 ^ i)
        by (rewrite Hp7; nia).
      rewrite EQ in A. rewrite Hvb' in *. split.
      * intros HN. apply A. intros HI. apply HN. right. exact HI.
      * intros [HI|HI]; [lia|]. apply B. exact HI.
Qed.

Lemma read_var_u32_iff : forall p n rest, 0 <= n < 2 ^ 32 ->
  (read_var_u32 p (wbytes (write_var_u32 n) ++ rest) = Ret (Some (n, rest))
   <-> ~ In 255 (wbytes (write_var_u32 n))).
Proof.
  intros. rewrite write_var_u32_vb by lia.
  destruct (vb 5 n) as [|b tail] eqn:E; [pose proof (vb_length 5 n ltac:(lia)); rewrite E in *; cbn in *; lia|].
  unfold read_var_u32. cbn [app read_byte].
  destruct (read_var_spec p 5 n 0 0 (S (length (tail ++ rest))) b tail rest) as [A B];
    try lia; auto; try (rewrite app_length; lia). 
  rewrite E in *. change (2 ^ 0) with 1 in *. replace (0 + n * 1) with n in A by lia.
  split; auto. intros HR HI. destruct (B HI) as (v & r & HR' & HL).
  rewrite HR in HR'. injection HR' as _ <-. lia.
Qed.
