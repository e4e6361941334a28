(** Codes, metadata log, digests: C36, C38, C39. *)
From Verif Require Export PSink SMlog MSync.
Ltac Zify.zify_post_hook ::= idtac.

(** ** C36 *)
Lemma dtype_code_iff : forall b d, dtype_of_code b = Some d <-> b = dtype_code d.
Proof.
  intros b d. split.
  - destruct b as [|[[[]|[]|]|[[]|[]|]|]|]; cbn; intros H; inversion H; reflexivity.
  - intros ->. destruct d; reflexivity.
Qed.
Lemma encoding_code_iff : forall b d, encoding_of_code b = Some d <-> b = encoding_code d.
Proof.
  intros b d. split.
  - destruct b as [|[[[]|[]|]|[[]|[]|]|]|]; cbn; intros H; inversion H; reflexivity.
  - intros ->. destruct d; reflexivity.
Qed.
Lemma compression_code_iff : forall b d, compression_of_code b = Some d <-> b = compression_code d.
Proof.
  intros b d. split.
  - destruct b as [|[[[]|[]|]|[[]|[]|]|]|]; cbn; intros H; inversion H; reflexivity.
  - intros ->. destruct d; reflexivity.
Qed.

(** ** CRC *)
Definition cstep (c : Z) : Z := if Z.odd c then Z.lxor (Z.shiftr c 1) 0xEDB88320 else Z.shiftr c 1.
Definition bitz (b : bool) : Z := if b then 1 else 0.
Lemma cstep_lin : forall x y, cstep (Z.lxor x (2 * y)) = Z.lxor (cstep x) y.
Proof.
  intros x y. unfold cstep.
  assert (O : Z.odd (Z.lxor x (2 * y)) = Z.odd x).
  { rewrite <- !Z.bit0_odd, Z.lxor_spec, Z.bit0_odd, Z.bit0_odd. rewrite Z.odd_mul. cbn. apply xorb_false_r. }
  rewrite O, Z.shiftr_lxor. replace (Z.shiftr (2 * y) 1) with y.
  - destruct (Z.odd x); auto. rewrite !Z.lxor_assoc. f_equal. apply Z.lxor_comm.
  - rewrite Z.shiftr_div_pow2 by lia. change (2 ^ 1) with 2. rewrite Z.mul_comm. symmetry. apply Z.div_mul. lia.
Qed.
Lemma byte_split : forall v, 0 <= v -> v = Z.lxor (bitz (Z.odd v)) (2 * (v / 2)).
Proof.
  intros v Hv. rewrite <- Z.add_nocarry_lxor.
  - unfold bitz. rewrite (Zdiv2_odd_eqn v) at 1. rewrite Z.div2_div. destruct (Z.odd v); lia.
  - apply Z.bits_inj'. intros n Hn. rewrite Z.land_spec, Z.bits_0. destruct (Z.eq_dec n 0) as [->|].
    + rewrite (Z.bit0_odd (2 * _)), Z.odd_mul. cbn. apply andb_false_r.
    + unfold bitz. destruct (Z.odd v); [|rewrite Z.bits_0; reflexivity].
      change 1 with (2 ^ 0). rewrite Z.pow2_bits_false by lia. reflexivity.
Qed.
Lemma crc_bits_serial : forall n c v, 0 <= v < 2 ^ Z.of_nat n ->
  crc_bits n (Z.lxor c v) = fold_left (fun c b => cstep (Z.lxor c (bitz b))) (bits_lsb n v) c.
Proof.
  induction n; intros c v Hv.
  - cbn in *. replace v with 0 by lia. apply Z.lxor_0_r.
  - cbn [crc_bits bits_lsb fold_left]. fold (cstep (Z.lxor c v)).
    rewrite (byte_split v) at 1 by lia. rewrite <- Z.lxor_assoc, cstep_lin. apply IHn.
    rewrite Nat2Z.inj_succ, Z.pow_succ_r in Hv by lia. split; [apply Z.div_pos; lia|apply Z.div_lt_upper_bound; lia].
Qed.
Lemma xor_list_length : forall a b, length (xor_list a b) = Nat.min (length a) (length b).
Proof. induction a; destruct b; cbn; auto. Qed.
Lemma bitz_lxor_add : forall b v, bitz b + 2 * v = Z.lxor (bitz b) (2 * v).
Proof.
  intros b v. apply Z.add_nocarry_lxor. apply Z.bits_inj'. intros n Hn. rewrite Z.land_spec, Z.bits_0.
  destruct (Z.eq_dec n 0) as [->|].
  + rewrite (Z.bit0_odd (2 * _)), Z.odd_mul. cbn. apply andb_false_r.
  + unfold bitz. destruct b; [|rewrite Z.bits_0; reflexivity].
    change 1 with (2 ^ 0). rewrite Z.pow2_bits_false by lia. reflexivity.
Qed.
Lemma lxor_double : forall a b, Z.lxor (2 * a) (2 * b) = 2 * Z.lxor a b.
Proof.
  intros. rewrite !(Z.mul_comm 2). change 2 with (2 ^ 1). rewrite <- !Z.shiftl_mul_pow2 by lia.
  symmetry. apply Z.shiftl_lxor.
Qed.
Lemma lsb_val_xor : forall a b, length a = length b -> lsb_val (xor_list a b) = Z.lxor (lsb_val a) (lsb_val b).
Proof.
  induction a as [|x a IH]; destruct b as [|y b]; cbn [length]; intros H; try discriminate; [reflexivity|].
  cbn [xor_list lsb_val]. rewrite IH by lia.
  change (if x then 1 else 0) with (bitz x). change (if y then 1 else 0) with (bitz y).
  change (if xorb x y then 1 else 0) with (bitz (xorb x y)).
  rewrite !bitz_lxor_add. replace (bitz (xorb x y)) with (Z.lxor (bitz x) (bitz y)) by (destruct x, y; reflexivity).
  rewrite <- lxor_double. rewrite !Z.lxor_assoc. f_equal. rewrite <- !Z.lxor_assoc. f_equal. apply Z.lxor_comm.
Qed.
Lemma lsb_val_app0 : forall a, lsb_val (a ++ [false]) = lsb_val a.
Proof. induction a; cbn [app lsb_val]; [reflexivity|]. rewrite IHa. reflexivity. Qed.
Lemma crc_shift_val : forall r b, length r = 32%nat ->
  length (crc_shift r b) = 32%nat /\ lsb_val (crc_shift r b) = cstep (Z.lxor (lsb_val r) (bitz b)).
Proof.
  intros r b H. destruct r as [|h t]; [discriminate|]. cbn [length] in H.
  assert (HL : length (t ++ [false]) = 32%nat) by (rewrite app_length; cbn; lia).
  assert (E : cstep (Z.lxor (lsb_val (h :: t)) (bitz b)) = Z.lxor (cstep (bitz (xorb h b))) (lsb_val t)).
  { cbn [lsb_val]. change (if h then 1 else 0) with (bitz h). rewrite bitz_lxor_add.
    rewrite Z.lxor_assoc, (Z.lxor_comm (2 * _)), <- Z.lxor_assoc, cstep_lin.
    f_equal. f_equal. destruct h, b; reflexivity. }
  rewrite E. unfold crc_shift. destruct (xorb h b).
  - split; [rewrite xor_list_length, HL; reflexivity|]. rewrite lsb_val_xor by (rewrite HL; reflexivity).
    rewrite lsb_val_app0, Z.lxor_comm. reflexivity.
  - split; auto. rewrite lsb_val_app0. reflexivity.
Qed.
Lemma crc_serial : forall bs r, length r = 32%nat ->
  length (fold_left crc_shift bs r) = 32%nat /\
  lsb_val (fold_left crc_shift bs r) = fold_left (fun c b => cstep (Z.lxor c (bitz b))) bs (lsb_val r).
Proof.
  induction bs as [|b bs IH]; intros r H; cbn [fold_left]; auto.
  destruct (crc_shift_val r b H) as [H1 H2]. rewrite <- H2. apply IH. auto.
Qed.
Lemma lsb_val_negb : forall l, lsb_val (map negb l) = Z.lxor (lsb_val l) (lsb_val (repeat true (length l))).
Proof.
  intros l. rewrite <- lsb_val_xor by (rewrite repeat_length; auto). f_equal.
  induction l; cbn; auto. rewrite <- IHl. destruct a; reflexivity.
Qed.
Lemma crc_eq : forall l, bytes l -> crc32 l = crc_spec l.
Proof.
  intros l H. unfold crc32, crc_spec. destruct (crc_serial (flat_map (bits_lsb 8) l) (repeat true 32) eq_refl) as [L1 L2].
  rewrite lsb_val_negb, L1, L2. change (lsb_val (repeat true 32)) with 0xFFFFFFFF. f_equal.
  clear L1 L2. generalize 0xFFFFFFFF as c. induction H; intros c; cbn [fold_left flat_map]; auto.
  rewrite fold_left_app. rewrite <- crc_bits_serial by exact H. apply IHForall.
Qed.
Lemma lsb_val_range : forall l, 0 <= lsb_val l < 2 ^ zlen l.
Proof.
  induction l as [|b l IH]; [rewrite zlen_nil; cbn; lia|]. cbn [lsb_val]. rewrite zlen_cons. rewrite Z.pow_add_r by (pose proof (zlen_nonneg _ l); lia).
  change (2 ^ 1) with 2. destruct b; lia.
Qed.
Lemma crc_range : forall l, 0 <= crc_spec l < 2 ^ 32.
Proof.
  intros l. unfold crc_spec. destruct (crc_serial (flat_map (bits_lsb 8) l) (repeat true 32) eq_refl) as [L1 _].
  pose proof (lsb_val_range (map negb (fold_left crc_shift (flat_map (bits_lsb 8) l) (repeat true 32)))) as R.
  unfold zlen in R. rewrite map_length, L1 in R. exact R.
Qed.

(** ** C38 *)
Lemma path_field_spec : forall path rest, zlen path < 2 ^ 31 ->
  path_field (be_bytes 4 (wrapS 32 (zlen path)) ++ path ++ rest) = Some (path, rest).
Proof.
  intros path rest H. pose proof (zlen_nonneg _ path). unfold path_field. rewrite wrapS_small by lia.
  rewrite (be_signed_small 4) by (cbn; lia). apply take_app.
Qed.
Notation create_of := series_plan.
Lemma create_plan_read : forall sg d m ms rest, zlen (mlog_path sg d m) < 2 ^ 31 ->
  plan_read (wbytes (write_create_plan (mlog_path sg d m) (ms_type ms) (ms_enc ms) (ms_comp ms)) ++ rest)
  = Some (create_of sg d m ms, rest).
Proof.
  intros sg d m ms rest H. unfold write_create_plan. cbn [wbytes]. rewrite <- !app_assoc. cbn [app].
  cbn [plan_read]. rewrite path_field_spec by auto.
  assert (U1 : forall b l, be_unsigned 1 (b :: l) = Some (b, l)).
  { intros b l. unfold be_unsigned. change (b :: l) with ([b] ++ l). rewrite take_app_n by reflexivity. reflexivity. }
  rewrite U1. rewrite U1. rewrite U1. rewrite (be_signed_small 8) by (cbn; lia).
  change (0 :: 0 :: 0 :: 0 :: be_bytes 8 0 ++ rest) with ([0; 0; 0; 0] ++ (be_bytes 8 0 ++ rest)).
  rewrite take_app_n by reflexivity. rewrite (be_unsigned_small 8) by (cbn; lia). reflexivity.
Qed.
Lemma sg_plan_read : forall sg rest, zlen sg < 2 ^ 31 ->
  plan_read (wbytes (write_set_storage_group_plan sg) ++ rest) = Some (SetStorageGroup sg, rest).
Proof.
  intros sg rest H. unfold write_set_storage_group_plan. cbn [wbytes]. rewrite <- !app_assoc. cbn [app].
  cbn [plan_read]. rewrite path_field_spec by auto. rewrite (be_unsigned_small 8) by (cbn; lia). reflexivity.
Qed.
Lemma mlog_flush_healthy : forall m out, is_healthy out ->
  exists out', mlog_flush m out = ([], out', true) /\ sk_ext out out' (wbytes (mlog_record m)).
Proof.
  intros m out H. unfold mlog_flush. destruct (wexec_healthy (mlog_record m) out H) as (o & E & X). rewrite E. eauto.
Qed.
Definition series_of (s : schema) : list (str * (str * mschema)) := flat_map (fun dg => map (pair (fst dg)) (snd dg)) s.
Definition plan_bytes (sg : str) (x : str * (str * mschema)) : list byte :=
  wbytes (write_create_plan (mlog_path sg (fst x) (fst (snd x))) (ms_type (snd (snd x))) (ms_enc (snd (snd x))) (ms_comp (snd (snd x)))).
Lemma mlog_plans_concat : forall sg s m0, mlog_plans sg s m0 = m0 ++ concat (map (plan_bytes sg) (series_of s)).
Proof.
  intros sg. unfold mlog_plans. induction s as [|[d g] s IH]; intros m0; cbn [fold_left series_of flat_map].
  - cbn. rewrite app_nil_r. auto.
  - rewrite IH. rewrite map_app, concat_app, app_assoc. f_equal. cbn [fst snd].
    clear. revert m0. induction g as [|[m ms] g IH]; intros m0; cbn [fold_left map concat].
    + rewrite app_nil_r. auto.
    + rewrite IH. unfold mlog_create_plan. cbn [fst snd]. rewrite <- app_assoc. reflexivity.
Qed.
Lemma frame_spec : forall payload ps rest, bytes payload -> zlen payload < 2 ^ 31 -> parts plan_read payload ps ->
  frame_read (wbytes (mlog_record payload) ++ rest) = Some (ps, rest).
Proof.
  intros payload ps rest Hb Hl Hp. pose proof (zlen_nonneg _ payload). unfold mlog_record, frame_read. cbn [wbytes].
  rewrite <- !app_assoc. cbn [app]. rewrite wrapS_small by lia. rewrite (be_signed_small 4) by (cbn; lia).
  rewrite take_app. pose proof (crc_range payload).
  rewrite (be_unsigned_small 8) by (rewrite crc_eq by auto; cbn; lia). rewrite crc_eq by auto. rewrite Z.eqb_refl.
  rewrite (parts_many _ _ _ ps) by auto. reflexivity.
Qed.
Lemma concat_zlen_le : forall (l : list (list byte)) x, In x l -> zlen x <= zlen (concat l).
Proof.
  induction l as [|y l IH]; intros x []; cbn [concat]; rewrite zlen_app.
  - subst. pose proof (zlen_nonneg _ (concat l)). lia.
  - pose proof (IH x H). pose proof (zlen_nonneg _ y). lia.
Qed.
Lemma plan_bytes_long : forall sg x, zlen (mlog_path sg (fst x) (fst (snd x))) <= zlen (plan_bytes sg x).
Proof.
  intros sg x. unfold plan_bytes, write_create_plan. cbn [wbytes]. rewrite !zlen_app.
  repeat match goal with |- context [zlen ?l] => lazymatch goal with H : 0 <= zlen l |- _ => fail | _ => pose proof (zlen_nonneg _ l) end end.
  lia.
Qed.
Lemma bytes_app : forall a b, bytes a -> bytes b -> bytes (a ++ b).
Proof. intros. apply Forall_app. auto. Qed.
Lemma plan_bytes_bytes : forall sg x, bytes sg -> bytes (fst x) -> bytes (fst (snd x)) -> bytes (plan_bytes sg x).
Proof.
  intros sg [d [m ms]] H1 H2 H3. cbn [fst snd] in *. unfold plan_bytes, write_create_plan, mlog_path. cbn [wbytes fst snd].
  assert (Z1 : forall z, 0 <= z < 256 -> bytes [z]) by (intros; repeat constructor; lia).
  repeat apply bytes_app; auto; try apply be_bytes_bytes; try (apply Z1; lia); try apply Forall_nil;
    apply Z1; destruct ms as [[] [] []]; cbn; lia.
Qed.
Lemma write_mlog_bytes : forall sg s, write_mlog sg s =
  wbytes (mlog_record (wbytes (write_set_storage_group_plan sg)))
  ++ wbytes (mlog_record (concat (map (plan_bytes sg) (series_of s)))).
Proof.
  intros sg s. unfold write_mlog. 
  destruct (mlog_flush_healthy (mlog_set_storage_group_plan sg []) (sink_new healthy) healthy_new) as (o1 & E1 & X1).
  rewrite E1. destruct (mlog_flush_healthy (mlog_plans sg s []) o1 (sk_ext_healthy _ _ _ X1 healthy_new)) as (o2 & E2 & X2).
  rewrite E2. rewrite (se_data _ _ _ X2), (se_data _ _ _ X1). rewrite mlog_plans_concat. reflexivity.
Qed.
Lemma mlog_record_len : forall m, zlen (wbytes (mlog_record m)) = 12 + zlen m.
Proof.
  intros m. unfold mlog_record. cbn [wbytes]. rewrite !zlen_app, !be_bytes_zlen, zlen_nil. lia.
Qed.
Lemma mlog_roundtrip : forall sg s, bytes sg -> Forall (fun dg => bytes (fst dg) /\ Forall (fun ms => bytes (fst ms)) (snd dg)) s ->
  zlen (write_mlog sg s) < 2 ^ 31 ->
  mlog_read (write_mlog sg s) =
  Some (expected_plans sg s).
Proof.
  intros sg s Hsg Hs Hl. rewrite write_mlog_bytes in *. set (P1 := wbytes (write_set_storage_group_plan sg)) in *.
  set (P2 := concat (map (plan_bytes sg) (series_of s))) in *.
  assert (HP1 : zlen P1 < 2 ^ 31 /\ zlen P2 < 2 ^ 31).
  { rewrite zlen_app, !mlog_record_len in Hl. clearbody P1 P2. clear - Hl.
    pose proof (zlen_nonneg _ P1). pose proof (zlen_nonneg _ P2). lia. }
  destruct HP1 as [L1 L2].
  assert (Lsg : zlen sg < 2 ^ 31).
  { unfold P1, write_set_storage_group_plan in L1. cbn [wbytes] in L1. rewrite !zlen_app, !be_bytes_zlen, !zlen_cons, !zlen_nil in L1. lia. }
  assert (B1 : bytes P1).
  { unfold P1, write_set_storage_group_plan. cbn [wbytes].
    repeat apply bytes_app; auto; try apply be_bytes_bytes; repeat constructor; unfold is_byte; lia. }
  assert (Ser : forall x, In x (series_of s) -> bytes (fst x) /\ bytes (fst (snd x))).
  { intros x Hx. unfold series_of in Hx. apply in_flat_map in Hx. destruct Hx as ([d g] & Hd & Hx).
    apply in_map_iff in Hx. destruct Hx as ([m ms] & <- & Hm). rewrite Forall_forall in Hs. destruct (Hs _ Hd) as [G1 G2].
    rewrite Forall_forall in G2. specialize (G2 _ Hm). auto. }
  assert (B2 : bytes P2).
  { unfold P2. apply Forall_concat. apply Forall_map. rewrite Forall_forall. intros x Hx. destruct (Ser x Hx).
    apply plan_bytes_bytes; auto. }
  assert (Q2 : parts plan_read P2 (map (fun x => create_of sg (fst x) (fst (snd x)) (snd (snd x))) (series_of s))).
  { unfold P2. exists (map (plan_bytes sg) (series_of s)). split; auto.
    assert (LL : forall x, In x (series_of s) -> zlen (plan_bytes sg x) < 2 ^ 31).
    { intros x Hx. eapply Z.le_lt_trans; [|exact L2]. apply concat_zlen_le. apply in_map. auto. }
    clear - LL. induction (series_of s) as [|x l IH]; cbn [map]; constructor.
    - split; [discriminate|]. intros rest. destruct x as [d [m ms]]. apply create_plan_read.
      pose proof (plan_bytes_long sg (d, (m, ms))). pose proof (LL (d, (m, ms)) (or_introl eq_refl)). cbn [fst snd] in *. lia.
    - apply IH. intros. apply LL. right. auto. }
  assert (Q1 : parts plan_read P1 [SetStorageGroup sg]).
  { exists [P1]. split; [cbn; rewrite app_nil_r; auto|]. constructor; [|constructor]. split; [discriminate|].
    intros rest. apply sg_plan_read. auto. }
  assert (FR : parts frame_read (wbytes (mlog_record P1) ++ wbytes (mlog_record P2))
    [[SetStorageGroup sg]; map (fun x => create_of sg (fst x) (fst (snd x)) (snd (snd x))) (series_of s)]).
  { assert (NE : forall l, wbytes (mlog_record l) <> []) by (intros l; unfold mlog_record; cbn [wbytes]; cbn; discriminate).
    exists [wbytes (mlog_record P1); wbytes (mlog_record P2)]. split; [cbn [concat]; rewrite app_nil_r; auto|].
    repeat constructor; auto; intros rest; apply frame_spec; auto. }
  unfold mlog_read. rewrite (parts_many _ _ _ _ _ FR) by auto. cbn [concat]. rewrite app_nil_r. cbn [app].
  unfold expected_plans, series_of. do 2 f_equal.
  clear. induction s as [|[d g] s IH]; [reflexivity|]. cbn [flat_map fst snd]. rewrite map_app, map_map, IH. reflexivity.
Qed.

(** ** C39 *)
Lemma hex_digit_char : forall n, 0 <= n < 16 -> hex_digit n = nth (Z.to_nat n) hex_chars 0.
Proof.
  intros n H. assert (E : n = 0 \/ n = 1 \/ n = 2 \/ n = 3 \/ n = 4 \/ n = 5 \/ n = 6 \/ n = 7 \/ n = 8 \/ n = 9 \/ n = 10 \/ n = 11 \/
    n = 12 \/ n = 13 \/ n = 14 \/ n = 15) by lia.
  repeat destruct E as [->|E]; try reflexivity. subst. reflexivity.
Qed.
Definition nib_val (l : list Z) : Z := fold_left (fun a b => a * 16 + b) l 0.
Definition nibbles (l : list byte) : list Z := flat_map (fun b => [b / 16; b mod 16]) l.
Lemma nib_gen : forall l a, fold_left (fun a b => a * 16 + b) (nibbles l) a = fold_left (fun a b => a * 256 + b) l a.
Proof.
  induction l as [|b l IH]; intros a; cbn [nibbles flat_map fold_left app]; auto. unfold nibbles in IH. rewrite IH. f_equal.
  rewrite (Z.div_mod b 16) at 3 by lia. ring.
Qed.
Lemma nib_snoc : forall l d, nib_val (l ++ [d]) = nib_val l * 16 + d.
Proof. intros. unfold nib_val. rewrite fold_left_app. reflexivity. Qed.
Definition nib_ok (l : list Z) : Prop := Forall (fun d => 0 <= d < 16) l.
Lemma nib_range : forall l, nib_ok l -> 0 <= nib_val l < 16 ^ zlen l.
Proof.
  induction l as [|d l IH] using rev_ind; intros H; [rewrite zlen_nil; cbn; lia|]. apply Forall_app in H. destruct H as [H1 H2].
  inversion H2; subst. rewrite nib_snoc, zlen_app, zlen_cons, zlen_nil. specialize (IH H1).
  rewrite Z.pow_add_r by (pose proof (zlen_nonneg _ l); lia). change (16 ^ (1 + 0)) with 16. lia.
Qed.
Lemma trim_digits : forall l, nib_ok l -> exists z, l = repeat 0 z ++ skipn z l /\
  trim_zeros (map hex_digit l) = map hex_digit (skipn z l) /\ match skipn z l with [] => True | d :: _ => d <> 0 end.
Proof.
  induction l as [|d l IH]; intros H; [exists 0%nat; cbn; auto|]. inversion H; subst.
  destruct (Z.eq_dec d 0) as [->|N].
  - destruct (IH H3) as (z & E1 & E2 & E3). exists (S z). cbn [repeat skipn map]. split; [cbn; congruence|].
    split; auto.
  - exists 0%nat. cbn [repeat skipn app map]. split; auto. split; auto.
    rewrite hex_digit_char by auto. assert (X : nth (Z.to_nat d) hex_chars 0 <> 48).
    { rewrite <- hex_digit_char by auto. unfold hex_digit. destruct (d <? 10) eqn:E; lia. }
    cbn [trim_zeros]. destruct (nth (Z.to_nat d) hex_chars 0) as [|p|p]; auto.
    do 6 (destruct p as [p|p|]; auto). congruence.
Qed.
Lemma hex_fuel_digits : forall l fuel, nib_ok l -> match l with [] => True | d :: _ => d <> 0 end -> (length l <= fuel)%nat ->
  hex_fuel fuel (nib_val l) = map hex_digit l.
Proof.
  intros l. induction l as [|d l IH] using rev_ind; intros fuel H H0 Hf.
  - destruct fuel; reflexivity.
  - apply Forall_app in H. destruct H as [H1 H2]. inversion H2; subst. rewrite app_length in Hf. cbn in Hf.
    destruct fuel; [lia|]. cbn [hex_fuel]. rewrite nib_snoc. pose proof (nib_range l H1) as R.
    assert (P : nib_val l * 16 + d <> 0).
    { destruct l as [|e l]; [cbn in *; lia|]. cbn [app] in H0. intros Z0. assert (Z1 : nib_val (e :: l) = 0) by lia.
      assert (Q : nib_val (e :: l) = e * 16 ^ zlen l + nib_val l).
      { clear. unfold nib_val. cbn [fold_left]. change (0 * 16 + e) with e. rewrite <- (Z.add_0_r e) at 1.
        generalize 0 at 1 2 as a. revert e. induction l as [|x l IH]; intros e a; cbn [fold_left].
        - rewrite zlen_nil. lia.
        - rewrite zlen_cons. replace ((e + a) * 16 + x) with (e * 16 + (a * 16 + x)) by ring. rewrite IH.
          rewrite Z.pow_add_r by (pose proof (zlen_nonneg _ l); lia). change (16 ^ 1) with 16. ring. }
      inversion H1; subst. pose proof (nib_range l H7). assert (0 < 16 ^ zlen l) by (apply Z.pow_pos_nonneg; [lia|apply zlen_nonneg]).
      nia. }
    replace (nib_val l * 16 + d =? 0) with false by lia.
    replace ((nib_val l * 16 + d) / 16) with (nib_val l) by (apply (Z.div_unique _ _ _ d); lia).
    replace ((nib_val l * 16 + d) mod 16) with d by (apply (Z.mod_unique _ _ (nib_val l)); lia).
    rewrite IH; auto; [|destruct l; auto|lia]. rewrite map_app. cbn [map]. rewrite hex_digit_char by lia. reflexivity.
Qed.
Lemma repeat0_val : forall z l, nib_val (repeat 0 z ++ l) = nib_val l.
Proof. induction z; intros; cbn [repeat app]; auto. unfold nib_val in *. cbn [fold_left]. apply IHz. Qed.
Lemma nibbles_ok : forall l, bytes l -> nib_ok (nibbles l).
Proof.
  intros l H. induction H; cbn [nibbles flat_map app]; [constructor|]. unfold is_byte in H.
  constructor; [split; [apply Z.div_pos; lia|apply Z.div_lt_upper_bound; lia]|].
  constructor; [apply Z.mod_pos_bound; lia|]. exact IHForall.
Qed.
Lemma hex_encode_nibbles : forall l, hex_encode l = map hex_digit (nibbles l).
Proof. induction l; cbn [hex_encode nibbles flat_map app map]; auto. unfold hex_encode in IHl. rewrite IHl. reflexivity. Qed.
Lemma hex_fuel_enough : forall l, nib_ok l -> match l with [] => True | d :: _ => d <> 0 end ->
  (length l <= Z.to_nat (Z.log2 (nib_val l)) + 1)%nat.
Proof.
  intros l H H0. destruct l as [|d l]; [cbn; lia|].
  assert (Q : nib_val (d :: l) = d * 16 ^ zlen l + nib_val l).
  { clear. unfold nib_val. cbn [fold_left]. change (0 * 16 + d) with d. rewrite <- (Z.add_0_r d) at 1.
    generalize 0 at 1 2 as a. revert d. induction l as [|x l IH]; intros e a; cbn [fold_left].
    - rewrite zlen_nil. lia.
    - rewrite zlen_cons. replace ((e + a) * 16 + x) with (e * 16 + (a * 16 + x)) by ring. rewrite IH.
      rewrite Z.pow_add_r by (pose proof (zlen_nonneg _ l); lia). change (16 ^ 1) with 16. ring. }
  inversion H; subst. pose proof (nib_range l H4). assert (P : 0 < 16 ^ zlen l) by (apply Z.pow_pos_nonneg; [lia|apply zlen_nonneg]).
  assert (L : 16 ^ zlen l <= nib_val (d :: l)) by nia.
  apply Z.log2_le_mono in L. change 16 with (2 ^ 4) in L. rewrite <- Z.pow_mul_r in L by (try lia; apply zlen_nonneg).
  rewrite Z.log2_pow2 in L by (pose proof (zlen_nonneg _ l); lia). cbn [length]. unfold zlen in L. lia.
Qed.
Lemma digest_numeral : forall d, bytes d -> trim_zeros (hex_encode d) = hex_numeral (be_val d).
Proof.
  intros d H. rewrite hex_encode_nibbles. pose proof (nibbles_ok d H) as N.
  destruct (trim_digits (nibbles d) N) as (z & E1 & E2 & E3). rewrite E2.
  assert (V : be_val d = nib_val (skipn z (nibbles d))).
  { rewrite <- (repeat0_val z), <- E1. symmetry. apply (nib_gen d 0). }
  assert (N2 : nib_ok (skipn z (nibbles d))) by (unfold nib_ok in *; rewrite E1 in N; apply Forall_app in N; tauto).
  rewrite V. unfold hex_numeral. symmetry. apply hex_fuel_digits; auto. apply hex_fuel_enough; auto.
Qed.
Lemma be_val_inj : forall a b, bytes a -> bytes b -> length a = length b -> be_val a = be_val b -> a = b.
Proof.
  induction a as [|x a IH] using rev_ind; intros b Ha Hb Hl E.
  - destruct b; [auto|discriminate].
  - destruct b as [|y b _] using rev_ind; [rewrite app_length in Hl; cbn in Hl; lia|].
    rewrite !app_length in Hl. cbn in Hl. rewrite !be_val_snoc in E. apply Forall_app in Ha, Hb.
    destruct Ha as [Ha1 Ha2], Hb as [Hb1 Hb2]. inversion Ha2; inversion Hb2; subst. unfold is_byte in *.
    assert (be_val a = be_val b /\ x = y) as [E1 ->] by lia. f_equal. apply IH; auto. lia.
Qed.
Definition hex_val (s : list Z) : Z :=
  fold_left (fun a c => a * 16 + (if c <? 58 then c - 48 else c - 87)) s 0.
Lemma hex_val_digits : forall l, nib_ok l -> hex_val (map hex_digit l) = nib_val l.
Proof.
  intros l H. unfold hex_val, nib_val. generalize 0 as a. induction H; intros a; cbn [map fold_left]; auto.
  rewrite IHForall. f_equal. f_equal. unfold hex_digit. destruct (x <? 10) eqn:E.
  - replace (48 + x <? 58) with true by lia. lia.
  - replace (87 + x <? 58) with false by lia. lia.
Qed.
Lemma digest_inj : forall a b, bytes a -> bytes b -> length a = length b ->
  trim_zeros (hex_encode a) = trim_zeros (hex_encode b) -> a = b.
Proof.
  intros a b Ha Hb Hl E. apply be_val_inj; auto. rewrite !hex_encode_nibbles in E.
  assert (V : forall d, bytes d -> hex_val (trim_zeros (map hex_digit (nibbles d))) = be_val d).
  { intros d Hd. pose proof (nibbles_ok d Hd) as N. destruct (trim_digits (nibbles d) N) as (z & E1 & E2 & _). rewrite E2.
    assert (N2 : nib_ok (skipn z (nibbles d))) by (unfold nib_ok in *; rewrite E1 in N; apply Forall_app in N; tauto).
    rewrite hex_val_digits by auto. rewrite <- (repeat0_val z), <- E1. apply (nib_gen d 0). }
  rewrite <- (V a Ha), <- (V b Hb), E. reflexivity.
Qed.
