(** Snappy (C68). *)
From Verif Require Export SSnappy PExample.
Ltac Zify.zify_post_hook ::= idtac.

Lemma leb128_write_read : forall f n rest, 0 <= n < 128 * 128 ^ Z.of_nat f -> leb128 (leb128_write (S f) n ++ rest) = Some (n, rest).
Proof.
  induction f as [|f IH]; intros n rest H.
  - change (128 * 128 ^ Z.of_nat 0) with 128 in H. cbn [leb128_write]. destruct (Z.ltb_spec n 128); [|lia]. cbn [app leb128]. destruct (Z.ltb_spec n 128); [reflexivity|lia].
  - cbn [leb128_write]. destruct (Z.ltb_spec n 128) as [L|L].
    + cbn [app leb128]. destruct (Z.ltb_spec n 128); [reflexivity|lia].
    + change ((n mod 128 + 128) :: (if n / 128 <? 128 then [n / 128] else (n / 128) mod 128 + 128 :: leb128_write f (n / 128 / 128)))
        with ((n mod 128 + 128) :: leb128_write (S f) (n / 128)).
      rewrite <- app_comm_cons. cbn [leb128]. pose proof (Z.mod_pos_bound n 128 ltac:(lia)) as M. destruct (Z.ltb_spec (n mod 128 + 128) 128); [lia|].
      rewrite Nat2Z.inj_succ, Z.pow_succ_r in H by lia. rewrite IH.
      * f_equal. f_equal. pose proof (Z.div_mod n 128 ltac:(lia)). lia.
      * split; [apply Z.div_pos; lia|]. apply Z.div_lt_upper_bound; lia.
Qed.
Lemma leb128_write_len : forall f n, zlen (leb128_write f n) <= Z.of_nat f.
Proof.
  induction f as [|f IH]; intros n; cbn [leb128_write]; [rewrite zlen_nil; lia|]. destruct (n <? 128); [rewrite zlen_cons, zlen_nil; lia|].
  rewrite zlen_cons. specialize (IH (n / 128)). lia.
Qed.
Lemma le_bytes4_val : forall n, 0 <= n < 2 ^ 32 -> le_val (le_bytes4 n) = n.
Proof.
  intros n H. unfold le_val, le_bytes4. cbn [fold_right].
  pose proof (Z.div_mod n 256 ltac:(lia)). pose proof (Z.div_mod (n / 256) 256 ltac:(lia)). pose proof (Z.div_mod (n / 65536) 256 ltac:(lia)).
  assert (E1 : n / 256 / 256 = n / 65536) by (rewrite Z.div_div by lia; reflexivity).
  assert (E2 : n / 65536 / 256 = n / 16777216) by (rewrite Z.div_div by lia; reflexivity).
  rewrite (Z.mod_small (n / 16777216) 256); [lia|]. split; [apply Z.div_pos; lia|]. apply Z.div_lt_upper_bound; lia.
Qed.
Lemma take_app : forall a b n, n = zlen a -> take n (a ++ b) = Some (a, b).
Proof.
  intros a b n ->. unfold take. change (Z.of_nat (length (a ++ b))) with (zlen (a ++ b)). rewrite zlen_app. pose proof (zlen_nonneg Z a). pose proof (zlen_nonneg Z b).
  destruct (Z.leb_spec 0 (zlen a)); [|lia]. destruct (Z.leb_spec (zlen a) (zlen a + zlen b)); [|lia]. cbn [andb].
  unfold zlen. rewrite Nat2Z.id. rewrite firstn_app, Nat.sub_diag, firstn_all, skipn_app, Nat.sub_diag, skipn_all. cbn [firstn skipn app]. rewrite app_nil_r. reflexivity.
Qed.
Theorem snappy_roundtrip : forall l, zlen l < 2 ^ 32 -> exists z, snappy_literal l = Some z /\ snappy_read z = Some l.
Proof.
  intros l H. pose proof (zlen_nonneg Z l). eexists. split; [reflexivity|]. unfold snappy_read. rewrite leb128_write_read by (change (128 * 128 ^ Z.of_nat 4) with 34359738368; lia).
  destruct l as [|b l]; [reflexivity|]. set (d := b :: l) in *.
  assert (D : 1 <= zlen d) by (unfold d; rewrite zlen_cons; pose proof (zlen_nonneg Z l); lia).
  assert (E : elements (S (length (252 :: le_bytes4 (zlen d - 1) ++ d))) [] (252 :: le_bytes4 (zlen d - 1) ++ d) = Some d).
  { cbn [length]. cbn [elements]. change (252 mod 4 =? 0) with true. cbv iota zeta. change (252 / 4 <? 60) with false. cbv iota. change (252 / 4 - 59) with 4. change (4 =? 0) with false. cbv iota.
    rewrite (take_app (le_bytes4 (zlen d - 1)) d 4 eq_refl). rewrite le_bytes4_val by lia.
    rewrite <- (app_nil_r d) at 2. rewrite (take_app d []) by lia. cbn [app]. reflexivity. }
  rewrite E. rewrite Z.eqb_refl. reflexivity.
Qed.
Theorem snappy_good : good_snap snappy_literal snappy_read.
Proof.
  intros l _ H. destruct (snappy_roundtrip l H) as (z & E & R). exists z. split; [exact E|]. split; [exact R|].
  unfold snappy_literal in E. pose proof (leb128_write_len 5 (zlen l)) as W. set (h := leb128_write 5 (zlen l)) in *. clearbody h. injection E as <-. rewrite zlen_app. pose proof (zlen_nonneg Z l). assert (0 <= zlen l / 6) by (apply Z.div_pos; lia).
  destruct l as [|b l]; cbv match.
  - rewrite (zlen_nil Z) in *. change (Z.of_nat 5) with 5 in W. lia.
  - set (d := b :: l) in *. clearbody d. rewrite !zlen_cons. change (Z.of_nat 5) with 5 in W. lia.
Qed.

(** ** Sessions read back with the Snappy reader *)
Theorem snappy_session : forall sc ops ord, schema_ok sc -> no_dots sc -> byte_names sc -> good_order ord -> series_count sc <= 41 ->
  Forall write_call ops -> Forall (point_storable sc) (input ops) -> in_order (input ops) -> size_bound sc (zlen (input ops)) < 2 ^ 32 ->
  exists out w0 w', writer_new sc (sink_new healthy) = (out, Some w0) /\ run Release snappy_literal w0 (ops ++ [OpClose ord]) = Ret (w', map (fun _ => AOk) ops ++ [AUnit]) /\
    holds snappy_read (file_bytes w') (input ops).
Proof.
  intros sc ops ord H1 H2 H3 H4 H5 H6 H7 H8 H9. destruct (small_session _ _ sc ops ord snappy_good H1 H2 H3 H4 H5 H6 H7 H8 H9) as (out & w0 & w & w' & N & R & _ & _ & Hd).
  exists out, w0, w'. auto.
Qed.
