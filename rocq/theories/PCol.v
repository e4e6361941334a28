(** Value columns through the [Encoder] trait: C08 and the column part of C04, C05. *)
From Verif Require Export PTs2.

Lemma plain_value_spec : forall dt v rest, value_ok dt v ->
  plain_value (dtype_code dt) (plain_bytes v ++ rest) = Some (value_num v, rest) /\ plain_bytes v <> [].
Proof.
  intros dt v rest H. destruct dt, v; cbn in H; try tauto; cbn [plain_bytes value_num].
  - split; [apply var_i32_roundtrip; auto|]. intros E.
    pose proof (var_i32_len v H) as [L _]. rewrite E, zlen_nil in L. lia.
  - split; [|discriminate]. unfold plain_value, dtype_code. cbn [Z.eqb Pos.eqb].
    change 8 with (Z.of_nat 8). rewrite be_signed_be_bytes; [reflexivity|lia|]. exact H.
  - split; [|discriminate]. unfold plain_value, dtype_code. cbn [Z.eqb Pos.eqb].
    change 4 with (Z.of_nat 4). rewrite be_unsigned_be_bytes. rewrite Z.mod_small; [reflexivity|].
    change (256 ^ Z.of_nat 4) with (2 ^ 32). auto.
Qed.

Lemma plain_parts : forall dt vs, Forall (value_ok dt) vs ->
  parts (plain_value (dtype_code dt)) (concat (map plain_bytes vs)) (map value_num vs).
Proof.
  intros dt vs H. exists (map plain_bytes vs). split; [reflexivity|].
  induction H; constructor; auto. split; [apply (plain_value_spec dt x []); auto|].
  intros rest. apply plain_value_spec; auto.
Qed.
Lemma plain_decode_spec : forall dt vs, Forall (value_ok dt) vs ->
  plain_decode (dtype_code dt) (concat (map plain_bytes vs)) = Some (map value_num vs).
Proof. intros. apply parts_many; [|lia]. apply plain_parts; auto. Qed.

Lemma plain_write_all : forall p dt vs buf,
  encoder_write_all p vs (EncPlain dt buf) = Ret (Some (EncPlain dt (buf ++ concat (map plain_bytes vs)))).
Proof.
  intros p dt vs. unfold encoder_write_all. induction vs; intros buf; cbn [foldM map concat].
  - rewrite app_nil_r. reflexivity.
  - cbn [encoder_write bind snd fst]. rewrite IHvs, <- app_assoc. reflexivity.
Qed.

(** values of a TS_2DIFF column *)
Definition kdtype (k : ts2kind) : dtype := match k with KLong => INT64 | KInt => INT32 end.
Lemma value_ok_kind : forall k v, value_ok (kdtype k) v ->
  as_kind k v = Some (value_num v) /\ signed_in (kbits k) (value_num v).
Proof. intros k v H. destruct k, v; cbn in H; try tauto; split; auto. Qed.

Lemma foldM_none : forall p vs, foldM (fun s v => match s with
                    | None => Ret None
                    | Some e => let* r := encoder_write p v e in
                                Ret (match snd r with None => Some (fst r) | Some _ => None end)
                    end) vs (@None encoder) = Ret None.
Proof. induction vs; cbn; auto. Qed.

Lemma ts2_encoder_write_all : forall p k vs e, Forall (value_ok (kdtype k)) vs ->
  encoder_write_all p vs (EncTs2 k e) =
  (let* e' := ts2_write_all p k (map value_num vs) e in Ret (Some (EncTs2 k e'))).
Proof.
  intros p k vs e H. unfold encoder_write_all, ts2_write_all. revert e. induction H; intros e; cbn [foldM map bind]; auto.
  destruct (value_ok_kind k x H) as [E _]. cbn [encoder_write]. rewrite E.
  destruct (ts2_write p k (value_num x) e); cbn [bind fst snd]; auto.
Qed.

Lemma map_signed : forall k vs, Forall (value_ok (kdtype k)) vs -> Forall (signed_in (kbits k)) (map value_num vs).
Proof. intros k vs H. induction H; cbn; constructor; auto. apply value_ok_kind; auto. Qed.

(** which columns exist *)
Definition col_ok (dt : dtype) (enc : encoding) : Prop := ~ (dt = FLOAT /\ enc = TS2DIFF).

Lemma column_roundtrip : forall p dt enc vs r, Forall (value_ok dt) vs ->
  encode_column p dt enc vs = Ret (Some r) ->
  column_decode (dtype_code dt) (encoding_code enc) r = Some (map value_num vs).
Proof.
  intros p dt enc vs r Hv H.
  assert (T : forall k, dt = kdtype k -> enc = TS2DIFF -> column_decode (dtype_code dt) (encoding_code enc) r = Some (map value_num vs)).
  { intros k -> ->. unfold encode_column in H.
    replace (encoder_new (kdtype k) TS2DIFF) with (@inl encoder tserror (EncTs2 k (ts2_new k))) in H by (destruct k; reflexivity).
    cbn iota in H. rewrite ts2_encoder_write_all in H by auto.
    assert (HE : ts2_encode p k (map value_num vs) = Ret r).
    { unfold ts2_encode. destruct (ts2_write_all p k (map value_num vs) (ts2_new k)) as [e'|] eqn:E; [|discriminate].
      cbn [bind] in *. cbn [encoder_serialize] in H. destruct (ts2_serialize p k e') as [[e2 b]|] eqn:E2; [|discriminate].
      cbn [bind snd] in *. congruence. }
    pose proof (ts2_roundtrip p k _ r (map_signed k vs Hv) HE) as D.
    destruct k; exact D. }
  destruct enc; [|destruct dt; [apply (T KInt); auto|apply (T KLong); auto|discriminate]].
  unfold encode_column, encoder_new in H.
  assert (HE : (let* s := encoder_write_all p vs (EncPlain dt []) in
         match s with Some e => let* r := encoder_serialize p e in Ret (Some (snd r)) | None => Ret None end) = Ret (Some r))
    by (destruct dt; exact H).
  rewrite plain_write_all in HE. cbn in HE. assert (r = concat (map plain_bytes vs)) by congruence. subst r.
  unfold column_decode. cbn [encoding_code Z.eqb]. apply plain_decode_spec; auto.
Qed.

Lemma column_total : forall dt enc vs, Forall (value_ok dt) vs -> col_ok dt enc ->
  exists r, encode_column Release dt enc vs = Ret (Some r).
Proof.
  intros dt enc vs Hv Hc.
  assert (T : forall k, dt = kdtype k -> enc = TS2DIFF -> exists r, encode_column Release dt enc vs = Ret (Some r)).
  { intros k -> ->. unfold encode_column.
    replace (encoder_new (kdtype k) TS2DIFF) with (@inl encoder tserror (EncTs2 k (ts2_new k))) by (destruct k; reflexivity).
    cbn iota. rewrite ts2_encoder_write_all by auto.
    destruct (ts2_release_total k _ (map_signed k vs Hv)) as [b Hb]. unfold ts2_encode in Hb.
    apply bind_ret in Hb. destruct Hb as (e & -> & Hb). cbn [bind].
    apply bind_ret in Hb. destruct Hb as ([e2 b2] & Hs & Hb). cbn [encoder_serialize]. rewrite Hs. cbn. eauto. }
  destruct enc; [|destruct dt; [apply (T KInt); auto|apply (T KLong); auto|exfalso; apply Hc; auto]].
  unfold encode_column. destruct dt; cbn [encoder_new]; rewrite plain_write_all; cbn; eauto.
Qed.

(** PLAIN never panics, in either build *)
Lemma plain_total : forall p dt vs, exists r, encode_column p dt PLAIN vs = Ret (Some r).
Proof. intros. unfold encode_column. destruct dt; cbn [encoder_new]; rewrite plain_write_all; cbn; eauto. Qed.

(** C06 in the form of the property *)
Lemma pack_concat : forall k w l, 0 <= w <= kbits k -> Forall (fun v => 0 <= v < 2 ^ w) l ->
  exists r, pack_loop k w 0 l [] = Ret r /\ Forall (fun b => 0 <= b < 256) r /\
    zlen r = (zlen l * w + 7) / 8 /\
    (forall i, (i < length l)%nat -> bit_field (be_val r) (8 * zlen r) (Z.of_nat i) w = nth i l 0) /\
    be_val r mod 2 ^ (8 * zlen r - zlen l * w) = 0.
Proof.
  intros k w l Hw Hl.
  destruct (pack_fields k w l Hw) as (r & A & B & C & D & E).
  { eapply Forall_impl; [|exact Hl]. left; auto. }
  exists r. split; [exact A|]. split; [exact B|]. split; [exact C|]. split; [|exact E].
  intros i Hi. rewrite D by auto. apply Z.mod_small. rewrite Forall_forall in Hl. apply Hl, nth_In, Hi.
Qed.
Lemma pack_concat_any : forall k l, Forall (signed_in (kbits k)) l ->
  exists r, pack_loop k (kbits k) 0 l [] = Ret r /\ zlen r = zlen l * Z.of_nat (kbytes k) /\
    (forall i, (i < length l)%nat -> sgn (kbits k) (bit_field (be_val r) (8 * zlen r) (Z.of_nat i) (kbits k)) = nth i l 0).
Proof.
  intros k l Hl. pose proof (kbits_pos k).
  destruct (pack_fields k (kbits k) l ltac:(lia)) as (r & A & B & C & D & E).
  { eapply Forall_impl; [|exact Hl]. right; auto. }
  exists r. split; [exact A|]. split.
  - rewrite C, kbits_bytes. replace (zlen l * (8 * Z.of_nat (kbytes k)) + 7) with (7 + zlen l * Z.of_nat (kbytes k) * 8) by lia.
    rewrite Z.div_add by lia. reflexivity.
  - intros i Hi. rewrite D by auto. apply sgn_eq; [lia| |].
    + rewrite Forall_forall in Hl. apply Hl, nth_In, Hi.
    + apply Z.mod_mod. pose proof (pow2_pos (kbits k) ltac:(lia)). lia.
Qed.

(** C07 *)
Lemma ts2_debug_iff : forall k vs, Forall (signed_in (kbits k)) vs ->
  ((exists bytes, ts2_encode Debug k vs = Ret bytes) <-> Forall (block_fits (kbits k)) (chop 129 vs)).
Proof.
  intros k vs H. rewrite ts2_total_iff by auto. split; apply Forall_impl.
  - intros a [?|?]; [discriminate|auto].
  - right; auto.
Qed.
Lemma time_debug_total : forall ts, StronglySorted Z.lt ts -> Forall (fun t => 0 <= t <= i64_max) ts ->
  exists bytes, ts2_encode Debug KLong ts = Ret bytes.
Proof.
  intros ts S R. apply ts2_total_iff.
  - eapply Forall_impl; [|exact R]. intros a Ha. red. cbn [kbits]. unfold i64_max in Ha. lia.
  - apply time_full_ok; auto.
Qed.
Lemma column_debug_iff : forall dt vs, Forall (value_ok dt) vs -> dt <> FLOAT ->
  ((exists r, encode_column Debug dt TS2DIFF vs = Ret (Some r)) <->
   Forall (block_fits (match dt with INT32 => 32 | _ => 64 end)) (chop 129 (map value_num vs))).
Proof.
  intros dt vs Hv Hd.
  assert (T : forall k, dt = kdtype k -> ((exists r, encode_column Debug dt TS2DIFF vs = Ret (Some r)) <->
             Forall (block_fits (kbits k)) (chop 129 (map value_num vs)))).
  { intros k ->. rewrite <- ts2_debug_iff by (apply map_signed; auto). unfold encode_column, ts2_encode.
    replace (encoder_new (kdtype k) TS2DIFF) with (@inl encoder tserror (EncTs2 k (ts2_new k))) by (destruct k; reflexivity).
    cbn iota. rewrite ts2_encoder_write_all by auto.
    destruct (ts2_write_all Debug k (map value_num vs) (ts2_new k)) as [e'|]; cbn [bind].
    - cbn [encoder_serialize]. destruct (ts2_serialize Debug k e') as [[e2 b]|]; cbn [bind snd].
      + split; eauto.
      + split; intros [? ?]; discriminate.
    - split; intros [? ?]; discriminate. }
  destruct dt; [apply (T KInt); auto|apply (T KLong); auto|congruence].
Qed.
Lemma column_mono : forall dt enc vs r, encode_column Debug dt enc vs = Ret r -> encode_column Release dt enc vs = Ret r.
Proof.
  intros dt enc vs r H. unfold encode_column in *. destruct (encoder_new dt enc); auto.
  apply bind_ret in H. destruct H as (s & Hs & H).
  assert (W : forall v e x, encoder_write Debug v e = Ret x -> encoder_write Release v e = Ret x).
  { intros v e0 x He. destruct e0; auto. cbn [encoder_write] in *. destruct (as_kind k v); auto.
    apply bind_ret in He. destruct He as (t & Ht & He). rewrite (ts2_write_mono _ _ _ _ Ht). auto. }
  assert (Hs' : encoder_write_all Release vs e = Ret s).
  { unfold encoder_write_all in *. revert Hs. apply foldM_mono. intros s0 a b Hb. destruct s0; auto.
    apply bind_ret in Hb. destruct Hb as (x & Hx & Hb). rewrite (W _ _ _ Hx). auto. }
  rewrite Hs'. cbn [bind]. destruct s as [e'|]; auto.
  apply bind_ret in H. destruct H as (x & Hx & H).
  destruct e'; cbn [encoder_serialize] in *; [apply ret_inj in Hx; subst x; exact H|].
  apply bind_ret in Hx. destruct Hx as (y & Hy & Hx). rewrite (ts2_serialize_mono _ _ _ Hy). cbn [bind] in *.
  apply ret_inj in Hx. subst x. exact H.
Qed.
