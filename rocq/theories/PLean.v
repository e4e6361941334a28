(** With fewer than 7989 points per series and at most 4095 series the memory estimate after a write is
    positive and does not wrap, on any disk and with any compressor (C73). *)
From Verif Require Export PCalm.
Ltac Zify.zify_post_hook ::= idtac.
Open Scope list_scope. Open Scope Z_scope.

Definition anyp (q : panic) : Prop := True.
Lemma any_tri : forall A (Q : A -> Prop) q, tri anyp Q (Panic q).
Proof. intros. exact I. Qed.
Lemma tri_ret : forall A (Q : A -> Prop) o a, tri anyp Q o -> o = Ret a -> Q a.
Proof. intros A Q o a H ->. exact H. Qed.
Lemma tri_get : forall A (Q : A -> Prop) o, (forall a, o = Ret a -> Q a) -> tri anyp Q o.
Proof. intros A Q [a|q] H; [apply H; reflexivity|exact I]. Qed.

(** ** Lengths of the encoders *)
Definition tight (pos : Z) (r : list byte) : Prop := 8 * Z.of_nat (length r) <= pos + 7.
Lemma long_tight : forall f n r c i w, 0 <= c < 8 -> 0 <= w -> tight (8 * Z.of_nat i + c) r ->
  tri anyp (tight (8 * Z.of_nat i + c + w)) (to_bytes_long_loop f n r c i w).
Proof.
  intros f. induction f as [|f IH]; intros n r c i w C W T; cbn [to_bytes_long_loop]; destruct (Z.gtb_spec w 0) as [G|G]; try exact I; try (cbn [tri]; unfold tight in *; lia).
  set (r1 := if (i <=? length r)%nat then vec_resize r (S i) else r).
  set (m := if w + c >=? 8 then 8 - c else w). assert (M : 1 <= m <= w /\ c + m <= 8) by (unfold m; destruct (Z.geb_spec (w + c) 8); lia).
  assert (L : forall pos, 8 * Z.of_nat i + c + 1 <= pos -> tight pos r1).
  { intros pos HP. unfold r1, tight in *. destruct (Nat.leb_spec i (length r)); [rewrite resize_length; lia|lia]. }
  eapply tri_bind with (Q := any); [apply tri_get; intros; exact I|]. intros cur _.
  destruct (Z.eqb_spec (c + m) 8) as [E|E].
  - replace (8 * Z.of_nat i + c + w) with (8 * Z.of_nat (S i) + 0 + (w - m)) by lia. apply IH; try lia. unfold tight. rewrite set_length. apply L. lia.
  - replace (8 * Z.of_nat i + c + w) with (8 * Z.of_nat i + (c + m) + (w - m)) by lia. apply IH; try lia. unfold tight. rewrite set_length. apply L. lia.
Qed.
Lemma int_tight : forall f n r c i w, 0 <= c < 8 -> 0 <= w -> tight (8 * Z.of_nat i + c) r ->
  tri anyp (tight (8 * Z.of_nat i + c + w)) (to_bytes_int_loop f n r c i w).
Proof.
  intros f. induction f as [|f IH]; intros n r c i w C W T; cbn [to_bytes_int_loop]; destruct (Z.gtb_spec w 0) as [G|G]; try exact I; try (cbn [tri]; unfold tight in *; lia).
  set (r1 := if (i <=? length r)%nat then vec_resize r (S i) else r).
  set (m := if w + c >=? 8 then 8 - c else w). assert (M : 1 <= m <= w /\ c + m <= 8) by (unfold m; destruct (Z.geb_spec (w + c) 8); lia).
  assert (L : forall pos, 8 * Z.of_nat i + c + 1 <= pos -> tight pos r1).
  { intros pos HP. unfold r1, tight in *. destruct (Nat.leb_spec i (length r)); [rewrite resize_length; lia|lia]. }
  eapply tri_bind with (Q := any); [apply tri_get; intros; exact I|]. intros cur _.
  destruct (Z.eqb_spec (c + m) 8) as [E|E].
  - replace (8 * Z.of_nat i + c + w) with (8 * Z.of_nat (S i) + 0 + (w - m)) by lia. apply IH; try lia. unfold tight. rewrite set_length. apply L. lia.
  - replace (8 * Z.of_nat i + c + w) with (8 * Z.of_nat i + (c + m) + (w - m)) by lia. apply IH; try lia. unfold tight. rewrite set_length. apply L. lia.
Qed.
Lemma to_bytes_tight : forall k v r pos w, 0 <= pos -> 0 <= w < 256 -> tight pos r -> tri anyp (tight (pos + w)) (to_bytes k v r pos w).
Proof.
  intros k v r pos w HP W F. destruct (pos_split pos HP) as (A & B & C).
  assert (E0 : pos = 8 * Z.of_nat (Z.to_nat (Z.shiftr pos 3)) + Z.land pos 7) by (rewrite Z2Nat.id; lia).
  assert (U : wrapU 8 w = w) by (unfold wrapU; apply Z.mod_small; change (2 ^ 8) with 256; lia).
  rewrite E0 at 1. destruct k; unfold to_bytes, to_bytes_long, to_bytes_int; rewrite U; [apply long_tight|apply int_tight]; try lia; rewrite <- E0; exact F.
Qed.
Lemma pack_tight : forall k w, 0 <= w < 256 -> forall l i r, 0 <= i -> tight (i * w) r -> tri anyp (tight ((i + zlen l) * w)) (pack_loop k w i l r).
Proof.
  intros k w W l. induction l as [|v l IH]; intros i r I F; cbn [pack_loop]; [change (zlen []) with 0; rewrite Z.add_0_r; exact F|].
  eapply tri_bind; [apply to_bytes_tight; [nia|exact W|exact F]|]. intros r' F'. rewrite zlen_cons. replace (i + (1 + zlen l)) with (i + 1 + zlen l) by lia. apply IH; [lia|].
  replace ((i + 1) * w) with (i * w + w) by ring. exact F'.
Qed.
Lemma width64 : forall k l, 0 <= calc_width k l <= 64.
Proof.
  intros k l. unfold calc_width. assert (G : forall l w, 0 <= w <= 64 -> 0 <= fold_left (fun w v => Z.max w (get_value_width k v)) l w <= 64); [|apply G; lia].
  clear l. induction l as [|v l IH]; intros w W; cbn [fold_left]; auto. apply IH.
  assert (0 <= get_value_width k v <= 64); [|lia]. unfold get_value_width. destruct (Z.eqb_spec (wrapU (kbits k) v) 0) as [|N]; [lia|].
  assert (B : 0 <= wrapU (kbits k) v < 2 ^ kbits k) by (unfold wrapU; apply Z.mod_pos_bound; destruct k; reflexivity).
  pose proof (Z.log2_nonneg (wrapU (kbits k) v)). assert (Z.log2 (wrapU (kbits k) v) < kbits k) by (apply Z.log2_lt_pow2; lia). destruct k; cbn [kbits] in *; lia.
Qed.
Lemma mapM_len : forall A B (f : A -> outcome B) l, tri anyp (fun r => zlen r = zlen l) (mapM f l).
Proof.
  intros A B f l. induction l as [|a l IH]; cbn [mapM]; [reflexivity|]. eapply tri_bind with (Q := any); [apply tri_get; intros; exact I|]. intros b _.
  eapply tri_bind; [exact IH|]. intros r H. cbn [tri]. rewrite !zlen_cons, H. reflexivity.
Qed.
(** Points waiting in the encoder. *)
Definition pend (e : ts2) : Z := match t_first e with None => 0 | Some _ => 1 + zlen (t_values e) end.
Definition ts_lean (n : Z) (e : ts2) : Prop := zlen (t_buf e) + 34 * pend e <= 34 * n /\ (t_first e = None -> t_values e = []).
Lemma flush_lean : forall k n e, ts_lean n e -> tri anyp (ts_lean n) (ts2_flush Release k e).
Proof.
  intros k n e [A B]. unfold ts2_flush, pend in *. destruct (t_first e) as [first|] eqn:F; [|split; [unfold pend; rewrite F; exact A|auto]].
  eapply tri_bind; [apply mapM_len|]. intros ds L. pose proof (width64 k ds) as W.
  eapply tri_bind; [apply (pack_tight k (calc_width k ds)); [lia|lia|unfold tight; cbn; lia]|]. intros pl T. unfold tight in T. cbn [tri]. split; [|reflexivity].
  unfold pend. cbn [t_buf t_first]. rewrite !zlen_app. pose proof (zlen_nonneg _ (t_values e)) as N.
  assert (X : zlen pl <= 8 * zlen (t_values e) + 2). { unfold zlen at 1. rewrite L in T. nia. }
  assert (E : forall j x, zlen (be_bytes j x) = Z.of_nat j) by (intros; unfold zlen; rewrite be_bytes_length; reflexivity). rewrite !E. destruct k; cbn [kbytes]; lia.
Qed.
Lemma ts_lean_le : forall n k e, n <= k -> ts_lean n e -> ts_lean k e.
Proof. intros n k e L [A B]. split; [lia|exact B]. Qed.
Lemma ts_write_lean : forall k n v e, ts_lean n e -> tri anyp (ts_lean (n + 1)) (ts2_write Release k v e).
Proof.
  intros k n v e [A B]. unfold ts2_write, pend in *. eapply tri_bind with (Q := ts_lean (n + 1)).
  - destruct (t_first e) as [first|] eqn:F.
    + eapply tri_bind with (Q := any); [apply tri_get; intros; exact I|]. intros d _. cbn [tri]. split; unfold pend; cbn [t_first t_buf t_values]; rewrite ?F; [|discriminate].
      rewrite zlen_app. change (zlen [d]) with 1. lia.
    + cbn [tri]. split; unfold pend; cbn [t_first t_buf t_values]; [|discriminate]. rewrite (B eq_refl). change (zlen (@nil Z)) with 0. lia.
  - intros e' E. destruct (_ =? _); [apply flush_lean; exact E|exact E].
Qed.
Definition enc_lean (n : Z) (e : encoder) : Prop := match e with EncPlain _ b => zlen b <= 8 * n | EncTs2 _ t => ts_lean n t end.
Lemma var_loop_len : forall f v p, zlen (wbytes (fst (write_var_loop f v p))) <= Z.of_nat f.
Proof.
  intros f. induction f as [|f IH]; intros v p; cbn [write_var_loop]; [vm_compute; discriminate|]. destruct (negb _); [|cbn [fst wbytes app]; change (zlen [Z.land v 127]) with 1; lia].
  specialize (IH (Z.shiftr v 7) (p + 1)). destruct (write_var_loop f (Z.shiftr v 7) (p + 1)) as [w pos]. cbn [fst wbytes app] in *. rewrite zlen_cons. lia.
Qed.
Lemma plain_len : forall v, 0 <= zlen (plain_bytes v) <= 8.
Proof.
  intros v. split; [apply zlen_nonneg|]. destruct v; cbn [plain_bytes]; try (unfold zlen; rewrite be_bytes_length; lia). unfold write_var_i32, write_var_u32.
  match goal with |- context [zigzag_u32 ?x] => pose proof (var_loop_len 5 (zigzag_u32 x) 1) end. lia.
Qed.
Lemma enc_write_lean : forall n v e, enc_lean n e -> tri anyp (fun r => enc_lean (n + 1) (fst r)) (encoder_write Release v e).
Proof.
  intros n v [dt b|k t] H; cbn [encoder_write enc_lean] in *.
  - cbn [tri fst enc_lean]. rewrite zlen_app. pose proof (plain_len v). lia.
  - destruct (as_kind k v); [|cbn [tri fst enc_lean]; eapply ts_lean_le; [|exact H]; lia]. eapply tri_bind; [apply ts_write_lean; exact H|]. intros t' H'. exact H'.
Qed.
Lemma enc_serialize_lean : forall n e, enc_lean n e -> tri anyp (fun r => enc_lean n (fst r)) (encoder_serialize Release e).
Proof.
  intros n [dt b|k t] H; cbn [encoder_serialize enc_lean] in *; [exact H|]. unfold ts2_serialize. eapply tri_bind with (Q := fun r => ts_lean n (fst r)); [|intros r R; exact R].
  eapply tri_bind; [apply flush_lean; exact H|]. intros t' R. exact R.
Qed.

(** ** Pages and chunks *)
Definition page_lean (pw : page_writer) : Prop := 0 <= pw_points pw /\ ts_lean (pw_points pw) (pw_time pw) /\ enc_lean (pw_points pw) (pw_value pw).
Definition chunk_lean (c : chunk_writer) : Prop := forall pw, cw_page c = Some pw -> page_lean pw.
Lemma reset_lean : forall pw, page_lean (pw_reset pw).
Proof.
  intros pw. unfold page_lean, pw_reset. cbn [pw_points pw_time pw_value]. split; [lia|].
  assert (T : forall k e, ts_lean 0 (ts2_reset k e)) by (intros; split; [vm_compute; discriminate|reflexivity]). split; [apply T|]. destruct (pw_value pw); [vm_compute; discriminate|apply T].
Qed.
Lemma prepare_lean : forall pw, page_lean pw -> tri anyp page_lean (pw_prepare Release pw).
Proof.
  intros pw (A & B & C). unfold pw_prepare, ts2_serialize. eapply tri_bind with (Q := fun r => ts_lean (pw_points pw) (fst r)); [eapply tri_bind; [apply flush_lean; exact B|]; intros t H; exact H|].
  intros rt R. eapply tri_bind; [apply enc_serialize_lean; exact C|]. intros rv V. split; [exact A|]. split; auto.
Qed.
Lemma write_page_lean : forall snap c, chunk_lean c -> tri anyp (fun r => chunk_lean (fst r)) (write_page_to_buffer Release snap c).
Proof.
  intros snap c L. unfold write_page_to_buffer. destruct (cw_page c) as [pw0|] eqn:G; [|cbn [tri fst]; exact L].
  eapply tri_bind; [apply prepare_lean; apply L; exact G|]. intros pw Hp. cbv zeta.
  destruct (match cw_comp c with UNCOMPRESSED => _ | SNAPPY => _ end) as [[content csize]|].
  2:{ cbn [tri fst]. intros pw1 X. inversion X; subst. exact Hp. }
  eapply tri_bind with (Q := any); [apply tri_get; intros; exact I|]. intros [[buffer fstats] swo] _.
  eapply tri_bind with (Q := any); [apply tri_get; intros; exact I|]. intros np _. eapply tri_bind with (Q := any); [apply tri_get; intros; exact I|]. intros st _.
  cbn [tri fst]. intros pw1 X. inversion X; subst. apply (reset_lean (mkPW (pw_time pw) (pw_value pw) (pw_type pw) (pw_stats pw) (pw_points pw) [])).
Qed.
Lemma seal_lean : forall snap c, chunk_lean c -> tri anyp chunk_lean (seal_current_page Release snap c).
Proof.
  intros snap c L. unfold seal_current_page. destruct (cw_page c); [|exact L]. destruct (_ >? _); [|exact L]. eapply tri_bind; [apply write_page_lean; exact L|]. intros r H. exact H.
Qed.
Definition ready (c : chunk_writer) : Prop := chunk_lean c /\ cw_buffer c = [].
Lemma to_file_lean : forall snap c io, chunk_lean c -> tri anyp (fun r => ready (fst r)) (write_to_file_writer Release snap c io).
Proof.
  intros snap c io L. unfold write_to_file_writer. eapply tri_bind; [apply seal_lean; exact L|]. intros c1 L1. eapply tri_bind with (Q := any); [apply tri_get; intros; exact I|].
  intros io1 _. cbn [tri fst]. split; [exact L1|reflexivity].
Qed.
Lemma cw_write_lean : forall snap t v n c, quiet n c -> 0 <= n -> n + 1 < 7989 -> ready c ->
  tri anyp (fun r => match r with inl c' => ready c' /\ cw_page c' <> None | inr _ => True end) (cw_write Release snap t v c).
Proof.
  intros snap t v n c [[Q1 Q2] Q3] HN HB [L B]. unfold cw_write.
  assert (G : match match cw_page c with Some pw => inl pw | None => pw_new (MChunk.cw_type c) (cw_enc c) end with inl pw => page_lean pw /\ pw_points pw <= n | inr _ => True end).
  { destruct (cw_page c) as [pw|] eqn:E; [split; [apply L; exact E|apply Q2; reflexivity]|]. unfold pw_new, encoder_new.
    assert (T : forall k, ts_lean 0 (ts2_new k)) by (intros; split; [vm_compute; discriminate|reflexivity]).
    destruct (MChunk.cw_type c), (cw_enc c); try exact I; (split; [split; [cbn; lia|split; [apply T|cbn [pw_points pw_value enc_lean]; try apply T; vm_compute; discriminate]]|cbn; lia]). }
  destruct (match cw_page c with Some pw => inl pw | None => pw_new (MChunk.cw_type c) (cw_enc c) end) as [pw|err]; [|exact I]. destruct G as [(G0 & G1 & G2) G3].
  eapply tri_bind with (Q := fun pw' => page_lean pw' /\ pw_points pw' = pw_points pw + 1).
  { unfold pw_write. eapply tri_bind; [apply ts_write_lean; exact G1|]. intros te H1. eapply tri_bind; [apply enc_write_lean; exact G2|]. intros ve H2.
    eapply tri_bind with (Q := any); [apply tri_get; intros; exact I|]. intros st _. eapply tri_bind with (Q := fun k => k = pw_points pw + 1).
    - unfold arithU. replace ((0 <=? pw_points pw + 1) && (pw_points pw + 1 <? 2 ^ 32))%bool with true by (symmetry; apply andb_true_intro; split; [apply Z.leb_le|apply Z.ltb_lt]; lia). reflexivity.
    - intros k ->. split; [split; [cbn; lia|split; [exact H1|exact H2]]|reflexivity]. }
  intros pw' [H1 H2]. unfold check_page_size. cbn [cw_page cw_with_page cw_next_check]. rewrite H2, Q1. unfold MAX_NUMBER_OF_POINTS_IN_PAGE.
  destruct (Z.gtb_spec (pw_points pw + 1) 1048576); [lia|]. destruct (Z.geb_spec (pw_points pw + 1) 7989); [lia|]. cbn [bind tri].
  split; [|cbn; discriminate]. split; [|exact B]. intros ? X. inversion X; subst. exact H1.
Qed.
(** The estimate of one series. *)
Lemma arithU_small : forall x, 0 <= x < 2 ^ 32 -> arithU Release 32 x = Ret x.
Proof. intros x H. unfold arithU. replace ((0 <=? x) && (x <? 2 ^ 32))%bool with true by (symmetry; apply andb_true_intro; split; [apply Z.leb_le|apply Z.ltb_lt]; lia). reflexivity. Qed.
Lemma wrap_small : forall x, 0 <= x < 2 ^ 32 -> wrapU 32 x = x.
Proof. intros. unfold wrapU. apply Z.mod_small. auto. Qed.
Lemma size_var_le : forall f v p, 0 <= p -> 0 <= size_var_loop f v p <= p + Z.of_nat f.
Proof. intros f. induction f as [|f IH]; intros v p H; cbn [size_var_loop]; [lia|]. destruct (negb _); [|lia]. specialize (IH (Z.shiftr v 7) (p + 1)). lia. Qed.
Lemma ts_sizes : forall k n e, n < 7989 -> ts_lean n e -> 0 <= ts2_size e <= 34 * n /\ 24 <= ts2_max_byte_size k e <= 24 + 8 * n.
Proof.
  intros k n e B [L E]. unfold ts2_size, ts2_max_byte_size. pose proof (zlen_nonneg _ (t_buf e)). pose proof (zlen_nonneg _ (t_values e)).
  assert (V : zlen (t_values e) <= pend e) by (unfold pend; destruct (t_first e); [lia|rewrite (E eq_refl); change (zlen (@nil Z)) with 0; lia]).
  assert (zlen (t_values e) <= n) by lia. rewrite (wrap_small (zlen (t_buf e))) by lia.
  assert (0 <= zlen (t_values e) * kbits k / 8 <= 8 * n).
  { split; [apply Z.div_pos; destruct k; cbn [kbits]; lia|]. apply Z.div_le_upper_bound; [lia|]. destruct k; cbn [kbits]; lia. }
  rewrite wrap_small by lia. lia.
Qed.
Lemma enc_sizes : forall n e, n < 7989 -> 0 <= n -> enc_lean n e -> 0 <= encoder_size e <= 34 * n /\ 0 <= encoder_max_byte_size e <= 24 + 8 * n.
Proof.
  intros n [dt b|k t] B N H; cbn [enc_lean encoder_size encoder_max_byte_size] in *.
  - pose proof (zlen_nonneg _ b). rewrite wrap_small by lia. split; [lia|]. destruct dt; rewrite ?wrap_small by lia; lia.
  - destruct (ts_sizes k n t B H). lia.
Qed.
Lemma estimate_small : forall n c, quiet n c -> n < 7989 -> ready c -> exists x, cw_estimate Release c = Ret x /\ 0 <= x <= 2 ^ 20 /\ (cw_page c <> None -> 0 < x).
Proof.
  intros n c [[Q1 Q2] Q3] HN [L B]. unfold cw_estimate. destruct (cw_page c) as [pw|] eqn:E; [|exists 0; split; [reflexivity|split; [lia|congruence]]].
  destruct (L pw E) as (P0 & P1 & P2). specialize (Q2 pw eq_refl).
  assert (HP : pw_points pw < 7989) by lia. destruct (ts_sizes KLong _ _ HP P1) as [A1 A2]. destruct (enc_sizes _ _ HP P0 P2) as [A3 A4].
  unfold pw_estimate. rewrite (arithU_small (ts2_size (pw_time pw) + encoder_size (pw_value pw))) by lia. cbn [bind]. rewrite arithU_small by lia. cbn [bind]. rewrite arithU_small by lia. cbn [bind].
  assert (S : 40 <= stats_serialized_size (pw_stats pw) <= 62).
  { unfold stats_serialized_size, size_var_u32. pose proof (size_var_le 5 (st_count (pw_stats pw)) 1). destruct (st_type (pw_stats pw)); lia. }
  rewrite (arithU_small (2 * (4 + 1) + stats_serialized_size (pw_stats pw))) by lia. cbn [bind]. rewrite B. change (wrapU 32 (zlen [])) with 0.
  rewrite arithU_small by lia. cbn [bind]. rewrite arithU_small by lia. eexists. split; [reflexivity|]. split; [|intros _]; lia.
Qed.

(** ** Groups: readiness, the keys, and a series with a page *)
Definition chunks_ready (cs : smap chunk_writer) : Prop := forall m c, In (m, c) cs -> ready c.
Definition has_page (cs : smap chunk_writer) : Prop := exists m c, In (m, c) cs /\ cw_page c <> None.
Lemma insert_mem : forall V k (v : V) m, In (k, v) (sm_insert k v m).
Proof. intros. apply sm_get_in. apply sm_get_same. Qed.
Lemma gw_write_lean : forall snap sc d m t v f g, (forall x, 0 <= f x) -> f m + 1 < 7989 -> chunks_calm sc d f (gw_chunks g) -> chunks_ready (gw_chunks g) -> sorted (gw_chunks g) ->
  tri anyp (fun r => chunks_ready (gw_chunks (fst r)) /\ map fst (gw_chunks (fst r)) = map fst (gw_chunks g) /\ (snd r = None -> has_page (gw_chunks (fst r)))) (gw_write Release snap m t v g).
Proof.
  intros snap sc d m t v f g HF HB C R S. unfold gw_write. destruct (check_is_history_data m t (gw_last g)) as [last [|]]; [|cbn [tri fst snd gw_chunks]; split; [exact R|split; [reflexivity|discriminate]]].
  destruct (sm_get m (gw_chunks g)) as [c|] eqn:G; [|cbn [tri fst snd gw_chunks]; split; [exact R|split; [reflexivity|discriminate]]].
  pose proof (sm_get_in _ _ _ _ G) as I. destruct (C m c I) as (ms & D & K & Q).
  eapply tri_bind; [apply (cw_write_lean snap t v (f m) c Q (HF m) HB (R m c I))|]. intros [c'|err] H; [|exact Logic.I]. destruct H as [H1 H2]. cbn [tri fst snd gw_chunks]. split; [|split].
  - intros m1 c1 X. apply insert_in in X. destruct X as [[-> ->]|X]; [exact H1|eapply R; exact X].
  - apply sm_insert_keys_same; [|exact S]. apply in_map_iff. exists (m, c). auto.
  - intros _. exists m, c'. split; [apply insert_mem|exact H2].
Qed.
Lemma tri_and : forall A P (Q Q' : A -> Prop) o, tri P Q o -> tri anyp Q' o -> tri P (fun a => Q a /\ Q' a) o.
Proof. intros A P Q Q' [a|q] H K; cbn [tri] in *; auto. Qed.
Lemma sorted_keys : forall V W (m : smap V) (n : smap W), map fst m = map fst n -> sorted n -> sorted m.
Proof. intros V W m n E S. unfold sorted in *. rewrite E. exact S. Qed.
Lemma gw_many_lean : forall snap sc d t vs n f g, (forall x, 0 <= f x) ->
  (forall x, f x + zlen (filter (fun mv => same_text x (fst mv)) vs) < 7989) -> chunks_calm sc d f (gw_chunks g) -> chunks_ready (gw_chunks g) -> sorted (gw_chunks g) ->
  tri anyp (fun r => chunks_ready (gw_chunks (fst r)) /\ map fst (gw_chunks (fst r)) = map fst (gw_chunks g) /\
    (forall k, snd r = inl k -> vs <> [] \/ has_page (gw_chunks g) -> has_page (gw_chunks (fst r)))) (gw_write_many Release snap t vs n g).
Proof.
  intros snap sc d t vs. induction vs as [|[m v] vs IH]; intros n f g HF HB C R S; cbn [gw_write_many].
  - cbn [tri fst snd]. split; [exact R|]. split; [reflexivity|]. intros k _ [X|X]; [congruence|exact X].
  - assert (NN : forall x, 0 <= zlen (filter (fun mv : str * value => same_text x (fst mv)) vs)) by (intros; apply zlen_nonneg).
    assert (BM : f m + 1 < 7989) by (pose proof (HB m) as X; rewrite filter_cons_one in X; cbn [fst] in X; rewrite one_same in X; specialize (NN m); lia).
    eapply tri_bind; [apply tri_and; [apply (gw_write_calm anyp snap sc d m t v f g); auto; intros; exact I|apply (gw_write_lean snap sc d m t v f g); auto]|].
    intros [g' [e|]] (K & K1 & K2 & K3); cbn [fst snd] in *; [cbn [tri fst snd]; split; [exact K1|split; [exact K2|discriminate]]|].
    eapply tri_bind; [apply arithU_tri|]. intros n' _. eapply tri_weak; [apply (IH n' (fun x => f x + one m x) g')|auto|].
    + intros x. pose proof (one_range m x). specialize (HF x). lia.
    + intros x. specialize (HB x). rewrite filter_cons_one in HB. cbn [fst] in HB. lia.
    + exact K.
    + exact K1.
    + eapply sorted_keys; [exact K2|exact S].
    + intros r (A & B & D). split; [exact A|]. split; [congruence|]. intros k E _. apply (D k E). right. apply K3. reflexivity.
Qed.

(** ** The keys of all groups *)
Definition shape (gs : smap group_writer) : list (str * list str) := map (fun dg => (fst dg, map fst (gw_chunks (snd dg)))) gs.
Lemma shape_fst : forall gs, map fst (shape gs) = map fst gs.
Proof. intros. unfold shape. rewrite map_map. reflexivity. Qed.
Lemma shape_insert : forall d g g' gs, sorted gs -> sm_get d gs = Some g -> map fst (gw_chunks g') = map fst (gw_chunks g) -> shape (sm_insert d g' gs) = shape gs.
Proof.
  intros d g g' gs S G E. induction gs as [|[k h] gs IH]; [discriminate|]. cbn [sm_get sm_insert] in *. destruct (sorted_cons _ _ _ _ S) as [S1 S2].
  destruct (str_cmp d k) eqn:X.
  - apply str_cmp_eq in X. subst k. rewrite str_eqb_refl in G. inversion G; subst. unfold shape. cbn [map fst snd]. rewrite E. reflexivity.
  - exfalso. destruct (str_eqb d k) eqn:Y; [apply str_eqb_eq in Y; subst; rewrite str_cmp_refl in X; discriminate|].
    apply sm_get_in in G. rewrite Forall_forall in S2. apply (str_lt_irrefl d). eapply str_lt_trans; [exact X|]. apply S2. apply in_map_iff. exists (d, g). auto.
  - destruct (str_eqb d k) eqn:Y; [apply str_eqb_eq in Y; subst; rewrite str_cmp_refl in X; discriminate|]. unfold shape in *. cbn [map fst snd]. rewrite IH; auto.
Qed.
Lemma groups_sorted : forall sc, sorted (groups_of sc).
Proof. intros. apply sm_of_list_sorted. Qed.
Lemma shape_sorted : forall sc gs, shape gs = shape (groups_of sc) -> sorted gs.
Proof. intros sc gs E. apply (sorted_keys _ _ gs (groups_of sc)); [|apply groups_sorted]. rewrite <- !shape_fst, E. reflexivity. Qed.
Lemma shape_inner : forall sc gs d g, shape gs = shape (groups_of sc) -> In (d, g) gs -> sorted (gw_chunks g).
Proof.
  intros sc gs d g E H. assert (X : In (d, map fst (gw_chunks g)) (shape (groups_of sc))) by (rewrite <- E; apply in_map_iff; exists (d, g); auto).
  apply in_map_iff in X. destruct X as ([d' g'] & X & I). cbn [fst snd] in X. inversion X; subst. apply (sorted_keys _ _ _ (gw_chunks g')); [auto|].
  apply of_list_in in I. apply in_map_iff in I. destruct I as ([d2 mg] & I & _). inversion I; subst. apply sm_of_list_sorted.
Qed.
Definition weight (gs : smap group_writer) : Z := zsum (map (fun dg => zlen (gw_chunks (snd dg))) gs).
Lemma weight_shape : forall gs, weight gs = zsum (map (fun x => zlen (snd x)) (shape gs)).
Proof. intros. unfold weight, shape. rewrite map_map. f_equal. apply map_ext. intros [d g]. cbn [fst snd]. unfold zlen. rewrite map_length. reflexivity. Qed.
Lemma insert_sum : forall V (f : V -> Z) k v m, (forall x, 0 <= f x) -> zsum (map (fun kv => f (snd kv)) (sm_insert k v m)) <= f v + zsum (map (fun kv => f (snd kv)) m).
Proof.
  intros V f k v m H. induction m as [|[k' v'] m IH]; cbn [sm_insert map snd]; unfold zsum in *; cbn [fold_right]; [lia|]. destruct (str_cmp k k'); cbn [map fold_right snd] in *; pose proof (H v'); lia.
Qed.
Lemma of_list_sum : forall V (f : V -> Z) l, (forall x, 0 <= f x) -> zsum (map (fun kv => f (snd kv)) (sm_of_list l)) <= zsum (map (fun kv => f (snd kv)) l).
Proof.
  intros V f l H. unfold sm_of_list. assert (G : forall l m, zsum (map (fun kv => f (snd kv)) (fold_left (fun m kv => sm_insert (fst kv) (snd kv) m) l m)) <= zsum (map (fun kv => f (snd kv)) m) + zsum (map (fun kv : str * V => f (snd kv)) l)).
  { clear l. induction l as [|[k v] l IH]; intros m; cbn [fold_left map snd fst]; [unfold zsum; cbn [fold_right]; lia|]. specialize (IH (sm_insert k v m)). pose proof (insert_sum V f k v m H). unfold zsum in *. cbn [fold_right] in *. lia. }
  specialize (G l []). unfold zsum in *. cbn [map fold_right] in G. lia.
Qed.
Lemma groups_weight : forall sc, weight (groups_of sc) <= series_count sc.
Proof.
  intros sc. unfold weight, groups_of. eapply Z.le_trans; [apply (of_list_sum _ (fun g => zlen (gw_chunks g))); intros; apply zlen_nonneg|]. rewrite map_map. cbn [snd]. unfold series_count.
  induction sc as [|[d g] sc IH]; [apply Z.le_refl|]. unfold zsum in *. cbn [map fold_right snd]. apply Z.add_le_mono; [|exact IH]. unfold group_of. cbn [gw_chunks].
  set (l := map _ g). replace (zlen g) with (zlen l) by (unfold l, zlen; rewrite map_length; reflexivity).
  assert (U : forall V (l : list (str * V)), zsum (map (fun kv => (fun _ => 1) (snd kv)) l) = zlen l) by (intros V l0; induction l0 as [|x l0 IH0]; [reflexivity|]; rewrite zlen_cons; unfold zsum in *; cbn [map fold_right]; lia).
  rewrite <- !U. apply (of_list_sum _ (fun _ => 1)). intros. lia.
Qed.

(** ** The sum of the estimates *)
Lemma fold_small : forall A (f : A -> outcome Z) (K : A -> Z) l b, (forall a, In a l -> exists x, f a = Ret x /\ 0 <= x <= K a) -> 0 <= b -> b + zsum (map K l) < 2 ^ 32 ->
  exists r, foldM (fun n a => let* s := f a in arithU Release 32 (n + s)) l b = Ret r /\ b <= r <= b + zsum (map K l) /\ forall a x, In a l -> f a = Ret x -> b + x <= r.
Proof.
  intros A f K l. induction l as [|a l IH]; intros b H B L; cbn [foldM].
  - exists b. split; [reflexivity|]. unfold zsum. cbn [map fold_right]. split; [lia|]. intros ? ? [].
  - destruct (H a (or_introl eq_refl)) as (x & E & X). unfold zsum in L. cbn [map fold_right] in L. fold (zsum (map K l)) in L.
    assert (N : 0 <= zsum (map K l)).
    { clear - H. induction l as [|c l IH]; [vm_compute; discriminate|]. unfold zsum in *. cbn [map fold_right]. destruct (H c (or_intror (or_introl eq_refl))) as (y & _ & Y).
      assert (0 <= fold_right Z.add 0 (map K l)); [|lia]. apply IH. intros e [<-|I]; apply H; [left; reflexivity|right; right; exact I]. }
    rewrite E. cbn [bind]. rewrite arithU_small by lia. cbn [bind]. destruct (IH (b + x)) as (r & R1 & R2 & R3); [intros c I; apply H; right; exact I|lia|lia|].
    exists r. split; [exact R1|]. unfold zsum. cbn [map fold_right]. fold (zsum (map K l)). split; [lia|]. intros c y [<-|I] Y; [rewrite E in Y; inversion Y; subst; lia|specialize (R3 c y I Y); lia].
Qed.
Definition groups_ready (gs : smap group_writer) : Prop := forall d g, In (d, g) gs -> chunks_ready (gw_chunks g).
Lemma mem_small : forall sc F gs, groups_calm sc F gs -> (forall d m, F d m < 7989) -> groups_ready gs -> shape gs = shape (groups_of sc) -> series_count sc <= 4095 ->
  exists r, mem_size Release gs = Ret r /\ 0 <= r <= 2 ^ 20 * series_count sc /\ ((exists d g, In (d, g) gs /\ has_page (gw_chunks g)) -> 0 < r).
Proof.
  intros sc F gs C HF R S L. assert (WS : weight gs <= series_count sc) by (rewrite weight_shape, S, <- weight_shape; apply groups_weight). assert (W : weight gs <= 4095) by lia.
  assert (G : forall dg, In dg gs -> exists x, gw_mem_size Release (snd dg) = Ret x /\ 0 <= x <= 2 ^ 20 * zlen (gw_chunks (snd dg)) /\ (has_page (gw_chunks (snd dg)) -> 0 < x)).
  { intros [d g] I. cbn [snd]. unfold gw_mem_size.
    assert (WG : zlen (gw_chunks g) <= 4095).
    { eapply Z.le_trans; [|exact W]. unfold weight. clear - I. induction gs as [|x gs IH]; [destruct I|]. unfold zsum in *. cbn [map fold_right].
      assert (N : 0 <= fold_right Z.add 0 (map (fun dg : str * group_writer => zlen (gw_chunks (snd dg))) gs)) by (clear; induction gs as [|y gs IH]; [vm_compute; discriminate|]; cbn [map fold_right]; pose proof (zlen_nonneg _ (gw_chunks (snd y))); lia).
      destruct I as [->|I]; [cbn [snd]; lia|]. specialize (IH I). pose proof (zlen_nonneg _ (gw_chunks (snd x))). lia. }
    assert (ES : forall kc, In kc (gw_chunks g) -> exists x, cw_estimate Release (snd kc) = Ret x /\ 0 <= x <= 2 ^ 20 /\ (cw_page (snd kc) <> None -> 0 < x)).
    { intros [m c] J. destruct (C d g I m c J) as (ms & _ & _ & Q). eapply estimate_small; [exact Q|apply HF|eapply R; eauto]. }
    assert (SUM : zsum (map (fun _ : str * chunk_writer => 2 ^ 20) (gw_chunks g)) = 2 ^ 20 * zlen (gw_chunks g)).
    { clear. induction (gw_chunks g) as [|x l IH]; [reflexivity|]. rewrite zlen_cons. unfold zsum in *. cbn [map fold_right]. lia. }
    destruct (fold_small _ (fun kc : str * chunk_writer => cw_estimate Release (snd kc)) (fun _ => 2 ^ 20) (gw_chunks g) 0) as (r & R1 & R2 & R3).
    - intros kc J. destruct (ES kc J) as (x & X1 & X2 & _). eauto.
    - lia.
    - rewrite SUM. lia.
    - exists r. split; [exact R1|]. split; [rewrite SUM in R2; lia|]. intros (m & c & J & P). destruct (ES (m, c) J) as (x & X1 & _ & X3). specialize (R3 _ _ J X1). specialize (X3 P). lia. }
  assert (SUM : zsum (map (fun dg : str * group_writer => 2 ^ 20 * zlen (gw_chunks (snd dg))) gs) = 2 ^ 20 * weight gs).
  { clear. unfold weight. induction gs as [|x l IH]; [reflexivity|]. unfold zsum in *. cbn [map fold_right]. lia. }
  destruct (fold_small _ (fun dg : str * group_writer => gw_mem_size Release (snd dg)) (fun dg => 2 ^ 20 * zlen (gw_chunks (snd dg))) gs 0) as (r & R1 & R2 & R3).
  - intros dg J. destruct (G dg J) as (x & X1 & X2 & _). eauto.
  - lia.
  - rewrite SUM. lia.
  - exists r. split; [exact R1|]. split; [rewrite SUM in R2; lia|]. intros (d & g & J & P). destruct (G (d, g) J) as (x & X1 & _ & X3). specialize (R3 _ _ J X1). specialize (X3 P). lia.
Qed.

(** ** Flushes *)
Lemma seal_all_lean : forall snap cs, chunks_ready cs -> tri anyp (fun cs' => (forall m c, In (m, c) cs' -> chunk_lean c) /\ map fst cs' = map fst cs) (seal_all_chunks Release snap cs).
Proof.
  intros snap cs. unfold seal_all_chunks. induction cs as [|[m c] cs IH]; intros R; cbn [sm_mapM]; [split; [intros ? ? []|reflexivity]|].
  eapply tri_bind; [apply seal_lean; apply (R m c); left; reflexivity|]. intros c' L. eapply tri_bind; [apply IH; intros m1 c1 X; apply (R m1 c1); right; exact X|]. intros cs' [A B].
  cbn [tri map fst]. split; [|rewrite B; reflexivity]. intros m1 c1 [X|X]; [inversion X; subst; exact L|eapply A; exact X].
Qed.
Lemma flush_chunks_lean : forall snap cs io, (forall m c, In (m, c) cs -> chunk_lean c) -> tri anyp (fun r => chunks_ready (fst r) /\ map fst (fst r) = map fst cs) (flush_chunks Release snap cs io).
Proof.
  intros snap cs. induction cs as [|[m c] cs IH]; intros io R; cbn [flush_chunks]; [split; [intros ? ? []|reflexivity]|].
  eapply tri_bind; [apply to_file_lean; apply (R m c); left; reflexivity|]. intros [c' io1] L. cbn [fst] in L. eapply tri_bind; [apply IH; intros m1 c1 X; apply (R m1 c1); right; exact X|]. intros r [A B].
  cbn [tri map fst]. split; [|rewrite B; reflexivity]. intros m1 c1 [X|X]; [inversion X; subst; exact L|eapply A; exact X].
Qed.
Lemma flush_groups_lean : forall snap gs io, groups_ready gs -> tri anyp (fun r => groups_ready (fst (fst r)) /\ shape (fst (fst r)) = shape gs) (flush_groups Release snap gs io).
Proof.
  intros snap gs. induction gs as [|[d g] gs IH]; intros io R; cbn [flush_groups]; [split; [exact R|reflexivity]|].
  assert (R' : groups_ready gs) by (intros d1 g1 X; apply (R d1 g1); right; exact X).
  assert (J : forall g', chunks_ready (gw_chunks g') -> forall gs', groups_ready gs' -> groups_ready ((d, g') :: gs')).
  { intros g' C gs' K d1 g1 [X|X]; [inversion X; subst; exact C|eapply K; exact X]. }
  destruct (start_chunk_group d io) as [io1 [|]]; [|split; [exact R|reflexivity]].
  eapply tri_bind with (Q := fun r => chunks_ready (gw_chunks (fst (fst r))) /\ map fst (gw_chunks (fst (fst r))) = map fst (gw_chunks g)).
  - unfold flush_to_filewriter. eapply tri_bind; [apply seal_all_lean; apply (R d g); left; reflexivity|]. intros cs [A B]. eapply tri_bind; [apply flush_chunks_lean; exact A|]. intros r [A1 B1].
    cbn [tri fst gw_chunks]. split; [exact A1|congruence].
  - intros [[g' io2] size] [A B]. cbn [fst] in A, B. destruct (negb _).
    + cbn [tri fst]. split; [apply J; auto|]. unfold shape. cbn [map fst snd]. rewrite B. reflexivity.
    + eapply tri_bind; [apply IH; exact R'|]. intros [[gs2 io3] e] [A2 B2]. cbn [tri fst] in *. split; [apply J; auto|]. unfold shape in *. cbn [map fst snd]. rewrite B, B2. reflexivity.
Qed.
Definition lean (sc : schema) (w : writer) : Prop := w_schema w = sc /\ groups_ready (w_groups w) /\ shape (w_groups w) = shape (groups_of sc).
Lemma groups_new_ready : forall sc, groups_ready (groups_of sc).
Proof.
  intros sc d g H m c K. apply of_list_in in H. apply in_map_iff in H. destruct H as ([d' mg] & E & H). inversion E; subst. cbn [gw_chunks group_of snd] in K.
  apply of_list_in in K. apply in_map_iff in K. destruct K as ([m' ms] & E' & K). inversion E'; subst. split; [intros pw X; discriminate|reflexivity].
Qed.
Lemma flush_all_lean : forall snap sc w, lean sc w -> tri anyp (fun r => lean sc (fst r)) (flush_all Release snap w).
Proof.
  intros snap sc w (S & R & H). unfold flush_all. destruct (_ >? _); [|split; auto]. eapply tri_bind; [apply flush_groups_lean; exact R|].
  intros [[gs io] [e|]] [A B]; cbn [fst] in A, B; (split; [exact S|]); cbn [fst w_groups writer_reset w_schema]; [split; [exact A|rewrite B; exact H]|]. rewrite S. split; [apply groups_new_ready|reflexivity].
Qed.
Definition not_zero (q : panic) : Prop := q <> PDivZero.
Definition some_page (gs : smap group_writer) : Prop := exists d g, In (d, g) gs /\ has_page (gw_chunks g).
(** The check of the memory: the panic only if no series has a page. *)
Lemma check_memory_lean : forall snap sc F w, (forall d m, 0 <= F d m < 7989) -> series_count sc <= 4095 -> writer_calm sc F w -> lean sc w ->
  tri (fun q => q = PDivZero /\ ~ some_page (w_groups w)) (lean sc) (check_memory Release snap w).
Proof.
  intros snap sc F w HF HS W L. unfold check_memory. destruct (_ >=? _); [|exact L].
  destruct (mem_small sc F (w_groups w) (proj2 W) (fun d m => proj2 (HF d m)) (proj1 (proj2 L)) (proj2 (proj2 L)) HS) as (mem & E & M0 & M1). rewrite E. cbn [bind].
  destruct (Z.eqb_spec mem 0) as [Z0|Z0]; [cbn [tri]; split; [reflexivity|]; intros X; specialize (M1 X); lia|].
  destruct (_ >? _); [|exact L]. eapply tri_bind; [apply tri_and; [apply (flush_all_calm _ snap sc F); [intros; apply HF|exact W]|apply flush_all_lean; exact L]|].
  intros r [_ K]. exact K.
Qed.
Lemma insert_lean : forall sc d g g' w io r n s, lean sc w -> sm_get d (w_groups w) = Some g -> chunks_ready (gw_chunks g') -> map fst (gw_chunks g') = map fst (gw_chunks g) -> s = w_schema w ->
  lean sc (mkW io (sm_insert d g' (w_groups w)) r n s).
Proof.
  intros sc d g g' w io r n s (S & R & H) G A B ->. split; [exact S|]. cbn [w_groups]. split.
  - intros d1 g1 X. apply insert_in in X. destruct X as [[-> ->]|X]; [exact A|eapply R; exact X].
  - rewrite (shape_insert d g); auto. eapply shape_sorted; exact H.
Qed.
(** A write or a batch with a point never divides by 0. *)
Definition empty_batch (o : op) : Prop := exists d t, o = OpWriteMany d t [].
Lemma write_lean : forall snap sc F w o, (forall d m, 0 <= F d m) -> (forall d m, plus_op F o d m < 7989) -> series_count sc <= 4095 -> writer_calm sc F w -> lean sc w -> (forall ord, o <> OpClose ord) ->
  tri (fun q => q = PDivZero -> empty_batch o) (fun r => lean sc (fst r)) (step Release snap w o).
Proof.
  intros snap sc F w o HF HB HS W L N.
  assert (HF' : forall d m, 0 <= plus_op F o d m < 7989) by (intros d m; pose proof (plus_op_le F o d m); pose proof (HF d m); pose proof (HB d m); lia).
  assert (PC : forall d m v q, point_cause sc d m v q -> q = PDivZero -> empty_batch o) by (intros d m v q (ms & _ & [[-> _]|[-> _]]); discriminate).
  destruct o as [d m t v|d t vs|ord]; cbn [step]; [| |exfalso; eapply N; reflexivity].
  - set (o := OpWrite d m t v) in *. assert (EQ : forall x, plus_op F o d x = F d x + one m x) by (intros x; unfold plus_op, o; cbn [offered_by]; rewrite same_text_refl; reflexivity).
    assert (BM : F d m + 1 < 7989) by (specialize (HB d m); rewrite EQ, one_same in HB; exact HB).
    unfold writer_write. destruct (sm_get d (w_groups w)) as [g|] eqn:G; [|exact L]. pose proof (sm_get_in _ _ _ _ G) as I. pose proof (proj2 W d g I) as C.
    eapply tri_bind; [apply tri_and; [apply (gw_write_calm _ snap sc d m t v (F d) g); [|apply HF|exact BM|exact C]|apply (gw_write_lean snap sc d m t v (F d) g); [apply HF|exact BM|exact C|eapply (proj1 (proj2 L)); exact I|eapply shape_inner; [apply L|exact I]]]|].
    + intros q H. eapply PC; exact H.
    + intros [g' e] (K & A & B & D). cbn [fst snd] in *. assert (K' : chunks_calm sc d (plus_op F o d) (gw_chunks g')) by (eapply chunks_calm_le; [|exact K]; intros x; cbn beta; rewrite EQ; lia).
      destruct e; [eapply insert_lean; eauto|]. eapply tri_bind; [apply arithU_tri|]. intros rc _.
      eapply tri_bind; [eapply tri_weak; [apply (check_memory_lean snap sc (plus_op F o)); [exact HF'|exact HS|apply insert_calm; auto|eapply insert_lean; eauto]| |intros a X; exact X]|].
      * intros q [_ X]. exfalso. apply X. exists d, g'. split; [apply insert_mem|apply D; reflexivity].
      * intros w2 K2. exact K2.
  - set (o := OpWriteMany d t vs) in *. assert (EQ : forall x, plus_op F o d x = F d x + zlen (filter (fun mv => same_text x (fst mv)) vs)) by (intros x; unfold plus_op, o; cbn [offered_by]; rewrite same_text_refl; reflexivity).
    assert (BM : forall x, F d x + zlen (filter (fun mv => same_text x (fst mv)) vs) < 7989) by (intros x; specialize (HB d x); rewrite EQ in HB; exact HB).
    unfold writer_write_many. destruct (sm_get d (w_groups w)) as [g|] eqn:G; [|exact L]. pose proof (sm_get_in _ _ _ _ G) as I. pose proof (proj2 W d g I) as C.
    eapply tri_bind; [apply tri_and; [apply (gw_many_calm _ snap sc d t vs 0 (F d) g); [|apply HF|exact BM|exact C]|apply (gw_many_lean snap sc d t vs 0 (F d) g); [apply HF|exact BM|exact C|eapply (proj1 (proj2 L)); exact I|eapply shape_inner; [apply L|exact I]]]|].
    + intros m v q _ H. eapply PC; exact H.
    + intros [g' e] (K & A & B & D). cbn [fst snd] in *. assert (K' : chunks_calm sc d (plus_op F o d) (gw_chunks g')) by (eapply chunks_calm_le; [|exact K]; intros x; cbn beta; rewrite EQ; lia).
      destruct e as [k|e]; [|eapply insert_lean; eauto]. eapply tri_bind; [apply arithU_tri|]. intros rc _.
      eapply tri_bind; [eapply tri_weak; [apply (check_memory_lean snap sc (plus_op F o)); [exact HF'|exact HS|apply insert_calm; auto|eapply insert_lean; eauto]| |intros a X; exact X]|].
      * intros q [_ X] _. destruct vs as [|mv vs]; [exists d, t; reflexivity|]. exfalso. apply X. exists d, g'. split; [apply insert_mem|apply (D k eq_refl); left; discriminate].
      * intros w2 K2. exact K2.
Qed.
Lemma close_lean : forall snap sc w ord r, lean sc w -> step Release snap w (OpClose ord) = Ret r -> lean sc (fst r).
Proof.
  intros snap sc w ord r L H. pose proof (flush_all_lean snap sc w L) as T. cbn [step] in H. unfold writer_close in H. destruct (flush_all Release snap w) as [[w1 e]|q]; [|discriminate].
  cbn [bind fst tri] in *. destruct (end_file Release ord (w_io w1)); [|discriminate]. cbn [bind] in H. inversion H; subst. exact T.
Qed.
Lemma run_lean : forall snap sc ops F w w' l, (forall d m, 0 <= F d m) -> (forall d m, F d m + offered d m ops < 7989) -> series_count sc <= 4095 -> writer_calm sc F w -> lean sc w ->
  run Release snap w ops = Ret (w', l) -> lean sc w'.
Proof.
  intros snap sc ops. induction ops as [|o ops IH]; intros F w w' l HF HB HS W L H; cbn [run] in H; [inversion H; subst; exact L|].
  apply bind_ret in H. destruct H as ([w1 a] & S & H). apply bind_ret in H. destruct H as ([w2 l2] & R & H). inversion H; subst. cbn [fst] in *.
  assert (HP : forall d m, 0 <= plus_op F o d m) by (intros d m; pose proof (plus_op_le F o d m); pose proof (HF d m); lia).
  assert (HL : forall d m, plus_op F o d m < 7989) by (intros d m; specialize (HB d m); rewrite offered_cons in HB; unfold plus_op; pose proof (offered_nonneg d m ops); lia).
  assert (W1 : writer_calm sc (fun d m => F d m + offered d m [o]) w1).
  { apply (run_calm snap sc [o] F w w1 [a]); auto; [intros d m; rewrite offered_one; apply HL|]. cbn [run]. rewrite S. reflexivity. }
  assert (L1 : lean sc w1).
  { destruct o as [d m t v|d t vs|ord].
    - pose proof (write_lean snap sc F w (OpWrite d m t v) HF HL HS W L) as T. rewrite S in T. apply T. discriminate.
    - pose proof (write_lean snap sc F w (OpWriteMany d t vs) HF HL HS W L) as T. rewrite S in T. apply T. discriminate.
    - exact (close_lean _ _ _ _ _ L S). }
  apply (IH (fun d m => F d m + offered d m [o]) w1 w' l2); auto; intros d m.
  - rewrite offered_one. apply HP.
  - specialize (HB d m). rewrite offered_cons in HB. rewrite offered_one. lia.
Qed.
Lemma no_zero : forall snap sc out out' w0 ops w l o, writer_new sc out = (out', Some w0) -> few_points (ops ++ [o]) -> series_count sc <= 4095 -> run Release snap w0 ops = Ret (w, l) ->
  (forall ord, o <> OpClose ord) -> step Release snap w o = Panic PDivZero -> exists d t, o = OpWriteMany d t [].
Proof.
  intros snap sc out out' w0 ops w l o N FP HS R C H.
  assert (B : forall d m, offered d m ops + offered_by d m o < 7989) by (intros d m; specialize (FP d m); rewrite offered_app, offered_one in FP; exact FP).
  assert (B0 : forall d m, 0 + offered d m ops < 7989) by (intros d m; specialize (B d m); pose proof (offered_by_nonneg d m o); lia).
  assert (W : writer_calm sc (fun d m => 0 + offered d m ops) w) by (apply (run_calm snap sc ops (fun _ _ => 0) w0 w l); auto; [intros; lia|eapply new_calm; eauto]).
  assert (L0 : lean sc w0) by (unfold writer_new in N; destruct (io_new out) as [o1 [io|]]; inversion N; subst; split; [reflexivity|split; [apply groups_new_ready|reflexivity]]).
  assert (L : lean sc w) by (apply (run_lean snap sc ops (fun _ _ => 0) w0 w l); auto; [intros; lia|eapply new_calm; eauto]).
  pose proof (write_lean snap sc (fun d m => 0 + offered d m ops) w o) as T. rewrite H in T. apply T; auto. intros d m. apply offered_nonneg.
Qed.
Lemma small_write : forall snap sc out out' w0 ops w l o q, writer_new sc out = (out', Some w0) -> few_points (ops ++ [o]) -> series_count sc <= 4095 -> run Release snap w0 ops = Ret (w, l) ->
  (forall ord, o <> OpClose ord) -> step Release snap w o = Panic q -> small_cause sc o q.
Proof.
  intros snap sc out out' w0 ops w l o q N FP HS R C H. pose proof (calm_write snap sc out out' w0 ops w l o q N FP R C H) as X.
  assert (Z0 : q = PDivZero -> exists d t, o = OpWriteMany d t []) by (intros ->; eapply no_zero; eauto).
  destruct o as [d m t v|d t vs|ord]; cbn [calm_cause small_cause] in *; [| |exact X].
  - destruct X as [X|X]; [exact X|]. destruct (Z0 X) as (? & ? & E). discriminate.
  - destruct X as [X|X]; [left; exact X|]. right. destruct (Z0 X) as (? & ? & E). inversion E; subst. auto.
Qed.

(** ** Whole sessions *)
Lemma run_snoc : forall p snap o ops w w1 l, run p snap w ops = Ret (w1, l) ->
  run p snap w (ops ++ [o]) = match step p snap w1 o with Ret (w2, a) => Ret (w2, l ++ [a]) | Panic q => Panic q end.
Proof.
  intros p snap o ops. induction ops as [|x ops IH]; intros w w1 l H; cbn [run app] in *.
  - inversion H; subst. destruct (step p snap w1 o) as [[w2 a]|q]; reflexivity.
  - apply bind_ret in H. destruct H as ([w2 a] & S & H). apply bind_ret in H. destruct H as ([w3 l3] & R & H). inversion H; subst. rewrite S. cbn [bind fst snd]. rewrite (IH _ _ _ R).
    destruct (step p snap w1 o) as [[w4 b]|q]; reflexivity.
Qed.
Lemma few_points_app : forall a b, few_points (a ++ b) -> few_points a.
Proof. intros a b H d m. specialize (H d m). rewrite offered_app in H. pose proof (offered_nonneg d m b). lia. Qed.
Lemma safe_run : forall snap sc out out' w0 ops, byte_names sc -> short_paths sc -> series_count sc <= 41 -> writer_new sc out = (out', Some w0) -> few_points ops -> Forall (safe_call sc) ops ->
  exists w l, run Release snap w0 ops = Ret (w, l).
Proof.
  intros snap sc out out' w0 ops BN SP K N. induction ops as [|o ops IH] using rev_ind; intros FP SF; [exists w0, []; reflexivity|].
  apply Forall_app in SF. destruct SF as [S1 S2]. inversion S2 as [|x y S3 _]; subst. destruct (IH (few_points_app _ _ FP) S1) as (w & l & R). rewrite (run_snoc _ _ _ _ _ _ _ R).
  assert (PC : forall d m v q, safe_point sc d m v -> ~ point_cause sc d m v q).
  { intros d m v q S (ms & D & [[_ X]|[_ X]]); destruct (S ms D) as [A B]; contradiction. }
  destruct (step Release snap w o) as [[w2 a]|q] eqn:E; [eauto|]. exfalso. destruct o as [d m t v|d t vs|ord].
  - pose proof (small_write snap sc out out' w0 ops w l _ q N FP ltac:(lia) R ltac:(discriminate) E) as X. cbn [small_cause safe_call] in *. exact (PC d m v q S3 X).
  - pose proof (small_write snap sc out out' w0 ops w l _ q N FP ltac:(lia) R ltac:(discriminate) E) as X. cbn [small_cause safe_call] in *. destruct S3 as [S3 S4].
    destruct X as [(m & v & I & X)|[X _]]; [exact (PC d m v q (S4 m v I) X)|contradiction].
  - destruct (calm_close snap sc out out' w0 ops w l ord BN SP K N (few_points_app _ _ FP) R) as (w' & X). congruence.
Qed.

(** ** With at most 128 series nothing reaches the disk before the close *)
Definition with_io (io : io_writer) (w : writer) : writer := mkW io (w_groups w) (w_records w) (w_next_check w) (w_schema w).
Definition moved {A} (io : io_writer) (r : outcome (writer * A)) : outcome (writer * A) := match r with Ret (w, a) => Ret (with_io io w, a) | Panic q => Panic q end.
Lemma check_io : forall snap sc F w io, (forall d m, F d m < 7989) -> series_count sc <= 128 -> writer_calm sc F w -> lean sc w ->
  check_memory Release snap (with_io io w) = match check_memory Release snap w with Ret w' => Ret (with_io io w') | Panic q => Panic q end.
Proof.
  intros snap sc F w io HF HS W L. unfold check_memory, with_io. cbn [w_records w_next_check w_groups w_schema w_io]. destruct (_ >=? _); [|reflexivity].
  destruct (mem_small sc F (w_groups w) (proj2 W) HF (proj1 (proj2 L)) (proj2 (proj2 L)) ltac:(lia)) as (mem & E & M0 & _). rewrite E. cbn [bind].
  destruct (mem =? 0); [reflexivity|]. unfold CHUNK_GROUP_SIZE_THRESHOLD_BYTE. destruct (Z.gtb_spec mem 134217728) as [X|X]; [lia|reflexivity].
Qed.
Lemma step_io : forall snap sc F w o io, (forall d m, 0 <= F d m) -> (forall d m, plus_op F o d m < 7989) -> series_count sc <= 128 -> writer_calm sc F w -> lean sc w -> (forall ord, o <> OpClose ord) ->
  step Release snap (with_io io w) o = moved io (step Release snap w o).
Proof.
  intros snap sc F w o io HF HB HS W L N.
  assert (HF' : forall d m, 0 <= plus_op F o d m) by (intros d m; pose proof (plus_op_le F o d m); pose proof (HF d m); lia).
  destruct o as [d m t v|d t vs|ord]; cbn [step]; [| |exfalso; eapply N; reflexivity].
  - set (o := OpWrite d m t v) in *. assert (EQ : forall x, plus_op F o d x = F d x + one m x) by (intros x; unfold plus_op, o; cbn [offered_by]; rewrite same_text_refl; reflexivity).
    assert (BM : F d m + 1 < 7989) by (specialize (HB d m); rewrite EQ, one_same in HB; exact HB).
    unfold writer_write. unfold with_io at 1. cbn [w_groups]. destruct (sm_get d (w_groups w)) as [g|] eqn:G; [|reflexivity]. pose proof (sm_get_in _ _ _ _ G) as I. pose proof (proj2 W d g I) as C.
    pose proof (gw_write_calm anyp snap sc d m t v (F d) g (fun _ _ => Logic.I) (HF d) BM C) as T1.
    assert (T2 := gw_write_lean snap sc d m t v (F d) g (HF d) BM C (proj1 (proj2 L) _ _ I) (shape_inner _ _ _ _ (proj2 (proj2 L)) I)).
    destruct (gw_write Release snap m t v g) as [[g' e]|q]; [|reflexivity]. cbn [tri fst snd bind] in *. destruct T2 as (A & B & _).
    assert (K' : chunks_calm sc d (plus_op F o d) (gw_chunks g')) by (eapply chunks_calm_le; [|exact T1]; intros x; cbn beta; rewrite EQ; lia).
    destruct e; [reflexivity|]. cbn [w_records with_io w_io w_next_check w_schema w_groups]. destruct (arithU Release 32 (w_records w + 1)) as [rc|q]; [|reflexivity]. cbn [bind].
    pose proof (check_io snap sc (plus_op F o) (mkW (w_io w) (sm_insert d g' (w_groups w)) rc (w_next_check w) (w_schema w)) io HB HS (insert_calm _ _ _ _ _ _ _ _ _ _ W K' eq_refl) (insert_lean _ _ _ _ _ _ _ _ _ L G A B eq_refl)) as X.
    unfold with_io in X at 1. cbn [w_groups w_records w_next_check w_schema] in X. rewrite X. set (y := check_memory Release snap (mkW (w_io w) (sm_insert d g' (w_groups w)) rc (w_next_check w) (w_schema w))).
    change (match match y with Ret w' => Ret (with_io io w') | Panic q => Panic q end with Ret a => Ret (a, AOk) | Panic q => Panic q end = moved io (match y with Ret a => Ret (a, AOk) | Panic q => Panic q end)). destruct y as [w2|q]; reflexivity.
  - set (o := OpWriteMany d t vs) in *. assert (EQ : forall x, plus_op F o d x = F d x + zlen (filter (fun mv => same_text x (fst mv)) vs)) by (intros x; unfold plus_op, o; cbn [offered_by]; rewrite same_text_refl; reflexivity).
    assert (BM : forall x, F d x + zlen (filter (fun mv => same_text x (fst mv)) vs) < 7989) by (intros x; specialize (HB d x); rewrite EQ in HB; exact HB).
    unfold writer_write_many. unfold with_io at 1. cbn [w_groups]. destruct (sm_get d (w_groups w)) as [g|] eqn:G; [|reflexivity]. pose proof (sm_get_in _ _ _ _ G) as I. pose proof (proj2 W d g I) as C.
    pose proof (gw_many_calm anyp snap sc d t vs 0 (F d) g (fun _ _ _ _ _ => Logic.I) (HF d) BM C) as T1.
    assert (T2 := gw_many_lean snap sc d t vs 0 (F d) g (HF d) BM C (proj1 (proj2 L) _ _ I) (shape_inner _ _ _ _ (proj2 (proj2 L)) I)).
    destruct (gw_write_many Release snap t vs 0 g) as [[g' e]|q]; [|reflexivity]. cbn [tri fst snd bind] in *. destruct T2 as (A & B & _).
    assert (K' : chunks_calm sc d (plus_op F o d) (gw_chunks g')) by (eapply chunks_calm_le; [|exact T1]; intros x; cbn beta; rewrite EQ; lia).
    destruct e as [k|e]; [|reflexivity]. cbn [w_records with_io w_io w_next_check w_schema w_groups]. destruct (arithU Release 32 (w_records w + k)) as [rc|q]; [|reflexivity]. cbn [bind].
    pose proof (check_io snap sc (plus_op F o) (mkW (w_io w) (sm_insert d g' (w_groups w)) rc (w_next_check w) (w_schema w)) io HB HS (insert_calm _ _ _ _ _ _ _ _ _ _ W K' eq_refl) (insert_lean _ _ _ _ _ _ _ _ _ L G A B eq_refl)) as X.
    unfold with_io in X at 1. cbn [w_groups w_records w_next_check w_schema] in X. rewrite X. set (y := check_memory Release snap (mkW (w_io w) (sm_insert d g' (w_groups w)) rc (w_next_check w) (w_schema w))).
    change (match match y with Ret w' => Ret (with_io io w') | Panic q => Panic q end with Ret a => Ret (a, AOk) | Panic q => Panic q end = moved io (match y with Ret a => Ret (a, AOk) | Panic q => Panic q end)). destruct y as [w2|q]; reflexivity.
Qed.
Lemma run_io : forall snap sc ops F w io, (forall d m, 0 <= F d m) -> (forall d m, F d m + offered d m ops < 7989) -> series_count sc <= 128 -> writer_calm sc F w -> lean sc w -> no_close ops = true ->
  run Release snap (with_io io w) ops = moved io (run Release snap w ops).
Proof.
  intros snap sc ops. induction ops as [|o ops IH]; intros F w io HF HB HS W L NC; cbn [run]; [reflexivity|].
  assert (HP : forall d m, 0 <= plus_op F o d m) by (intros d m; pose proof (plus_op_le F o d m); pose proof (HF d m); lia).
  assert (HL : forall d m, plus_op F o d m < 7989) by (intros d m; specialize (HB d m); rewrite offered_cons in HB; unfold plus_op; pose proof (offered_nonneg d m ops); lia).
  assert (C : forall ord, o <> OpClose ord) by (intros ord ->; cbn in NC; discriminate).
  assert (NC' : no_close ops = true) by (unfold no_close in *; cbn [forallb] in NC; apply andb_prop in NC; apply NC).
  rewrite (step_io snap sc F w o io HF HL HS W L C). pose proof (write_calm snap sc F w o HF HL W C) as T1. pose proof (write_lean snap sc F w o HF HL ltac:(lia) W L C) as T2.
  destruct (step Release snap w o) as [[w1 a]|q]; [|reflexivity]. cbn [tri moved bind fst] in *. rewrite (IH (plus_op F o) w1 io); auto; [destruct (run Release snap w1 ops) as [[w2 l]|q]; reflexivity|].
  intros d m. specialize (HB d m). rewrite offered_cons in HB. unfold plus_op. lia.
Qed.
Lemma silent : forall snap sc out1 out1' w1 out2 out2' w2 ops, writer_new sc out1 = (out1', Some w1) -> writer_new sc out2 = (out2', Some w2) -> few_points ops -> series_count sc <= 128 -> no_close ops = true ->
  match run Release snap w1 ops, run Release snap w2 ops with
  | Ret (a, l), Ret (b, l') => l = l' /\ io_out (w_io a) = out1' /\ io_out (w_io b) = out2'
  | Panic q, Panic q' => q = q'
  | _, _ => False
  end.
Proof.
  intros snap sc out1 out1' w1 out2 out2' w2 ops N1 N2 FP HS NC.
  assert (X : forall out out' w, writer_new sc out = (out', Some w) -> lean sc w /\ io_out (w_io w) = out').
  { intros out out' w N. unfold writer_new in N. destruct (io_new out) as [o [io|]] eqn:E; inversion N; subst. split; [split; [reflexivity|split; [apply groups_new_ready|reflexivity]]|].
    unfold io_new in E. destruct (wexec _ out) as [o2 [|]]; inversion E; subst. reflexivity. }
  destruct (X _ _ _ N1) as [L1 O1]. destruct (X _ _ _ N2) as [L2 O2].
  assert (E2 : w2 = with_io (w_io w2) w1).
  { unfold writer_new in N1, N2. destruct (io_new out1) as [o1 [io1|]]; inversion N1; subst. destruct (io_new out2) as [o2 [io2|]]; inversion N2; subst. reflexivity. }
  assert (R : forall io, run Release snap (with_io io w1) ops = moved io (run Release snap w1 ops)).
  { intros io. apply (run_io snap sc ops (fun _ _ => 0)); auto; [intros; lia|eapply new_calm; eauto]. }
  pose proof (R (w_io w1)) as R1. pose proof (R (w_io w2)) as R2. rewrite <- E2 in R2. replace (with_io (w_io w1) w1) with w1 in R1 by (destruct w1; reflexivity).
  rewrite R2. destruct (run Release snap w1 ops) as [[a l]|q]; cbn [moved] in *; [|reflexivity]. split; [reflexivity|]. injection R1 as Y. apply (f_equal w_io) in Y. split; [rewrite Y; exact O1|exact O2].
Qed.
(** The answers, with the first close, are the same on all disks. *)
Lemma unnoticed : forall snap sc out1 out1' w1 out2 out2' w2 ops ord, byte_names sc -> short_paths sc -> series_count sc <= 41 ->
  writer_new sc out1 = (out1', Some w1) -> writer_new sc out2 = (out2', Some w2) -> few_points ops -> Forall (safe_call sc) ops -> no_close ops = true ->
  exists a b l, run Release snap w1 (ops ++ [OpClose ord]) = Ret (a, l) /\ run Release snap w2 (ops ++ [OpClose ord]) = Ret (b, l).
Proof.
  intros snap sc out1 out1' w1 out2 out2' w2 ops ord BN SP K N1 N2 FP SF NC.
  destruct (safe_run snap sc _ _ _ ops BN SP K N1 FP SF) as (a & l & R1). destruct (safe_run snap sc _ _ _ ops BN SP K N2 FP SF) as (b & l' & R2).
  pose proof (silent snap sc _ _ _ _ _ _ ops N1 N2 FP ltac:(lia) NC) as S. rewrite R1, R2 in S. destruct S as [<- _].
  destruct (calm_close snap sc _ _ _ ops a l ord BN SP K N1 FP R1) as (a' & E1). destruct (calm_close snap sc _ _ _ ops b l ord BN SP K N2 FP R2) as (b' & E2).
  exists a', b', (l ++ [AUnit]). rewrite (run_snoc _ _ _ _ _ _ _ R1), (run_snoc _ _ _ _ _ _ _ R2), E1, E2. auto.
Qed.
