(** The causes of panics in a release build on any disk, with any compressor (C73). *)
From Verif Require Export PMap SCause.
Ltac Zify.zify_post_hook ::= idtac.
Open Scope list_scope. Open Scope Z_scope.

(** ** Outcomes with a condition on results and on panics *)
Definition tri {A} (P : panic -> Prop) (Q : A -> Prop) (o : outcome A) : Prop := match o with Ret a => Q a | Panic q => P q end.
Lemma tri_bind : forall A B P (Q : A -> Prop) (R : B -> Prop) m f, tri P Q m -> (forall a, Q a -> tri P R (f a)) -> tri P R (bind m f).
Proof. intros A B P Q R [a|q] f H K; cbn [bind tri] in *; auto. Qed.
Lemma tri_weak : forall A (P P' : panic -> Prop) (Q Q' : A -> Prop) o, tri P Q o -> (forall q, P q -> P' q) -> (forall a, Q a -> Q' a) -> tri P' Q' o.
Proof. intros A P P' Q Q' [a|q] H K L; cbn [tri] in *; auto. Qed.
Definition never (q : panic) : Prop := False.
Definition any {A} (a : A) : Prop := True.
Lemma tri_never : forall A P (Q : A -> Prop) o, tri never Q o -> tri P Q o.
Proof. intros A P Q o H. eapply tri_weak; eauto. intros q []. Qed.
Lemma arithU_tri : forall P n v, tri P any (arithU Release n v).
Proof. intros. unfold arithU. destruct (_ && _)%bool; exact I. Qed.
Lemma arithS_tri : forall P n v, tri P any (arithS Release n v).
Proof. intros. unfold arithS. destruct (_ && _)%bool; exact I. Qed.

(** ** The delta encoder never panics *)
Lemma resize_length : forall l n, length (vec_resize l n) = n.
Proof. intros. unfold vec_resize. rewrite app_length, firstn_length, repeat_length. lia. Qed.
Lemma set_length : forall A (l : list A) i x, length (vec_set l i x) = length l.
Proof. induction l as [|y l IH]; intros [|i] x; cbn; auto. Qed.
Lemma get_tri : forall A P (l : list A) i, (i < length l)%nat -> tri P any (vec_get l i).
Proof. intros A P l i H. unfold vec_get. destruct (nth_error l i) eqn:E; [exact I|]. apply nth_error_None in E. lia. Qed.
Definition filled (pos : Z) (r : list byte) : Prop := pos < 8 * Z.of_nat (length r) + 8.
Lemma long_tri : forall P f n r c i w, 0 <= c < 8 -> (i <= length r)%nat -> 0 <= w <= Z.of_nat f ->
  tri P (filled (8 * Z.of_nat i + c + w)) (to_bytes_long_loop f n r c i w).
Proof.
  intros P f. induction f as [|f IH]; intros n r c i w C I W; cbn [to_bytes_long_loop]; destruct (Z.gtb_spec w 0) as [G|G].
  - lia.
  - cbn [tri]. red. lia.
  - destruct (Nat.leb_spec i (length r)) as [_|X]; [|lia]. eapply tri_bind; [apply get_tri; rewrite resize_length; lia|]. intros cur _.
    set (m := if w + c >=? 8 then 8 - c else w). assert (M : 1 <= m <= w /\ c + m <= 8) by (unfold m; destruct (Z.geb_spec (w + c) 8); lia).
    destruct (Z.eqb_spec (c + m) 8) as [E|E].
    + replace (8 * Z.of_nat i + c + w) with (8 * Z.of_nat (S i) + 0 + (w - m)) by lia. apply IH; try lia. rewrite set_length, resize_length. lia.
    + replace (8 * Z.of_nat i + c + w) with (8 * Z.of_nat i + (c + m) + (w - m)) by lia. apply IH; try lia. rewrite set_length, resize_length. lia.
  - cbn [tri]. red. lia.
Qed.
Lemma int_tri : forall P f n r c i w, 0 <= c < 8 -> (i <= length r)%nat -> 0 <= w <= Z.of_nat f ->
  tri P (filled (8 * Z.of_nat i + c + w)) (to_bytes_int_loop f n r c i w).
Proof.
  intros P f. induction f as [|f IH]; intros n r c i w C I W; cbn [to_bytes_int_loop]; destruct (Z.gtb_spec w 0) as [G|G].
  - lia.
  - cbn [tri]. red. lia.
  - destruct (Nat.leb_spec i (length r)) as [_|X]; [|lia]. eapply tri_bind; [apply get_tri; rewrite resize_length; lia|]. intros cur _.
    set (m := if w + c >=? 8 then 8 - c else w). assert (M : 1 <= m <= w /\ c + m <= 8) by (unfold m; destruct (Z.geb_spec (w + c) 8); lia).
    destruct (Z.eqb_spec (c + m) 8) as [E|E].
    + replace (8 * Z.of_nat i + c + w) with (8 * Z.of_nat (S i) + 0 + (w - m)) by lia. apply IH; try lia. rewrite set_length, resize_length. lia.
    + replace (8 * Z.of_nat i + c + w) with (8 * Z.of_nat i + (c + m) + (w - m)) by lia. apply IH; try lia. rewrite set_length, resize_length. lia.
  - cbn [tri]. red. lia.
Qed.
Lemma pos_split : forall pos, 0 <= pos -> 0 <= Z.land pos 7 < 8 /\ 0 <= Z.shiftr pos 3 /\ 8 * Z.shiftr pos 3 + Z.land pos 7 = pos.
Proof.
  intros pos H. change 7 with (Z.ones 3). rewrite Z.land_ones, Z.shiftr_div_pow2 by lia. change (2 ^ 3) with 8.
  pose proof (Z.mod_pos_bound pos 8 ltac:(lia)). pose proof (Z.div_mod pos 8 ltac:(lia)). pose proof (Z.div_pos pos 8 H ltac:(lia)). lia.
Qed.
Lemma to_bytes_tri : forall P k v r pos w, 0 <= pos -> 0 <= w < 256 -> filled pos r -> tri P (filled (pos + w)) (to_bytes k v r pos w).
Proof.
  intros P k v r pos w HP W F. destruct (pos_split pos HP) as (A & B & C). unfold filled in F.
  assert (E : pos + w = 8 * Z.of_nat (Z.to_nat (Z.shiftr pos 3)) + Z.land pos 7 + w) by (rewrite Z2Nat.id; lia).
  assert (U : wrapU 8 w = w) by (unfold wrapU; apply Z.mod_small; change (2 ^ 8) with 256; lia).
  rewrite E. destruct k; unfold to_bytes, to_bytes_long, to_bytes_int; rewrite U; [apply long_tri|apply int_tri]; lia.
Qed.
Lemma pack_tri : forall P k w, 0 <= w < 256 -> forall l i r, 0 <= i -> filled (i * w) r -> tri P any (pack_loop k w i l r).
Proof.
  intros P k w W l. induction l as [|v l IH]; intros i r I F; cbn [pack_loop]; [exact Logic.I|].
  eapply tri_bind; [apply to_bytes_tri; [nia|exact W|exact F]|]. intros r' F'. apply IH; [lia|]. replace ((i + 1) * w) with (i * w + w) by ring. exact F'.
Qed.
Lemma width_bound : forall k l, 0 <= calc_width k l < 256.
Proof.
  intros k l. unfold calc_width. assert (G : forall l w, 0 <= w < 256 -> 0 <= fold_left (fun w v => Z.max w (get_value_width k v)) l w < 256); [|apply G; lia].
  clear l. induction l as [|v l IH]; intros w W; cbn [fold_left]; auto. apply IH.
  assert (0 <= get_value_width k v <= 64); [|lia]. unfold get_value_width. destruct (Z.eqb_spec (wrapU (kbits k) v) 0) as [|N]; [lia|].
  assert (B : 0 <= wrapU (kbits k) v < 2 ^ kbits k) by (unfold wrapU; apply Z.mod_pos_bound; destruct k; reflexivity).
  pose proof (Z.log2_nonneg (wrapU (kbits k) v)). assert (Z.log2 (wrapU (kbits k) v) < kbits k) by (apply Z.log2_lt_pow2; lia). destruct k; cbn [kbits] in *; lia.
Qed.
Lemma mapM_tri : forall A B P (f : A -> outcome B) l, (forall a, tri P any (f a)) -> tri P any (mapM f l).
Proof. intros A B P f l H. induction l as [|a l IH]; cbn [mapM]; [exact I|]. eapply tri_bind; [apply H|]. intros b _. eapply tri_bind; [exact IH|]. intros; exact I. Qed.
Lemma flush_tri : forall P k e, tri P any (ts2_flush Release k e).
Proof.
  intros. unfold ts2_flush. destruct (t_first e); [|exact I]. eapply tri_bind; [apply mapM_tri; intros; apply arithS_tri|]. intros ds _.
  eapply tri_bind; [apply pack_tri; [apply width_bound|lia|unfold filled; cbn; lia]|]. intros; exact I.
Qed.
Lemma ts2_write_tri : forall P k v e, tri P any (ts2_write Release k v e).
Proof.
  intros. unfold ts2_write. eapply tri_bind with (Q := any).
  - destruct (t_first e); [|exact I]. eapply tri_bind; [apply arithS_tri|]. intros; exact I.
  - intros e' _. destruct (_ =? _); [apply flush_tri|exact I].
Qed.
Lemma encoder_write_tri : forall P v e, tri P any (encoder_write Release v e).
Proof. intros P v [dt b|k t]; cbn [encoder_write]; [exact I|]. destruct (as_kind k v); [|exact I]. eapply tri_bind; [apply ts2_write_tri|]. intros; exact I. Qed.
Lemma serialize_tri : forall P k e, tri P any (ts2_serialize Release k e).
Proof. intros. unfold ts2_serialize. eapply tri_bind; [apply flush_tri|]. intros; exact I. Qed.
Lemma encoder_serialize_tri : forall P e, tri P any (encoder_serialize Release e).
Proof. intros P [dt b|k t]; cbn [encoder_serialize]; [exact I|]. eapply tri_bind; [apply serialize_tri|]. intros; exact I. Qed.

(** ** Statistics *)
Definition stats_of (dt : dtype) (s : stats) : Prop := st_type s = dt /\ match dt, st_sum s with INT32, SumI _ => True | INT64, SumF _ => True | FLOAT, SumF _ => True | _, _ => False end.
Lemma stats_new_of : forall dt, stats_of dt (stats_new dt).
Proof. intros []; split; reflexivity || exact I. Qed.
Lemma raw_tri : forall P dt t v s, stats_of dt s -> tri P (stats_of dt) (stats_update_raw Release t v s).
Proof.
  intros P dt t v s [T S]. unfold stats_update_raw. rewrite T. destruct (if t <? _ then _ else _) as [tf fv]. destruct (if t >? _ then _ else _) as [tl lv].
  eapply tri_bind; [apply arithU_tri|]. intros c _. destruct (st_sum s); destruct dt; try contradiction; cbn [val_to_sum sum_add].
  - eapply tri_bind with (Q := fun sm => exists z, sm = SumI z); [eapply tri_bind; [apply arithS_tri|]; intros zz _; cbn [tri]; eauto|]. intros ? [ww ->]. split; [reflexivity|exact I].
  - cbn [bind tri]. split; [reflexivity|exact I].
  - cbn [bind tri]. split; [reflexivity|exact I].
Qed.
Lemma update_tri : forall (P : panic -> Prop) dt t v s, stats_of dt s -> (~ kept_by dt v -> P PTodo) -> tri P (stats_of dt) (stats_update Release t v s).
Proof.
  intros P dt t v s S H. unfold stats_update. rewrite (proj1 S). destruct dt, v; cbn [kept_by] in H; try (apply raw_tri; exact S); cbn [tri]; tauto.
Qed.
Lemma merge_tri : forall P dt s o, stats_of dt s -> stats_of dt o -> tri P (stats_of dt) (stats_merge Release s o).
Proof.
  intros P dt s o [T S] [T' S']. unfold stats_merge. rewrite T, T'. replace (dtype_eqb dt dt) with true by (destruct dt; reflexivity).
  destruct (if st_ts_first o <? _ then _ else _) as [tf fv]. destruct (if st_ts_last o >? _ then _ else _) as [tl lv].
  eapply tri_bind; [apply arithU_tri|]. intros c _. destruct (st_sum s), (st_sum o); destruct dt; try contradiction; cbn [sum_add].
  - eapply tri_bind with (Q := fun sm => exists z, sm = SumI z); [eapply tri_bind; [apply arithS_tri|]; intros zz _; cbn [tri]; eauto|]. intros ? [ww ->]. split; [reflexivity|exact I].
  - cbn [bind tri]. split; [reflexivity|exact I].
  - cbn [bind tri]. split; [reflexivity|exact I].
Qed.

(** ** Pages and chunks *)
Definition page_fits (dt : dtype) (pw : page_writer) : Prop := pw_type pw = dt /\ stats_of dt (pw_stats pw).
Record chunk_of (m : str) (ms : mschema) (c : chunk_writer) : Prop := {
  co_id : cw_id c = m; co_type : cw_type c = ms_type ms; co_enc : cw_enc c = ms_enc ms; co_stats : stats_of (ms_type ms) (cw_stats c);
  co_page : forall pw, cw_page c = Some pw -> page_fits (ms_type ms) pw;
  co_pages : 0 <= cw_num_pages c < 2 ^ 32;
  co_first : cw_num_pages c = 1 -> cw_first_stats c <> None }.
Lemma chunk_new_of : forall m ms, chunk_of m ms (cw_new m (ms_type ms) (ms_comp ms) (ms_enc ms)).
Proof. intros m ms. constructor; cbn; auto; try discriminate; try lia. apply stats_new_of. Qed.
Lemma pw_write_tri : forall (P : panic -> Prop) dt t v pw, page_fits dt pw -> (~ kept_by dt v -> P PTodo) -> tri P (page_fits dt) (pw_write Release t v pw).
Proof.
  intros P dt t v pw [T S] H. unfold pw_write. eapply tri_bind; [apply ts2_write_tri|]. intros te _. eapply tri_bind; [apply encoder_write_tri|]. intros ve _.
  eapply tri_bind; [apply update_tri; eauto|]. intros st Hs. eapply tri_bind; [apply arithU_tri|]. intros n _. split; auto.
Qed.
Lemma prepare_tri : forall P dt pw, page_fits dt pw -> tri P (page_fits dt) (pw_prepare Release pw).
Proof. intros P dt pw [T S]. unfold pw_prepare. eapply tri_bind; [apply serialize_tri|]. intros rt _. eapply tri_bind; [apply encoder_serialize_tri|]. intros rv _. split; auto. Qed.
Lemma with_page_of : forall m ms pw c, chunk_of m ms c -> page_fits (ms_type ms) pw -> chunk_of m ms (cw_with_page (Some pw) c).
Proof. intros m ms pw c [A0 A B C D E F] H. constructor; cbn; auto. intros ? X. inversion X; subst; auto. Qed.
Lemma with_next_of : forall m ms n c, chunk_of m ms c -> chunk_of m ms (cw_with_next n c).
Proof. intros m ms n c [A0 A B C D E F]. constructor; cbn; auto. Qed.
Lemma reset_of : forall dt pw, page_fits dt pw -> page_fits dt (pw_reset pw).
Proof. intros dt pw [T S]. split; cbn; [exact T|]. rewrite T. apply stats_new_of. Qed.
Lemma write_page_tri : forall (P : panic -> Prop) snap m ms c, P PIndex -> chunk_of m ms c -> tri P (fun r => chunk_of m ms (fst r)) (write_page_to_buffer Release snap c).
Proof.
  intros P snap m ms c HP C. pose proof C as [A0 A B Cs D E F]. unfold write_page_to_buffer. destruct (cw_page c) as [pw0|] eqn:G; [|exact C].
  eapply tri_bind; [apply prepare_tri; apply D; reflexivity|]. intros pw Hp. cbv zeta.
  destruct (match cw_comp c with UNCOMPRESSED => _ | SNAPPY => _ end) as [[content csize]|]; [|cbn [tri fst]; apply with_page_of; auto].
  eapply tri_bind with (Q := fun bfs => cw_num_pages c = 0 -> snd (fst bfs) <> None).
  - destruct (Z.eqb_spec (cw_num_pages c) 0) as [N|N]; [cbn [tri fst snd]; intros _; discriminate|].
    destruct (Z.eqb_spec (cw_num_pages c) 1) as [N1|N1]; [|cbn [tri]; intros; contradiction].
    destruct (_ <=? _); [|exact HP]. destruct (cw_first_stats c); [cbn [tri]; intros; contradiction|]. exfalso. apply F; auto.
  - intros [[buffer fstats] swo] HF. cbn [fst snd] in HF. eapply tri_bind with (Q := fun np => 0 <= np < 2 ^ 32 /\ (np = 1 -> cw_num_pages c = 0)).
    + unfold arithU. destruct (_ && _)%bool eqn:X; cbn [tri]; [lia|]. unfold wrapU. assert (cw_num_pages c = 2 ^ 32 - 1) as -> by lia. split; [lia|]. intros Y. vm_compute in Y. discriminate.
    + intros np [N1 N2]. eapply tri_bind; [apply merge_tri; [exact Cs|apply Hp]|]. intros st Hs. cbn [tri fst]. constructor; cbn; auto.
      intros pw1 X. inversion X; subst. apply (reset_of _ {| pw_time := pw_time pw; pw_value := pw_value pw; pw_type := pw_type pw; pw_stats := pw_stats pw; pw_points := pw_points pw; pw_buffer := [] |}). exact Hp.
Qed.
Lemma estimate_tri : forall P pw, tri P any (pw_estimate Release pw).
Proof. intros. unfold pw_estimate. eapply tri_bind; [apply arithU_tri|]. intros ? _. eapply tri_bind; [apply arithU_tri|]. intros ? _. apply arithU_tri. Qed.
Lemma check_page_tri : forall (P : panic -> Prop) snap m ms c, P PIndex -> chunk_of m ms c -> tri P (chunk_of m ms) (check_page_size Release snap c).
Proof.
  intros P snap m ms c HP C. unfold check_page_size. destruct (cw_page c) as [pw|] eqn:G; [|exact C]. destruct (_ >? _).
  - eapply tri_bind; [apply write_page_tri; eauto|]. intros r H. exact H.
  - destruct (_ >=? _); [|exact C]. eapply tri_bind; [apply estimate_tri|]. intros size _. destruct (_ >? _).
    + eapply tri_bind; [apply write_page_tri; eauto|]. intros r H. apply with_next_of. exact H.
    + apply with_next_of. exact C.
Qed.
Lemma cw_write_tri : forall (P : panic -> Prop) snap t v m ms c, P PIndex -> (~ kept_by (ms_type ms) v -> P PTodo) -> chunk_of m ms c ->
  tri P (fun r => match r with inl c' => chunk_of m ms c' | inr _ => ~ has_encoder ms end) (cw_write Release snap t v c).
Proof.
  intros P snap t v m ms c HP HT C. unfold cw_write.
  assert (G : match match cw_page c with Some pw => inl pw | None => pw_new (cw_type c) (cw_enc c) end with inl pw => page_fits (ms_type ms) pw | inr _ => ~ has_encoder ms end).
  { destruct (cw_page c) as [pw|] eqn:E; [apply (co_page _ _ _ C); exact E|]. rewrite (co_type _ _ _ C), (co_enc _ _ _ C). unfold pw_new, encoder_new, has_encoder.
    destruct (ms_type ms), (ms_enc ms); try (split; [reflexivity|apply stats_new_of]). intros X. apply X. split; reflexivity. }
  destruct (match cw_page c with Some pw => inl pw | None => pw_new (cw_type c) (cw_enc c) end) as [pw|err]; [|exact G].
  eapply tri_bind; [apply pw_write_tri; eauto|]. intros pw' Hp. eapply tri_bind; [apply check_page_tri; [exact HP|apply with_page_of; eauto]|]. intros c' H. exact H.
Qed.
Lemma seal_tri : forall (P : panic -> Prop) snap m ms c, P PIndex -> chunk_of m ms c -> tri P (chunk_of m ms) (seal_current_page Release snap c).
Proof.
  intros P snap m ms c HP C. unfold seal_current_page. destruct (cw_page c); [|exact C]. destruct (_ >? _); [|exact C].
  eapply tri_bind; [apply write_page_tri; eauto|]. intros r H. exact H.
Qed.
Lemma to_file_tri : forall (P : panic -> Prop) snap m ms c io, P PIndex -> chunk_of m ms c -> tri P (fun r => chunk_of m ms (fst r)) (write_to_file_writer Release snap c io).
Proof.
  intros P snap m ms c io HP C. unfold write_to_file_writer. eapply tri_bind; [apply seal_tri; eauto|]. intros c1 C1.
  eapply tri_bind with (Q := any).
  - unfold write_all_pages. destruct (_ =? _); exact I.
  - intros io1 _. destruct C1 as [A0 A B Cs D E F]. cbn [tri fst]. constructor; cbn; auto; try lia. rewrite A. apply stats_new_of.
Qed.

(** ** Groups *)
Definition chunks_of (sc : schema) (d : str) (cs : smap chunk_writer) : Prop := forall m c, In (m, c) cs -> exists ms, declares sc d m ms /\ chunk_of m ms c.
Definition group_writers_of (sc : schema) (gs : smap group_writer) : Prop := forall d g, In (d, g) gs -> chunks_of sc d (gw_chunks g).
Lemma insert_in : forall V k (v : V) m x y, In (x, y) (sm_insert k v m) -> (x = k /\ y = v) \/ In (x, y) m.
Proof.
  intros V k v m. induction m as [|[k' v'] m IH]; intros x y H; cbn [sm_insert] in H.
  - destruct H as [H|[]]. inversion H; auto.
  - destruct (str_cmp k k') eqn:Q; cbn [In] in *.
    + apply str_cmp_eq in Q. subst k'. destruct H as [H|H]; [inversion H; subst; left; auto|right; right; exact H].
    + destruct H as [H|H]; [inversion H; subst; left; auto|right; exact H].
    + destruct H as [H|H]; [auto|]. apply IH in H. tauto.
Qed.
Lemma of_list_in : forall V (l : list (str * V)) x y, In (x, y) (sm_of_list l) -> In (x, y) l.
Proof. intros V l x y H. apply (in_sm_get _ _ _ _ (sm_of_list_sorted _ l)) in H. rewrite sm_get_of_list in H. apply sm_get_in in H. apply in_rev. exact H. Qed.
Lemma groups_new_of : forall sc, group_writers_of sc (groups_of sc).
Proof.
  intros sc d g H m c K. apply of_list_in in H. apply in_map_iff in H. destruct H as ([d' mg] & E & H). inversion E; subst. cbn [gw_chunks group_of snd] in K.
  apply of_list_in in K. apply in_map_iff in K. destruct K as ([m' ms] & E' & K). inversion E'; subst. exists ms. split; [exists mg; auto|]. apply chunk_new_of.
Qed.
Definition noted (P : panic -> Prop) (sc : schema) (d : str) (m : str) (v : value) : Prop := P PIndex /\ forall q, point_cause sc d m v q -> P q.
Lemma gw_write_tri : forall P snap sc d m t v g, noted P sc d m v -> chunks_of sc d (gw_chunks g) -> tri P (fun r => chunks_of sc d (gw_chunks (fst r))) (gw_write Release snap m t v g).
Proof.
  intros P snap sc d m t v g [HP HN] C. unfold gw_write. destruct (check_is_history_data m t (gw_last g)) as [last [|]]; [|exact C].
  destruct (sm_get m (gw_chunks g)) as [c|] eqn:G; [|exact C]. destruct (C m c (sm_get_in _ _ _ _ G)) as (ms & D & K).
  eapply tri_bind; [apply (cw_write_tri P snap t v m ms c HP); [|exact K]|].
  - intros X. apply HN. exists ms. auto.
  - intros [c'|err] H; cbn [tri].
    + intros m1 c1 X. cbn [gw_chunks fst] in X. apply insert_in in X. destruct X as [[-> ->]|X]; [exists ms; auto|apply C; exact X].
    + apply HN. exists ms. auto.
Qed.
Lemma gw_many_tri : forall P snap sc d t vs n g, Forall (fun mv => noted P sc d (fst mv) (snd mv)) vs -> chunks_of sc d (gw_chunks g) ->
  tri P (fun r => chunks_of sc d (gw_chunks (fst r))) (gw_write_many Release snap t vs n g).
Proof.
  intros P snap sc d t vs. induction vs as [|[m v] vs IH]; intros n g F C; cbn [gw_write_many]; [exact C|]. inversion F; subst.
  eapply tri_bind; [eapply gw_write_tri; eauto|]. intros [g' [e|]] H; cbn [fst] in H; [exact H|]. eapply tri_bind; [apply arithU_tri|]. intros n' _. apply IH; auto.
Qed.
Lemma seal_all_tri : forall (P : panic -> Prop) snap sc d cs, P PIndex -> chunks_of sc d cs -> tri P (chunks_of sc d) (seal_all_chunks Release snap cs).
Proof.
  intros P snap sc d cs HP. unfold seal_all_chunks. induction cs as [|[m c] cs IH]; intros C; cbn [sm_mapM]; [exact C|].
  destruct (C m c (or_introl eq_refl)) as (ms & D & K). eapply tri_bind; [apply seal_tri; eauto|]. intros c' K'.
  eapply tri_bind; [apply IH; intros m1 c1 X; apply C; right; exact X|]. intros cs' K2 m1 c1 [X|X]; [inversion X; subst; eauto|apply K2; exact X].
Qed.
Lemma flush_chunks_tri : forall (P : panic -> Prop) snap sc d cs io, P PIndex -> chunks_of sc d cs -> tri P (fun r => chunks_of sc d (fst r)) (flush_chunks Release snap cs io).
Proof.
  intros P snap sc d cs io HP. revert io. induction cs as [|[m c] cs IH]; intros io C; cbn [flush_chunks]; [exact C|].
  destruct (C m c (or_introl eq_refl)) as (ms & D & K). eapply tri_bind; [apply to_file_tri; eauto|]. intros [c' io1] K'. cbn [fst] in K'.
  eapply tri_bind; [apply IH; intros m1 c1 X; apply C; right; exact X|]. intros r K2 m1 c1 [X|X]; [inversion X; subst; eauto|apply K2; exact X].
Qed.
Lemma flush_groups_tri : forall (P : panic -> Prop) snap sc gs io, P PIndex -> group_writers_of sc gs -> tri P (fun r => group_writers_of sc (fst (fst r))) (flush_groups Release snap gs io).
Proof.
  intros P snap sc gs io HP. revert io. induction gs as [|[d g] gs IH]; intros io G; cbn [flush_groups]; [exact G|].
  assert (G' : group_writers_of sc gs) by (intros d1 g1 X; apply G; right; exact X).
  assert (J : forall g', chunks_of sc d (gw_chunks g') -> forall gs', group_writers_of sc gs' -> group_writers_of sc ((d, g') :: gs')).
  { intros g' C gs' K d1 g1 [X|X]; [inversion X; subst; exact C|apply K; exact X]. }
  destruct (start_chunk_group d io) as [io1 [|]]; [|exact G]. eapply tri_bind with (Q := fun r => chunks_of sc d (gw_chunks (fst (fst r)))).
  - unfold flush_to_filewriter. eapply tri_bind; [apply seal_all_tri; [exact HP|apply G; left; reflexivity]|]. intros cs C. eapply tri_bind; [apply flush_chunks_tri; eauto|]. intros r K. exact K.
  - intros [[g' io2] size] K. cbn [fst] in K. destruct (negb _); [apply J; auto|]. eapply tri_bind; [apply IH; exact G'|]. intros [[gs2 io3] e] K2. apply J; auto.
Qed.

(** ** The writer *)
Definition writer_of (sc : schema) (w : writer) : Prop := w_schema w = sc /\ group_writers_of sc (w_groups w).
Lemma flush_all_tri : forall (P : panic -> Prop) snap sc w, P PIndex -> writer_of sc w -> tri P (fun r => writer_of sc (fst r)) (flush_all Release snap w).
Proof.
  intros P snap sc w HP [S G]. unfold flush_all. destruct (_ >? _); [|split; auto]. eapply tri_bind; [apply flush_groups_tri; eauto|].
  intros [[gs io] [e|]] K; split; cbn; auto. rewrite S. apply groups_new_of.
Qed.
Lemma foldM_tri : forall A B P (f : B -> A -> outcome B) l b, (forall b a, tri P any (f b a)) -> tri P any (foldM f l b).
Proof. intros A B P f l. induction l as [|a l IH]; intros b H; cbn [foldM]; [exact I|]. eapply tri_bind; [apply H|]. intros b' _. apply IH. exact H. Qed.
Lemma mem_tri : forall P gs, tri P any (mem_size Release gs).
Proof.
  intros. unfold mem_size. apply foldM_tri. intros b [d g]. eapply tri_bind with (Q := any); [|intros; apply arithU_tri]. unfold gw_mem_size. apply foldM_tri. intros n [m c].
  eapply tri_bind with (Q := any); [|intros; apply arithU_tri]. unfold cw_estimate. cbn [snd]. destruct (cw_page c); [|exact I].
  eapply tri_bind; [apply estimate_tri|]. intros ? _. eapply tri_bind; [apply arithU_tri|]. intros ? _. eapply tri_bind; [apply arithU_tri|]. intros ? _. apply arithU_tri.
Qed.
Lemma check_memory_tri : forall (P : panic -> Prop) snap sc w, P PIndex -> P PDivZero -> writer_of sc w -> tri P (writer_of sc) (check_memory Release snap w).
Proof.
  intros P snap sc w HP HD W. unfold check_memory. destruct (_ >=? _); [|exact W]. eapply tri_bind; [apply mem_tri|]. intros mem _. destruct (mem =? 0); [exact HD|].
  destruct (_ >? _); [|exact W]. eapply tri_bind; [apply flush_all_tri; [exact HP|exact W]|]. intros r K. exact K.
Qed.
Lemma insert_of : forall sc d g w io r n s, writer_of sc w -> chunks_of sc d (gw_chunks g) -> s = w_schema w -> writer_of sc (mkW io (sm_insert d g (w_groups w)) r n s).
Proof. intros sc d g w io r n s [S G] C ->. split; [exact S|]. intros d1 g1 X. cbn [w_groups] in X. apply insert_in in X. destruct X as [[-> ->]|X]; [exact C|apply G; exact X]. Qed.
Lemma step_tri : forall snap sc w o, writer_of sc w -> (forall ord, o <> OpClose ord) -> tri (write_cause sc o) (fun r => writer_of sc (fst r)) (step Release snap w o).
Proof.
  intros snap sc w [d m t v|d t vs|ord] W N; cbn [step]; [| |exfalso; eapply N; reflexivity].
  - unfold writer_write. destruct (sm_get d (w_groups w)) as [g|] eqn:G; [|exact W]. pose proof (proj2 W d g (sm_get_in _ _ _ _ G)) as C.
    eapply tri_bind; [eapply gw_write_tri; [|exact C]|].
    + split; [right; right; reflexivity|]. intros q H. left. exact H.
    + intros [g' [e|]] K; cbn [fst] in K; [apply insert_of; auto|]. eapply tri_bind; [apply arithU_tri|]. intros rc _.
      eapply tri_bind; [apply (check_memory_tri _ snap sc); [right; right; reflexivity|right; left; reflexivity|]|].
      * apply insert_of; auto.
      * intros w' K'. exact K'.
  - unfold writer_write_many. destruct (sm_get d (w_groups w)) as [g|] eqn:G; [|exact W]. pose proof (proj2 W d g (sm_get_in _ _ _ _ G)) as C.
    eapply tri_bind; [eapply gw_many_tri; [|exact C]|].
    + apply Forall_forall. intros [m v] I. split; [right; right; reflexivity|]. intros q H. left. exists m, v. auto.
    + intros [g' [k|e]] K; cbn [fst] in K; [|apply insert_of; auto]. eapply tri_bind; [apply arithU_tri|]. intros rc _.
      eapply tri_bind; [apply (check_memory_tri _ snap sc); [right; right; reflexivity|right; left; reflexivity|]|].
      * apply insert_of; auto.
      * intros w' K'. exact K'.
Qed.
Lemma close_tri : forall snap sc w ord, writer_of sc w ->
  match step Release snap w (OpClose ord) with
  | Ret r => writer_of sc (fst r)
  | Panic q => flush_all Release snap w = Panic PIndex \/ exists w1 e, flush_all Release snap w = Ret (w1, e) /\ end_file Release ord (w_io w1) = Panic q
  end.
Proof.
  intros snap sc w ord W. cbn [step]. unfold writer_close. pose proof (flush_all_tri (fun q => q = PIndex) snap sc w eq_refl W) as T.
  destruct (flush_all Release snap w) as [[w1 e]|q]; cbn [bind tri fst] in *; [|subst q; auto]. destruct (end_file Release ord (w_io w1)) as [io|q] eqn:E; cbn [bind]; [exact T|]. right. eauto.
Qed.
Lemma run_of : forall snap sc ops w w' l, writer_of sc w -> run Release snap w ops = Ret (w', l) -> writer_of sc w'.
Proof.
  intros snap sc ops. induction ops as [|o ops IH]; intros w w' l W H; cbn [run] in H; [inversion H; subst; exact W|].
  destruct (step Release snap w o) as [[w1 a]|q] eqn:E; cbn [bind] in H; [|discriminate]. destruct (run Release snap w1 ops) as [[w2 l2]|q] eqn:R; cbn [bind fst snd] in H; [|discriminate].
  inversion H; subst. eapply IH; [|exact R]. destruct o as [d m t v|d t vs|ord].
  - pose proof (step_tri snap sc w (OpWrite d m t v) W) as T. rewrite E in T. apply T. discriminate.
  - pose proof (step_tri snap sc w (OpWriteMany d t vs) W) as T. rewrite E in T. apply T. discriminate.
  - pose proof (close_tri snap sc w ord W) as T. rewrite E in T. exact T.
Qed.
Lemma new_of : forall sc out out' w, writer_new sc out = (out', Some w) -> writer_of sc w.
Proof. intros sc out out' w H. unfold writer_new in H. destruct (io_new out) as [o [io|]]; inversion H; subst. split; [reflexivity|apply groups_new_of]. Qed.
Lemma write_causes : forall snap sc out out' w0 ops w l o q, writer_new sc out = (out', Some w0) -> run Release snap w0 ops = Ret (w, l) ->
  (forall ord, o <> OpClose ord) -> step Release snap w o = Panic q -> write_cause sc o q.
Proof. intros snap sc out out' w0 ops w l o q N R C H. pose proof (step_tri snap sc w o (run_of _ _ _ _ _ _ (new_of _ _ _ _ N) R) C) as T. rewrite H in T. exact T. Qed.
