(** With fewer than 7989 points per series no page is closed before its flush, and no flush panics (C73). *)
From Verif Require Export PCauseIo.
Ltac Zify.zify_post_hook ::= idtac.
Open Scope list_scope. Open Scope Z_scope.

Definition points_le (n : Z) (c : chunk_writer) : Prop := cw_next_check c = 7989 /\ forall pw, cw_page c = Some pw -> 0 <= pw_points pw <= n.
Definition quiet (n : Z) (c : chunk_writer) : Prop := points_le n c /\ cw_num_pages c = 0.
(** Sealed: one page and nothing after it, or no page. *)
Definition still (n : Z) (c : chunk_writer) : Prop := points_le n c /\ (cw_num_pages c = 0 \/ forall pw, cw_page c = Some pw -> pw_points pw = 0).
Lemma quiet_le : forall n k c, n <= k -> quiet n c -> quiet k c.
Proof. intros n k c L [[A B] C]. split; [split|]; auto. intros pw E. specialize (B pw E). lia. Qed.
Lemma quiet_new : forall n m ms, 0 <= n -> quiet n (cw_new m (ms_type ms) (ms_comp ms) (ms_enc ms)).
Proof. intros n m ms H. split; [split|]; cbn; auto; discriminate. Qed.
Lemma write_page_calm : forall snap m ms n c, 0 <= n -> chunk_of m ms c -> quiet n c -> tri never (fun r => chunk_of m ms (fst r) /\ still n (fst r)) (write_page_to_buffer Release snap c).
Proof.
  intros snap m ms n c HN C [[Q1 Q2] Q3]. pose proof C as [A0 A B Cs D E F]. unfold write_page_to_buffer. destruct (cw_page c) as [pw0|] eqn:G.
  2:{ cbn [tri fst]. split; [exact C|]. split; [split; [exact Q1|rewrite G; discriminate]|left; exact Q3]. }
  eapply tri_bind with (Q := fun pw => page_fits (ms_type ms) pw /\ pw_points pw = pw_points pw0).
  { unfold pw_prepare. eapply tri_bind; [apply serialize_tri|]. intros rt _. eapply tri_bind; [apply encoder_serialize_tri|]. intros rv _. cbn [tri pw_points]. split; [|reflexivity]. destruct (D pw0 eq_refl). split; auto. }
  intros pw [Hp Hn]. cbv zeta.
  destruct (match cw_comp c with UNCOMPRESSED => _ | SNAPPY => _ end) as [[content csize]|].
  2:{ cbn [tri fst]. split; [apply with_page_of; auto|]. split; [split; [exact Q1|]|left; exact Q3]. cbn. intros ? X. inversion X; subst. rewrite Hn. apply Q2. reflexivity. }
  rewrite Q3. cbn [Z.eqb bind]. eapply tri_bind with (Q := fun np => np = 1); [reflexivity|]. intros np ->.
  eapply tri_bind; [apply merge_tri; [exact Cs|apply Hp]|]. intros st Hs. cbn [tri fst]. split.
  - constructor; cbn; auto; try lia; try discriminate. intros pw1 X. inversion X; subst. destruct Hp as [P1 P2]. split; cbn; [exact P1|]. rewrite P1. apply stats_new_of.
  - split; [split; cbn; [exact Q1|]|right; cbn]; intros ? X; inversion X; subst; cbn; lia.
Qed.
Lemma cw_write_calm : forall (P : panic -> Prop) snap t v m ms n c, (~ kept_by (ms_type ms) v -> P PTodo) -> chunk_of m ms c -> quiet n c -> 0 <= n -> n + 1 < 7989 ->
  tri P (fun r => match r with inl c' => chunk_of m ms c' /\ quiet (n + 1) c' | inr _ => ~ has_encoder ms end) (cw_write Release snap t v c).
Proof.
  intros P snap t v m ms n c HT C [[Q1 Q2] Q3] HN HB. unfold cw_write.
  assert (G : match match cw_page c with Some pw => inl pw | None => pw_new (MChunk.cw_type c) (cw_enc c) end with inl pw => page_fits (ms_type ms) pw /\ 0 <= pw_points pw <= n | inr _ => ~ has_encoder ms end).
  { destruct (cw_page c) as [pw|] eqn:E; [split; [apply (co_page _ _ _ C); exact E|apply Q2; reflexivity]|]. rewrite (co_type _ _ _ C), (co_enc _ _ _ C). unfold pw_new, encoder_new, has_encoder.
    destruct (ms_type ms), (ms_enc ms); try (split; [split; [reflexivity|apply stats_new_of]|cbn; lia]). intros X. apply X. split; reflexivity. }
  destruct (match cw_page c with Some pw => inl pw | None => pw_new (MChunk.cw_type c) (cw_enc c) end) as [pw|err]; [|exact G]. destruct G as [G1 G2].
  eapply tri_bind with (Q := fun pw' => page_fits (ms_type ms) pw' /\ pw_points pw' = pw_points pw + 1).
  { destruct G1 as [T S]. unfold pw_write. eapply tri_bind; [apply ts2_write_tri|]. intros te _. eapply tri_bind; [apply encoder_write_tri|]. intros ve _. eapply tri_bind; [apply update_tri; eauto|]. intros st Hs.
    eapply tri_bind with (Q := fun k => k = pw_points pw + 1).
    - unfold arithU. replace ((0 <=? pw_points pw + 1) && (pw_points pw + 1 <? 2 ^ 32))%bool with true by (symmetry; apply andb_true_intro; split; [apply Z.leb_le|apply Z.ltb_lt]; lia). reflexivity.
    - intros k ->. split; [split; auto|reflexivity]. }
  intros pw' [H1 H2]. unfold check_page_size. cbn [cw_page cw_with_page cw_next_check]. rewrite H2, Q1. unfold MAX_NUMBER_OF_POINTS_IN_PAGE.
  destruct (Z.gtb_spec (pw_points pw + 1) 1048576); [lia|]. destruct (Z.geb_spec (pw_points pw + 1) 7989); [lia|]. cbn [bind tri].
  split; [apply with_page_of; auto|]. split; [split|]; cbn; auto. intros ? X. inversion X; subst. lia.
Qed.
Lemma seal_calm : forall snap m ms n c, 0 <= n -> chunk_of m ms c -> quiet n c -> tri never (fun c' => chunk_of m ms c' /\ still n c') (seal_current_page Release snap c).
Proof.
  intros snap m ms n c HN C Q. assert (X : still n c) by (destruct Q; split; auto). unfold seal_current_page. destruct (cw_page c); [|split; auto]. destruct (_ >? _); [|split; auto].
  eapply tri_bind; [apply write_page_calm; eauto|]. intros r H. exact H.
Qed.
Lemma still_seal : forall snap m ms n c, 0 <= n -> chunk_of m ms c -> still n c -> tri never (fun c' => chunk_of m ms c' /\ points_le n c') (seal_current_page Release snap c).
Proof.
  intros snap m ms n c HN C [S1 [S2|S2]].
  - eapply tri_weak; [apply (seal_calm snap m ms n c HN C); split; auto|auto|]. intros c' [A [B _]]. auto.
  - unfold seal_current_page. destruct (cw_page c) as [pw|] eqn:E; [|split; auto]. rewrite (S2 pw eq_refl). split; auto.
Qed.
Lemma to_file_calm : forall snap m ms n c io, 0 <= n -> chunk_of m ms c -> still n c -> tri never (fun r => chunk_of m ms (fst r) /\ quiet n (fst r)) (write_to_file_writer Release snap c io).
Proof.
  intros snap m ms n c io HN C Q. unfold write_to_file_writer. eapply tri_bind; [apply still_seal; eauto|]. intros c1 [C1 [P1 P2]].
  eapply tri_bind with (Q := any).
  - unfold write_all_pages. destruct (_ =? _); exact I.
  - intros io1 _. destruct C1 as [A0 A B Cs D E F]. cbn [tri fst]. split; [|split; [split|]; cbn; auto]. constructor; cbn; auto; try lia. rewrite A. apply stats_new_of.
Qed.

(** ** Groups and writer; [F] counts the points offered *)
Definition chunks_calm (sc : schema) (d : str) (f : str -> Z) (cs : smap chunk_writer) : Prop := forall m c, In (m, c) cs -> exists ms, declares sc d m ms /\ chunk_of m ms c /\ quiet (f m) c.
Definition chunks_still (sc : schema) (d : str) (f : str -> Z) (cs : smap chunk_writer) : Prop := forall m c, In (m, c) cs -> exists ms, declares sc d m ms /\ chunk_of m ms c /\ still (f m) c.
Definition groups_calm (sc : schema) (F : str -> str -> Z) (gs : smap group_writer) : Prop := forall d g, In (d, g) gs -> chunks_calm sc d (F d) (gw_chunks g).
Lemma chunks_calm_le : forall sc d f f' cs, (forall m, f m <= f' m) -> chunks_calm sc d f cs -> chunks_calm sc d f' cs.
Proof. intros sc d f f' cs L C m c I. destruct (C m c I) as (ms & A & B & Q). exists ms. split; auto. split; auto. eapply quiet_le; eauto. Qed.
Lemma groups_calm_le : forall sc F F' gs, (forall d m, F d m <= F' d m) -> groups_calm sc F gs -> groups_calm sc F' gs.
Proof. intros sc F F' gs L C d g I. eapply chunks_calm_le; [apply L|apply C; exact I]. Qed.
Lemma calm_of : forall sc d f cs, chunks_calm sc d f cs -> chunks_of sc d cs.
Proof. intros sc d f cs C m c I. destruct (C m c I) as (ms & A & B & _). eauto. Qed.
Lemma groups_new_calm : forall sc F, (forall d m, 0 <= F d m) -> groups_calm sc F (groups_of sc).
Proof.
  intros sc F HF d g H m c K. apply of_list_in in H. apply in_map_iff in H. destruct H as ([d' mg] & E & H). inversion E; subst. cbn [gw_chunks group_of snd] in K.
  apply of_list_in in K. apply in_map_iff in K. destruct K as ([m' ms] & E' & K). inversion E'; subst. exists ms. split; [exists mg; auto|]. split; [apply chunk_new_of|apply quiet_new; auto].
Qed.
Definition one (m x : str) : Z := if same_text x m then 1 else 0.
Lemma one_same : forall m, one m m = 1.
Proof. intros m. unfold one, same_text. destruct (list_eq_dec Z.eq_dec m m); congruence. Qed.
Lemma one_range : forall m x, 0 <= one m x.
Proof. intros m x. unfold one. destruct (same_text x m); lia. Qed.
Lemma gw_write_calm : forall (P : panic -> Prop) snap sc d m t v f g, (forall q, point_cause sc d m v q -> P q) -> (forall x, 0 <= f x) -> f m + 1 < 7989 -> chunks_calm sc d f (gw_chunks g) ->
  tri P (fun r => chunks_calm sc d (fun x => f x + one m x) (gw_chunks (fst r))) (gw_write Release snap m t v g).
Proof.
  intros P snap sc d m t v f g HN HF HB C. assert (C' : chunks_calm sc d (fun x => f x + one m x) (gw_chunks g)) by (eapply chunks_calm_le; [|exact C]; intros x; pose proof (one_range m x); lia).
  unfold gw_write. destruct (check_is_history_data m t (gw_last g)) as [last [|]]; [|exact C'].
  destruct (sm_get m (gw_chunks g)) as [c|] eqn:G; [|exact C']. destruct (C m c (sm_get_in _ _ _ _ G)) as (ms & D & K & Q).
  eapply tri_bind; [apply (cw_write_calm P snap t v m ms (f m) c); auto|].
  - intros X. apply HN. exists ms. auto.
  - intros [c'|err] H; cbn [tri].
    + intros m1 c1 X. cbn [gw_chunks fst] in X. apply insert_in in X. destruct X as [[-> ->]|X]; [|apply C'; exact X]. rewrite one_same. exists ms. tauto.
    + apply HN. exists ms. auto.
Qed.
Lemma filter_cons_one : forall m (mv : str * value) vs, zlen (filter (fun mv => same_text m (fst mv)) (mv :: vs)) = one (fst mv) m + zlen (filter (fun mv => same_text m (fst mv)) vs).
Proof. intros m mv vs. cbn [filter]. unfold one. destruct (same_text m (fst mv)); [rewrite zlen_cons; reflexivity|reflexivity]. Qed.
Lemma gw_many_calm : forall (P : panic -> Prop) snap sc d t vs n f g, (forall m v q, In (m, v) vs -> point_cause sc d m v q -> P q) -> (forall x, 0 <= f x) ->
  (forall x, f x + zlen (filter (fun mv => same_text x (fst mv)) vs) < 7989) -> chunks_calm sc d f (gw_chunks g) ->
  tri P (fun r => chunks_calm sc d (fun x => f x + zlen (filter (fun mv => same_text x (fst mv)) vs)) (gw_chunks (fst r))) (gw_write_many Release snap t vs n g).
Proof.
  intros P snap sc d t vs. induction vs as [|[m v] vs IH]; intros n f g HN HF HB C; cbn [gw_write_many].
  - cbn [tri fst]. eapply chunks_calm_le; [|exact C]. intros x. cbn [filter]. change (zlen (@nil (str * value))) with 0. lia.
  - assert (NN : forall x, 0 <= zlen (filter (fun mv : str * value => same_text x (fst mv)) vs)) by (intros; apply zlen_nonneg).
    eapply tri_bind; [apply (gw_write_calm P snap sc d m t v f g); auto|].
    + intros q X. apply (HN m v q); auto. left. auto.
    + pose proof (HB m) as X. rewrite filter_cons_one in X. cbn [fst] in X. rewrite one_same in X. specialize (NN m). lia.
    + intros [g' [e|]] K; cbn [fst] in K.
      * cbn [tri fst]. eapply chunks_calm_le; [|exact K]. intros x. cbn beta. rewrite filter_cons_one. cbn [fst]. specialize (NN x). lia.
      * eapply tri_bind; [apply arithU_tri|]. intros n' _. eapply tri_weak; [apply (IH n' (fun x => f x + one m x) g')|auto|].
        -- intros m1 v1 q X. apply HN. right. exact X.
        -- intros x. pose proof (one_range m x). specialize (HF x). lia.
        -- intros x. specialize (HB x). rewrite filter_cons_one in HB. cbn [fst] in HB. lia.
        -- exact K.
        -- intros r X. eapply chunks_calm_le; [|exact X]. intros x. cbn beta. rewrite filter_cons_one. cbn [fst]. lia.
Qed.
Lemma seal_all_calm : forall snap sc d f cs, (forall x, 0 <= f x) -> chunks_calm sc d f cs -> tri never (chunks_still sc d f) (seal_all_chunks Release snap cs).
Proof.
  intros snap sc d f cs HF. unfold seal_all_chunks. induction cs as [|[m c] cs IH]; intros C; cbn [sm_mapM]; [intros ? ? []|].
  destruct (C m c (or_introl eq_refl)) as (ms & D & K & Q). eapply tri_bind; [apply (seal_calm snap m ms (f m)); auto|]. intros c' K'.
  eapply tri_bind; [apply IH; intros m1 c1 X; apply C; right; exact X|]. intros cs' K2 m1 c1 [X|X]; [inversion X; subst; eauto|apply K2; exact X].
Qed.
Lemma flush_chunks_calm : forall snap sc d f cs io, (forall x, 0 <= f x) -> chunks_still sc d f cs -> tri never (fun r => chunks_calm sc d f (fst r)) (flush_chunks Release snap cs io).
Proof.
  intros snap sc d f cs io HF. revert io. induction cs as [|[m c] cs IH]; intros io C; cbn [flush_chunks]; [intros ? ? []|].
  destruct (C m c (or_introl eq_refl)) as (ms & D & K & Q). eapply tri_bind; [apply (to_file_calm snap m ms (f m)); auto|]. intros [c' io1] K'. cbn [fst] in K'.
  eapply tri_bind; [apply IH; intros m1 c1 X; apply C; right; exact X|]. intros r K2 m1 c1 [X|X]; [inversion X; subst; eauto|apply K2; exact X].
Qed.
Lemma flush_groups_calm : forall snap sc F gs io, (forall d m, 0 <= F d m) -> groups_calm sc F gs -> tri never (fun r => groups_calm sc F (fst (fst r))) (flush_groups Release snap gs io).
Proof.
  intros snap sc F gs io HF. revert io. induction gs as [|[d g] gs IH]; intros io G; cbn [flush_groups]; [exact G|].
  assert (G' : groups_calm sc F gs) by (intros d1 g1 X; apply G; right; exact X).
  assert (J : forall g', chunks_calm sc d (F d) (gw_chunks g') -> forall gs', groups_calm sc F gs' -> groups_calm sc F ((d, g') :: gs')).
  { intros g' C gs' K d1 g1 [X|X]; [inversion X; subst; exact C|apply K; exact X]. }
  destruct (start_chunk_group d io) as [io1 [|]]; [|exact G]. eapply tri_bind with (Q := fun r => chunks_calm sc d (F d) (gw_chunks (fst (fst r)))).
  - unfold flush_to_filewriter. eapply tri_bind; [apply seal_all_calm; [apply HF|apply G; left; reflexivity]|]. intros cs C. eapply tri_bind; [apply flush_chunks_calm; [apply HF|exact C]|]. intros r K. exact K.
  - intros [[g' io2] size] K. cbn [fst] in K. destruct (negb _); [apply J; auto|]. eapply tri_bind; [apply IH; exact G'|]. intros [[gs2 io3] e] K2. apply J; auto.
Qed.
Definition writer_calm (sc : schema) (F : str -> str -> Z) (w : writer) : Prop := w_schema w = sc /\ groups_calm sc F (w_groups w).
Lemma flush_all_calm : forall P snap sc F w, (forall d m, 0 <= F d m) -> writer_calm sc F w -> tri P (fun r => writer_calm sc F (fst r)) (flush_all Release snap w).
Proof.
  intros P snap sc F w HF [S G]. apply tri_never. unfold flush_all. destruct (_ >? _); [|split; auto]. eapply tri_bind; [apply flush_groups_calm; eauto|].
  intros [[gs io] [e|]] K; split; cbn; auto. rewrite S. apply groups_new_calm; auto.
Qed.
Lemma check_memory_calm : forall (P : panic -> Prop) snap sc F w, P PDivZero -> (forall d m, 0 <= F d m) -> writer_calm sc F w -> tri P (writer_calm sc F) (check_memory Release snap w).
Proof.
  intros P snap sc F w HD HF W. unfold check_memory. destruct (_ >=? _); [|exact W]. eapply tri_bind; [apply mem_tri|]. intros mem _. destruct (mem =? 0); [exact HD|].
  destruct (_ >? _); [|exact W]. eapply tri_bind; [apply flush_all_calm; [exact HF|exact W]|]. intros r K. exact K.
Qed.
Definition plus_op (F : str -> str -> Z) (o : op) (d m : str) : Z := F d m + offered_by d m o.
Lemma offered_by_nonneg : forall d m o, 0 <= offered_by d m o.
Proof. intros d m [d' m' t v|d' t vs|ord]; cbn [offered_by]; [destruct (_ && _)%bool; lia|destruct (same_text d d'); [apply zlen_nonneg|lia]|lia]. Qed.
Lemma plus_op_le : forall F o d m, F d m <= plus_op F o d m.
Proof. intros F o d m. unfold plus_op. pose proof (offered_by_nonneg d m o). lia. Qed.
Lemma same_text_refl : forall d, same_text d d = true.
Proof. intros d. unfold same_text. destruct (list_eq_dec Z.eq_dec d d); congruence. Qed.
Lemma insert_calm : forall sc F o d g w io r n s, writer_calm sc F w -> chunks_calm sc d (plus_op F o d) (gw_chunks g) -> s = w_schema w -> writer_calm sc (plus_op F o) (mkW io (sm_insert d g (w_groups w)) r n s).
Proof.
  intros sc F o d g w io r n s [S G] C ->. split; [exact S|]. intros d1 g1 X. cbn [w_groups] in X. apply insert_in in X. destruct X as [[-> ->]|X]; [exact C|].
  eapply chunks_calm_le; [apply plus_op_le|apply G; exact X].
Qed.
Lemma write_calm : forall snap sc F w o, (forall d m, 0 <= F d m) -> (forall d m, plus_op F o d m < 7989) -> writer_calm sc F w -> (forall ord, o <> OpClose ord) ->
  tri (calm_cause sc o) (fun r => writer_calm sc (plus_op F o) (fst r)) (step Release snap w o).
Proof.
  intros snap sc F w o HF HB W N.
  assert (HF' : forall d m, 0 <= plus_op F o d m) by (intros d m; pose proof (plus_op_le F o d m); pose proof (HF d m); lia).
  assert (W' : writer_calm sc (plus_op F o) w) by (destruct W as [S G]; split; [exact S|eapply groups_calm_le; [apply plus_op_le|exact G]]).
  destruct o as [d m t v|d t vs|ord]; cbn [step]; [| |exfalso; eapply N; reflexivity].
  - assert (EQ : forall x, plus_op F (OpWrite d m t v) d x = F d x + one m x) by (intros x; unfold plus_op; cbn [offered_by]; rewrite same_text_refl; reflexivity).
    unfold writer_write. destruct (sm_get d (w_groups w)) as [g|] eqn:G; [|exact W']. pose proof (proj2 W d g (sm_get_in _ _ _ _ G)) as C.
    eapply tri_bind; [apply (gw_write_calm _ snap sc d m t v (F d) g); [|apply HF| |exact C]|].
    + intros q H. left. exact H.
    + specialize (HB d m). rewrite EQ, one_same in HB. exact HB.
    + intros [g' e] K. cbn [fst] in K. assert (K' : chunks_calm sc d (plus_op F (OpWrite d m t v) d) (gw_chunks g')) by (eapply chunks_calm_le; [|exact K]; intros x; cbn beta; rewrite EQ; lia).
      destruct e; [apply insert_calm; auto|]. eapply tri_bind; [apply arithU_tri|]. intros rc _.
      eapply tri_bind; [apply (check_memory_calm _ snap sc (plus_op F (OpWrite d m t v))); [right; reflexivity|exact HF'|apply insert_calm; auto]|]. intros w2 K2. exact K2.
  - assert (EQ : forall x, plus_op F (OpWriteMany d t vs) d x = F d x + zlen (filter (fun mv => same_text x (fst mv)) vs)) by (intros x; unfold plus_op; cbn [offered_by]; rewrite same_text_refl; reflexivity).
    unfold writer_write_many. destruct (sm_get d (w_groups w)) as [g|] eqn:G; [|exact W']. pose proof (proj2 W d g (sm_get_in _ _ _ _ G)) as C.
    eapply tri_bind; [apply (gw_many_calm _ snap sc d t vs 0 (F d) g); [|apply HF| |exact C]|].
    + intros m v q I H. left. eauto.
    + intros x. specialize (HB d x). rewrite EQ in HB. exact HB.
    + intros [g' e] K. cbn [fst] in K. assert (K' : chunks_calm sc d (plus_op F (OpWriteMany d t vs) d) (gw_chunks g')) by (eapply chunks_calm_le; [|exact K]; intros x; cbn beta; rewrite EQ; lia).
      destruct e; [|apply insert_calm; auto]. eapply tri_bind; [apply arithU_tri|]. intros rc _.
      eapply tri_bind; [apply (check_memory_calm _ snap sc (plus_op F (OpWriteMany d t vs))); [right; reflexivity|exact HF'|apply insert_calm; auto]|]. intros w2 K2. exact K2.
Qed.
Lemma close_calm : forall snap sc F w ord, (forall d m, 0 <= F d m) -> writer_calm sc F w ->
  (exists w1 e, flush_all Release snap w = Ret (w1, e)) /\ forall r, step Release snap w (OpClose ord) = Ret r -> writer_calm sc F (fst r).
Proof.
  intros snap sc F w ord HF W. pose proof (flush_all_calm never snap sc F w HF W) as T. destruct (flush_all Release snap w) as [[w1 e]|q] eqn:E; [|destruct T]. split; [eauto|].
  intros r H. cbn [step] in H. unfold writer_close in H. rewrite E in H. cbn [bind fst] in H. destruct (end_file Release ord (w_io w1)); [|discriminate]. cbn [bind] in H. inversion H; subst. exact T.
Qed.
Lemma offered_cons : forall d m o ops, offered d m (o :: ops) = offered_by d m o + offered d m ops.
Proof. reflexivity. Qed.
Lemma offered_nonneg : forall d m ops, 0 <= offered d m ops.
Proof. intros d m ops. induction ops as [|o ops IH]; [reflexivity|]. rewrite offered_cons. pose proof (offered_by_nonneg d m o). lia. Qed.
Lemma run_calm : forall snap sc ops F w w' l, (forall d m, 0 <= F d m) -> (forall d m, F d m + offered d m ops < 7989) -> writer_calm sc F w -> run Release snap w ops = Ret (w', l) ->
  writer_calm sc (fun d m => F d m + offered d m ops) w'.
Proof.
  intros snap sc ops. induction ops as [|o ops IH]; intros F w w' l HF HB W H; cbn [run] in H.
  - inversion H; subst. destruct W as [S G]. split; [exact S|]. eapply groups_calm_le; [|exact G]. intros d m. cbn. lia.
  - apply bind_ret in H. destruct H as ([w1 a] & S & H). apply bind_ret in H. destruct H as ([w2 l2] & R & H). inversion H; subst. cbn [fst] in *.
    assert (HP : forall d m, 0 <= plus_op F o d m) by (intros d m; pose proof (plus_op_le F o d m); pose proof (HF d m); lia).
    assert (HL : forall d m, plus_op F o d m < 7989) by (intros d m; specialize (HB d m); rewrite offered_cons in HB; unfold plus_op; pose proof (offered_nonneg d m ops); lia).
    assert (W1 : writer_calm sc (plus_op F o) w1).
    { destruct o as [d m t v|d t vs|ord].
      - pose proof (write_calm snap sc F w (OpWrite d m t v) HF HL W) as T. rewrite S in T. apply T. discriminate.
      - pose proof (write_calm snap sc F w (OpWriteMany d t vs) HF HL W) as T. rewrite S in T. apply T. discriminate.
      - destruct (close_calm snap sc F w ord HF W) as [_ T]. specialize (T _ S). destruct T as [T1 T2]. split; [exact T1|]. eapply groups_calm_le; [apply plus_op_le|exact T2]. }
    apply (IH _ _ _ _ HP) in R; [|intros d m; specialize (HB d m); rewrite offered_cons in HB; unfold plus_op; lia|exact W1].
    destruct R as [R1 R2]. split; [exact R1|]. eapply groups_calm_le; [|exact R2]. intros d m. cbn beta. rewrite offered_cons. unfold plus_op. lia.
Qed.
Lemma new_calm : forall sc out out' w, writer_new sc out = (out', Some w) -> writer_calm sc (fun _ _ => 0) w.
Proof. intros sc out out' w H. unfold writer_new in H. destruct (io_new out) as [o [io|]]; inversion H; subst. split; [reflexivity|]. apply groups_new_calm. intros. lia. Qed.
Lemma offered_app : forall d m a b, offered d m (a ++ b) = offered d m a + offered d m b.
Proof. intros d m a b. induction a as [|o a IH]; [reflexivity|]. cbn [app]. rewrite !offered_cons, IH. lia. Qed.
Lemma offered_one : forall d m o, offered d m [o] = offered_by d m o.
Proof. intros. rewrite offered_cons. change (offered d m []) with 0. lia. Qed.
Lemma calm_write : forall snap sc out out' w0 ops w l o q, writer_new sc out = (out', Some w0) -> few_points (ops ++ [o]) -> run Release snap w0 ops = Ret (w, l) ->
  (forall ord, o <> OpClose ord) -> step Release snap w o = Panic q -> calm_cause sc o q.
Proof.
  intros snap sc out out' w0 ops w l o q N FP R C H.
  assert (B : forall d m, offered d m ops + offered_by d m o < 7989) by (intros d m; specialize (FP d m); rewrite offered_app, offered_one in FP; exact FP).
  assert (W : writer_calm sc (fun d m => 0 + offered d m ops) w).
  { apply (run_calm snap sc ops (fun _ _ => 0) w0 w l); auto; [intros; lia| |eapply new_calm; eauto]. intros d m. specialize (B d m). pose proof (offered_by_nonneg d m o). lia. }
  pose proof (write_calm snap sc (fun d m => 0 + offered d m ops) w o) as T. rewrite H in T.
  apply T; auto. intros d m. apply offered_nonneg.
Qed.
Lemma calm_close : forall snap sc out out' w0 ops w l ord, byte_names sc -> short_paths sc -> series_count sc <= 41 -> writer_new sc out = (out', Some w0) -> few_points ops ->
  run Release snap w0 ops = Ret (w, l) -> exists w', step Release snap w (OpClose ord) = Ret (w', AUnit).
Proof.
  intros snap sc out out' w0 ops w l ord BN SP K N FP R.
  assert (W : writer_calm sc (fun d m => 0 + offered d m ops) w) by (apply (run_calm snap sc ops (fun _ _ => 0) w0 w l); auto; [intros; lia|eapply new_calm; eauto]).
  destruct (close_calm snap sc _ w ord (fun d m => offered_nonneg d m ops) W) as [(w1 & e & F) _].
  destruct (run_state _ _ _ _ _ _ BN SP (new_state _ _ _ _ N) R) as [W2 J]. pose proof (end_file_io sc ord _ (flush_all_io _ _ _ _ W2 J F) BN SP) as X. cbn [fst] in X.
  cbn [step]. unfold writer_close. rewrite F. cbn [bind fst]. destruct (end_file Release ord (w_io w1)) as [io|q]; cbn [bind]; [eauto|]. exfalso. exact (few_sound sc K X).
Qed.
Lemma calm_causes : forall snap sc out out' w0 ops w l ord q, byte_names sc -> short_paths sc -> writer_new sc out = (out', Some w0) -> few_points ops -> run Release snap w0 ops = Ret (w, l) ->
  step Release snap w (OpClose ord) = Panic q ->
  exists paths devs, NoDup paths /\ NoDup devs /\ Forall (fun q => exists d m ms, declares sc d m ms /\ q = path_of d m) paths /\ Forall (dev_of sc) devs /\ (256 < zlen devs \/ ~ filter_fits paths).
Proof.
  intros snap sc out out' w0 ops w l ord q BN SP N FP R H. destruct (close_causes snap sc out out' w0 ops w l ord q BN SP N R H) as [T|X]; [|exact X]. exfalso.
  assert (W : writer_calm sc (fun d m => 0 + offered d m ops) w) by (apply (run_calm snap sc ops (fun _ _ => 0) w0 w l); auto; [intros; lia|eapply new_calm; eauto]).
  destruct (close_calm snap sc _ w ord (fun d m => offered_nonneg d m ops) W) as [(w1 & e & F) _]. congruence.
Qed.
