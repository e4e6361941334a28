(** Sinks: every write appends, positions count delivered bytes (C32, C33); a healthy sink delivers
    everything. *)
From Verif Require Export PFloat MWriter.
Ltac Zify.zify_post_hook ::= idtac.

Lemma pair_inj : forall A B (a c : A) (b d : B), (a, b) = (c, d) -> a = c /\ b = d.
Proof. intros A B a c b d H. inversion H. auto. Qed.
Ltac pinj := repeat match goal with Hx : (_, _) = (_, _) |- _ => apply pair_inj in Hx; destruct Hx end; subst.
(** invert [Ret a = Ret b] without simplifying [a] and [b] *)
Ltac cinj := repeat match goal with
  | X : Some _ = Some _ |- _ => injection X as X; subst
  | X : inl _ = inl _ |- _ => injection X as X; subst
  | X : inr _ = inr _ |- _ => injection X as X; subst
  | X : AErr _ = AErr _ |- _ => injection X as X; subst
  end.
Ltac rinj H := apply ret_inj in H; pinj; cinj.

(** [s'] was reached from [s] by delivering [l]. *)
Record sk_ext (s s' : sink) (l : list byte) : Prop := {
  se_data : sk_data s' = sk_data s ++ l;
  se_pos : sk_pos s' = sk_pos s + zlen l;
  se_sched : sk_sched s' = sk_sched s;
  se_calls : (sk_calls s <= sk_calls s')%nat }.
Definition sk_ge (s s' : sink) : Prop := exists l, sk_ext s s' l.

Lemma sk_ext_refl : forall s, sk_ext s s [].
Proof. intros. split; auto; [rewrite app_nil_r; auto|rewrite zlen_nil; lia]. Qed.
Lemma sk_ext_trans : forall a b c l m, sk_ext a b l -> sk_ext b c m -> sk_ext a c (l ++ m).
Proof.
  intros a b c l m [H1 H2 H3 H4] [G1 G2 G3 G4]. split.
  - rewrite G1, H1, app_assoc. auto.
  - rewrite G2, H2, zlen_app. lia.
  - congruence.
  - lia.
Qed.
Lemma sk_ge_refl : forall s, sk_ge s s.
Proof. intros. exists []. apply sk_ext_refl. Qed.
Lemma sk_ge_trans : forall a b c, sk_ge a b -> sk_ge b c -> sk_ge a c.
Proof. intros a b c [l H] [m G]. exists (l ++ m). eapply sk_ext_trans; eauto. Qed.

Lemma accept_ext : forall k buf s, (k <= length buf)%nat ->
  sk_ext s {| sk_rev := rev_append (firstn k buf) (sk_rev s); sk_pos := sk_pos s + Z.of_nat k;
              sk_calls := S (sk_calls s); sk_sched := sk_sched s |} (firstn k buf).
Proof.
  intros k buf s Hk. split; cbn [sk_pos sk_sched sk_calls]; auto.
  - unfold sk_data. cbn [sk_rev]. rewrite rev_append_rev, rev_app_distr, rev_involutive. auto.
  - unfold zlen. rewrite firstn_length. lia.
Qed.
Lemma sk_write_ext : forall buf s s' r, sk_write buf s = (s', r) ->
  sk_ext s s' (match r with Some k => firstn k buf | None => [] end) /\
  match r with Some k => (k <= length buf)%nat | None => True end.
Proof.
  intros buf s s' r H. unfold sk_write in H. destruct (sk_sched s (sk_calls s)).
  - inversion H; subst. split; auto. apply accept_ext. auto.
  - inversion H; subst. split; [|apply Nat.le_min_r]. apply accept_ext. apply Nat.le_min_r.
  - inversion H; subst. split; auto. split; cbn [sk_pos sk_sched sk_calls]; auto; [unfold sk_data; cbn [sk_rev]; rewrite app_nil_r; auto|rewrite zlen_nil; lia].
Qed.
(** on success everything was delivered *)
Lemma sk_write_all_loop_ext : forall f buf s s' ok, sk_write_all_loop f buf s = (s', ok) ->
  exists l, sk_ext s s' l /\ (exists tail, buf = l ++ tail) /\ (ok = true -> l = buf).
Proof.
  induction f; intros buf s s' ok H.
  - destruct buf; cbn in H; inversion H; subst; exists []; (split; [apply sk_ext_refl|]); (split; [eexists; reflexivity|]); auto; discriminate.
  - destruct buf as [|b buf]; [cbn in H; inversion H; subst; exists []; split; [apply sk_ext_refl|]; split; [eexists; reflexivity|auto]|].
    cbn [sk_write_all_loop] in H. destruct (sk_write (b :: buf) s) as [s1 [k|]] eqn:E.
    + pose proof (sk_write_ext _ _ _ _ E) as [X Hk]. destruct k as [|k].
      * inversion H; subst. exists []. cbn [firstn] in X. split; auto. split; [eexists; reflexivity|]. discriminate.
      * apply IHf in H. destruct H as (l & G1 & (tail & G2) & G3). exists (firstn (S k) (b :: buf) ++ l).
        split; [eapply sk_ext_trans; eauto|]. split.
        -- exists tail. rewrite <- app_assoc, <- G2. symmetry. apply firstn_skipn.
        -- intros T. rewrite (G3 T). apply firstn_skipn.
    + pose proof (sk_write_ext _ _ _ _ E) as [X _]. inversion H; subst. exists []. split; auto. split; [eexists; reflexivity|]. discriminate.
Qed.
Lemma wexec_ext : forall w s, sk_ge s (fst (wexec w s)).
Proof.
  induction w; intros s; cbn [wexec].
  - apply sk_ge_refl.
  - unfold sk_write_all. destruct (sk_write_all_loop (length bs) bs s) as [s' ok] eqn:E.
    apply sk_write_all_loop_ext in E. destruct E as (l & E & _). exists l. auto.
  - destruct (sk_write bs s) as [s' [k|]] eqn:E; apply sk_write_ext in E; destruct E as [E _]; eexists; exact E.
  - specialize (IHw1 s). destruct (wexec w1 s) as [s' [|]]; cbn [fst] in *; auto. eapply sk_ge_trans; eauto.
  - eapply sk_ge_trans; eauto.
Qed.
(** sinks that take everything from now on *)
Definition is_healthy (s : sink) : Prop := forall n, (sk_calls s <= n)%nat -> sk_sched s n = FFull.
Lemma healthy_new : is_healthy (sink_new healthy).
Proof. intros n _. reflexivity. Qed.
Lemma sk_write_healthy : forall buf s, is_healthy s ->
  exists s', sk_write buf s = (s', Some (length buf)) /\ sk_ext s s' buf.
Proof.
  intros buf s H. unfold sk_write. rewrite (H _ (le_n _)). eexists. split; [reflexivity|].
  pose proof (accept_ext (length buf) buf s (le_n _)) as X. rewrite firstn_all in X.
  rewrite firstn_all. exact X.
Qed.
Lemma sk_ext_healthy : forall s s' l, sk_ext s s' l -> is_healthy s -> is_healthy s'.
Proof. intros s s' l [_ _ H C] G n L. rewrite H. apply G. lia. Qed.
Lemma sk_write_all_healthy : forall buf s, is_healthy s ->
  exists s', sk_write_all buf s = (s', true) /\ sk_ext s s' buf.
Proof.
  intros buf s H. unfold sk_write_all. destruct buf as [|b buf].
  - exists s. split; auto. apply sk_ext_refl.
  - destruct (sk_write_healthy (b :: buf) s H) as (s' & E & X). exists s'. cbn [length sk_write_all_loop].
    rewrite E. cbn [length]. replace (skipn (S (length buf)) (b :: buf)) with (@nil byte) by (symmetry; apply skipn_all).
    split; [destruct (length buf); reflexivity|exact X].
Qed.
Lemma wexec_healthy : forall w s, is_healthy s -> exists s', wexec w s = (s', true) /\ sk_ext s s' (wbytes w).
Proof.
  induction w; intros s H; cbn [wexec wbytes].
  - exists s. split; auto. apply sk_ext_refl.
  - apply sk_write_all_healthy. auto.
  - destruct (sk_write_healthy bs s H) as (s' & E & X). exists s'. rewrite E. auto.
  - destruct (IHw1 s H) as (s1 & E1 & X1). destruct (IHw2 s1) as (s2 & E2 & X2); [eapply sk_ext_healthy; eauto|].
    exists s2. rewrite E1. split; auto. eapply sk_ext_trans; eauto.
  - destruct (IHw1 s H) as (s1 & E1 & X1). destruct (IHw2 s1) as (s2 & E2 & X2); [eapply sk_ext_healthy; eauto|].
    exists s2. rewrite E1. split; auto. eapply sk_ext_trans; eauto.
Qed.
Lemma wexec_healthy_fst : forall w s, is_healthy s -> sk_ext s (fst (wexec w s)) (wbytes w).
Proof. intros w s H. destruct (wexec_healthy w s H) as (s' & E & X). rewrite E. auto. Qed.

(** ** Any preorder on sinks that write sequences respect is respected by every function of the writer *)
Section Reach.
Variable R : sink -> sink -> Prop.
Hypothesis R_refl : forall s, R s s.
Hypothesis R_trans : forall a b c, R a b -> R b c -> R a c.
Hypothesis R_wexec : forall w s, R s (fst (wexec w s)).

Definition io_ge (a b : io_writer) : Prop := R (io_out a) (io_out b).
Lemma io_ge_refl : forall a, io_ge a a. Proof. intros. apply R_refl. Qed.
Lemma io_ge_trans : forall a b c, io_ge a b -> io_ge b c -> io_ge a c.
Proof. intros a b c. apply R_trans. Qed.

Lemma write_all_pages_ge : forall c w w', write_all_pages c w = Ret w' -> io_ge w w'.
Proof.
  intros c w w' H. unfold write_all_pages in H. destruct (st_count (cw_stats c) =? 0).
  - rinj H. apply io_ge_refl.
  - unfold end_current_chunk, io_with_out, start_flush_chunk in H. cbn [io_current io_out] in H.
    rinj H. unfold io_ge. cbn [io_out]. eapply R_trans; [apply R_wexec|apply R_wexec].
Qed.
Lemma write_to_file_ge : forall p snap c w c' w', write_to_file_writer p snap c w = Ret (c', w') -> io_ge w w'.
Proof.
  intros p snap c w c' w' H. unfold write_to_file_writer in H.
  apply bind_ret in H. destruct H as (c1 & _ & H). apply bind_ret in H. destruct H as (w1 & H1 & H).
  rinj H. eapply write_all_pages_ge; eauto.
Qed.
Lemma flush_chunks_ge : forall p snap cs w cs' w', flush_chunks p snap cs w = Ret (cs', w') -> io_ge w w'.
Proof.
  induction cs as [|[k c] cs IH]; intros w cs' w' H; cbn [flush_chunks] in H.
  - rinj H. apply io_ge_refl.
  - apply bind_ret in H. destruct H as ([c1 w1] & H1 & H). apply bind_ret in H. destruct H as ([cs2 w2] & H2 & H).
    rinj H. eapply io_ge_trans; [eapply write_to_file_ge; eauto|eapply IH; eauto].
Qed.
Lemma flush_to_ge : forall p snap g w g' w' n, flush_to_filewriter p snap g w = Ret (g', w', n) -> io_ge w w'.
Proof.
  intros p snap g w g' w' n H. unfold flush_to_filewriter in H. apply bind_ret in H. destruct H as (cs & _ & H).
  apply bind_ret in H. destruct H as ([cs2 w2] & H2 & H). rinj H. eapply flush_chunks_ge; eauto.
Qed.
Lemma start_group_ge : forall d w w' b, start_chunk_group d w = (w', b) -> io_ge w w'.
Proof.
  intros d w w' b H. unfold start_chunk_group in H. pose proof (R_wexec (chunk_group_header d) (io_out w)) as X.
  destruct (wexec (chunk_group_header d) (io_out w)) as [o [|]]; inversion H; subst; exact X.
Qed.
Lemma end_chunk_group_out : forall w, io_out (end_chunk_group w) = io_out w.
Proof. intros w. unfold end_chunk_group. destruct (io_device w), (io_chunks w); reflexivity. Qed.
Lemma flush_groups_ge : forall p snap gs io gs' io' e, flush_groups p snap gs io = Ret (gs', io', e) -> io_ge io io'.
Proof.
  induction gs as [|[d g] gs IH]; intros io gs' io' e H; cbn [flush_groups] in H.
  - rinj H. apply io_ge_refl.
  - destruct (start_chunk_group d io) as [io1 [|]] eqn:E1.
    + apply bind_ret in H. destruct H as ([[g2 io2] n] & H2 & H).
      assert (G : io_ge io io2) by (eapply io_ge_trans; [eapply start_group_ge; eauto|eapply flush_to_ge; eauto]).
      destruct (negb _).
      * rinj H. auto.
      * apply bind_ret in H. destruct H as ([[gs3 io3] e3] & H3 & H). rinj H.
        apply IH in H3. eapply io_ge_trans; [exact G|]. unfold io_ge in *. rewrite end_chunk_group_out in H3. auto.
    + rinj H. eapply start_group_ge; eauto.
Qed.
Definition w_ge (a b : writer) : Prop := io_ge (w_io a) (w_io b).
Lemma flush_all_ge : forall p snap w w' e, flush_all p snap w = Ret (w', e) -> w_ge w w'.
Proof.
  intros p snap w w' e H. unfold flush_all in H. destruct (w_records w >? 0).
  - apply bind_ret in H. destruct H as ([[gs io] e1] & H1 & H). apply flush_groups_ge in H1.
    destruct e1; rinj H; exact H1.
  - rinj H. apply io_ge_refl.
Qed.
Lemma check_memory_ge : forall p snap w w', check_memory p snap w = Ret w' -> w_ge w w'.
Proof.
  intros p snap w w' H. unfold check_memory in H. destruct (w_records w >=? w_next_check w).
  - apply bind_ret in H. destruct H as (mem & _ & H). destruct (mem =? 0); [discriminate|].
    destruct (mem >? CHUNK_GROUP_SIZE_THRESHOLD_BYTE).
    + apply bind_ret in H. destruct H as ([w1 e] & H1 & H). rinj H. apply flush_all_ge in H1. exact H1.
    + rinj H. apply io_ge_refl.
  - rinj H. apply io_ge_refl.
Qed.
Lemma measurement_loop_ge : forall deg l i cur queue out c q o, measurement_loop deg i l cur queue out = (c, q, o) -> R out o.
Proof.
  induction l as [|m l IH]; intros i cur queue out c q o H; cbn [measurement_loop] in H.
  - inversion H; subst. apply R_refl.
  - destruct (i mod Z.of_nat deg =? 0).
    + destruct (is_full deg cur); apply IH in H; (eapply R_trans; [apply R_wexec|exact H]).
    + apply IH in H. eapply R_trans; [apply R_wexec|exact H].
Qed.
Lemma device_loop_ge : forall deg ds out r o, device_loop deg ds out = Ret (r, o) -> R out o.
Proof.
  induction ds as [|[d l] ds IH]; intros out r o H; cbn [device_loop] in H.
  - rinj H. apply R_refl.
  - destruct l as [|x l]; [eapply IH; eauto|].
    destruct (measurement_loop deg 0 (x :: l) (index_node_new LeafMeasurement) [] out) as [[c q] o1] eqn:E.
    apply measurement_loop_ge in E. apply bind_ret in H. destruct H as (root & _ & H).
    apply bind_ret in H. destruct H as ([r2 o2] & H2 & H). rinj H. eapply R_trans; [exact E|eapply IH; eauto].
Qed.
Lemma device_entries_ge : forall l n out n' o, device_entries l n out = (n', o) -> R out o.
Proof.
  induction l as [|[s x] l IH]; intros n out n' o H; cbn [device_entries] in H.
  - inversion H; subst. apply R_refl.
  - apply IH in H. eapply R_trans; [apply R_wexec|exact H].
Qed.
Lemma construct_index_ge : forall deg ord m out n o, construct_metadata_index deg ord m out = Ret (n, o) -> R out o.
Proof.
  intros deg ord m out n o H. unfold construct_metadata_index in H. apply bind_ret in H. destruct H as ([im o1] & H1 & H).
  apply device_loop_ge in H1. destruct (length im <=? deg)%nat; [|discriminate].
  destruct (device_entries (ord im) (index_node_new LeafDevice) o1) as [n2 o2] eqn:E. rinj H.
  apply device_entries_ge in E. eapply R_trans; eauto.
Qed.
Lemma end_file_ge : forall p ord w w', end_file p ord w = Ret w' -> io_ge w w'.
Proof.
  intros p ord w w' H. unfold end_file in H. apply bind_ret in H. destruct H as (tsm & _ & H).
  apply bind_ret in H. destruct H as ([ix o1] & H1 & H). apply construct_index_ge in H1.
  apply bind_ret in H. destruct H as (bf & _ & H). apply bind_ret in H. destruct H as (bw & _ & H).
  rinj H. unfold io_ge. cbn [io_out io_with_out].
  eapply R_trans; [apply (R_wexec (WAll [2]))|]. eapply R_trans; [exact H1|].
  eapply R_trans; [|apply R_wexec]. eapply R_trans; [|apply R_wexec].
  eapply R_trans; [|apply R_wexec]. apply R_wexec.
Qed.
Lemma step_ge : forall p snap w o w' a, step p snap w o = Ret (w', a) -> w_ge w w'.
Proof.
  intros p snap w o w' a H. destruct o; cbn [step] in H.
  - unfold writer_write in H. destruct (sm_get d (w_groups w)) as [g|]; [|rinj H; apply io_ge_refl].
    apply bind_ret in H. destruct H as ([g1 e] & _ & H). destruct e; [rinj H; apply io_ge_refl|].
    apply bind_ret in H. destruct H as (rc & _ & H). apply bind_ret in H. destruct H as (w1 & H1 & H).
    rinj H. apply check_memory_ge in H1. exact H1.
  - unfold writer_write_many in H. destruct (sm_get d (w_groups w)) as [g|]; [|rinj H; apply io_ge_refl].
    apply bind_ret in H. destruct H as ([g1 e] & _ & H). destruct e; [|rinj H; apply io_ge_refl].
    apply bind_ret in H. destruct H as (rc & _ & H). apply bind_ret in H. destruct H as (w1 & H1 & H).
    rinj H. apply check_memory_ge in H1. exact H1.
  - unfold writer_close in H. apply bind_ret in H. destruct H as ([w1 e] & H1 & H). apply flush_all_ge in H1.
    apply bind_ret in H. destruct H as (io & H2 & H). rinj H. apply end_file_ge in H2.
    eapply io_ge_trans; [exact H1|exact H2].
Qed.
Lemma run_ge : forall p snap ops w w' l, run p snap w ops = Ret (w', l) -> w_ge w w'.
Proof.
  induction ops as [|o ops IH]; intros w w' l H; cbn [run] in H.
  - rinj H. apply io_ge_refl.
  - apply bind_ret in H. destruct H as ([w1 a] & H1 & H). apply bind_ret in H. destruct H as ([w2 l2] & H2 & H).
    rinj H. apply step_ge in H1. apply IH in H2. eapply io_ge_trans; eauto.
Qed.
Lemma writer_new_ge : forall sc out out' r, writer_new sc out = (out', r) ->
  R out out' /\ match r with Some w => io_out (w_io w) = out' | None => True end.
Proof.
  intros sc out out' r H. unfold writer_new, io_new in H.
  pose proof (R_wexec (WThen (WAll MAGIC) (WThen (WAll [3]) WNil)) out) as X.
  destruct (wexec (WThen (WAll MAGIC) (WThen (WAll [3]) WNil)) out) as [o [|]]; inversion H; subst; auto.
Qed.
End Reach.

(** appending *)
Definition step_app := step_ge sk_ge sk_ge_refl sk_ge_trans wexec_ext.
Definition run_app := run_ge sk_ge sk_ge_refl sk_ge_trans wexec_ext.

Definition pos_ok (s : sink) : Prop := sk_pos s = zlen (sk_data s).
Lemma pos_ok_ge : forall s s', sk_ge s s' -> pos_ok s -> pos_ok s'.
Proof. intros s s' [l [H1 H2 _]] G. unfold pos_ok in *. rewrite H1, H2, zlen_app, G. auto. Qed.

(** a dead disk *)
Definition dead (s : sink) : Prop := forall n, (sk_calls s <= n)%nat -> sk_sched s n = FFail.
Definition frozen (s s' : sink) : Prop := dead s -> dead s' /\ sk_data s' = sk_data s.
Lemma frozen_refl : forall s, frozen s s. Proof. unfold frozen. auto. Qed.
Lemma frozen_trans : forall a b c, frozen a b -> frozen b c -> frozen a c.
Proof. unfold frozen. intros a b c H G D. destruct (H D) as [D1 E1]. destruct (G D1). split; [auto|congruence]. Qed.
Lemma frozen_write : forall buf s s' r, sk_write buf s = (s', r) -> dead s -> r = None /\ dead s' /\ sk_data s' = sk_data s.
Proof.
  intros buf s s' r H D. unfold sk_write in H. rewrite (D (sk_calls s)) in H by lia. inversion H; subst.
  split; auto. split; auto. intros n Hn. cbn [sk_calls sk_sched] in *. apply D. lia.
Qed.
Lemma frozen_wexec : forall w s, frozen s (fst (wexec w s)).
Proof.
  induction w; intros s; cbn [wexec].
  - apply frozen_refl.
  - intros D. unfold sk_write_all. destruct bs as [|b bs]; [cbn; auto|]. cbn [length sk_write_all_loop].
    destruct (sk_write (b :: bs) s) as [s' r] eqn:E. apply frozen_write in E; auto. destruct E as (-> & E). exact E.
  - intros D. destruct (sk_write bs s) as [s' r] eqn:E. apply frozen_write in E; auto. destruct E as (-> & E). exact E.
  - specialize (IHw1 s). destruct (wexec w1 s) as [s' [|]]; cbn [fst] in *; auto. eapply frozen_trans; eauto.
  - eapply frozen_trans; eauto.
Qed.
Definition run_frozen := run_ge frozen frozen_refl frozen_trans frozen_wexec.

(** creation *)
Lemma write_all_loop_false : forall f buf s s', sk_write_all_loop f buf s = (s', false) ->
  exists l, sk_ext s s' l /\ zlen l < zlen buf.
Proof.
  induction f; intros buf s s' H.
  - destruct buf; cbn in H; [discriminate|]. inversion H; subst. exists []. split; [apply sk_ext_refl|].
    rewrite zlen_cons, zlen_nil. pose proof (zlen_nonneg _ buf). lia.
  - destruct buf as [|b buf]; [discriminate|]. cbn [sk_write_all_loop] in H.
    assert (Z0 : zlen (@nil byte) < zlen (b :: buf)) by (rewrite zlen_cons, zlen_nil; pose proof (zlen_nonneg _ buf); lia).
    destruct (sk_write (b :: buf) s) as [s1 [k|]] eqn:E; apply sk_write_ext in E; destruct E as [X Hk].
    + destruct k as [|k]; [inversion H; subst; exists []; auto|]. apply IHf in H. destruct H as (l & Y & L).
      exists (firstn (S k) (b :: buf) ++ l). split; [eapply sk_ext_trans; eauto|].
      rewrite <- (firstn_skipn (S k) (b :: buf)) at 2. rewrite !zlen_app. lia.
    + inversion H; subst. exists []. auto.
Qed.
Lemma write_all_iff : forall buf s s' ok, sk_write_all buf s = (s', ok) ->
  (ok = true <-> sk_data s' = sk_data s ++ buf).
Proof.
  intros buf s s' ok H. unfold sk_write_all in H. split.
  - intros ->. apply sk_write_all_loop_ext in H. destruct H as (l & X & _ & L). rewrite (L eq_refl) in X. apply X.
  - intros D. destruct ok; auto. apply write_all_loop_false in H. destruct H as (l & X & L).
    rewrite (se_data _ _ _ X) in D. apply app_inv_head in D. subst. lia.
Qed.
Lemma create_iff : forall sc sched out' r, writer_new sc (sink_new sched) = (out', r) ->
  (r <> None <-> sk_data out' = [84; 115; 70; 105; 108; 101; 3]).
Proof.
  intros sc sched out' r H. unfold writer_new, io_new in H. cbn [wexec] in H.
  destruct (sk_write_all MAGIC (sink_new sched)) as [s1 ok1] eqn:E1.
  pose proof (write_all_iff _ _ _ _ E1) as I1. unfold sk_write_all in E1.
  destruct ok1.
  - destruct (sk_write_all [3] s1) as [s2 ok2] eqn:E2. pose proof (write_all_iff _ _ _ _ E2) as I2.
    destruct I1 as [I1 _]. specialize (I1 eq_refl). rewrite I1 in I2. cbn in I2.
    destruct ok2; inversion H; subst; rewrite <- I2; intuition discriminate.
  - inversion H; subst. split; [congruence|]. intros D.
    apply write_all_loop_false in E1. destruct E1 as (l & X & L). rewrite (se_data _ _ _ X) in D. cbn in D. subst l.
    vm_compute in L. discriminate.
Qed.

(** no I/O error is ever answered *)
Lemma gw_write_err : forall p snap m t v g g' e, gw_write p snap m t v g = Ret (g', Some e) ->
  e = EOutOfOrderData \/ exists x, e = EIllegalState x.
Proof.
  intros p snap m t v g g' e H. unfold gw_write in H.
  destruct (check_is_history_data m t (gw_last g)) as [last [|]].
  - destruct (sm_get m (gw_chunks g)); [|rinj H; eauto].
    apply bind_ret in H. destruct H as ([c'|x] & _ & H); [|discriminate]. rinj H. discriminate.
  - rinj H. auto.
Qed.
Lemma gw_write_many_err : forall p snap t vs n g g' e, gw_write_many p snap t vs n g = Ret (g', inr e) ->
  e = EOutOfOrderData \/ exists x, e = EIllegalState x.
Proof.
  induction vs as [|[m v] vs IH]; intros n g g' e H; cbn [gw_write_many] in H.
  - rinj H. discriminate.
  - apply bind_ret in H. destruct H as ([g1 [e1|]] & H1 & H).
    + rinj H. eapply gw_write_err; eauto.
    + apply bind_ret in H. destruct H as (r & _ & H). eapply IH; eauto.
Qed.
Lemma step_err : forall p snap w o w' e, step p snap w o = Ret (w', AErr e) ->
  e = EOutOfOrderData \/ exists x, e = EIllegalState x.
Proof.
  intros p snap w o w' e H. destruct o; cbn [step] in H.
  - unfold writer_write in H. destruct (sm_get d (w_groups w)) as [g|]; [|rinj H; eauto].
    apply bind_ret in H. destruct H as ([g1 [e1|]] & H1 & H).
    + rinj H. eapply gw_write_err; eauto.
    + apply bind_ret in H. destruct H as (rc & _ & H). apply bind_ret in H. destruct H as (w1 & _ & H). rinj H. discriminate.
  - unfold writer_write_many in H. destruct (sm_get d (w_groups w)) as [g|]; [|rinj H; eauto].
    apply bind_ret in H. destruct H as ([g1 [n|e1]] & H1 & H).
    + apply bind_ret in H. destruct H as (rc & _ & H). apply bind_ret in H. destruct H as (w1 & _ & H). rinj H. discriminate.
    + rinj H. eapply gw_write_many_err; eauto.
  - unfold writer_close in H. apply bind_ret in H. destruct H as ([w1 e1] & H1 & H).
    apply bind_ret in H. destruct H as (io & H2 & H). rinj H. discriminate.
Qed.

Lemma run_data : forall p snap w ops w' l, run p snap w ops = Ret (w', l) ->
  exists tail, file_bytes w' = file_bytes w ++ tail.
Proof. intros p snap w ops w' l H. apply run_app in H. destruct H as [x [H _ _]]. exists x. exact H. Qed.
Lemma run_pos : forall p snap sc sched out w ops w' l, writer_new sc (sink_new sched) = (out, Some w) ->
  run p snap w ops = Ret (w', l) -> sk_pos (io_out (w_io w')) = zlen (file_bytes w').
Proof.
  intros p snap sc sched out w ops w' l H G. apply run_app in G.
  apply (writer_new_ge sk_ge wexec_ext) in H. destruct H as [H1 H2].
  eapply pos_ok_ge; [exact G|]. rewrite H2. eapply pos_ok_ge; [exact H1|]. reflexivity.
Qed.
(** faults begin after the header *)
Definition dead_after (k : nat) : nat -> fault := fun n => if (n <? k)%nat then FFull else FFail.
Lemma dead_disk_header : forall p snap sc ops w' l out w, writer_new sc (sink_new (dead_after 2)) = (out, Some w) ->
  run p snap w ops = Ret (w', l) -> file_bytes w' = [84; 115; 70; 105; 108; 101; 3].
Proof.
  intros p snap sc ops w' l out w H G. apply run_frozen in G.
  assert (E : io_out (w_io w) = out) by (unfold writer_new, io_new in H; destruct (wexec _ _) as [o [|]]; inversion H; reflexivity).
  assert (D : dead (io_out (w_io w)) /\ sk_data (io_out (w_io w)) = [84; 115; 70; 105; 108; 101; 3]).
  { rewrite E. unfold writer_new, io_new in H. cbn in H. inversion H; subst. split; [|reflexivity].
    intros n Hn. cbn [sk_calls sk_sched] in *. unfold dead_after. replace (n <? 2)%nat with false; auto.
    symmetry. apply Nat.ltb_ge. lia. }
  destruct D as [D1 D2]. destruct (G D1) as [_ G2]. unfold file_bytes. congruence.
Qed.
