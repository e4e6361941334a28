(** Sessions with any number of closes: exact bytes (C61). *)
From Verif Require Export PAgainClose.
Ltac Zify.zify_post_hook ::= idtac.

Lemma few_less : forall sc n n' k, few_entries sc n k -> n' <= n -> few_entries sc n' k.
Proof. intros sc n n' k F L. unfold few_entries in *. eapply Forall_impl; [|exact F]. cbn beta. intros [d g] H. cbn [snd] in *. pose proof (zlen_nonneg _ g). nia. Qed.
Lemma closes_app : forall a b, closes (a ++ b) = closes a + closes b.
Proof. intros a b. unfold closes. rewrite filter_app, zlen_app. reflexivity. Qed.
Lemma closes_nonneg : forall a, 0 <= closes a.
Proof. intros a. apply zlen_nonneg. Qed.

Lemma closes_snoc : forall ops o, closes (ops ++ [o]) = closes ops + (if is_close o then 1 else 0).
Proof. intros ops o. rewrite closes_app. f_equal. unfold closes. cbn [filter]. destruct (is_close o); reflexivity. Qed.

Section Shift.
Variable snap : list Z -> option (list Z).
Variable sc : schema.
Lemma after_snoc : forall ops o, session_after snap sc (ops ++ [o]) = session_next snap sc (session_after snap sc ops) o.
Proof. intros. unfold session_after. rewrite fold_left_app. reflexivity. Qed.
Lemma call_shift : forall f h n o, session_call snap sc (mkSession f h n) o =
  let s := session_call snap sc (mkSession [] h n) o in mkSession (f ++ ss_flushes s) (ss_hist s) (ss_next s).
Proof.
  intros f h n o. unfold session_call. cbn [ss_hist ss_next ss_flushes]. cbv zeta.
  repeat match goal with |- context [if ?b then _ else _] => destruct b end; cbn [ss_hist ss_next ss_flushes app]; rewrite ?app_nil_r; reflexivity.
Qed.
Lemma added_call : forall ops o, is_close o = false -> let s := session_after snap sc ops in
  added snap sc ops o = ss_flushes (session_call snap sc (mkSession [] (ss_hist s) (ss_next s)) o).
Proof.
  intros ops o C s. unfold added. rewrite after_snoc. unfold session_next. rewrite C. fold s. destruct s as [f h n]. cbn [ss_flushes ss_hist ss_next]. rewrite call_shift. cbn [ss_flushes].
  rewrite skipn_app, skipn_all, Nat.sub_diag. reflexivity.
Qed.
Lemma added_close : forall ops ord, let h := ss_hist (session_after snap sc ops) in added snap sc ops (OpClose ord) = if 0 <? h_counted h then [h_recent h] else [].
Proof.
  intros ops ord h. unfold added. rewrite after_snoc. cbn [session_next is_close]. unfold session_next, session_close, final_flushes. cbn [is_close ss_flushes]. fold h.
  rewrite skipn_app, skipn_all, Nat.sub_diag. reflexivity.
Qed.
Lemma after_close : forall ops ord, let s := session_after snap sc ops in
  ss_hist (session_after snap sc (ops ++ [OpClose ord])) = (if 0 <? h_counted (ss_hist s) then h_flush (ss_hist s) else ss_hist s) /\ ss_next (session_after snap sc (ops ++ [OpClose ord])) = ss_next s.
Proof. intros ops ord s. rewrite after_snoc. split; reflexivity. Qed.
Lemma after_call : forall ops o, is_close o = false -> let s := session_after snap sc ops in let s' := session_call snap sc (mkSession [] (ss_hist s) (ss_next s)) o in
  ss_hist (session_after snap sc (ops ++ [o])) = ss_hist s' /\ ss_next (session_after snap sc (ops ++ [o])) = ss_next s'.
Proof. intros ops o C s s'. rewrite after_snoc. unfold session_next. rewrite C. fold s. unfold s'. destruct s as [f h n]. cbn [ss_hist ss_next]. rewrite call_shift. split; reflexivity. Qed.
(** Without closes nothing changes. *)
Lemma after_of : forall ops, no_close ops = true -> session_after snap sc ops = session_of snap sc ops.
Proof.
  intros ops. induction ops as [|o ops IH] using rev_ind; intros NC; [reflexivity|]. unfold no_close in *. rewrite forallb_app in NC. apply andb_prop in NC. destruct NC as [NC1 NC2]. cbn [forallb] in NC2. rewrite andb_true_r in NC2. apply negb_true_iff in NC2.
  rewrite after_snoc, session_snoc, IH by auto. unfold session_next. rewrite NC2. reflexivity.
Qed.
Lemma after_len : forall ops, zlen (h_all (ss_hist (session_after snap sc ops))) <= zsum (map op_points ops).
Proof.
  intros ops. induction ops as [|o ops IH] using rev_ind; [apply Z.le_refl|]. rewrite map_app, zsum_app. cbn [map zsum fold_right]. rewrite Z.add_0_r. destruct (is_close o) eqn:C.
  - destruct o as [| |ord]; try discriminate. rewrite (proj1 (after_close ops ord)). cbn [op_points]. rewrite Z.add_0_r. destruct (0 <? _); auto. unfold h_all, h_flush in *. cbn [h_flushed h_recent]. rewrite app_nil_r. exact IH.
  - rewrite after_snoc. unfold session_next. rewrite C. pose proof (session_hist_len snap sc (session_after snap sc ops) o). lia.
Qed.
Lemma roomy_after_of : forall ops, 24 * zsum (map op_points ops) + 150 * series_count sc < 2 ^ 32 -> roomy_after snap sc ops.
Proof.
  intros ops B. split; [pose proof (points_nonneg ops); lia|]. intros a o b ->. rewrite map_app, zsum_app in B. cbn [map zsum fold_right] in B. fold (zsum (map op_points b)) in B.
  pose proof (after_len a) as X. unfold h_all in X. rewrite zlen_app in X. pose proof (zlen_nonneg _ (h_flushed (ss_hist (session_after snap sc a)))). pose proof (points_nonneg b). lia.
Qed.
Lemma roomy_after_app : forall a b, roomy_after snap sc (a ++ b) -> roomy_after snap sc a.
Proof. intros a b [H0 H]. split; [exact H0|]. intros x o y ->. apply (H x o (y ++ b)). rewrite <- app_assoc. reflexivity. Qed.
Lemma written_len : forall appends ops ps stages, session_file appends snap sc ops ps stages -> zlen stages = closes ops.
Proof.
  intros appends ops ps stages W. induction W as [|ops ps stages o W IH C|ops ps stages ord bs W IH ps' P]; [reflexivity| |]; rewrite closes_app; unfold closes at 2; cbn [filter is_close]; [rewrite C, zlen_nil; lia|].
  rewrite zlen_app, IH. reflexivity.
Qed.
End Shift.

Section Again.
Variable p : profile.
Variable snap decomp : list Z -> option (list Z).
Hypothesis HG : good_snap snap decomp.
Variable sc : schema.
Hypothesis Hsc : schema_ok sc.

(** The hypotheses that only a close needs, and what a close then appends. *)
Variable closable_names : list op -> Prop.
Hypothesis names_app : forall a b, closable_names (a ++ b) -> closable_names a.
Variable appends : list (list piece) -> list piece -> list Z -> Prop.
Hypothesis HA : forall ops ord h its w snaps tmss io', closable_names (ops ++ [OpClose ord]) -> zlen snaps = closes ops -> winv p snap sc h its w -> minv p snaps (io_tsmeta (w_io w)) tmss ->
  Forall (fun s => exists more, its = s ++ more) snaps -> zlen (h_all h) < 2 ^ 32 -> end_file p ord (w_io w) = Ret io' -> Forall light its -> brief (sk_data (io_out (w_io w))) (sk_data (io_out io')) ->
  exists bs, appends (map its_pieces (snaps ++ [its])) (its_pieces its) bs /\ sk_data (io_out io') = sk_data (io_out (w_io w)) ++ bs.
Record ainv (ops : list op) (h : hist) (its : list item) (snaps : list (list item)) (w : writer) : Prop := {
  ai_winv : winv p snap sc h its w;
  ai_hist : h = ss_hist (session_after snap sc ops);
  ai_next : w_next_check w = ss_next (session_after snap sc ops);
  ai_pre : Forall (fun s => exists more, its = s ++ more) snaps;
  ai_metas : exists tmss, minv p snaps (io_tsmeta (w_io w)) tmss;
  ai_len : zlen snaps = closes ops;
  ai_bytes : modest p snap sc ops -> closable_names ops -> Forall light its /\ session_file appends snap sc ops (its_pieces its) (map its_pieces snaps) }.

Lemma pieces_app : forall a b, its_pieces (a ++ b) = its_pieces a ++ its_pieces b.
Proof. intros a b. unfold its_pieces. rewrite map_app, concat_app. reflexivity. Qed.
Lemma step_next : forall w o w' a, step p snap w o = Ret (w', a) -> is_close o = true -> w_next_check w' = w_next_check w.
Proof.
  intros w o w' a H C. destruct o as [| |ord]; try discriminate. cbn [step] in H. unfold writer_close in H. apply bind_ret in H. destruct H as ([w1 e] & F & H). cbn [fst] in H. apply bind_ret in H. destruct H as (io & _ & H). rinj H. cbn [w_next_check].
  unfold flush_all in F. destruct (w_records w >? 0); [|rinj F; reflexivity]. apply bind_ret in F. destruct F as ([[gs io1] e1] & _ & F). destruct e1; rinj F; reflexivity.
Qed.
Lemma trace_again : forall w h ops l, trace p snap sc w h ops l -> ops_ok ops -> roomy_after snap sc ops ->
  exists its snaps, ainv ops h its snaps w.
Proof.
  intros w h ops l T. induction T as [out w N|w h ops l o w' a T IH H]; intros O B.
  - exists [], []. split; [eapply winv_new; eauto|reflexivity| |constructor| |reflexivity|intros _ _; split; [constructor|apply written_new]].
    + unfold writer_new, io_new in N. destruct (wexec _ _) as [s [|]]; inversion N; subst; reflexivity.
    + exists []. unfold writer_new, io_new in N. destruct (wexec _ _) as [s b]. destruct b; [|discriminate]. inversion N; subst. cbn [w_io io_tsmeta].
      split; [constructor|apply sorted_nil|constructor|reflexivity].
  - pose proof O as [O1 O2]. rewrite map_app, zsum_app in O2. cbn [map zsum fold_right] in O2. apply Forall_app in O1. destruct O1 as [O1 O3]. apply Forall_inv in O3. pose proof (op_points_nonneg o).
    assert (O' : ops_ok ops) by (split; auto; lia). destruct (IH O') as (its & snaps & AI); [eapply roomy_after_app; eauto|]. clear IH.
    pose proof AI as [I E NX PRE (tmss & MI) LEN BY].
    destruct (trace_ok p snap decomp HG sc Hsc _ _ _ _ T O') as (L & _). set (s := session_after snap sc ops) in *.
    destruct (is_close o) eqn:C.
    + destruct o as [| |ord]; try discriminate.
      pose proof H as H'. cbn [step] in H'. unfold writer_close in H'. apply bind_ret in H'. destruct H' as ([w1 e] & F & H'). cbn [fst] in H'. apply bind_ret in H'. destruct H' as (io & EF & H'). apply ret_inj in H'.
      pose proof (flush_all_tsmeta _ _ _ _ _ F) as TS. destruct (flush_all_ok _ _ _ HG _ Hsc _ _ _ _ _ I F) as [_ K].
      assert (X : exists gs, winv p snap sc (if 0 <? h_counted h then h_flush h else h) (its ++ gs) w1 /\ its_pieces gs = pieces sc (added snap sc ops (OpClose ord))).
      { rewrite added_close. fold s. rewrite <- E. destruct (0 <? h_counted h).
        - destruct K as (new & K1 & K2 & K3 & K4 & K5 & K6). exists new. split; [exact K1|].
          pose proof (flushed_snoc p snap sc [] [] (h_recent h) new (flushed_nil p snap sc) K5) as FS. exact (flushed_pieces p snap sc Hsc _ _ FS).
        - subst w1. exists []. rewrite app_nil_r. split; [exact I|reflexivity]. }
      clear K. destruct X as (gs & I1 & PG).
      assert (W' : w_io w' = io) by (injection H' as <- _; reflexivity). rewrite <- W' in EF.
      destruct (end_file_ok p _ _ _ (wi_healthy _ _ _ _ _ _ I1) EF) as (r & X & X1 & X2).
      assert (FB : file_bytes w' = file_bytes w1 ++ 2 :: r) by (apply X).
      pose proof (wi_data _ _ _ _ _ _ I) as D0. pose proof (wi_data _ _ _ _ _ _ I1) as D1.
      assert (GR : grew w w' = true).
      { unfold grew. rewrite FB, D0, D1, file_of_app, !zlen_app, (zlen_cons _ 2 r). pose proof (zlen_nonneg _ r). pose proof (zlen_nonneg _ (file_of gs)). apply Z.ltb_lt. lia. }
      assert (HS : h_step sc (OpClose ord) (grew w w') h = if 0 <? h_counted h then h_flush h else h) by (unfold h_step; cbn [h_call]; rewrite GR; reflexivity).
      rewrite <- TS in MI.
      pose proof (end_file_tsmeta _ _ _ _ EF) as MM. rewrite (wi_metas _ _ _ _ _ _ I1) in MM. destruct (minv_close p _ _ _ _ _ MI MM) as (tms & MI').
      exists ((its ++ gs) ++ [Raw (2 :: r)]), (snaps ++ [its ++ gs]). split.
      * rewrite HS. destruct (step_ok p snap decomp HG sc Hsc h its w (OpClose ord) w' a I) as (_ & new & I' & NN); cbn [op_ok op_points]; auto; [lia|].
        pose proof I1 as [J1 J2 J3 J4 J5 J6 J7 J8 J9 J10 J11 J12 J13]. pose proof I' as [K1 K2 K3 K4 K5 K6 K7 K8 K9 K10 K11 K12 K13]. rewrite HS in *. split; auto.
        -- rewrite FB, J4, (file_of_app (its ++ gs)), <- !app_assoc. replace (file_of [Raw (2 :: r)]) with (2 :: r); auto. unfold file_of. cbn [map concat item_bytes]. rewrite app_nil_r. auto.
        -- rewrite X1, J6, (metas_app (its ++ gs)). cbn [metas imetas app]. rewrite app_nil_r. auto.
        -- apply Forall_app. split; [auto|repeat constructor].
        -- intros d m. rewrite its_series_app, J8. unfold its_series. cbn [map concat iseries]. rewrite !app_nil_r. auto.
        -- intros X3. apply Forall_app in X3. destruct X3 as [_ X3]. inversion X3; subst. contradiction.
      * rewrite HS, E. symmetry. apply (after_close snap sc ops ord).
      * rewrite (step_next _ _ _ _ H eq_refl), NX. symmetry. apply (after_close snap sc ops ord).
      * apply Forall_app. split; [rewrite <- app_assoc; apply pre_more; exact PRE|]. constructor; [|constructor]. eauto.
      * eauto.
      * rewrite closes_app, zlen_app, LEN. unfold closes at 3. cbn [filter is_close]. rewrite !zlen_cons, !zlen_nil. lia.
      * intros M CN. pose proof (trace_modest _ _ _ _ _ _ _ _ _ _ T H M) as [M1 M2]. destruct (BY (modest_app _ _ _ _ _ M) (names_app _ _ CN)) as [LI WR].
        assert (LG : Forall light (its ++ gs)).
        { apply Forall_app. split; [exact LI|]. apply light_of. rewrite FB, D0, D1, file_of_app, !zlen_app in M1. pose proof (zlen_nonneg _ (2 :: r)). lia. }
        assert (BR : brief (sk_data (io_out (w_io w1))) (sk_data (io_out (w_io w')))).
        { change (brief (file_bytes w1) (file_bytes w')). split; [|exact M2]. rewrite D1, file_of_app, !zlen_app. rewrite D0, !zlen_app in M1. pose proof (zlen_nonneg _ (file_of gs)). lia. }
        assert (PRE1 : Forall (fun s0 => exists more, its ++ gs = s0 ++ more) snaps) by (apply pre_more; exact PRE).
        assert (HAL : zlen (h_all (if 0 <? h_counted h then h_flush h else h)) < 2 ^ 32).
        { destruct (0 <? h_counted h); [unfold h_all, h_flush in *; cbn [h_flushed h_recent]; rewrite app_nil_r|]; lia. }
        destruct (HA _ _ _ _ _ _ _ _ CN LEN I1 MI PRE1 HAL EF LG BR) as (bs & PN & EX).
        assert (RB : 2 :: r = bs).
        { change (sk_data (io_out (w_io w'))) with (file_bytes w') in EX. change (sk_data (io_out (w_io w1))) with (file_bytes w1) in EX. rewrite FB in EX. apply app_inv_head in EX. exact EX. }
        split; [apply Forall_app; split; [exact LG|repeat constructor]|].
        rewrite (pieces_app (its ++ gs)), map_app. unfold its_pieces at 2. cbn [map concat item_pieces app]. rewrite RB. rewrite pieces_app, PG.
        apply written_close; [exact WR|]. rewrite <- PG, <- pieces_app. replace (map its_pieces snaps ++ [its_pieces (its ++ gs)]) with (map its_pieces (snaps ++ [its ++ gs])) by (rewrite map_app; reflexivity). exact PN.
    + destruct B as [_ B]. specialize (B ops o [] eq_refl). fold s in B. rewrite <- E in B.
      assert (R : runs p snap sc its (mkSession [] h (ss_next s)) [] w).
      { split; [cbn [ss_hist]; rewrite app_nil_r; exact I|]. split; [constructor|]. split; [apply flushed_nil|exact NX]. }
      destruct (step_session p snap decomp HG sc Hsc its (mkSession [] h (ss_next s)) [] w o w' a R O3) as (more & R'); cbn [ss_hist]; auto; [lia|].
      cbn [app] in R'. pose proof R' as (I' & GR' & FA & NX').
      destruct (after_call snap sc ops o C) as [AH AN]. fold s in AH, AN. rewrite <- E in AH, AN. pose proof (added_call snap sc ops o C) as AD. cbv zeta in AD. fold s in AD. rewrite <- E in AD.
      destruct (step_ok p snap decomp HG sc Hsc h its w o w' a I O3 ltac:(lia) H) as (_ & new & I2 & _).
      assert (HE : h_step sc o (grew w w') h = ss_hist (session_call snap sc (mkSession [] h (ss_next s)) o)).
      { pose proof (wi_records _ _ _ _ _ _ I') as W1. pose proof (wi_records _ _ _ _ _ _ I2) as W2. rewrite W1 in W2.
        unfold h_step in *. cbv zeta in *. destruct (session_step_hist snap sc (mkSession [] h (ss_next s)) o) as [X|[P X]]; rewrite X in *; cbn [ss_hist] in *.
        - destruct (Z.ltb_spec 0 (h_counted (h_call sc o h))) as [Q|Q]; [|rewrite andb_false_r; reflexivity]. rewrite andb_true_r in *. destruct (grew w w'); [|reflexivity]. cbn [h_flush h_counted] in W2. lia.
        - replace (0 <? h_counted (h_call sc o h)) with true in * by (symmetry; apply Z.ltb_lt; auto). rewrite andb_true_r in *. destruct (grew w w'); [reflexivity|]. cbn [h_flush h_counted] in W2. lia. }
      exists (its ++ more), snaps. split.
      * rewrite HE. exact I'.
      * rewrite HE, AH. reflexivity.
      * rewrite AN. exact NX'.
      * apply pre_more. exact PRE.
      * exists tmss. rewrite (step_tsmeta _ _ _ _ _ _ C H). exact MI.
      * rewrite closes_snoc, LEN, C. lia.
      * intros M CN. pose proof (trace_modest _ _ _ _ _ _ _ _ _ _ T H M) as [M1 M2]. destruct (BY (modest_app _ _ _ _ _ M) (names_app _ _ CN)) as [LI WR]. split.
        -- apply Forall_app. split; [exact LI|]. apply light_of. rewrite (wi_data _ _ _ _ _ _ I), (wi_data _ _ _ _ _ _ I'), file_of_app, !zlen_app in M1. lia.
        -- rewrite pieces_app, (flushed_pieces p snap sc Hsc _ _ FA), <- AD. apply written_call; auto.
Qed.
Lemma again_file : forall w h ops l, trace p snap sc w h ops l -> ops_ok ops -> roomy_after snap sc ops -> modest p snap sc ops -> closable_names ops ->
  exists ps stages, session_file appends snap sc ops ps stages /\ file_bytes w = the_file snap ps.
Proof.
  intros w h ops l T O B M CN. destruct (trace_again w h ops l T O B) as (its & snaps & [I _ _ _ _ _ BY]). destruct (BY M CN) as [LI WR]. exists (its_pieces its), (map its_pieces snaps). split; [exact WR|].
  rewrite (wi_data _ _ _ _ _ _ I). unfold the_file. erewrite its_image; eauto. apply I.
Qed.
End Again.

(** ** Names without dots *)
Section Plain.
Variable p : profile.
Variable snap decomp : list Z -> option (list Z).
Hypothesis HG : good_snap snap decomp.
Variable sc : schema.
Hypothesis Hsc : schema_ok sc.
Definition plain_names (ops : list op) : Prop := orders_ok ops /\ (0 < closes ops -> no_dots sc /\ byte_names sc /\ short_paths sc /\ few_entries sc (closes ops) 65536).
Lemma plain_app : forall a b, plain_names (a ++ b) -> plain_names a.
Proof.
  intros a b [O N]. split; [apply Forall_app in O; apply O|]. intros C. rewrite closes_app in N. pose proof (closes_nonneg b). destruct N as (A & B & D & E); [lia|]. do 3 (split; auto). eapply few_less; [exact E|lia].
Qed.
Lemma again_bytes : forall w h ops l, trace p snap sc w h ops l -> ops_ok ops -> roomy_after snap sc ops -> modest p snap sc ops -> plain_names ops ->
  exists ps stages, written snap sc ops ps stages /\ file_bytes w = the_file snap ps.
Proof.
  apply (again_file p snap decomp HG sc Hsc plain_names plain_app (close_appends snap sc)).
  intros ops ord h its w snaps tmss io' [OR CN] LEN I MI PRE HB EF LG BR. rewrite closes_snoc in CN. cbn [is_close] in CN. destruct CN as (ND & BN & SP & FE); [pose proof (closes_nonneg ops); lia|].
  apply Forall_app in OR. destruct OR as [_ OR]. apply Forall_inv in OR. cbn beta iota in OR. rewrite <- LEN in FE.
  destruct (close_again p snap decomp HG sc Hsc ND _ _ _ _ _ _ _ I MI PRE HB FE BN SP OR EF LG BR) as (nodes & PN & EX). cbv zeta in PN, EX. eexists. split; [exists nodes; split; [exact PN|reflexivity]|exact EX].
Qed.
End Plain.
