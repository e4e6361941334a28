(** Plans and flushes of an [MLog] on any disk (C71). *)
From Verif Require Export SMlogRun PMlog.
Ltac Zify.zify_post_hook ::= idtac.
Open Scope list_scope. Open Scope Z_scope.

(** ** One flush *)
Lemma then_part : forall bs w s, (forall s2, exists l, sk_ext s2 (fst (wexec w s2)) l /\ (exists t, wbytes w = l ++ t /\ (snd (wexec w s2) = true <-> t = []))) ->
  exists l, sk_ext s (fst (wexec (WThen (WAll bs) w) s)) l /\ exists t, wbytes (WThen (WAll bs) w) = l ++ t /\ (snd (wexec (WThen (WAll bs) w) s) = true <-> t = []).
Proof.
  intros bs w s H. cbn [wexec wbytes]. unfold sk_write_all. destruct (sk_write_all_loop (length bs) bs s) as [s1 ok] eqn:E.
  pose proof (sk_write_all_loop_ext _ _ _ _ _ E) as (l & X & (t & T) & K). destruct ok.
  - rewrite (K eq_refl) in *. clear K. destruct (H s1) as (l2 & X2 & t2 & T2 & I). exists (bs ++ l2). split; [eapply sk_ext_trans; eauto|].
    exists t2. split; [rewrite T2, app_assoc; reflexivity|exact I].
  - cbn [fst snd]. exists l. split; [exact X|]. exists (t ++ wbytes w). split; [rewrite T, app_assoc; reflexivity|]. split; [discriminate|].
    intros Z. apply app_eq_nil in Z. destruct Z as [-> _]. apply write_all_loop_false in E. destruct E as (l' & Y & L).
    rewrite app_nil_r in T. subst l. pose proof (se_pos _ _ _ X). pose proof (se_pos _ _ _ Y). lia.
Qed.
Lemma record_part : forall m s, exists l, sk_ext s (fst (wexec (mlog_record m) s)) l /\
  exists t, wbytes (mlog_record m) = l ++ t /\ (snd (wexec (mlog_record m) s) = true <-> t = []).
Proof.
  intros m s. unfold mlog_record. do 3 (apply then_part; clear s; intros s). exists []. cbn [wexec fst snd wbytes]. split; [apply sk_ext_refl|].
  exists []. split; [reflexivity|]. tauto.
Qed.

(** ** Plans *)
Definition bytes_of (o : mlog_op) : list Z :=
  match o with
  | MlCreate path t e c => wbytes (write_create_plan path t e c)
  | MlGroup path => wbytes (write_set_storage_group_plan path)
  | MlFlush => []
  end.
Lemma create_read : forall path t e c rest, zlen path < 2 ^ 31 ->
  plan_read (wbytes (write_create_plan path t e c) ++ rest) = Some (CreateTimeseries path (format_type t) (format_encoding e) (format_compression c) (-1) [0; 0; 0; 0], rest).
Proof.
  intros path t e c rest H. unfold write_create_plan. cbn [wbytes]. rewrite <- !app_assoc. cbn [app].
  cbn [plan_read]. rewrite path_field_spec by auto.
  assert (U1 : forall b l, be_unsigned 1 (b :: l) = Some (b, l)).
  { intros b l. unfold be_unsigned. change (b :: l) with ([b] ++ l). rewrite take_app_n by reflexivity. reflexivity. }
  rewrite U1. rewrite U1. rewrite U1. rewrite (be_signed_small 8) by (cbn; lia).
  change (0 :: 0 :: 0 :: 0 :: be_bytes 8 0 ++ rest) with ([0; 0; 0; 0] ++ (be_bytes 8 0 ++ rest)).
  rewrite take_app_n by reflexivity. rewrite (be_unsigned_small 8) by (cbn; lia). destruct t, e, c; reflexivity.
Qed.
Lemma create_len : forall path t e c, zlen (wbytes (write_create_plan path t e c)) = 28 + zlen path.
Proof. intros. unfold write_create_plan. cbn [wbytes]. rewrite !zlen_app, !be_bytes_zlen, ?zlen_cons, ?zlen_nil. lia. Qed.
Lemma group_len : forall path, zlen (wbytes (write_set_storage_group_plan path)) = 13 + zlen path.
Proof. intros. unfold write_set_storage_group_plan. cbn [wbytes]. rewrite !zlen_app, !be_bytes_zlen, ?zlen_cons, ?zlen_nil. lia. Qed.
Lemma create_bytes : forall path t e c, bytes path -> bytes (wbytes (write_create_plan path t e c)).
Proof.
  intros path t e c H. unfold write_create_plan. cbn [wbytes]. assert (Z1 : forall z, 0 <= z < 256 -> bytes [z]) by (intros; repeat constructor; lia).
  repeat apply bytes_app; auto; try apply be_bytes_bytes; try (apply Z1; lia); try apply Forall_nil; apply Z1; destruct t, e, c; cbn; lia.
Qed.
Lemma group_bytes : forall path, bytes path -> bytes (wbytes (write_set_storage_group_plan path)).
Proof.
  intros path H. unfold write_set_storage_group_plan. cbn [wbytes]. repeat apply bytes_app; auto; try apply be_bytes_bytes; repeat constructor; unfold is_byte; lia.
Qed.
(** ** Sequences of calls *)
Lemma plans_size_nonneg : forall ops, 0 <= plans_size ops.
Proof.
  induction ops as [|o ops IH]; cbn [plans_size fold_right]; [lia|]. fold (plans_size ops).
  destruct o; try (pose proof (zlen_nonneg _ path)); lia.
Qed.
Definition good_payload (m : list Z) (held : list plan) : Prop := bytes m /\ parts plan_read m held.
Lemma run_layout : forall ops m held out m' out' oks, good_payload m held -> byte_paths ops -> zlen m + plans_size ops < 2 ^ 31 ->
  mlog_run (m, out) ops = (m', out', oks) ->
  exists pieces, sk_data out' = sk_data out ++ concat pieces /\ Forall2 left_by (flush_attempts held ops oks) pieces /\ length oks = length (filter is_flush ops).
Proof.
  induction ops as [|o ops IH]; intros m held out m' out' oks [G1 G2] B L H.
  - cbn in H. inversion H; subst. exists []. cbn. rewrite app_nil_r. auto.
  - inversion B as [|x y BO B']; subst. cbn [mlog_run] in H. cbn [plans_size fold_right] in L. fold (plans_size ops) in L. pose proof (plans_size_nonneg ops) as P.
    destruct o as [path t e c|path|]; cbn [mlog_step fst snd] in H.
    + destruct (mlog_run (mlog_create_plan path t e c m, out) ops) as [[m1 o1] oks1] eqn:R. inversion H; subst.
      cbn [flush_attempts plan_of filter is_flush]. eapply IH; [|exact B'| |exact R].
      * split; unfold mlog_create_plan; [apply bytes_app; auto; apply create_bytes, BO|]. apply parts_snoc; [exact G2|discriminate|]. intros rest.
        apply create_read. pose proof (zlen_nonneg _ m). lia.
      * unfold mlog_create_plan. rewrite zlen_app, create_len. lia.
    + destruct (mlog_run (mlog_set_storage_group_plan path m, out) ops) as [[m1 o1] oks1] eqn:R. inversion H; subst.
      cbn [flush_attempts plan_of filter is_flush]. eapply IH; [|exact B'| |exact R].
      * split; unfold mlog_set_storage_group_plan; [apply bytes_app; auto; apply group_bytes, BO|]. apply parts_snoc; [exact G2|discriminate|]. intros rest.
        apply sg_plan_read. pose proof (zlen_nonneg _ m). lia.
      * unfold mlog_set_storage_group_plan. rewrite zlen_app, group_len. lia.
    + unfold mlog_flush in H. destruct (record_part m out) as (l & X & t & T & I). destruct (wexec (mlog_record m) out) as [o1 ok]. cbn [fst snd] in X, I.
      set (m1 := if ok then [] else m). assert (H1 : (let '(s'', oks0) := mlog_run (m1, o1) ops in (s'', ok :: oks0)) = (m', out', oks)) by (unfold m1; destruct ok; exact H).
      destruct (mlog_run (m1, o1) ops) as [[m2 o2] oks1] eqn:R. inversion H1; subst m2 o2 oks. clear H H1.
      destruct (IH m1 (if ok then [] else held) o1 m' out' oks1) as (pieces & D & F & N); auto.
      * unfold m1. destruct ok; split; auto; [constructor|apply parts_nil].
      * unfold m1. pose proof (zlen_nonneg _ m). destruct ok; [rewrite zlen_nil|]; lia.
      * exists (l :: pieces). cbn [flush_attempts filter is_flush concat length]. split; [rewrite D, (se_data _ _ _ X), app_assoc; reflexivity|]. split; [|lia].
        constructor; [|exact F]. exists t. cbn [fst snd]. split; [|exact I]. intros rest. rewrite <- T. apply frame_spec; auto. lia.
Qed.
Lemma log_layout : forall sched ops m out oks, byte_paths ops -> plans_size ops < 2 ^ 31 -> mlog_run ([], sink_new sched) ops = (m, out, oks) ->
  exists pieces, sk_data out = concat pieces /\ Forall2 left_by (flush_attempts [] ops oks) pieces /\ length oks = length (filter is_flush ops).
Proof.
  intros sched ops m out oks B L H. assert (G : good_payload [] []) by (split; [constructor|apply parts_nil]).
  destruct (run_layout ops [] [] (sink_new sched) m out oks G B) as (pieces & D & F & N); auto. exists pieces. auto.
Qed.

(** ** All flushes succeeded *)
Lemma attempts_true : forall ops held oks, forallb (fun b => b) oks = true -> Forall (fun a => snd a = true) (flush_attempts held ops oks).
Proof.
  induction ops as [|[path t e c|path|] ops IH]; intros held oks H; cbn [flush_attempts]; auto.
  destruct oks as [|ok oks]; [constructor|]. cbn [forallb] in H. apply andb_prop in H. destruct H as [-> H]. constructor; auto.
Qed.
Lemma attempts_plans : forall ops held oks, forallb (fun b => b) oks = true -> length oks = length (filter is_flush (ops ++ [MlFlush])) ->
  concat (map fst (flush_attempts held (ops ++ [MlFlush]) oks)) = held ++ flat_map plan_of ops.
Proof.
  induction ops as [|o ops IH]; intros held oks H L.
  - destruct oks as [|ok [|]]; cbn in L; try discriminate. reflexivity.
  - destruct o as [path t e c|path|]; cbn [app flush_attempts flat_map filter is_flush] in *.
    + rewrite IH, <- app_assoc; auto.
    + rewrite IH, <- app_assoc; auto.
    + destruct oks as [|ok oks]; [discriminate|]. cbn [length] in L. cbn [forallb] in H. apply andb_prop in H. destruct H as [-> H]. cbn [map fst concat plan_of app].
      rewrite IH; auto; lia.
Qed.
Lemma frame_nonempty : forall l, frame_read [] <> Some l.
Proof. intros [ps r] H. vm_compute in H. discriminate. Qed.
Lemma log_read : forall sched ops m out oks, byte_paths ops -> plans_size ops < 2 ^ 31 -> mlog_run ([], sink_new sched) (ops ++ [MlFlush]) = (m, out, oks) ->
  forallb (fun b => b) oks = true -> mlog_read (sk_data out) = Some (flat_map plan_of ops).
Proof.
  intros sched ops m out oks B L H T.
  assert (B' : byte_paths (ops ++ [MlFlush])) by (apply Forall_app; split; [exact B|repeat constructor]).
  assert (L' : plans_size (ops ++ [MlFlush]) < 2 ^ 31).
  { replace (plans_size (ops ++ [MlFlush])) with (plans_size ops); [exact L|]. clear. induction ops as [|o ops IH]; [reflexivity|]. cbn [app plans_size fold_right]. fold (plans_size ops). fold (plans_size (ops ++ [MlFlush])). rewrite IH. reflexivity. }
  destruct (log_layout _ _ _ _ _ B' L' H) as (pieces & D & F & N). rewrite D.
  pose proof (attempts_plans ops [] oks T N) as E. pose proof (attempts_true (ops ++ [MlFlush]) [] oks T) as A. cbn [app] in E. rewrite <- E.
  unfold mlog_read. rewrite (parts_many _ _ _ (map fst (flush_attempts [] (ops ++ [MlFlush]) oks))); [reflexivity| |auto].
  exists pieces. split; [reflexivity|]. clear - F A. revert A. induction F as [|a bs ats pieces (t & R & I) F IH]; intros A; cbn [map]; constructor.
  - inversion A; subst. rewrite (proj1 I H1), app_nil_r in R. split; [|exact R]. intros ->. specialize (R []). apply frame_nonempty in R. exact R.
  - inversion A; subst. apply IH; auto.
Qed.
Lemma log_healthy : forall ops m out m' out' oks, is_healthy out -> mlog_run (m, out) ops = (m', out', oks) -> forallb (fun b => b) oks = true.
Proof.
  induction ops as [|o ops IH]; intros m out m' out' oks HH H; [cbn in H; inversion H; reflexivity|]. cbn [mlog_run] in H.
  destruct o as [path t e c|path|]; cbn [mlog_step fst snd] in H.
  - destruct (mlog_run _ ops) as [[m1 o1] oks1] eqn:R. inversion H; subst. eapply IH; eauto.
  - destruct (mlog_run _ ops) as [[m1 o1] oks1] eqn:R. inversion H; subst. eapply IH; eauto.
  - destruct (mlog_flush_healthy m out HH) as (o1 & E & X). rewrite E in H. destruct (mlog_run ([], o1) ops) as [[m1 o2] oks1] eqn:R. inversion H; subst.
    cbn [forallb andb]. eapply IH; [|exact R]. eapply sk_ext_healthy; eauto.
Qed.
