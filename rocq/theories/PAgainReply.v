(** Sessions with any number of closes: outcomes (C61). *)
From Verif Require Export PAgain PDebug SAgainReply.
Ltac Zify.zify_post_hook ::= idtac.

Section Replies.
Variable snap decomp : list Z -> option (list Z).
Hypothesis HG : good_snap snap decomp.
Variable sc : schema.
Hypothesis Hsc : schema_ok sc.

Lemma after_next_nonneg : forall ops, 0 <= ss_next (session_after snap sc ops).
Proof.
  induction ops as [|o ops IH] using rev_ind; [cbn; lia|]. rewrite after_snoc. unfold session_next. destruct (is_close o); [exact IH|]. unfold session_call. cbv zeta.
  repeat match goal with |- context [if ?b then _ else _] => destruct b end; cbn [ss_next]; auto; apply Z.mod_pos_bound; lia.
Qed.
Lemma after_flushed : forall ops, List.concat (ss_flushes (session_after snap sc ops)) = h_flushed (ss_hist (session_after snap sc ops)).
Proof.
  induction ops as [|o ops IH] using rev_ind; [reflexivity|]. rewrite after_snoc. unfold session_next. destruct (is_close o); [|apply PLayoutProps.call_flushed; exact IH].
  unfold session_close, final_flushes. cbn [ss_flushes ss_hist]. rewrite concat_app, IH. destruct (0 <? _); cbn [List.concat h_flush h_flushed]; rewrite ?app_nil_r; reflexivity.
Qed.
Lemma steady_after : forall ops, Forall op_ok ops -> steady (ss_hist (session_after snap sc ops)).
Proof.
  intros ops. induction ops as [|o ops IH] using rev_ind; intros F; [intros d m; exact (steady_session snap sc [] (Forall_nil _) d m)|]. apply Forall_app in F. destruct F as [F1 F2]. apply Forall_inv in F2.
  rewrite after_snoc. unfold session_next. destruct (is_close o).
  - unfold session_close. cbn [ss_hist]. destruct (0 <? _); [apply steady_flush|auto].
  - destruct (session_step_hist snap sc (session_after snap sc ops) o) as [->|[_ ->]]; [apply steady_call; auto|apply steady_flush].
Qed.
Lemma overflows_shift : forall s o, overflows snap sc s o = overflows snap sc (mkSession [] (ss_hist s) (ss_next s)) o.
Proof.
  intros [f h n] o. unfold overflows. cbn [ss_hist ss_next ss_flushes]. cbv zeta. rewrite call_shift. cbn [ss_flushes]. rewrite zlen_app, zlen_nil. f_equal. f_equal.
  destruct (Z.ltb_spec 0 (zlen (ss_flushes (session_call snap sc {| ss_flushes := []; ss_hist := h; ss_next := n |} o)))); [apply Z.ltb_lt|apply Z.ltb_ge]; lia.
Qed.
(** Nothing is said about the bytes here. *)
Local Notation inv p := (ainv p snap sc (fun _ => False) (fun _ _ _ => True)).
Lemma inv_trace : forall p w h ops l, trace p snap sc w h ops l -> ops_ok ops -> roomy_after snap sc ops -> exists its snaps, inv p ops h its snaps w.
Proof. intros p. apply (trace_again p snap decomp HG sc Hsc (fun _ => False)); tauto. Qed.
Lemma again_runs : forall p ops h its snaps w, inv p ops h its snaps w -> runs p snap sc its (mkSession [] h (ss_next (session_after snap sc ops))) [] w.
Proof.
  intros p ops h its snaps w [I E NX _ _ _ _]. split; [cbn [ss_hist]; rewrite app_nil_r; exact I|]. split; [constructor|]. split; [apply flushed_nil|exact NX].
Qed.
(** ** A call that is not a close *)
Lemma call_after : forall w h ops l o, trace Release snap sc w h ops l -> ops_ok (ops ++ [o]) -> roomy_after snap sc (ops ++ [o]) -> is_close o = false ->
  let s := session_after snap sc ops in
  if call_panics sc s o then panics (step Release snap w o) else exists w', step Release snap w o = Ret (w', reply sc (ss_hist s) o).
Proof.
  intros w h ops l o T O B C s. pose proof (ops_ok_app _ _ O) as O1. destruct (last_ok _ _ O) as [OK OL]. pose proof (proj2 B ops o [] eq_refl) as B0.
  pose proof (op_points_nonneg o) as PN. destruct (inv_trace Release _ _ _ _ T O1 (roomy_after_app _ _ _ _ B)) as (its & snaps & AI).
  pose proof (again_runs _ _ _ _ _ _ AI) as R. pose proof (ai_hist _ _ _ _ _ _ _ _ _ _ AI) as E. fold s in E, R, B0. rewrite <- E in B0.
  destruct (trace_ok Release snap decomp HG sc Hsc _ _ _ _ T O1) as (TL & _).
  pose proof (h_all_split h) as HA. pose proof (zlen_nonneg _ (h_flushed h)) as NF.
  assert (HM : memory_bound sc (h_call sc o h) < 2 ^ 32). { unfold memory_bound. pose proof (call_recent sc o h). lia. }
  assert (D : if call_panics sc s o then panics (step Release snap w o) else exists r, step Release snap w o = Ret r).
  { unfold call_panics. cbv zeta. rewrite <- E. destruct o as [d m t v|d t vs|ord]; [| |discriminate].
    - pose proof (PBound.write_iff snap decomp HG sc Hsc w h ops l d m t v T O HM) as W. pose proof (stores_iff sc d t [(m, v)] h) as S. destruct (stores sc h d t [(m, v)]); cbn [negb].
      + apply W, S. reflexivity.
      + destruct (ret_or_panic _ (step Release snap w (OpWrite d m t v))) as [X|X]; [|exact X]. apply W, S in X. discriminate.
    - pose proof (stores_iff sc d t vs h) as S. destruct vs as [|x vs].
      + cbn [stores negb orb nothing andb]. apply (step_empty snap decomp HG sc Hsc its (mkSession [] h (ss_next s)) [] w d t R); cbn [ss_hist ss_next]; try lia. apply after_next_nonneg.
      + pose proof (many_iff snap decomp HG sc Hsc w h ops l d t (x :: vs) T O ltac:(discriminate) HM) as W. cbn [nothing andb]. rewrite orb_false_r. destruct (stores sc h d t (x :: vs)); cbn [negb].
        * apply W, S. reflexivity.
        * destruct (ret_or_panic _ (step Release snap w (OpWriteMany d t (x :: vs)))) as [X|X]; [|exact X]. apply W, S in X. discriminate. }
  destruct (call_panics sc s o); [exact D|]. destruct D as [[w' a] D]. exists w'. rewrite D. do 2 f_equal. rewrite <- E. eapply step_reply; [exact HG|exact Hsc|exact (ai_winv _ _ _ _ _ _ _ _ _ _ AI)|exact OK|lia|exact D].
Qed.
Lemma debug_call_after : forall w h ops l o, trace Debug snap sc w h ops l -> ops_ok (ops ++ [o]) -> roomy_after snap sc (ops ++ [o]) -> is_close o = false ->
  let s := session_after snap sc ops in
  if call_panics sc s o || overflows snap sc s o then panics (step Debug snap w o) else exists w', step Debug snap w o = Ret (w', reply sc (ss_hist s) o).
Proof.
  intros w h ops l o T O B C s. pose proof (call_after w h ops l o (trace_refines _ _ _ _ _ _ T) O B C) as R. cbv zeta in R. fold s in R.
  destruct (call_panics sc s o) eqn:CP; cbn [orb].
  { destruct (ret_or_panic _ (step Debug snap w o)) as [[r X]|X]; [|exact X]. apply step_refines in X. destruct R as [e R]. congruence. }
  pose proof (ops_ok_app _ _ O) as O1. destruct (last_ok _ _ O) as [OK OL]. pose proof (proj2 B ops o [] eq_refl) as B0.
  pose proof (op_points_nonneg o) as PN. destruct (inv_trace Debug _ _ _ _ T O1 (roomy_after_app _ _ _ _ B)) as (its & snaps & AI).
  pose proof (again_runs _ _ _ _ _ _ AI) as RU. pose proof (ai_hist _ _ _ _ _ _ _ _ _ _ AI) as E. fold s in E, RU, B0. rewrite <- E in B0.
  destruct (trace_ok Debug snap decomp HG sc Hsc _ _ _ _ T O1) as (TL & _). pose proof (h_all_split h) as HA. pose proof (zlen_nonneg _ (h_flushed h)) as NF.
  assert (HM : memory_bound sc (h_call sc o h) < 2 ^ 32). { unfold memory_bound. pose proof (call_recent sc o h). lia. }
  assert (ST : steady h) by (rewrite E; apply steady_after; apply O1).
  assert (SB : let '(d, t, vs) := op_values o in batch_storable sc d t vs h).
  { unfold call_panics in CP. cbv zeta in CP. rewrite <- E in CP. destruct o as [d m t v|d t vs|ord]; cbn [op_values]; [| |exact Logic.I]; apply stores_iff.
    - apply negb_false_iff in CP. exact CP.
    - apply orb_false_iff in CP. destruct CP as [CP _]. apply negb_false_iff in CP. exact CP. }
  destruct R as [w' R]. assert (OP : zlen (h_all h) + op_points o < 2 ^ 32) by lia.
  pose proof (step_debug snap decomp HG sc Hsc its (mkSession [] h (ss_next s)) [] w o RU ST OK C OP HM SB ltac:(eauto)) as D. rewrite overflows_shift, <- E. destruct (overflows snap sc _ o).
  - destruct (ret_or_panic _ (step Debug snap w o)) as [X|X]; [|exact X]. apply D in X. discriminate.
  - destruct (proj2 D eq_refl) as [r X]. pose proof (step_refines _ _ _ _ X) as Y. rewrite R in Y. exists w'. rewrite E. congruence.
Qed.

(** ** A close *)
Lemma within_again : forall p h its snaps w tmss, no_dots sc -> winv p snap sc h its w -> Forall (fun s => exists more, its = s ++ more) snaps -> minv p snaps (io_tsmeta (w_io w)) tmss -> within its (io_tsmeta (w_io w)).
Proof.
  intros p h its snaps w tmss ND I PRE [M1 M2 M3 M4]. split; [exact M2|]. split; [exact M3|]. intros d X. rewrite M4 in X.
  assert (Y : exists tm, In tm (List.concat (map (dev_metas_of d) tmss))) by (destruct (List.concat (map (dev_metas_of d) tmss)) as [|tm ?]; [congruence|exists tm; left; reflexivity]).
  destruct Y as (tm & Y). apply in_concat in Y. destruct Y as (x & Y1 & Y2). apply in_map_iff in Y1. destruct Y1 as (t & <- & Y1). destruct (F2_in_r _ _ _ _ _ t M1 Y1) as (s & S1 & S2).
  rewrite Forall_forall in PRE. destruct (PRE s S1) as (more & ->). pose proof (wi_items _ _ _ _ _ _ I) as HI. apply Forall_app in HI. destruct HI as [HI _].
  destruct (lists_in p snap decomp HG sc Hsc ND s t d tm HI S2 Y2) as (m & ms & cms & D & K & _). exists m. rewrite its_series_app.
  apply (in_map fst) in K. apply (key_series p snap decomp HG sc Hsc s 7 HI) in K. destruct K as (d' & m' & Q & N). cbn [fst] in Q.
  pose proof (ND _ _ _ D) as NM. destruct (series_declared p snap sc Hsc s HI d' m' N) as (ms' & D'). pose proof (ND _ _ _ D') as NM'.
  destruct (path_inj d m d' m') as [-> ->]; auto. intros Z. apply app_eq_nil in Z. apply N. apply Z.
Qed.
Lemma close_after : forall p w h ops l ord, trace p snap sc w h ops l -> ops_ok ops -> roomy_after snap sc ops -> no_dots sc -> byte_names sc -> short_paths sc ->
  (exists r, step p snap w (OpClose ord) = Ret r) <-> close_fine sc p (session_after snap sc ops) = true.
Proof.
  intros p w h ops l ord T O B ND BN SP. destruct (inv_trace p _ _ _ _ T O B) as (its & snaps & [I E NX PRE (tmss & MI) _ _]). destruct B as [B _].
  assert (ST : steady h) by (rewrite E; apply steady_after; apply O). pose proof (after_flushed ops) as SF. set (s := session_after snap sc ops) in *. rewrite <- E in SF.
  destruct (trace_ok p snap decomp HG sc Hsc _ _ _ _ T O) as (LA & _). assert (PN : 0 <= zsum (map op_points ops)) by (apply zsum_map_nonneg; intros; apply op_points_nonneg). destruct O as [_ O].
  set (h1 := if 0 <? h_counted h then h_flush h else h).
  assert (FF : List.concat (final_flushes s) = h_flushed h1).
  { unfold final_flushes, h1. rewrite <- E, concat_app, SF. destruct (0 <? h_counted h); cbn [List.concat h_flush h_flushed]; rewrite ?app_nil_r; reflexivity. }
  assert (HA : h_all h1 = h_all h). { unfold h1. destruct (0 <? h_counted h); auto. unfold h_all, h_flush. cbn [h_flushed h_recent]. apply app_nil_r. }
  assert (X : forall w1 e, flush_all p snap w = Ret (w1, e) -> exists its1, winv p snap sc h1 its1 w1 /\ within its1 (io_tsmeta (w_io w1)) /\
     (forall d m, its_series d m its1 = series_of d m (h_flushed h1)) /\ Forall (point_ok sc) (h_flushed h1)).
  { intros w1 e F. pose proof (flush_all_tsmeta _ _ _ _ _ F) as TS. destruct (flush_all_ok _ _ _ HG _ Hsc _ _ _ _ _ I F) as [_ K].
    assert (Y : exists gs, winv p snap sc h1 (its ++ gs) w1). { unfold h1. destruct (0 <? h_counted h); [destruct K as (new & K1 & _); eauto|subst w1; exists []; rewrite app_nil_r; exact I]. }
    destruct Y as (gs & I1). exists (its ++ gs). split; [exact I1|]. split; [|split; [intros d m; rewrite (wi_series _ _ _ _ _ _ I1); auto|pose proof (wi_points _ _ _ _ _ _ I1) as P; unfold h_all in P; apply Forall_app in P; apply P]].
    rewrite <- TS in MI. exact (within_again p h1 (its ++ gs) snaps w1 tmss ND I1 (pre_more its gs snaps PRE) MI). }
  set (pts := h_flushed h1) in *.
  assert (HPT : Forall (point_ok sc) pts).
  { pose proof (wi_points _ _ _ _ _ _ I) as P. rewrite <- HA in P. unfold h_all in P. apply Forall_app in P. apply P. }
  pose proof (stored_paths_ok sc Hsc pts HPT ND) as [L1 L2]. pose proof (stored_devices_ok sc Hsc pts HPT) as [L3 L4]. pose proof (stored_paths_len sc pts) as PL.
  assert (LP : forall its1, (forall d m, its_series d m its1 = series_of d m pts) -> lists_paths (fun d m => its_series d m its1 <> []) (stored_paths sc pts) /\ lists_devices (fun d m => its_series d m its1 <> []) (stored_devices sc pts)).
  { intros its1 SE. split; split; auto.
    - intros q. rewrite L2. split; intros (d & m & Q & Y); exists d, m; rewrite SE in *; auto.
    - intros d. rewrite L4. split; intros (m & Y); exists m; rewrite SE in *; auto. }
  cbn [step]. unfold writer_close. destruct p; cbn [close_fine].
  - (* debug *)
    unfold debug_closable. cbv zeta. rewrite FF. pose proof (flush_debug snap decomp HG sc Hsc h its w I ST) as FD.
    assert (DO : negb (0 <? h_counted (ss_hist s)) || all_series series_done sc (h_recent (ss_hist s)) = true <-> exists r, flush_all Debug snap w = Ret r).
    { rewrite FD, <- E, <- every_iff. destruct (0 <? h_counted h); cbn [negb orb]; [tauto|]. split; auto. discriminate. }
    rewrite !andb_true_iff, DO.
    assert (MAIN : forall w1 e, flush_all Debug snap w = Ret (w1, e) -> (exists io, end_file Debug ord (w_io w1) = Ret io) <->
      closable sc pts = true /\ forallb (fun q => forallb (hash_fine q) [5; 7; 11; 19; 31]) (stored_paths sc pts) = true).
    { intros w1 e F. destruct (X w1 e F) as (its1 & I1 & W1 & SE & _). destruct (LP its1 SE). rewrite closable_fits by lia. change [5; 7; 11; 19; 31] with hash_seeds.
      apply (end_file_debug_again snap decomp HG sc Hsc h1 its1 w1 ord (stored_paths sc pts) (stored_devices sc pts) I1 W1); auto; [rewrite HA; lia|lia]. }
    split.
    + intros [r R]. apply bind_ret in R. destruct R as ([w1 e] & F & R). cbn [fst] in R. apply bind_ret in R. destruct R as (io & R & _). destruct (proj1 (MAIN _ _ F) ltac:(eauto)) as [M1 M2]. split; [split; [eauto|exact M1]|exact M2].
    + intros [[[[w1 e] F] M1] M2]. rewrite F. cbn [bind fst]. destruct (proj2 (MAIN _ _ F) (conj M1 M2)) as [io ->]. cbn [bind]. eauto.
  - (* release *)
    rewrite FF. destruct (flush_all_total snap decomp HG sc h its w I) as [[w1 e] F]. rewrite F. cbn [bind fst]. destruct (X w1 e F) as (its1 & I1 & W1 & SE & _). destruct (LP its1 SE).
    rewrite closable_fits by lia. rewrite <- (end_file_again snap decomp sc h1 its1 w1 ord (stored_paths sc pts) (stored_devices sc pts) HG Hsc I1 W1); auto; [|rewrite HA; lia].
    split; [intros [r R]; apply bind_ret in R; destruct R as (io & R & _); eauto|intros [io ->]; cbn [bind]; eauto].
Qed.
(** ** Sessions, for any account of the closes *)
Section Sessions.
Variable fine : profile -> session -> bool.
Variable closable_names : list op -> Prop.
Hypothesis names_app : forall a b, closable_names (a ++ b) -> closable_names a.
Hypothesis HF : forall p w h ops l ord, trace p snap sc w h ops l -> ops_ok ops -> roomy_after snap sc ops -> closable_names (ops ++ [OpClose ord]) ->
  (exists r, step p snap w (OpClose ord) = Ret r) <-> fine p (session_after snap sc ops) = true.
Lemma next_after : forall p w h ops l o, trace p snap sc w h ops l -> ops_ok (ops ++ [o]) -> roomy_after snap sc (ops ++ [o]) -> closable_names (ops ++ [o]) ->
  let s := session_after snap sc ops in
  if stops fine p snap sc s o then panics (step p snap w o) else exists w', step p snap w o = Ret (w', reply sc (ss_hist s) o).
Proof.
  intros p w h ops l o T O B NM s. destruct (is_close o) eqn:C.
  - destruct o as [| |ord]; try discriminate. pose proof (HF p w h ops l ord T (ops_ok_app _ _ O) (roomy_after_app _ _ _ _ B) NM) as K. fold s in K. cbn [stops]. destruct (fine p s); cbn [negb].
    + destruct (proj2 K eq_refl) as [[w' a] H']. exists w'. rewrite H'. cbn [reply]. do 2 f_equal.
      cbn [step] in H'. unfold writer_close in H'. apply bind_ret in H'. destruct H' as (r & _ & H'). apply bind_ret in H'. destruct H' as (io & _ & H'). congruence.
    + destruct (ret_or_panic _ (step p snap w (OpClose ord))) as [X|X]; [|exact X]. apply K in X. discriminate.
  - destruct p.
    + pose proof (debug_call_after w h ops l o T O B C) as K. destruct o; [exact K|exact K|discriminate].
    + pose proof (call_after w h ops l o T O B C) as K. destruct o; [exact K|exact K|discriminate].
Qed.
Lemma replies_snoc : forall p ops o s, session_replies fine p snap sc s (ops ++ [o]) =
  match session_replies fine p snap sc s ops with
  | None => None
  | Some l => let s' := fold_left (session_next snap sc) ops s in if stops fine p snap sc s' o then None else Some (l ++ [reply sc (ss_hist s') o])
  end.
Proof.
  intros p. induction ops as [|o' ops IH]; intros o s; cbn [app session_replies fold_left].
  - cbv zeta. destruct (stops fine p snap sc s o); reflexivity.
  - destruct (stops fine p snap sc s o'); [reflexivity|]. rewrite IH. destruct (session_replies fine p snap sc (session_next snap sc s o') ops); [|reflexivity]. cbn [option_map]. cbv zeta.
    destruct (stops _ _ _ _ _ o); reflexivity.
Qed.
Lemma sessions_complete : forall p out w0 ops, writer_new sc (sink_new healthy) = (out, Some w0) -> ops_ok ops -> roomy_after snap sc ops -> closable_names ops ->
  match session_replies fine p snap sc session_new ops with Some l => exists w, run p snap w0 ops = Ret (w, l) | None => panics (run p snap w0 ops) end.
Proof.
  intros p out w0 ops NW. induction ops as [|o ops IH] using rev_ind; intros O B NM; [cbn; eauto|].
  pose proof (ops_ok_app _ _ O) as O1. specialize (IH O1 (roomy_after_app _ _ _ _ B) (names_app _ _ NM)). rewrite replies_snoc, run_snoc. destruct (session_replies fine p snap sc session_new ops) as [l|].
  - destruct IH as (w & R). destruct (run_trace _ _ _ _ _ _ _ _ NW R) as (h & T). pose proof (next_after p w h ops l o T O B NM) as S. cbv zeta in *. rewrite R. cbn [bind]. fold (session_after snap sc ops).
    destruct (stops fine p snap sc (session_after snap sc ops) o).
    + destruct S as [e ->]. eexists. reflexivity.
    + destruct S as [w' ->]. exists w'. reflexivity.
  - destruct IH as (e & ->). eexists. reflexivity.
Qed.
End Sessions.
Lemma again_complete : forall p out w0 ops, writer_new sc (sink_new healthy) = (out, Some w0) -> ops_ok ops -> roomy_after snap sc ops -> names_ok sc ops ->
  match all_replies p snap sc session_new ops with Some l => exists w, run p snap w0 ops = Ret (w, l) | None => panics (run p snap w0 ops) end.
Proof.
  apply (sessions_complete (close_fine sc) (names_ok sc)).
  - intros a b NM C. apply NM. rewrite closes_app. pose proof (closes_nonneg b). lia.
  - intros p w h ops l ord T O B NM. unfold names_ok in NM. rewrite closes_snoc in NM. cbn [is_close] in NM. pose proof (closes_nonneg ops). destruct NM as (ND & BN & SP); [lia|]. exact (close_after p w h ops l ord T O B ND BN SP).
Qed.
End Replies.

(** ** Sessions without a close, and the first close, as in C55 *)
Section First.
Variable snap : list Z -> option (list Z).
Variable sc : schema.
Lemma snoc_inj : forall A (a b : list A) x y, a ++ [x] = b ++ [y] -> a = b /\ x = y.
Proof. intros A a b x y H. apply app_inj_tail in H. exact H. Qed.
Lemma pieces_app : forall a b, pieces sc (a ++ b) = pieces sc a ++ pieces sc b.
Proof. intros a b. unfold pieces. rewrite map_app, concat_app. reflexivity. Qed.
Lemma written_open : forall appends ops ps stages, session_file appends snap sc ops ps stages -> no_close ops = true -> stages = [] /\ ps = pieces sc (ss_flushes (session_of snap sc ops)).
Proof.
  intros appends ops ps stages W. induction W as [|ops ps stages o W IH C|ops ps stages ord bs W IH ps' P]; intros NC; [auto| |].
  - unfold no_close in *. rewrite forallb_app in NC. apply andb_prop in NC. destruct NC as [NC _]. destruct (IH NC) as [-> ->]. split; [reflexivity|].
    rewrite added_call by exact C. rewrite session_snoc, after_of by exact NC. destruct (session_of snap sc ops) as [f h n]. cbn [ss_flushes ss_hist ss_next]. rewrite (call_shift snap sc f). cbn [ss_flushes]. rewrite pieces_app. reflexivity.
  - unfold no_close in NC. rewrite forallb_app in NC. apply andb_prop in NC. destruct NC as [_ NC]. discriminate.
Qed.
Lemma listed_one : forall ps, listed_rows snap sc [ps] = index_rows snap sc ps.
Proof. intros ps. unfold listed_rows, index_rows. f_equal. apply map_ext. intros [d g]. cbn [map List.concat fst snd]. rewrite app_nil_r. reflexivity. Qed.
Lemma written_first : forall ops ord ps stages, written snap sc (ops ++ [OpClose ord]) ps stages -> no_close ops = true ->
  let flushes := final_flushes (session_of snap sc ops) in
  exists nodes, Permutation nodes (file_nodes snap sc flushes) /\ the_file snap ps = closed_file snap sc flushes nodes.
Proof.
  intros ops ord ps stages W NC flushes. inversion W as [H|ops' ps0 stages' o W' C H|ops' ps0 stages' ord' bs W' ps' (nodes & P & BS) H]; subst.
  - destruct ops; discriminate.
  - apply snoc_inj in H. destruct H as [-> ->]. discriminate.
  - apply snoc_inj in H. destruct H as [-> H]. destruct (written_open _ _ _ _ W' NC) as [-> ->].
    assert (PS : ps' = pieces sc flushes).
    { unfold ps', flushes, final_flushes. rewrite pieces_app, added_close, after_of by exact NC. reflexivity. }
    exists nodes. cbn [app] in P. rewrite listed_one in P. clearbody ps'. subst ps'. split; [exact P|].
    unfold the_file, closed_file, close_bytes, open_file. rewrite (app_nil_l [pieces sc flushes]), listed_one. cbv zeta. unfold data_bytes at 1. rewrite map_app, concat_app. cbn [map List.concat piece_bytes].
    fold (data_bytes snap (pieces sc flushes)). rewrite !app_nil_r.
    assert (L : zlen (magic ++ [3] ++ data_bytes snap (pieces sc flushes)) = 7 + zlen (data_bytes snap (pieces sc flushes))) by (rewrite !zlen_app; change (zlen magic) with 6; change (zlen [3]) with 1; lia).
    set (rs := List.concat (map _ (index_rows snap sc (pieces sc flushes)))).
    assert (L2 : zlen ((magic ++ [3] ++ data_bytes snap (pieces sc flushes)) ++ [2] ++ rs) = 7 + zlen (data_bytes snap (pieces sc flushes)) + 1 + zlen rs) by (rewrite zlen_app, L, zlen_app; change (zlen [2]) with 1; lia).
    rewrite L2, L. rewrite <- !app_assoc. reflexivity.
Qed.
End First.
