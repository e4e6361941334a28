(** Columns, pages and chunks of debug builds (C58): exactly when an overflow panics. *)
From Verif Require Export PProfile PDebugHash PPage PComplete SDebug.
From Coq Require Import Sorted.
Ltac Zify.zify_post_hook ::= idtac.

(** ** TS_2DIFF columns *)
Definition open_block (bits : Z) (b : list Z) : Prop := steps_fit bits b /\ (length b = 129%nat -> block_fits bits b).
Lemma write_all_open : forall k vs e done cur, ts2_rep Debug k e done cur -> Forall (signed_in (kbits k)) vs ->
  Forall (open_block (kbits k)) (chop 129 (cur ++ vs)) -> exists e', ts2_write_all Debug k vs e = Ret e'.
Proof.
  unfold ts2_write_all. induction vs as [|v vs IH]; cbn [foldM]; intros e done cur R Hv H; [eauto|].
  inversion Hv; subst. pose proof (r_len _ _ _ _ _ R) as Hlen.
  replace (cur ++ v :: vs) with ((cur ++ [v]) ++ vs) in H by (rewrite <- app_assoc; reflexivity).
  assert (Hne : cur ++ [v] <> []) by (intros X; apply app_eq_nil in X; destruct X; discriminate).
  assert (Hl1 : length (cur ++ [v]) = S (length cur)) by (rewrite app_length; cbn; lia).
  destruct (write_spec Debug k e done cur v R ltac:(auto)) as [W1 W2].
  destruct W1 as [e1 He1].
  - destruct (chop_first _ 129 (cur ++ [v]) vs ltac:(lia) Hne ltac:(lia)) as (s & t & E). rewrite E in H.
    inversion H as [|? ? [A _]]; subst. right. eapply steps_fit_app; eauto.
  - intros L. rewrite chop_app in H by lia. inversion H as [|? ? [_ A]]; subst. right. apply A. lia.
  - rewrite He1. cbn [bind]. destruct (W2 e1 He1) as [[L R1]|[L R1]].
    + eapply IH; eauto.
    + eapply (IH _ _ [] R1); eauto. cbn [app]. rewrite chop_app in H by lia. inversion H; auto.
Qed.
Lemma ts2_open_iff : forall k vs, Forall (signed_in (kbits k)) vs ->
  ((exists e, ts2_write_all Debug k vs (ts2_new k) = Ret e) <-> Forall (open_block (kbits k)) (chop 129 vs)).
Proof.
  intros k vs Hv. split.
  - intros [e He]. destruct (write_all_sound Debug k vs _ [] [] e (rep_new Debug k) Hv He) as (d & c & R & E).
    cbn [concat app] in E. rewrite <- E, (rep_chop _ _ _ _ _ R). apply Forall_app. split.
    + eapply Forall_impl; [|apply (r_done _ _ _ _ _ R)]. intros b [X|X]; [discriminate|]. split; [apply X|auto].
    + destruct (r_okd _ _ _ _ _ R) as [X|X]; [discriminate|]. pose proof (r_len _ _ _ _ _ R) as L. destruct c as [|f c]; constructor; auto. split; [exact X|]. lia.
  - intros H. exact (write_all_open k vs _ [] [] (rep_new Debug k) Hv H).
Qed.
Lemma ts2_serialize_iff : forall k vs e, Forall (signed_in (kbits k)) vs -> ts2_write_all Debug k vs (ts2_new k) = Ret e ->
  ((exists r, ts2_serialize Debug k e = Ret r) <-> Forall (block_fits (kbits k)) (chop 129 vs)).
Proof.
  intros k vs e Hv He. rewrite <- ts2_debug_iff by auto. unfold ts2_encode. rewrite He. cbn [bind]. split.
  - intros [r ->]. cbn [bind]. eauto.
  - intros [b H]. apply bind_ret in H. destruct H as (r & H & _). eauto.
Qed.
Lemma fits_open : forall bits l, Forall (block_fits bits) l -> Forall (open_block bits) l.
Proof. intros bits l. apply Forall_impl. intros b H. split; [apply H|auto]. Qed.
Lemma open_snoc : forall bits vs v, Forall (open_block bits) (chop 129 (vs ++ [v])) -> Forall (open_block bits) (chop 129 vs).
Proof.
  intros bits vs v.
  assert (G : forall n vs, (length vs <= n)%nat -> Forall (open_block bits) (chop 129 (vs ++ [v])) -> Forall (open_block bits) (chop 129 vs)).
  { clear vs. induction n as [|n IH]; intros vs L H; [destruct vs; [constructor|cbn in L; lia]|].
    destruct (Nat.le_gt_cases (length vs) 128) as [S|S].
    - destruct vs as [|x vs]; [constructor|]. rewrite chop_short in H by (try discriminate; rewrite app_length; cbn [length] in *; lia).
      rewrite chop_short by (try discriminate; lia). inversion H as [|? ? [A _] _]; subst. constructor; [|constructor]. split; [eapply steps_fit_app; eauto|lia].
    - assert (F : length (firstn 129 vs) = 129%nat) by (rewrite firstn_length; lia).
      rewrite <- (firstn_skipn 129 vs) in H |- *. rewrite <- app_assoc in H. rewrite chop_app in H by (auto; lia). rewrite chop_app by (auto; lia).
      inversion H; subst. constructor; auto. apply IH; auto. rewrite skipn_length. lia. }
  apply (G (length vs)). lia.
Qed.

(** ** The boolean forms *)
Lemma inside_iff : forall bits v, inside bits v = true <-> signed_in bits v.
Proof. intros. unfold inside, signed_in. rewrite andb_true_iff, Z.leb_le, Z.ltb_lt. tauto. Qed.
Lemma deltas_iff : forall bits b, deltas_fit bits b = true <-> steps_fit bits b.
Proof.
  intros. unfold deltas_fit, steps_fit. rewrite forallb_forall, Forall_forall. split; intros H x I; apply inside_iff; auto.
Qed.
Lemma block_iff : forall bits b, 0 < bits -> block_fit bits b = true <-> block_fits bits b.
Proof.
  intros bits b HB. unfold block_fit, block_fits. rewrite andb_true_iff, deltas_iff, forallb_forall. destruct (steps b) as [|d0 l] eqn:E.
  - split; intros [A _]; (split; [exact A|]); cbn [In]; intros; contradiction.
  - rewrite <- E. destruct (least_spec (steps b)) as [L1 L2]; [rewrite E; discriminate|]. rewrite Forall_forall in L2. split; intros [A B]; (split; [exact A|]).
    + intros d d' I J. pose proof (B d I) as X. pose proof (B d' J) as Y. rewrite inside_iff in X, Y. pose proof (L2 _ I). pose proof (L2 _ J). unfold signed_in in *. lia.
    + intros d I. apply inside_iff. apply B; auto.
Qed.
Lemma fine_iff : forall bits vs, 0 < bits -> forallb (block_fit bits) (chop 129 vs) = true <-> Forall (block_fits bits) (chop 129 vs).
Proof. intros bits vs HB. rewrite forallb_forall, Forall_forall. split; intros H x I; apply block_iff; auto. Qed.
Lemma open_iff : forall bits vs, 0 < bits ->
  forallb (fun b => if Nat.eqb (length b) 129 then block_fit bits b else deltas_fit bits b) (chop 129 vs) = true <-> Forall (open_block bits) (chop 129 vs).
Proof.
  intros bits vs HB. rewrite forallb_forall, Forall_forall. split; intros H x I; specialize (H x I).
  - destruct (Nat.eqb_spec (length x) 129).
    + apply block_iff in H; auto. split; [apply H|auto].
    + apply deltas_iff in H. split; auto. intros. congruence.
  - destruct H as [A B]. destruct (Nat.eqb_spec (length x) 129); [apply block_iff; auto|apply deltas_iff; auto].
Qed.
Definition kind_of (ms : mschema) : option ts2kind :=
  match ms_enc ms, ms_type ms with TS2DIFF, INT32 => Some KInt | TS2DIFF, INT64 => Some KLong | _, _ => None end.
Lemma col_bits_kind : forall ms, col_bits ms = option_map kbits (kind_of ms).
Proof. intros ms. unfold col_bits, kind_of. destruct (ms_enc ms), (ms_type ms); reflexivity. Qed.
Lemma page_open : forall ms pts, page_fine ms pts = true -> open_fine ms pts = true.
Proof.
  intros ms pts. unfold page_fine, open_fine. rewrite col_bits_kind. destruct (kind_of ms) as [k|]; cbn [option_map]; auto. pose proof (kbits_pos k).
  rewrite fine_iff, open_iff by lia. apply fits_open.
Qed.
Lemma nums_snoc : forall pts tv, nums (pts ++ [tv]) = nums pts ++ [value_num (snd tv)].
Proof. intros. unfold nums. rewrite map_app. reflexivity. Qed.
Lemma open_fine_snoc : forall ms pts tv, open_fine ms (pts ++ [tv]) = true -> open_fine ms pts = true.
Proof.
  intros ms pts tv. unfold open_fine. rewrite col_bits_kind. destruct (kind_of ms) as [k|]; cbn [option_map]; auto. pose proof (kbits_pos k).
  rewrite !open_iff by lia. rewrite nums_snoc. apply open_snoc.
Qed.
Lemma fine_nil : forall ms, page_fine ms [] = true.
Proof. intros ms. unfold page_fine. destruct (col_bits ms); reflexivity. Qed.

(** ** Value columns *)
Lemma kind_new : forall ms e0, encoder_new (ms_type ms) (ms_enc ms) = inl e0 ->
  match kind_of ms with Some k => ms_type ms = kdtype k /\ e0 = EncTs2 k (ts2_new k) | None => e0 = EncPlain (ms_type ms) [] end.
Proof. intros ms e0. unfold kind_of. destruct (ms_enc ms), (ms_type ms); cbn; intros H; inversion H; auto. Qed.
Lemma nums_values : forall pts, map value_num (map snd pts) = nums pts.
Proof. intros. apply map_map. Qed.
Lemma values_debug : forall ms e0 pts, encoder_new (ms_type ms) (ms_enc ms) = inl e0 -> points_ok (ms_type ms) pts ->
  ((exists e, encoder_write_all Debug (map snd pts) e0 = Ret (Some e)) <-> open_fine ms pts = true).
Proof.
  intros ms e0 pts E0 Hok. apply kind_new in E0. pose proof (points_ok_values _ _ Hok) as Hv. unfold open_fine. rewrite col_bits_kind. destruct (kind_of ms) as [k|]; cbn [option_map].
  - destruct E0 as [D ->]. rewrite D in Hv. pose proof (kbits_pos k) as KP. rewrite ts2_encoder_write_all by auto. rewrite nums_values, open_iff, <- ts2_open_iff by (try lia; rewrite <- nums_values; apply map_signed; auto).
    split; [intros [e H]; apply bind_ret in H; destruct H as (x & H & _); eauto|intros [e ->]; cbn [bind]; eauto].
  - subst e0. rewrite plain_write_all. split; eauto.
Qed.
Lemma serialize_debug : forall ms e0 pts e, encoder_new (ms_type ms) (ms_enc ms) = inl e0 -> points_ok (ms_type ms) pts ->
  encoder_write_all Debug (map snd pts) e0 = Ret (Some e) -> ((exists r, encoder_serialize Debug e = Ret r) <-> page_fine ms pts = true).
Proof.
  intros ms e0 pts e E0 Hok H. apply kind_new in E0. pose proof (points_ok_values _ _ Hok) as Hv. unfold page_fine. rewrite col_bits_kind. destruct (kind_of ms) as [k|]; cbn [option_map].
  - destruct E0 as [D ->]. rewrite D in Hv. pose proof (kbits_pos k) as KP. rewrite ts2_encoder_write_all in H by auto. apply bind_ret in H. destruct H as (x & H & E). assert (e = EncTs2 k x) by congruence. subst e. clear E.
    rewrite nums_values in H. rewrite fine_iff by lia. rewrite <- (ts2_serialize_iff k _ x) by (auto; rewrite <- nums_values; apply map_signed; auto). cbn [encoder_serialize].
    split; [intros [r R]; apply bind_ret in R; destruct R as (y & R & _); eauto|intros [r ->]; cbn [bind]; eauto].
  - subst e0. rewrite plain_write_all in H. assert (e = EncPlain (ms_type ms) ([] ++ concat (map plain_bytes (map snd pts)))) by congruence. subst e. cbn [encoder_serialize]. split; eauto.
Qed.

(** ** Pages *)
Definition good_times (ts : list Z) : Prop := StronglySorted Z.lt ts /\ Forall (fun t => 0 <= t <= i64_max) ts.
Lemma times_snoc : forall pts t v, times (pts ++ [(t, v)]) = times pts ++ [t].
Proof. intros. unfold times. rewrite map_app. reflexivity. Qed.
Lemma time_fits : forall ts, good_times ts -> Forall (block_fits 64) (chop 129 ts).
Proof. intros ts [S R]. eapply Forall_impl; [|exact (time_full_ok Debug ts S R)]. intros b [X|X]; [discriminate|exact X]. Qed.
Lemma time_signed : forall ts, good_times ts -> Forall (signed_in (kbits KLong)) ts.
Proof. intros ts [_ R]. eapply Forall_impl; [|exact R]. intros a A. red. cbn [kbits]. unfold i64_max in A. lia. Qed.
Lemma pw_write_debug : forall ms pts w t v, page_state Debug (ms_type ms) (ms_enc ms) pts w -> points_ok (ms_type ms) (pts ++ [(t, v)]) -> zlen pts + 1 < 2 ^ 32 ->
  good_times (times (pts ++ [(t, v)])) -> ((exists w', pw_write Debug t v w = Ret w') <-> open_fine ms (pts ++ [(t, v)]) = true).
Proof.
  intros ms pts w t v S Hok Hl HT. destruct (ps_value _ _ _ _ _ S) as (e0 & E0 & W).
  assert (VO : value_ok (ms_type ms) v) by (apply Forall_app in Hok; destruct Hok as [_ X]; inversion X as [|? ? [_ Y] _]; exact Y).
  split.
  - intros [w' H]. pose proof (page_state_write _ _ _ _ _ _ _ _ S VO Hl H) as S'. destruct (ps_value _ _ _ _ _ S') as (e1 & E1 & W1). apply (values_debug ms e1); eauto.
  - intros H. apply (values_debug ms e0 _ E0 Hok) in H. destruct H as [e H]. rewrite map_app in H. unfold encoder_write_all in H, W. rewrite foldM_app, W in H. cbn [bind map foldM snd] in H.
    unfold pw_write. rewrite times_snoc in HT.
    assert (T : exists te, ts2_write Debug KLong t (pw_time w) = Ret te).
    { destruct (proj2 (ts2_open_iff KLong _ (time_signed _ HT))) as [te T]; [apply fits_open; exact (time_fits _ HT)|]. unfold ts2_write_all in T. rewrite foldM_app in T.
      pose proof (ps_time _ _ _ _ _ S) as PT. unfold ts2_write_all in PT. rewrite PT in T. cbn [bind foldM] in T. apply bind_ret in T. destruct T as (x & T & _). eauto. }
    destruct T as [te ->]. cbn [bind]. destruct (encoder_write Debug v (pw_value w)) as [ve|]; [|discriminate]. cbn [bind].
    destruct (st_update_total Debug (ms_type ms) pts (pw_stats w) t v) as [st ->]; auto.
    { apply (page_inv Debug); [apply Forall_app in Hok; apply Hok|]. apply (ps_stats _ _ _ _ _ S). }
    cbn [bind]. rewrite (ps_points _ _ _ _ _ S). rewrite arithU_ok by (pose proof (zlen_nonneg _ pts); lia). cbn [bind]. eauto.
Qed.
Lemma prepare_debug : forall ms pts w, page_state Debug (ms_type ms) (ms_enc ms) pts w -> points_ok (ms_type ms) pts -> good_times (times pts) ->
  ((exists w', pw_prepare Debug w = Ret w') <-> page_fine ms pts = true).
Proof.
  intros ms pts w S Hok HT. destruct (ps_value _ _ _ _ _ S) as (e0 & E0 & W). rewrite <- (serialize_debug ms e0 pts _ E0 Hok W). unfold pw_prepare.
  destruct (proj2 (ts2_serialize_iff KLong _ _ (time_signed _ HT) (ps_time _ _ _ _ _ S)) (time_fits _ HT)) as [rt ->]. cbn [bind].
  split; [intros [w' H]; apply bind_ret in H; destruct H as (x & H & _); eauto|intros [r ->]; cbn [bind]; eauto].
Qed.
Lemma times_app : forall a b, times (a ++ b) = times a ++ times b.
Proof. intros. apply map_app. Qed.
Lemma good_app : forall a b, good_times (a ++ b) -> good_times a /\ good_times b.
Proof.
  intros a b [S R]. apply Forall_app in R. destruct R as [R1 R2]. pose proof (sorted_firstn (length a) _ S) as S1. pose proof (sorted_skipn (length a) _ S) as S2.
  rewrite firstn_app, firstn_all, Nat.sub_diag in S1. cbn [firstn] in S1. rewrite app_nil_r in S1. rewrite skipn_app, skipn_all, Nat.sub_diag in S2. cbn [skipn app] in S2. split; split; auto.
Qed.

(** ** Chunks *)
Section Chunk.
Variables snap decomp : list Z -> option (list Z).
Hypothesis HG : good_snap snap decomp.
Variables (id : list Z) (ms : mschema).
Notation inv := (chunk_inv Debug decomp id (ms_type ms) (ms_comp ms) (ms_enc ms)).
Lemma write_page_debug : forall c pages ims cur, inv c pages ims cur -> 1 <= zlen cur -> good_times (times cur) ->
  ((exists r, write_page_to_buffer Debug snap c = Ret r) <-> page_fine ms cur = true).
Proof.
  intros c pages ims cur I NE HT. unfold write_page_to_buffer. pose proof (ci_ok _ _ _ _ _ _ _ _ _ _ I) as K. apply Forall_app in K. destruct K as [K1 K2].
  pose proof (ci_cur _ _ _ _ _ _ _ _ _ _ I) as IC. destruct (cw_page c) as [pw0|]; [|destruct IC as [-> _]; rewrite fine_nil; split; eauto].
  rewrite <- (prepare_debug ms cur pw0 IC K2 HT). split; [intros [r H]; apply bind_ret in H; destruct H as (x & H & _); eauto|].
  intros [pw Hp]. rewrite Hp. cbn [bind].
  assert (ST : pw_stats pw = pw_stats pw0).
  { unfold pw_prepare in Hp. apply bind_ret in Hp. destruct Hp as (? & _ & Hp). apply bind_ret in Hp.
    destruct Hp as (? & _ & Hp). apply ret_inj in Hp. subst pw. reflexivity. }
  match goal with |- context [match ?m with None => Ret _ | _ => _ end] => destruct m as [[content cb]|] end; [|eauto].
  cbv zeta. pose proof (ci_num _ _ _ _ _ _ _ _ _ _ I) as N.
  match goal with |- context [bind ?m _] => assert (Q : exists b, m = Ret b) end.
  { pose proof (ci_first _ _ _ _ _ _ _ _ _ _ I) as F. pose proof (ci_buf _ _ _ _ _ _ _ _ _ _ I) as B.
    pose proof (Forall2_len _ _ _ _ _ (ci_ims _ _ _ _ _ _ _ _ _ _ I)) as L.
    destruct (cw_num_pages c =? 0); [eauto|]. destruct (Z.eqb_spec (cw_num_pages c) 1) as [E|]; [|eauto].
    rewrite E in N. unfold zlen in N. destruct ims as [|im [|im2 ims]]; cbn [length] in L; try lia.
    destruct F as [F1 F2]. rewrite F1, F2, B. cbn [buffer_of]. rewrite zlen_app. pose proof (zlen_nonneg _ (im_body im)).
    replace (zlen (im_head im) <=? zlen (im_head im) + zlen (im_body im)) with true by lia. eauto. }
  destruct Q as [[[b f] s] Q]. rewrite Q. cbn [bind].
  rewrite arithU_ok.
  2: { rewrite N. pose proof (pages_le pages (ci_pages _ _ _ _ _ _ _ _ _ _ I)). pose proof (ci_total _ _ _ _ _ _ _ _ _ _ I) as T. rewrite zlen_app in T. pose proof (zlen_nonneg _ cur). pose proof (zlen_nonneg _ pages). lia. }
  cbn [bind]. rewrite ST.
  destruct (st_merge_total Debug (ms_type ms) (concat pages) cur (cw_stats c) (pw_stats pw0)) as [st Hs].
  - rewrite <- chunk_tree_points. apply (tree_inv Debug); [rewrite chunk_tree_points; exact K1|]. apply (ci_stats _ _ _ _ _ _ _ _ _ _ I).
  - apply (page_inv Debug); [exact K2|apply IC].
  - rewrite <- zlen_app. apply (ci_total _ _ _ _ _ _ _ _ _ _ I).
  - rewrite Hs. cbn [bind]. eauto.
Qed.
Lemma estimate_debug : forall pts w, page_state Debug (ms_type ms) (ms_enc ms) pts w -> points_ok (ms_type ms) pts -> zlen pts <= 2 ^ 21 ->
  pw_estimate Debug w = Ret (page_estimate (ms_type ms) (ms_enc ms) pts).
Proof.
  intros pts w S Hok L. assert (E : exists s, pw_estimate Debug w = Ret s); [|destruct E as [s E]; rewrite E; f_equal; exact (estimate_ok _ _ _ _ _ _ S Hok L E)].
  destruct S as [Pt (e0 & E0 & Pv) _ _ _ _].
  assert (L1 : zlen (times pts) <= 2 ^ 21) by (unfold zlen, times in *; rewrite map_length; auto).
  assert (L2 : zlen (map snd pts) <= 2 ^ 21) by (unfold zlen in *; rewrite map_length; auto).
  destruct (ts2_sizes Debug KLong (times pts) _ (points_ok_times _ _ Hok) L1 Pt) as (A1 & A2 & _).
  destruct (value_sizes Debug _ _ _ _ _ E0 (points_ok_values _ _ Hok) L2 Pv) as (B1 & B2 & _).
  unfold pw_estimate. rewrite arithU_ok by lia. cbn [bind]. rewrite arithU_ok by lia. cbn [bind]. rewrite arithU_ok by lia. eauto.
Qed.
Lemma check_page_debug : forall c pages ims cur, inv c pages ims cur -> 1 <= zlen cur <= page_limit (ms_type ms) (ms_enc ms) -> good_times (times cur) ->
  ((exists r, check_page_size Debug snap c = Ret r) <->
   (if zlen cur <? cw_next_check c then true else if 65536 <? page_estimate (ms_type ms) (ms_enc ms) cur then page_fine ms cur else true) = true).
Proof.
  intros c pages ims cur I L HT. unfold check_page_size. pose proof (limit_small (ms_type ms) (ms_enc ms)) as LS.
  pose proof (ci_ok _ _ _ _ _ _ _ _ _ _ I) as K. apply Forall_app in K. destruct K as [K1 K2]. pose proof (write_page_debug c pages ims cur I ltac:(lia) HT) as W.
  pose proof (ci_cur _ _ _ _ _ _ _ _ _ _ I) as IC. destruct (cw_page c) as [pw|] eqn:EP.
  2: { destruct IC as [-> _]. rewrite zlen_nil in L. lia. }
  rewrite (ps_points _ _ _ _ _ IC). unfold MAX_NUMBER_OF_POINTS_IN_PAGE. destruct (Z.gtb_spec (zlen cur) 1048576); [lia|]. rewrite Z.geb_leb.
  destruct (Z.ltb_spec (zlen cur) (cw_next_check c)).
  - replace (cw_next_check c <=? zlen cur) with false by (symmetry; apply Z.leb_gt; lia). split; eauto.
  - replace (cw_next_check c <=? zlen cur) with true by (symmetry; apply Z.leb_le; lia). rewrite (estimate_debug _ _ IC K2) by lia. cbn [bind].
    change PAGE_SIZE_THRESHOLD with 65536. rewrite Z.gtb_ltb. destruct (65536 <? page_estimate (ms_type ms) (ms_enc ms) cur); [|split; eauto].
    rewrite <- W. split; [intros [r R]; apply bind_ret in R; destruct R as (x & R & _); eauto|intros [r ->]; cbn [bind]; eauto].
Qed.
Definition state_fine (s : list (list (Z * value)) * list (Z * value) * Z) : bool :=
  let '(pages, cur, _) := s in forallb (page_fine ms) pages && open_fine ms cur.
Lemma open_nil : open_fine ms [] = true.
Proof. apply page_open, fine_nil. Qed.
Lemma step_fine : forall pages cur next tv, forallb (page_fine ms) pages = true ->
  state_fine (cut_step (ms_type ms) (ms_enc ms) (pages, cur, next) tv) = true <->
  open_fine ms (cur ++ [tv]) = true /\
  (if zlen (cur ++ [tv]) <? next then true else if 65536 <? page_estimate (ms_type ms) (ms_enc ms) (cur ++ [tv]) then page_fine ms (cur ++ [tv]) else true) = true.
Proof.
  intros pages cur next tv HP. unfold cut_step. destruct (_ <? next); [cbn [state_fine]; rewrite HP; tauto|]. destruct (65536 <? _); cbn [state_fine]; [|rewrite HP; tauto].
  rewrite forallb_app, HP. cbn [forallb andb]. rewrite andb_true_r, open_nil, andb_true_r. split; [|tauto]. intros H. split; [apply page_open; exact H|exact H].
Qed.
Lemma cw_write_debug : forall c pages ims cur t v, inv c pages ims cur -> col_ok (ms_type ms) (ms_enc ms) -> zlen cur < page_limit (ms_type ms) (ms_enc ms) ->
  i64_min <= t <= i64_max -> value_ok (ms_type ms) v -> zlen (concat pages ++ cur) + 1 < 2 ^ 32 -> good_times (times (cur ++ [(t, v)])) -> forallb (page_fine ms) pages = true ->
  ((exists c', cw_write Debug snap t v c = Ret (inl c')) <-> state_fine (cut_step (ms_type ms) (ms_enc ms) (pages, cur, cw_next_check c) (t, v)) = true).
Proof.
  intros c pages ims cur t v I Hcol Hc Ht Hv Hl HT HP. rewrite step_fine by auto. unfold cw_write. pose proof (ci_cur _ _ _ _ _ _ _ _ _ _ I) as IC.
  assert (Q : exists pw, (match cw_page c with Some pw => inl pw | None => pw_new (cw_type c) (cw_enc c) end) = inl pw /\ page_state Debug (ms_type ms) (ms_enc ms) cur pw).
  { destruct (cw_page c) as [pw|]; [eauto|]. destruct IC as [-> _].
    rewrite (ci_type _ _ _ _ _ _ _ _ _ _ I), (ci_enc _ _ _ _ _ _ _ _ _ _ I).
    assert (exists w, pw_new (ms_type ms) (ms_enc ms) = inl w) as [w W].
    { unfold pw_new. destruct (ms_type ms), (ms_enc ms); cbn; eauto. exfalso. apply Hcol. auto. }
    exists w. split; auto. apply page_state_new; auto. }
  destruct Q as (pw & -> & PS). pose proof Hl as Hl'. rewrite zlen_app in Hl. pose proof (zlen_nonneg _ (concat pages)) as ZP. pose proof (zlen_nonneg _ cur) as ZC.
  pose proof (ci_ok _ _ _ _ _ _ _ _ _ _ I) as K. apply Forall_app in K. destruct K as [K1 K2].
  assert (K3 : points_ok (ms_type ms) (cur ++ [(t, v)])) by (apply Forall_app; split; [auto|repeat constructor; cbn [fst snd]; auto; apply Ht]).
  assert (GEN : forall pw', pw_write Debug t v pw = Ret pw' -> ((exists r, check_page_size Debug snap (cw_with_page (Some pw') c) = Ret r) <->
    (if zlen (cur ++ [(t, v)]) <? cw_next_check c then true else if 65536 <? page_estimate (ms_type ms) (ms_enc ms) (cur ++ [(t, v)]) then page_fine ms (cur ++ [(t, v)]) else true) = true)).
  { intros pw' Hw. pose proof (page_state_write _ _ _ _ _ _ _ _ PS Hv ltac:(lia) Hw) as PS'.
    assert (I' : inv (cw_with_page (Some pw') c) pages ims (cur ++ [(t, v)])).
    { destruct I as [I1 I2 I3 I4 Iims Ipg Iok Itot Icur Inum Ist Ibuf Ifirst].
      split; cbn [cw_with_page cw_id cw_type cw_comp cw_enc cw_page cw_stats cw_num_pages cw_buffer cw_first_stats cw_size_wo_stats]; auto.
      - rewrite app_assoc. apply Forall_app. split; [auto|repeat constructor; cbn [fst snd]; auto; apply Ht].
      - rewrite app_assoc, !zlen_app, zlen_cons, zlen_nil. lia. }
    apply (check_page_debug _ _ _ _ I'); auto. rewrite zlen_app, zlen_cons, zlen_nil. lia. }
  pose proof (pw_write_debug ms cur pw t v PS K3 ltac:(lia) HT) as PW. split.
  - intros [c' H]. apply bind_ret in H. destruct H as (pw' & Hw & H). split; [apply PW; eauto|]. apply (GEN pw' Hw). apply bind_ret in H. destruct H as (x & H & _). eauto.
  - intros [A B]. apply PW in A. destruct A as [pw' Hw]. apply (GEN pw' Hw) in B. destruct B as [x B]. rewrite Hw. cbn [bind]. rewrite B. cbn [bind]. eauto.
Qed.
Lemma series_fine_eq : forall pts, series_fine ms pts = state_fine (cut (ms_type ms) (ms_enc ms) pts).
Proof. intros. unfold series_fine, state_fine. destruct (cut _ _ pts) as [[a b] n]. reflexivity. Qed.
Lemma series_fine_snoc : forall pts tv, series_fine ms (pts ++ [tv]) = true -> series_fine ms pts = true.
Proof.
  intros pts tv. rewrite !series_fine_eq, cut_snoc. destruct (cut _ _ pts) as [[pages cur] next]. unfold cut_step. intros H. cbn [state_fine].
  assert (P : forallb (page_fine ms) pages = true /\ open_fine ms (cur ++ [tv]) = true).
  { destruct (_ <? next); [apply andb_prop in H; exact H|]. destruct (65536 <? _); [|apply andb_prop in H; exact H]. cbn [state_fine] in H. rewrite forallb_app in H. cbn [forallb] in H.
    apply andb_prop in H. destruct H as [H _]. apply andb_prop in H. destruct H as [H1 H2]. rewrite andb_true_r in H2. split; [exact H1|apply page_open; exact H2]. }
  destruct P as [-> P]. cbn [andb]. eapply open_fine_snoc; eauto.
Qed.
Lemma series_fine_app : forall a b, series_fine ms (a ++ b) = true -> series_fine ms a = true.
Proof. intros a b. induction b as [|x b IH] using rev_ind; [rewrite app_nil_r; auto|]. rewrite app_assoc. intros H. apply IH. eapply series_fine_snoc; eauto. Qed.
End Chunk.

Section Series.
Variables snap decomp : list Z -> option (list Z).
Hypothesis HG : good_snap snap decomp.
Variables (m : list Z) (ms : mschema).
Lemma open_col : forall pts tv c, open_chunk Debug snap m ms (pts ++ [tv]) c -> col_ok (ms_type ms) (ms_enc ms).
Proof.
  intros pts tv c H [E1 E2]. unfold open_chunk in H. rewrite cw_run_snoc in H. apply bind_ret in H. destruct H as ([c1|] & Hs & H); [|discriminate].
  apply (float_ts2 Debug snap m ms pts c1 E1 E2) in Hs. subst c1. unfold cw_write, new_chunk in H. cbn [cw_new cw_page cw_type cw_enc] in H. rewrite E1, E2 in H. cbn in H. discriminate.
Qed.
Lemma write_core : forall pts c t v, open_chunk Debug snap m ms pts c -> pts_ok ms (pts ++ [(t, v)]) -> good_times (times (pts ++ [(t, v)])) -> col_ok (ms_type ms) (ms_enc ms) -> series_fine ms pts = true ->
  ((exists c', cw_write Debug snap t v c = Ret (inl c')) <-> series_fine ms (pts ++ [(t, v)]) = true).
Proof.
  intros pts c t v H [Hok Hl] HT HC F. apply Forall_app in Hok. destruct Hok as [Hok Hx]. inversion Hx as [|? ? [Ht Hv] _]; subst. cbn [fst snd] in *. rewrite zlen_app, zlen_cons, zlen_nil in Hl.
  assert (Hl1 : zlen pts < 2 ^ 32) by lia.
  unfold open_chunk, new_chunk in H. pose proof (run_cut Debug snap decomp HG _ _ _ _ _ _ Hok Hl1 H) as R. rewrite series_fine_eq in F |- *. rewrite cut_snoc.
  pose proof (cut_ok (ms_type ms) (ms_enc ms) pts) as CI. pose proof (cut_concat (ms_type ms) (ms_enc ms) pts) as CC.
  destruct (cut _ _ pts) as [[pages cur] next]. destruct R as (ims & I & <-). cbn [cut_inv] in CI. cbn [state_fine] in F. apply andb_prop in F. destruct F as [F _].
  apply (cw_write_debug snap decomp m ms c pages ims cur t v I HC); auto; try tauto.
  - rewrite CC. lia.
  - rewrite <- CC, <- app_assoc, times_app in HT. apply good_app in HT. apply HT.
Qed.
Lemma open_series : forall pts c, pts_ok ms pts -> good_times (times pts) -> open_chunk Debug snap m ms pts c -> series_fine ms pts = true.
Proof.
  induction pts as [|[t v] l IH] using rev_ind; intros c Hp HT H; [unfold series_fine; cbn; rewrite open_nil; reflexivity|].
  pose proof (open_col _ _ _ H) as HC. unfold open_chunk in *. rewrite cw_run_snoc in H. apply bind_ret in H. destruct H as ([c1|] & Hs & H); [|discriminate]. cbn [fst snd] in H.
  assert (F : series_fine ms l = true).
  { apply (IH c1); auto.
    - destruct Hp as [A B]. apply Forall_app in A. rewrite zlen_app, zlen_cons, zlen_nil in B. split; [apply A|lia].
    - rewrite times_app in HT. apply good_app in HT. apply HT. }
  apply (write_core l c1 t v Hs Hp HT HC F). eauto.
Qed.
Lemma series_write : forall pts c t v, open_chunk Debug snap m ms pts c -> pts_ok ms (pts ++ [(t, v)]) -> good_times (times (pts ++ [(t, v)])) -> col_ok (ms_type ms) (ms_enc ms) ->
  ((exists c', cw_write Debug snap t v c = Ret (inl c')) <-> series_fine ms (pts ++ [(t, v)]) = true).
Proof.
  intros pts c t v H Hp HT HC. apply write_core; auto. apply (open_series pts c); auto.
  - destruct Hp as [A B]. apply Forall_app in A. rewrite zlen_app, zlen_cons, zlen_nil in B. split; [apply A|lia].
  - rewrite times_app in HT. apply good_app in HT. apply HT.
Qed.
Lemma series_seal : forall pts c, open_chunk Debug snap m ms pts c -> pts_ok ms pts -> good_times (times pts) ->
  ((exists c', seal_current_page Debug snap c = Ret c') <-> series_done ms pts = true).
Proof.
  intros pts c H Hp HT. pose proof (open_series pts c Hp HT H) as F. destruct Hp as [Hok Hl]. unfold open_chunk, new_chunk in H. pose proof (run_cut Debug snap decomp HG _ _ _ _ _ _ Hok Hl H) as R.
  pose proof (cut_concat (ms_type ms) (ms_enc ms) pts) as CC. unfold series_done, pages_of. unfold series_fine in F.
  destruct (cut _ _ pts) as [[pages cur] next]. destruct R as (ims & I & _). apply andb_prop in F. destruct F as [F _].
  unfold seal_current_page. pose proof (ci_cur _ _ _ _ _ _ _ _ _ _ I) as IC. pose proof (write_page_debug snap decomp m ms c pages ims cur I) as W. destruct (cw_page c) as [pw|] eqn:EP.
  - rewrite (ps_points _ _ _ _ _ IC). destruct cur as [|x cur].
    + rewrite zlen_nil. cbn. rewrite app_nil_r, F. split; eauto.
    + pose proof (zlen_nonneg _ cur). rewrite zlen_cons in W. rewrite zlen_cons. destruct (Z.gtb_spec (1 + zlen cur) 0); [|lia]. rewrite forallb_app, F. cbn [forallb andb]. rewrite andb_true_r.
      rewrite <- W; [|lia|rewrite <- CC, times_app in HT; apply good_app in HT; apply HT].
      split; [intros [r R]; apply bind_ret in R; destruct R as (y & R & _); eauto|intros [r ->]; cbn [bind]; eauto].
  - destruct IC as [-> ->]. cbn. split; eauto.
Qed.
End Series.
