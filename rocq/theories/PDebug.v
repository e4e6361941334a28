(** Every outcome of a session of a debug build (C58). *)
From Verif Require Export PDebugCol.
From Coq Require Import Sorted.
Ltac Zify.zify_post_hook ::= idtac.
Local Notation session := SLayout.session.

(** ** Timestamps since the last flush increase *)
Definition steady (h : hist) : Prop := forall d m, good_times (times (recent h d m)).
Lemma good_nil : good_times [].
Proof. split; constructor. Qed.
Lemma good_snoc : forall ts t, good_times ts -> last ts (-1) < t <= i64_max -> good_times (ts ++ [t]).
Proof.
  intros ts t [S R] L. assert (A : 0 <= t /\ Forall (fun x => x < t) ts).
  { destruct ts as [|x ts] using rev_ind; [cbn in L; split; [lia|constructor]|]. clear IHts. rewrite last_snoc in L. apply Forall_app in R. destruct R as [R1 R2]. inversion R2; subst. split; [lia|].
    apply Forall_app. split; [|constructor; [lia|constructor]]. clear - S L. induction ts as [|y ts IH]; [constructor|]. cbn in S. inversion S; subst. constructor; [|auto].
    apply Forall_app in H2. destruct H2 as [_ H2]. inversion H2; subst. lia. }
  destruct A as [A B]. split; [|apply Forall_app; split; auto; constructor; [lia|constructor]]. clear - S B. induction ts as [|y ts IH]; cbn; [repeat constructor|].
  inversion S; subst. inversion B; subst. constructor; [auto|]. apply Forall_app. split; auto.
Qed.
Lemma steady_store : forall sc h d m t v, steady h -> admits sc h d m t = true -> t <= i64_max -> steady (h_store (mkPoint d m t v) h).
Proof.
  intros sc h d m t v H A T d' m'. rewrite recent_store. unfold admits in A. apply andb_prop in A. destruct A as [_ A]. apply Z.ltb_lt in A.
  destruct (str_eqb d' d && str_eqb m' m) eqn:E.
  - apply andb_prop in E. destruct E as [E1 E2]. apply str_eqb_eq in E1. apply str_eqb_eq in E2. subst d' m'. rewrite series_one. cbn [pt_device pt_name pt_time pt_value]. rewrite !PWriter.same_name_refl. cbn [andb].
    rewrite times_snoc. apply good_snoc; [apply H|]. unfold last_time in A. unfold times, recent. lia.
  - rewrite series_other, app_nil_r; [apply H|]. intros X. assert (d' = d /\ m' = m) as [-> ->] by (split; congruence). rewrite !str_eqb_refl in E. discriminate.
Qed.
Lemma steady_batch : forall sc d t vs h, steady h -> t <= i64_max -> steady (fst (h_batch sc d t vs h)).
Proof.
  intros sc d t. induction vs as [|[m v] vs IH]; intros h H T; cbn [h_batch]; auto. destruct (admits sc h d m t) eqn:A; auto. apply IH; auto. eapply steady_store; eauto.
Qed.
Lemma steady_call : forall sc o h, op_ok o -> steady h -> steady (h_call sc o h).
Proof.
  intros sc [d m t v|d t vs|ord] h O H; cbn [h_call op_ok] in *; auto.
  - destruct (admits sc h d m t) eqn:A; auto. pose proof (steady_store sc h d m t v H A ltac:(lia)) as S. exact S.
  - pose proof (steady_batch sc d t vs h H ltac:(lia)) as S. destruct (h_batch sc d t vs h) as [h' [|]]; exact S.
Qed.
Lemma steady_flush : forall h, steady (h_flush h).
Proof. intros h d m. exact good_nil. Qed.
Lemma steady_session : forall snap sc ops, Forall op_ok ops -> steady (ss_hist (session_of snap sc ops)).
Proof.
  intros snap sc ops. induction ops as [|o ops IH] using rev_ind; intros O; [intros d m; exact good_nil|]. apply Forall_app in O. destruct O as [O1 O2]. inversion O2; subst.
  rewrite session_snoc. destruct (session_step_hist snap sc (session_of snap sc ops) o) as [->|[_ ->]]; [apply steady_call; auto|apply steady_flush].
Qed.

(** ** All declared series *)
Definition every (f : mschema -> list (Z * value) -> bool) (sc : schema) (h : hist) : Prop := forall d m ms, declares sc d m ms -> f ms (recent h d m) = true.
Lemma every_iff : forall f sc h, all_series f sc (h_recent h) = true <-> every f sc h.
Proof.
  intros f sc h. unfold all_series, every. rewrite forallb_forall. split.
  - intros H d m ms (g & A & B). specialize (H _ A). rewrite forallb_forall in H. exact (H _ B).
  - intros H [d g] A. apply forallb_forall. intros [m ms] B. cbn [fst snd]. apply H. exists g. auto.
Qed.

Section Debug.
Variable snap decomp : list Z -> option (list Z).
Hypothesis HG : good_snap snap decomp.
Variable sc : schema.
Hypothesis Hsc : schema_ok sc.
Notation W := (winv Debug snap sc).
Lemma winv_chunk : forall h its w d m ms, W h its w -> declares sc d m ms -> exists c, pts_ok ms (recent h d m) /\ open_chunk Debug snap m ms (recent h d m) c.
Proof.
  intros h its w d m ms I D. apply declares_get in D; auto. destruct D as (g0 & D1 & D2). pose proof (winv_get Debug snap sc _ _ _ d I) as WG. rewrite D1 in WG.
  destruct (sm_get d (w_groups w)) as [g|]; [|contradiction]. destruct WG as [GC _]. pose proof (same_keys_get _ _ _ _ _ m GC) as SK. cbn in SK. rewrite D2 in SK.
  destruct (sm_get m (gw_chunks g)) as [c|]; [|contradiction]. exists c. exact SK.
Qed.
Lemma winv_fine : forall h its w, W h its w -> steady h -> every series_fine sc h.
Proof. intros h its w I S d m ms D. destruct (winv_chunk _ _ _ _ _ _ I D) as (c & P & O). eapply open_series; eauto. Qed.

(** ** Writing *)
Lemma gw_write_debug : forall f g0 g m t v, ginv Debug snap f g0 g -> sorted g0 -> i64_min <= t <= i64_max -> value_machine v ->
  zlen (f m) + 1 < 2 ^ 32 -> good_times (times (f m)) ->
  ((exists r, gw_write Debug snap m t v g = Ret r) <-> (last (map fst (f m)) (-1) < t -> forall ms, sm_get m g0 = Some ms -> storable ms v = true /\ series_fine ms (f m ++ [(t, v)]) = true)).
Proof.
  intros f g0 g m t v GI SO Ht Hv HL HT.
  assert (X : forall ms c, last (map fst (f m)) (-1) < t -> sm_get m g0 = Some ms -> sm_get m (gw_chunks g) = Some c -> storable ms v = true ->
    ((exists c', cw_write Debug snap t v c = Ret (inl c')) <-> series_fine ms (f m ++ [(t, v)]) = true)).
  { intros ms c L G0 C S. destruct GI as [GC GL]. pose proof (same_keys_get _ _ _ _ _ m GC) as SK. cbn in SK. rewrite G0, C in SK. destruct SK as [[P1 P2] O].
    destruct (storable_ok ms v S Hv) as [V1 V2]. apply (series_write snap decomp HG m ms (f m) c t v O); auto.
    - split; [|rewrite zlen_app, zlen_cons, zlen_nil; lia]. apply Forall_app. split; auto.
    - rewrite times_snoc. apply good_snoc; auto. unfold times. lia. }
  split.
  - intros [r H] L ms G0. pose proof (gw_storable Debug snap decomp HG _ _ _ _ _ _ _ _ GI SO Ht Hv HL L G0 H) as S. split; auto. destruct GI as [GC GL].
    pose proof (same_keys_get _ _ _ _ _ m GC) as SK. cbn in SK. rewrite G0 in SK. destruct (sm_get m (gw_chunks g)) as [c|] eqn:C; [|contradiction].
    apply (X ms c); auto. unfold gw_write in H. destruct (check_history m t (gw_last g)) as (l' & E & _). rewrite E, GL, (proj2 (Z.ltb_lt _ _) L), C in H.
    apply bind_ret in H. destruct H as ([c'|e] & H & H'); [eauto|discriminate].
  - intros H. pose proof GI as [GC GL]. unfold gw_write. destruct (check_history m t (gw_last g)) as (l' & E & _). rewrite E, GL. destruct (Z.ltb_spec (last (map fst (f m)) (-1)) t) as [L|L]; [|eauto].
    pose proof (same_keys_get _ _ _ _ _ m GC) as SK. cbn in SK. destruct (sm_get m g0) as [ms|] eqn:G0; destruct (sm_get m (gw_chunks g)) as [c|] eqn:C; try tauto; [|eauto].
    destruct (H L ms eq_refl) as [S F]. apply (X ms c) in F; auto. destruct F as [c' ->]. cbn [bind]. eauto.
Qed.
Fixpoint batch_fine (d : list Z) (t : Z) (vs : list (list Z * value)) (h : hist) : Prop :=
  match vs with
  | [] => True
  | (m, v) :: vs' =>
      if admits sc h d m t then (forall ms, declares sc d m ms -> storable ms v = true /\ series_fine ms (recent h d m ++ [(t, v)]) = true) /\ batch_fine d t vs' (h_store (mkPoint d m t v) h)
      else True
  end.
Lemma gw_many_debug : forall d t g0, sm_get d (decls sc) = Some g0 -> i64_min <= t <= i64_max -> forall vs h g n,
  ginv Debug snap (recent h d) g0 g -> Forall (point_ok sc) (h_all h) -> Forall (fun mv => value_machine (snd mv)) vs ->
  zlen (h_all h) + zlen vs < 2 ^ 32 -> 0 <= n -> n + zlen vs < 2 ^ 32 -> steady h ->
  ((exists r, gw_write_many Debug snap t vs n g = Ret r) <-> batch_fine d t vs h).
Proof.
  intros d t g0 G Ht. induction vs as [|[m v] vs IH]; intros h g n GI HP HV HL N0 HN ST; cbn [gw_write_many batch_fine] in *; [split; eauto|].
  rewrite zlen_cons in HL, HN. pose proof (zlen_nonneg _ vs) as Nv. inversion HV as [|? ? HV1 HV2]; subst. cbn [snd] in HV1. pose proof (recent_len h d m) as RL.
  pose proof (gw_write_debug _ _ _ m t v GI (decls_inner_sorted sc d g0 Hsc G) Ht HV1 ltac:(lia) (ST d m)) as GD.
  assert (HL1 : zlen (h_all h) + 1 < 2 ^ 32) by lia.
  assert (AD : admits sc h d m t = true <-> last (map fst (recent h d m)) (-1) < t /\ exists ms, sm_get m g0 = Some ms).
  { unfold admits. rewrite (declared_get sc Hsc d m g0 G). unfold last_time, recent. destruct (sm_get m g0) as [ms|]; cbn [andb].
    - rewrite Z.ltb_lt. split; [eauto|tauto].
    - split; [discriminate|intros [_ [? ?]]; discriminate]. }
  assert (GW : forall r, gw_write Debug snap m t v g = Ret r -> if admits sc h d m t then snd r = None /\ ginv Debug snap (recent (h_store (mkPoint d m t v) h) d) g0 (fst r) /\ Forall (point_ok sc) (h_all (h_store (mkPoint d m t v) h)) else exists e, snd r = Some e).
  { intros [g1 e] Wr. pose proof (group_write_ok Debug snap decomp HG sc Hsc _ _ _ _ _ _ _ _ _ G GI HP Ht HV1 HL1 Wr) as X. cbn [fst snd]. destruct (h_verdict sc h d m t).
    - destruct X as (-> & -> & A & B). auto.
    - destruct X as (-> & -> & A). eauto.
    - destruct X as (-> & (s & ->) & A). eauto. }
  assert (D1 : (forall ms, declares sc d m ms -> storable ms v = true /\ series_fine ms (recent h d m ++ [(t, v)]) = true) <-> (forall ms, sm_get m g0 = Some ms -> storable ms v = true /\ series_fine ms (recent h d m ++ [(t, v)]) = true)).
  { split; intros H ms E; apply H; [apply declares_get; eauto|]. apply declares_get in E; auto. destruct E as (g1 & E1 & E2). congruence. }
  destruct (admits sc h d m t) eqn:A.
  - pose proof (proj1 AD eq_refl) as [L _]. rewrite D1. split.
    + intros [r H]. apply bind_ret in H. destruct H as ([g1 e] & Wr & H). specialize (GW _ Wr). cbn [fst snd] in GW. destruct GW as (-> & GI1 & HP1).
      split; [intros ms E; apply GD; eauto|]. apply bind_ret in H. destruct H as (n1 & A1 & H). rewrite arithU_ok in A1 by lia. rinj A1.
      apply (IH _ g1 (n + 1) GI1 HP1); auto; try lia; [|eapply steady_store; eauto; lia|eauto].
      unfold h_all, h_store in *. cbn [h_flushed h_recent]. rewrite app_assoc, zlen_app, zlen_cons, zlen_nil. lia.
    + intros [H1 H2]. assert (X : exists r, gw_write Debug snap m t v g = Ret r) by (apply GD; auto). destruct X as [[g1 e] Wr]. specialize (GW _ Wr). cbn [fst snd] in GW. destruct GW as (-> & GI1 & HP1).
      rewrite Wr. cbn [bind]. rewrite arithU_ok by lia. cbn [bind]. apply (IH _ g1 (n + 1) GI1 HP1); auto; try lia; [|eapply steady_store; eauto; lia].
      unfold h_all, h_store in *. cbn [h_flushed h_recent]. rewrite app_assoc, zlen_app, zlen_cons, zlen_nil. lia.
  - split; [auto|]. intros _. assert (X : exists r, gw_write Debug snap m t v g = Ret r).
    { apply GD. intros L ms E. exfalso. assert (false = true) by (apply AD; eauto). discriminate. }
    destruct X as [[g1 e] Wr]. specialize (GW _ Wr). cbn [snd] in GW. destruct GW as [e' ->]. rewrite Wr. cbn [bind]. eauto.
Qed.
Lemma batch_more : forall d t vs h, exists l, h_recent (fst (h_batch sc d t vs h)) = h_recent h ++ l.
Proof.
  intros d t. induction vs as [|[m v] vs IH]; intros h; cbn [h_batch]; [exists []; rewrite app_nil_r; reflexivity|]. destruct (admits sc h d m t); [|exists []; rewrite app_nil_r; reflexivity].
  destruct (IH (h_store (mkPoint d m t v) h)) as [l E]. exists (mkPoint d m t v :: l). rewrite E. cbn [h_store h_recent]. rewrite <- app_assoc. reflexivity.
Qed.
Lemma every_before : forall h h' l, h_recent h' = h_recent h ++ l -> every series_fine sc h' -> every series_fine sc h.
Proof. intros h h' l E H d m ms D. specialize (H d m ms D). unfold recent in *. rewrite E, series_app in H. eapply series_fine_app; eauto. Qed.
Lemma batch_fine_iff : forall d t vs h, every series_fine sc h -> (batch_fine d t vs h <-> batch_storable sc d t vs h /\ every series_fine sc (fst (h_batch sc d t vs h))).
Proof.
  intros d t. induction vs as [|[m v] vs IH]; intros h F; cbn [batch_fine batch_storable h_batch]; [cbn [fst]; tauto|]. destruct (admits sc h d m t); [|cbn [fst]; tauto].
  assert (ON : series_of d m [mkPoint d m t v] = [(t, v)]) by (rewrite series_one; cbn [pt_device pt_name pt_time pt_value]; rewrite !PWriter.same_name_refl; reflexivity).
  assert (S : (forall ms, declares sc d m ms -> series_fine ms (recent h d m ++ [(t, v)]) = true) <-> every series_fine sc (h_store (mkPoint d m t v) h)).
  { split; intros H.
    - intros d' m' ms D. rewrite recent_store. destruct (str_eqb d' d && str_eqb m' m) eqn:E.
      + apply andb_prop in E. destruct E as [E1 E2]. apply str_eqb_eq in E1. apply str_eqb_eq in E2. subst d' m'. rewrite ON. auto.
      + rewrite series_other, app_nil_r; [apply F; auto|]. intros X. assert (d' = d /\ m' = m) as [-> ->] by (split; congruence). rewrite !str_eqb_refl in E. discriminate.
    - intros ms D. specialize (H d m ms D). rewrite recent_store, ON in H. exact H. }
  split.
  - intros [A B]. assert (E1 : every series_fine sc (h_store (mkPoint d m t v) h)) by (apply S; intros; apply A; auto). apply (IH _ E1) in B. destruct B as [B1 B2].
    split; [split; [intros; apply A; auto|exact B1]|exact B2].
  - intros [[A B] C]. destruct (batch_more d t vs (h_store (mkPoint d m t v) h)) as [l L]. pose proof (every_before _ _ _ L C) as E1. split.
    + intros ms D. split; [auto|]. apply S; auto.
    + apply (IH _ E1). auto.
Qed.

(** ** Flushing *)
Lemma sealed_done : forall m ms pts c, pts_ok ms pts -> good_times (times pts) -> sealed Debug snap m ms pts c -> series_done ms pts = true.
Proof.
  intros m ms pts c P T S. unfold sealed, cw_session in S. apply bind_ret in S. destruct S as ([c1|] & O & S); [|discriminate]. apply bind_ret in S. destruct S as (c2 & S & _).
  apply (series_seal snap decomp HG m ms pts c1 O P T). eauto.
Qed.
Lemma done_nil : forall ms, series_done ms [] = true.
Proof. intros. reflexivity. Qed.
Definition group_done (f : list Z -> list (Z * value)) (g0 : smap mschema) : Prop := Forall (fun ms => series_done (snd ms) (f (fst ms)) = true) g0.
Lemma seal_all_debug : forall f g0 cs, same_keys (fun m ms c => pts_ok ms (f m) /\ open_chunk Debug snap m ms (f m) c) g0 cs -> (forall m, good_times (times (f m))) -> group_done f g0 ->
  exists cs', seal_all_chunks Debug snap cs = Ret cs'.
Proof.
  intros f g0 cs H T D. unfold seal_all_chunks. induction H as [|[m ms] [k c] g0 cs [E [Hok S]] H IH]; cbn [sm_mapM]; [eauto|]. inversion D; subst.
  cbn [fst snd] in *. destruct (proj2 (series_seal snap decomp HG m ms (f m) c S Hok (T m))) as [c' ->]; auto. cbn [bind]. destruct IH as [cs' ->]; auto. cbn [bind]. eauto.
Qed.
Lemma flush_chunks_debug : forall f g0 cs, chunks_sealed Debug snap f g0 cs -> forall io, exists r, flush_chunks Debug snap cs io = Ret r.
Proof.
  intros f g0 cs H. induction H as [|[m ms] [k c] g0 cs [E [Hok S]] H IH]; intros io; cbn [flush_chunks]; [eauto|].
  cbn [fst snd] in *. unfold write_to_file_writer. rewrite (seal_again Debug snap decomp HG _ _ _ _ Hok S). cbn [bind].
  assert (WA : exists io1, write_all_pages c io = Ret io1).
  { unfold write_all_pages. destruct (_ =? _); [eauto|]. unfold end_current_chunk, io_with_out, start_flush_chunk. cbn [io_current]. eauto. }
  destruct WA as [io1 ->]. cbn [bind]. destruct (IH io1) as [r ->]. cbn [bind]. eauto.
Qed.
Lemma flush_groups_debug : forall F (G0 : smap (smap mschema)) gs, same_keys (fun d g0 g => ginv Debug snap (F d) g0 g) G0 gs -> (forall d m, good_times (times (F d m))) ->
  Forall (fun dg => group_done (F (fst dg)) (snd dg)) G0 -> forall io, exists r, flush_groups Debug snap gs io = Ret r.
Proof.
  intros F G0 gs H T. induction H as [|[d g0] [k g] G0 gs [E I] H IH]; intros D io; cbn [flush_groups]; [eauto|]. inversion D; subst.
  cbn [fst snd] in *. subst k. destruct (start_chunk_group d io) as [io1 [|]]; [|eauto]. unfold flush_to_filewriter.
  destruct I as [I1 I2]. destruct (seal_all_debug _ _ _ I1 (T d)) as [cs S]; auto. rewrite S. cbn [bind]. pose proof (seal_all_ok _ _ _ _ _ I1 _ S) as S'.
  destruct (flush_chunks_debug _ _ _ S' io1) as [r ->]. cbn [bind]. destruct (negb _); [eauto|]. destruct (IH H3 (end_chunk_group (snd r))) as [[[gs' io2] e] ->]. cbn [bind]. eauto.
Qed.
Lemma every_done : forall h, every series_done sc h <-> Forall (fun dg => group_done (recent h (fst dg)) (snd dg)) (decls sc).
Proof.
  intros h. rewrite Forall_forall. split.
  - intros H [d g0] I. apply Forall_forall. intros [m ms] J. cbn [fst snd] in *. apply H. apply declares_get; auto. apply in_sm_get in I; [|apply decls_sorted].
    exists g0. split; auto. apply in_sm_get; auto. eapply decls_inner_sorted; eauto.
  - intros H d m ms D. apply declares_get in D; auto. destruct D as (g0 & D1 & D2). apply sm_get_in in D1. apply sm_get_in in D2. specialize (H _ D1). cbn [fst snd] in H. unfold group_done in H. rewrite Forall_forall in H. exact (H _ D2).
Qed.
Lemma flush_debug : forall h its w, W h its w -> steady h -> ((exists r, flush_all Debug snap w = Ret r) <-> (0 <? h_counted h = true -> every series_done sc h)).
Proof.
  intros h its w I ST. split.
  - intros [[w' e] H] C. destruct (flush_all_ok _ _ _ HG _ Hsc _ _ _ _ _ I H) as [_ K]. rewrite C in K. destruct K as (new & _ & _ & _ & _ & K & _).
    intros d m ms D. destruct (recent h d m) as [|x l] eqn:E; [apply done_nil|]. rewrite <- E. destruct (winv_chunk _ _ _ _ _ _ I D) as (c & P & O).
    apply declares_get in D; auto. destruct D as (g0 & D1 & D2). apply sm_get_in in D1. apply sm_get_in in D2.
    assert (X : exists it, item_plan Debug snap (recent h) (d, g0) it).
    { clear - K D1. induction K as [|a b l1 l2 K1 K IH]; [destruct D1|]. destruct D1 as [->|D1]; eauto. }
    destruct X as (it & cs & -> & C1 & C2). cbn [fst snd] in *. assert (J : In (m, ms, recent h d m) (map plan_of cs)).
    { rewrite C2. unfold chunk_plan. apply filter_In. split; [|cbn [snd]; rewrite E; reflexivity]. apply in_map_iff. exists (m, ms). auto. }
    apply in_map_iff in J. destruct J as (ci & J1 & J2). rewrite Forall_forall in C1. destruct (C1 _ J2) as [_ _ C3]. unfold plan_of in J1. injection J1; intros Q3 Q2 Q1. rewrite Q1, Q2, Q3 in C3. exact (sealed_done _ _ _ _ P (ST d m) C3).
  - intros H. unfold flush_all. rewrite (wi_records _ _ _ _ _ _ I). replace (h_counted h >? 0) with (0 <? h_counted h) by (rewrite Z.gtb_ltb; auto). destruct (0 <? h_counted h); [|eauto].
    destruct (flush_groups_debug _ _ _ (wi_groups _ _ _ _ _ _ I) ST (proj1 (every_done h) (H eq_refl)) (w_io w)) as [[[gs io] e] ->]. cbn [bind]. destruct e; eauto.
Qed.
Lemma check_debug : forall h its w, W h its w -> steady h -> memory_bound sc h < 2 ^ 32 -> (exists r, check_memory Release snap w = Ret r) ->
  ((exists r, check_memory Debug snap w = Ret r) <-> ((w_next_check w <=? h_counted h) && ((2 ^ 27 <? memory snap sc (h_recent h)) && (0 <? h_counted h)) = true -> every series_done sc h)).
Proof.
  intros h its w I ST HM [r0 R]. unfold check_memory in *. rewrite (wi_records _ _ _ _ _ _ I), Z.geb_leb in *. destruct (w_next_check w <=? h_counted h); [|split; [discriminate|eauto]]. cbn [andb].
  destruct (mem_bound Debug snap decomp HG sc Hsc h its w I HM) as (n & D & M & _). rewrite (M Release) in R. rewrite (M Debug) in *. cbn [bind] in *.
  assert (E : n = memory snap sc (h_recent h)) by (apply (memory_exact Debug snap decomp HG sc Hsc h its w n I); auto). rewrite <- E.
  destruct (n =? 0); [discriminate|]. change CHUNK_GROUP_SIZE_THRESHOLD_BYTE with (2 ^ 27) in *. rewrite Z.gtb_ltb in *. destruct (2 ^ 27 <? n); [|split; [discriminate|eauto]]. cbn [andb].
  pose proof (flush_debug h its (set_next (wrapU 32 (w_next_check w * 2 ^ 27 / n)) w) (winv_set_next _ _ _ _ _ _ _ I) ST) as F. unfold set_next in F. rewrite (wi_records _ _ _ _ _ _ I) in F. rewrite <- F.
  split; [intros [r X]; apply bind_ret in X; destruct X as (y & X & _); eauto|intros [r ->]; cbn [bind]; eauto].
Qed.

(** ** Calls *)
Lemma every_count : forall f n h, every f sc (h_count n h) <-> every f sc h.
Proof. intros f n h. unfold every, recent. cbn [h_count h_recent]. tauto. Qed.
Lemma flush_flag : forall s o, (zlen (ss_flushes s) <? zlen (ss_flushes (session_call snap sc s o))) =
  call_ok sc o (ss_hist s) && ((ss_next s <=? h_counted (h_call sc o (ss_hist s))) && ((2 ^ 27 <? memory snap sc (h_recent (h_call sc o (ss_hist s)))) && (0 <? h_counted (h_call sc o (ss_hist s))))).
Proof.
  intros s o. unfold session_call. cbv zeta. destruct (call_ok sc o (ss_hist s)); cbn [andb ss_flushes]; [|apply Z.ltb_irrefl].
  destruct (ss_next s <=? _); cbn [andb ss_flushes]; [|apply Z.ltb_irrefl]. destruct ((_ <? _) && _); cbn [ss_flushes]; [|apply Z.ltb_irrefl].
  rewrite zlen_app, zlen_cons, zlen_nil. apply Z.ltb_lt. lia.
Qed.
Lemma overflows_iff : forall s o, overflows snap sc s o = false <->
  every series_fine sc (h_call sc o (ss_hist s)) /\
  (call_ok sc o (ss_hist s) && ((ss_next s <=? h_counted (h_call sc o (ss_hist s))) && ((2 ^ 27 <? memory snap sc (h_recent (h_call sc o (ss_hist s)))) && (0 <? h_counted (h_call sc o (ss_hist s))))) = true ->
   every series_done sc (h_call sc o (ss_hist s))).
Proof.
  intros s o. unfold overflows. cbv zeta. rewrite flush_flag, <- !every_iff. rewrite orb_false_iff, negb_false_iff. apply and_iff_compat_l.
  destruct (call_ok sc o (ss_hist s) && _); cbn [andb]; [rewrite negb_false_iff; tauto|]. split; [discriminate|reflexivity].
Qed.
Lemma finish_debug : forall h its w n a, W h its w -> steady h -> 0 <= n -> h_counted h + n <= zlen (h_recent h) -> zlen (h_all h) < 2 ^ 32 -> memory_bound sc h < 2 ^ 32 ->
  (exists r, (let* rc := arithU Release 32 (w_records w + n) in let* w' := check_memory Release snap (mkW (w_io w) (w_groups w) rc (w_next_check w) (w_schema w)) in Ret (w', a : answer)) = Ret r) ->
  ((exists r, (let* rc := arithU Debug 32 (w_records w + n) in let* w' := check_memory Debug snap (mkW (w_io w) (w_groups w) rc (w_next_check w) (w_schema w)) in Ret (w', a : answer)) = Ret r) <->
   ((w_next_check w <=? h_counted (h_count n h)) && ((2 ^ 27 <? memory snap sc (h_recent (h_count n h))) && (0 <? h_counted (h_count n h))) = true -> every series_done sc (h_count n h))).
Proof.
  intros h its w n a I ST Hn HC HA HM [r R]. pose proof (wi_counted _ _ _ _ _ _ I) as WC. pose proof (h_all_split h) as HS. pose proof (zlen_nonneg _ (h_flushed h)) as NF.
  rewrite arithU_ok in R |- * by (rewrite (wi_records _ _ _ _ _ _ I); lia). cbn [bind] in *.
  pose proof (winv_records Debug snap sc _ _ _ _ I Hn HC) as I'. unfold with_records in I'. pose proof (check_debug _ _ _ I' ST HM) as C. cbn [w_next_check] in C. apply bind_ret in R. destruct R as (w2 & R & _).
  rewrite <- C by eauto. split; [intros [x X]; apply bind_ret in X; destruct X as (y & X & _); eauto|intros [x ->]; cbn [bind]; eauto].
Qed.
Lemma undeclared : forall d, sm_get d (decls sc) = None -> forall m, is_declared sc d m = false.
Proof.
  intros d ED m. destruct (is_declared sc d m) eqn:D; auto. apply is_declared_iff in D. destruct D as (ms & D). apply declares_get in D; auto. destruct D as (g0 & D & _). congruence.
Qed.
Definition op_values (o : op) : list Z * Z * list (list Z * value) := match o with OpWrite d m t v => (d, t, [(m, v)]) | OpWriteMany d t vs => (d, t, vs) | OpClose _ => ([], 0, []) end.
Lemma step_debug : forall base s its w o, runs Debug snap sc base s its w -> steady (ss_hist s) -> op_ok o -> is_close o = false -> zlen (h_all (ss_hist s)) + op_points o < 2 ^ 32 ->
  memory_bound sc (h_call sc o (ss_hist s)) < 2 ^ 32 -> (let '(d, t, vs) := op_values o in batch_storable sc d t vs (ss_hist s)) -> (exists r, step Release snap w o = Ret r) ->
  ((exists r, step Debug snap w o = Ret r) <-> overflows snap sc s o = false).
Proof.
  intros base s its0 w o (I & _ & _ & N) ST HO NC HL HM SB R. set (its := base ++ its0) in *. clearbody its. rewrite overflows_iff. rewrite <- N. set (h := ss_hist s) in *. pose proof (winv_fine _ _ _ I ST) as FI. pose proof (wi_counted _ _ _ _ _ _ I) as WC.
  pose proof (h_all_split h) as HA. pose proof (zlen_nonneg _ (h_flushed h)) as NF. pose proof (zlen_nonneg _ (h_recent h)) as NR.
  destruct o as [d m t v|d t vs|ord]; cbn [step is_close op_ok op_points op_values call_ok] in *; [| |discriminate].
  - destruct HO as [Ht Hv]. pose proof (winv_get Debug snap sc _ _ _ d I) as WG. unfold writer_write in *.
    destruct (sm_get d (w_groups w)) as [g|] eqn:EG; destruct (sm_get d (decls sc)) as [g0|] eqn:ED; try tauto.
    2:{ cbn [h_call]. unfold h_verdict, admits. rewrite device_get, ED, (undeclared d ED) by auto. cbn [negb andb]. split; [split; [exact FI|discriminate]|eauto]. }
    pose proof (gw_many_debug d t g0 ED Ht [(m, v)] h g 0 WG (wi_points _ _ _ _ _ _ I) ltac:(constructor; [exact Hv|constructor]) ltac:(rewrite zlen_cons, zlen_nil; lia) (Z.le_refl 0) ltac:(rewrite zlen_cons, zlen_nil; lia) ST) as GM.
    rewrite (batch_fine_iff d t [(m, v)] h FI) in GM.
    assert (FE : every series_fine sc (fst (h_batch sc d t [(m, v)] h)) <-> every series_fine sc (h_call sc (OpWrite d m t v) h)) by (cbn [h_batch h_call]; destruct (admits sc h d m t); cbn [fst]; [rewrite every_count|]; tauto).
    rewrite FE in GM. clear FE. cbn [gw_write_many] in GM.
    assert (GE : (exists r, gw_write Debug snap m t v g = Ret r) <-> every series_fine sc (h_call sc (OpWrite d m t v) h)).
    { split.
      - intros [[g' [e|]] X]; rewrite X in GM; cbn [bind] in GM; (rewrite ?arithU_ok in GM by lia); cbn [bind gw_write_many] in GM; apply GM; eauto.
      - intros X. destruct (proj2 GM (conj SB X)) as [y Y]. apply bind_ret in Y. destruct Y as (r & Y & _). eauto. }
    rewrite <- GE. split.
    + intros [r H]. apply bind_ret in H. destruct H as ([g' e] & Wr & H). split; [eauto|]. destruct R as [r0 R]. rewrite (gw_write_refines _ _ _ _ _ _ Wr) in R. cbn [bind] in R. fold (with_group d g' w) in R, H.
      assert (HL' : zlen (h_all h) + 1 < 2 ^ 32) by lia. pose proof (group_write_ok Debug snap decomp HG sc Hsc _ _ _ _ _ _ _ _ _ ED WG (wi_points _ _ _ _ _ _ I) Ht Hv HL' Wr) as GW.
      destruct (h_verdict sc h d m t); [|discriminate|discriminate]. destruct GW as (A & -> & GI & HP). cbn [h_call andb] in *. rewrite A in *. set (q := mkPoint d m t v) in *.
      assert (I1 : W (h_store q h) its (with_group d g' w)).
      { eapply winv_group; eauto.
        - intros d' m' NN. rewrite recent_store. unfold q. rewrite series_other, app_nil_r; auto. congruence.
        - cbn [h_store h_recent]. rewrite zlen_app. pose proof (zlen_nonneg _ [q]). lia. }
      apply (finish_debug _ _ _ 1 AOk I1); eauto; try lia.
      * eapply steady_store; eauto. lia.
      * cbn [h_store h_counted h_recent]. rewrite zlen_app, zlen_cons, zlen_nil. lia.
      * unfold h_all. cbn [h_store h_flushed h_recent]. rewrite !zlen_app, zlen_cons, zlen_nil. lia.
    + intros [[[g' e] Wr] D]. rewrite Wr. cbn [bind]. destruct R as [r0 R]. rewrite (gw_write_refines _ _ _ _ _ _ Wr) in R. cbn [bind] in R. fold (with_group d g' w) in R |- *.
      assert (HL' : zlen (h_all h) + 1 < 2 ^ 32) by lia. pose proof (group_write_ok Debug snap decomp HG sc Hsc _ _ _ _ _ _ _ _ _ ED WG (wi_points _ _ _ _ _ _ I) Ht Hv HL' Wr) as GW.
      destruct (h_verdict sc h d m t); [|destruct GW as (_ & -> & _); eauto|destruct GW as (_ & (e' & ->) & _); eauto]. destruct GW as (A & -> & GI & HP). cbn [h_call andb] in *. rewrite A in *. set (q := mkPoint d m t v) in *.
      assert (I1 : W (h_store q h) its (with_group d g' w)).
      { eapply winv_group; eauto.
        - intros d' m' NN. rewrite recent_store. unfold q. rewrite series_other, app_nil_r; auto. congruence.
        - cbn [h_store h_recent]. rewrite zlen_app. pose proof (zlen_nonneg _ [q]). lia. }
      apply (finish_debug _ _ _ 1 AOk I1); eauto; try lia.
      * eapply steady_store; eauto. lia.
      * cbn [h_store h_counted h_recent]. rewrite zlen_app, zlen_cons, zlen_nil. lia.
      * unfold h_all. cbn [h_store h_flushed h_recent]. rewrite !zlen_app, zlen_cons, zlen_nil. lia.
  - destruct HO as [Ht Hv]. pose proof (winv_get Debug snap sc _ _ _ d I) as WG. unfold writer_write_many in *.
    destruct (sm_get d (w_groups w)) as [g|] eqn:EG; destruct (sm_get d (decls sc)) as [g0|] eqn:ED; try tauto.
    2:{ destruct vs as [|[m v] vs]; cbn [b_verdict h_call h_batch]; [|unfold h_verdict, admits; rewrite (undeclared d ED); cbn [andb]]; rewrite device_get, ED by auto; cbn [negb andb].
        - rewrite every_count. split; [split; [exact FI|discriminate]|eauto].
        - split; [split; [exact FI|discriminate]|eauto]. }
    assert (B0 : 0 + zlen vs < 2 ^ 32) by (pose proof (zlen_nonneg _ (h_all h)); lia).
    pose proof (gw_many_debug d t g0 ED Ht vs h g 0 WG (wi_points _ _ _ _ _ _ I) Hv HL (Z.le_refl 0) B0 ST) as GM. rewrite (batch_fine_iff d t vs h FI) in GM.
    assert (FE : every series_fine sc (fst (h_batch sc d t vs h)) <-> every series_fine sc (h_call sc (OpWriteMany d t vs) h)) by (cbn [h_call]; destruct (h_batch sc d t vs h) as [h' [|]]; cbn [fst]; [rewrite every_count|]; tauto).
    rewrite FE in GM. clear FE.
    assert (GE : (exists r, gw_write_many Debug snap t vs 0 g = Ret r) <-> every series_fine sc (h_call sc (OpWriteMany d t vs) h)) by tauto. clear GM. rewrite <- GE.
    assert (K : forall g' r, gw_write_many Debug snap t vs 0 g = Ret (g', r) ->
      ((exists x, match r with inr err => Ret (with_group d g' w, AErr err)
         | inl n => let* rc := arithU Debug 32 (w_records (with_group d g' w) + n) in let* w' := check_memory Debug snap (mkW (w_io (with_group d g' w)) (w_groups (with_group d g' w)) rc (w_next_check (with_group d g' w)) (w_schema (with_group d g' w))) in Ret (w', AOk) end = Ret x) <->
       (match b_verdict sc h d t vs with VStored => true | _ => false end && ((w_next_check w <=? h_counted (h_call sc (OpWriteMany d t vs) h)) &&
          ((2 ^ 27 <? memory snap sc (h_recent (h_call sc (OpWriteMany d t vs) h))) && (0 <? h_counted (h_call sc (OpWriteMany d t vs) h)))) = true -> every series_done sc (h_call sc (OpWriteMany d t vs) h)))).
    { intros g' r Wr. destruct R as [r0 R]. rewrite (gw_write_many_refines _ _ _ _ _ _ Wr) in R. cbn [bind] in R. fold (with_group d g' w) in R.
      pose proof (group_batch_ok Debug snap decomp HG sc Hsc _ _ _ ED Ht _ _ _ _ _ _ WG (wi_points _ _ _ _ _ _ I) Hv HL (Z.le_refl 0) B0 Wr) as GB. pose proof (steady_batch sc d t vs h ST ltac:(lia)) as SB'.
      cbn [h_call] in *. destruct (h_batch sc d t vs h) as [h' ok] eqn:EB. cbn [fst] in SB'. destruct GB as (GI & HP & HF & HC & HR & (l & L1 & L2 & L3) & GB).
      destruct (b_verdict sc h d t vs); [|destruct GB as (_ & ->); split; [discriminate|eauto]|destruct GB as (_ & (e' & ->)); split; [discriminate|eauto]].
      destruct GB as (-> & ->). specialize (L3 eq_refl). cbn [andb]. rewrite Z.add_0_l in *.
      assert (I1 : W h' its (with_group d g' w)) by (eapply winv_group; eauto; rewrite L1, zlen_app; pose proof (zlen_nonneg _ l); lia).
      apply (finish_debug _ _ _ (zlen vs) AOk I1); eauto.
      - apply zlen_nonneg.
      - rewrite HC, L1, zlen_app. lia.
      - unfold h_all. rewrite HF, L1, !zlen_app. lia. }
    split.
    + intros [x H]. apply bind_ret in H. destruct H as ([g' r] & Wr & H). split; [eauto|]. apply (K g' r Wr). exists x. exact H.
    + intros [[[g' r] Wr] D]. rewrite Wr. cbn [bind]. apply (K g' r Wr). exact D.
Qed.
End Debug.

(** ** Sessions *)
Section DebugSession.
Variable snap decomp : list Z -> option (list Z).
Hypothesis HG : good_snap snap decomp.
Variable sc : schema.
Hypothesis Hsc : schema_ok sc.
Lemma debug_step_complete : forall w h ops l o, trace Debug snap sc w h ops l -> ops_ok (ops ++ [o]) -> no_close (ops ++ [o]) = true ->
  roomy snap sc (ops ++ [o]) ->
  let s := session_of snap sc ops in
  if call_panics sc s o || overflows snap sc s o then panics (step Debug snap w o) else exists w', step Debug snap w o = Ret (w', reply sc (ss_hist s) o).
Proof.
  intros w h ops l o T O NC B s. pose proof (step_complete snap decomp HG sc Hsc w h ops l o (trace_refines _ _ _ _ _ _ T) O NC B) as R. cbv zeta in R. fold s in R.
  destruct (call_panics sc s o) eqn:CP; cbn [orb].
  { destruct (ret_or_panic _ (step Debug snap w o)) as [[r X]|X]; [|exact X]. apply step_refines in X. destruct R as [e R]. congruence. }
  pose proof (ops_ok_app _ _ O) as O1. destruct (last_ok _ _ O) as [OK OL]. pose proof (proj2 B ops o [] eq_refl) as B0.
  unfold no_close in NC. rewrite forallb_app in NC. apply andb_prop in NC. destruct NC as [NC1 NC2]. cbn [forallb] in NC2. rewrite andb_true_r in NC2. apply negb_true_iff in NC2.
  pose proof (op_points_nonneg o) as PN. destruct (trace_roomy Debug snap decomp HG sc Hsc _ _ _ _ T O1 NC1 (roomy_app _ _ _ _ B)) as (E & its & RU & _). fold s in E, RU, B0. rewrite <- E in B0.
  destruct (trace_ok Debug snap decomp HG sc Hsc _ _ _ _ T O1) as (TL & _). pose proof (h_all_split h) as HA. pose proof (zlen_nonneg _ (h_flushed h)) as NF.
  assert (HM : memory_bound sc (h_call sc o (ss_hist s)) < 2 ^ 32).
  { rewrite <- E. unfold memory_bound. pose proof (call_recent sc o h). lia. }
  assert (ST : steady (ss_hist s)) by (apply steady_session; apply O1).
  assert (SB : let '(d, t, vs) := op_values o in batch_storable sc d t vs (ss_hist s)).
  { unfold call_panics in CP. cbv zeta in CP. destruct o as [d m t v|d t vs|ord]; cbn [op_values]; [| |exact Logic.I]; apply stores_iff.
    - apply negb_false_iff in CP. exact CP.
    - apply orb_false_iff in CP. destruct CP as [CP _]. apply negb_false_iff in CP. exact CP. }
  destruct R as [w' R]. assert (OP : zlen (h_all (ss_hist s)) + op_points o < 2 ^ 32) by (rewrite <- E; lia).
  pose proof (step_debug snap decomp HG sc Hsc [] s its w o RU ST OK NC2 OP HM SB ltac:(eauto)) as D. destruct (overflows snap sc s o).
  - destruct (ret_or_panic _ (step Debug snap w o)) as [X|X]; [|exact X]. apply D in X. discriminate.
  - destruct (proj2 D eq_refl) as [r X]. pose proof (step_refines _ _ _ _ X) as Y. rewrite R in Y. exists w'. congruence.
Qed.
Lemma debug_replies_snoc : forall ops o s, debug_replies snap sc s (ops ++ [o]) =
  match debug_replies snap sc s ops with
  | None => None
  | Some l => let s' := fold_left (session_call snap sc) ops s in if call_panics sc s' o || overflows snap sc s' o then None else Some (l ++ [reply sc (ss_hist s') o])
  end.
Proof.
  induction ops as [|o' ops IH]; intros o s; cbn [app debug_replies fold_left].
  - cbv zeta. destruct (_ || _); reflexivity.
  - destruct (call_panics sc s o' || overflows snap sc s o'); [reflexivity|]. rewrite IH. destruct (debug_replies snap sc (session_call snap sc s o') ops); [|reflexivity]. cbn [option_map]. cbv zeta.
    destruct (_ || _); reflexivity.
Qed.
Lemma debug_session_complete : forall out w0 ops, writer_new sc (sink_new healthy) = (out, Some w0) -> ops_ok ops -> no_close ops = true ->
  roomy snap sc ops ->
  match debug_replies snap sc session_new ops with Some l => exists w, run Debug snap w0 ops = Ret (w, l) | None => panics (run Debug snap w0 ops) end.
Proof.
  intros out w0 ops NW. induction ops as [|o ops IH] using rev_ind; intros O NC B; [cbn; eauto|].
  pose proof (ops_ok_app _ _ O) as O1. pose proof NC as NC'. unfold no_close in NC'. rewrite forallb_app in NC'. apply andb_prop in NC'. destruct NC' as [NC1 _].
  pose proof (op_points_nonneg o) as PN. specialize (IH O1 NC1). rewrite debug_replies_snoc, run_snoc.
  specialize (IH (roomy_app _ _ _ _ B)). destruct (debug_replies snap sc session_new ops) as [l|].
  - destruct IH as (w & R). destruct (run_trace _ _ _ _ _ _ _ _ NW R) as (h & T). pose proof (debug_step_complete w h ops l o T O NC B) as S. cbv zeta in *. rewrite R. cbn [bind]. fold (session_of snap sc ops).
    destruct (_ || _).
    + destruct S as [e ->]. eexists. reflexivity.
    + destruct S as [w' ->]. exists w'. reflexivity.
  - destruct IH as (e & ->). eexists. reflexivity.
Qed.

Lemma debug_replies_some : forall ops s, (exists l, replies snap sc s ops = Some l) ->
  ((exists l, debug_replies snap sc s ops = Some l) <-> forall a o b, ops = a ++ o :: b -> overflows snap sc (fold_left (session_call snap sc) a s) o = false).
Proof.
  induction ops as [|o ops IH]; intros s [l R]; cbn [replies debug_replies] in *.
  - split; [|eauto]. intros _ [|x a] o b E; discriminate.
  - destruct (call_panics sc s o); [discriminate|]. cbn [orb]. destruct (replies snap sc (session_call snap sc s o) ops) as [l1|] eqn:R1; [|discriminate].
    specialize (IH (session_call snap sc s o) ltac:(eauto)). destruct (overflows snap sc s o) eqn:OV.
    + split; [intros [? ?]; discriminate|]. intros H. specialize (H [] o ops eq_refl). cbn in H. congruence.
    + split.
      * intros [l2 H]. destruct (debug_replies snap sc (session_call snap sc s o) ops) as [l3|]; [|discriminate]. intros [|x a] o' b E; cbn [app] in E; injection E as E1 E2; subst; [exact OV|].
        cbn [fold_left]. apply (proj1 IH ltac:(eauto) a o' b). reflexivity.
      * intros H. assert (X : exists l2, debug_replies snap sc (session_call snap sc s o) ops = Some l2).
        { apply IH. intros a o' b E. specialize (H (o :: a) o' b). cbn [fold_left] in H. apply H. rewrite E. reflexivity. }
        destruct X as [l2 ->]. cbn [option_map]. eauto.
Qed.
Lemma debug_builds : forall out w0 ops w l, writer_new sc (sink_new healthy) = (out, Some w0) -> ops_ok ops -> no_close ops = true ->
  roomy snap sc ops -> run Release snap w0 ops = Ret (w, l) ->
  (run Debug snap w0 ops = Ret (w, l) <-> forall a o b, ops = a ++ o :: b -> overflows snap sc (session_of snap sc a) o = false).
Proof.
  intros out w0 ops w l NW O NC B R. pose proof (session_complete snap decomp HG sc Hsc out w0 ops NW O NC B) as S. pose proof (debug_session_complete out w0 ops NW O NC B) as D.
  assert (RL : exists l', replies snap sc session_new ops = Some l') by (destruct (replies snap sc session_new ops); [eauto|]; destruct S as [e S]; congruence).
  unfold session_of. rewrite <- (debug_replies_some ops session_new RL). destruct (debug_replies snap sc session_new ops) as [l1|].
  - destruct D as [w1 D]. pose proof (run_refines _ _ _ _ D) as R1. rewrite R in R1. injection R1 as E1 E2. rewrite D, <- E1, <- E2. split; eauto.
  - destruct D as [e D]. rewrite D. split; [discriminate|intros [? ?]; discriminate].
Qed.

(** ** The close *)
Lemma fine_perm : forall a b (f : list Z -> bool), Permutation a b -> forallb f a = forallb f b.
Proof.
  intros a b f P. apply eq_true_iff_eq. rewrite !forallb_forall. split; intros H x I; apply H; [apply (Permutation_in x (Permutation_sym P))|apply (Permutation_in x P)]; exact I.
Qed.
Lemma end_file_debug_again : forall h its w ord paths devs, winv Debug snap sc h its w -> within its (io_tsmeta (w_io w)) ->
  zlen (h_all h) < 2 ^ 32 -> no_dots sc -> byte_names sc -> short_paths sc -> zlen paths <= 300000000 ->
  lists_paths (fun d m => its_series d m its <> []) paths -> lists_devices (fun d m => its_series d m its <> []) devs ->
  (exists io, end_file Debug ord (w_io w) = Ret io) <-> (zlen devs <= 256 /\ filter_fits paths) /\ forallb (fun q => forallb (hash_fine q) hash_seeds) paths = true.
Proof.
  intros h its w ord paths devs I IG HB ND BN SP PL LP LD. pose proof (wi_items _ _ _ _ _ _ I) as HI.
  unfold end_file. rewrite (wi_metas _ _ _ _ _ _ I). set (acc := io_tsmeta (w_io w)) in *.
  assert (SB : forall d m, zlen (its_series d m its) < 2 ^ 32).
  { intros d m. rewrite (wi_series _ _ _ _ _ _ I). pose proof (PWriter.series_len d m (h_flushed h)). unfold h_all in HB. rewrite zlen_app in HB. pose proof (zlen_nonneg _ (h_recent h)). lia. }
  destruct (chunk_map_spec (metas 7 its)) as (S & _ & _).
  destruct (metadata_loop_total Debug (chunk_map (metas 7 its)) None acc S) as [tsm M]; [discriminate| |].
  { apply Forall_forall. intros [q cms] J. cbn [snd]. apply (entry_total Debug snap decomp HG sc Hsc its 7 HI ND SB q cms J). }
  rewrite M. cbn [bind]. pose proof (tsm_devices Debug snap decomp HG sc Hsc its 7 HI acc tsm devs IG ND M LD) as PD.
  set (out := fst (wexec (WAll [2]) (io_out (w_io w)))). change cfg_max_degree_of_index_node with 256%nat.
  pose proof (construct_total ord tsm out) as CT.
  assert (ZD : zlen (nonempty tsm) = zlen devs) by (rewrite (zlen_perm _ _ _ PD); unfold zlen; rewrite map_length; auto). rewrite ZD in CT.
  assert (PO : Forall path_ok (map fst (chunk_map (metas 7 its)))).
  { apply Forall_forall. intros q J. destruct (cmap_keys Debug snap decomp HG sc Hsc its 7 q HI J) as (d & m & ms & D & ->). split; [exact (BN d m ms D)|exact (SP d m ms D)]. }
  pose proof (cmap_paths Debug snap decomp HG sc Hsc its 7 HI paths LP) as PP.
  pose proof (filter_panics _ PO) as FP. cbv zeta in FP. rewrite (filter_fits_perm _ _ PP), (fine_perm _ _ _ PP). unfold filter_fits. cbv zeta. rewrite <- FP, <- CT. clear FP CT.
  assert (PL' : zlen (map fst (chunk_map (metas 7 its))) <= 300000000) by (rewrite <- (zlen_perm _ _ _ PP); exact PL).
  pose proof (build_debug _ PO PL') as BD. split.
  - intros [io E]. apply bind_ret in E. destruct E as ([idx o1] & C & E). apply bind_ret in E. destruct E as (bf & B1 & E). apply bind_ret in E. destruct E as (bw & B2 & _).
    pose proof (build_rel _ _ _ B1) as B3. split; [split; [eauto|exists bw; rewrite B3; exact B2]|apply BD; eauto].
  - intros [[[[idx o1] C] [bw B]] HF]. rewrite C. cbn [bind]. apply bind_ret in B. destruct B as (bf & B1 & B2). destruct (proj2 (BD ltac:(eauto)) HF) as [bf' B3]. pose proof (build_rel _ _ _ B3) as B4.
    assert (bf' = bf) by congruence. subst bf'. rewrite B3. cbn [bind]. rewrite B2. cbn [bind]. eauto.
Qed.
Lemma end_file_debug : forall h its w ord paths devs, winv Debug snap sc h its w -> Forall is_group its ->
  zlen (h_all h) < 2 ^ 32 -> no_dots sc -> byte_names sc -> short_paths sc -> zlen paths <= 300000000 ->
  lists_paths (fun d m => its_series d m its <> []) paths -> lists_devices (fun d m => its_series d m its <> []) devs ->
  (exists io, end_file Debug ord (w_io w) = Ret io) <-> (zlen devs <= 256 /\ filter_fits paths) /\ forallb (fun q => forallb (hash_fine q) hash_seeds) paths = true.
Proof. intros h its w ord paths devs I IG. eapply end_file_debug_again; eauto. rewrite (wi_tsmeta _ _ _ _ _ _ I IG). apply within_nil. Qed.
Lemma debug_close_complete : forall w h ops l ord, trace Debug snap sc w h ops l -> ops_ok ops -> no_close ops = true -> roomy snap sc ops ->
  no_dots sc -> byte_names sc -> short_paths sc ->
  (exists r, step Debug snap w (OpClose ord) = Ret r) <-> debug_closable sc (session_of snap sc ops) = true.
Proof.
  intros w h ops l ord T O NC B ND BN SP. destruct (trace_roomy Debug snap decomp HG sc Hsc _ _ _ _ T O NC B) as (E & its & (I & G & _) & _). destruct B as [B _].
  assert (ST : steady (ss_hist (session_of snap sc ops))) by (apply steady_session; apply O). set (s := session_of snap sc ops) in *. rewrite <- E in I, ST.
  destruct (trace_ok Debug snap decomp HG sc Hsc _ _ _ _ T O) as (LA & _). assert (PN : 0 <= zsum (map op_points ops)) by (apply zsum_map_nonneg; intros; apply op_points_nonneg). destruct O as [_ O].
  unfold debug_closable. cbv zeta. pose proof (flush_debug snap decomp HG sc Hsc h its w I ST) as FD.
  assert (DO : negb (0 <? h_counted (ss_hist s)) || all_series series_done sc (h_recent (ss_hist s)) = true <-> exists r, flush_all Debug snap w = Ret r).
  { rewrite FD, <- E, <- every_iff. destruct (0 <? h_counted h); cbn [negb orb]; [tauto|]. split; auto. discriminate. }
  rewrite !andb_true_iff, DO. cbn [step]. unfold writer_close.
  assert (MAIN : forall w1 e, flush_all Debug snap w = Ret (w1, e) -> (exists io, end_file Debug ord (w_io w1) = Ret io) <->
    closable sc (List.concat (final_flushes s)) = true /\ forallb (fun q => forallb (hash_fine q) [5; 7; 11; 19; 31]) (stored_paths sc (List.concat (final_flushes s))) = true).
  { intros w1 e F. destruct (flush_all_ok _ _ _ HG _ Hsc _ _ _ _ _ I F) as [_ K]. set (h1 := if 0 <? h_counted h then h_flush h else h).
    assert (X : exists its1, winv Debug snap sc h1 its1 w1 /\ Forall is_group its1).
    { unfold h1. destruct (0 <? h_counted h); [destruct K as (new & K1 & K2 & _); exists (its ++ new); split; [exact K1|apply Forall_app; auto]|subst w1; eauto]. }
    destruct X as (its1 & I1 & G1). pose proof (session_flushed snap sc ops) as SF. fold s in SF. rewrite <- E in SF.
    assert (FF : List.concat (final_flushes s) = h_flushed h1).
    { unfold final_flushes, h1. rewrite <- E, concat_app, SF. destruct (0 <? h_counted h); cbn [List.concat h_flush h_flushed]; rewrite ?app_nil_r; reflexivity. }
    rewrite FF. set (pts := h_flushed h1) in *.
    assert (HP : Forall (point_ok sc) pts). { pose proof (wi_points _ _ _ _ _ _ I1) as P. unfold h_all in P. apply Forall_app in P. apply P. }
    assert (SE : forall d m, its_series d m its1 = series_of d m pts) by (intros d m; rewrite (wi_series _ _ _ _ _ _ I1); auto).
    assert (HA : h_all h1 = h_all h). { unfold h1. destruct (0 <? h_counted h); auto. unfold h_all, h_flush. cbn [h_flushed h_recent]. apply app_nil_r. }
    pose proof (stored_paths_ok sc Hsc pts HP ND) as LP. pose proof (stored_devices_ok sc Hsc pts HP) as LD. pose proof (stored_paths_len sc pts) as PL.
    rewrite closable_fits by lia. change [5; 7; 11; 19; 31] with hash_seeds. apply (end_file_debug h1 its1 w1 ord (stored_paths sc pts) (stored_devices sc pts) I1 G1); auto.
    - rewrite HA. lia.
    - lia.
    - destruct LP as [L1 L2]. split; auto. intros q. rewrite L2. split; intros (d & m & Q & Y); exists d, m; rewrite SE in *; auto.
    - destruct LD as [L1 L2]. split; auto. intros d. rewrite L2. split; intros (m & Y); exists m; rewrite SE in *; auto. }
  split.
  - intros [r R]. apply bind_ret in R. destruct R as ([w1 e] & F & R). cbn [fst] in R. apply bind_ret in R. destruct R as (io & R & _). destruct (proj1 (MAIN _ _ F) ltac:(eauto)) as [M1 M2]. split; [split; [eauto|exact M1]|exact M2].
  - intros [[[[w1 e] F] M1] M2]. rewrite F. cbn [bind fst]. destruct (proj2 (MAIN _ _ F) (conj M1 M2)) as [io ->]. cbn [bind]. eauto.
Qed.
Lemma debug_closed_complete : forall out w0 ops ord, writer_new sc (sink_new healthy) = (out, Some w0) -> ops_ok ops -> no_close ops = true ->
  roomy snap sc ops -> no_dots sc -> byte_names sc -> short_paths sc ->
  match debug_replies snap sc session_new ops with
  | None => panics (run Debug snap w0 (ops ++ [OpClose ord]))
  | Some l => if debug_closable sc (session_of snap sc ops) then exists w, run Debug snap w0 (ops ++ [OpClose ord]) = Ret (w, l ++ [AUnit])
              else panics (run Debug snap w0 (ops ++ [OpClose ord]))
  end.
Proof.
  intros out w0 ops ord NW O NC B ND BN SP. pose proof (debug_session_complete out w0 ops NW O NC B) as S. rewrite run_snoc. destruct (debug_replies snap sc session_new ops) as [l|].
  - destruct S as (w & R). rewrite R. cbn [bind]. destruct (run_trace _ _ _ _ _ _ _ _ NW R) as (h & T). pose proof (debug_close_complete w h ops l ord T O NC B ND BN SP) as C.
    destruct (debug_closable sc _).
    + destruct C as [_ C]. destruct (C eq_refl) as [[w' a] H]. rewrite H. cbn [bind]. exists w'. do 3 f_equal.
      cbn [step] in H. unfold writer_close in H. apply bind_ret in H. destruct H as (r & _ & H). apply bind_ret in H. destruct H as (io & _ & H). congruence.
    + destruct (ret_or_panic _ (step Debug snap w (OpClose ord))) as [X|[e X]]; [apply C in X; discriminate|]. rewrite X. eexists. reflexivity.
  - destruct S as (e & ->). eexists. reflexivity.
Qed.
End DebugSession.
