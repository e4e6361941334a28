(** The memory estimate is at most 24 bytes per buffered point and 150 bytes per series, so writes of
    well-typed points never panic in release builds (C43). *)
From Verif Require Export PMem PPanic PSize.
Ltac Zify.zify_post_hook ::= idtac.

Lemma wrapU_le : forall n v, 0 <= v -> 0 <= n -> 0 <= wrapU n v <= v.
Proof. intros. unfold wrapU. split; [apply Z.mod_pos_bound; lia|apply Z.mod_le; lia]. Qed.

(** ** Chunks *)
Section Bound.
Variable p : profile.
Variable snap decomp : list Z -> option (list Z).
Hypothesis HG : good_snap snap decomp.

Lemma cw_bound : forall m ms pts c, pts_ok ms pts -> open_chunk p snap m ms pts c -> 24 * zlen pts + 150 < 2 ^ 32 ->
  exists n, cw_estimate Debug c = Ret n /\ n <= 24 * zlen pts + 150.
Proof. intros m ms pts c [Hok _] H HL. unfold open_chunk, new_chunk in H. eapply (cw_estimate_le p snap decomp HG); eauto. Qed.

(** ** Sums *)
Definition cost (f : list Z -> list (Z * value)) (g0 : smap mschema) : Z := zsum (map (fun kv => 24 * zlen (f (fst kv)) + 150) g0).
Lemma cost_nonneg : forall f g0, 0 <= cost f g0.
Proof. intros. unfold cost. induction g0; cbn [map zsum fold_right]; [lia|]. fold (zsum (map (fun kv => 24 * zlen (f (fst kv)) + 150) g0)). pose proof (zlen_nonneg _ (f (fst a))). lia. Qed.
Lemma group_bound : forall f g0 cs, gchunks p snap f g0 cs -> forall z, 0 <= z -> z + cost f g0 < 2 ^ 32 ->
  exists n, foldM (fun n (kc : list Z * chunk_writer) => let* s := cw_estimate Debug (snd kc) in arithU Debug 32 (n + s)) cs z = Ret n /\ z <= n <= z + cost f g0.
Proof.
  intros f g0 cs H. induction H as [|[m ms] [k c] g0 cs [E [Hok O]] H IH]; intros z Hz HL.
  - exists z. split; [auto|]. unfold cost. cbn. lia.
  - cbn [fst snd] in *. subst k. unfold cost in *. cbn [map fst zsum fold_right] in *. fold (zsum (map (fun kv => 24 * zlen (f (fst kv)) + 150) g0)) in *.
    pose proof (cost_nonneg f g0) as N. unfold cost in N. destruct (cw_bound m ms (f m) c Hok O) as (n & En & Ln); [lia|].
    pose proof (cw_estimate_any Debug _ _ En) as (_ & P0 & _). cbn [foldM snd]. rewrite En. cbn [bind]. rewrite arithU_ok by lia. cbn [bind].
    destruct (IH (z + n)) as (r & R & RL); [lia|lia|]. exists r. split; auto. lia.
Qed.
Definition total (F : list Z -> list Z -> list (Z * value)) (G0 : smap (smap mschema)) : Z := zsum (map (fun dg => cost (F (fst dg)) (snd dg)) G0).
Lemma total_nonneg : forall F G0, 0 <= total F G0.
Proof. intros. unfold total. induction G0; cbn [map zsum fold_right]; [lia|]. fold (zsum (map (fun dg => cost (F (fst dg)) (snd dg)) G0)). pose proof (cost_nonneg (F (fst a)) (snd a)). lia. Qed.
Lemma groups_bound : forall F G0 gs, same_keys (fun d g0 g => ginv p snap (F d) g0 g) G0 gs -> forall z, 0 <= z -> z + total F G0 < 2 ^ 32 ->
  exists n, foldM (fun n (dg : list Z * group_writer) => let* s := gw_mem_size Debug (snd dg) in arithU Debug 32 (n + s)) gs z = Ret n /\ z <= n <= z + total F G0.
Proof.
  intros F G0 gs H. induction H as [|[d g0] [k g] G0 gs [E [I _]] H IH]; intros z Hz HL.
  - exists z. split; [auto|]. unfold total. cbn. lia.
  - cbn [fst snd] in *. subst k. unfold total in *. cbn [map fst snd zsum fold_right] in *. fold (zsum (map (fun dg => cost (F (fst dg)) (snd dg)) G0)) in *.
    pose proof (total_nonneg F G0) as N. unfold total in N. destruct (group_bound (F d) g0 (gw_chunks g) I 0) as (n & En & Ln); [lia|lia|].
    cbn [foldM snd]. unfold gw_mem_size at 1. rewrite En. cbn [bind]. rewrite arithU_ok by lia. cbn [bind].
    destruct (IH (z + n)) as (r & R & RL); [lia|lia|]. exists r. split; auto. lia.
Qed.
End Bound.

(** ** The sum over all series is at most the number of points *)
Lemma zsum_plus : forall A (f g : A -> Z) l, zsum (map (fun x => f x + g x) l) = zsum (map f l) + zsum (map g l).
Proof. intros. induction l; cbn; [lia|]. unfold zsum in *. lia. Qed.
Definition keys_of (G0 : smap (smap mschema)) : list (list Z * list Z) := flat_map (fun dg => map (fun kv => (fst dg, fst kv)) (snd dg)) G0.
Lemma keys_nodup : forall G0, NoDup (map fst G0) -> Forall (fun dg => NoDup (map fst (snd dg))) G0 -> NoDup (keys_of G0).
Proof.
  intros G0. induction G0 as [|[d g] G0 IH]; intros N F; cbn [keys_of flat_map]; [constructor|].
  inversion N as [|? ? N1 N2]; subst. inversion F as [|? ? F1 F2]; subst. cbn [fst snd] in *.
  assert (X : forall (a b : list (list Z * list Z)), NoDup a -> NoDup b -> (forall x, In x a -> ~ In x b) -> NoDup (a ++ b)).
  { clear. induction a as [|x a IH]; intros b A B D; cbn; auto. inversion A; subst. constructor.
    - rewrite in_app_iff. intros [K|K]; [auto|]. apply (D x); cbn; auto.
    - apply IH; auto. intros y Y. apply D. cbn; auto. }
  apply X; [|apply IH; auto|].
  - clear - F1. induction g as [|[m ms] g IH]; cbn in *; [constructor|]. inversion F1; subst. constructor; auto.
    intros K. apply in_map_iff in K. destruct K as ([m' x] & K & K2). cbn in K. inversion K; subst. apply H1. apply in_map_iff. exists (m, x). auto.
  - intros [a b] I J. apply in_map_iff in I. destruct I as (? & I & _). inversion I; subst. unfold keys_of in J. apply in_flat_map in J.
    destruct J as ([d' g'] & J1 & J2). apply in_map_iff in J2. destruct J2 as (? & J2 & _). cbn in J2. inversion J2; subst. apply N1. apply in_map_iff. exists (a, g'). auto.
Qed.
Lemma series_sum : forall l keys, NoDup keys -> zsum (map (fun k => zlen (series_of (fst k) (snd k) l)) keys) <= zlen l.
Proof.
  intros l keys N. induction l as [|q l IH].
  - rewrite zlen_nil. clear N. induction keys; cbn; [lia|]. exact IHkeys.
  - set (one := fun k : list Z * list Z => if same_name (pt_device q) (fst k) && same_name (pt_name q) (snd k) then 1 else 0).
    assert (E : map (fun k => zlen (series_of (fst k) (snd k) (q :: l))) keys = map (fun k => one k + zlen (series_of (fst k) (snd k) l)) keys).
    { apply map_ext. intros k. unfold series_of, one. cbn [filter]. destruct (_ && _); cbn [map]; [rewrite zlen_cons; auto|lia]. }
    rewrite E, zsum_plus, zlen_cons.
    assert (O : zsum (map one keys) <= 1); [|lia]. clear - N.
    assert (Z0 : forall ks, ~ In (pt_device q, pt_name q) ks -> zsum (map one ks) = 0).
    { induction ks as [|[a b] ks IH]; intros H; cbn; [auto|]. cbn in H. unfold zsum in IH. rewrite IH by tauto.
      unfold one. cbn [fst snd]. destruct (same_name (pt_device q) a) eqn:X; [|cbn; auto]. destruct (same_name (pt_name q) b) eqn:Y; [|cbn; auto].
      apply same_name_eq in X. apply same_name_eq in Y. subst. tauto. }
    induction keys as [|k keys IH]; cbn; [lia|]. inversion N; subst. specialize (IH H2). unfold zsum in *.
    unfold one at 1. destruct (same_name (pt_device q) (fst k)) eqn:X; [|cbn; auto]. destruct (same_name (pt_name q) (snd k)) eqn:Y; [|cbn; auto].
    apply same_name_eq in X. apply same_name_eq in Y. destruct k as [a b]. cbn in *. subst. rewrite Z0 by auto. lia.
Qed.
Lemma cost_keys : forall F d g0, cost (F d) g0 = zsum (map (fun k : list Z * list Z => 24 * zlen (F (fst k) (snd k)) + 150) (map (fun kv : list Z * mschema => (d, fst kv)) g0)).
Proof. intros. unfold cost. rewrite map_map. reflexivity. Qed.
Lemma total_keys : forall F G0, total F G0 = zsum (map (fun k => 24 * zlen (F (fst k) (snd k)) + 150) (keys_of G0)).
Proof.
  intros. unfold total, keys_of. induction G0 as [|[d g] G0 IH]; cbn [map flat_map fst snd zsum fold_right]; auto.
  rewrite map_app, zsum_app. unfold zsum in IH at 1. rewrite IH. rewrite cost_keys. reflexivity.
Qed.
Lemma zsum_mul : forall A (f : A -> Z) l, zsum (map (fun x => 24 * f x + 150) l) = 24 * zsum (map f l) + 150 * zlen l.
Proof. intros. induction l; [reflexivity|]. rewrite zlen_cons. unfold zsum in *. cbn [map fold_right]. rewrite IHl. lia. Qed.

(** ** Reachable states *)
Section Reach.
Variable p : profile.
Variable snap decomp : list Z -> option (list Z).
Hypothesis HG : good_snap snap decomp.
Variable sc : schema.
Hypothesis Hsc : schema_ok sc.

Lemma insert_weight : forall V (f : list Z * V -> Z) k v m, (forall x, 0 <= f x) -> (forall a b c, f (a, c) = f (b, c)) ->
  zsum (map f (sm_insert k v m)) <= f (k, v) + zsum (map f m).
Proof.
  intros V f k v m N E. induction m as [|[k' v'] m IH]; cbn [sm_insert map]; [unfold zsum; cbn; lia|].
  destruct (str_cmp k k'); unfold zsum in *; cbn [map fold_right].
  - rewrite (E k' k v). pose proof (N (k', v')). lia.
  - lia.
  - lia.
Qed.
Lemma of_list_weight : forall V (f : list Z * V -> Z) l, (forall x, 0 <= f x) -> (forall a b c, f (a, c) = f (b, c)) ->
  zsum (map f (sm_of_list l)) <= zsum (map f l).
Proof.
  intros V f l N E. unfold sm_of_list. assert (G : forall acc, zsum (map f (fold_left (fun m kv => sm_insert (fst kv) (snd kv) m) l acc)) <= zsum (map f l) + zsum (map f acc)).
  { induction l as [|[k v] l IH]; intros acc; cbn [fold_left fst snd]; [unfold zsum; cbn; lia|].
    etransitivity; [apply IH|]. pose proof (insert_weight V f k v acc N E). unfold zsum in *. cbn [map fold_right]. lia. }
  specialize (G []). unfold zsum in *. cbn [map fold_right] in G. lia.
Qed.
Lemma zlen_weight : forall A (l : list A), zlen l = zsum (map (fun _ => 1) l).
Proof. intros. induction l; [reflexivity|]. rewrite zlen_cons, IHl. reflexivity. Qed.
Lemma of_list_len : forall V (l : list (list Z * V)), zlen (sm_of_list l) <= zlen l.
Proof. intros. rewrite !zlen_weight. apply (of_list_weight V (fun _ => 1)); intros; lia. Qed.
Lemma keys_len : zlen (keys_of (decls sc)) <= series_count sc.
Proof.
  assert (E : forall G0, zlen (keys_of G0) = zsum (map (fun dg => zlen (snd dg)) G0)).
  { induction G0 as [|[d g] G0 IH]; [reflexivity|]. cbn [keys_of flat_map]. rewrite zlen_app. unfold keys_of in IH. rewrite IH. unfold zlen at 1. rewrite map_length. reflexivity. }
  rewrite E. unfold decls. etransitivity; [apply (of_list_weight _ (fun dg => zlen (snd dg))); intros; [apply zlen_nonneg|auto]|].
  unfold series_count, sm_mapk. rewrite map_map. cbn [snd]. clear. induction sc as [|[d g] s IH]; [cbn; lia|]. unfold zsum in *. cbn [map fold_right snd].
  pose proof (of_list_len _ g). lia.
Qed.
Lemma total_le : forall h, total (recent h) (decls sc) <= memory_bound sc h.
Proof.
  intros h. rewrite total_keys, (zsum_mul _ (fun k => zlen (recent h (fst k) (snd k)))). unfold memory_bound. pose proof keys_len.
  assert (N : NoDup (keys_of (decls sc))).
  { apply keys_nodup.
    - apply lt_nodup. apply decls_sorted.
    - apply Forall_forall. intros [d g0] I. cbn [snd]. apply in_sm_get in I; [|apply decls_sorted]. apply lt_nodup. eapply decls_inner_sorted; eauto. }
  pose proof (series_sum (h_recent h) _ N) as S. unfold recent. lia.
Qed.
Lemma mem_bound : forall h its w, winv p snap sc h its w -> memory_bound sc h < 2 ^ 32 ->
  exists n, mem_size Debug (w_groups w) = Ret n /\ (forall q, mem_size q (w_groups w) = Ret n) /\ 0 <= n <= memory_bound sc h.
Proof.
  intros h its w I HL. pose proof (total_le h) as TL. destruct (groups_bound p snap decomp HG _ _ _ (wi_groups _ _ _ _ _ _ I) 0) as (n & E & L); [lia|lia|].
  exists n. split; [exact E|]. split; [|lia]. intros q. apply (mem_any q) in E. tauto.
Qed.
Lemma mem_pos : forall h its w n, winv p snap sc h its w -> mem_size Debug (w_groups w) = Ret n -> h_recent h <> [] -> 0 < n.
Proof.
  intros h its w n I M N. destruct (h_recent h) as [|q l] eqn:E; [congruence|]. apply (mem_any p) in M. destruct M as (_ & _ & M).
  pose proof (wi_points _ _ _ _ _ _ I) as P. rewrite Forall_forall in P. destruct (P q) as (ms & D & _); [unfold h_all; rewrite E; apply in_app_iff; cbn; auto|].
  apply declares_get in D; auto. destruct D as (g0 & D1 & D2). pose proof (winv_get _ _ _ _ _ _ (pt_device q) I) as WG. rewrite D1 in WG.
  destruct (sm_get (pt_device q) (w_groups w)) as [g|] eqn:G; [|contradiction]. destruct WG as [GC _].
  pose proof (same_keys_get _ _ _ _ _ (pt_name q) GC) as SK. cbn in SK. rewrite D2 in SK. destruct (sm_get (pt_name q) (gw_chunks g)) as [c|] eqn:C; [|contradiction].
  destruct SK as [S1 S2]. apply (M (pt_device q) g (pt_name q) c); try (apply sm_get_in; auto).
  eapply page_open; eauto. unfold recent, series_of. rewrite E. cbn [filter]. rewrite !same_name_refl. cbn. discriminate.
Qed.
End Reach.

(** ** Release builds *)
Section Rel.
Variable snap decomp : list Z -> option (list Z).
Hypothesis HG : good_snap snap decomp.
Variable sc : schema.
Hypothesis Hsc : schema_ok sc.

Lemma storable_ok : forall ms v, storable ms v = true -> value_machine v -> value_ok (ms_type ms) v /\ col_ok (ms_type ms) (ms_enc ms).
Proof.
  intros ms v S M. unfold storable in S. unfold col_ok. destruct (ms_type ms), (ms_enc ms), v; try discriminate; cbn in *; (split; [exact M|intros [X Y]; discriminate]).
Qed.
Lemma gw_write_rel : forall f g0 g m t v, ginv Release snap f g0 g -> i64_min <= t <= i64_max -> value_machine v ->
  zlen (f m) + 1 < 2 ^ 32 -> (last (map fst (f m)) (-1) < t -> forall ms, sm_get m g0 = Some ms -> storable ms v = true) ->
  exists r, gw_write Release snap m t v g = Ret r.
Proof.
  intros f g0 g m t v [GC GL] Ht Hv HL S. unfold gw_write. destruct (check_history m t (gw_last g)) as (l' & E & _). rewrite E, GL.
  destruct (Z.ltb_spec (last (map fst (f m)) (-1)) t) as [L|L]; [|eauto].
  pose proof (same_keys_get _ _ _ _ _ m GC) as SK. cbn in SK. destruct (sm_get m g0) as [ms|] eqn:G0; destruct (sm_get m (gw_chunks g)) as [c|] eqn:C; try tauto; [|eauto].
  destruct SK as [P O]. destruct (run_inv Release snap decomp HG _ _ _ _ P O) as (pg & im & cu & I & _ & X).
  destruct (storable_ok ms v (S L ms eq_refl) Hv) as [V1 V2].
  destruct (cw_write_rel snap decomp _ _ _ _ _ _ _ _ t v I V2 Ht V1) as [c' ->]; [rewrite X; auto|]. cbn [bind]. eauto.
Qed.
Lemma gw_many_rel : forall d t g0, sm_get d (decls sc) = Some g0 -> i64_min <= t <= i64_max -> forall vs h g n,
  ginv Release snap (recent h d) g0 g -> Forall (point_ok sc) (h_all h) -> Forall (fun mv => value_machine (snd mv)) vs ->
  zlen (h_all h) + zlen vs < 2 ^ 32 -> batch_storable sc d t vs h ->
  exists r, gw_write_many Release snap t vs n g = Ret r.
Proof.
  intros d t g0 G Ht. induction vs as [|[m v] vs IH]; intros h g n GI HP HV HL S; cbn [gw_write_many batch_storable] in *; [eauto|].
  rewrite zlen_cons in HL. pose proof (zlen_nonneg _ vs) as Nv. inversion HV as [|? ? HV1 HV2]; subst. cbn [snd] in HV1. pose proof (recent_len h d m) as RL.
  assert (AD : last_time h d m < t -> forall ms, sm_get m g0 = Some ms -> admits sc h d m t = true).
  { intros L ms E. unfold admits. rewrite (declared_get sc Hsc d m g0 G), E. cbn [andb]. apply Z.ltb_lt. auto. }
  destruct (gw_write_rel _ _ _ m t v GI Ht HV1) as [[g1 e] W]; [lia| |].
  { intros L ms E. rewrite (AD L ms E) in S. destruct S as [S _]. apply S. apply declares_get; eauto. }
  rewrite W. cbn [bind].
  assert (HL1 : zlen (h_all h) + 1 < 2 ^ 32) by lia.
  pose proof (group_write_ok Release snap decomp HG sc Hsc _ _ _ _ _ _ _ _ _ G GI HP Ht HV1 HL1 W) as GW.
  destruct (h_verdict sc h d m t).
  - destruct GW as (A & -> & GI1 & HP1). rewrite A in S. destruct S as [_ S]. rewrite arithU_release by lia. cbn [bind].
    eapply IH; [exact GI1|exact HP1|auto| |exact S]. unfold h_all, h_store in *. cbn [h_flushed h_recent]. rewrite app_assoc, zlen_app, zlen_cons, zlen_nil. lia.
  - destruct GW as (_ & -> & _). eauto.
  - destruct GW as (_ & (s & ->) & _). eauto.
Qed.
Lemma check_rel : forall h its w, winv Release snap sc h its w -> memory_bound sc h < 2 ^ 32 -> h_recent h <> [] ->
  exists w', check_memory Release snap w = Ret w'.
Proof.
  intros h its w I HL N. unfold check_memory. destruct (_ >=? _); [|eauto].
  destruct (mem_bound Release snap decomp HG sc Hsc _ _ _ I HL) as (n & D & R & B). rewrite (R Release). cbn [bind].
  pose proof (mem_pos Release snap decomp HG sc Hsc _ _ _ _ I D N) as P. replace (n =? 0) with false by lia.
  destruct (n >? _); [|eauto].
  destruct (flush_all_total snap decomp HG sc h its (set_next (wrapU 32 (w_next_check w * CHUNK_GROUP_SIZE_THRESHOLD_BYTE / n)) w)) as [r F].
  { apply winv_set_next. auto. }
  unfold set_next in F. rewrite F. cbn [bind]. eauto.
Qed.
End Rel.

Section Steps.
Variable snap decomp : list Z -> option (list Z).
Hypothesis HG : good_snap snap decomp.
Variable sc : schema.
Hypothesis Hsc : schema_ok sc.

Lemma h_all_split : forall h, zlen (h_all h) = zlen (h_flushed h) + zlen (h_recent h).
Proof. intros. unfold h_all. apply zlen_app. Qed.
Lemma winv_write : forall h its w d m t v, winv Release snap sc h its w -> i64_min <= t <= i64_max -> value_machine v ->
  zlen (h_all h) + 1 < 2 ^ 32 -> memory_bound sc (h_call sc (OpWrite d m t v) h) < 2 ^ 32 -> batch_storable sc d t [(m, v)] h ->
  exists r, step Release snap w (OpWrite d m t v) = Ret r.
Proof.
  intros h its w d m t v I Ht Hv HL HM S. cbn [step]. unfold writer_write. pose proof (winv_get _ _ _ _ _ _ d I) as WG. pose proof (wi_counted _ _ _ _ _ _ I) as WC.
  pose proof (h_all_split h) as HA. pose proof (zlen_nonneg _ (h_flushed h)) as NF.
  destruct (sm_get d (w_groups w)) as [g|] eqn:EG; destruct (sm_get d (decls sc)) as [g0|] eqn:ED; try tauto; [|eauto].
  cbn [batch_storable] in S. pose proof (recent_len h d m) as RL.
  destruct (gw_write_rel snap decomp HG _ _ _ m t v WG Ht Hv) as [[g' e] W]; [lia| |].
  { intros L ms E. assert (A : admits sc h d m t = true).
    { unfold admits. rewrite (declared_get sc Hsc d m g0 ED), E. cbn [andb]. apply Z.ltb_lt. auto. }
    rewrite A in S. apply (proj1 S). apply declares_get; eauto. }
  rewrite W. cbn [bind]. fold (with_group d g' w).
  pose proof (group_write_ok Release snap decomp HG sc Hsc _ _ _ _ _ _ _ _ _ ED WG (wi_points _ _ _ _ _ _ I) Ht Hv HL W) as GW.
  destruct (h_verdict sc h d m t).
  - destruct GW as (A & -> & GI & HP). cbn [h_call] in HM. rewrite A in HM. set (q := mkPoint d m t v) in *.
    assert (I1 : winv Release snap sc (h_store q h) its (with_group d g' w)).
    { eapply winv_group; eauto.
      - intros d' m' N. rewrite recent_store. unfold q. rewrite series_other, app_nil_r; auto. congruence.
      - cbn [h_store h_recent]. rewrite zlen_app. pose proof (zlen_nonneg _ [q]). lia. }
    assert (C1 : h_counted (h_store q h) + 1 <= zlen (h_recent (h_store q h))).
    { cbn [h_store h_counted h_recent]. rewrite zlen_app, zlen_cons, zlen_nil. lia. }
    pose proof (winv_records _ _ _ _ _ _ 1 I1 Z.le_0_1 C1) as I2.
    rewrite (arithU_ok Release 32) by (rewrite (wi_records _ _ _ _ _ _ I1); cbn [h_store h_counted]; lia). cbn [bind].
    fold (with_records (w_records (with_group d g' w) + 1) (with_group d g' w)).
    destruct (check_rel snap decomp HG sc Hsc _ _ _ I2 HM) as [w' ->]; [|cbn [bind]; eauto].
    cbn [h_count h_store h_recent]. intros X. apply app_eq_nil in X. destruct X. discriminate.
  - destruct GW as (_ & -> & _). eauto.
  - destruct GW as (_ & (s & ->) & _). eauto.
Qed.
Lemma winv_many : forall h its w d t vs, winv Release snap sc h its w -> i64_min <= t <= i64_max -> Forall (fun mv => value_machine (snd mv)) vs ->
  zlen (h_all h) + zlen vs < 2 ^ 32 -> memory_bound sc (h_call sc (OpWriteMany d t vs) h) < 2 ^ 32 -> vs <> [] -> batch_storable sc d t vs h ->
  exists r, step Release snap w (OpWriteMany d t vs) = Ret r.
Proof.
  intros h its w d t vs I Ht Hv HL HM NE S. cbn [step]. unfold writer_write_many. pose proof (winv_get _ _ _ _ _ _ d I) as WG. pose proof (wi_counted _ _ _ _ _ _ I) as WC.
  pose proof (h_all_split h) as HA. pose proof (zlen_nonneg _ (h_flushed h)) as NF. pose proof (zlen_nonneg _ vs) as NV.
  destruct (sm_get d (w_groups w)) as [g|] eqn:EG; destruct (sm_get d (decls sc)) as [g0|] eqn:ED; try tauto; [|eauto].
  destruct (gw_many_rel snap decomp HG sc Hsc d t g0 ED Ht vs h g 0 WG (wi_points _ _ _ _ _ _ I) Hv HL S) as [[g' r] W].
  rewrite W. cbn [bind]. fold (with_group d g' w).
  assert (B0 : 0 + zlen vs < 2 ^ 32) by lia.
  pose proof (group_batch_ok Release snap decomp HG sc Hsc _ _ _ ED Ht _ _ _ _ _ _ WG (wi_points _ _ _ _ _ _ I) Hv HL (Z.le_refl 0) B0 W) as GB.
  cbn [h_call] in HM. destruct (h_batch sc d t vs h) as [h' ok] eqn:EB. destruct GB as (GI & HP & HF & HC & HR & (l & L1 & L2 & L3) & GB).
  destruct (b_verdict sc h d t vs).
  - destruct GB as (-> & ->). specialize (L3 eq_refl).
    assert (I1 : winv Release snap sc h' its (with_group d g' w)).
    { eapply winv_group; eauto. rewrite L1, zlen_app. pose proof (zlen_nonneg _ l). lia. }
    assert (C1 : h_counted h' + zlen vs <= zlen (h_recent h')) by (rewrite HC, L1, zlen_app; lia).
    pose proof (winv_records _ _ _ _ _ _ (zlen vs) I1 NV C1) as I2.
    rewrite (arithU_ok Release 32) by (rewrite (wi_records _ _ _ _ _ _ I1), HC; lia). cbn [bind]. rewrite Z.add_0_l.
    fold (with_records (w_records (with_group d g' w) + zlen vs) (with_group d g' w)).
    destruct (check_rel snap decomp HG sc Hsc _ _ _ I2 HM) as [w' ->]; [|cbn [bind]; eauto].
    cbn [h_count h_recent]. rewrite L1. intros X. apply app_eq_nil in X. destruct X as [_ ->]. destruct vs; [congruence|]. rewrite zlen_cons, zlen_nil in L3. pose proof (zlen_nonneg _ vs). lia.
  - destruct GB as (_ & ->). eauto.
  - destruct GB as (_ & (s & ->)). eauto.
Qed.

Lemma storable_batch : forall d t vs h,
  (forall a m v b h' ms, vs = a ++ (m, v) :: b -> h_batch sc d t a h = (h', true) -> last_time h' d m < t -> declares sc d m ms -> storable ms v = true) ->
  batch_storable sc d t vs h.
Proof.
  intros d t. induction vs as [|[m v] vs IH]; intros h H; cbn [batch_storable]; [auto|]. destruct (admits sc h d m t) eqn:A; [|auto]. split.
  - intros ms D. apply (H [] m v vs h ms); auto. unfold admits in A. apply andb_true_iff in A. destruct A as [_ A]. apply Z.ltb_lt. auto.
  - apply IH. intros a m' v' b h' ms -> B L D. apply (H ((m, v) :: a) m' v' b h' ms); auto. cbn [h_batch]. rewrite A. auto.
Qed.
Lemma op_points_nn : forall o, 0 <= op_points o.
Proof. intros [| |]; cbn; try lia. apply zlen_nonneg. Qed.
Lemma last_ok : forall ops o, ops_ok (ops ++ [o]) -> op_ok o /\ zsum (map op_points ops) + op_points o < 2 ^ 32.
Proof.
  intros ops o [O1 O2]. apply Forall_app in O1. destruct O1 as [_ O1]. inversion O1; subst. split; auto.
  rewrite map_app, zsum_app in O2. unfold zsum in O2 at 2. cbn [map fold_right] in O2. lia.
Qed.
Lemma write_iff : forall w h ops l d m t v, trace Release snap sc w h ops l -> ops_ok (ops ++ [OpWrite d m t v]) ->
  memory_bound sc (h_call sc (OpWrite d m t v) h) < 2 ^ 32 ->
  ((exists r, step Release snap w (OpWrite d m t v) = Ret r) <-> batch_storable sc d t [(m, v)] h).
Proof.
  intros w h ops l d m t v T O HM. split.
  - intros [r H]. cbn [batch_storable]. destruct (admits sc h d m t) eqn:A; [|auto]. split; [|auto]. intros ms D.
    unfold admits in A. apply andb_true_iff in A. destruct A as [_ A]. apply Z.ltb_lt in A.
    eapply (step_storable Release snap decomp HG sc Hsc w h ops l d t [] m v [] h ms _ r T O); eauto.
  - intros S. destruct (trace_ok Release snap decomp HG sc Hsc _ _ _ _ T (ops_ok_app _ _ O)) as (TL & its & I & _).
    apply last_ok in O. destruct O as [[Ht Hv] O]. cbn [op_points] in O. eapply winv_write; eauto. lia.
Qed.
Lemma many_iff : forall w h ops l d t vs, trace Release snap sc w h ops l -> ops_ok (ops ++ [OpWriteMany d t vs]) -> vs <> [] ->
  memory_bound sc (h_call sc (OpWriteMany d t vs) h) < 2 ^ 32 ->
  ((exists r, step Release snap w (OpWriteMany d t vs) = Ret r) <-> batch_storable sc d t vs h).
Proof.
  intros w h ops l d t vs T O N HM. split.
  - intros [r H]. apply storable_batch. intros a m v b h' ms E B L D. subst vs.
    eapply (step_storable Release snap decomp HG sc Hsc w h ops l d t a m v b h' ms _ r T O); eauto.
  - intros S. destruct (trace_ok Release snap decomp HG sc Hsc _ _ _ _ T (ops_ok_app _ _ O)) as (TL & its & I & _).
    apply last_ok in O. destruct O as [[Ht Hv] O]. cbn [op_points] in O. eapply winv_many; eauto. lia.
Qed.

(** ** Whole sessions *)
Lemma typed_batch : forall d t vs h, Forall (fun mv => forall ms, declares sc d (fst mv) ms -> storable ms (snd mv) = true) vs -> batch_storable sc d t vs h.
Proof. intros d t vs h H. revert h. induction H as [|[m v] vs H1 H IH]; intros h; cbn [batch_storable]; auto. destruct (admits sc h d m t); auto. Qed.
Lemma session : forall ops out w0, writer_new sc (sink_new healthy) = (out, Some w0) -> ops_ok ops -> Forall (well_typed sc) ops ->
  24 * zsum (map op_points ops) + 150 * series_count sc < 2 ^ 32 ->
  exists w h l, run Release snap w0 ops = Ret (w, l) /\ trace Release snap sc w h ops l.
Proof.
  intros ops out w0 N. induction ops as [|o ops IH] using rev_ind; intros O W M.
  - exists w0, h_new, []. split; [reflexivity|]. eapply trace_new; eauto.
  - apply Forall_app in W. destruct W as [W W1]. inversion W1 as [|? ? W2 _]; subst.
    assert (M' : 24 * (zsum (map op_points ops) + op_points o) + 150 * series_count sc < 2 ^ 32).
    { rewrite map_app, zsum_app in M. unfold zsum in M at 2. cbn [map fold_right] in M. lia. }
    pose proof (op_points_nn o). destruct IH as (w & h & l & R & T); [eapply ops_ok_app; eauto|auto|lia|].
    destruct (trace_ok Release snap decomp HG sc Hsc _ _ _ _ T (ops_ok_app _ _ O)) as (TL & its & I & _).
    destruct (last_ok _ _ O) as [OK OL]. pose proof (h_call_len sc o h) as CL.
    assert (HM : memory_bound sc (h_call sc o h) < 2 ^ 32).
    { unfold memory_bound. rewrite h_all_split in CL. pose proof (zlen_nonneg _ (h_flushed (h_call sc o h))). lia. }
    assert (S : exists r, step Release snap w o = Ret r).
    { destruct o as [d m t v|d t vs|ord]; cbn [well_typed op_ok op_points] in *; [| |contradiction]; destruct OK as [Ht Hv].
      - eapply winv_write; eauto; [lia|]. apply typed_batch. constructor; auto.
      - destruct W2 as [W2 W3]. eapply winv_many; eauto; [lia|]. apply typed_batch. auto. }
    destruct S as [[w' a] S]. exists w', (h_step sc o (grew w w') h), (l ++ [a]). split; [|eapply trace_step; eauto].
    rewrite run_snoc, R. cbn [bind]. rewrite S. reflexivity.
Qed.
End Steps.

Lemma no_div_zero_small : forall p snap decomp sc w h ops l d m t v, good_snap snap decomp -> schema_ok sc ->
  trace p snap sc w h ops l -> ops_ok (ops ++ [OpWrite d m t v]) ->
  memory_bound sc (h_call sc (OpWrite d m t v) h) < 2 ^ 32 -> step p snap w (OpWrite d m t v) <> Panic PDivZero.
Proof.
  intros p snap decomp sc w h ops l d m t v HG Hsc T O HM. eapply no_div_zero; eauto. right. intros g g' EG W.
  destruct (trace_ok p snap decomp HG sc Hsc _ _ _ _ T (ops_ok_app _ _ O)) as (TL & its & I & _).
  destruct (last_ok _ _ O) as [[Ht Hv] OL]. cbn [op_points] in OL. pose proof (winv_get _ _ _ _ _ _ d I) as WG. rewrite EG in WG.
  destruct (sm_get d (decls sc)) as [g0|] eqn:ED; [|contradiction]. assert (HL : zlen (h_all h) + 1 < 2 ^ 32) by lia.
  pose proof (group_write_ok p snap decomp HG sc Hsc _ _ _ _ _ _ _ _ _ ED WG (wi_points _ _ _ _ _ _ I) Ht Hv HL W) as GW.
  destruct (h_verdict sc h d m t).
  - destruct GW as (A & _ & GI & HP). cbn [h_call] in HM. rewrite A in HM. set (q := mkPoint d m t v) in *.
    assert (I1 : winv p snap sc (h_store q h) its (with_group d g' w)).
    { eapply winv_group; eauto.
      - intros d' m' N. rewrite recent_store. unfold q. rewrite series_other, app_nil_r; auto. congruence.
      - cbn [h_store h_recent]. rewrite zlen_app. pose proof (zlen_nonneg _ [q]). lia. }
    destruct (mem_bound p snap decomp HG sc Hsc _ _ _ I1 HM) as (n & D & _). cbn [with_group w_groups] in D. congruence.
  - destruct GW as (_ & X & _). discriminate.
  - destruct GW as (_ & (s & X) & _). discriminate.
Qed.
Lemma estimate_bound : forall p snap decomp sc w h ops l, good_snap snap decomp -> schema_ok sc -> trace p snap sc w h ops l -> ops_ok ops ->
  memory_bound sc h < 2 ^ 32 -> exists n, mem_size p (w_groups w) = Ret n /\ 0 <= n <= memory_bound sc h /\ (h_recent h <> [] -> 0 < n).
Proof.
  intros p snap decomp sc w h ops l HG Hsc T O HM. destruct (trace_ok p snap decomp HG sc Hsc _ _ _ _ T O) as (TL & its & I & _).
  destruct (mem_bound p snap decomp HG sc Hsc _ _ _ I HM) as (n & D & R & B). exists n. split; [apply R|]. split; auto.
  eapply mem_pos; eauto.
Qed.
