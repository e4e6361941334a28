(** Batches against single writes (C28), interleavings (C29), values of the wrong type (C30), repeated
    close (C31). *)
From Verif Require Export PBisim.
From Coq Require Import String.
Open Scope list_scope. Open Scope Z_scope.
Ltac Zify.zify_post_hook ::= idtac.

Section Compare.
Variable p : profile.
Variable snap decomp : list Z -> option (list Z).
Hypothesis HG : good_snap snap decomp.
Variable sc : schema.
Hypothesis Hsc : schema_ok sc.

(** ** The buffered data are a function of the recent points *)
Lemma gchunks_det : forall f g0 a b, gchunks p snap f g0 a -> gchunks p snap f g0 b -> a = b.
Proof.
  intros f g0 a b H. revert b. induction H as [|[m ms] [k c] g0 a [E [_ O]] H IH]; intros b K; inversion K as [|? [k' c'] ? b' [E' [_ O']] K']; subst; [reflexivity|].
  cbn [fst snd] in *. subst. unfold open_chunk in *. rewrite O in O'. inversion O'; subst. f_equal. apply IH; auto.
Qed.
Lemma groups_det : forall h its w h' its' w', winv p snap sc h its w -> winv p snap sc h' its' w' ->
  (forall d m, recent h d m = recent h' d m) -> gseq (w_groups w) (w_groups w') /\ buffered w = buffered w'.
Proof.
  intros h its w h' its' w' I I' R. pose proof (wi_groups _ _ _ _ _ _ I) as G. pose proof (wi_groups _ _ _ _ _ _ I') as G'. unfold buffered.
  revert G G'. generalize (w_groups w) (w_groups w') (decls sc). clear I I'.
  intros a b ds H. revert b. induction H as [|[d g0] [k g] ds a [E [C L]] H IH]; intros b K; inversion K as [|? [k' g'] ? b' [E' [C' L']] K']; subst.
  - split; [constructor|reflexivity].
  - cbn [fst snd] in *. subst. destruct (IH _ K') as [IH1 IH2].
    assert (EC : gw_chunks g = gw_chunks g').
    { eapply gchunks_det; [exact C|]. eapply same_keys_impl; [exact C'|]. cbn. intros m ms c. rewrite R. auto. }
    split.
    + constructor; auto. cbn. split; auto. split; auto. intros m. rewrite L, L', R. auto.
    + cbn [map fst snd]. rewrite EC. f_equal. exact IH2.
Qed.

(** ** Calls that do not make the file grow *)
Lemma run_quiet : forall ops w w' l, run p snap w ops = Ret (w', l) -> zlen (file_bytes w) <= zlen (file_bytes w').
Proof. intros ops w w' l R. apply run_data in R. destruct R as (t & R). unfold file_bytes in *. rewrite R, zlen_app. pose proof (zlen_nonneg _ t). lia. Qed.
Definition calls (ops : list op) (h : hist) : hist := fold_left (fun h o => h_call sc o h) ops h.
Lemma trace_quiet : forall ops' w h ops l w' l', trace p snap sc w h ops l -> run p snap w ops' = Ret (w', l') ->
  zlen (file_bytes w') <= zlen (file_bytes w) -> trace p snap sc w' (calls ops' h) (ops ++ ops') (l ++ l').
Proof.
  induction ops' as [|o ops' IH]; intros w h ops l w' l' T R L; cbn [run] in R.
  - rinj R. rewrite !app_nil_r. exact T.
  - apply bind_ret in R. destruct R as ([w1 a] & S & R). apply bind_ret in R. destruct R as ([w2 l2] & R & R'). rinj R'. cbn [fst snd] in *.
    pose proof (run_quiet _ _ _ _ R) as L1. pose proof (trace_step _ _ _ _ _ _ _ _ _ _ T S) as T1.
    assert (S' : run p snap w [o] = Ret (w1, [a])) by (cbn [run]; rewrite S; reflexivity).
    pose proof (run_quiet _ _ _ _ S') as L2.
    assert (G : grew w w1 = false) by (unfold grew; apply Z.ltb_ge; lia). rewrite G in T1. unfold h_step in T1. cbn [andb] in T1.
    replace (ops ++ o :: ops') with ((ops ++ [o]) ++ ops') by (rewrite <- app_assoc; auto).
    replace (l ++ a :: l2) with ((l ++ [a]) ++ l2) by (rewrite <- app_assoc; auto).
    cbn [calls fold_left]. apply (IH w1); auto. lia.
Qed.
Lemma run_app_inv : forall a b w w' l, run p snap w (a ++ b) = Ret (w', l) ->
  exists w1 l1 l2, run p snap w a = Ret (w1, l1) /\ run p snap w1 b = Ret (w', l2) /\ l = l1 ++ l2.
Proof.
  induction a as [|o a IH]; intros b w w' l R; cbn [run app] in *.
  - exists w, [], l. auto.
  - apply bind_ret in R. destruct R as ([w1 x] & S & R). apply bind_ret in R. destruct R as ([w2 l2] & R & R'). rinj R'. cbn [fst snd] in *.
    apply IH in R. destruct R as (w3 & l3 & l4 & R1 & R2 & E). cbn [fst snd] in *. exists w3, (x :: l3), l4. rewrite S. cbn [bind]. rewrite R1. split; [reflexivity|]. split; auto.
    rewrite E. reflexivity.
Qed.
Lemma ops_ok_app : forall a b, ops_ok (a ++ b) -> ops_ok a.
Proof.
  intros a b [H1 H2]. apply Forall_app in H1. rewrite map_app, zsum_app in H2. split; [tauto|].
  assert (0 <= zsum (map op_points b)); [|lia]. clear. induction b as [|o b IH]; cbn [map zsum fold_right]; [lia|]. pose proof (op_points_nonneg o). unfold zsum in IH. lia.
Qed.

(** ** C28 *)
Lemma batch_count : forall d t vs h n, h_batch sc d t vs (h_count n h) = (h_count n (fst (h_batch sc d t vs h)), snd (h_batch sc d t vs h)).
Proof.
  intros d t vs. induction vs as [|[m v] vs IH]; intros h n; cbn [h_batch]; [reflexivity|].
  change (admits sc (h_count n h) d m t) with (admits sc h d m t). destruct (admits sc h d m t); [|reflexivity].
  change (h_store (mkPoint d m t v) (h_count n h)) with (h_count n (h_store (mkPoint d m t v) h)). apply IH.
Qed.
Lemma count_count : forall n k h, h_count n (h_count k h) = h_count (k + n) h.
Proof. intros n k [f r c]. unfold h_count. cbn. f_equal. lia. Qed.
Lemma singles_calls : forall d t vs h h', h_batch sc d t vs h = (h', true) -> calls (singles d t vs) h = h_count (zlen vs) h'.
Proof.
  intros d t vs. unfold calls. induction vs as [|[m v] vs IH]; intros h h' H; cbn [h_batch singles map fold_left h_call fst snd] in *.
  - inversion H; subst. rewrite zlen_nil, h_count_0. auto.
  - destruct (admits sc h d m t); [|discriminate].
    rewrite (IH _ (h_count 1 h')); [|rewrite batch_count, H; reflexivity]. rewrite count_count, zlen_cons. reflexivity.
Qed.
Lemma singles_answers : forall d t vs w h ops l w' l' h', trace p snap sc w h ops l -> ops_ok (ops ++ singles d t vs) ->
  run p snap w (singles d t vs) = Ret (w', l') -> zlen (file_bytes w') <= zlen (file_bytes w) ->
  h_batch sc d t vs h = (h', true) -> Forall (eq AOk) l'.
Proof.
  intros d t vs. induction vs as [|[m v] vs IH]; intros w h ops l w' l' h' T O R L H; cbn [singles map run h_batch fst snd] in *.
  - rinj R. constructor.
  - destruct (admits sc h d m t) eqn:A; [|discriminate].
    apply bind_ret in R. destruct R as ([w1 a] & S & R). apply bind_ret in R. destruct R as ([w2 l2] & R & R'). rinj R'. cbn [fst snd] in *.
    assert (S' : run p snap w [OpWrite d m t v] = Ret (w1, [a])) by (cbn [run]; rewrite S; reflexivity).
    pose proof (run_quiet _ _ _ _ R) as L1. assert (L2 : zlen (file_bytes w1) <= zlen (file_bytes w)) by lia.
    pose proof (trace_quiet _ _ _ _ _ _ _ T S' L2) as T1. cbn [calls fold_left h_call] in T1. rewrite A in T1.
    replace (ops ++ OpWrite d m t v :: map (fun mv => OpWrite d (fst mv) t (snd mv)) vs) with ((ops ++ [OpWrite d m t v]) ++ singles d t vs) in O by (rewrite <- app_assoc; auto).
    constructor.
    + pose proof (trace_step_ok p snap decomp HG sc Hsc _ _ _ _ _ _ _ T (ops_ok_app _ _ O) S) as X. cbn [answers] in X.
      rewrite (proj2 (verdict_admits sc h d m t Hsc) A) in X. symmetry. exact X.
    + pose proof (run_quiet _ _ _ _ S') as L3. eapply (IH w1 _ _ _ w2 l2 (h_count 1 h') T1 O R); [lia|]. rewrite batch_count, H. reflexivity.
Qed.
Lemma batch_fails : forall d t vs h h', h_batch sc d t vs h = (h', false) ->
  exists a m v b, vs = a ++ (m, v) :: b /\ h_batch sc d t a h = (h', true) /\ admits sc h' d m t = false.
Proof.
  intros d t vs. induction vs as [|[m v] vs IH]; intros h h' H; cbn [h_batch] in H; [discriminate|].
  destruct (admits sc h d m t) eqn:A.
  - destruct (IH _ _ H) as (a & m' & v' & b & -> & B & C). exists ((m, v) :: a), m', v', b. split; auto. split; auto. cbn [h_batch]. rewrite A. exact B.
  - inversion H; subst. exists [], m, v, vs. auto.
Qed.
Lemma batch_verdict : forall d t a m v b h h', h_batch sc d t a h = (h', true) -> admits sc h' d m t = false ->
  b_verdict sc h d t (a ++ (m, v) :: b) = h_verdict sc h' d m t.
Proof.
  intros d t a m v b. induction a as [|[m1 v1] a IH]; intros h h' H A; cbn [h_batch b_verdict app] in *.
  - inversion H; subst. pose proof (verdict_admits sc h' d m t Hsc) as V. destruct (h_verdict sc h' d m t); auto. rewrite (proj1 V eq_refl) in A. discriminate.
  - destruct (admits sc h d m1 t) eqn:A1; [|discriminate]. rewrite (proj2 (verdict_admits sc h d m1 t Hsc) A1). apply IH; auto.
Qed.
Lemma zsum_singles : forall d t vs, zsum (map op_points (singles d t vs)) = zlen vs.
Proof. intros d t vs. induction vs as [|[m v] vs IH]; [reflexivity|]. cbn [singles map zsum fold_right op_points fst snd]. rewrite zlen_cons. unfold zsum in IH. unfold singles in IH. rewrite IH. lia. Qed.
Lemma ops_ok_singles : forall ops d t vs, ops_ok (ops ++ [OpWriteMany d t vs]) -> ops_ok (ops ++ singles d t vs).
Proof.
  intros ops d t vs [H1 H2]. apply Forall_app in H1. destruct H1 as [H1 H3]. apply Forall_inv in H3. destruct H3 as [Ht Hv].
  rewrite map_app, zsum_app in H2. cbn [map zsum fold_right op_points] in H2. split.
  - apply Forall_app. split; auto. unfold singles. apply Forall_map. eapply Forall_impl; [|exact Hv]. intros [m v] X. split; auto.
  - rewrite map_app, zsum_app, zsum_singles. lia.
Qed.
Definition no_measurement : tserror := EIllegalState (Some "Unknown measurement id"%string).
Lemma gw_write_err : forall m t v g g' e, gw_write p snap m t v g = Ret (g', Some e) -> e = EOutOfOrderData \/ e = no_measurement.
Proof.
  intros m t v g g' e H. unfold gw_write in H. destruct (check_is_history_data m t (gw_last g)) as [l [|]]; [|rinj H; auto].
  destruct (sm_get m (gw_chunks g)); [|rinj H; auto]. apply bind_ret in H. destruct H as ([c'|x] & _ & H); [|discriminate]. rinj H. discriminate.
Qed.
Lemma gw_write_many_err : forall t vs n g g' e, gw_write_many p snap t vs n g = Ret (g', inr e) -> e = EOutOfOrderData \/ e = no_measurement.
Proof.
  intros t vs. induction vs as [|[m v] vs IH]; intros n g g' e H; cbn [gw_write_many] in H; [rinj H; discriminate|].
  apply bind_ret in H. destruct H as ([g1 [e1|]] & W & H); [rinj H; eapply gw_write_err; eauto|].
  apply bind_ret in H. destruct H as (n1 & _ & H). eauto.
Qed.
Lemma step_err : forall h its w o w' e d, winv p snap sc h its w -> has_device sc d = true ->
  (exists m t v, o = OpWrite d m t v) \/ (exists t vs, o = OpWriteMany d t vs) ->
  step p snap w o = Ret (w', AErr e) -> e = EOutOfOrderData \/ e = no_measurement.
Proof.
  intros h its w o w' e d I HD HO H. pose proof (winv_get _ _ _ _ _ _ d I) as WG. rewrite (device_get sc Hsc) in HD.
  destruct (sm_get d (decls sc)) as [g0|]; [|discriminate]. destruct (sm_get d (w_groups w)) as [g|] eqn:E; [|contradiction].
  destruct HO as [(m & t & v & ->)|(t & vs & ->)]; cbn [step] in H.
  - unfold writer_write in H. rewrite E in H. apply bind_ret in H. destruct H as ([g1 [e1|]] & W & H).
    + inversion H; subst. exact (gw_write_err _ _ _ _ _ _ W).
    + apply bind_ret in H. destruct H as (rc & _ & H). apply bind_ret in H. destruct H as (w1 & _ & H). rinj H. discriminate.
  - unfold writer_write_many in H. rewrite E in H. apply bind_ret in H. destruct H as ([g1 [n1|e1]] & W & H).
    + apply bind_ret in H. destruct H as (rc & _ & H). apply bind_ret in H. destruct H as (w1 & _ & H). rinj H. discriminate.
    + inversion H; subst. exact (gw_write_many_err _ _ _ _ _ _ W).
Qed.
Lemma recent_count : forall n h d m, recent (h_count n h) d m = recent h d m.
Proof. reflexivity. Qed.
Lemma write_many_as_singles : forall w h ops l d t vs w1 a1 w2 l2, trace p snap sc w h ops l ->
  ops_ok (ops ++ [OpWriteMany d t vs]) -> has_device sc d = true ->
  step p snap w (OpWriteMany d t vs) = Ret (w1, a1) -> run p snap w (singles d t vs) = Ret (w2, l2) ->
  file_bytes w1 = file_bytes w -> file_bytes w2 = file_bytes w ->
  (a1 = AOk /\ Forall (eq AOk) l2 /\ buffered w2 = buffered w1 /\ w_records w2 = w_records w1) \/
  (exists e a m v b w3 l3 w4 l4, a1 = AErr e /\ vs = a ++ (m, v) :: b /\ run p snap w (singles d t a) = Ret (w3, l3) /\ Forall (eq AOk) l3 /\
     step p snap w3 (OpWrite d m t v) = Ret (w4, AErr e) /\ l2 = l3 ++ AErr e :: l4 /\
     buffered w1 = buffered w3 /\ w_records w1 = w_records w).
Proof.
  intros w h ops l d t vs w1 a1 w2 l2 T O HD S R F1 F2.
  pose proof (trace_step_ok p snap decomp HG sc Hsc _ _ _ _ _ _ _ T O S) as AN. cbn [answers] in AN.
  assert (S' : run p snap w [OpWriteMany d t vs] = Ret (w1, [a1])) by (cbn [run]; rewrite S; reflexivity).
  assert (L1 : zlen (file_bytes w1) <= zlen (file_bytes w)) by (rewrite F1; lia).
  assert (L2 : zlen (file_bytes w2) <= zlen (file_bytes w)) by (rewrite F2; lia).
  pose proof (trace_quiet _ _ _ _ _ _ _ T S' L1) as T1. cbn [calls fold_left h_call] in T1.
  pose proof (ops_ok_singles _ _ _ _ O) as O2.
  destruct (trace_ok p snap decomp HG sc Hsc _ _ _ _ T1 O) as (_ & its1 & I1 & _).
  pose proof (verdict_batch sc d t vs h Hsc (or_intror HD)) as VB.
  destruct (h_batch sc d t vs h) as [h' [|]] eqn:B; cbn [snd] in VB.
  - left. rewrite (proj2 VB eq_refl) in AN. split; [exact AN|].
    pose proof (singles_answers _ _ _ _ _ _ _ _ _ _ T O2 R L2 B) as FA. split; auto.
    pose proof (trace_quiet _ _ _ _ _ _ _ T R L2) as T2. rewrite (singles_calls _ _ _ _ _ B) in T2.
    destruct (trace_ok p snap decomp HG sc Hsc _ _ _ _ T2 O2) as (_ & its2 & I2 & _).
    split; [apply (groups_det _ _ _ _ _ _ I2 I1); auto|]. rewrite (wi_records _ _ _ _ _ _ I1), (wi_records _ _ _ _ _ _ I2). auto.
  - right. destruct (batch_fails _ _ _ _ _ B) as (a & m & v & b & -> & Ba & A).
    rewrite (batch_verdict _ _ _ _ _ _ _ _ Ba A) in AN.
    unfold singles in R, O2. rewrite map_app in R, O2. cbn [map fst snd] in R, O2. fold (singles d t a) in R, O2. fold (singles d t b) in R, O2.
    apply run_app_inv in R. destruct R as (w3 & l3 & l4 & R3 & R4 & ->).
    pose proof (run_quiet _ _ _ _ R4) as L4. assert (L3 : zlen (file_bytes w3) <= zlen (file_bytes w)) by lia.
    rewrite app_assoc in O2. pose proof (ops_ok_app _ _ O2) as O3.
    pose proof (trace_quiet _ _ _ _ _ _ _ T R3 L3) as T3. rewrite (singles_calls _ _ _ _ _ Ba) in T3.
    pose proof (singles_answers _ _ _ _ _ _ _ _ _ _ T O3 R3 L3 Ba) as FA.
    cbn [run] in R4. apply bind_ret in R4. destruct R4 as ([w4 a4] & S4 & R4). apply bind_ret in R4. destruct R4 as ([w5 l5] & _ & R4). rinj R4.
    assert (O4 : ops_ok ((ops ++ singles d t a) ++ [OpWrite d m t v])).
    { apply (ops_ok_app _ (singles d t b)). rewrite <- app_assoc. exact O2. }
    pose proof (trace_step_ok p snap decomp HG sc Hsc _ _ _ _ _ _ _ T3 O4 S4) as AN4. cbn [answers] in AN4.
    change (h_verdict sc (h_count (zlen a) h') d m t) with (h_verdict sc h' d m t) in AN4.
    destruct (trace_ok p snap decomp HG sc Hsc _ _ _ _ T3 O3) as (_ & its3 & I3 & _).
    destruct (trace_ok p snap decomp HG sc Hsc _ _ _ _ T (ops_ok_app _ _ O)) as (_ & its & I & _).
    assert (EB : buffered w1 = buffered w3) by (apply (groups_det _ _ _ _ _ _ I1 I3); auto).
    assert (ER : w_records w1 = w_records w).
    { rewrite (wi_records _ _ _ _ _ _ I1), (wi_records _ _ _ _ _ _ I).
      clear - B. revert h B. induction (a ++ (m, v) :: b) as [|[m1 v1] vs IH]; intros h B; cbn [h_batch] in B; [discriminate|].
      destruct (admits sc h d m1 t); [apply IH in B; exact B|inversion B; auto]. }
    assert (E : exists e, a1 = AErr e /\ a4 = AErr e).
    { pose proof (verdict_admits sc h' d m t Hsc) as V. destruct (h_verdict sc h' d m t) eqn:HV; cbn [says] in *.
      - rewrite (proj1 V eq_refl) in A. discriminate.
      - eauto.
      - destruct AN as (s1 & ->), AN4 as (s4 & ->).
        destruct (step_err _ _ _ _ _ _ d I HD (or_intror (ex_intro _ t (ex_intro _ _ eq_refl))) S) as [X|X]; [discriminate|rewrite X].
        destruct (step_err _ _ _ _ _ _ d I3 HD (or_introl (ex_intro _ m (ex_intro _ t (ex_intro _ v eq_refl)))) S4) as [Y|Y]; [discriminate|rewrite Y].
        eauto.
    }
    destruct E as (e & -> & ->). exists e, a, m, v, b, w3, l3, w4, l5. auto 10.
Qed.

(** ** C29 *)
Lemma step_io : forall h its w o w' a, winv p snap sc h its w -> op_ok o -> zlen (h_all h) + op_points o < 2 ^ 32 ->
  is_close o = false -> step p snap w o = Ret (w', a) -> zlen (file_bytes w') <= zlen (file_bytes w) -> w_io w' = w_io w.
Proof.
  intros h its w o w' a I HO HL NC H L. pose proof (wi_counted _ _ _ _ _ _ I) as WC.
  assert (HA : zlen (h_all h) = zlen (h_flushed h) + zlen (h_recent h)) by (unfold h_all; apply zlen_app).
  pose proof (zlen_nonneg _ (h_flushed h)) as NF. pose proof (zlen_nonneg _ (h_recent h)) as NR.
  destruct o as [d m t v|d t vs|ord]; cbn [step is_close op_ok op_points] in *; [| |discriminate].
  - destruct HO as [Ht Hv]. unfold writer_write in H. pose proof (winv_get _ _ _ _ _ _ d I) as WG.
    destruct (sm_get d (w_groups w)) as [g|] eqn:E; [|rinj H; auto]. destruct (sm_get d (decls sc)) as [g0|] eqn:D; [|contradiction].
    apply bind_ret in H. destruct H as ([g1 e1] & H1 & H). destruct e1 as [e1|]; [rinj H; auto|]. cbn [w_io w_groups w_records w_next_check w_schema] in H.
    apply bind_ret in H. destruct H as (rc & A & H). apply bind_ret in H. destruct H as (w1 & C & H). rinj H.
    pose proof (group_write_ok p snap decomp HG sc Hsc _ _ _ _ _ _ _ _ _ D WG (wi_points _ _ _ _ _ _ I) Ht Hv HL H1) as GW.
    destruct (h_verdict sc h d m t); [|destruct GW as (_ & X & _); discriminate|destruct GW as (_ & (s & X) & _); discriminate].
    destruct GW as (AD & _ & GI & HP). set (q := mkPoint d m t v) in *.
    assert (I1 : winv p snap sc (h_store q h) its (with_group d g1 w)).
    { eapply winv_group; eauto.
      - intros d' m' N. rewrite recent_store. unfold q. rewrite series_other, app_nil_r; auto. congruence.
      - cbn [h_store h_recent]. rewrite zlen_app. pose proof (zlen_nonneg _ [q]). lia. }
    rewrite (wi_records _ _ _ _ _ _ I) in A. rewrite arithU_ok in A by lia. apply ret_inj in A. subst rc.
    assert (I2 : winv p snap sc (h_count 1 (h_store q h)) its (with_records (w_records (with_group d g1 w) + 1) (with_group d g1 w))).
    { apply winv_records; [exact I1|lia|]. cbn [h_store h_counted h_recent]. rewrite zlen_app, zlen_cons, zlen_nil. lia. }
    cbn [with_group w_records] in I2. rewrite (wi_records _ _ _ _ _ _ I) in I2.
    destruct (check_no_growth p snap decomp HG sc Hsc _ _ _ _ I2 C) as (n & ->); [exact L|]. reflexivity.
  - destruct HO as [Ht Hv]. unfold writer_write_many in H. pose proof (winv_get _ _ _ _ _ _ d I) as WG.
    destruct (sm_get d (w_groups w)) as [g|] eqn:E; [|rinj H; auto]. destruct (sm_get d (decls sc)) as [g0|] eqn:D; [|contradiction].
    apply bind_ret in H. destruct H as ([g1 r] & H1 & H). destruct r as [n|e1]; [|rinj H; auto]. cbn [w_io w_groups w_records w_next_check w_schema] in H.
    apply bind_ret in H. destruct H as (rc & A & H). apply bind_ret in H. destruct H as (w1 & C & H). rinj H.
    pose proof (zlen_nonneg _ vs) as NV. assert (HN : 0 + zlen vs < 2 ^ 32) by lia.
    pose proof (group_batch_ok p snap decomp HG sc Hsc d t g0 D Ht vs h g g1 0 (inl n) WG (wi_points _ _ _ _ _ _ I) Hv HL (Z.le_refl 0) HN H1) as GB.
    destruct (h_batch sc d t vs h) as [h' ok]. destruct GB as (B1 & B2 & B3 & B4 & B5 & (l & B6 & B7 & B8) & B9).
    assert (B10 : ok = true /\ n = zlen vs).
    { destruct (b_verdict sc h d t vs); [destruct B9 as [-> X]; inversion X; auto|destruct B9; discriminate|destruct B9 as (_ & ? & ?); discriminate]. }
    destruct B10 as [-> ->]. specialize (B8 eq_refl).
    assert (I1 : winv p snap sc h' its (with_group d g1 w)).
    { eapply winv_group; eauto. rewrite B6, zlen_app. pose proof (zlen_nonneg _ l). lia. }
    rewrite (wi_records _ _ _ _ _ _ I) in A. rewrite arithU_ok in A by lia. apply ret_inj in A. subst rc.
    assert (I2 : winv p snap sc (h_count (zlen vs) h') its (with_records (w_records (with_group d g1 w) + zlen vs) (with_group d g1 w))).
    { apply winv_records; [exact I1|apply zlen_nonneg|]. rewrite B6, zlen_app. lia. }
    cbn [with_group w_records] in I2. rewrite (wi_records _ _ _ _ _ _ I) in I2.
    destruct (check_no_growth p snap decomp HG sc Hsc _ _ _ _ I2 C) as (n & ->); [exact L|]. reflexivity.
Qed.
Lemma trace_grows : forall w h ops l out w0, trace p snap sc w h ops l -> writer_new sc (sink_new healthy) = (out, Some w0) ->
  zlen (file_bytes w0) <= zlen (file_bytes w).
Proof.
  intros w h ops l out w0 T N. destruct (trace_run _ _ _ _ _ _ _ T) as (o & w1 & N1 & R). rewrite N in N1. inversion N1; subst.
  eapply run_quiet; eauto.
Qed.
Lemma quiet_trace : forall w h ops l out w0, trace p snap sc w h ops l -> ops_ok ops -> no_close ops = true ->
  writer_new sc (sink_new healthy) = (out, Some w0) -> zlen (file_bytes w) <= zlen (file_bytes w0) ->
  w_io w = w_io w0 /\ h_flushed h = [] /\ (batches_ok ops l -> h_counted h = zlen (h_recent h)).
Proof.
  intros w h ops l out w0 T. induction T as [out1 w N1|w h ops l o w' a T IH H]; intros O NC N L.
  - rewrite N in N1. inversion N1; subst. auto.
  - unfold no_close in NC. rewrite forallb_app in NC. apply andb_prop in NC. destruct NC as [NC1 NC2]. cbn [forallb] in NC2.
    assert (CL : is_close o = false) by (destruct (is_close o); [discriminate|auto]).
    assert (S' : run p snap w [o] = Ret (w', [a])) by (cbn [run]; rewrite H; reflexivity). apply run_quiet in S'.
    pose proof (trace_grows _ _ _ _ _ _ T N) as TG. pose proof (ops_ok_app _ _ O) as O1.
    destruct IH as (IH1 & IH2 & IH3); auto; [lia|].
    destruct (trace_ok p snap decomp HG sc Hsc _ _ _ _ T O1) as (TL & its & I & _).
    destruct O as [O2 O3]. rewrite map_app, zsum_app in O3. cbn [map zsum fold_right] in O3. apply Forall_app in O2. destruct O2 as [_ O2]. apply Forall_inv in O2.
    split; [rewrite <- IH1; eapply step_io; eauto; lia|].
    assert (G : grew w w' = false) by (unfold grew; apply Z.ltb_ge; lia). rewrite G. unfold h_step. cbn [andb].
    assert (B : forall d t vs h, h_flushed (fst (h_batch sc d t vs h)) = h_flushed h).
    { clear. intros d t vs. induction vs as [|[m v] vs IH]; intros h; cbn [h_batch]; [reflexivity|]. destruct (admits sc h d m t); [rewrite IH|]; reflexivity. }
    split.
    + destruct o as [d m t v|d t vs|ord]; cbn [h_call]; auto.
      * destruct (admits sc h d m t); auto.
      * specialize (B d t vs h). destruct (h_batch sc d t vs h) as [h' [|]]; cbn [fst h_count h_flushed] in *; congruence.
    + intros BO. pose proof (trace_len _ _ _ _ _ _ _ T) as LEN. apply Forall2_app_inv_l in BO. destruct BO as (l1 & l2 & BO1 & BO2 & E).
      inversion BO2 as [|? ? ? ? BO3 BO4]; subst. inversion BO4; subst. apply app_inj_tail in E. destruct E as [<- <-].
      specialize (IH3 BO1). destruct o as [d m t v|d t vs|ord]; cbn [h_call]; auto.
      * destruct (admits sc h d m t); auto. cbn [h_count h_store h_counted h_recent]. rewrite zlen_app, IH3, zlen_cons, zlen_nil. lia.
      * subst a. destruct (h_batch sc d t vs h) as [h' [|]] eqn:HB.
        -- apply batch_all in HB. destruct HB as (HB1 & _ & HB3). cbn [h_count h_counted h_recent]. rewrite HB1, HB3, zlen_app, IH3. unfold zlen. rewrite map_length. lia.
        -- assert (AN : answers sc h (OpWriteMany d t vs) AOk).
           { edestruct (step_ok p snap decomp HG sc Hsc h its w (OpWriteMany d t vs) w' AOk I) as (AN & _); auto. lia. }
           cbn [answers] in AN. apply says_ok in AN. apply verdict_batch in AN; auto; [rewrite HB in AN; discriminate|].
           left. intros ->. discriminate.
Qed.
Lemma interleaving : forall w1 h1 ops1 l1 w2 h2 ops2 l2 ord w1' a1, trace p snap sc w1 h1 ops1 l1 -> trace p snap sc w2 h2 ops2 l2 ->
  ops_ok ops1 -> ops_ok ops2 -> no_close ops1 = true -> no_close ops2 = true -> batches_ok ops1 l1 -> batches_ok ops2 l2 ->
  zlen (file_bytes w1) = 7 -> zlen (file_bytes w2) = 7 ->
  (forall d m, series_of d m (acked ops1 l1) = series_of d m (acked ops2 l2)) ->
  step p snap w1 (OpClose ord) = Ret (w1', a1) ->
  exists w2', step p snap w2 (OpClose ord) = Ret (w2', a1) /\ file_bytes w2' = file_bytes w1'.
Proof.
  intros w1 h1 ops1 l1 w2 h2 ops2 l2 ord w1' a1 T1 T2 O1 O2 N1 N2 B1 B2 F1 F2 S C.
  destruct (trace_run _ _ _ _ _ _ _ T1) as (out & w0 & N & _). assert (F0 : zlen (file_bytes w0) = 7).
  { destruct (trace_ok p snap decomp HG sc Hsc _ _ _ _ (trace_new p snap sc out w0 N) (conj (Forall_nil _) eq_refl)) as (_ & its & I & _).
    unfold writer_new in N. destruct (io_new (sink_new healthy)) as [s [io|]] eqn:E; inversion N; subst. vm_compute in E. inversion E; subst. reflexivity. }
  assert (L1 : zlen (file_bytes w1) <= zlen (file_bytes w0)) by lia. assert (L2 : zlen (file_bytes w2) <= zlen (file_bytes w0)) by lia.
  destruct (quiet_trace _ _ _ _ _ _ T1 O1 N1 N L1) as (IO1 & FL1 & CO1). destruct (quiet_trace _ _ _ _ _ _ T2 O2 N2 N L2) as (IO2 & FL2 & CO2).
  specialize (CO1 B1). specialize (CO2 B2).
  rewrite <- (trace_acked p snap decomp HG sc Hsc _ _ _ _ T1 O1 B1), <- (trace_acked p snap decomp HG sc Hsc _ _ _ _ T2 O2 B2) in S.
  unfold h_all in S. rewrite FL1, FL2 in S. cbn [app] in S.
  destruct (trace_ok p snap decomp HG sc Hsc _ _ _ _ T1 O1) as (_ & its1 & I1 & _). destruct (trace_ok p snap decomp HG sc Hsc _ _ _ _ T2 O2) as (_ & its2 & I2 & _).
  destruct (groups_det _ _ _ _ _ _ I1 I2) as [G _]; [exact S|].
  assert (Z12 : (w_records w1 >? 0) = (w_records w2 >? 0)).
  { rewrite (wi_records _ _ _ _ _ _ I1), (wi_records _ _ _ _ _ _ I2), CO1, CO2.
    assert (E : forall a b, (forall d m, series_of d m a = series_of d m b) -> zlen a > 0 -> zlen b > 0).
    { clear. intros [|q a] b H L; [rewrite zlen_nil in L; lia|]. destruct b as [|q' b]; [|rewrite zlen_cons; pose proof (zlen_nonneg _ b); lia].
      specialize (H (pt_device q) (pt_name q)). unfold series_of in H. cbn [filter map] in H. rewrite !same_name_refl in H. discriminate. }
    pose proof (E _ _ S) as E1. pose proof (E (h_recent h2) (h_recent h1) (fun d m => eq_sym (S d m))) as E2.
    destruct (zlen (h_recent h1) >? 0) eqn:X, (zlen (h_recent h2) >? 0) eqn:Y; auto; lia. }
  cbn [step] in *. unfold writer_close in *. unfold flush_all in *. rewrite Z12 in C. rewrite IO1 in C. rewrite IO2.
  destruct (w_records w2 >? 0).
  - pose proof (flush_groups_eq p snap _ _ (w_io w0) G) as FG.
    destruct (flush_groups p snap (w_groups w1) (w_io w0)) as [[[gs io] e]|] eqn:E1; [|discriminate].
    destruct (flush_groups p snap (w_groups w2) (w_io w0)) as [[[gs2 io2] e2]|] eqn:E2; [|contradiction].
    destruct FG as (X1 & X2 & _). cbn [fst snd] in *. subst. cbn [bind] in *.
    destruct e2; cbn [bind fst w_io writer_reset] in *; (apply bind_ret in C; destruct C as (io3 & C1 & C); rinj C; rewrite C1; cbn [bind]; eexists; split; [reflexivity|reflexivity]).
  - cbn [bind fst] in *. rewrite IO1 in C. rewrite IO2. apply bind_ret in C. destruct C as (io3 & C1 & C). rinj C. rewrite C1. cbn [bind]. eexists. split; reflexivity.
Qed.

(** ** C30 *)
Lemma float_ts2 : forall m ms pts c, ms_type ms = FLOAT -> ms_enc ms = TS2DIFF -> open_chunk p snap m ms pts c -> c = new_chunk m ms.
Proof.
  intros m ms pts c E1 E2. revert c. unfold open_chunk. induction pts as [|tv pts IH] using rev_ind; intros c H.
  - inversion H. auto.
  - rewrite cw_run_snoc in H. apply bind_ret in H. destruct H as ([c0|e] & H1 & H); [|inversion H]. apply IH in H1. subst c0.
    unfold cw_write, new_chunk in H. cbn [cw_new cw_page cw_type cw_enc] in H. rewrite E1, E2 in H. cbn in H. inversion H.
Qed.
Lemma gw_storable : forall f g0 g m ms t v r, ginv p snap f g0 g -> sorted g0 -> i64_min <= t <= i64_max -> value_machine v ->
  zlen (f m) + 1 < 2 ^ 32 -> last (map fst (f m)) (-1) < t -> sm_get m g0 = Some ms ->
  gw_write p snap m t v g = Ret r -> storable ms v = true.
Proof.
  intros f g0 g m ms t v [g' e] GI S Ht Hv HL L G H. pose proof H as H0.
  pose proof (gw_write_ok p snap decomp HG _ _ _ _ _ _ _ _ GI S Ht Hv HL H) as W. rewrite (proj2 (Z.ltb_lt _ _) L), G in W. destruct W as (-> & V & _).
  unfold storable. destruct (ms_type ms) eqn:E1; destruct v; cbn in V; try contradiction; auto. destruct (ms_enc ms) eqn:E2; auto. exfalso.
  unfold gw_write in H. destruct GI as [GI GL]. destruct (check_history m t (gw_last g)) as (l' & E & _). rewrite E, GL in H. rewrite (proj2 (Z.ltb_lt _ _) L) in H.
  pose proof (same_keys_get _ _ _ _ _ m GI) as SK. cbn in SK. rewrite G in SK. destruct (sm_get m (gw_chunks g)) as [c|]; [|contradiction].
  destruct SK as [_ SK]. apply float_ts2 in SK; auto. subst c. unfold cw_write, new_chunk in H. cbn [cw_new cw_page cw_type cw_enc] in H. rewrite E1, E2 in H. cbn in H. discriminate.
Qed.
Lemma group_storable : forall d t g0, sm_get d (decls sc) = Some g0 -> i64_min <= t <= i64_max -> forall a h g n m v b h' ms r,
  ginv p snap (recent h d) g0 g -> Forall (point_ok sc) (h_all h) -> Forall (fun mv => value_machine (snd mv)) (a ++ (m, v) :: b) ->
  zlen (h_all h) + zlen (a ++ (m, v) :: b) < 2 ^ 32 -> h_batch sc d t a h = (h', true) -> last_time h' d m < t -> sm_get m g0 = Some ms ->
  gw_write_many p snap t (a ++ (m, v) :: b) n g = Ret r -> storable ms v = true.
Proof.
  intros d t g0 G Ht. induction a as [|[m1 v1] a IH]; intros h g n m v b h' ms r GI HP HV HL B L GM H; cbn [app gw_write_many h_batch] in *.
  - inversion B; subst. apply bind_ret in H. destruct H as (x & W & _). inversion HV; subst.
    rewrite zlen_cons in HL. pose proof (zlen_nonneg _ b). pose proof (recent_len h' d m) as RL.
    eapply gw_storable; eauto; [eapply decls_inner_sorted; eauto|lia].
  - destruct (admits sc h d m1 t) eqn:A; [|discriminate]. rewrite zlen_cons in HL. pose proof (zlen_nonneg _ (a ++ (m, v) :: b)) as NV.
    inversion HV as [|? ? HV1 HV2]; subst. cbn [snd] in HV1. apply bind_ret in H. destruct H as ([g1 e] & W & H).
    assert (HL1 : zlen (h_all h) + 1 < 2 ^ 32) by lia.
    pose proof (group_write_ok p snap decomp HG sc Hsc _ _ _ _ _ _ _ _ _ G GI HP Ht HV1 HL1 W) as GW.
    rewrite (proj2 (verdict_admits sc h d m1 t Hsc) A) in GW. destruct GW as (_ & -> & GI1 & HP1). apply bind_ret in H. destruct H as (n1 & _ & H).
    eapply (IH _ g1); eauto. unfold h_all, h_store in *. cbn [h_flushed h_recent]. rewrite app_assoc, zlen_app, zlen_cons, zlen_nil. lia.
Qed.
Lemma step_storable : forall w h ops l d t a m v b h' ms o r, trace p snap sc w h ops l -> ops_ok (ops ++ [o]) ->
  o = OpWriteMany d t (a ++ (m, v) :: b) \/ (a = [] /\ o = OpWrite d m t v) ->
  h_batch sc d t a h = (h', true) -> last_time h' d m < t -> declares sc d m ms ->
  step p snap w o = Ret r -> storable ms v = true.
Proof.
  intros w h ops l d t a m v b h' ms o r T O HO B L D H. destruct (trace_ok p snap decomp HG sc Hsc _ _ _ _ T (ops_ok_app _ _ O)) as (TL & its & I & _).
  destruct O as [O2 O3]. rewrite map_app, zsum_app in O3. cbn [map zsum fold_right] in O3. apply Forall_app in O2. destruct O2 as [_ O2]. apply Forall_inv in O2.
  pose proof (winv_get _ _ _ _ _ _ d I) as WG. apply declares_get in D; auto. destruct D as (g0 & D1 & D2). rewrite D1 in WG.
  destruct (sm_get d (w_groups w)) as [g|] eqn:E; [|contradiction].
  destruct HO as [-> |[-> ->]]; cbn [step op_ok op_points] in *; destruct O2 as [Ht Hv].
  - unfold writer_write_many in H. rewrite E in H. apply bind_ret in H. destruct H as (x & H & _).
    eapply group_storable; eauto; [exact (wi_points _ _ _ _ _ _ I)|lia].
  - unfold writer_write in H. rewrite E in H. apply bind_ret in H. destruct H as (x & H & _). cbn [h_batch] in B. inversion B; subst.
    pose proof (recent_len h' d m) as RL. eapply gw_storable; eauto; [eapply decls_inner_sorted; eauto|lia].
Qed.
Lemma batch_stored : forall d t vs h, exists a b, vs = a ++ b /\ h_batch sc d t a h = (fst (h_batch sc d t vs h), true).
Proof.
  intros d t vs. induction vs as [|[m v] vs IH]; intros h; cbn [h_batch].
  - exists [], []. auto.
  - destruct (admits sc h d m t) eqn:A.
    + destruct (IH (h_store (mkPoint d m t v) h)) as (a & b & -> & H). exists ((m, v) :: a), b. split; auto. cbn [h_batch]. rewrite A. exact H.
    + exists [], ((m, v) :: vs). auto.
Qed.
Lemma batch_app : forall d t a b h, h_batch sc d t (a ++ b) h = (let '(h', ok) := h_batch sc d t a h in if ok then h_batch sc d t b h' else (h', false)).
Proof.
  intros d t a b. induction a as [|[m v] a IH]; intros h; cbn [h_batch app]; [reflexivity|]. destruct (admits sc h d m t); auto.
Qed.
Lemma stored_storable : forall w h ops l, trace p snap sc w h ops l -> ops_ok ops -> Forall (point_storable sc) (h_all h).
Proof.
  intros w h ops l T. induction T as [out w N|w h ops l o w' x T IH H]; intros O; [constructor|].
  specialize (IH (ops_ok_app _ _ O)). rewrite h_step_all.
  assert (B : forall d t a rest h', o = OpWriteMany d t (a ++ rest) \/ (exists m v, a = [(m, v)] /\ o = OpWrite d m t v) -> h_batch sc d t a h = (h', true) -> Forall (point_storable sc) (h_all h')).
  { intros d t a. induction a as [|[m v] a IHa] using rev_ind; intros rest h' HO B; [inversion B; subst; auto|].
    rewrite batch_app in B. destruct (h_batch sc d t a h) as [h1 [|]] eqn:B1; [|discriminate]. cbn [h_batch] in B. destruct (admits sc h1 d m t) eqn:A; [|discriminate].
    inversion B; subst. unfold h_all, h_store. cbn [h_flushed h_recent]. rewrite app_assoc. apply Forall_app. split.
    - destruct HO as [->|(m' & v' & EA & ->)]; [rewrite <- app_assoc in *; eapply IHa; eauto|].
      apply app_eq_unit in EA. destruct EA as [[-> _]|[_ X]]; [|discriminate]. cbn [h_batch] in B1. inversion B1; subst. exact IH.
    - constructor; [|constructor]. unfold admits in A. apply andb_prop in A. destruct A as [A1 A2]. apply is_declared_iff in A1. destruct A1 as (ms & D).
      exists ms. cbn [pt_device pt_name pt_value]. split; auto. apply Z.ltb_lt in A2.
      destruct HO as [->|(m' & v' & EA & ->)].
      + rewrite <- app_assoc in *. cbn [app] in *. eapply (step_storable _ _ _ _ d t a m v rest h1 ms _ _ T O); eauto.
      + apply app_eq_unit in EA. destruct EA as [[-> X]|[_ X]]; [|discriminate]. inversion X; subst. eapply (step_storable _ _ _ _ d t [] m' v' [] h1 ms _ _ T O); eauto. }
  destruct o as [d m t v|d t vs|ord]; cbn [h_call]; auto.
  - destruct (admits sc h d m t) eqn:A; auto. change (h_all (h_count 1 (h_store (mkPoint d m t v) h))) with (h_all (h_store (mkPoint d m t v) h)).
    eapply (B d t [(m, v)] []); [right; eauto|]. cbn [h_batch]. rewrite A. reflexivity.
  - destruct (batch_stored d t vs h) as (a & b & -> & HB). specialize (B d t a b _ (or_introl eq_refl) HB).
    destruct (h_batch sc d t (a ++ b) h) as [h' [|]]; exact B.
Qed.

(** ** C31 *)
Lemma second_close : forall w h ops l ord1 ord2 w1 a1 w2 a2, trace p snap sc w h ops l -> ops_ok ops ->
  h_recent h = [] \/ 0 < h_counted h ->
  step p snap w (OpClose ord1) = Ret (w1, a1) -> step p snap w1 (OpClose ord2) = Ret (w2, a2) ->
  exists r, file_bytes w2 = file_bytes w1 ++ 2 :: r.
Proof.
  intros w h ops l ord1 ord2 w1 a1 w2 a2 T O HR S1 S2. pose proof (trace_step _ _ _ _ _ _ _ _ _ _ T S1) as T1.
  destruct (trace_ok p snap decomp HG sc Hsc _ _ _ _ T O) as (TL & its & I & _). pose proof (wi_counted _ _ _ _ _ _ I) as WC.
  assert (O1 : ops_ok (ops ++ [OpClose ord1])).
  { destruct O as [O1 O2]. split; [apply Forall_app; split; auto; constructor; [exact Logic.I|constructor]|]. rewrite map_app, zsum_app. cbn [map zsum fold_right op_points]. lia. }
  destruct (trace_ok p snap decomp HG sc Hsc _ _ _ _ T1 O1) as (_ & its1 & I1 & _).
  assert (Z : h_counted (h_step sc (OpClose ord1) (grew w w1) h) = 0).
  { unfold h_step. cbn [h_call]. destruct (0 <? h_counted h) eqn:C.
    - replace (grew w w1) with true; [reflexivity|]. symmetry.
      destruct (step_ok p snap decomp HG sc Hsc h its w (OpClose ord1) w1 a1 I) as (_ & new & I' & N); cbn [op_ok op_points]; auto; [destruct O; lia|].
      cbn [is_close] in N. destruct N as (gs & r & -> & N). unfold grew. rewrite (wi_data _ _ _ _ _ _ I), (wi_data _ _ _ _ _ _ I').
      rewrite !file_of_app. rewrite !zlen_app. apply Z.ltb_lt. replace (file_of [Raw (2 :: r)]) with (2 :: r) by (cbn; rewrite app_nil_r; auto).
      rewrite (zlen_cons _ 2 r). pose proof (zlen_nonneg _ r). pose proof (zlen_nonneg _ (file_of gs)). lia.
    - rewrite andb_false_r. apply Z.ltb_ge in C. lia. }
  cbn [step] in S2. unfold writer_close in S2. apply bind_ret in S2. destruct S2 as ([w3 e] & F & S2).
  pose proof (flush_all_ok p snap decomp HG sc Hsc _ _ _ _ _ I1 F) as (_ & F1). rewrite Z in F1. cbn [Z.ltb Z.compare] in F1. cbn in F1. subst w3. cbn [fst] in S2.
  apply bind_ret in S2. destruct S2 as (io & EF & S2). rinj S2.
  destruct (end_file_ok p ord2 _ _ (wi_healthy _ _ _ _ _ _ I1) EF) as (r & [X1 X2 _] & _). exists r. unfold file_bytes. cbn [w_io]. exact X1.
Qed.

(** ** Without failed batches every recent point is counted *)
Lemma counted_all : forall w h ops l, trace p snap sc w h ops l -> ops_ok ops -> batches_ok ops l -> h_counted h = zlen (h_recent h).
Proof.
  intros w h ops l T. induction T as [out w N|w h ops l o w' a T IH H]; intros O BO; [reflexivity|].
  pose proof (trace_len _ _ _ _ _ _ _ T) as LEN. pose proof (trace_step_ok p snap decomp HG sc Hsc _ _ _ _ _ _ _ T O H) as AN.
  apply Forall2_app_inv_l in BO. destruct BO as (l1 & l2 & BO1 & BO2 & E).
  inversion BO2 as [|? ? ? ? BO3 BO4]; subst. inversion BO4; subst. apply app_inj_tail in E. destruct E as [<- <-].
  specialize (IH (ops_ok_app _ _ O) BO1).
  assert (C : h_counted (h_call sc o h) = zlen (h_recent (h_call sc o h))).
  { destruct o as [d m t v|d t vs|ord]; cbn [h_call]; auto.
    - destruct (admits sc h d m t); auto. cbn [h_count h_store h_counted h_recent]. rewrite zlen_app, IH, zlen_cons, zlen_nil. lia.
    - subst a. cbn [answers] in AN. apply says_ok in AN. destruct (h_batch sc d t vs h) as [h' [|]] eqn:HB.
      + apply batch_all in HB. destruct HB as (HB1 & _ & HB3). cbn [h_count h_counted h_recent]. rewrite HB1, HB3, zlen_app, IH. unfold zlen. rewrite map_length. lia.
      + apply verdict_batch in AN; auto; [rewrite HB in AN; discriminate|]. left. intros ->. discriminate. }
  unfold h_step. destruct (_ && _); auto.
Qed.
Lemma close_acked : forall out w0 ops w l ord w' a, writer_new sc (sink_new healthy) = (out, Some w0) ->
  run p snap w0 ops = Ret (w, l) -> ops_ok ops -> no_close ops = true -> batches_ok ops l ->
  step p snap w (OpClose ord) = Ret (w', a) -> zlen (file_bytes w') < 2 ^ 32 ->
  exists cs, read_file decomp (file_bytes w') = Some cs /\
    (forall d m, SReader.series_in cs d m = tnums (series_of d m (acked ops l))) /\ Forall (kind_ok sc) cs.
Proof.
  intros out w0 ops w l ord w' a N R O NC B C L. destruct (run_trace _ _ _ _ _ _ _ _ N R) as (h & T).
  rewrite <- (trace_acked p snap decomp HG sc Hsc _ _ _ _ T O B). eapply close_file; eauto.
  pose proof (counted_all _ _ _ _ T O B) as K. destruct (h_recent h) as [|q r]; [left; auto|right]. rewrite K, zlen_cons. pose proof (zlen_nonneg _ r). lia.
Qed.
End Compare.
