(** Sessions on a disk that fails now and then: the invariant that ties the ledger to the writer state,
    and its preservation by every call. *)
From Verif Require Export PFault PRecloseFile.
Ltac Zify.zify_post_hook ::= idtac.

Section Ledger.
Variable p : profile.
Variable snap decomp : list Z -> option (list Z).
Hypothesis HG : good_snap snap decomp.
Variable sc : schema.
Hypothesis Hsc : schema_ok sc.

Record finv (g : ledger) (its : list item) (B : list Z -> list Z -> list (Z * value)) (w : writer) : Prop := {
  fi_schema : w_schema w = sc;
  fi_pos : sk_pos (io_out (w_io w)) = zlen (file_bytes w);
  fi_data : file_bytes w = MAGIC ++ [3] ++ file_of its;
  fi_cur : io_current (w_io w) = None;
  fi_metas : io_groups (w_io w) = metas 7 its;
  fi_items : Forall (item_ok p snap sc) its;
  fi_groups : same_keys (fun d g0 k => hchunks p snap (l_since g) d (B d) g0 (gw_chunks k)) (decls sc) (w_groups w);
  fi_clean : w_records w = 0 -> same_keys (fun d g0 k => hchunks p snap None d (B d) g0 (gw_chunks k)) (decls sc) (w_groups w);
  fi_declared : forall d m, B d m <> [] -> exists g0, sm_get d (decls sc) = Some g0 /\ sm_get m g0 <> None;
  fi_offered : forall d m, subseq (its_series d m its ++ B d m) (series_of d m (l_offered g));
  fi_kept : forall d m, subseq (series_of d m (l_kept g)) (its_series d m its);
  fi_pending : forall d m, subseq (series_of d m (l_pending g)) (B d m);
  fi_records : zlen (l_pending g) <= w_records w <= zlen (l_offered g);
  fi_some : 0 < w_records w -> decls sc <> [] }.

Lemma finv_weak : forall o k k' pd s q its B w, finv (mkL o (k ++ k') pd s) its B w ->
  (s = None \/ q = left_over s) -> finv (mkL o k [] (Some q)) its B w.
Proof.
  intros o k k' pd s q its B w H Q. assert (NP := zlen_nonneg _ pd).
  destruct H as [H1 H2 H3 H4 H5 H6 H7 H8 H9 H10 H11 H12 H13 H14]. cbn [l_offered l_kept l_pending l_since] in *.
  split; cbn [l_offered l_kept l_pending l_since]; auto.
  - eapply same_keys_impl; [exact H7|]. cbn beta. intros d g0 c X. destruct Q as [->| ->].
    + eapply same_keys_impl; [exact X|]. cbn beta. intros m ms c0 [Y [Z|[_ (q' & Z & _)]]]; [split; auto; left; auto|discriminate].
    + apply hchunks_later. auto.
  - intros d m. specialize (H11 d m). rewrite series_app in H11. eapply sub_trans; [apply sub_left|exact H11].
  - intros. apply sub_none.
  - rewrite zlen_nil. lia.
Qed.
Lemma finv_weak0 : forall o k pd s its B w, finv (mkL o k pd s) its B w -> finv (mkL o k [] (Some (left_over s))) its B w.
Proof. intros. eapply (finv_weak o k []); [rewrite app_nil_r; eauto|auto]. Qed.
Lemma finv_next : forall g its B w n, finv g its B w -> finv g its B (set_next n w).
Proof. intros g its B w n H. destruct H. split; auto. Qed.

Lemma fresh_hchunks : forall since, same_keys (fun d g0 k => hchunks p snap since d (fun _ => []) g0 (gw_chunks k)) (decls sc) (groups_of sc).
Proof.
  intros since. eapply same_keys_impl; [apply (fresh_groups p snap sc)|]. cbn beta. intros d g0 k [X _]. eapply same_keys_impl; [exact X|]. cbn beta.
  intros m ms c [A C]. split; auto. left. auto.
Qed.
Lemma finv_new : forall sched out w, writer_new sc (sink_new sched) = (out, Some w) -> finv l_new [] (fun _ _ => []) w.
Proof.
  intros sched out w H. unfold writer_new, io_new in H. destruct (wexec_part (WThen (WAll MAGIC) (WThen (WAll [3]) WNil)) (sink_new sched)) as (l & X & _ & _ & S).
  destruct (wexec _ (sink_new sched)) as [o1 ok]. cbn [fst snd] in *. destruct ok; [|discriminate]. inversion H; subst. clear H. specialize (S eq_refl eq_refl). subst l. destruct X as [X1 X2 X3 X4].
  split; cbn [w_schema w_io io_out io_current io_groups w_groups w_records l_new l_offered l_kept l_pending l_since io_tsmeta]; auto.
  - unfold file_bytes. cbn [w_io io_out]. rewrite X1, X2. reflexivity.
  - apply fresh_hchunks.
  - intros _. apply fresh_hchunks.
  - congruence.
  - intros. constructor.
  - intros. constructor.
  - intros. constructor.
  - rewrite zlen_nil. lia.
  - lia.
Qed.

(** ** Flush *)
Lemma decls_nodup : NoDup (map fst (decls sc)).
Proof. apply lt_nodup. apply decls_sorted. Qed.
Lemma decls_inner : Forall (fun dg : list Z * smap mschema => sorted (snd dg)) (decls sc).
Proof. apply Forall_forall. intros [d g0] I. apply in_sm_get in I; [|apply decls_sorted]. eapply decls_inner_sorted; eauto. Qed.

Lemma flush_all_any : forall g its B w w' e, finv g its B w -> flush_all p snap w = Ret (w', e) ->
  exists its' B', finv (mkL (l_offered g) (l_kept g) [] (Some (left_over (l_since g)))) its' B' w' /\ w_ge sk_ge w w' /\ (exists more, its' = its ++ more) /\
    (undisturbed (io_out (w_io w)) (io_out (w_io w')) ->
      finv (mkL (l_offered g) (l_kept g ++ l_pending g) [] None) its' B' w' /\ (0 < w_records w -> grew w w' = true)).
Proof.
  intros g its B w w' e I H. pose proof (flush_all_ge sk_ge sk_ge_refl sk_ge_trans wexec_ext _ _ _ _ _ H) as GE. unfold flush_all in H.
  assert (RN : 0 <= w_records w) by (pose proof (fi_records _ _ _ _ I) as R; pose proof (zlen_nonneg _ (l_pending g)); lia).
  destruct (w_records w >? 0) eqn:C.
  2:{ rinj H. exists its, B. split; [destruct g as [o k pd s]; cbn [l_offered l_kept l_since]; eapply finv_weak0; exact I|]. split; auto. split; [exists []; rewrite app_nil_r; auto|]. intros _. rewrite Z.gtb_ltb in C. assert (R0 : w_records w' = 0) by lia. split; [|lia].
    pose proof (fi_records _ _ _ _ I) as R. assert (P0 : l_pending g = []) by (destruct (l_pending g) as [|q l]; auto; rewrite zlen_cons in R; pose proof (zlen_nonneg _ l); lia).
    destruct I as [H1 H2 H3 H4 H5 H6 H7 H8 H9 H10 H11 H12 H13 H14]. split; cbn [l_offered l_kept l_pending l_since]; auto; rewrite P0, ?app_nil_r in *; auto. }
  apply bind_ret in H. destruct H as ([[gs io] e1] & F & H).
  destruct (flush_groups_any p snap decomp HG _ _ _ _ (fi_groups _ _ _ _ I) (decls_names _ Hsc) decls_nodup decls_inner _ _ _ _ (fi_cur _ _ _ _ I) F)
    as (new & F' & N1 & N2 & N3 & N4 & N5 & N6 & N7 & N8 & N9 & N10).
  assert (OK : Forall (item_ok p snap sc) (its ++ new)).
  { apply Forall_app. split; [apply I|]. eapply Forall_impl; [|exact N6]. intros [d cs|bs]; cbn; auto. intros (g0 & G1 & G2). exists g0. split; auto. apply in_sm_get; auto. apply decls_sorted. }
  set (B' := match e1 with None => fun _ _ => [] | Some _ => F' end).
  assert (BF : forall d m, subseq (its_series d m new ++ B' d m) (B d m)).
  { intros d m. unfold B'. destruct e1; auto. eapply sub_trans; [|apply N8]. apply sub_app; [apply sub_refl|apply sub_none]. }
  assert (FB : file_bytes w' = file_bytes w ++ file_of new) by (unfold file_bytes; destruct e1; rinj H; cbn [writer_reset w_io]; apply N2).
  assert (IO : w_io w' = io) by (destruct e1; rinj H; auto).
  assert (WS : w_schema w' = sc) by (destruct e1; rinj H; cbn [writer_reset w_schema]; apply I).
  assert (PL : e1 = None -> forall d m, its_series d m new = B d m).
  { intros Z d m. destruct (items_plan p snap _ _ _ (N9 Z) (decls_sorted sc) (fun d g0 => decls_inner_sorted sc d g0 Hsc)) as [_ P2]. rewrite P2.
    destruct (B d m) as [|x l] eqn:E; [destruct (sm_get d (decls sc)) as [g0|]; [destruct (sm_get m g0)|]; auto|].
    destruct (fi_declared _ _ _ _ I d m) as (g0 & G1 & G2); [rewrite E; discriminate|]. rewrite G1. destruct (sm_get m g0); [auto|congruence]. }
  assert (R1 : finv (mkL (l_offered g) (l_kept g) [] (Some (left_over (l_since g)))) (its ++ new) B' w').
  { split; cbn [l_offered l_kept l_pending l_since]; rewrite ?IO; auto.
    - rewrite FB, zlen_app, <- (fi_pos _ _ _ _ I). apply N2.
    - rewrite FB, (fi_data _ _ _ _ I), <- !app_assoc, file_of_app. auto.
    - rewrite N3, (fi_metas _ _ _ _ I), metas_app. f_equal. f_equal. rewrite (fi_pos _ _ _ _ I), (fi_data _ _ _ _ I), !zlen_app. change (zlen MAGIC) with 6. change (zlen [3]) with 1. lia.
    - unfold B'. destruct e1; rinj H; cbn [w_groups writer_reset w_schema]; auto. rewrite (fi_schema _ _ _ _ I). apply fresh_hchunks.
    - unfold B'. destruct e1; rinj H; cbn [w_groups writer_reset w_schema w_records]; [intros; rewrite Z.gtb_ltb in C; lia|]. intros _. rewrite (fi_schema _ _ _ _ I). apply fresh_hchunks.
    - intros d m Z. apply (fi_declared _ _ _ _ I). intros E. specialize (BF d m). rewrite E in BF. apply sub_nil_inv in BF. apply app_eq_nil in BF. tauto.
    - intros d m. rewrite its_series_app, <- app_assoc. eapply sub_trans; [|apply (fi_offered _ _ _ _ I)]. apply sub_app; [apply sub_refl|apply BF].
    - intros d m. rewrite its_series_app. eapply sub_trans; [apply (fi_kept _ _ _ _ I)|apply sub_left].
    - intros. apply sub_none.
    - rewrite zlen_nil. pose proof (fi_records _ _ _ _ I). pose proof (zlen_nonneg _ (l_offered g)). destruct e1; rinj H; cbn [writer_reset w_records]; lia.
    - destruct e1; rinj H; cbn [writer_reset w_records]; [intros _; apply (fi_some _ _ _ _ I); rewrite Z.gtb_ltb in C; lia|lia].
    }
  exists (its ++ new), B'. split; auto. split; auto. split; [eauto|]. rewrite IO. intros U. specialize (N10 U). specialize (PL N10). subst e1. rinj H. split.
  - destruct R1 as [H1 H2 H3 H4 H5 H6 H7 H8 H9 H10 H11 H12 H13 H14]. cbn [l_offered l_kept l_pending l_since] in *.
    split; cbn [l_offered l_kept l_pending l_since]; auto. intros d m. rewrite its_series_app, series_app, PL. apply sub_app; [apply (fi_kept _ _ _ _ I)|apply (fi_pending _ _ _ _ I)].
  - intros R. unfold grew. rewrite FB, zlen_app. apply Z.ltb_lt. pose proof (fi_some _ _ _ _ I R) as NE. specialize (N9 eq_refl).
    destruct (decls sc) as [|[d1 g1] G]; [congruence|]. inversion N9 as [|? it ? its' (cs & -> & _) N9']; subst. unfold file_of. cbn [map concat item_bytes fst].
    rewrite !zlen_app. unfold ghead. cbn [chunk_group_header wbytes]. cbn [app]. rewrite zlen_cons.
    match goal with |- context [zlen (concat (map item_bytes its'))] => pose proof (zlen_nonneg _ (concat (map item_bytes its'))) end.
    match goal with |- context [zlen (concat (map cbytes cs))] => pose proof (zlen_nonneg _ (concat (map cbytes cs))) end.
    match goal with |- context [1 + zlen ?x] => pose proof (zlen_nonneg _ x) | |- context [zlen ?x + 1] => pose proof (zlen_nonneg _ x) | _ => idtac end.
    lia.
Qed.

(** ** Calls *)
Lemma calm_iff : forall w w', calm w w' = true <-> undisturbed (io_out (w_io w)) (io_out (w_io w')).
Proof.
  intros w w'. unfold calm, undisturbed. rewrite forallb_forall. split.
  - intros H n L. specialize (H n). rewrite in_seq in H. assert (X : SFault.is_full (sk_sched (io_out (w_io w)) n) = true) by (apply H; lia). destruct (sk_sched _ n); auto; discriminate.
  - intros H n L. rewrite in_seq in L. rewrite H by lia. reflexivity.
Qed.
Lemma calm_same : forall w w', w_io w' = w_io w -> calm w w' = true.
Proof. intros w w' E. apply calm_iff. rewrite E. intros n L. lia. Qed.

Lemma settle : forall g its B w w', finv g its B w -> check_memory p snap w = Ret w' ->
  exists its' B', finv (if calm w w' then if grew w w' then mkL (l_offered g) (l_kept g ++ l_pending g) [] None else g
    else mkL (l_offered g) (l_kept g) [] (Some (left_over (l_since g)))) its' B' w' /\ exists more, its' = its ++ more.
Proof.
  intros g its B w w' I H. unfold check_memory in H.
  assert (SAME : forall n, exists its' B', finv (if calm w (set_next n w) then if grew w (set_next n w) then mkL (l_offered g) (l_kept g ++ l_pending g) [] None else g
    else mkL (l_offered g) (l_kept g) [] (Some (left_over (l_since g)))) its' B' (set_next n w) /\ exists more, its' = its ++ more).
  { intros n. exists its, B. rewrite calm_same, grew_same by reflexivity. split; [apply finv_next; auto|exists []; rewrite app_nil_r; auto]. }
  assert (SN : w = set_next (w_next_check w) w) by (destruct w; auto).
  destruct (w_records w >=? w_next_check w); [|rinj H; specialize (SAME (w_next_check w')); rewrite <- SN in SAME; exact SAME].
  apply bind_ret in H. destruct H as (mem & _ & H). destruct (mem =? 0); [discriminate|].
  match type of H with context [mkW _ _ _ ?n _] => set (nx := n) in H end. fold (set_next nx w) in H.
  destruct (mem >? _); [|rinj H; auto].
  apply bind_ret in H. destruct H as ([w1 e] & F & H). rinj H. cbn [fst].
  destruct (Z.eq_dec (w_records w) 0) as [R0|R0].
  - unfold flush_all in F. cbn [set_next w_records] in F. replace (w_records w >? 0) with false in F by (rewrite R0; auto). rinj F. auto.
  - destruct (flush_all_any _ _ _ _ _ _ (finv_next _ _ _ _ nx I) F) as (its' & B' & R1 & _ & MORE & R2). exists its', B'. split; [|exact MORE].
    cbn [set_next w_io w_records] in R2. change (grew (set_next nx w) w1) with (grew w w1) in R2.
    destruct (calm w w1) eqn:C; auto. apply calm_iff in C. destruct (R2 C) as [R3 R4].
    pose proof (fi_records _ _ _ _ I) as R. pose proof (zlen_nonneg _ (l_pending g)). rewrite R4 by lia. auto.
Qed.

(** the state after a device's chunks have taken some points *)
Lemma finv_group : forall g its B w d g0 k a b pend, finv g its B w -> sm_get d (decls sc) = Some g0 ->
  hchunks p snap (grown a (l_since g)) d (fun m => B d m ++ series_of d m a) g0 (gw_chunks k) ->
  Forall (fun q => pt_device q = d /\ sm_get (pt_name q) g0 <> None) a ->
  (w_records w = 0 -> hchunks p snap None d (fun m => B d m ++ series_of d m a) g0 (gw_chunks k)) -> (pend = a \/ pend = []) ->
  finv (mkL (l_offered g ++ a ++ b) (l_kept g) (l_pending g ++ pend) (grown (a ++ b) (l_since g))) its (fun d' m => B d' m ++ series_of d' m a)
    (mkW (w_io w) (sm_insert d k (w_groups w)) (w_records w + zlen pend) (w_next_check w) (w_schema w)).
Proof.
  intros g its B w d g0 k a b pend I ED HC DA CL PE. assert (PA := zlen_nonneg _ pend). assert (PB := zlen_nonneg _ b).
  assert (PL : zlen pend <= zlen a) by (destruct PE; subst; [lia|rewrite zlen_nil; apply zlen_nonneg]).
  assert (OTH : forall d' m, d' <> d -> series_of d' m a = []).
  { intros d' m N. clear -DA N. induction DA as [|q a [D _] DA IH]; auto. change (q :: a) with ([q] ++ a). rewrite series_app, IH, app_nil_r. rewrite series_one.
    destruct (same_name (pt_device q) d') eqn:E; auto. apply same_name_eq in E. congruence. }
  pose proof (fi_records _ _ _ _ I) as R. pose proof (zlen_nonneg _ (l_pending g)) as PG.
  assert (SG : sorted (w_groups w)) by (unfold sorted; rewrite <- (same_keys_fst _ _ _ _ _ (fi_groups _ _ _ _ I)); apply decls_sorted).
  destruct I as [H1 H2 H3 H4 H5 H6 H7 H8 H9 H10 H11 H12 H13 H14].
  split; cbn [l_offered l_kept l_pending l_since w_schema w_io w_groups w_records]; auto.
  - eapply same_keys_insert; [exact H7|auto|exact ED| |].
    + cbn beta. rewrite grown_app. apply hchunks_grown. exact HC.
    + cbn beta. intros d' x y N X. apply hchunks_grown. eapply hchunks_ext; [|exact X]. intros m. rewrite OTH, app_nil_r; auto.
  - intros R0. assert (R1 : w_records w = 0) by lia. eapply same_keys_insert; [exact (H8 R1)|auto|exact ED|exact (CL R1)|].
    cbn beta. intros d' x y N X. eapply hchunks_ext; [|exact X]. intros m. rewrite OTH, app_nil_r; auto.
  - intros d' m NE. destruct (B d' m) as [|x l] eqn:EB.
    + cbn [app] in NE. destruct (series_of d' m a) as [|[t v] l] eqn:ES; [congruence|]. assert (IN : In (t, v) (series_of d' m a)) by (rewrite ES; left; auto).
      apply PWriter.series_in in IN. rewrite Forall_forall in DA. apply DA in IN. cbn [pt_device pt_name] in IN. destruct IN as [<- IN]. eauto.
    + apply H9. rewrite EB. discriminate.
  - intros d' m. rewrite !series_app, app_assoc. apply sub_app; [apply H10|apply sub_left].
  - intros d' m. rewrite series_app. apply sub_app; [apply H12|]. destruct PE; subst; [apply sub_refl|apply sub_none].
  - rewrite !zlen_app. lia.
  - intros _ E. rewrite E in ED. discriminate.
Qed.

Lemma finv_bound : forall g its B w d m, finv g its B w -> zlen (B d m) <= zlen (l_offered g).
Proof.
  intros g its B w d m I. pose proof (sub_len _ _ _ (fi_offered _ _ _ _ I d m)) as L. rewrite zlen_app in L. pose proof (zlen_nonneg _ (its_series d m its)). pose proof (series_len d m (l_offered g)). lia.
Qed.
Lemma finv_get : forall g its B w d, finv g its B w ->
  match sm_get d (decls sc), sm_get d (w_groups w) with
  | Some g0, Some k => hchunks p snap (l_since g) d (B d) g0 (gw_chunks k) /\ (w_records w = 0 -> hchunks p snap None d (B d) g0 (gw_chunks k))
  | None, None => True
  | _, _ => False
  end.
Proof.
  intros g its B w d I. pose proof (same_keys_get _ _ _ _ _ d (fi_groups _ _ _ _ I)) as A. pose proof (fun R => same_keys_get _ _ _ _ _ d (fi_clean _ _ _ _ I R)) as C. cbn beta in *.
  destruct (sm_get d (decls sc)), (sm_get d (w_groups w)); auto.
Qed.
Lemma finv_more : forall o k pd s q its B w, finv (mkL o k pd s) its B w -> finv (mkL (o ++ q) k pd (grown q s)) its B w.
Proof.
  intros o k pd s q its B w I. destruct I as [H1 H2 H3 H4 H5 H6 H7 H8 H9 H10 H11 H12 H13 H14]. cbn [l_offered l_kept l_pending l_since] in *.
  split; cbn [l_offered l_kept l_pending l_since]; auto.
  - eapply same_keys_impl; [exact H7|]. cbn beta. intros. apply hchunks_grown. auto.
  - intros d m. rewrite series_app. eapply sub_trans; [apply H10|apply sub_left].
  - rewrite zlen_app. pose proof (zlen_nonneg _ q). lia.
Qed.
Lemma l_step_ok : forall o a b g, l_step o a true b g = if b then mkL (l_offered g ++ offered o a) (l_kept g ++ l_pending g ++ acked1 o a) [] None
   else mkL (l_offered g ++ offered o a) (l_kept g) (l_pending g ++ acked1 o a) (grown (offered o a) (l_since g)).
Proof. reflexivity. Qed.

Lemma gw_write_err : forall m t v k k' err, gw_write p snap m t v k = Ret (k', Some err) -> gw_chunks k' = gw_chunks k.
Proof.
  intros m t v k k' err H. unfold gw_write in H. destruct (check_is_history_data m t (gw_last k)) as [l' [|]]; [|rinj H; auto].
  destruct (sm_get m (gw_chunks k)); [|rinj H; auto]. apply bind_ret in H. destruct H as ([c'|e] & W & H); discriminate.
Qed.
Lemma end_file_any : forall ord io io', end_file p ord io = Ret io' ->
  exists l, sk_ext (io_out io) (io_out io') l /\ io_groups io' = io_groups io /\ io_current io' = io_current io /\
    (undisturbed (io_out io) (io_out io') -> 0 < zlen l).
Proof.
  intros ord io io' H. unfold end_file in H. apply bind_ret in H. destruct H as (tsm & _ & H).
  apply bind_ret in H. destruct H as ([ix o1] & H1 & H).
  apply (construct_index_ge sk_ge sk_ge_refl sk_ge_trans wexec_ext) in H1.
  apply bind_ret in H. destruct H as (bf & _ & H). apply bind_ret in H. destruct H as (bw & _ & H).
  rinj H. cbn [io_out io_with_out io_groups io_current io_with_tsmeta].
  assert (G : sk_ge (fst (wexec (WAll [2]) (io_out io))) (fst (wexec (WAll MAGIC) (fst (wexec (WAll (be_bytes 4 (wrapU 32 (sk_pos (fst (wexec bw (fst (wexec (ts_file_metadata_serialize ix (sk_pos (io_out io))) o1)))) - sk_pos o1)))) (fst (wexec bw (fst (wexec (ts_file_metadata_serialize ix (sk_pos (io_out io))) o1))))))))).
  { eapply sk_ge_trans; [exact H1|]. eapply sk_ge_trans; [|apply wexec_ext]. eapply sk_ge_trans; [|apply wexec_ext].
    eapply sk_ge_trans; [|apply wexec_ext]. apply wexec_ext. }
  destruct (wexec_ext (WAll [2]) (io_out io)) as (l1 & X1). destruct G as (l2 & G). exists (l1 ++ l2). split; [exact (sk_ext_trans _ _ _ _ _ X1 G)|]. do 2 (split; [auto|]).
  intros U. apply undisturbed_split with (b := fst (wexec (WAll [2]) (io_out io))) in U; [|exists l1; auto|exists l2; auto]. destruct U as [U _].
  apply wexec_full in U. destruct U as [_ U]. destruct U as [U1 _ _ _]. destruct X1 as [X1 _ _ _]. rewrite X1 in U1. apply app_inv_head in U1. subst l1. cbn [wbytes app]. rewrite zlen_cons. pose proof (zlen_nonneg _ l2). lia.
Qed.
Lemma step_any : forall g its B w o w' a, finv g its B w -> op_ok o -> zlen (l_offered g) + op_points o < 2 ^ 32 -> few (l_more (offered o a) g) ->
  step p snap w o = Ret (w', a) -> exists its' B', finv (l_step o a (calm w w') (grew w w') g) its' B' w' /\ exists more, its' = its ++ more.
Proof.
  intros g its B w o w' a I HO HL FW H.
  assert (TAIL : forall d g0 k pts, sm_get d (decls sc) = Some g0 -> hchunks p snap (grown pts (l_since g)) d (fun m => B d m ++ series_of d m pts) g0 (gw_chunks k) ->
    (w_records w = 0 -> hchunks p snap None d (fun m => B d m ++ series_of d m pts) g0 (gw_chunks k)) ->
    Forall (fun q => pt_device q = d /\ sm_get (pt_name q) g0 <> None) pts -> offered o a = pts -> acked1 o a = pts ->
    check_memory p snap (mkW (w_io w) (sm_insert d k (w_groups w)) (w_records w + zlen pts) (w_next_check w) (w_schema w)) = Ret w' ->
    exists its' B', finv (l_step o a (calm w w') (grew w w') g) its' B' w' /\ exists more, its' = its ++ more).
  { intros d g0 k pts ED HC CL DA OF AK C.
    pose proof (finv_group _ _ _ _ _ _ _ pts [] pts I ED HC DA CL (or_introl eq_refl)) as J.
    destruct (settle _ _ _ _ _ J C) as (its' & B' & K & MORE). exists its', B'. split; [|exact MORE]. cbn [l_offered l_kept l_pending l_since] in K. rewrite app_nil_r in K. unfold l_step, l_more. rewrite OF, AK.
    change (calm w w') with (calm (mkW (w_io w) (sm_insert d k (w_groups w)) (w_records w + zlen pts) (w_next_check w) (w_schema w)) w').
    change (grew w w') with (grew (mkW (w_io w) (sm_insert d k (w_groups w)) (w_records w + zlen pts) (w_next_check w) (w_schema w)) w'). exact K. }
  assert (NOMORE : exists more, its = its ++ more) by (exists []; rewrite app_nil_r; auto).
  assert (SAME : acked1 o a = [] -> offered o a = [] -> finv (l_step o a true false g) its B w).
  { intros E1 E2. rewrite l_step_ok, E1, E2, !app_nil_r, grown_nil. destruct g. exact I. }
  assert (BD : forall d m, zlen (B d m) <= zlen (l_offered g)) by (intros; eapply finv_bound; eauto).
  destruct o as [d m t v|d t vs|ord]; cbn [step is_close op_ok op_points] in *; idtac.
  - (* write *)
    destruct HO as [Ht Hv]. pose proof (finv_get _ _ _ _ d I) as WG. unfold writer_write in H.
    destruct (sm_get d (w_groups w)) as [k|] eqn:EG; destruct (sm_get d (decls sc)) as [g0|] eqn:ED; try tauto.
    + apply bind_ret in H. destruct H as ([k' e] & W & H). destruct WG as [WG WC]. pose proof (decls_inner_sorted sc d g0 Hsc ED) as S0.
      assert (HL' : zlen (B d m) + 1 < 2 ^ 32) by (specialize (BD d m); lia).
      destruct e as [err|].
      * rinj H. rewrite calm_same, grew_same by reflexivity. exists its, (fun d' m => B d' m ++ series_of d' m []). split; [|exact NOMORE].
        assert (X : forall since, hchunks p snap since d (B d) g0 (gw_chunks k) -> hchunks p snap since d (fun m => B d m ++ series_of d m []) g0 (gw_chunks k')).
        { intros since Y. rewrite (gw_write_err _ _ _ _ _ _ W). eapply hchunks_ext; [|exact Y]. intros. cbn. rewrite app_nil_r. auto. }
        rewrite l_step_ok. cbn [offered acked1].
        pose proof (finv_group _ _ _ _ _ _ k' [] [] [] I ED) as J. rewrite grown_nil in J. specialize (J (X _ WG) (Forall_nil _) (fun R => X _ (WC R)) (or_introl eq_refl)).
        rewrite zlen_nil, Z.add_0_r, !app_nil_r, ?grown_nil in J. rewrite !app_nil_r, grown_nil. exact J.
      * apply bind_ret in H. destruct H as (rc & A & H). apply bind_ret in H. destruct H as (w2 & C & H). rinj H.
        pose proof (gw_write_any p snap decomp HG _ _ _ _ _ _ _ _ _ _ WG S0 Hv Ht HL' FW W) as [DM GW].
        pose proof (fi_records _ _ _ _ I) as R. pose proof (zlen_nonneg _ (l_pending g)). cbn [w_records] in A. rewrite arithU_ok in A by lia. apply ret_inj in A. subst rc. cbn [w_io w_groups w_next_check w_schema w_records] in C.
        eapply (TAIL d g0 k' [mkPoint d m t v]); eauto.
        intros R0. exact (proj2 (gw_write_any p snap decomp HG None _ _ _ _ _ _ _ _ None (WC R0) S0 Hv Ht HL' Logic.I W)).
    + rinj H. rewrite calm_same, grew_same by auto. exists its, B. split; [|exact NOMORE]. auto.
  - (* write_many *)
    destruct HO as [Ht Hv]. pose proof (finv_get _ _ _ _ d I) as WG. unfold writer_write_many in H.
    destruct (sm_get d (w_groups w)) as [k|] eqn:EG; destruct (sm_get d (decls sc)) as [g0|] eqn:ED; try tauto.
    + apply bind_ret in H. destruct H as ([k' r] & W & H). destruct WG as [WG WC]. pose proof (decls_inner_sorted sc d g0 Hsc ED) as S0.
      assert (HL' : forall m, zlen (B d m) + zlen vs < 2 ^ 32) by (intros m; specialize (BD d m); lia).
      pose proof (zlen_nonneg _ (l_offered g)) as NO.
      assert (HN : 0 + zlen vs < 2 ^ 32) by lia.
      pose proof (fi_records _ _ _ _ I) as R. pose proof (zlen_nonneg _ (l_pending g)) as NP. pose proof (zlen_nonneg _ vs) as NV.
      assert (GB : exists x y, vs = x ++ y /\ hchunks p snap (grown (batch d t x) (l_since g)) d (fun m => B d m ++ series_of d m (batch d t x)) g0 (gw_chunks k') /\
        (w_records w = 0 -> hchunks p snap None d (fun m => B d m ++ series_of d m (batch d t x)) g0 (gw_chunks k')) /\
        Forall (fun q => pt_device q = d /\ sm_get (pt_name q) g0 <> None) (batch d t x) /\ match r with inl n => y = [] /\ n = zlen vs | inr _ => True end).
      { destruct (gw_batch_any p snap decomp HG d t g0 S0 Ht vs _ _ _ _ _ _ WG Hv HL' (Z.le_refl 0) HN FW W) as (x & y & E & X & DA & RR).
        exists x, y. split; auto. split; [auto|]. split; [intros R0; exact (X None (WC R0) Logic.I)|]. split; auto. clear -DA. induction DA; constructor; auto. }
      destruct GB as (x & y & E & X & XC & DA & RR). destruct r as [n|err].
      * destruct RR as [-> ->]. rewrite app_nil_r in E. subst x. apply bind_ret in H. destruct H as (rc & A & H). apply bind_ret in H. destruct H as (w2 & C & H). rinj H.
        cbn [w_records] in A. rewrite arithU_ok in A by lia. apply ret_inj in A. subst rc. cbn [w_io w_groups w_next_check w_schema w_records] in C.
        eapply (TAIL d g0 k' (batch d t vs)); eauto. replace (zlen (batch d t vs)) with (zlen vs); auto. unfold batch, zlen. rewrite map_length. auto.
      * rinj H. rewrite calm_same, grew_same by reflexivity. exists its, (fun d' m => B d' m ++ series_of d' m (batch d t x)). split; [|exact NOMORE].
        pose proof (finv_group _ _ _ _ _ _ k' (batch d t x) (batch d t y) [] I ED X DA XC (or_intror eq_refl)) as J.
        rewrite zlen_nil, Z.add_0_r in J. rewrite l_step_ok. cbn [offered acked1]. fold (batch d t (x ++ y)). replace (batch d t (x ++ y)) with (batch d t x ++ batch d t y) by (symmetry; apply map_app). exact J.
    + rinj H. rewrite calm_same, grew_same by auto. exists its, B. split; [|exact NOMORE]. rewrite l_step_ok. cbn [offered acked1]. rewrite app_nil_r.
      destruct g as [o1 k1 p1 s1]. cbn [l_offered l_kept l_pending l_since] in *. apply finv_more. exact I.
  - (* close *)
    unfold writer_close in H. apply bind_ret in H. destruct H as ([w1 e] & F & H). cbn [fst] in H.
    apply bind_ret in H. destruct H as (io & E & H). rinj H.
    set (w' := mkW io (w_groups w1) (w_records w1) (w_next_check w1) (w_schema w1)).
    destruct (flush_all_any _ _ _ _ _ _ I F) as (its1 & B1 & R1 & GE & (more1 & MORE) & R2).
    pose proof (end_file_ge sk_ge sk_ge_refl sk_ge_trans wexec_ext _ _ _ _ E) as GF. 
    assert (PUT : forall g', finv g' its1 B1 w1 -> exists l, finv g' (its1 ++ [Raw l]) B1 w').
    { intros g' J. destruct (end_file_any _ _ _ E) as (l & X & X1 & X2 & _). exists l.
      assert (FB : file_bytes w' = file_bytes w1 ++ l) by (unfold file_bytes, w'; cbn [w_io]; apply X).
      destruct J as [H1 H2 H3 H4 H5 H6 H7 H8 H9 H10 H11 H12 H13 H14]. split; cbn [w' w_schema w_io w_groups w_records]; auto.
      - change (sk_pos (io_out io) = zlen (file_bytes w')). rewrite FB, zlen_app, <- H2. apply X.
      - change (file_bytes w' = MAGIC ++ [3] ++ file_of (its1 ++ [Raw l])). rewrite FB, H3, file_of_app, <- !app_assoc.
        replace (file_of [Raw l]) with l; auto. unfold file_of. cbn [map concat item_bytes]. rewrite app_nil_r. auto.
      - congruence.
      - rewrite X1, H5, metas_app. cbn [metas imetas app]. rewrite app_nil_r. auto.
      - apply Forall_app. split; [auto|repeat constructor].
      - intros d m. rewrite its_series_app. unfold its_series at 2. cbn [map concat iseries]. rewrite !app_nil_r. auto.
      - intros d m. rewrite its_series_app. unfold its_series at 2. cbn [map concat iseries]. rewrite !app_nil_r. auto.
      }
    assert (MORE' : forall l, exists more, its1 ++ [Raw l] = its ++ more) by (intros l; exists (more1 ++ [Raw l]); rewrite MORE, app_assoc; auto).
    unfold l_step, l_more. cbn [offered acked1]. rewrite !app_nil_r.
    destruct (calm w w') eqn:C.
    + apply calm_iff in C. destruct (undisturbed_split _ _ _ GE GF C) as [C1 C2]. destruct (R2 C1) as [R3 _].
      assert (GR : grew w w' = true).
      { destruct (end_file_any _ _ _ E) as (l & X & _ & _ & X3). specialize (X3 C2). unfold grew, file_bytes. cbn [w' w_io]. rewrite (se_data _ _ _ X), zlen_app.
        destruct GE as (l0 & GE). rewrite (se_data _ _ _ GE), zlen_app. pose proof (zlen_nonneg _ l0). apply Z.ltb_lt. lia. }
      rewrite GR. destruct (PUT _ R3) as (l & K). exists (its1 ++ [Raw l]), B1. split; auto.
    + destruct (PUT _ R1) as (l & K). exists (its1 ++ [Raw l]), B1. split; auto. destruct (l_since g); cbn [option_map left_over] in *; rewrite ?app_nil_r; exact K.
Qed.

Lemma step_few : forall o a b c g, zlen (l_offered (l_step o a b c g)) <= zlen (l_offered g) + op_points o.
Proof.
  intros o a b c g. assert (zlen (offered o a) <= op_points o).
  { destruct o as [d m t v|d t vs|ord]; cbn [offered op_points].
    - destruct a; rewrite ?zlen_cons, ?zlen_nil; lia.
    - unfold zlen. rewrite map_length. apply Z.le_refl.
    - rewrite zlen_nil. apply Z.le_refl. }
  unfold l_step. destruct b, c; cbn [l_offered]; rewrite zlen_app; lia.
Qed.
Lemma close_tsmeta : forall ord w w' a, step p snap w (OpClose ord) = Ret (w', a) ->
  metadata_loop p None (chunk_map (io_groups (w_io w'))) (io_tsmeta (w_io w)) = Ret (io_tsmeta (w_io w')).
Proof.
  intros ord w w' a H. cbn [step] in H. unfold writer_close in H. apply bind_ret in H. destruct H as ([w1 e] & F & H). cbn [fst] in H.
  apply bind_ret in H. destruct H as (io & E & H). rinj H. cbn [w_io]. rewrite <- (flush_all_tsmeta _ _ _ _ _ F).
  destruct (end_file_any _ _ _ E) as (l & _ & -> & _). eapply end_file_tsmeta; eauto.
Qed.
Record einv (g : ledger) (cs : list ledger) (snaps : list (list item)) (its : list item) (B : list Z -> list Z -> list (Z * value)) (w : writer) : Prop := {
  ei_finv : finv g its B w;
  ei_pre : Forall (fun s => exists more, its = s ++ more) snaps;
  ei_between : Forall2 (fun s c => forall d m, booked d m c (its_series d m s)) snaps cs;
  ei_metas : exists tmss, minv p snaps (io_tsmeta (w_io w)) tmss }.
Lemma finv_between : forall g its B w d m, finv g its B w -> booked d m g (its_series d m its).
Proof. intros g its B w d m I. split; [apply I|]. eapply sub_trans; [apply sub_left|apply (fi_offered _ _ _ _ I)]. Qed.
Lemma endured_ok : forall sched w g cs ops l, endured p snap sc sched w g cs ops l -> ops_ok ops ->
  zlen (l_offered g) <= zsum (map op_points ops) /\ exists snaps its B, einv g cs snaps its B w.
Proof.
  intros sched w g cs ops l T. induction T as [out w N|w g cs ops l o w' a T IH H FW g']; intros [O1 O2].
  - split; [vm_compute; discriminate|]. exists [], [], (fun _ _ => []). split; [eapply finv_new; eauto|constructor|constructor|]. exists [].
    unfold writer_new, io_new in N. destruct (wexec _ _) as [s b]. destruct b; [|discriminate]. inversion N; subst. cbn [w_io io_tsmeta].
    split; [constructor|apply sorted_nil|constructor|reflexivity].
  - rewrite map_app, zsum_app in *. cbn [map zsum fold_right] in *. apply Forall_app in O1. destruct O1 as [O1 O3]. inversion O3; subst.
    pose proof (op_points_nonneg o). destruct IH as (L & snaps & its & B & [I P1 P2 (tmss & P3)]); [split; auto; lia|].
    pose proof (step_few o a (calm w w') (grew w w') g). split; [unfold g'; lia|].
    destruct (step_any _ _ _ _ o w' a I H2 ltac:(lia) FW H) as (its' & B' & J & more & ->). fold g' in J.
    destruct (is_close o) eqn:C.
    + destruct o as [| |ord]; try discriminate. exists (snaps ++ [its ++ more]), (its ++ more), B'. split; auto.
      * apply Forall_app. split; [apply pre_more; auto|]. constructor; [|constructor]. exists []. rewrite app_nil_r. auto.
      * apply Forall2_app; auto. constructor; [|constructor]. intros d m. eapply finv_between; eauto.
      * pose proof (close_tsmeta _ _ _ _ H) as M. rewrite (fi_metas _ _ _ _ J) in M. destruct (minv_close _ _ _ _ _ _ P3 M) as (tms & Q). eauto.
    + exists snaps, (its ++ more), B'. split; auto; [apply pre_more; auto|]. exists tmss. rewrite (step_tsmeta _ _ _ _ _ _ C H). auto.
Qed.

(** ** What the file holds *)
(** the points of items as a list of points *)
Definition pts_of (it : item) : list point :=
  match it with GItem d cs => concat (map (fun c => map (fun tv => mkPoint d (c_name c) (fst tv) (snd tv)) (c_pts c)) cs) | Raw _ => [] end.
Definition all_pts (its : list item) : list point := concat (map pts_of its).
Lemma all_pts_series : forall d m its, its_series d m its = series_of d m (all_pts its).
Proof.
  intros d m its. unfold its_series, all_pts. induction its as [|it its IH]; [reflexivity|]. cbn [map concat]. rewrite series_app, IH. f_equal. clear IH.
  destruct it as [k cs|bs]; [|reflexivity]. cbn [iseries pts_of]. assert (ONE : forall c, series_of d m (map (fun tv => mkPoint k (c_name c) (fst tv) (snd tv)) (c_pts c)) = if same_name k d && same_name (c_name c) m then c_pts c else []).
  { intros c. induction (c_pts c) as [|[t v] l IHl]; [cbn; destruct (_ && _); auto|]. cbn [map fst snd]. change (?x :: ?y) with ([x] ++ y). rewrite series_app, IHl, series_one. cbn [pt_device pt_name pt_time pt_value]. destruct (same_name k d && same_name (c_name c) m); auto. }
  unfold cseries. induction cs as [|c cs IHc]; cbn [map concat filter]; [destruct (same_name k d); auto|]. rewrite series_app, ONE, <- IHc. destruct (same_name k d); [|auto]. cbn [andb]. destruct (same_name (c_name c) m); auto.
Qed.

Lemma endured_recorded : forall sched w g cs ops l, endured p snap sc sched w g cs ops l -> ops_ok ops -> zlen (file_bytes w) < 2 ^ 32 ->
  (forall d ms cm, In (d, ms) (io_groups (w_io w)) -> In cm ms -> exists k s, chunk_at decomp (file_bytes w) (cm_offset cm) = Some k /\
     declares sc d (cm_id cm) s /\ cm_type cm = ms_type s /\ ch_name k = cm_id cm /\ ch_type k = dtype_code (cm_type cm) /\ chunk_points k <> [] /\
     in_group decomp (file_bytes w) d (cm_offset cm)) /\
  (forall d m, exists s, booked d m g s /\ concat (map (points_at decomp (file_bytes w)) (recorded (io_groups (w_io w)) d m)) = tnums s).
Proof.
  intros sched w g cs ops l T O L. destruct (endured_ok _ _ _ _ _ _ T O) as (_ & snaps & its & B & [I _ _ _]).
  pose proof (fi_data _ _ _ _ I) as D. rewrite (fi_metas _ _ _ _ I). assert (L' : Forall light its /\ 7 + zlen (file_of its) < 2 ^ 63).
  { rewrite D, !zlen_app in L. change (zlen MAGIC) with 6 in L. change (zlen [3]) with 1 in L. split; [apply light_of|]; lia. }
  replace (file_bytes w) with ((MAGIC ++ [3]) ++ file_of its ++ []) by (rewrite D, app_nil_r, <- app_assoc; auto). split.
  - intros d ms cm I1 I2. eapply (meta_at p snap decomp HG); [exact Hsc|apply I|apply L'|reflexivity|apply L'|exact I1|exact I2].
  - intros d m. exists (its_series d m its). split; [eapply finv_between; eauto|]. apply (series_at p snap decomp HG); [eapply items_names; [exact Hsc|apply I]|apply L'|reflexivity|apply L'].
Qed.

Lemma series_declared : forall its d m, Forall (item_ok p snap sc) its -> its_series d m its <> [] -> exists ms, declares sc d m ms.
Proof.
  intros its d m HI N. rewrite citems_series in N. destruct (citems_of d m its) as [|c cs] eqn:EC; [exfalso; apply N; reflexivity|].
  destruct (citems_declares p snap sc Hsc its d m c HI) as (_ & _ & DD); [rewrite EC; left; auto|]. eauto.
Qed.
Lemma endured_close : forall sched w g cs ops l ord w' a, endured p snap sc sched w g cs ops l -> ops_ok ops -> recovered w ->
  step p snap w (OpClose ord) = Ret (w', a) -> zlen (file_bytes w') < 2 ^ 32 -> good_order ord -> no_dots sc -> few_entries sc (zlen cs + 1) 65536 ->
  exists pss xs, Forall2 (fun pts c => forall d m, booked d m c (series_of d m pts)) pss
      (cs ++ [mkL (l_offered g) (l_kept g ++ l_pending g) [] None]) /\ reclosed p decomp sc pss (file_bytes w') xs /\
    Forall (fun pts => forall d m, series_of d m pts <> [] -> exists ms, declares sc d m ms) pss.
Proof.
  intros sched w g cs ops l ord w' a T O R H L GO ND FE. destruct (endured_ok _ _ _ _ _ _ T O) as (_ & snaps & its & B & [I P1 P2 (tmss & P3)]).
  cbn [step] in H. unfold writer_close in H. apply bind_ret in H. destruct H as ([w1 e] & F & H). cbn [fst] in H.
  apply bind_ret in H. destruct H as (io & E & H). rinj H. cbn [file_bytes w_io] in *.
  destruct (flush_all_any _ _ _ _ _ _ I F) as (its1 & B1 & _ & GE & (more & ->) & R2).
  assert (U : undisturbed (io_out (w_io w)) (io_out (w_io w1))) by (intros n [N _]; apply R; auto). destruct (R2 U) as [J _].
  assert (HH : is_healthy (io_out (w_io w1))) by (destruct GE as (l0 & GE); eapply sk_ext_healthy; [exact GE|exact R]).
  assert (Z : Forall2 (fun s pts => forall d m, its_series d m s = series_of d m pts) snaps (map all_pts snaps)).
  { clear. induction snaps; constructor; auto. intros. apply all_pts_series. }
  rewrite <- (flush_all_tsmeta _ _ _ _ _ F) in P3.
  assert (LEN : zlen (map all_pts snaps ++ [all_pts (its ++ more)]) = zlen cs + 1).
  { rewrite zlen_app, zlen_cons, zlen_nil. unfold zlen. rewrite map_length, (F2_length _ _ _ _ _ P2). lia. }
  destruct (items_reclosed p snap decomp HG sc Hsc ND (map all_pts snaps) (all_pts (its ++ more)) snaps (its ++ more) tmss ord (w_io w1) io
    (fi_items _ _ _ _ J) HH (fi_pos _ _ _ _ J) (fi_data _ _ _ _ J) (fi_metas _ _ _ _ J) P3 (pre_more _ _ _ P1) Z (fun d m => all_pts_series d m _) E L GO) as (xs & X).
  { rewrite LEN. exact FE. }
  eexists _, xs. split; [|split; [exact X|]].
  2:{ assert (IT : Forall (fun s => Forall (item_ok p snap sc) s) (snaps ++ [its ++ more])).
    { apply Forall_app. split; [|constructor; [apply J|constructor]]. eapply Forall_impl; [|exact P1]. cbn beta. intros s (m0 & EM). pose proof (fi_items _ _ _ _ I) as FI. rewrite EM in FI. apply Forall_app in FI. apply FI. }
    change [all_pts (its ++ more)] with (map all_pts [its ++ more]). rewrite <- map_app. apply Forall_map. eapply Forall_impl; [|exact IT]. cbn beta. intros s IS d m. rewrite <- all_pts_series. apply series_declared. auto. }
  apply Forall2_app.
  - clear - P2. induction P2; cbn [map]; constructor; auto. intros d m. rewrite <- all_pts_series. auto.
  - constructor; [|constructor]. intros d m. rewrite <- all_pts_series. eapply (finv_between _ _ _ _ d m) in J. exact J.
Qed.
End Ledger.

(** ** Corollaries *)
Lemma sub_tnums : forall a b, subseq a b -> subseq (tnums a) (tnums b).
Proof. intros a b H. unfold tnums. induction H; cbn [map]; constructor; auto. Qed.
Lemma endured_index : forall p snap decomp sc sched w g cs ops l ord w' a, good_snap snap decomp -> schema_ok sc ->
  endured p snap sc sched w g cs ops l -> ops_ok ops -> recovered w ->
  step p snap w (OpClose ord) = Ret (w', a) -> zlen (file_bytes w') < 2 ^ 32 -> good_order ord -> no_dots sc -> few_entries sc (zlen cs + 1) 65536 ->
  exists pss xs, Forall2 (fun pts c => forall d m, booked d m c (series_of d m pts)) pss (cs ++ [mkL (l_offered g) (l_kept g ++ l_pending g) [] None]) /\
    index_read decomp (file_bytes w') = Some xs /\
    Forall (fun x => exists ms, declares sc (fst (f_key x)) (snd (f_key x)) ms) xs /\
    (forall d m ms, declares sc d m ms -> Forall2 (series_found p (ms_type ms)) (versions d m pss) (entries_of d m xs)) /\
    (forall d m, map f_points (entries_of d m xs) = map tnums (versions d m pss)).
Proof.
  intros p snap decomp sc sched w g cs ops l ord w' a HG Hs T O R H L GO ND FE.
  destruct (endured_close p snap decomp HG sc Hs _ _ _ _ _ _ _ _ _ T O R H L GO ND FE) as (pss & xs & F & [A B C D _] & K).
  exists pss, xs. do 4 (split; [auto|]). intros d m. destruct (versions d m pss) as [|v vs] eqn:EV; [rewrite C; auto|].
  assert (I : In v (versions d m pss)) by (rewrite EV; left; auto). unfold versions in I. apply filter_In in I. destruct I as [I1 I2]. apply in_map_iff in I1. destruct I1 as (pts & <- & I1).
  rewrite Forall_forall in K. destruct (K pts I1 d m) as (ms & DD); [destruct (series_of d m pts); discriminate|]. rewrite <- EV. eapply map_points; eauto.
Qed.
Lemma endured_found : forall p snap decomp sc sched w g cs ops l ord w' a d m, good_snap snap decomp -> schema_ok sc ->
  endured p snap sc sched w g cs ops l -> ops_ok ops -> recovered w ->
  step p snap w (OpClose ord) = Ret (w', a) -> zlen (file_bytes w') < 2 ^ 32 -> good_order ord -> no_dots sc -> few_entries sc (zlen cs + 1) 65536 ->
  series_of d m (l_kept g ++ l_pending g) <> [] ->
  exists xs x, index_read decomp (file_bytes w') = Some xs /\ In x xs /\ f_key x = (d, m) /\
    subseq (tnums (series_of d m (l_kept g ++ l_pending g))) (f_points x) /\ subseq (f_points x) (tnums (series_of d m (l_offered g))).
Proof.
  intros p snap decomp sc sched w g cs ops l ord w' a d m HG Hs T O R H L GO ND FE NE.
  destruct (endured_index p snap decomp sc sched w g cs ops l ord w' a HG Hs T O R H L GO ND FE) as (pss & xs & F & A & _ & _ & D).
  apply Forall2_app_inv_r in F. destruct F as (p1 & p2 & _ & F & ->). inversion F as [|pts ? p3 ? BK F']; subst. inversion F'; subst. destruct (BK d m) as [B1 B2]. cbn [l_kept l_offered] in *.
  assert (NS : series_of d m pts <> []) by (intros Z; rewrite Z in B1; apply sub_nil_inv in B1; auto).
  specialize (D d m). unfold versions in D. rewrite map_app, filter_app in D. cbn [map filter] in D.
  replace (nonempty_series (series_of d m pts)) with true in D by (destruct (series_of d m pts); [congruence|reflexivity]). rewrite map_app in D. cbn [map] in D.
  assert (I : In (tnums (series_of d m pts)) (map f_points (entries_of d m xs))) by (rewrite D; apply in_app_iff; right; left; auto).
  apply in_map_iff in I. destruct I as (x & E & I). apply filter_In in I. destruct I as [I1 I2]. apply is_key_iff in I2.
  exists xs, x. do 3 (split; [auto|]). rewrite E. split; apply sub_tnums; auto.
Qed.
Lemma endured_len : forall p snap sc sched w g cs ops l, endured p snap sc sched w g cs ops l -> length ops = length l.
Proof. intros p snap sc sched w g cs ops l T. induction T; auto. rewrite !app_length, IHT. auto. Qed.
(** a session in which the disk never refuses anything *)
Lemma endured_calm : forall p snap sc sched w g cs ops l, endured p snap sc sched w g cs ops l -> (forall n, sched n = FFull) ->
  (forall n, sk_sched (io_out (w_io w)) n = FFull) /\ l_kept g ++ l_pending g = acked ops l /\ l_since g = None.
Proof.
  intros p snap sc sched w g cs ops l T Hs. induction T as [out w N|w g cs ops l o w' a T (A & B & C) H FW g'].
  - split; [|auto]. unfold writer_new, io_new in N. destruct (wexec_ext (WThen (WAll MAGIC) (WThen (WAll [3]) WNil)) (sink_new sched)) as (l & X). destruct (wexec _ (sink_new sched)) as [o1 ok]. destruct ok; [|discriminate]. inversion N; subst.
    cbn [w_io io_out fst] in *. destruct X as [_ _ X _]. intros n. rewrite X. apply Hs.
  - pose proof (step_ge sk_ge sk_ge_refl sk_ge_trans wexec_ext _ _ _ _ _ _ H) as (l0 & G). split; [intros n; destruct G as [_ _ G _]; rewrite G; auto|].
    assert (CA : calm w w' = true) by (apply calm_iff; intros n _; auto). unfold g', l_step. rewrite CA. rewrite acked_snoc by (apply endured_len in T; auto). rewrite <- B.
    destruct (grew w w'); cbn [l_kept l_pending l_since]; rewrite ?app_nil_r, ?app_assoc; split; auto. unfold l_more. rewrite C. auto.
Qed.

(** ** Sessions computed (for examples) *)
Definition fewb (s : option (list point)) : bool := match s with Some q => zlen q <=? 3446 | None => true end.
Lemma fewb_few : forall s, fewb s = true -> few s.
Proof. intros [q|] H; cbn [fewb few] in *; auto. intros d m. pose proof (series_len d m q). lia. Qed.
Fixpoint session (p : profile) (snap : compressor) (w : writer) (g : ledger) (cs : list ledger) (l : list answer) (ops : list op) : option (writer * ledger * list ledger * list answer) :=
  match ops with
  | [] => Some (w, g, cs, l)
  | o :: ops' =>
      match step p snap w o with
      | Ret (w', a) =>
          if fewb (l_more (offered o a) g) then
            let g' := l_step o a (calm w w') (grew w w') g in
            session p snap w' g' (if is_close o then cs ++ [g'] else cs) (l ++ [a]) ops'
          else None
      | Panic _ => None
      end
  end.
Lemma session_endured : forall p snap sc sched ops w g cs pre l r, endured p snap sc sched w g cs pre l -> session p snap w g cs l ops = Some r ->
  endured p snap sc sched (fst (fst (fst r))) (snd (fst (fst r))) (snd (fst r)) (pre ++ ops) (snd r).
Proof.
  intros p snap sc sched ops. induction ops as [|o ops IH]; intros w g cs pre l r T H; cbn [session] in H.
  - inversion H; subst. rewrite app_nil_r. exact T.
  - destruct (step p snap w o) as [[w' a]|] eqn:E; [|discriminate]. destruct (fewb (l_more (offered o a) g)) eqn:F; [|discriminate]. apply fewb_few in F.
    change (o :: ops) with ([o] ++ ops). rewrite app_assoc. eapply IH; [|exact H]. exact (endured_step _ _ _ _ _ _ _ _ _ _ _ _ T E F).
Qed.
