(** Comparing runs: failed writes leave no trace (C25), batches against single writes (C28), interleavings
    (C29). *)
From Verif Require Export PHist.
Ltac Zify.zify_post_hook ::= idtac.

Definition orel {A B} (R : A -> B -> Prop) (x : outcome A) (y : outcome B) : Prop :=
  match x, y with Ret a, Ret b => R a b | Panic e, Panic f => e = f | _, _ => False end.
Lemma orel_bind : forall A B A' B' (R : A -> A' -> Prop) (S : B -> B' -> Prop) x x' f f',
  orel R x x' -> (forall a a', R a a' -> orel S (f a) (f' a')) -> orel S (bind x f) (bind x' f').
Proof. intros A B A' B' R S [a|e] [a'|e'] f f' H G; cbn in *; try contradiction; auto. Qed.
Lemma orel_refl : forall A (R : A -> A -> Prop) x, (forall a, R a a) -> orel R x x.
Proof. intros A R [a|e] H; cbn; auto. Qed.

(** groups with the same chunks and the same effective last times *)
Definition geq (a b : group_writer) : Prop :=
  gw_chunks a = gw_chunks b /\ forall m, lastd m (gw_last a) = lastd m (gw_last b).
Definition gseq : smap group_writer -> smap group_writer -> Prop := same_keys (fun _ => geq).
Record weq (a b : writer) : Prop := {
  we_io : w_io a = w_io b;
  we_groups : gseq (w_groups a) (w_groups b);
  we_records : w_records a = w_records b;
  we_next : w_next_check a = w_next_check b;
  we_schema : w_schema a = w_schema b }.
Lemma geq_refl : forall g, geq g g. Proof. split; auto. Qed.
Lemma geq_trans : forall a b c, geq a b -> geq b c -> geq a c.
Proof. intros a b c [A1 A2] [B1 B2]. split; [congruence|]. intros m. rewrite A2. auto. Qed.
Lemma gseq_refl : forall m, gseq m m.
Proof. intros m. induction m; constructor; auto. split; auto. apply geq_refl. Qed.
Lemma gseq_trans : forall a b c, gseq a b -> gseq b c -> gseq a c.
Proof.
  intros a b c H. revert c. induction H as [|x y a b [E G] H IH]; intros c K; inversion K as [|? z ? c' [E' G'] K']; subst; constructor; [|apply IH; auto].
  split; [congruence|]. eapply geq_trans; eauto.
Qed.
Lemma weq_refl : forall w, weq w w. Proof. intros. split; auto. apply gseq_refl. Qed.
Lemma weq_trans : forall a b c, weq a b -> weq b c -> weq a c.
Proof. intros a b c [A1 A2 A3 A4 A5] [B1 B2 B3 B4 B5]. split; try congruence. eapply gseq_trans; eauto. Qed.

Lemma gseq_insert : forall m n k a b, gseq m n -> geq a b -> gseq (sm_insert k a m) (sm_insert k b n).
Proof.
  intros m n k a b H G. induction H as [|[x g] [y g'] m n [E P] H IH]; cbn [sm_insert].
  - constructor; [split; auto|constructor].
  - cbn [fst snd] in *. subst y. destruct (str_cmp k x); repeat (constructor; auto).
Qed.
Lemma gseq_get : forall m n k, gseq m n -> match sm_get k m, sm_get k n with Some a, Some b => geq a b | None, None => True | _, _ => False end.
Proof. intros m n k H. apply (same_keys_get _ _ _ _ _ k H). Qed.

Section Bisim.
Variable p : profile.
Variable snap : list Z -> option (list Z).

Lemma gw_write_eq : forall m t v a b, geq a b ->
  orel (fun x y => snd x = snd y /\ geq (fst x) (fst y)) (gw_write p snap m t v a) (gw_write p snap m t v b).
Proof.
  intros m t v a b [C L]. unfold gw_write. destruct (check_history m t (gw_last a)) as (l1 & E1 & K1). destruct (check_history m t (gw_last b)) as (l2 & E2 & K2).
  rewrite E1, E2, <- L, C. assert (KL : forall k, lastd k l1 = lastd k l2) by (intros k; rewrite K1, K2; auto).
  destruct (lastd m (gw_last a) <? t); [|cbn; split; [auto|split; auto]].
  destruct (sm_get m (gw_chunks b)) as [c|]; [|cbn; split; [auto|split; auto]].
  destruct (cw_write p snap t v c) as [[c'|e]|e]; cbn; auto. split; auto. split; auto. cbn [gw_last]. intros k. rewrite !lastd_insert, KL. auto.
Qed.
Lemma gw_write_many_eq : forall t vs n a b, geq a b ->
  orel (fun x y => snd x = snd y /\ geq (fst x) (fst y)) (gw_write_many p snap t vs n a) (gw_write_many p snap t vs n b).
Proof.
  intros t vs. induction vs as [|[m v] vs IH]; intros n a b G; cbn [gw_write_many]; [cbn; auto|].
  eapply orel_bind; [apply gw_write_eq; exact G|]. intros [a' e] [b' e'] [E G']. cbn [fst snd] in *. subst e'.
  destruct e; [cbn; auto|]. destruct (arithU p 32 (n + 1)); cbn [bind]; [apply IH; auto|cbn; auto].
Qed.
Lemma flush_to_eq : forall a b io, geq a b ->
  orel (fun x y => snd x = snd y /\ snd (fst x) = snd (fst y) /\ geq (fst (fst x)) (fst (fst y)))
    (flush_to_filewriter p snap a io) (flush_to_filewriter p snap b io).
Proof.
  intros a b io [C L]. unfold flush_to_filewriter. rewrite C. destruct (seal_all_chunks p snap (gw_chunks b)) as [cs|]; cbn [bind]; [|cbn; auto].
  destruct (flush_chunks p snap cs io) as [[cs' io']|]; cbn; auto. split; auto. split; auto. split; auto.
Qed.
Lemma flush_groups_eq : forall m n io, gseq m n ->
  orel (fun x y => snd x = snd y /\ snd (fst x) = snd (fst y) /\ gseq (fst (fst x)) (fst (fst y)))
    (flush_groups p snap m io) (flush_groups p snap n io).
Proof.
  intros m n io H. revert io. induction H as [|[x g] [y g'] m n [E P] H IH]; intros io; cbn [flush_groups].
  - cbn. split; auto. split; auto. constructor.
  - cbn [fst snd] in *. subst y. destruct (start_chunk_group x io) as [io1 [|]].
    + eapply orel_bind; [apply flush_to_eq; exact P|]. intros [[g1 i1] n1] [[g2 i2] n2] (E1 & E2 & G). cbn [fst snd] in *. subst.
      destruct (negb _); [cbn; split; auto; split; auto; constructor; auto|].
      eapply orel_bind; [apply IH|]. intros [[m1 j1] e1] [[m2 j2] e2] (F1 & F2 & F3). cbn [fst snd] in *. subst. cbn.
      split; auto. split; auto. constructor; auto.
    + cbn. split; auto. split; auto. constructor; auto.
Qed.
Lemma flush_all_eq : forall a b, weq a b ->
  orel (fun x y => snd x = snd y /\ weq (fst x) (fst y)) (flush_all p snap a) (flush_all p snap b).
Proof.
  intros a b [E1 E2 E3 E4 E5]. unfold flush_all. rewrite E3, E4, E5, E1. destruct (_ >? 0); [|cbn; split; auto; split; auto].
  eapply orel_bind; [apply flush_groups_eq; exact E2|]. intros [[m1 j1] e1] [[m2 j2] e2] (F1 & F2 & F3). cbn [fst snd] in *. subst.
  destruct e2; cbn; (split; [auto|]).
  - split; auto.
  - apply weq_refl.
Qed.
Lemma gw_mem_eq : forall a b, geq a b -> gw_mem_size p a = gw_mem_size p b.
Proof. intros a b [C _]. unfold gw_mem_size. rewrite C. auto. Qed.
Lemma mem_eq : forall m n, gseq m n -> mem_size p m = mem_size p n.
Proof.
  intros m n H. unfold mem_size. generalize 0. induction H as [|[x g] [y g'] m n [E P] H IH]; intros z; [reflexivity|].
  cbn [fst snd] in *. cbn [foldM snd]. rewrite (gw_mem_eq _ _ P). destruct (gw_mem_size p g') as [s|]; cbn [bind]; [|reflexivity].
  destruct (arithU p 32 (z + s)); cbn [bind]; [apply IH|reflexivity].
Qed.
Lemma check_memory_eq : forall a b, weq a b -> orel weq (check_memory p snap a) (check_memory p snap b).
Proof.
  intros a b W. pose proof W as [E1 E2 E3 E4 E5]. unfold check_memory. rewrite E3, E4, (mem_eq _ _ E2). destruct (_ >=? _); [|exact W].
  destruct (mem_size p (w_groups b)) as [mem|]; cbn [bind]; [|cbn; auto]. destruct (mem =? 0); [cbn; auto|].
  destruct (mem >? _); [|cbn; split; auto; congruence].
  eapply orel_bind; [apply flush_all_eq; split; cbn; auto; congruence|]. intros x y [_ H]. exact H.
Qed.
Definition seq2 (x y : writer * answer) : Prop := snd x = snd y /\ weq (fst x) (fst y).
Lemma step_eq : forall o a b, weq a b -> orel seq2 (step p snap a o) (step p snap b o).
Proof.
  intros o a b W. pose proof W as [E1 E2 E3 E4 E5]. destruct o as [d m t v|d t vs|ord]; cbn [step].
  - unfold writer_write. pose proof (gseq_get _ _ d E2) as G. destruct (sm_get d (w_groups a)) as [g|], (sm_get d (w_groups b)) as [g'|]; try contradiction; [|split; auto].
    eapply orel_bind; [apply gw_write_eq; exact G|]. intros [a' e] [b' e'] [E G']. cbn [fst snd] in *. subst e'.
    destruct e; [cbn; split; auto; split; cbn; auto; apply gseq_insert; auto|]. cbn [w_records w_io w_groups w_next_check w_schema]. rewrite E3.
    destruct (arithU p 32 (w_records b + 1)) as [rc|]; cbn [bind]; [|cbn; auto].
    eapply orel_bind; [apply check_memory_eq; split; cbn; auto; apply gseq_insert; auto|]. intros x y H. split; auto.
  - unfold writer_write_many. pose proof (gseq_get _ _ d E2) as G. destruct (sm_get d (w_groups a)) as [g|], (sm_get d (w_groups b)) as [g'|]; try contradiction; [|split; auto].
    eapply orel_bind; [apply gw_write_many_eq; exact G|]. intros [a' e] [b' e'] [E G']. cbn [fst snd] in *. subst e'.
    destruct e as [n|e]; [|cbn; split; auto; split; cbn; auto; apply gseq_insert; auto]. cbn [w_records w_io w_groups w_next_check w_schema]. rewrite E3.
    destruct (arithU p 32 (w_records b + n)) as [rc|]; cbn [bind]; [|cbn; auto].
    eapply orel_bind; [apply check_memory_eq; split; cbn; auto; apply gseq_insert; auto|]. intros x y H. split; auto.
  - unfold writer_close. eapply orel_bind; [apply flush_all_eq; exact W|]. intros [a' e] [b' e'] [E [F1 F2 F3 F4 F5]]. cbn [fst snd] in *. rewrite F1.
    destruct (end_file p ord (w_io b')) as [io|]; cbn; auto. split; auto. split; cbn; auto.
Qed.
Lemma run_eq : forall ops a b, weq a b ->
  orel (fun x y => snd x = snd y /\ weq (fst x) (fst y)) (run p snap a ops) (run p snap b ops).
Proof.
  induction ops as [|o ops IH]; intros a b W; cbn [run]; [cbn; auto|].
  eapply orel_bind; [apply step_eq; exact W|]. intros [a' x] [b' y] [E W']. cbn [fst snd] in *. subst y.
  eapply orel_bind; [apply IH; exact W'|]. intros [a2 l] [b2 l'] [E2 W2]. cbn [fst snd] in *. subst. cbn. auto.
Qed.

(** ** Sorted groups *)
Lemma flush_groups_keys : forall m io m' io' e, flush_groups p snap m io = Ret (m', io', e) -> map fst m' = map fst m.
Proof.
  induction m as [|[d g] m IH]; intros io m' io' e H; cbn [flush_groups] in H; [rinj H; auto|].
  destruct (start_chunk_group d io) as [io1 [|]]; [|rinj H; auto].
  apply bind_ret in H. destruct H as ([[g1 i1] n1] & _ & H). destruct (negb _); [rinj H; auto|].
  apply bind_ret in H. destruct H as ([[m1 j1] e1] & H1 & H). rinj H. cbn [map fst]. f_equal. eapply IH; eauto.
Qed.
Lemma groups_sorted : forall sc, sorted (groups_of sc).
Proof. intros. apply sm_of_list_sorted. Qed.
Lemma flush_all_sorted : forall w w' e, sorted (w_groups w) -> flush_all p snap w = Ret (w', e) -> sorted (w_groups w').
Proof.
  intros w w' e S H. unfold flush_all in H. destruct (_ >? 0); [|rinj H; auto]. apply bind_ret in H. destruct H as ([[gs io] e1] & H1 & H).
  apply flush_groups_keys in H1. destruct e1; rinj H; cbn [w_groups writer_reset]; [unfold sorted; rewrite H1; exact S|apply groups_sorted].
Qed.
Lemma check_memory_sorted : forall w w', sorted (w_groups w) -> check_memory p snap w = Ret w' -> sorted (w_groups w').
Proof.
  intros w w' S H. unfold check_memory in H. destruct (_ >=? _); [|rinj H; auto]. apply bind_ret in H. destruct H as (mem & _ & H).
  destruct (mem =? 0); [discriminate|]. destruct (mem >? _); [|rinj H; auto].
  apply bind_ret in H. destruct H as ([w1 e1] & H1 & H). rinj H. apply flush_all_sorted in H1; auto.
Qed.
Lemma step_sorted : forall o w w' a, sorted (w_groups w) -> step p snap w o = Ret (w', a) -> sorted (w_groups w').
Proof.
  intros o w w' a S H. destruct o as [d m t v|d t vs|ord]; cbn [step] in H.
  - unfold writer_write in H. destruct (sm_get d (w_groups w)) as [g|]; [|rinj H; auto].
    apply bind_ret in H. destruct H as ([g1 e] & _ & H). destruct e; [rinj H; apply sm_insert_sorted; auto|].
    apply bind_ret in H. destruct H as (rc & _ & H). apply bind_ret in H. destruct H as (w1 & H1 & H). rinj H.
    eapply check_memory_sorted; [|exact H1]. apply sm_insert_sorted; auto.
  - unfold writer_write_many in H. destruct (sm_get d (w_groups w)) as [g|]; [|rinj H; auto].
    apply bind_ret in H. destruct H as ([g1 e] & _ & H). destruct e; [|rinj H; apply sm_insert_sorted; auto].
    apply bind_ret in H. destruct H as (rc & _ & H). apply bind_ret in H. destruct H as (w1 & H1 & H). rinj H.
    eapply check_memory_sorted; [|exact H1]. apply sm_insert_sorted; auto.
  - unfold writer_close in H. apply bind_ret in H. destruct H as ([w1 e] & H1 & H). apply bind_ret in H. destruct H as (io & _ & H). rinj H.
    exact (flush_all_sorted _ _ _ S H1).
Qed.

(** ** C25 *)
Lemma failed_eq : forall o w w' a, sorted (w_groups w) -> step p snap w o = Ret (w', a) -> failed_write o a = true -> weq w w'.
Proof.
  intros [d m t v|d t vs|ord] w w' a S H F; try discriminate. destruct a; try discriminate. clear F. cbn [step] in H. unfold writer_write in H.
  destruct (sm_get d (w_groups w)) as [g|] eqn:E; [|rinj H; apply weq_refl].
  apply bind_ret in H. destruct H as ([g1 e1] & H1 & H). destruct e1 as [e1|]; [|apply bind_ret in H; destruct H as (rc & _ & H); apply bind_ret in H; destruct H as (w1 & _ & H); rinj H; discriminate].
  rinj H. split; cbn; auto. eapply same_keys_insert; [apply gseq_refl|exact S|exact E| |auto].
  unfold gw_write in H1. destruct (check_history m t (gw_last g)) as (l' & E' & L). rewrite E' in H1.
  destruct (lastd m (gw_last g) <? t); [|rinj H1; split; cbn; auto]. destruct (sm_get m (gw_chunks g)); [|rinj H1; split; cbn; auto].
  apply bind_ret in H1. destruct H1 as ([c'|x] & _ & H1); [|discriminate]. rinj H1. discriminate.
Qed.
Lemma survivors_run : forall ops w b w' l, sorted (w_groups w) -> weq w b -> run p snap w ops = Ret (w', l) ->
  exists b', run p snap b (map fst (survivors ops l)) = Ret (b', map snd (survivors ops l)) /\ weq w' b'.
Proof.
  induction ops as [|o ops IH]; intros w b w' l S W H; cbn [run] in H.
  - rinj H. exists b. auto.
  - apply bind_ret in H. destruct H as ([w1 a] & H1 & H). apply bind_ret in H. destruct H as ([w2 l2] & H2 & H). rinj H.
    cbn [fst snd] in *. pose proof (step_sorted _ _ _ _ S H1) as S1. unfold survivors. cbn [combine filter fst snd].
    destruct (failed_write o a) eqn:F; cbn [negb].
    + destruct (IH w1 b w2 l2 S1) as (b' & B1 & B2); auto; [|exists b'; auto].
      eapply weq_trans; [|exact W]. pose proof (failed_eq _ _ _ _ S H1 F) as Q. destruct Q as [Q1 Q2 Q3 Q4 Q5]. split; auto.
      clear - Q2. induction Q2 as [|x y m n [E [C L]] H IH]; constructor; auto. split; [congruence|]. split; auto.
    + pose proof (step_eq o _ _ W) as ST. rewrite H1 in ST. destruct (step p snap b o) as [[b1 a1]|] eqn:SB; [|contradiction].
      destruct ST as [EA W1]. cbn [fst snd] in *. subst a1. destruct (IH w1 b1 w2 l2 S1 W1 H2) as (b' & B1 & B2).
      exists b'. split; auto. cbn [map run fst snd]. rewrite SB. cbn [bind]. unfold survivors in B1. rewrite B1. reflexivity.
Qed.
Lemma failed_no_trace : forall sc sched out w ops w' l, writer_new sc (sink_new sched) = (out, Some w) ->
  run p snap w ops = Ret (w', l) ->
  exists w'', run p snap w (map fst (survivors ops l)) = Ret (w'', map snd (survivors ops l)) /\ file_bytes w'' = file_bytes w'.
Proof.
  intros sc sched out w ops w' l N H. assert (S : sorted (w_groups w)).
  { unfold writer_new in N. destruct (io_new _) as [o [io|]]; inversion N; subst. apply groups_sorted. }
  destruct (survivors_run ops w w w' l S (weq_refl w) H) as (b & B1 & B2). exists b. split; auto. unfold file_bytes. rewrite (we_io _ _ B2). auto.
Qed.
End Bisim.

Section Compare.
Variable p : profile.
Variable snap decomp : list Z -> option (list Z).
Hypothesis HG : good_snap snap decomp.
Variable sc : schema.
Hypothesis Hsc : schema_ok sc.

(** ** Writes that do not flush *)
Lemma check_no_growth : forall h its w w', winv p snap sc h its w -> check_memory p snap w = Ret w' ->
  zlen (file_bytes w') <= zlen (file_bytes w) -> exists n, w' = set_next n w.
Proof.
  intros h its w w' I C L. destruct (check_memory_ok p snap decomp HG sc Hsc _ _ _ _ I C) as [X|(_ & new & _ & _ & G & _)]; auto.
  unfold grew in G. apply Z.ltb_lt in G. lia.
Qed.
Lemma write_no_growth : forall h its w d m t v w', winv p snap sc h its w -> op_ok (OpWrite d m t v) -> zlen (h_all h) + 1 < 2 ^ 32 ->
  step p snap w (OpWrite d m t v) = Ret (w', AOk) -> zlen (file_bytes w') <= zlen (file_bytes w) ->
  exists g g' n, sm_get d (w_groups w) = Some g /\ gw_write p snap m t v g = Ret (g', None) /\
    w' = mkW (w_io w) (sm_insert d g' (w_groups w)) (w_records w + 1) n (w_schema w).
Proof.
  intros h its w d m t v w' I [Ht Hv] HL H L. cbn [step] in H. unfold writer_write in H. pose proof (winv_get _ _ _ _ _ _ d I) as WG.
  destruct (sm_get d (w_groups w)) as [g|] eqn:E; [|rinj H; discriminate]. destruct (sm_get d (decls sc)) as [g0|] eqn:D; [|contradiction].
  apply bind_ret in H. destruct H as ([g1 e1] & H1 & H). destruct e1 as [e1|]; [rinj H; discriminate|].
  apply bind_ret in H. destruct H as (rc & A & H). apply bind_ret in H. destruct H as (w1 & C & H). rinj H.
  pose proof (group_write_ok p snap decomp HG sc Hsc _ _ _ _ _ _ _ _ _ D WG (wi_points _ _ _ _ _ _ I) Ht Hv HL H1) as GW.
  destruct (h_verdict sc h d m t); [|destruct GW as (_ & X & _); discriminate|destruct GW as (_ & (s & X) & _); discriminate].
  destruct GW as (AD & _ & GI & HP). set (q := mkPoint d m t v) in *.
  assert (I1 : winv p snap sc (h_store q h) its (with_group d g1 w)).
  { eapply winv_group; eauto.
    - intros d' m' N. rewrite recent_store. unfold q. rewrite series_other, app_nil_r; auto. congruence.
    - cbn [h_store h_recent]. rewrite zlen_app. pose proof (zlen_nonneg _ [q]). lia. }
  assert (R : w_records w + 1 = rc).
  { cbn [w_records] in A. pose proof (wi_counted _ _ _ _ _ _ I) as WC. rewrite (wi_records _ _ _ _ _ _ I) in *.
    unfold h_all in HL. rewrite zlen_app in HL. pose proof (zlen_nonneg _ (h_flushed h)). rewrite arithU_ok in A by lia. apply ret_inj in A. auto. }
  subst rc. assert (I2 : winv p snap sc (h_count 1 (h_store q h)) its (with_records (w_records w + 1) (with_group d g1 w))).
  { change (w_records w + 1) with (w_records (with_group d g1 w) + 1). apply winv_records; [exact I1|lia|]. cbn [h_store h_counted h_recent]. rewrite zlen_app, zlen_cons, zlen_nil. pose proof (wi_counted _ _ _ _ _ _ I). lia. }
  destruct (check_no_growth _ _ _ _ I2 C) as (n & ->); [exact L|]. exists g, g1, n. auto.
Qed.

(** ** C28 *)
Lemma insert_twice : forall V k (a b : V) m, sm_insert k a (sm_insert k b m) = sm_insert k a m.
Proof.
  intros V k a b m. induction m as [|[x y] m IH]; cbn [sm_insert].
  - rewrite str_cmp_refl. auto.
  - destruct (str_cmp k x) eqn:E; cbn [sm_insert]; rewrite ?str_cmp_refl, ?E, ?IH; auto.
Qed.
Lemma insert_get : forall V k (a : V) m, sm_get k (sm_insert k a m) = Some a.
Proof. intros. rewrite sm_get_insert. rewrite str_eqb_refl. auto. Qed.
Lemma insert_same : forall V k (a : V) m, sorted m -> sm_get k m = Some a -> sm_insert k a m = m.
Proof.
  intros V k a m S G. apply sm_ext; auto using sm_insert_sorted. intros x. rewrite sm_get_insert.
  destruct (str_eqb x k) eqn:E; auto. apply str_eqb_eq in E. subst x. auto.
Qed.
End Compare.
