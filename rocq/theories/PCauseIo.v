(** What the index is made of, on any disk, and the causes of panics of a close (C73). *)
From Verif Require Export PCause PPanic PDeep.
Ltac Zify.zify_post_hook ::= idtac.
Open Scope list_scope. Open Scope Z_scope.

Definition cm_of (sc : schema) (d : str) (cm : chunk_meta) : Prop := (exists ms, declares sc d (cm_id cm) ms) /\ stats_of (cm_type cm) (cm_stats cm).
Definition dev_of (sc : schema) (x : str) : Prop := exists d m ms, declares sc d m ms /\ x = device_of_path (path_of d m).
Record io_of (sc : schema) (io : io_writer) : Prop := {
  io_of_groups : forall d cms, In (d, cms) (io_groups io) -> Forall (cm_of sc d) cms;
  io_of_sorted : sorted (io_tsmeta io); io_of_full : no_empty (io_tsmeta io);
  io_of_devs : Forall (dev_of sc) (map fst (io_tsmeta io)) }.
Record pending (sc : schema) (d : str) (io : io_writer) : Prop := { pe_io : io_of sc io; pe_dev : io_device io = Some d; pe_cms : Forall (cm_of sc d) (io_chunks io) }.

Lemma ret_tri : forall A (Q : A -> Prop) o a, tri (fun _ => True) Q o -> o = Ret a -> Q a.
Proof. intros A Q o a T ->. exact T. Qed.
Lemma to_file_io : forall snap sc d m ms c io c' io', chunk_of m ms c -> declares sc d m ms -> pending sc d io ->
  write_to_file_writer Release snap c io = Ret (c', io') -> pending sc d io'.
Proof.
  intros snap sc d m ms c io c' io' C D [A B P] H. unfold write_to_file_writer in H. apply bind_ret in H. destruct H as (c1 & S & H).
  pose proof (ret_tri _ _ _ _ (seal_tri _ snap m ms c I C) S) as C1. apply bind_ret in H. destruct H as (io1 & W & H). inversion H; subst c' io1. clear H.
  unfold write_all_pages in W. destruct (_ =? _); [inversion W; subst; constructor; auto|]. unfold end_current_chunk, start_flush_chunk, io_with_out in W. cbn in W. inversion W; subst io'. clear W.
  destruct A as [G1 G2 G3 G4]. constructor; cbn; auto; [constructor; cbn; auto|]. apply Forall_app. split; [exact P|]. constructor; [|constructor]. split; cbn.
  - rewrite (co_id _ _ _ C1). eauto.
  - rewrite (co_type _ _ _ C1). apply (co_stats _ _ _ C1).
Qed.
Lemma flush_chunks_io : forall snap sc d cs io r, chunks_of sc d cs -> pending sc d io -> flush_chunks Release snap cs io = Ret r -> pending sc d (snd r).
Proof.
  intros snap sc d cs. induction cs as [|[m c] cs IH]; intros io r C P H; cbn [flush_chunks] in H; [inversion H; subst; exact P|].
  destruct (C m c (or_introl eq_refl)) as (ms & D & K). apply bind_ret in H. destruct H as ([c' io1] & W & H). apply bind_ret in H. destruct H as (r' & F & H). inversion H; subst r. cbn [snd].
  apply (IH io1 r'); auto; [intros m1 c1 X; apply C; right; exact X|]. eapply to_file_io; eauto.
Qed.
Lemma flush_groups_io : forall snap sc gs io r, group_writers_of sc gs -> io_of sc io -> flush_groups Release snap gs io = Ret r -> io_of sc (snd (fst r)).
Proof.
  intros snap sc gs. induction gs as [|[d g] gs IH]; intros io r G J H; cbn [flush_groups] in H; [inversion H; subst; exact J|].
  unfold start_chunk_group in H. destruct (wexec (chunk_group_header d) (io_out io)) as [out [|]].
  - apply bind_ret in H. destruct H as ([[g' io2] size] & F & H). unfold flush_to_filewriter in F. apply bind_ret in F. destruct F as (cs & S & F). apply bind_ret in F. destruct F as (r1 & F & X). inversion X; subst g' io2 size. clear X.
    pose proof (ret_tri _ _ _ _ (seal_all_tri _ snap sc d (gw_chunks g) I (G d g (or_introl eq_refl))) S) as C.
    assert (P : pending sc d (snd r1)). { eapply flush_chunks_io; [exact C| |exact F]. destruct J as [G1 G2 G3 G4]. constructor; cbn; auto. constructor; cbn; auto. }
    destruct P as [P1 P2 P3]. destruct (negb _); [inversion H; subst; exact P1|]. apply bind_ret in H. destruct H as ([[gs2 io3] e] & F2 & H). inversion H; subst r. cbn [fst snd].
    apply (IH _ (gs2, io3, e)) in F2; [exact F2|intros d1 g1 X; apply G; right; exact X|]. unfold end_chunk_group. rewrite P2. destruct (io_chunks (snd r1)) as [|cm cms] eqn:E; [exact P1|].
    destruct P1 as [G1 G2 G3 G4]. constructor; cbn; auto. intros d1 cms1 X. apply in_app_or in X. destruct X as [X|[X|[]]]; [eapply G1; eauto|]. inversion X; subst. exact P3.
  - inversion H; subst r. cbn [fst snd]. destruct J as [G1 G2 G3 G4]. constructor; cbn; auto.
Qed.
Lemma flush_all_io : forall snap sc w r, writer_of sc w -> io_of sc (w_io w) -> flush_all Release snap w = Ret r -> io_of sc (w_io (fst r)).
Proof.
  intros snap sc w r [S G] J H. unfold flush_all in H. destruct (_ >? _); [|inversion H; subst; exact J]. apply bind_ret in H. destruct H as ([[gs io] e] & F & H).
  apply (flush_groups_io snap sc) in F; auto. cbn [fst snd] in F. destruct e; inversion H; subst; exact F.
Qed.

(** ** The close *)
Lemma cmap_of : forall sc io q cms, io_of sc io -> In (q, cms) (chunk_map (io_groups io)) ->
  cms <> [] /\ Forall (fun cm => stats_of (cm_type cm) (cm_stats cm)) cms /\ exists d m ms, declares sc d m ms /\ q = path_of d m.
Proof.
  intros sc io q cms J H. destruct (chunk_map_spec (io_groups io)) as (S & N & K). apply (getl_in _ _ _ _ S N) in H. destruct H as [E NE]. rewrite K in E. split; [exact NE|].
  assert (F : forall x, In x (filter (on_path q) (flat (io_groups io))) -> q = path_of (fst x) (cm_id (snd x)) /\ cm_of sc (fst x) (snd x)).
  { intros [d cm] X. apply filter_In in X. destruct X as [X Y]. apply str_eqb_eq in Y. cbn [fst snd] in *. split; [auto|].
    unfold flat in X. apply in_concat in X. destruct X as (l & X1 & X2). apply in_map_iff in X1. destruct X1 as ([d1 cms1] & <- & X1). cbn [fst snd] in X2. apply in_map_iff in X2. destruct X2 as (cm1 & X2 & X3).
    inversion X2; subst. pose proof (io_of_groups _ _ J _ _ X1) as G. rewrite Forall_forall in G. apply G. exact X3. }
  rewrite <- E. split.
  - apply Forall_forall. intros cm X. apply in_map_iff in X. destruct X as (x & <- & X). apply (F x X).
  - destruct (filter (on_path q) (flat (io_groups io))) as [|x l]; [cbn in E; congruence|]. destruct (F x (or_introl eq_refl)) as [Q [[ms D] _]]. eauto.
Qed.
Lemma ts_meta_ret : forall cms, cms <> [] -> Forall (fun cm => stats_of (cm_type cm) (cm_stats cm)) cms -> exists tm, ts_meta_of Release cms = Ret tm.
Proof.
  intros cms NE F. destruct cms as [|m0 cms]; [congruence|]. unfold ts_meta_of. set (l := m0 :: cms) in *. generalize (1 <? length l)%nat. intros ser.
  assert (G : forall l1 buf st, Forall (fun cm => stats_of (cm_type cm) (cm_stats cm)) l1 -> stats_of (cm_type m0) st -> exists r,
    foldM (fun acc m => let '(buffer, st) := acc in if dtype_eqb (cm_type m) (cm_type m0) then let* st' := stats_merge Release st (cm_stats m) in
      Ret (buffer ++ wbytes (chunk_meta_serialize ser m), st') else Ret acc) l1 (buf, st) = Ret r).
  { intros l1; induction l1 as [|cm l1 IH]; intros buf st F0 S; cbn [foldM]; [eauto|]. inversion F0 as [|? ? Hc F']; subst. destruct (dtype_eqb (cm_type cm) (cm_type m0)) eqn:E; cbn [bind]; [|apply IH; auto].
    assert (T : cm_type cm = cm_type m0) by (destruct (cm_type cm), (cm_type m0); try discriminate; reflexivity). rewrite T in Hc.
    pose proof (merge_tri (fun _ => False) _ _ _ S Hc) as M. destruct (stats_merge Release st (cm_stats cm)) as [st'|q]; [|destruct M]. cbn [bind]. apply IH; auto. }
  destruct (G l [] (stats_new (cm_type m0)) F (stats_new_of _)) as [[b s] ->]. cbn [bind]. eauto.
Qed.
Lemma loop_devs : forall sc l last acc tsm, metadata_loop Release last l acc = Ret tsm -> Forall (fun e => dev_of sc (device_of_path (fst e))) l ->
  Forall (dev_of sc) (map fst acc) -> Forall (dev_of sc) (map fst tsm).
Proof.
  intros sc l. induction l as [|[q cms] l IH]; intros last acc tsm H F A; cbn [metadata_loop] in H; [inversion H; subst; exact A|].
  apply bind_ret in H. destruct H as (last' & _ & H). apply bind_ret in H. destruct H as (tm & _ & H). inversion F; subst. apply IH in H; auto.
  apply Forall_forall. intros x X. apply sm_insert_keys in X. rewrite Forall_forall in A. destruct X as [->|X]; auto.
Qed.
Lemma end_file_io : forall sc ord io, io_of sc io -> byte_names sc -> short_paths sc ->
  match end_file Release ord io with
  | Ret io' => io_of sc io'
  | Panic _ => exists paths devs, NoDup paths /\ NoDup devs /\ Forall (fun q => exists d m ms, declares sc d m ms /\ q = path_of d m) paths /\ Forall (dev_of sc) devs /\ (256 < zlen devs \/ ~ filter_fits paths)
  end.
Proof.
  intros sc ord io J BN SP. unfold end_file. destruct (chunk_map_spec (io_groups io)) as (S & N & _).
  assert (C : forall e, In e (chunk_map (io_groups io)) -> snd e <> [] /\ Forall (fun cm => stats_of (cm_type cm) (cm_stats cm)) (snd e) /\ exists d m ms, declares sc d m ms /\ fst e = path_of d m).
  { intros [q cms] X. exact (cmap_of sc io q cms J X). }
  destruct (metadata_loop_total Release (chunk_map (io_groups io)) None (io_tsmeta io) S) as [tsm M]; [discriminate| |].
  { apply Forall_forall. intros e X. destruct (C e X) as (A & B & _). apply ts_meta_ret; auto. }
  rewrite M. cbn [bind]. destruct (metadata_loop_spec _ _ _ _ _ M (io_of_sorted _ _ J) (io_of_full _ _ J)) as (tms & _ & S2 & N2 & _).
  assert (D : Forall (dev_of sc) (map fst tsm)).
  { eapply loop_devs; [exact M| |apply (io_of_devs _ _ J)]. apply Forall_forall. intros e X. destruct (C e X) as (_ & _ & d & m & ms & Y & Z). exists d, m, ms. rewrite Z. auto. }
  assert (PD : Forall (fun q => exists d m ms, declares sc d m ms /\ q = path_of d m) (map fst (chunk_map (io_groups io)))).
  { apply Forall_forall. intros q X. apply in_map_iff in X. destruct X as (e & <- & X). apply (C e X). }
  assert (PO : Forall path_ok (map fst (chunk_map (io_groups io)))).
  { eapply Forall_impl; [|exact PD]. intros q (d & m & ms & Y & ->). split; [exact (BN d m ms Y)|exact (SP d m ms Y)]. }
  pose proof (filter_panics _ PO) as FP. cbv zeta in FP. fold (filter_fits (map fst (chunk_map (io_groups io)))) in FP.
  set (out := fst (wexec (WAll [2]) (io_out io))). change cfg_max_degree_of_index_node with 256%nat. pose proof (construct_total ord tsm out) as CT. rewrite (nonempty_id _ _ N2) in CT.
  assert (R : forall X, ~ (zlen tsm <= 256 /\ filter_fits (map fst (chunk_map (io_groups io)))) -> X = tt ->
    exists paths devs, NoDup paths /\ NoDup devs /\ Forall (fun q => exists d m ms, declares sc d m ms /\ q = path_of d m) paths /\ Forall (dev_of sc) devs /\ (256 < zlen devs \/ ~ filter_fits paths)).
  { intros _ X _. exists (map fst (chunk_map (io_groups io))), (map fst tsm). split; [apply lt_nodup; exact S|]. split; [apply lt_nodup; exact S2|]. split; [exact PD|]. split; [exact D|].
    assert (zlen (map fst tsm) = zlen tsm) as -> by (unfold zlen; rewrite map_length; reflexivity). destruct (Z.le_gt_cases (zlen tsm) 256) as [L|L]; [right; tauto|left; lia]. }
  destruct (construct_metadata_index 256 ord tsm out) as [[idx o1]|q]; cbn [bind].
  - destruct (bloom_build Release (map fst (chunk_map (io_groups io)))) as [bf|q] eqn:B1; cbn [bind] in *.
    + destruct (bloom_serialize bf) as [bw|q] eqn:B2; cbn [bind].
      * destruct J as [G1 G2 G3 G4]. constructor; cbn; auto.
      * apply (R tt); auto. intros [_ X]. apply FP in X. destruct X as [? X]. discriminate.
    + apply (R tt); auto. intros [_ X]. apply FP in X. destruct X as [? X]. discriminate.
  - apply (R tt); auto. intros [X _]. apply CT in X. destruct X as [? X]. discriminate.
Qed.

(** ** Runs *)
Definition state_of (sc : schema) (w : writer) : Prop := writer_of sc w /\ io_of sc (w_io w).
Lemma check_memory_io : forall snap sc w w', state_of sc w -> check_memory Release snap w = Ret w' -> io_of sc (w_io w').
Proof.
  intros snap sc w w' [W J] H. unfold check_memory in H. destruct (_ >=? _); [|inversion H; subst; exact J]. apply bind_ret in H. destruct H as (mem & _ & H). destruct (mem =? 0); [discriminate|].
  destruct (_ >? _); [|inversion H; subst; exact J]. apply bind_ret in H. destruct H as (r & F & H). inversion H; subst. eapply flush_all_io; [| |exact F]; [exact W|exact J].
Qed.
Lemma step_io : forall snap sc w o r, state_of sc w -> byte_names sc -> short_paths sc -> step Release snap w o = Ret r -> state_of sc (fst r).
Proof.
  intros snap sc w o r [W J] BN SP H.
  assert (W' : writer_of sc (fst r)).
  { destruct o as [d m t v|d t vs|ord].
    - pose proof (step_tri snap sc w (OpWrite d m t v) W) as T. rewrite H in T. apply T. discriminate.
    - pose proof (step_tri snap sc w (OpWriteMany d t vs) W) as T. rewrite H in T. apply T. discriminate.
    - pose proof (close_tri snap sc w ord W) as T. rewrite H in T. exact T. }
  split; [exact W'|]. destruct o as [d m t v|d t vs|ord]; cbn [step] in H.
  - unfold writer_write in H. destruct (sm_get d (w_groups w)) as [g|] eqn:G; [|inversion H; subst; exact J]. apply bind_ret in H. destruct H as ([g' e] & K & H). destruct e; [inversion H; subst; exact J|].
    apply bind_ret in H. destruct H as (rc & _ & H). apply bind_ret in H. destruct H as (w2 & M & H). inversion H; subst. cbn [fst]. eapply check_memory_io; [|exact M]. split; [|exact J].
    apply insert_of; auto. pose proof (gw_write_tri (fun _ => True) snap sc d m t v g (conj I (fun _ _ => I)) (proj2 W d g (sm_get_in _ _ _ _ G))) as T. rewrite K in T. exact T.
  - unfold writer_write_many in H. destruct (sm_get d (w_groups w)) as [g|] eqn:G; [|inversion H; subst; exact J]. apply bind_ret in H. destruct H as ([g' e] & K & H). destruct e; [|inversion H; subst; exact J].
    apply bind_ret in H. destruct H as (rc & _ & H). apply bind_ret in H. destruct H as (w2 & M & H). inversion H; subst. cbn [fst]. eapply check_memory_io; [|exact M]. split; [|exact J].
    apply insert_of; auto. pose proof (gw_many_tri (fun _ => True) snap sc d t vs 0 g (proj2 (Forall_forall _ _) (fun _ _ => conj I (fun _ _ => I))) (proj2 W d g (sm_get_in _ _ _ _ G))) as T. rewrite K in T. exact T.
  - unfold writer_close in H. apply bind_ret in H. destruct H as (r1 & F & H). pose proof (flush_all_io _ _ _ _ W J F) as J1. pose proof (end_file_io sc ord _ J1 BN SP) as E.
    destruct (end_file Release ord (w_io (fst r1))) as [io|q]; cbn [bind] in H; [|discriminate]. inversion H; subst. exact E.
Qed.
Lemma new_state : forall sc out out' w, writer_new sc out = (out', Some w) -> state_of sc w.
Proof.
  intros sc out out' w H. split; [eapply new_of; eauto|]. unfold writer_new, io_new in H. destruct (wexec _ out) as [o [|]]; inversion H; subst. constructor; cbn; auto; [contradiction|apply sorted_nil|constructor].
Qed.
Lemma run_state : forall snap sc ops w w' l, byte_names sc -> short_paths sc -> state_of sc w -> run Release snap w ops = Ret (w', l) -> state_of sc w'.
Proof.
  intros snap sc ops. induction ops as [|o ops IH]; intros w w' l BN SP W H; cbn [run] in H; [inversion H; subst; exact W|].
  apply bind_ret in H. destruct H as ([w1 a] & S & H). apply bind_ret in H. destruct H as ([w2 l2] & R & H). inversion H; subst. cbn [fst] in *. eapply IH; [| | |exact R]; auto. apply (step_io snap sc w o (w1, a)); auto.
Qed.
Lemma close_causes : forall snap sc out out' w0 ops w l ord q, byte_names sc -> short_paths sc -> writer_new sc out = (out', Some w0) -> run Release snap w0 ops = Ret (w, l) ->
  step Release snap w (OpClose ord) = Panic q ->
  flush_all Release snap w = Panic PIndex \/ exists paths devs, NoDup paths /\ NoDup devs /\ Forall (fun q => exists d m ms, declares sc d m ms /\ q = path_of d m) paths /\ Forall (dev_of sc) devs /\ (256 < zlen devs \/ ~ filter_fits paths).
Proof.
  intros snap sc out out' w0 ops w l ord q BN SP N R H. destruct (run_state _ _ _ _ _ _ BN SP (new_state _ _ _ _ N) R) as [W J].
  pose proof (close_tri snap sc w ord W) as T. rewrite H in T. destruct T as [T|(w1 & e & F & E)]; [auto|]. right.
  pose proof (end_file_io sc ord _ (flush_all_io _ _ _ _ W J F) BN SP) as X. cbn [fst] in X. rewrite E in X. exact X.
Qed.
(** Few series: the filter has 256 bits. *)
Definition pairs (sc : schema) : list (str * str) := concat (map (fun dg => map (fun ms => (fst dg, fst ms)) (snd dg)) sc).
Lemma pairs_count : forall sc, zlen (pairs sc) = series_count sc.
Proof.
  intros sc. unfold pairs, series_count. induction sc as [|[d g] sc IH]; [reflexivity|]. cbn [map concat fst snd]. rewrite zlen_app, IH. unfold zlen at 1. rewrite map_length. reflexivity.
Qed.
Lemma pairs_in : forall sc d m ms, declares sc d m ms -> In (d, m) (pairs sc).
Proof.
  intros sc d m ms (g & I & J). unfold pairs. apply in_concat. exists (map (fun ms => (d, fst ms)) g). split; [apply in_map_iff; exists (d, g); auto|]. apply in_map_iff. exists (m, ms). auto.
Qed.
Lemma few_bits : forall n, 0 <= n <= 41 -> bloom_bits n = 256.
Proof.
  intros n H. assert (F : Forall (fun k => bloom_bits (Z.of_nat k) = 256) (seq 0 42)) by (repeat constructor).
  rewrite Forall_forall in F. specialize (F (Z.to_nat n)). rewrite Z2Nat.id in F by lia. apply F. apply in_seq. lia.
Qed.
Lemma few_sound : forall sc, series_count sc <= 41 -> (exists paths devs, NoDup paths /\ NoDup devs /\ Forall (fun q => exists d m ms, declares sc d m ms /\ q = path_of d m) paths /\ Forall (dev_of sc) devs /\ (256 < zlen devs \/ ~ filter_fits paths)) -> False.
Proof.
  intros sc K (paths & devs & N1 & N2 & F1 & F2 & X).
  assert (L : forall (f : str * str -> str) (l : list str), NoDup l -> Forall (fun x => exists d m ms, declares sc d m ms /\ x = f (d, m)) l -> zlen l <= 41).
  { intros f l0 ND F. assert (Y : (length l0 <= length (map f (pairs sc)))%nat). { apply NoDup_incl_length; auto. intros x Hx. rewrite Forall_forall in F. destruct (F x Hx) as (d & m & ms & D & ->). apply in_map. eapply pairs_in; eauto. }
    rewrite map_length in Y. pose proof (pairs_count sc) as Z0. unfold zlen in *. lia. }
  destruct X as [X|X].
  - specialize (L (fun x => device_of_path (path_of (fst x) (snd x))) devs N2 F2). lia.
  - apply X. specialize (L (fun x => path_of (fst x) (snd x)) paths N1 F1). apply filter_fits_iff. rewrite few_bits by (pose proof (zlen_nonneg _ paths); lia). split; [|left; reflexivity]. intros s seed _ _ [_ Y]. apply Y. reflexivity.
Qed.
