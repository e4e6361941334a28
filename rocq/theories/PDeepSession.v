(** Whole sessions on one device with more than 65536 series (C53). *)
From Verif Require Export PDeepFile PSession.
Ltac Zify.zify_post_hook ::= idtac.

Lemma large_session : forall snap decomp sc ops d names paths, good_snap snap decomp -> schema_ok sc -> no_dots sc -> byte_names sc -> short_paths sc ->
  24 * zlen (input ops) + 150 * series_count sc < 2 ^ 32 -> Forall write_call ops -> Forall (point_storable sc) (input ops) -> in_order (input ops) ->
  NoDup names -> 65536 < zlen names -> (forall d' m, series_of d' m (input ops) <> [] <-> d' = d /\ In m names) ->
  lists_paths (fun d m => series_of d m (input ops) <> []) paths ->
  let cap := bloom_bits (zlen paths) in
  exists out w0 w, writer_new sc (sink_new healthy) = (out, Some w0) /\ run Release snap w0 ops = Ret (w, map (fun _ => AOk) ops) /\
    forall ord, good_order ord ->
    ((exists w', step Release snap w (OpClose ord) = Ret (w', AUnit)) <->
     (forall s seed, In s paths -> In seed [5; 7; 11; 19; 31] -> ~ (path_hash s seed = - 2 ^ 31 /\ 2 ^ 31 mod cap <> 0)) /\ (cap mod 8 = 0 \/ 4 <= cap mod 8)) /\
    forall w', step Release snap w (OpClose ord) = Ret (w', AUnit) -> zlen (file_bytes w') < 2 ^ 32 ->
      (exists cs, read_file decomp (file_bytes w') = Some cs /\ forall d m, SReader.series_in cs d m = tnums (series_of d m (input ops))) /\
      index_read decomp (file_bytes w') = None /\
      exists ft n o, footer_read (file_bytes w') = Some ft /\ lost_device (file_bytes w') ft d n o o.
Proof.
  intros snap decomp sc ops d names paths HG Hsc ND BN SP B1 W S R NN LN SO LP cap. destruct (new_healthy sc) as (out & w0 & N). rewrite input_len in B1.
  assert (SC : 0 <= series_count sc) by (apply zsum_map_nonneg; intros; apply zlen_nonneg).
  assert (O : ops_ok ops) by (split; [apply calls_op_ok; auto|lia]).
  destruct (session snap decomp HG sc Hsc ops out w0 N O (typed_calls _ _ Hsc W S) B1) as (w & h & l & RN & T).
  destruct (session_answers Release snap decomp HG sc Hsc _ _ _ _ T O W R S) as [-> HA]. pose proof (calls_no_close _ W) as NC.
  assert (HC : h_recent h = [] \/ 0 < h_counted h).
  { pose proof (counted_all Release snap decomp HG sc Hsc _ _ _ _ T O (all_batches ops)) as X. destruct (h_recent h); [left; auto|right]. rewrite X, zlen_cons. pose proof (zlen_nonneg _ l). lia. }
  exists out, w0, w. split; [exact N|]. split; [exact RN|]. intros ord GO.
  assert (LP' : lists_paths (fun d m => series_of d m (h_all h) <> []) paths) by (rewrite HA; exact LP).
  assert (LD : lists_devices (fun d m => series_of d m (h_all h) <> []) [d]).
  { rewrite HA. destruct names as [|m0 names]; [rewrite zlen_nil in LN; lia|]. split; [constructor; [intros []|constructor]|].
    intros x. split.
    - intros [<-|[]]. exists m0. apply SO. split; [reflexivity|left; reflexivity].
    - intros (m & H). apply SO in H. destruct H as [-> _]. left. reflexivity. }
  pose proof (close_panics_iff snap decomp sc w h ops _ ord paths [d] HG Hsc T O NC HC ND BN SP LP' LD) as CP. cbv zeta in CP. fold cap in CP. split.
  - split.
    + intros (w' & H). apply CP. eauto.
    + intros H. destruct CP as [_ CP]. destruct CP as [[w' a] H1]; [split; [unfold zlen; cbn; lia|exact H]|]. exists w'.
      assert (OC : ops_ok (ops ++ [OpClose ord])).
      { destruct O as [O1 O2]. split; [apply Forall_app; split; [exact O1|constructor; [exact I|constructor]]|]. rewrite map_app, zsum_app. cbn [map op_points]. rewrite zsum_cons. unfold zsum at 2. cbn [fold_right]. lia. }
      pose proof (trace_step_ok Release snap decomp HG sc Hsc _ _ _ _ _ _ _ T OC H1) as AN. cbn [answers] in AN. subst a. exact H1.
  - intros w' H FL. split.
    + destruct (close_acked Release snap decomp HG sc Hsc out w0 ops w _ ord w' _ N RN O NC (all_batches ops) H FL) as (cs & C1 & C2 & _). exists cs. split; [exact C1|]. rewrite all_acked in C2. exact C2.
    + destruct (large_device Release snap decomp sc w h ops _ ord w' AUnit d names HG Hsc T O NC HC H FL GO ND NN LN) as (ft & n & o & q & F1 & F2 & _ & F4).
      { rewrite HA. apply Forall_forall. intros m Hm. apply SO. auto. }
      destruct F4 as [-> IR]. { intros d' m. rewrite HA. intros X. apply SO in X. tauto. }
      split; [exact IR|]. exists ft, n, o. auto.
Qed.
