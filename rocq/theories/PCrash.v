(** A crash after any number of write calls leaves a prefix of the file of the uninterrupted run (C32). *)
From Verif Require Export PSink.
Ltac Zify.zify_post_hook ::= idtac.

Section Crash.
Variable k : nat.   (* calls that still reach the disk *)

(** two sinks in the same state, the second of which fails from call [k] on *)
Record synced (a b : sink) : Prop := {
  sy_rev : sk_rev a = sk_rev b;
  sy_pos : sk_pos a = sk_pos b;
  sy_calls : sk_calls a = sk_calls b;
  sy_le : (sk_calls b <= k)%nat;
  sy_sched : forall n, (n < k)%nat -> sk_sched a n = sk_sched b n;
  sy_dead : forall n, (k <= n)%nat -> sk_sched b n = FFail }.
Definition apart (a b : sink) : Prop := dead b /\ exists t, sk_data a = sk_data b ++ t.
Definition both (s s' : sink) : Prop := sk_ge s s' /\ frozen s s'.
Lemma both_refl : forall s, both s s. Proof. split; [apply sk_ge_refl|apply frozen_refl]. Qed.
Lemma both_trans : forall a b c, both a b -> both b c -> both a c.
Proof. intros a b c [] []. split; [eapply sk_ge_trans|eapply frozen_trans]; eauto. Qed.
Lemma both_wexec : forall w s, both s (fst (wexec w s)).
Proof. split; [apply wexec_ext|apply frozen_wexec]. Qed.
Lemma apart_mono : forall a b a' b', apart a b -> both a a' -> both b b' -> apart a' b'.
Proof.
  intros a b a' b' [D [t E]] [[l X] _] [_ F]. destruct (F D) as [D' E']. split; auto.
  exists (t ++ l). rewrite (se_data _ _ _ X), E, E', app_assoc. auto.
Qed.

Lemma write_sync : forall buf a b a' b' ra rb, synced a b -> sk_write buf a = (a', ra) -> sk_write buf b = (b', rb) ->
  (synced a' b' /\ ra = rb) \/ apart a' b'.
Proof.
  intros buf a b a' b' ra rb S Ha Hb. destruct (Nat.eq_dec (sk_calls b) k) as [K|K].
  - right. assert (D : dead b) by (intros n Hn; apply (sy_dead _ _ S); lia).
    destruct (frozen_write _ _ _ _ Hb D) as (_ & D' & E'). split; auto. rewrite E'.
    apply sk_write_ext in Ha. destruct Ha as [X _]. destruct ra as [j|].
    + rewrite (se_data _ _ _ X). unfold sk_data. rewrite (sy_rev _ _ S). eauto.
    + rewrite (se_data _ _ _ X). unfold sk_data. rewrite (sy_rev _ _ S). eauto.
  - left. pose proof (sy_le _ _ S). unfold sk_write in *. rewrite (sy_calls _ _ S) in Ha.
    rewrite (sy_sched _ _ S (sk_calls b)) in Ha by lia. destruct S as [S1 S2 S3 S4 S5 S6].
    destruct (sk_sched b (sk_calls b)); inversion Ha; inversion Hb; subst; (split; [|auto]);
      constructor; cbn [sk_rev sk_pos sk_calls sk_sched]; auto; congruence || lia.
Qed.
Lemma both_loop : forall f buf s s' r, sk_write_all_loop f buf s = (s', r) -> both s s'.
Proof.
  intros f buf s s' r H. pose proof (sk_write_all_loop_ext _ _ _ _ _ H) as (l & X & _). split; [exists l; auto|].
  intros D. destruct f; destruct buf as [|b buf]; cbn [sk_write_all_loop] in H; try (inversion H; subst; auto; fail).
  destruct (sk_write (b :: buf) s) as [s1 q] eqn:E. apply frozen_write in E; auto. destruct E as (-> & E).
  inversion H; subst. exact E.
Qed.
Lemma write_all_sync : forall f buf a b a' b' ra rb, synced a b -> sk_write_all_loop f buf a = (a', ra) ->
  sk_write_all_loop f buf b = (b', rb) -> (synced a' b' /\ ra = rb) \/ apart a' b'.
Proof.
  induction f; intros buf a b a' b' ra rb S Ha Hb.
  - destruct buf; cbn in Ha, Hb; inversion Ha; inversion Hb; subst; auto.
  - destruct buf as [|x buf]; [cbn in Ha, Hb; inversion Ha; inversion Hb; subst; auto|].
    cbn [sk_write_all_loop] in Ha, Hb.
    destruct (sk_write (x :: buf) a) as [a1 ra1] eqn:Ea. destruct (sk_write (x :: buf) b) as [b1 rb1] eqn:Eb.
    destruct (write_sync _ _ _ _ _ _ _ S Ea Eb) as [[S1 E]|A].
    + subst rb1. destruct ra1 as [[|j]|]; try (inversion Ha; inversion Hb; subst; auto; fail). eapply IHf; eauto.
    + right. eapply apart_mono; [exact A| |].
      * destruct ra1 as [[|j]|]; try (inversion Ha; subst; apply both_refl). eapply both_loop; eauto.
      * destruct rb1 as [[|j]|]; try (inversion Hb; subst; apply both_refl). eapply both_loop; eauto.
Qed.
Lemma wexec_sync : forall w a b, synced a b ->
  (synced (fst (wexec w a)) (fst (wexec w b)) /\ snd (wexec w a) = snd (wexec w b)) \/
  apart (fst (wexec w a)) (fst (wexec w b)).
Proof.
  induction w; intros a b S; cbn [wexec]; auto.
  - unfold sk_write_all. destruct (sk_write_all_loop (length bs) bs a) as [a' ra] eqn:Ea.
    destruct (sk_write_all_loop (length bs) bs b) as [b' rb] eqn:Eb. eapply write_all_sync; eauto.
  - destruct (sk_write bs a) as [a' ra] eqn:Ea. destruct (sk_write bs b) as [b' rb] eqn:Eb.
    destruct (write_sync _ _ _ _ _ _ _ S Ea Eb) as [[S1 E]|A].
    + subst. left. destruct rb; auto.
    + right. destruct ra, rb; exact A.
  - pose proof (IHw1 a b S) as H. destruct (wexec w1 a) as [a1 ra] eqn:Ea, (wexec w1 b) as [b1 rb] eqn:Eb.
    cbn [fst snd] in H. destruct H as [[S1 E]|A].
    + subst rb. destruct ra; auto.
    + right. eapply apart_mono; [exact A| |]; [destruct ra|destruct rb]; try apply both_refl; apply both_wexec.
  - pose proof (IHw1 a b S) as H. destruct H as [[S1 _]|A]; [auto|].
    right. eapply apart_mono; [exact A| |]; apply both_wexec.
Qed.

Definition Rrefl := both_refl. Definition Rtrans := both_trans. Definition Rwexec := both_wexec.
Record io_synced (a b : io_writer) : Prop := {
  is_out : synced (io_out a) (io_out b);
  is_device : io_device a = io_device b;
  is_chunks : io_chunks a = io_chunks b;
  is_current : io_current a = io_current b;
  is_groups : io_groups a = io_groups b;
  is_tsmeta : io_tsmeta a = io_tsmeta b }.
Definition io_apart (a b : io_writer) : Prop := apart (io_out a) (io_out b).
Lemma io_apart_mono : forall a b a' b', io_apart a b -> io_ge both a a' -> io_ge both b b' -> io_apart a' b'.
Proof. intros a b a' b'. apply apart_mono. Qed.

Ltac io_cases Sx := match type of Sx with io_synced ?a ?b =>
  let H := fresh in destruct Sx as [H ?H1 ?H2 ?H3 ?H4 ?H5] end.
Lemma write_all_pages_sync : forall c a b a' b', io_synced a b -> write_all_pages c a = Ret a' -> write_all_pages c b = Ret b' ->
  io_synced a' b' \/ io_apart a' b'.
Proof.
  intros c a b a' b' S Ha Hb. unfold write_all_pages in *. destruct (st_count (cw_stats c) =? 0).
  - rinj Ha. rinj Hb. auto.
  - unfold end_current_chunk, io_with_out, start_flush_chunk in *.
    cbn [io_current io_out io_device io_chunks io_groups io_tsmeta] in *. rinj Ha. rinj Hb.
    destruct S as [S1 S2 S3 S4 S5 S6]. rewrite S2, S3, S5, S6, (sy_pos _ _ S1).
    set (H := chunk_header _ _ _ _ _ _). destruct (wexec_sync H _ _ S1) as [[T _]|A].
    + destruct (wexec_sync (WAll (cw_buffer c)) _ _ T) as [[U _]|A].
      * left. constructor; cbn; auto.
      * right. exact A.
    + right. eapply apart_mono; [exact A| |]; apply both_wexec.
Qed.
Lemma write_to_file_sync : forall p snap c a b ca a' cb b', io_synced a b ->
  write_to_file_writer p snap c a = Ret (ca, a') -> write_to_file_writer p snap c b = Ret (cb, b') ->
  ca = cb /\ (io_synced a' b' \/ io_apart a' b').
Proof.
  intros p snap c a b ca a' cb b' S Ha Hb. unfold write_to_file_writer in *.
  apply bind_ret in Ha, Hb. destruct Ha as (c1 & Hc & Ha), Hb as (c2 & Hc2 & Hb).
  rewrite Hc in Hc2. apply ret_inj in Hc2. subst c2.
  apply bind_ret in Ha, Hb. destruct Ha as (w1 & H1 & Ha), Hb as (w2 & H2 & Hb). rinj Ha. rinj Hb.
  split; auto. eapply write_all_pages_sync; eauto.
Qed.
Lemma flush_chunks_sync : forall p snap cs a b ca a' cb b', io_synced a b ->
  flush_chunks p snap cs a = Ret (ca, a') -> flush_chunks p snap cs b = Ret (cb, b') ->
  (ca = cb /\ io_synced a' b') \/ io_apart a' b'.
Proof.
  induction cs as [|[i c] cs IH]; intros a b ca a' cb b' S Ha Hb; cbn [flush_chunks] in *.
  - rinj Ha. rinj Hb. auto.
  - apply bind_ret in Ha, Hb. destruct Ha as ([c1 a1] & Ha1 & Ha), Hb as ([c2 b1] & Hb1 & Hb).
    apply bind_ret in Ha, Hb. destruct Ha as ([ca2 a2] & Ha2 & Ha), Hb as ([cb2 b2] & Hb2 & Hb). rinj Ha. rinj Hb.
    cbn [fst snd]. destruct (write_to_file_sync _ _ _ _ _ _ _ _ _ S Ha1 Hb1) as [<- [T|A]].
    + destruct (IH _ _ _ _ _ _ T Ha2 Hb2) as [[<- U]|A]; auto.
    + right. eapply io_apart_mono; [exact A| |];
        (eapply flush_chunks_ge; [apply Rrefl|apply Rtrans|apply Rwexec|eassumption]).
Qed.
Lemma flush_to_sync : forall p snap g a b ga a' na gb b' nb, io_synced a b ->
  flush_to_filewriter p snap g a = Ret (ga, a', na) -> flush_to_filewriter p snap g b = Ret (gb, b', nb) ->
  (ga = gb /\ na = nb /\ io_synced a' b') \/ io_apart a' b'.
Proof.
  intros p snap g a b ga a' na gb b' nb S Ha Hb. unfold flush_to_filewriter in *.
  apply bind_ret in Ha, Hb. destruct Ha as (c1 & Hc & Ha), Hb as (c2 & Hc2 & Hb).
  rewrite Hc in Hc2. apply ret_inj in Hc2. subst c2.
  apply bind_ret in Ha, Hb. destruct Ha as ([x1 w1] & H1 & Ha), Hb as ([x2 w2] & H2 & Hb). rinj Ha. rinj Hb. cbn [fst snd].
  destruct (flush_chunks_sync _ _ _ _ _ _ _ _ _ S H1 H2) as [[<- T]|A]; auto.
Qed.
Lemma start_group_sync : forall d a b a' ra b' rb, io_synced a b -> start_chunk_group d a = (a', ra) ->
  start_chunk_group d b = (b', rb) -> (ra = rb /\ io_synced a' b') \/ io_apart a' b'.
Proof.
  intros d a b a' ra b' rb [S1 S2 S3 S4 S5 S6] Ha Hb. unfold start_chunk_group in *.
  pose proof (wexec_sync (chunk_group_header d) _ _ S1) as W.
  destruct (wexec (chunk_group_header d) (io_out a)) as [oa ka], (wexec (chunk_group_header d) (io_out b)) as [ob kb].
  cbn [fst snd] in W. destruct W as [[T E]|A].
  - subst kb. left. destruct ka; inversion Ha; inversion Hb; subst; (split; [auto|]); constructor; cbn; auto.
  - right. destruct ka, kb; inversion Ha; inversion Hb; subst; exact A.
Qed.
Lemma end_group_sync : forall a b, io_synced a b -> io_synced (end_chunk_group a) (end_chunk_group b).
Proof.
  intros a b [S1 S2 S3 S4 S5 S6]. unfold end_chunk_group. rewrite S2, S3, S4, S5, S6.
  destruct (io_device b) eqn:D1; [destruct (io_chunks b) eqn:D2|]; constructor; cbn; auto; congruence.
Qed.
Lemma flush_groups_sync : forall p snap gs a b ga a' ea gb b' eb, io_synced a b ->
  flush_groups p snap gs a = Ret (ga, a', ea) -> flush_groups p snap gs b = Ret (gb, b', eb) ->
  (ga = gb /\ ea = eb /\ io_synced a' b') \/ io_apart a' b'.
Proof.
  induction gs as [|[d g] gs IH]; intros a b ga a' ea gb b' eb S Ha Hb.
  - cbn in Ha, Hb. rinj Ha. rinj Hb. auto.
  - pose proof Ha as Ga. pose proof Hb as Gb. cbn [flush_groups] in Ha, Hb.
    destruct (start_chunk_group d a) as [a1 ra] eqn:Ea. destruct (start_chunk_group d b) as [b1 rb] eqn:Eb.
    destruct (start_group_sync _ _ _ _ _ _ _ S Ea Eb) as [[<- T]|A].
    + destruct ra.
      * apply bind_ret in Ha, Hb. destruct Ha as ([[g1 a2] n1] & Ha1 & Ha), Hb as ([[g2 b2] n2] & Hb1 & Hb).
        destruct (flush_to_sync _ _ _ _ _ _ _ _ _ _ _ T Ha1 Hb1) as [(<- & <- & U)|A].
        -- rewrite (sy_pos _ _ (is_out _ _ U)), (sy_pos _ _ (is_out _ _ T)) in Ha.
           destruct (negb _).
           ++ rinj Ha. rinj Hb. auto.
           ++ apply bind_ret in Ha, Hb. destruct Ha as ([[gs1 a3] e1] & Ha2 & Ha), Hb as ([[gs2 b3] e2] & Hb2 & Hb).
              rinj Ha. rinj Hb. apply end_group_sync in U.
              destruct (IH _ _ _ _ _ _ _ _ U Ha2 Hb2) as [(<- & <- & V)|A]; auto.
        -- right. eapply io_apart_mono; [exact A| |].
           ++ destruct (negb _) in Ha; [rinj Ha; apply Rrefl|]. apply bind_ret in Ha. destruct Ha as ([[gs1 a3] e1] & Ha2 & Ha).
              rinj Ha. apply (flush_groups_ge both Rrefl Rtrans Rwexec) in Ha2. unfold io_ge in *.
              rewrite end_chunk_group_out in Ha2. auto.
           ++ destruct (negb _) in Hb; [rinj Hb; apply Rrefl|]. apply bind_ret in Hb. destruct Hb as ([[gs1 b3] e1] & Hb2 & Hb).
              rinj Hb. apply (flush_groups_ge both Rrefl Rtrans Rwexec) in Hb2. unfold io_ge in *.
              rewrite end_chunk_group_out in Hb2. auto.
      * rinj Ha. rinj Hb. auto.
    + right. clear IH. assert (G : forall msg (x x1 : io_writer) rx gx x' ex,
        (if rx : bool
         then let pos := sk_pos (io_out x1) in
           let* r := flush_to_filewriter p snap g x1 in
           let '(g', io, data_size) := r in
           if negb (sk_pos (io_out io) - pos =? data_size)
           then Ret ((d, g') :: gs, io, Some (EIllegalState msg))
           else let io0 := end_chunk_group io in
             let* r' := flush_groups p snap gs io0 in
             let '(gs'', io1, e) := r' in Ret ((d, g') :: gs'', io1, e)
         else Ret ((d, g) :: gs, x1, Some EIo)) = Ret (gx, x', ex) -> io_ge both x1 x').
      { intros msg x x1 rx gx x' ex H. destruct rx.
        - cbv zeta in H. apply bind_ret in H. destruct H as ([[g2 io2] n] & H2 & H).
          apply (flush_to_ge both Rrefl Rtrans Rwexec) in H2. eapply io_ge_trans; [apply Rtrans|exact H2|].
          destruct (negb _) in H; [rinj H; apply Rrefl|]. apply bind_ret in H. destruct H as ([[gs1 a3] e1] & Ha2 & H).
          rinj H. apply (flush_groups_ge both Rrefl Rtrans Rwexec) in Ha2. unfold io_ge in *.
          rewrite end_chunk_group_out in Ha2. auto.
        - rinj H. apply Rrefl. }
      eapply io_apart_mono; [exact A| |]; (eapply G; eassumption).
Qed.

Record w_synced (a b : writer) : Prop := {
  ws_io : io_synced (w_io a) (w_io b);
  ws_groups : w_groups a = w_groups b;
  ws_records : w_records a = w_records b;
  ws_next : w_next_check a = w_next_check b;
  ws_schema : w_schema a = w_schema b }.
Definition w_apart (a b : writer) : Prop := io_apart (w_io a) (w_io b).
Lemma flush_all_sync : forall p snap a b a' ea b' eb, w_synced a b -> flush_all p snap a = Ret (a', ea) ->
  flush_all p snap b = Ret (b', eb) -> w_synced a' b' \/ w_apart a' b'.
Proof.
  intros p snap a b a' ea b' eb [S1 S2 S3 S4 S5] Ha Hb. unfold flush_all in *. rewrite S3 in Ha.
  destruct (w_records b >? 0).
  - apply bind_ret in Ha, Hb. destruct Ha as ([[ga ia] xa] & Ha1 & Ha), Hb as ([[gb ib] xb] & Hb1 & Hb).
    rewrite S2 in Ha1. destruct (flush_groups_sync _ _ _ _ _ _ _ _ _ _ _ S1 Ha1 Hb1) as [(<- & <- & T)|A].
    + left. destruct xa; rinj Ha; rinj Hb; unfold writer_reset; constructor; cbn; auto. congruence.
    + right. destruct xa, xb; rinj Ha; rinj Hb; exact A.
  - rinj Ha. rinj Hb. left. constructor; auto.
Qed.
Lemma check_memory_sync : forall p snap a b a' b', w_synced a b -> check_memory p snap a = Ret a' ->
  check_memory p snap b = Ret b' -> w_synced a' b' \/ w_apart a' b'.
Proof.
  intros p snap a b a' b' S Ha Hb. pose proof S as [S1 S2 S3 S4 S5]. unfold check_memory in *. rewrite S2, S3, S4, S5 in Ha.
  destruct (w_records b >=? w_next_check b).
  - apply bind_ret in Ha, Hb. destruct Ha as (m1 & M1 & Ha), Hb as (m2 & M2 & Hb). rewrite M1 in M2. apply ret_inj in M2. subst m2.
    destruct (m1 =? 0); [discriminate|]. destruct (m1 >? CHUNK_GROUP_SIZE_THRESHOLD_BYTE).
    + apply bind_ret in Ha, Hb. destruct Ha as ([x1 e1] & Ha1 & Ha), Hb as ([x2 e2] & Hb1 & Hb). rinj Ha. rinj Hb.
      cbn [fst]. eapply flush_all_sync; [|exact Ha1|exact Hb1]. constructor; auto.
    + rinj Ha. rinj Hb. left. constructor; auto.
  - rinj Ha. rinj Hb. auto.
Qed.

Lemma measurement_loop_sync : forall deg l i cur queue a b ca qa a' cb qb b', synced a b ->
  measurement_loop deg i l cur queue a = (ca, qa, a') -> measurement_loop deg i l cur queue b = (cb, qb, b') ->
  (ca = cb /\ qa = qb /\ synced a' b') \/ apart a' b'.
Proof.
  induction l as [|m l IH]; intros i cur queue a b ca qa a' cb qb b' S Ha Hb; cbn [measurement_loop] in *.
  - inversion Ha; inversion Hb; subst; auto.
  - rewrite (sy_pos _ _ S) in Ha.
    match type of Hb with (let '(_, _) := ?x in _) = _ => destruct x as [cu qu] end.
    destruct (wexec_sync (ts_meta_serialize m) _ _ S) as [[T _]|A].
    + eapply IH; eauto.
    + right. eapply apart_mono; [exact A| |]; (eapply measurement_loop_ge; [apply Rrefl|apply Rtrans|apply Rwexec|eassumption]).
Qed.
Lemma device_loop_sync : forall deg ds a b ra a' rb b', synced a b ->
  device_loop deg ds a = Ret (ra, a') -> device_loop deg ds b = Ret (rb, b') ->
  (ra = rb /\ synced a' b') \/ apart a' b'.
Proof.
  induction ds as [|[d l] ds IH]; intros a b ra a' rb b' S Ha Hb; cbn [device_loop] in *.
  - rinj Ha. rinj Hb. auto.
  - destruct l as [|x l]; [eapply IH; eauto|].
    destruct (measurement_loop deg 0 (x :: l) (index_node_new LeafMeasurement) [] a) as [[ca qa] a1] eqn:Ea.
    destruct (measurement_loop deg 0 (x :: l) (index_node_new LeafMeasurement) [] b) as [[cb qb] b1] eqn:Eb.
    apply bind_ret in Ha, Hb. destruct Ha as (r1 & R1 & Ha), Hb as (r2 & R2 & Hb).
    apply bind_ret in Ha, Hb. destruct Ha as ([ra2 a2] & Ha2 & Ha), Hb as ([rb2 b2] & Hb2 & Hb). rinj Ha. rinj Hb. cbn [fst snd].
    destruct (measurement_loop_sync _ _ _ _ _ _ _ _ _ _ _ _ _ S Ea Eb) as [(<- & <- & T)|A].
    + rewrite (sy_pos _ _ T) in R1. rewrite R1 in R2. apply ret_inj in R2. subst r2.
      destruct (IH _ _ _ _ _ _ T Ha2 Hb2) as [[<- U]|A]; auto.
    + right. eapply apart_mono; [exact A| |]; (eapply device_loop_ge; [apply Rrefl|apply Rtrans|apply Rwexec|eassumption]).
Qed.
Lemma device_entries_sync : forall l n a b na a' nb b', synced a b ->
  device_entries l n a = (na, a') -> device_entries l n b = (nb, b') -> (na = nb /\ synced a' b') \/ apart a' b'.
Proof.
  induction l as [|[s x] l IH]; intros n a b na a' nb b' S Ha Hb; cbn [device_entries] in *.
  - inversion Ha; inversion Hb; subst; auto.
  - rewrite (sy_pos _ _ S) in Ha. destruct (wexec_sync (index_node_serialize x) _ _ S) as [[T _]|A].
    + eapply IH; eauto.
    + right. eapply apart_mono; [exact A| |]; (eapply device_entries_ge; [apply Rrefl|apply Rtrans|apply Rwexec|eassumption]).
Qed.
Lemma construct_index_sync : forall deg ord m a b na a' nb b', synced a b ->
  construct_metadata_index deg ord m a = Ret (na, a') -> construct_metadata_index deg ord m b = Ret (nb, b') ->
  (na = nb /\ synced a' b') \/ apart a' b'.
Proof.
  intros deg ord m a b na a' nb b' S Ha Hb. unfold construct_metadata_index in *.
  apply bind_ret in Ha, Hb. destruct Ha as ([im1 a1] & Ha1 & Ha), Hb as ([im2 b1] & Hb1 & Hb).
  destruct (device_loop_sync _ _ _ _ _ _ _ _ S Ha1 Hb1) as [[<- T]|A].
  - destruct (length im1 <=? deg)%nat; [|discriminate].
    destruct (device_entries (ord im1) (index_node_new LeafDevice) a1) as [n1 a2] eqn:Ea.
    destruct (device_entries (ord im1) (index_node_new LeafDevice) b1) as [n2 b2] eqn:Eb.
    rinj Ha. rinj Hb. destruct (device_entries_sync _ _ _ _ _ _ _ _ T Ea Eb) as [[<- U]|A]; auto.
    left. split; auto. rewrite (sy_pos _ _ U). auto.
  - right. destruct (length im1 <=? deg)%nat; [|discriminate]. destruct (length im2 <=? deg)%nat; [|discriminate].
    destruct (device_entries (ord im1) (index_node_new LeafDevice) a1) as [n1 a2] eqn:Ea.
    destruct (device_entries (ord im2) (index_node_new LeafDevice) b1) as [n2 b2] eqn:Eb.
    rinj Ha. rinj Hb.
    eapply apart_mono; [exact A| |]; (eapply device_entries_ge; [apply Rrefl|apply Rtrans|apply Rwexec|eassumption]).
Qed.
Lemma end_file_sync : forall p ord a b a' b', io_synced a b -> end_file p ord a = Ret a' -> end_file p ord b = Ret b' ->
  io_synced a' b' \/ io_apart a' b'.
Proof.
  intros p ord a b a' b' [S1 S2 S3 S4 S5 S6] Ha Hb. unfold end_file in *. rewrite S5, S6, (sy_pos _ _ S1) in Ha.
  apply bind_ret in Ha, Hb. destruct Ha as (t1 & T1 & Ha), Hb as (t2 & T2 & Hb). rewrite T1 in T2. apply ret_inj in T2. subst t2.
  apply bind_ret in Ha, Hb. destruct Ha as ([x1 a1] & C1 & Ha), Hb as ([x2 b1] & C2 & Hb).
  apply bind_ret in Ha, Hb. destruct Ha as (f1 & F1 & Ha), Hb as (f2 & F2 & Hb). rewrite F1 in F2. apply ret_inj in F2. subst f2.
  apply bind_ret in Ha, Hb. destruct Ha as (w1 & W1 & Ha), Hb as (w2 & W2 & Hb). rewrite W1 in W2. apply ret_inj in W2. subst w2.
  rinj Ha. rinj Hb. 
  assert (CT : forall q q' sa sb, synced sa sb \/ apart sa sb -> (synced sa sb -> q = q') ->
    synced (fst (wexec q sa)) (fst (wexec q' sb)) \/ apart (fst (wexec q sa)) (fst (wexec q' sb))).
  { intros q q' sa sb [T|A] E.
    - rewrite (E T). destruct (wexec_sync q' _ _ T) as [[U _]|A]; auto.
    - right. eapply apart_mono; [exact A| |]; apply both_wexec. }
  assert (IX : (x1 = x2 /\ synced a1 b1) \/ apart a1 b1).
  { destruct (wexec_sync (WAll [2]) _ _ S1) as [[T _]|A].
    - eapply construct_index_sync; eauto.
    - right. eapply apart_mono; [exact A| |]; (eapply construct_index_ge; [apply Rrefl|apply Rtrans|apply Rwexec|eassumption]). }
  unfold io_apart. cbn [io_out io_with_out io_with_tsmeta].
  match goal with |- io_synced (io_with_out ?sa _) (io_with_out ?sb _) \/ _ => cut (synced sa sb \/ apart sa sb) end.
  { intros [T|A]; [left; constructor; cbn; auto|right; exact A]. }
  destruct IX as [[<- T]|A].
  - destruct (wexec_sync (ts_file_metadata_serialize x1 (sk_pos (io_out b))) _ _ T) as [[U _]|A].
    + destruct (wexec_sync w1 _ _ U) as [[V _]|A].
      * apply CT; [|auto]. apply CT; [auto|]. intros _. rewrite (sy_pos _ _ V), (sy_pos _ _ T). auto.
      * right. eapply apart_mono; [exact A| |]; (eapply both_trans; apply both_wexec).
    + right. eapply apart_mono; [exact A| |]; (eapply both_trans; [|apply both_wexec]; eapply both_trans; apply both_wexec).
  - right. eapply apart_mono; [exact A| |];
     (eapply both_trans; [|apply both_wexec]; eapply both_trans; [|apply both_wexec]; eapply both_trans; apply both_wexec).
Qed.
Lemma step_sync : forall p snap a b o a' xa b' xb, w_synced a b -> step p snap a o = Ret (a', xa) ->
  step p snap b o = Ret (b', xb) -> w_synced a' b' \/ w_apart a' b'.
Proof.
  intros p snap a b o a' xa b' xb S Ha Hb. pose proof S as [S1 S2 S3 S4 S5]. destruct o; cbn [step] in *.
  - unfold writer_write in *. rewrite S2, S3, S4, S5 in Ha. destruct (sm_get d (w_groups b)) as [g|]; [|rinj Ha; rinj Hb; auto].
    apply bind_ret in Ha, Hb. destruct Ha as ([g1 e1] & Ha1 & Ha), Hb as ([g2 e2] & Hb1 & Hb).
    rewrite Ha1 in Hb1. rinj Hb1. destruct e2.
    + rinj Ha. rinj Hb. left. constructor; auto.
    + apply bind_ret in Ha, Hb. destruct Ha as (r1 & R1 & Ha), Hb as (r2 & R2 & Hb). cbn [w_records] in *.
      rewrite R1 in R2. apply ret_inj in R2. subst r2.
      apply bind_ret in Ha, Hb. destruct Ha as (y1 & Y1 & Ha), Hb as (y2 & Y2 & Hb). rinj Ha. rinj Hb.
      eapply check_memory_sync; [|exact Y1|exact Y2]. constructor; auto.
  - unfold writer_write_many in *. rewrite S2, S3, S4, S5 in Ha. destruct (sm_get d (w_groups b)) as [g|]; [|rinj Ha; rinj Hb; auto].
    apply bind_ret in Ha, Hb. destruct Ha as ([g1 e1] & Ha1 & Ha), Hb as ([g2 e2] & Hb1 & Hb).
    rewrite Ha1 in Hb1. rinj Hb1. destruct e2.
    + apply bind_ret in Ha, Hb. destruct Ha as (r1 & R1 & Ha), Hb as (r2 & R2 & Hb). cbn [w_records] in *.
      rewrite R1 in R2. apply ret_inj in R2. subst r2.
      apply bind_ret in Ha, Hb. destruct Ha as (y1 & Y1 & Ha), Hb as (y2 & Y2 & Hb). rinj Ha. rinj Hb.
      eapply check_memory_sync; [|exact Y1|exact Y2]. constructor; auto.
    + rinj Ha. rinj Hb. left. constructor; auto.
  - unfold writer_close in *.
    apply bind_ret in Ha, Hb. destruct Ha as ([w1 e1] & Ha1 & Ha), Hb as ([w2 e2] & Hb1 & Hb).
    apply bind_ret in Ha, Hb. destruct Ha as (i1 & Ha2 & Ha), Hb as (i2 & Hb2 & Hb). rinj Ha. rinj Hb. cbn [fst] in *.
    destruct (flush_all_sync _ _ _ _ _ _ _ _ S Ha1 Hb1) as [T|A].
    + destruct T as [T1 T2 T3 T4 T5]. destruct (end_file_sync _ _ _ _ _ _ T1 Ha2 Hb2) as [U|A]; [left; constructor; auto|right; exact A].
    + right. eapply io_apart_mono; [exact A| |]; cbn [w_io]; (eapply end_file_ge; [apply Rrefl|apply Rtrans|apply Rwexec|eassumption]).
Qed.
Lemma run_sync : forall p snap ops a b a' xa b' xb, w_synced a b -> run p snap a ops = Ret (a', xa) ->
  run p snap b ops = Ret (b', xb) -> w_synced a' b' \/ w_apart a' b'.
Proof.
  induction ops as [|o ops IH]; intros a b a' xa b' xb S Ha Hb; cbn [run] in *.
  - rinj Ha. rinj Hb. auto.
  - apply bind_ret in Ha, Hb. destruct Ha as ([a1 x1] & Ha1 & Ha), Hb as ([b1 y1] & Hb1 & Hb).
    apply bind_ret in Ha, Hb. destruct Ha as ([a2 x2] & Ha2 & Ha), Hb as ([b2 y2] & Hb2 & Hb). rinj Ha. rinj Hb.
    destruct (step_sync _ _ _ _ _ _ _ _ _ S Ha1 Hb1) as [T|A].
    + eapply IH; eauto.
    + right. eapply io_apart_mono; [exact A| |]; (eapply run_ge; [apply Rrefl|apply Rtrans|apply Rwexec|eassumption]).
Qed.
End Crash.

(** the schedule of a disk that stops accepting anything from call [k] on *)
Definition crash_at (k : nat) (sched : nat -> fault) : nat -> fault := fun n => if (n <? k)%nat then sched n else FFail.
Lemma crash_prefix : forall p snap sc sched k oa wa ob wb ops wa' la wb' lb,
  writer_new sc (sink_new sched) = (oa, Some wa) -> writer_new sc (sink_new (crash_at k sched)) = (ob, Some wb) ->
  run p snap wa ops = Ret (wa', la) -> run p snap wb ops = Ret (wb', lb) ->
  exists t, file_bytes wa' = file_bytes wb' ++ t.
Proof.
  intros p snap sc sched k oa wa ob wb ops wa' la wb' lb Na Nb Ha Hb.
  assert (S0 : synced k (sink_new sched) (sink_new (crash_at k sched))).
  { constructor; cbn; auto; try lia; intros n Hn; unfold crash_at.
    - apply Nat.ltb_lt in Hn. rewrite Hn. auto.
    - apply Nat.ltb_ge in Hn. rewrite Hn. auto. }
  unfold writer_new, io_new in Na, Nb.
  pose proof (wexec_sync k (WThen (WAll MAGIC) (WThen (WAll [3]) WNil)) _ _ S0) as W.
  destruct (wexec (WThen (WAll MAGIC) (WThen (WAll [3]) WNil)) (sink_new sched)) as [o1 [|]]; [|discriminate].
  destruct (wexec (WThen (WAll MAGIC) (WThen (WAll [3]) WNil)) (sink_new (crash_at k sched))) as [o2 [|]]; [|discriminate].
  cbn [fst snd] in W. inversion Na. inversion Nb. subst oa ob. clear Na Nb.
  assert (A : w_synced k wa' wb' \/ w_apart wa' wb').
  { destruct W as [[T _]|A].
    - eapply run_sync; [|exact Ha|exact Hb]. subst wa wb. constructor; cbn; auto. constructor; cbn; auto.
    - right. apply (run_ge both both_refl both_trans both_wexec) in Ha, Hb.
      assert (A' : io_apart (w_io wa) (w_io wb)) by (subst wa wb; exact A).
      eapply io_apart_mono; [exact A'|exact Ha|exact Hb]. }
  destruct A as [S|[_ A]]; [|exact A].
  exists []. rewrite app_nil_r. unfold file_bytes, sk_data. f_equal. apply (sy_rev _ _ _ (is_out _ _ _ (ws_io _ _ _ S))).
Qed.
