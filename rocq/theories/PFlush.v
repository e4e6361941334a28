(** Flushing: bytes and metadata emitted for chunks and chunk groups on a healthy sink. *)
From Verif Require Export PMap PSink PChunk SHist.
Ltac Zify.zify_post_hook ::= idtac.

(** a chunk as written to the file *)
Definition chunk_bytes (c : chunk_writer) : list Z :=
  wbytes (chunk_header (cw_id c) (wrapU 32 (zlen (cw_buffer c))) (cw_type c) (cw_comp c) (cw_enc c) (cw_num_pages c))
  ++ cw_buffer c.
Definition cmeta (off : Z) (c : chunk_writer) : chunk_meta :=
  mkCM (cw_id c) (cw_type c) (wrapS 64 off) (cw_stats c).

Lemma zlen_pos_cons : forall A (l : list A), l <> [] -> 0 < zlen l.
Proof. intros A [|a l] H; [congruence|]. rewrite zlen_cons. pose proof (zlen_nonneg _ l). lia. Qed.
Lemma zlen_0_nil : forall A (l : list A), zlen l = 0 -> l = [].
Proof. intros A [|a l] H; auto. rewrite zlen_cons in H. pose proof (zlen_nonneg _ l). lia. Qed.

Section Flush.
Variable p : profile.
Variable snap decomp : list Z -> option (list Z).
Hypothesis HG : good_snap snap decomp.

Definition new_chunk (m : list Z) (ms : mschema) : chunk_writer := cw_new m (ms_type ms) (ms_comp ms) (ms_enc ms).
(** [c] is the writer of series [m] after the points [pts], before and after sealing *)
Definition open_chunk (m : list Z) (ms : mschema) (pts : list (Z * value)) (c : chunk_writer) : Prop :=
  cw_run p snap pts (new_chunk m ms) = Ret (inl c).
Definition sealed (m : list Z) (ms : mschema) (pts : list (Z * value)) (c : chunk_writer) : Prop :=
  cw_session p snap m (ms_type ms) (ms_comp ms) (ms_enc ms) pts = Ret (inl c).
Definition pts_ok (ms : mschema) (pts : list (Z * value)) : Prop := points_ok (ms_type ms) pts /\ zlen pts < 2 ^ 32.

Lemma open_seal : forall m ms pts c c', open_chunk m ms pts c -> seal_current_page p snap c = Ret c' -> sealed m ms pts c'.
Proof.
  intros m ms pts c c' H S. unfold sealed, cw_session. unfold open_chunk, new_chunk in H. rewrite H. cbn [bind].
  rewrite S. reflexivity.
Qed.
Lemma sealed_inv : forall m ms pts c, pts_ok ms pts -> sealed m ms pts c ->
  exists pages ims, chunk_inv p decomp m (ms_type ms) (ms_comp ms) (ms_enc ms) c pages ims [] /\ concat pages = pts.
Proof. intros m ms pts c [H1 H2] H. eapply chunk_session; eauto. Qed.
Lemma seal_again : forall m ms pts c, pts_ok ms pts -> sealed m ms pts c -> seal_current_page p snap c = Ret c.
Proof.
  intros m ms pts c Hok H. destruct (sealed_inv _ _ _ _ Hok H) as (pages & ims & I & E).
  unfold seal_current_page. pose proof (ci_cur _ _ _ _ _ _ _ _ _ _ I) as IC. destruct (cw_page c); [|reflexivity].
  rewrite (ps_points _ _ _ _ _ IC), zlen_nil. reflexivity.
Qed.
Lemma buffer_nonempty : forall dt comp enc pages ims, Forall2 (image_ok p decomp dt comp enc) pages ims ->
  (buffer_of ims = [] <-> pages = []).
Proof.
  intros dt comp enc pages ims H.
  assert (HD : forall pg im, image_ok p decomp dt comp enc pg im -> im_head im <> []).
  { intros pg im [_ (ct & _ & C2 & _ & _ & C5)] E0. rewrite C5 in E0. apply app_eq_nil in E0. destruct E0 as [E0 _].
    pose proof (var_u32_len (zlen ct)) as L. pose proof (zlen_nonneg _ ct). rewrite E0, zlen_nil in L. lia. }
  destruct H as [|pg im pages ims H1 H]; [cbn; tauto|]. split; [|discriminate]. intros E. exfalso.
  specialize (HD _ _ H1). destruct H; cbn [buffer_of map concat] in E; [|unfold with_stats at 1 in E; rewrite <- app_assoc in E];
    apply app_eq_nil in E; destruct E as [E _]; congruence.
Qed.
Lemma chunk_tree_count : forall m ms pts c, pts_ok ms pts -> sealed m ms pts c ->
  st_count (cw_stats c) = zlen pts /\ (cw_buffer c = [] <-> pts = []).
Proof.
  intros m ms pts c Hok H. destruct (sealed_inv _ _ _ _ Hok H) as (pages & ims & I & E). split.
  - pose proof (ci_stats _ _ _ _ _ _ _ _ _ _ I) as S. apply tree_inv in S.
    + rewrite chunk_tree_points in S. rewrite (si_count _ _ _ S), E. apply Z.mod_small. destruct Hok.
      pose proof (zlen_nonneg _ pts). lia.
    + rewrite chunk_tree_points, E. apply Hok.
  - rewrite (ci_buf _ _ _ _ _ _ _ _ _ _ I). rewrite (buffer_nonempty _ _ _ _ _ (ci_ims _ _ _ _ _ _ _ _ _ _ I)).
    pose proof (ci_pages _ _ _ _ _ _ _ _ _ _ I) as P. split; intros X.
    + subst pages. cbn in E. auto.
    + destruct pages as [|pg pages]; auto. exfalso. inversion P as [|? ? P1 P2]; subst. cbn [concat] in X. apply app_eq_nil in X. destruct X as [-> _].
      rewrite zlen_nil in P1. lia.
Qed.

(** what a sealed chunk emits *)
Definition emitted (pts : list (Z * value)) (c : chunk_writer) : list Z :=
  match pts with [] => [] | _ => chunk_bytes c end.

Lemma write_all_pages_ok : forall m ms pts c io io', pts_ok ms pts -> sealed m ms pts c ->
  is_healthy (io_out io) -> write_all_pages c io = Ret io' ->
  sk_ext (io_out io) (io_out io') (emitted pts c) /\
  io_device io' = io_device io /\ io_groups io' = io_groups io /\ io_tsmeta io' = io_tsmeta io /\
  io_chunks io' = io_chunks io ++ match pts with [] => [] | _ => [cmeta (sk_pos (io_out io)) c] end /\
  (io_current io = None -> io_current io' = None).
Proof.
  intros m ms pts c io io' Hok S Hh H. destruct (chunk_tree_count _ _ _ _ Hok S) as [C _].
  unfold write_all_pages in H. rewrite C in H. destruct pts as [|x l].
  - rewrite zlen_nil in H. cbn in H. apply ret_inj in H. subst io'. cbn [emitted]. rewrite app_nil_r.
    split; [apply sk_ext_refl|]. auto.
  - replace (zlen (x :: l) =? 0) with false in H by (symmetry; rewrite zlen_cons; pose proof (zlen_nonneg _ l); apply Z.eqb_neq; lia).
    unfold end_current_chunk, io_with_out, start_flush_chunk in H. cbn [io_current io_out io_device io_chunks io_groups io_tsmeta] in H.
    apply ret_inj in H. subst io'. cbn [io_current io_out io_device io_chunks io_groups io_tsmeta].
    split; [|auto]. cbn [emitted]. unfold chunk_bytes.
    pose proof (wexec_healthy_fst (chunk_header (cw_id c) (wrapU 32 (zlen (cw_buffer c))) (cw_type c) (cw_comp c) (cw_enc c) (cw_num_pages c)) _ Hh) as X.
    eapply sk_ext_trans; [exact X|]. apply (wexec_healthy_fst (WAll (cw_buffer c))). eapply sk_ext_healthy; eauto.
Qed.
Lemma write_to_file_ok : forall m ms pts c io c' io', pts_ok ms pts -> sealed m ms pts c ->
  is_healthy (io_out io) -> write_to_file_writer p snap c io = Ret (c', io') ->
  sk_ext (io_out io) (io_out io') (emitted pts c) /\
  io_device io' = io_device io /\ io_groups io' = io_groups io /\ io_tsmeta io' = io_tsmeta io /\
  io_chunks io' = io_chunks io ++ match pts with [] => [] | _ => [cmeta (sk_pos (io_out io)) c] end /\
  (io_current io = None -> io_current io' = None).
Proof.
  intros m ms pts c io c' io' Hok S Hh H. unfold write_to_file_writer in H. rewrite (seal_again _ _ _ _ Hok S) in H.
  cbn [bind] in H. apply bind_ret in H. destruct H as (w1 & H1 & H). rinj H. eapply write_all_pages_ok; eauto.
Qed.

(** a chunk that was written: name, schema, points, sealed writer *)
Record citem := mkCI { c_name : list Z; c_ms : mschema; c_pts : list (Z * value); c_cw : chunk_writer }.
Record citem_ok (c : citem) : Prop := {
  co_ok : pts_ok (c_ms c) (c_pts c);
  co_ne : c_pts c <> [];
  co_sealed : sealed (c_name c) (c_ms c) (c_pts c) (c_cw c) }.
Definition cbytes (c : citem) : list Z := chunk_bytes (c_cw c).
Fixpoint cmetas (off : Z) (cs : list citem) : list chunk_meta :=
  match cs with
  | [] => []
  | c :: cs' => cmeta off (c_cw c) :: cmetas (off + zlen (cbytes c)) cs'
  end.
(** the chunks to be written for series schemas [g0] with points [f] *)
Definition chunk_plan (f : list Z -> list (Z * value)) (g0 : smap mschema) : list (list Z * mschema * list (Z * value)) :=
  filter (fun x => match snd x with [] => false | _ => true end) (map (fun ms => (fst ms, snd ms, f (fst ms))) g0).
Definition plan_of (c : citem) := (c_name c, c_ms c, c_pts c).

Definition chunks_sealed (f : list Z -> list (Z * value)) : smap mschema -> smap chunk_writer -> Prop :=
  same_keys (fun m ms c => pts_ok ms (f m) /\ sealed m ms (f m) c).

Lemma flush_chunks_ok : forall f g0 cs, chunks_sealed f g0 cs -> forall io cs' io',
  is_healthy (io_out io) -> flush_chunks p snap cs io = Ret (cs', io') ->
  exists cis, Forall citem_ok cis /\ map plan_of cis = chunk_plan f g0 /\
    sk_ext (io_out io) (io_out io') (concat (map cbytes cis)) /\
    io_device io' = io_device io /\ io_groups io' = io_groups io /\ io_tsmeta io' = io_tsmeta io /\
    io_chunks io' = io_chunks io ++ cmetas (sk_pos (io_out io)) cis /\
    (io_current io = None -> io_current io' = None).
Proof.
  intros f g0 cs H. induction H as [|[m ms] [k c] g0 cs [E [Hok S]] H IH]; intros io cs' io' Hh F; cbn [flush_chunks] in F.
  - rinj F. exists []. cbn. rewrite app_nil_r. split; [constructor|]. split; [reflexivity|]. split; [apply sk_ext_refl|]. auto.
  - cbn [fst snd] in *. subst k. apply bind_ret in F. destruct F as ([c1 io1] & F1 & F). apply bind_ret in F.
    destruct F as ([cs2 io2] & F2 & F). rinj F. cbn [snd].
    destruct (write_to_file_ok _ _ _ _ _ _ _ Hok S Hh F1) as (X & D & G & T & C & U).
    destruct (IH io1 cs2 io2 (sk_ext_healthy _ _ _ X Hh) F2) as (cis & K1 & K2 & K3 & K4 & K5 & K6 & K7 & K8).
    unfold chunk_plan. cbn [map filter snd fst]. destruct (f m) as [|x l] eqn:EF.
    + exists cis. cbn [emitted] in X. rewrite app_nil_r in C.
      pose proof (sk_ext_trans _ _ _ _ _ X K3) as X'. rewrite (se_pos _ _ _ X), zlen_nil, Z.add_0_r in K7.
      repeat split; try assumption; try congruence; try apply X'; auto.
    + exists (mkCI m ms (x :: l) c :: cis). cbn [map concat cmetas plan_of c_name c_ms c_pts c_cw cbytes].
      pose proof (sk_ext_trans _ _ _ _ _ X K3) as X'. rewrite (se_pos _ _ _ X) in K7.
      split; [constructor; auto; split; cbn; auto; discriminate|]. split; [f_equal; auto|].
      split; [exact X'|]. split; [congruence|]. split; [congruence|]. split; [congruence|].
      split; [rewrite K7, C, <- app_assoc; reflexivity|auto].
Qed.

Lemma seal_all_ok : forall f g0 cs, same_keys (fun m ms c => pts_ok ms (f m) /\ open_chunk m ms (f m) c) g0 cs ->
  forall cs', seal_all_chunks p snap cs = Ret cs' -> chunks_sealed f g0 cs'.
Proof.
  intros f g0 cs H. induction H as [|[m ms] [k c] g0 cs [E [Hok S]] H IH]; intros cs' F; unfold seal_all_chunks in F; cbn [sm_mapM] in F.
  - apply ret_inj in F. subst. constructor.
  - cbn [fst snd] in *. subst k. apply bind_ret in F. destruct F as (c1 & F1 & F). apply bind_ret in F.
    destruct F as (cs2 & F2 & F). apply ret_inj in F. subst cs'. constructor.
    + cbn [fst snd]. split; auto. split; auto. eapply open_seal; eauto.
    + apply IH. exact F2.
Qed.

(** the predicted size *)
Lemma chunk_header_len : forall id ds dt comp enc n, zlen id < 2 ^ 31 -> 0 <= ds < 2 ^ 32 ->
  zlen (wbytes (chunk_header id ds dt comp enc n)) = 1 + (size_var_i32 (zlen id) + zlen id) + size_var_u32 ds + 3.
Proof.
  intros id ds dt comp enc n H D. unfold chunk_header. cbn [wbytes]. rewrite !zlen_app, write_str_len by auto.
  destruct (var_u32_len ds D) as (_ & _ & ->). rewrite !zlen_cons, !zlen_nil. lia.
Qed.
Lemma wrapU32_range : forall v, 0 <= wrapU 32 v < 2 ^ 32.
Proof. intros. unfold wrapU. apply Z.mod_pos_bound. lia. Qed.
Lemma serialized_size_ok : forall m ms pts c, pts_ok ms pts -> sealed m ms pts c -> zlen m < 2 ^ 31 ->
  serialized_chunk_size c = zlen (emitted pts c).
Proof.
  intros m ms pts c Hok S Hm. destruct (chunk_tree_count _ _ _ _ Hok S) as [_ B].
  destruct (sealed_inv _ _ _ _ Hok S) as (pages & ims & I & E).
  unfold serialized_chunk_size. rewrite (ci_id _ _ _ _ _ _ _ _ _ _ I). destruct (cw_buffer c) as [|b l] eqn:EB.
  - rewrite (proj1 B eq_refl). reflexivity.
  - destruct pts as [|x pts]; [exfalso; destruct B as [_ B]; specialize (B eq_refl); discriminate|].
    cbn [emitted]. unfold chunk_bytes. rewrite zlen_app, EB, (ci_id _ _ _ _ _ _ _ _ _ _ I), chunk_header_len by (auto using wrapU32_range).
    pose proof (zlen_nonneg _ m). rewrite (wrapS_small 32) by (change (2 ^ (32 - 1)) with (2 ^ 31); lia).
    rewrite (wrapU_small 64) by lia. lia.
Qed.
Lemma group_size_gen : forall f g0 cs, chunks_sealed f g0 cs -> Forall (fun m => zlen m < 2 ^ 31) (map fst g0) -> forall cis,
  map plan_of cis = chunk_plan f g0 -> Forall citem_ok cis -> forall n,
  fold_left (fun n kc => n + serialized_chunk_size (snd kc)) cs n = n + zlen (concat (map cbytes cis)).
Proof.
  intros f g0 cs H. induction H as [|[m ms] [k c] g0 cs [E [Hok S]] H IH]; intros Hn cis HP HC n; cbn [fold_left].
  - destruct cis; [|discriminate]. cbn [map concat]. rewrite zlen_nil. lia.
  - cbn [fst snd map] in *. subst k. inversion Hn; subst. unfold chunk_plan in HP. cbn [map filter snd fst] in HP.
    rewrite (serialized_size_ok _ _ _ _ Hok S) by auto. destruct (f m) as [|x l] eqn:EF.
    + cbn [emitted]. rewrite zlen_nil, Z.add_0_r. apply IH; auto.
    + destruct cis as [|ci cis]; [discriminate|]. cbn [map] in HP. inversion HP as [[P1 P2 P3 P4]].
      inversion HC as [|? ? HC1 HC2]; subst. rewrite (IH ltac:(auto) cis P4 HC2). cbn [map concat]. rewrite zlen_app.
      assert (E : c_cw ci = c).
      { destruct HC1 as [_ _ HC1]. unfold sealed in *. rewrite P3 in HC1. congruence. }
      replace (cbytes ci) with (chunk_bytes c) by (unfold cbytes; rewrite E; auto). rewrite P3. cbn [emitted]. lia.
Qed.
End Flush.
