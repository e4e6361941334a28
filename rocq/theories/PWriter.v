(** The writer refines the history of SHist.v. *)
From Verif Require Export PFlush.
Ltac Zify.zify_post_hook ::= idtac.

(** ** Names *)
Lemma same_name_eq : forall a b, same_name a b = true <-> a = b.
Proof. intros. unfold same_name. destruct (list_eq_dec Z.eq_dec a b); split; congruence. Qed.
Lemma same_name_refl : forall a, same_name a a = true.
Proof. intros. apply same_name_eq. auto. Qed.
Lemma same_name_neq : forall a b, a <> b -> same_name a b = false.
Proof. intros a b H. destruct (same_name a b) eqn:E; auto. apply same_name_eq in E. congruence. Qed.
Lemma same_name_str : forall a b, same_name a b = str_eqb a b.
Proof.
  intros. destruct (str_eqb a b) eqn:E; [apply same_name_eq, str_eqb_eq; auto|]. apply same_name_neq. intros ->.
  rewrite str_eqb_refl in E. discriminate.
Qed.

Lemma series_app : forall d m a b, series_of d m (a ++ b) = series_of d m a ++ series_of d m b.
Proof. intros. unfold series_of. rewrite filter_app, map_app. auto. Qed.
Lemma series_one : forall d m q, series_of d m [q] =
  if same_name (pt_device q) d && same_name (pt_name q) m then [(pt_time q, pt_value q)] else [].
Proof. intros. unfold series_of. cbn. destruct (same_name (pt_device q) d && same_name (pt_name q) m); auto. Qed.
Lemma series_same : forall d m t v, series_of d m [mkPoint d m t v] = [(t, v)].
Proof. intros. rewrite series_one. cbn. rewrite !same_name_refl. auto. Qed.
Lemma series_other : forall d m d' m' t v, (d', m') <> (d, m) -> series_of d' m' [mkPoint d m t v] = [].
Proof.
  intros. rewrite series_one. cbn. destruct (same_name d d') eqn:A; auto. destruct (same_name m m') eqn:B; auto.
  apply same_name_eq in A. apply same_name_eq in B. congruence.
Qed.
Lemma series_len : forall d m l, zlen (series_of d m l) <= zlen l.
Proof.
  intros. unfold series_of, zlen. rewrite map_length.
  assert (length (filter (fun q => same_name (pt_device q) d && same_name (pt_name q) m) l) <= length l)%nat; [|lia].
  induction l; cbn; [lia|]. destruct (same_name (pt_device a) d && same_name (pt_name a) m); cbn; lia.
Qed.
Lemma series_in : forall d m l tv, In tv (series_of d m l) <-> In (mkPoint d m (fst tv) (snd tv)) l.
Proof.
  intros d m l [t v]. unfold series_of. rewrite in_map_iff. cbn [fst snd]. split.
  - intros ([d' m' t' v'] & E & H). cbn in E. apply filter_In in H. cbn in H. destruct H as [H N]. apply andb_prop in N.
    destruct N as [N1 N2]. apply same_name_eq in N1. apply same_name_eq in N2. inversion E; subst. auto.
  - intros H. eexists. split; [|apply filter_In; split; [exact H|]]; cbn; auto. rewrite !same_name_refl. auto.
Qed.
Lemma series_nil : forall d m l, (forall q, In q l -> ~ (pt_device q = d /\ pt_name q = m)) -> series_of d m l = [].
Proof.
  intros d m l H. destruct (series_of d m l) as [|x r] eqn:E; auto. exfalso.
  assert (I : In x (series_of d m l)) by (rewrite E; left; auto). apply series_in in I. apply (H _ I). auto.
Qed.

(** ** Maps over keys *)
Definition sm_mapk {A B} (F : list Z -> A -> B) (m : smap A) : smap B := map (fun kv => (fst kv, F (fst kv) (snd kv))) m.
Lemma sm_insert_mapk : forall A B (F : list Z -> A -> B) k v m, sm_insert k (F k v) (sm_mapk F m) = sm_mapk F (sm_insert k v m).
Proof.
  induction m as [|[k' v'] m IH]; [reflexivity|]. cbn [sm_mapk map fst snd sm_insert]. destruct (str_cmp k k') eqn:E; cbn [map fst snd]; auto.
  - apply str_cmp_eq in E. subst. reflexivity.
  - f_equal. apply IH.
Qed.
Lemma sm_of_list_mapk : forall A B (F : list Z -> A -> B) l, sm_of_list (sm_mapk F l) = sm_mapk F (sm_of_list l).
Proof.
  intros. unfold sm_of_list. change (@nil (list Z * B)) with (sm_mapk F []). generalize (@nil (list Z * A)).
  induction l as [|[k v] l IH]; intros m; [reflexivity|]. cbn [sm_mapk map fold_left fst snd].
  rewrite sm_insert_mapk. apply IH.
Qed.
Lemma same_keys_mapk : forall A B (F : list Z -> A -> B) m, same_keys (fun k a b => b = F k a) m (sm_mapk F m).
Proof. intros. induction m as [|[k v] m IH]; constructor; cbn; auto. Qed.

(** ** Declarations *)
Definition decls (sc : schema) : smap (smap mschema) := sm_of_list (sm_mapk (fun _ g => sm_of_list g) sc).
Lemma decls_sorted : forall sc, sorted (decls sc).
Proof. intros. apply sm_of_list_sorted. Qed.
Lemma decls_get : forall sc d g0, schema_ok sc -> (sm_get d (decls sc) = Some g0 <-> exists g, In (d, g) sc /\ g0 = sm_of_list g).
Proof.
  intros sc d g0 [N _]. unfold decls. rewrite sm_of_list_mapk.
  assert (E : forall d, sm_get d (sm_mapk (fun _ g => sm_of_list g) (sm_of_list sc)) =
    match sm_get d (sm_of_list sc) with Some g => Some (sm_of_list g) | None => None end).
  { clear. intros d. induction (sm_of_list sc) as [|[k v] m IH]; [reflexivity|]. cbn [sm_mapk map sm_get fst snd].
    destruct (str_eqb d k); auto. }
  rewrite E. split.
  - destruct (sm_get d (sm_of_list sc)) as [g|] eqn:G; [|discriminate]. intros X. inversion X; subst.
    apply sm_of_list_nodup in G; auto. eauto.
  - intros (g & I & ->). apply (sm_of_list_nodup _ d g sc N) in I. rewrite I. auto.
Qed.
Lemma declares_get : forall sc d m ms, schema_ok sc ->
  (declares sc d m ms <-> exists g0, sm_get d (decls sc) = Some g0 /\ sm_get m g0 = Some ms).
Proof.
  intros sc d m ms Hs. split.
  - intros (g & I & J). exists (sm_of_list g). split; [apply decls_get; eauto|]. apply sm_of_list_nodup; auto.
    destruct Hs as [_ F]. rewrite Forall_forall in F. apply F in I. apply I.
  - intros (g0 & A & B). apply decls_get in A; auto. destruct A as (g & I & ->). exists g. split; auto.
    apply sm_of_list_nodup in B; auto. destruct Hs as [_ F]. rewrite Forall_forall in F. apply F in I. apply I.
Qed.
Lemma decls_inner_sorted : forall sc d g0, schema_ok sc -> sm_get d (decls sc) = Some g0 -> sorted g0.
Proof. intros sc d g0 H G. apply decls_get in G; auto. destruct G as (g & _ & ->). apply sm_of_list_sorted. Qed.
Lemma declares_fun : forall sc d m a b, schema_ok sc -> declares sc d m a -> declares sc d m b -> a = b.
Proof.
  intros sc d m a b Hs A B. apply declares_get in A; auto. apply declares_get in B; auto.
  destruct A as (g & A1 & A2). destruct B as (g' & B1 & B2). congruence.
Qed.
Lemma is_declared_iff : forall sc d m, is_declared sc d m = true <-> exists ms, declares sc d m ms.
Proof.
  intros. unfold is_declared, declares. rewrite existsb_exists. split.
  - intros ([d' g] & I & H). apply andb_prop in H. destruct H as [H1 H2]. apply same_name_eq in H1.
    apply existsb_exists in H2. destruct H2 as ([m' ms] & J & H2). apply same_name_eq in H2. cbn in *. subst. eauto.
  - intros (ms & g & I & J). exists (d, g). split; auto. cbn. rewrite same_name_refl. apply existsb_exists.
    exists (m, ms). cbn. rewrite same_name_refl. auto.
Qed.
Lemma has_device_iff : forall sc d, schema_ok sc -> has_device sc d = true <-> exists g0, sm_get d (decls sc) = Some g0.
Proof.
  intros sc d Hs. unfold has_device. rewrite existsb_exists. split.
  - intros ([d' g] & I & H). apply same_name_eq in H. cbn in H. subst. exists (sm_of_list g). apply decls_get; eauto.
  - intros (g0 & G). apply decls_get in G; auto. destruct G as (g & I & _). exists (d, g). cbn. rewrite same_name_refl. auto.
Qed.
Lemma groups_of_decls : forall sc, groups_of sc = sm_mapk (fun _ g0 => mkGW (sm_mapk new_chunk g0) []) (decls sc).
Proof.
  intros. unfold groups_of, decls. rewrite <- sm_of_list_mapk. f_equal. unfold sm_mapk. rewrite map_map. apply map_ext.
  intros [d g]. cbn [fst snd]. f_equal. unfold group_of. f_equal. apply (sm_of_list_mapk _ _ new_chunk g).
Qed.
Lemma decls_names : forall sc, schema_ok sc -> Forall (fun dg => zlen (fst dg) < 2 ^ 31 /\
  Forall (fun m => zlen m < 2 ^ 31) (map fst (snd dg))) (decls sc).
Proof.
  intros sc Hs. apply Forall_forall. intros [d g0] I. apply in_sm_get in I; [|apply decls_sorted].
  apply decls_get in I; auto. destruct I as (g & I & ->). destruct Hs as [_ F]. rewrite Forall_forall in F. apply F in I.
  cbn [fst snd] in *. destruct I as (A & B & C). split; auto. apply Forall_forall. intros m Hm.
  apply in_map_iff in Hm. destruct Hm as ([m' ms] & <- & Hm). apply in_sm_get in Hm; [|apply sm_of_list_sorted].
  apply sm_of_list_nodup in Hm; auto. rewrite Forall_forall in C. apply (C _ Hm).
Qed.

(** ** Chunk groups on a healthy sink *)
Inductive item := GItem (d : list Z) (cs : list citem) | Raw (bs : list Z).
Definition ghead (d : list Z) : list Z := wbytes (chunk_group_header d).
Definition item_bytes (it : item) : list Z :=
  match it with GItem d cs => ghead d ++ concat (map cbytes cs) | Raw bs => bs end.
Definition file_of (its : list item) : list Z := concat (map item_bytes its).
Definition imetas (off : Z) (it : item) : list (list Z * list chunk_meta) :=
  match it with
  | GItem d cs => match cs with [] => [] | _ => [(d, cmetas (off + zlen (ghead d)) cs)] end
  | Raw _ => []
  end.
Fixpoint metas (off : Z) (its : list item) : list (list Z * list chunk_meta) :=
  match its with
  | [] => []
  | it :: r => imetas off it ++ metas (off + zlen (item_bytes it)) r
  end.
Lemma metas_app : forall a b off, metas off (a ++ b) = metas off a ++ metas (off + zlen (file_of a)) b.
Proof.
  induction a as [|it a IH]; intros b off; cbn [metas app].
  - unfold file_of. cbn [map concat]. rewrite zlen_nil, Z.add_0_r. auto.
  - rewrite IH, app_assoc. unfold file_of. cbn [map concat]. rewrite zlen_app, Z.add_assoc. auto.
Qed.
Lemma file_of_app : forall a b, file_of (a ++ b) = file_of a ++ file_of b.
Proof. intros. unfold file_of. rewrite map_app, concat_app. auto. Qed.
Definition is_group (it : item) : Prop := match it with GItem _ _ => True | Raw _ => False end.
(** points of a series in an item *)
Definition cseries (m : list Z) (cs : list citem) : list (Z * value) :=
  concat (map c_pts (filter (fun c => same_name (c_name c) m) cs)).
Definition iseries (d m : list Z) (it : item) : list (Z * value) :=
  match it with GItem d' cs => if same_name d' d then cseries m cs else [] | Raw _ => [] end.
Definition its_series (d m : list Z) (its : list item) : list (Z * value) := concat (map (iseries d m) its).
Lemma its_series_app : forall d m a b, its_series d m (a ++ b) = its_series d m a ++ its_series d m b.
Proof. intros. unfold its_series. rewrite map_app, concat_app. auto. Qed.

Section Writer.
Variable p : profile.
Variable snap decomp : list Z -> option (list Z).
Hypothesis HG : good_snap snap decomp.

Definition gchunks (f : list Z -> list (Z * value)) : smap mschema -> smap chunk_writer -> Prop :=
  same_keys (fun m ms c => pts_ok ms (f m) /\ open_chunk p snap m ms (f m) c).

Lemma flush_group_ok : forall f g0 g io g' io' n, gchunks f g0 (gw_chunks g) ->
  Forall (fun m => zlen m < 2 ^ 31) (map fst g0) -> is_healthy (io_out io) ->
  flush_to_filewriter p snap g io = Ret (g', io', n) ->
  exists cis, Forall (citem_ok p snap) cis /\ map plan_of cis = chunk_plan f g0 /\
    sk_ext (io_out io) (io_out io') (concat (map cbytes cis)) /\ n = zlen (concat (map cbytes cis)) /\
    io_device io' = io_device io /\ io_groups io' = io_groups io /\ io_tsmeta io' = io_tsmeta io /\
    io_chunks io' = io_chunks io ++ cmetas (sk_pos (io_out io)) cis /\
    (io_current io = None -> io_current io' = None).
Proof.
  intros f g0 g io g' io' n HC Hn Hh H. unfold flush_to_filewriter in H. apply bind_ret in H. destruct H as (cs & H1 & H).
  apply bind_ret in H. destruct H as ([cs2 io2] & H2 & H). apply ret_inj in H. apply pair3 in H. destruct H as (_ & <- & <-).
  cbn [snd]. pose proof (seal_all_ok _ _ _ _ _ HC _ H1) as S.
  destruct (flush_chunks_ok p snap decomp HG _ _ _ S _ _ _ Hh H2) as (cis & K1 & K2 & K3 & K4 & K5 & K6 & K7 & K8).
  exists cis. unfold chunk_group_size. rewrite (group_size_gen p snap decomp HG _ _ _ S Hn cis K2 K1 0). auto 12.
Qed.

Definition item_plan (F : list Z -> list Z -> list (Z * value)) (dg : list Z * smap mschema) (it : item) : Prop :=
  exists cs, it = GItem (fst dg) cs /\ Forall (citem_ok p snap) cs /\ map plan_of cs = chunk_plan (F (fst dg)) (snd dg).

Lemma flush_groups_ok : forall F G0 gs, same_keys (fun d g0 g => gchunks (F d) g0 (gw_chunks g)) G0 gs ->
  Forall (fun dg => zlen (fst dg) < 2 ^ 31 /\ Forall (fun m => zlen m < 2 ^ 31) (map fst (snd dg))) G0 ->
  forall io gs' io' e, is_healthy (io_out io) -> io_current io = None ->
  flush_groups p snap gs io = Ret (gs', io', e) ->
  e = None /\ exists its, Forall2 (item_plan F) G0 its /\
    sk_ext (io_out io) (io_out io') (file_of its) /\ io_groups io' = io_groups io ++ metas (sk_pos (io_out io)) its /\
    io_tsmeta io' = io_tsmeta io /\ io_current io' = None.
Proof.
  intros F G0 gs H. induction H as [|[d g0] [k g] G0 gs [E HC] H IH]; intros Hn io gs' io' e Hh Hc FL; cbn [flush_groups] in FL.
  - apply ret_inj in FL. apply pair3 in FL. destruct FL as (_ & <- & <-). split; auto. exists []. unfold file_of. cbn.
    rewrite app_nil_r. split; [constructor|]. split; [apply sk_ext_refl|auto].
  - cbn [fst snd] in *. subst k. inversion Hn as [|? ? [Hd Hm] Hn']; subst. cbn [fst snd] in *.
    destruct (wexec_healthy (chunk_group_header d) _ Hh) as (o1 & W & X0). unfold start_chunk_group in FL. rewrite W in FL.
    apply bind_ret in FL. destruct FL as ([[g1 io1] n] & F1 & FL).
    assert (Hh1 : is_healthy o1) by (eapply sk_ext_healthy; eauto).
    pose proof (fun X => flush_group_ok (F d) g0 g _ _ _ _ HC Hm X F1) as K. cbn [io_out] in K. destruct (K Hh1) as (cis & K1 & K2 & K3 & K4 & K5 & K6 & K7 & K8 & K9).
    cbn [io_out io_device io_chunks io_current io_groups io_tsmeta] in *.
    assert (Z1 : (sk_pos (io_out io1) - sk_pos o1 =? n) = true).
    { apply Z.eqb_eq. rewrite (se_pos _ _ _ K3). subst n. lia. }
    rewrite Z1 in FL. cbn [negb] in FL. apply bind_ret in FL. destruct FL as ([[gs2 io2] e2] & F2 & FL).
    apply ret_inj in FL. apply pair3 in FL. destruct FL as (_ & <- & <-).
    pose proof (sk_ext_trans _ _ _ _ _ X0 K3) as X1.
    assert (IO : io_out (end_chunk_group io1) = io_out io1) by apply end_chunk_group_out.
    assert (IC : io_current (end_chunk_group io1) = None).
    { unfold end_chunk_group. rewrite K5. destruct (io_chunks io1); cbn; auto. }
    assert (IT : io_tsmeta (end_chunk_group io1) = io_tsmeta io).
    { unfold end_chunk_group. rewrite K5. destruct (io_chunks io1); cbn; auto. }
    assert (IG : io_groups (end_chunk_group io1) = io_groups io ++ imetas (sk_pos (io_out io)) (GItem d cis)).
    { unfold end_chunk_group. rewrite K5. rewrite K8. cbn [app imetas]. rewrite (se_pos _ _ _ X0). fold (ghead d).
      destruct cis; cbn [cmetas io_groups]; [rewrite app_nil_r|]; rewrite K6; auto. }
    destruct (IH Hn' (end_chunk_group io1) gs2 io2 e2) as (E2 & its & J1 & J2 & J3 & J4 & J5); auto.
    { rewrite IO. eapply sk_ext_healthy; eauto. }
    split; auto. exists (GItem d cis :: its). rewrite IO in J2, J3. split.
    + constructor; auto. exists cis. auto.
    + split; [exact (sk_ext_trans _ _ _ _ _ X1 J2)|]. split; [|split; [congruence|auto]].
      rewrite J3, IG, (se_pos _ _ _ X1), <- app_assoc. reflexivity.
Qed.

(** ** Single writes into a group *)
Definition lastd (m : list Z) (l : smap Z) : Z := match sm_get m l with Some x => x | None => -1 end.
Definition ginv (f : list Z -> list (Z * value)) (g0 : smap mschema) (g : group_writer) : Prop :=
  gchunks f g0 (gw_chunks g) /\ forall m, lastd m (gw_last g) = last (map fst (f m)) (-1).
Lemma ginv_ext : forall f f' g0 g, (forall m, f m = f' m) -> ginv f g0 g -> ginv f' g0 g.
Proof.
  intros f f' g0 g E [A B]. split.
  - eapply same_keys_impl; [exact A|]. cbn. intros k a b. rewrite E. auto.
  - intros m. rewrite <- E. auto.
Qed.
Lemma lastd_insert : forall m k x l, lastd m (sm_insert k x l) = if str_eqb m k then x else lastd m l.
Proof. intros. unfold lastd. rewrite sm_get_insert. destruct (str_eqb m k); auto. Qed.
Lemma check_history : forall m t l, exists l', check_is_history_data m t l = (l', lastd m l <? t) /\ forall k, lastd k l' = lastd k l.
Proof.
  intros. unfold check_is_history_data. destruct (sm_get m l) as [x|] eqn:E.
  - rewrite E. exists l. split; auto. unfold lastd. rewrite E. f_equal. destruct (t <=? x) eqn:A, (x <? t) eqn:B; auto; lia.
  - rewrite sm_get_same. exists (sm_insert m (-1) l). split.
    + unfold lastd. rewrite E. f_equal. destruct (t <=? -1) eqn:A, (-1 <? t) eqn:B; auto; lia.
    + intros k. rewrite lastd_insert. destruct (str_eqb k m) eqn:A; auto. apply str_eqb_eq in A. subst. unfold lastd. rewrite E. auto.
Qed.
Lemma run_inv : forall m ms pts c, pts_ok ms pts -> open_chunk p snap m ms pts c ->
  exists pages ims cur, chunk_inv p decomp m (ms_type ms) (ms_comp ms) (ms_enc ms) c pages ims cur /\ zlen cur <= 1048576 /\
    concat pages ++ cur = pts.
Proof.
  intros m ms pts c [A B] H. unfold open_chunk, new_chunk in H.
  destruct (cw_run_ok p snap decomp HG m (ms_type ms) (ms_comp ms) (ms_enc ms) pts _ [] [] [] c (chunk_inv_new p decomp _ _ _ _)) as (pg & im & cu & I & L & E); auto.
  - rewrite zlen_nil. lia.
  - eauto 8.
Qed.
Lemma cw_write_typed : forall m ms pts c t v c', pts_ok ms pts -> open_chunk p snap m ms pts c -> value_machine v ->
  cw_write p snap t v c = Ret (inl c') -> value_ok (ms_type ms) v.
Proof.
  intros m ms pts c t v c' Hok Ho Hv H. destruct (run_inv _ _ _ _ Hok Ho) as (pg & im & cu & I & _ & E).
  unfold cw_write in H.
  set (x := match cw_page c with Some pw => inl pw | None => pw_new (cw_type c) (cw_enc c) end) in H.
  destruct x as [pw|err] eqn:M; [|apply ret_inj in H; discriminate].
  pose proof (ci_cur _ _ _ _ _ _ _ _ _ _ I) as IC.
  assert (PS : page_state p (ms_type ms) (ms_enc ms) cu pw).
  { unfold x in M. destruct (cw_page c).
    - inversion M; subst. exact IC.
    - destruct IC as [-> _]. rewrite (ci_type _ _ _ _ _ _ _ _ _ _ I), (ci_enc _ _ _ _ _ _ _ _ _ _ I) in M. apply page_state_new; auto. }
  apply bind_ret in H. destruct H as (pw' & Hw & _). unfold pw_write in Hw.
  apply bind_ret in Hw. destruct Hw as (te & _ & Hw). apply bind_ret in Hw. destruct Hw as (ve & _ & Hw).
  apply bind_ret in Hw. destruct Hw as (st & Hst & _).
  assert (T : st_type (pw_stats pw) = ms_type ms).
  { eapply page_stats_type; [|exact (ps_stats _ _ _ _ _ PS)]. reflexivity. }
  unfold stats_update in Hst. rewrite T in Hst. unfold value_ok. destruct (ms_type ms), v; try discriminate; exact Hv.
Qed.
Lemma open_snoc : forall m ms pts c t v c', open_chunk p snap m ms pts c -> cw_write p snap t v c = Ret (inl c') ->
  open_chunk p snap m ms (pts ++ [(t, v)]) c'.
Proof. intros m ms pts c t v c' H W. unfold open_chunk in *. rewrite cw_run_snoc, H. cbn [bind fst snd]. auto. Qed.
Lemma last_snoc : forall A (l : list A) x d, last (l ++ [x]) d = x.
Proof. induction l; intros; cbn; auto. destruct (l ++ [x]) eqn:E; [destruct l; discriminate|]. rewrite <- E. auto. Qed.

Lemma gw_write_ok : forall f g0 g m t v g' e, ginv f g0 g -> sorted g0 -> i64_min <= t <= i64_max -> value_machine v ->
  zlen (f m) + 1 < 2 ^ 32 -> gw_write p snap m t v g = Ret (g', e) ->
  if last (map fst (f m)) (-1) <? t then
    match sm_get m g0 with
    | Some ms => e = None /\ value_ok (ms_type ms) v /\
        ginv (fun m' => if str_eqb m' m then f m' ++ [(t, v)] else f m') g0 g'
    | None => (exists s, e = Some (EIllegalState s)) /\ ginv f g0 g'
    end
  else e = Some EOutOfOrderData /\ ginv f g0 g'.
Proof.
  intros f g0 g m t v g' e [A B] S0 Ht Hv Hl H. unfold gw_write in H.
  destruct (check_history m t (gw_last g)) as (l' & E & L). rewrite E in H. rewrite <- (B m).
  destruct (lastd m (gw_last g) <? t).
  - pose proof (same_keys_get _ _ _ _ _ m A) as SK. cbn in SK. destruct (sm_get m g0) as [ms|] eqn:G0; destruct (sm_get m (gw_chunks g)) as [c|] eqn:GC; try tauto.
    + apply bind_ret in H. destruct H as ([c'|err] & W & H); [|discriminate]. rinj H.
      destruct SK as [Hok Ho]. pose proof (cw_write_typed _ _ _ _ _ _ _ Hok Ho Hv W) as V.
      split; auto. split; auto. split; cbn [gw_chunks gw_last].
      * eapply same_keys_insert; [exact A| |exact G0| |].
        -- unfold sorted. rewrite <- (same_keys_fst _ _ _ _ _ A). exact S0.
        -- cbn. rewrite str_eqb_refl. split; [|eapply open_snoc; eauto]. destruct Hok as [O1 O2]. split.
           ++ apply Forall_app. split; auto.
           ++ rewrite zlen_app, zlen_cons, zlen_nil. lia.
        -- cbn. intros k a b N. rewrite str_eqb_neq by auto. auto.
      * intros k. rewrite lastd_insert. destruct (str_eqb k m) eqn:K.
        -- rewrite map_app. cbn [map fst]. rewrite last_snoc. auto.
        -- rewrite L. auto.
    + rinj H. split; [eauto|]. split; cbn [gw_chunks gw_last]; auto. intros k. rewrite L. auto.
  - rinj H. split; auto. split; cbn [gw_chunks gw_last]; auto. intros k. rewrite L. auto.
Qed.
End Writer.
