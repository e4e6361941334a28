(** The invariant of reachable writer states on a healthy sink, and its preservation by every call. *)
From Verif Require Export PWriter.
Ltac Zify.zify_post_hook ::= idtac.

Section Refine.
Variable p : profile.
Variable snap decomp : list Z -> option (list Z).
Hypothesis HG : good_snap snap decomp.
Variable sc : schema.
Hypothesis Hsc : schema_ok sc.

Definition recent (h : hist) (d m : list Z) : list (Z * value) := series_of d m (h_recent h).

(** an item of the file belongs to declared series *)
Definition item_ok (it : item) : Prop :=
  match it with
  | GItem d cs => exists g0, sm_get d (decls sc) = Some g0 /\
      Forall (fun c => citem_ok p snap c /\ sm_get (c_name c) g0 = Some (c_ms c)) cs
  | Raw _ => True
  end.

Record winv (h : hist) (its : list item) (w : writer) : Prop := {
  wi_schema : w_schema w = sc;
  wi_healthy : is_healthy (io_out (w_io w));
  wi_pos : sk_pos (io_out (w_io w)) = zlen (file_bytes w);
  wi_data : file_bytes w = MAGIC ++ [3] ++ file_of its;
  wi_cur : io_current (w_io w) = None;
  wi_metas : io_groups (w_io w) = metas 7 its;
  wi_items : Forall item_ok its;
  wi_series : forall d m, its_series d m its = series_of d m (h_flushed h);
  wi_groups : same_keys (fun d g0 g => ginv p snap (recent h d) g0 g) (decls sc) (w_groups w);
  wi_records : w_records w = h_counted h;
  wi_counted : 0 <= h_counted h <= zlen (h_recent h);
  wi_points : Forall (point_ok sc) (h_all h);
  wi_tsmeta : Forall is_group its -> io_tsmeta (w_io w) = [] }.

(** ** Fresh groups *)
Lemma fresh_groups : same_keys (fun d g0 g => ginv p snap (fun _ => []) g0 g) (decls sc) (groups_of sc).
Proof.
  rewrite groups_of_decls. eapply same_keys_impl; [apply same_keys_mapk|]. cbn. intros d g0 g ->. split; cbn [gw_chunks gw_last].
  - eapply same_keys_impl; [apply same_keys_mapk|]. cbn. intros m ms c ->. split; [split; [constructor|rewrite zlen_nil; lia]|].
    reflexivity.
  - intros m. reflexivity.
Qed.
Lemma winv_new : forall out w, writer_new sc (sink_new healthy) = (out, Some w) -> winv h_new [] w.
Proof.
  intros out w H. unfold writer_new, io_new in H.
  destruct (wexec_healthy (WThen (WAll MAGIC) (WThen (WAll [3]) WNil)) (sink_new healthy) healthy_new) as (s & E & X).
  rewrite E in H. inversion H; subst. clear H. pose proof (sk_ext_healthy _ _ _ X healthy_new) as HH. destruct X as [X1 X2 X3 X4].
  split; cbn [w_schema w_io io_out io_current io_groups w_groups w_records h_new h_flushed h_recent h_counted io_tsmeta]; auto.
  - unfold file_bytes. cbn [w_io io_out]. rewrite X1, X2. reflexivity.
  - exact fresh_groups.
  - rewrite zlen_nil. lia.
  - constructor.
Qed.

(** ** Points of a flush *)
Lemma citem_plan : forall f g0 cs, map plan_of cs = chunk_plan f g0 -> sorted g0 ->
  Forall (fun c => sm_get (c_name c) g0 = Some (c_ms c) /\ c_pts c = f (c_name c)) cs /\
  (forall m, cseries m cs = match sm_get m g0 with Some _ => f m | None => [] end).
Proof.
  intros f g0. induction g0 as [|[k ms] g0 IH]; intros cs H S.
  - destruct cs; [|discriminate]. split; [constructor|reflexivity].
  - pose proof (sorted_cons _ _ _ _ S) as [S' L]. unfold chunk_plan in H. cbn [map filter fst snd] in H.
    assert (NK : forall c, sm_get (c_name c) g0 = Some (c_ms c) -> str_eqb (c_name c) k = false).
    { intros c G. apply str_eqb_neq. intros X. rewrite X in G. apply sm_get_in in G. apply (in_map fst) in G. rewrite Forall_forall in L.
      apply L in G. apply (str_lt_irrefl _ G). }
    assert (NS : sm_get k g0 = None).
    { apply sm_get_none. intros G. rewrite Forall_forall in L. apply L in G. apply (str_lt_irrefl _ G). }
    destruct (f k) as [|x l] eqn:EF.
    + destruct (IH cs H S') as [A B]. split.
      * eapply Forall_impl; [|exact A]. cbn beta. intros c [C1 C2]. split; auto. cbn [sm_get]. rewrite (NK _ C1). auto.
      * intros m. rewrite B. cbn [sm_get]. destruct (str_eqb m k) eqn:E; auto. apply str_eqb_eq in E. subst m.
        rewrite NS. auto.
    + destruct cs as [|c cs]; [discriminate|]. cbn [map] in H. injection H as P1 P2 P3 P4.
      destruct (IH cs P4 S') as [A B]. split.
      * constructor.
        -- cbn [sm_get]. rewrite P1, str_eqb_refl, P2, EF. auto.
        -- eapply Forall_impl; [|exact A]. cbn beta. intros c' [C1 C2]. split; auto. cbn [sm_get]. rewrite (NK _ C1). auto.
      * intros m. unfold cseries. cbn [filter]. rewrite same_name_str, P1. cbn [sm_get]. destruct (str_eqb m k) eqn:E.
        -- apply str_eqb_eq in E. subst m. rewrite str_eqb_refl. cbn [map concat].
           fold (cseries k cs). rewrite B, NS, P3, app_nil_r, EF. auto.
        -- assert (str_eqb k m = false) as ->.
           { apply str_eqb_neq. intros ->. rewrite str_eqb_refl in E. discriminate. }
           fold (cseries m cs). apply B.
Qed.
Lemma items_plan : forall F (G0 : smap (smap mschema)) its, Forall2 (item_plan p snap F) G0 its -> sorted G0 ->
  (forall d g0, sm_get d G0 = Some g0 -> sorted g0) ->
  Forall (fun it => match it with
    | GItem d cs => exists g0, sm_get d G0 = Some g0 /\ Forall (fun c => citem_ok p snap c /\ sm_get (c_name c) g0 = Some (c_ms c)) cs
    | Raw _ => False end) its /\
  (forall d m, its_series d m its = match sm_get d G0 with
    | Some g0 => match sm_get m g0 with Some _ => F d m | None => [] end
    | None => [] end).
Proof.
  intros F G0 its H. induction H as [|[d g0] it G0 its (cs & E & K1 & K2) H IH]; intros S SI.
  - split; [constructor|reflexivity].
  - cbn [fst snd] in *. subst it. pose proof (sorted_cons _ _ _ _ S) as [S' L].
    assert (NS : sm_get d G0 = None).
    { apply sm_get_none. intros G. rewrite Forall_forall in L. apply L in G. apply (str_lt_irrefl _ G). }
    assert (Sg : sorted g0) by (apply (SI d); cbn [sm_get]; rewrite str_eqb_refl; auto).
    assert (EX : forall d' g, sm_get d' G0 = Some g -> sm_get d' ((d, g0) :: G0) = Some g).
    { intros d' g G. cbn [sm_get]. destruct (str_eqb d' d) eqn:E; auto. apply str_eqb_eq in E. congruence. }
    destruct (IH S') as [A B]. { intros d' g G. apply (SI d'). auto. }
    destruct (citem_plan _ _ _ K2 Sg) as [C D]. split.
    + constructor.
      * exists g0. split; [cbn [sm_get]; rewrite str_eqb_refl; auto|]. rewrite Forall_forall in *. intros c Hc. split; auto. apply C; auto.
      * eapply Forall_impl; [|exact A]. cbn beta. intros [d' cs'|]; auto. intros (g & G1 & G2). exists g. auto.
    + intros d' m. unfold its_series in *. cbn [map concat iseries]. rewrite B. cbn [sm_get]. rewrite same_name_str.
      destruct (str_eqb d' d) eqn:E.
      * apply str_eqb_eq in E. subst d'. rewrite str_eqb_refl, NS, app_nil_r. apply D.
      * assert (str_eqb d d' = false) as ->; auto. apply str_eqb_neq. intros ->. rewrite str_eqb_refl in E. discriminate.
Qed.
Lemma undeclared_series : forall h d m, Forall (point_ok sc) (h_recent h) ->
  match sm_get d (decls sc) with Some g0 => match sm_get m g0 with Some _ => recent h d m | None => [] end | None => [] end = recent h d m.
Proof.
  intros h d m H. destruct (recent h d m) as [|[t v] r] eqn:E; [destruct (sm_get d (decls sc)) as [g0|]; [destruct (sm_get m g0)|]; auto|].
  assert (I : In (t, v) (recent h d m)) by (rewrite E; left; auto). apply series_in in I. rewrite Forall_forall in H. apply H in I.
  destruct I as (ms & D & _). apply declares_get in D; auto. destruct D as (g0 & D1 & D2). cbn in D1, D2. rewrite D1, D2. auto.
Qed.

(** ** Flush *)
Definition set_next (n : Z) (w : writer) : writer := mkW (w_io w) (w_groups w) (w_records w) n (w_schema w).
Lemma winv_set_next : forall h its w n, winv h its w -> winv h its (set_next n w).
Proof. intros h its w n I. destruct I. split; auto. Qed.

Lemma flush_all_ok : forall h its w w' e, winv h its w -> flush_all p snap w = Ret (w', e) ->
  e = None /\
  if 0 <? h_counted h then exists new, winv (h_flush h) (its ++ new) w' /\ Forall is_group new /\
      grew w w' = true /\ w_next_check w' = w_next_check w /\
      Forall2 (item_plan p snap (recent h)) (decls sc) new /\ w_groups w' = groups_of sc
  else w' = w.
Proof.
  intros h its w w' e I H. unfold flush_all in H. rewrite (wi_records _ _ _ I) in H.
  replace (h_counted h >? 0) with (0 <? h_counted h) in H by (rewrite Z.gtb_ltb; auto).
  destruct (0 <? h_counted h) eqn:C; [|rinj H; auto].
  apply bind_ret in H. destruct H as ([[gs io] e1] & F & H).
  assert (SK : same_keys (fun d g0 g => gchunks p snap (recent h d) g0 (gw_chunks g)) (decls sc) (w_groups w)).
  { eapply same_keys_impl; [apply (wi_groups _ _ _ I)|]. cbn. intros d g0 g [A _]. exact A. }
  destruct (flush_groups_ok p snap decomp HG _ _ _ SK (decls_names _ Hsc) _ _ _ _ (wi_healthy _ _ _ I) (wi_cur _ _ _ I) F)
    as (-> & new & N1 & N2 & N3 & N4 & N5).
  rinj H. split; auto. exists new.
  destruct (items_plan _ _ _ N1 (decls_sorted sc) (fun d g0 => decls_inner_sorted sc d g0 Hsc)) as [P1 P2].
  assert (GR : Forall is_group new).
  { eapply Forall_impl; [|exact P1]. intros [d cs|bs]; cbn; tauto. }
  assert (FB : file_bytes (writer_reset (mkW io gs (h_counted h) (w_next_check w) (w_schema w))) = file_bytes w ++ file_of new).
  { unfold file_bytes. cbn [writer_reset w_io]. apply N2. }
  pose proof (wi_points _ _ _ I) as WP. unfold h_all in WP. apply Forall_app in WP. destruct WP as [WP1 WP2].
  split; [|split; [auto|split; [|auto]]].
  - split; cbn [writer_reset w_schema w_io w_records w_groups w_next_check h_flush h_flushed h_recent h_counted].
    + apply I.
    + eapply sk_ext_healthy; [exact N2|apply I].
    + rewrite FB, zlen_app, <- (wi_pos _ _ _ I). apply N2.
    + rewrite FB, (wi_data _ _ _ I), <- !app_assoc, file_of_app. auto.
    + auto.
    + rewrite N3, (wi_metas _ _ _ I), metas_app. f_equal. f_equal. rewrite (wi_pos _ _ _ I), (wi_data _ _ _ I), !zlen_app. change (zlen MAGIC) with 6. change (zlen [3]) with 1. lia.
    + apply Forall_app. split; [apply I|]. eapply Forall_impl; [|exact P1]. intros [d cs|bs]; cbn; auto.
    + intros d m. rewrite its_series_app, series_app, (wi_series _ _ _ I), P2. f_equal. apply undeclared_series. auto.
    + rewrite (wi_schema _ _ _ I). exact fresh_groups.
    + auto.
    + rewrite zlen_nil. lia.
    + unfold h_all. cbn [h_flushed h_recent]. rewrite app_nil_r. apply Forall_app; auto.
    + intros G. rewrite N4. apply I. apply Forall_app in G. tauto.
  - unfold grew. rewrite FB, zlen_app. apply Z.ltb_lt.
    assert (0 < zlen (file_of new)); [|lia].
    pose proof (wi_counted _ _ _ I) as WC. assert (R : h_recent h <> []).
    { intros R. rewrite R, zlen_nil in WC. apply Z.ltb_lt in C. lia. }
    destruct (h_recent h) as [|q r]; [congruence|]. inversion WP2 as [|? ? (ms & D & _) _]; subst.
    apply declares_get in D; auto. destruct D as (g0 & D & _). destruct (decls sc) as [|[d1 g1] G]; [discriminate|].
    inversion N1 as [|? it ? its' (cs & -> & _) N1']; subst. unfold file_of. cbn [map concat item_bytes fst].
    rewrite !zlen_app. unfold ghead. cbn [chunk_group_header wbytes]. cbn [app]. rewrite zlen_cons.
    match goal with |- context [zlen (concat (map item_bytes its'))] => pose proof (zlen_nonneg _ (concat (map item_bytes its'))) end.
    match goal with |- context [zlen (concat (map cbytes cs))] => pose proof (zlen_nonneg _ (concat (map cbytes cs))) end.
    match goal with |- context [1 + zlen ?x] => pose proof (zlen_nonneg _ x) | |- context [zlen ?x + 1] => pose proof (zlen_nonneg _ x) | _ => idtac end.
    lia.
  - cbn [writer_reset w_groups w_next_check w_schema]. rewrite (wi_schema _ _ _ I). auto.
Qed.

Lemma check_memory_ok : forall h its w w', winv h its w -> check_memory p snap w = Ret w' ->
  (exists n, w' = set_next n w) \/
  (0 <? h_counted h = true /\ exists new, winv (h_flush h) (its ++ new) w' /\ Forall is_group new /\ grew w w' = true /\
     Forall2 (item_plan p snap (recent h)) (decls sc) new).
Proof.
  intros h its w w' I H. unfold check_memory in H.
  assert (SN : exists n, w = set_next n w) by (exists (w_next_check w); destruct w; auto).
  destruct (w_records w >=? w_next_check w); [|rinj H; auto].
  apply bind_ret in H. destruct H as (mem & _ & H). destruct (mem =? 0); [discriminate|].
  match type of H with context [mkW _ _ _ ?n _] => set (nx := n) in H end. fold (set_next nx w) in H.
  destruct (mem >? _); [|rinj H; eauto].
  apply bind_ret in H. destruct H as ([w1 e] & F & H). rinj H. cbn [fst].
  apply flush_all_ok with (h := h) (its := its) in F; [|apply winv_set_next; auto].
  destruct F as (-> & F). destruct (0 <? h_counted h) eqn:C.
  - right. split; auto. destruct F as (new & F1 & F2 & F3 & F4 & F5 & F6). exists new. auto.
  - left. exists nx. subst w1. auto.
Qed.

(** ** Writes *)
Definition with_group (d : list Z) (g : group_writer) (w : writer) : writer :=
  mkW (w_io w) (sm_insert d g (w_groups w)) (w_records w) (w_next_check w) (w_schema w).
Definition with_records (n : Z) (w : writer) : writer :=
  mkW (w_io w) (w_groups w) n (w_next_check w) (w_schema w).

Lemma recent_store : forall h q d m, recent (h_store q h) d m = recent h d m ++ series_of d m [q].
Proof. intros. unfold recent, h_store. cbn [h_recent]. apply series_app. Qed.
Lemma recent_len : forall h d m, zlen (recent h d m) <= zlen (h_all h).
Proof.
  intros. unfold recent, h_all. pose proof (series_len d m (h_recent h)). rewrite zlen_app. pose proof (zlen_nonneg _ (h_flushed h)). lia.
Qed.
(** replacing the group of a device *)
Lemma winv_group : forall h h' its w d g g0, winv h its w -> sm_get d (decls sc) = Some g0 ->
  ginv p snap (recent h' d) g0 g -> (forall d' m, d' <> d -> recent h' d' m = recent h d' m) ->
  h_flushed h' = h_flushed h -> h_counted h' = h_counted h -> zlen (h_recent h) <= zlen (h_recent h') ->
  Forall (point_ok sc) (h_all h') -> winv h' its (with_group d g w).
Proof.
  intros h h' its w d g g0 I G GI HO HF HC HL HP. destruct I.
  split; cbn [with_group w_schema w_io w_records w_groups]; auto.
  - rewrite HF. auto.
  - eapply same_keys_insert; [exact wi_groups0| |exact G|exact GI|].
    + unfold sorted. rewrite <- (same_keys_fst _ _ _ _ _ wi_groups0). apply decls_sorted.
    + cbn. intros k a b N X. eapply ginv_ext; [|exact X]. intros m. symmetry. auto.
  - congruence.
  - rewrite HC. lia.
Qed.
Lemma winv_records : forall h its w n, winv h its w -> 0 <= n -> h_counted h + n <= zlen (h_recent h) ->
  winv (h_count n h) its (with_records (w_records w + n) w).
Proof.
  intros h its w n I Hn HL. destruct I. split; cbn [with_records w_schema w_io w_records w_groups h_count h_flushed h_recent h_counted]; auto.
  - congruence.
  - lia.
Qed.

Lemma winv_get : forall h its w d, winv h its w ->
  match sm_get d (decls sc), sm_get d (w_groups w) with
  | Some g0, Some g => ginv p snap (recent h d) g0 g
  | None, None => True
  | _, _ => False
  end.
Proof. intros h its w d I. apply (same_keys_get _ _ _ _ _ d (wi_groups _ _ _ I)). Qed.

Lemma declared_get : forall d m g0, sm_get d (decls sc) = Some g0 ->
  is_declared sc d m = match sm_get m g0 with Some _ => true | None => false end.
Proof.
  intros d m g0 G. destruct (sm_get m g0) as [ms|] eqn:E.
  - apply is_declared_iff. exists ms. apply declares_get; eauto.
  - destruct (is_declared sc d m) eqn:D; auto. apply is_declared_iff in D. destruct D as (ms & D).
    apply declares_get in D; auto. destruct D as (g1 & D1 & D2). congruence.
Qed.
Lemma device_get : forall d, has_device sc d = match sm_get d (decls sc) with Some _ => true | None => false end.
Proof.
  intros d. destruct (sm_get d (decls sc)) as [g0|] eqn:E.
  - apply has_device_iff; eauto.
  - destruct (has_device sc d) eqn:D; auto. apply has_device_iff in D; auto. destruct D. congruence.
Qed.

Lemma say_dec : forall a b : Z, (a <=? b) = negb (b <? a).
Proof. intros. destruct (a <=? b) eqn:X, (b <? a) eqn:Y; auto; lia. Qed.

Lemma group_write_ok : forall h d m t v g g0 g' e, sm_get d (decls sc) = Some g0 -> ginv p snap (recent h d) g0 g ->
  Forall (point_ok sc) (h_all h) -> i64_min <= t <= i64_max -> value_machine v ->
  zlen (h_all h) + 1 < 2 ^ 32 -> gw_write p snap m t v g = Ret (g', e) ->
  match h_verdict sc h d m t with
  | VStored => admits sc h d m t = true /\ e = None /\ ginv p snap (recent (h_store (mkPoint d m t v) h) d) g0 g' /\
      Forall (point_ok sc) (h_all (h_store (mkPoint d m t v) h))
  | VOutOfOrder => admits sc h d m t = false /\ e = Some EOutOfOrderData /\ ginv p snap (recent h d) g0 g'
  | VUnknown => admits sc h d m t = false /\ (exists s, e = Some (EIllegalState s)) /\ ginv p snap (recent h d) g0 g'
  end.
Proof.
  intros h d m t v g g0 g' e G GI HP Ht Hv HL H. unfold h_verdict, admits. rewrite device_get, G. cbn [negb].
  rewrite (declared_get d m g0 G), say_dec.
  pose proof (recent_len h d m) as RL.
  apply gw_write_ok with (decomp := decomp) (f := recent h d) (g0 := g0) in H; auto; [|eapply decls_inner_sorted; eauto|lia].
  change (last (map fst (recent h d m)) (-1)) with (last_time h d m) in H.
  destruct (last_time h d m <? t); cbn [negb].
  - destruct (sm_get m g0) as [ms|] eqn:E.
    + destruct H as (-> & V & GI'). split; auto. split; auto. split.
      * eapply ginv_ext; [|exact GI']. cbn beta. intros m'. rewrite recent_store. destruct (str_eqb m' m) eqn:K.
        -- apply str_eqb_eq in K. subst m'. rewrite series_same. auto.
        -- rewrite series_other, app_nil_r; auto. intros X. inversion X; subst. rewrite str_eqb_refl in K. discriminate.
      * unfold h_all, h_store in *. cbn [h_flushed h_recent]. rewrite app_assoc. apply Forall_app. split; auto. repeat constructor.
        exists ms. cbn. split; auto. apply declares_get; eauto.
    + destruct H as (X & GI'). auto.
  - destruct H as (-> & GI'). rewrite andb_false_r. auto.
Qed.

Lemma group_batch_ok : forall d t g0, sm_get d (decls sc) = Some g0 -> i64_min <= t <= i64_max -> forall vs h g g' n r,
  ginv p snap (recent h d) g0 g -> Forall (point_ok sc) (h_all h) -> Forall (fun mv => value_machine (snd mv)) vs ->
  zlen (h_all h) + zlen vs < 2 ^ 32 -> 0 <= n -> n + zlen vs < 2 ^ 32 -> gw_write_many p snap t vs n g = Ret (g', r) ->
  let '(h', ok) := h_batch sc d t vs h in
  ginv p snap (recent h' d) g0 g' /\ Forall (point_ok sc) (h_all h') /\ h_flushed h' = h_flushed h /\ h_counted h' = h_counted h /\
  (forall d' m, d' <> d -> recent h' d' m = recent h d' m) /\
  (exists l, h_recent h' = h_recent h ++ l /\ zlen l <= zlen vs /\ (ok = true -> zlen l = zlen vs)) /\
  match b_verdict sc h d t vs with
  | VStored => ok = true /\ r = inl (n + zlen vs)
  | VOutOfOrder => ok = false /\ r = inr EOutOfOrderData
  | VUnknown => ok = false /\ exists s, r = inr (EIllegalState s)
  end.
Proof.
  intros d t g0 G Ht. induction vs as [|[m v] vs IH]; intros h g g' n r GI HP HV HL Hn HN H; cbn [gw_write_many h_batch b_verdict] in *.
  - rinj H. split; [auto|]. split; [auto|]. split; [auto|]. split; [auto|]. split; [auto|]. split.
    + exists []. rewrite app_nil_r. rewrite !zlen_nil. split; [auto|]. split; [lia|auto].
    + rewrite device_get, G. rewrite zlen_nil, Z.add_0_r. auto.
  - rewrite zlen_cons in HL, HN. pose proof (zlen_nonneg _ vs) as Nv. inversion HV as [|? ? HV1 HV2]; subst. cbn [snd] in HV1.
    apply bind_ret in H. destruct H as ([g1 e] & W & H).
    assert (HL1 : zlen (h_all h) + 1 < 2 ^ 32) by lia.
    pose proof (group_write_ok _ _ _ _ _ _ _ _ _ G GI HP Ht HV1 HL1 W) as GW.
    destruct (h_verdict sc h d m t).
    + destruct GW as (-> & -> & GI1 & HP1). apply bind_ret in H. destruct H as (n1 & A & H).
      rewrite arithU_ok in A by lia. apply ret_inj in A. subst n1.
      assert (HL2 : zlen (h_all (h_store (mkPoint d m t v) h)) + zlen vs < 2 ^ 32).
      { unfold h_all, h_store in *. cbn [h_flushed h_recent]. rewrite app_assoc, zlen_app, zlen_cons, zlen_nil. lia. }
      assert (HN2 : n + 1 + zlen vs < 2 ^ 32) by lia. assert (Hn1 : 0 <= n + 1) by lia.
      specialize (IH _ _ _ _ _ GI1 HP1 HV2 HL2 Hn1 HN2 H).
      destruct (h_batch sc d t vs (h_store (mkPoint d m t v) h)) as [h' ok].
      destruct IH as (I1 & I2 & I3 & I4 & I5 & (l & I6 & I7 & I8) & I9).
      split; [auto|]. split; [auto|]. split; [auto|]. split; [auto|]. split; [|split].
      * intros d' m' N. rewrite I5 by auto. rewrite recent_store, series_other, app_nil_r; auto. congruence.
      * exists (mkPoint d m t v :: l). rewrite I6. cbn [h_store h_recent]. rewrite <- app_assoc. split; [reflexivity|].
        rewrite !zlen_cons. split; [lia|]. intros E. specialize (I8 E). lia.
      * rewrite zlen_cons. replace (n + (1 + zlen vs)) with (n + 1 + zlen vs) by lia. auto.
    + destruct GW as (-> & -> & GI1). rinj H. split; [auto|]. split; [auto|]. split; [auto|]. split; [auto|]. split; [auto|]. split; [|auto].
      exists []. rewrite app_nil_r, zlen_nil, zlen_cons. split; [auto|]. split; [lia|discriminate].
    + destruct GW as (-> & (s & ->) & GI1). rinj H. split; [auto|]. split; [auto|]. split; [auto|]. split; [auto|]. split; [auto|]. split; [|eauto].
      exists []. rewrite app_nil_r, zlen_nil, zlen_cons. split; [auto|]. split; [lia|discriminate].
Qed.

(** ** Steps *)
Lemma h_count_0 : forall h, h_count 0 h = h.
Proof. intros [f r c]. unfold h_count. cbn [h_flushed h_recent h_counted]. rewrite Z.add_0_r. auto. Qed.
Lemma grew_same : forall w w', file_bytes w' = file_bytes w -> grew w w' = false.
Proof. intros w w' E. unfold grew. rewrite E. apply Z.ltb_irrefl. Qed.

(** the tail of a successful write *)
Lemma count_and_check : forall h its w n rc w', winv h its w -> 0 <= n -> h_counted h + n <= zlen (h_recent h) ->
  zlen (h_all h) < 2 ^ 32 -> arithU p 32 (w_records w + n) = Ret rc ->
  check_memory p snap (with_records rc w) = Ret w' ->
  exists new, Forall is_group new /\
    winv (if grew w w' && (0 <? h_counted (h_count n h)) then h_flush (h_count n h) else h_count n h) (its ++ new) w' /\
    (new <> [] -> Forall2 (item_plan p snap (recent h)) (decls sc) new).
Proof.
  intros h its w n rc w' I Hn HL HA A C. unfold h_all in HA. rewrite zlen_app in HA. pose proof (zlen_nonneg _ (h_flushed h)) as NF.
  pose proof (wi_counted _ _ _ I) as WC. rewrite (wi_records _ _ _ I) in A. rewrite arithU_ok in A by lia. apply ret_inj in A. subst rc.
  rewrite <- (wi_records _ _ _ I) in C. pose proof (winv_records _ _ _ _ I Hn HL) as I'.
  destruct (check_memory_ok _ _ _ _ I' C) as [(nx & ->)|(K & new & N1 & N2 & N3 & N4)].
  - exists []. split; [constructor|]. split; [|congruence]. rewrite app_nil_r.
    rewrite grew_same by reflexivity. cbn [andb]. apply winv_set_next. auto.
  - exists new. split; auto. rewrite K. change (grew w w') with (grew (with_records (w_records w + n) w) w'). rewrite N3.
    cbn [andb]. split; auto.
Qed.

Lemma end_file_ok : forall ord io io', is_healthy (io_out io) -> end_file p ord io = Ret io' ->
  exists r, sk_ext (io_out io) (io_out io') (2 :: r) /\ io_groups io' = io_groups io /\ io_current io' = io_current io.
Proof.
  intros ord io io' Hh H. unfold end_file in H. apply bind_ret in H. destruct H as (tsm & _ & H).
  apply bind_ret in H. destruct H as ([ix o1] & H1 & H).
  apply (construct_index_ge sk_ge sk_ge_refl sk_ge_trans wexec_ext) in H1.
  apply bind_ret in H. destruct H as (bf & _ & H). apply bind_ret in H. destruct H as (bw & _ & H).
  rinj H. cbn [io_out io_with_out io_groups io_current io_with_tsmeta].
  pose proof (wexec_healthy_fst (WAll [2]) _ Hh) as X. cbn [wbytes] in X.
  assert (G : sk_ge (fst (wexec (WAll [2]) (io_out io))) (fst (wexec (WAll MAGIC) (fst (wexec (WAll (be_bytes 4 (wrapU 32 (sk_pos (fst (wexec bw (fst (wexec (ts_file_metadata_serialize ix (sk_pos (io_out io))) o1)))) - sk_pos o1)))) (fst (wexec bw (fst (wexec (ts_file_metadata_serialize ix (sk_pos (io_out io))) o1))))))))).
  { eapply sk_ge_trans; [exact H1|]. eapply sk_ge_trans; [|apply wexec_ext]. eapply sk_ge_trans; [|apply wexec_ext].
    eapply sk_ge_trans; [|apply wexec_ext]. apply wexec_ext. }
  destruct G as (l & G). exists l. split; [exact (sk_ext_trans _ _ _ _ _ X G)|auto].
Qed.

Lemma step_ok : forall h its w o w' a, winv h its w -> op_ok o -> zlen (h_all h) + op_points o < 2 ^ 32 ->
  step p snap w o = Ret (w', a) ->
  answers sc h o a /\
  exists new, winv (h_step sc o (grew w w') h) (its ++ new) w' /\
    if is_close o then exists gs r, new = gs ++ [Raw (2 :: r)] /\ Forall is_group gs else Forall is_group new.
Proof.
  intros h its w o w' a I HO HL H. pose proof (wi_counted _ _ _ I) as WC.
  assert (HA : zlen (h_all h) = zlen (h_flushed h) + zlen (h_recent h)) by (unfold h_all; apply zlen_app).
  pose proof (zlen_nonneg _ (h_flushed h)) as NF. pose proof (zlen_nonneg _ (h_recent h)) as NR.
  destruct o as [d m t v|d t vs|ord]; cbn [step is_close op_ok op_points answers] in *; unfold h_step; cbn [h_call].
  - (* write *)
    destruct HO as [Ht Hv]. pose proof (winv_get _ _ _ d I) as WG. unfold writer_write in H.
    destruct (sm_get d (w_groups w)) as [g|] eqn:EG; destruct (sm_get d (decls sc)) as [g0|] eqn:ED; try tauto.
    + apply bind_ret in H. destruct H as ([g' e] & W & H).
      pose proof (group_write_ok _ _ _ _ _ _ _ _ _ ED WG (wi_points _ _ _ I) Ht Hv HL W) as GW. fold (with_group d g' w) in H.
      destruct (h_verdict sc h d m t); cbn [says].
      * destruct GW as (-> & -> & GI & HP). set (q := mkPoint d m t v) in *.
        assert (I1 : winv (h_store q h) its (with_group d g' w)).
        { eapply winv_group; eauto.
          - intros d' m' N. rewrite recent_store. unfold q. rewrite series_other, app_nil_r; auto. congruence.
          - cbn [h_store h_recent]. rewrite zlen_app. pose proof (zlen_nonneg _ [q]). lia. }
        apply bind_ret in H. destruct H as (rc & A & H). apply bind_ret in H. destruct H as (w2 & C & H). rinj H. split; auto.
        destruct (count_and_check (h_store q h) its (with_group d g' w) 1 rc w' I1 Z.le_0_1) as (new & N1 & N2 & _); auto.
        { cbn [h_store h_counted h_recent]. rewrite zlen_app, zlen_cons, zlen_nil. lia. }
        { unfold h_all. cbn [h_store h_flushed h_recent]. rewrite !zlen_app, zlen_cons, zlen_nil. lia. }
        exists new. split; auto.
      * destruct GW as (-> & -> & GI). rinj H. split; auto. exists []. split; [|constructor]. rewrite app_nil_r, grew_same by reflexivity. cbn [andb].
        eapply winv_group; eauto. 1: lia. apply I.
      * destruct GW as (-> & (s & ->) & GI). rinj H. split; [eauto|]. exists []. split; [|constructor]. rewrite app_nil_r, grew_same by reflexivity. cbn [andb].
        eapply winv_group; eauto. 1: lia. apply I.
    + rinj H. rewrite grew_same by auto. cbn [andb]. unfold h_verdict, admits. rewrite device_get, ED. cbn [negb says].
      split; [eauto|]. exists []. split; [|constructor]. rewrite app_nil_r.
      replace (is_declared sc d m) with false; auto. symmetry. destruct (is_declared sc d m) eqn:D; auto. apply is_declared_iff in D.
      destruct D as (ms & D). apply declares_get in D; auto. destruct D as (g0 & D & _). congruence.
  - (* write_many *)
    destruct HO as [Ht Hv]. pose proof (winv_get _ _ _ d I) as WG. unfold writer_write_many in H.
    destruct (sm_get d (w_groups w)) as [g|] eqn:EG; destruct (sm_get d (decls sc)) as [g0|] eqn:ED; try tauto.
    + apply bind_ret in H. destruct H as ([g' r] & W & H). fold (with_group d g' w) in H.
      assert (B0 : 0 + zlen vs < 2 ^ 32) by lia.
      pose proof (group_batch_ok _ _ _ ED Ht _ _ _ _ _ _ WG (wi_points _ _ _ I) Hv HL (Z.le_refl 0) B0 W) as GB.
      destruct (h_batch sc d t vs h) as [h' ok] eqn:EB. destruct GB as (GI & HP & HF & HC & HR & (l & L1 & L2 & L3) & GB).
      assert (I1 : winv h' its (with_group d g' w)).
      { eapply winv_group; eauto. rewrite L1, zlen_app. pose proof (zlen_nonneg _ l). lia. }
      assert (HA' : zlen (h_all h') < 2 ^ 32).
      { unfold h_all. rewrite HF, L1, !zlen_app. lia. }
      destruct (b_verdict sc h d t vs); cbn [says].
      * destruct GB as (-> & ->). apply bind_ret in H. destruct H as (rc & A & H). apply bind_ret in H. destruct H as (w2 & C & H). rinj H. split; auto.
        destruct (count_and_check h' its (with_group d g' w) (zlen vs) rc w' I1 (zlen_nonneg _ vs)) as (new & N1 & N2 & _); auto.
        { rewrite HC, L1, zlen_app, L3 by auto. lia. }
        exists new. split; auto.
      * destruct GB as (-> & ->). rinj H. split; auto. exists []. split; [|constructor]. rewrite app_nil_r, grew_same by reflexivity. auto.
      * destruct GB as (-> & (s & ->)). rinj H. split; [eauto|]. exists []. split; [|constructor]. rewrite app_nil_r, grew_same by reflexivity. auto.
    + rinj H. rewrite grew_same by auto. cbn [andb].
      assert (ND : forall m, is_declared sc d m = false).
      { intros m. destruct (is_declared sc d m) eqn:D; auto. apply is_declared_iff in D.
        destruct D as (ms & D). apply declares_get in D; auto. destruct D as (g0 & D & _). congruence. }
      split.
      * destruct vs as [|[m v] vs]; cbn [b_verdict]; [|unfold h_verdict]; rewrite device_get, ED; cbn [negb says]; eauto.
      * exists []. split; [|constructor]. rewrite app_nil_r.
        destruct vs as [|[m v] vs]; cbn [h_batch]; [|unfold admits; rewrite ND; cbn [andb]; auto].
        rewrite zlen_nil, h_count_0. auto.
  - (* close *)
    unfold writer_close in H. apply bind_ret in H. destruct H as ([w1 e] & F & H). cbn [fst] in H.
    apply bind_ret in H. destruct H as (io & E & H). rinj H. split; auto.
    set (w' := mkW io (w_groups w1) (w_records w1) (w_next_check w1) (w_schema w1)).
    assert (K : exists gs h1, winv h1 (its ++ gs) w1 /\ Forall is_group gs /\ h1 = (if 0 <? h_counted h then h_flush h else h) /\
      zlen (file_bytes w) <= zlen (file_bytes w1)).
    { destruct (flush_all_ok _ _ _ _ _ I F) as [_ K]. destruct (0 <? h_counted h).
      - destruct K as (new & K1 & K2 & K3 & _). exists new, (h_flush h). unfold grew in K3. repeat (split; [auto|]). lia.
      - subst w1. exists [], h. rewrite app_nil_r. repeat (split; [auto|]). lia. }
    destruct K as (gs & h1 & I1 & G1 & -> & LE).
    destruct (end_file_ok _ _ _ (wi_healthy _ _ _ I1) E) as (r & X & X1 & X2).
    assert (FB : file_bytes w' = file_bytes w1 ++ 2 :: r) by (unfold file_bytes, w'; cbn [w_io]; apply X).
    assert (GR : grew w w' = true).
    { unfold grew. rewrite FB, zlen_app, zlen_cons. pose proof (zlen_nonneg _ r). apply Z.ltb_lt. lia. }
    rewrite GR. cbn [andb]. exists (gs ++ [Raw (2 :: r)]). split; [|eauto].
    destruct I1 as [J1 J2 J3 J4 J5 J6 J7 J8 J9 J10 J11 J12 J13]. rewrite app_assoc. split; cbn [w' w_schema w_io w_groups w_records]; auto.
    + eapply sk_ext_healthy; eauto.
    + change (sk_pos (io_out io) = zlen (file_bytes w')). rewrite FB, zlen_app, <- J3. apply X.
    + change (file_bytes w' = MAGIC ++ [3] ++ file_of ((its ++ gs) ++ [Raw (2 :: r)])). rewrite FB, J4, (file_of_app (its ++ gs)), <- !app_assoc.
      replace (file_of [Raw (2 :: r)]) with (2 :: r); auto. unfold file_of. cbn [map concat item_bytes]. rewrite app_nil_r. auto.
    + congruence.
    + rewrite X1, J6, (metas_app (its ++ gs)). cbn [metas imetas app]. rewrite app_nil_r. auto.
    + apply Forall_app. split; [auto|repeat constructor].
    + intros d m. rewrite its_series_app, J8. unfold its_series. cbn [map concat iseries]. rewrite !app_nil_r. auto.
    + intros X3. apply Forall_app in X3. destruct X3 as [_ X3]. inversion X3; subst. contradiction.
Qed.

Lemma h_call_len : forall o h, zlen (h_all (h_call sc o h)) <= zlen (h_all h) + op_points o.
Proof.
  assert (S : forall q h, zlen (h_all (h_store q h)) = zlen (h_all h) + 1).
  { intros. unfold h_all, h_store. cbn [h_flushed h_recent]. rewrite !zlen_app, zlen_cons, zlen_nil. lia. }
  intros [d m t v|d t vs|ord] h; cbn [h_call op_points].
  - destruct (admits sc h d m t); [|lia]. change (h_all (h_count 1 (h_store (mkPoint d m t v) h))) with (h_all (h_store (mkPoint d m t v) h)). rewrite S. lia.
  - assert (B : zlen (h_all (fst (h_batch sc d t vs h))) <= zlen (h_all h) + zlen vs).
    { revert h. induction vs as [|[m v] vs IH]; intros h; cbn [h_batch fst]; [rewrite zlen_nil; lia|].
      rewrite zlen_cons. pose proof (zlen_nonneg _ vs). destruct (admits sc h d m t); cbn [fst]; [|lia].
      specialize (IH (h_store (mkPoint d m t v) h)). rewrite S in IH. lia. }
    destruct (h_batch sc d t vs h) as [h' [|]]; exact B.
  - lia.
Qed.
Lemma h_step_len : forall o b h, zlen (h_all (h_step sc o b h)) <= zlen (h_all h) + op_points o.
Proof.
  intros. unfold h_step. pose proof (h_call_len o h) as L. destruct (b && (0 <? h_counted (h_call sc o h))); auto.
  unfold h_all, h_flush in *. cbn [h_flushed h_recent]. rewrite app_nil_r. exact L.
Qed.
Lemma op_points_nonneg : forall o, 0 <= op_points o.
Proof. intros [| d t vs|]; cbn; try lia. apply zlen_nonneg. Qed.

Lemma trace_ok : forall w h ops l, trace p snap sc w h ops l -> ops_ok ops ->
  zlen (h_all h) <= zsum (map op_points ops) /\
  exists its, winv h its w /\ (forallb (fun o => negb (is_close o)) ops = true -> Forall is_group its).
Proof.
  intros w h ops l T. induction T as [out w N|w h ops l o w' a T IH H]; intros [O1 O2].
  - split; [vm_compute; discriminate|]. exists []. split; [eapply winv_new; eauto|constructor].
  - rewrite map_app, zsum_app in *. cbn [map zsum fold_right] in *. apply Forall_app in O1. destruct O1 as [O1 O3]. inversion O3; subst.
    pose proof (op_points_nonneg o). destruct IH as (L & its & I & G); [split; auto; lia|].
    pose proof (h_step_len o (grew w w') h). split; [lia|].
    destruct (step_ok h its w o w' a I) as (_ & new & N1 & N2); auto; [lia|].
    exists (its ++ new). split; auto. rewrite forallb_app. cbn [forallb]. intros X. apply andb_prop in X. destruct X as [X1 X2].
    destruct (is_close o); [discriminate|]. apply Forall_app. auto.
Qed.
End Refine.
