(** The size of a closed file (C51). *)
From Verif Require Export PBound PFloat64 PFoot PClose SSize.
Ltac Zify.zify_post_hook ::= idtac.

(** ** Sums *)
Lemma zsum_cons : forall x l, zsum (x :: l) = x + zsum l.
Proof. reflexivity. Qed.
Lemma zsum_map_le : forall A (f g : A -> Z) l, (forall x, In x l -> f x <= g x) -> zsum (map f l) <= zsum (map g l).
Proof. intros A f g l. induction l as [|x l IH]; intros H; [reflexivity|]. cbn [map]. rewrite !zsum_cons. pose proof (H x (or_introl eq_refl)). assert (zsum (map f l) <= zsum (map g l)) by (apply IH; intros; apply H; right; auto). lia. Qed.
Lemma zsum_map_nonneg : forall A (f : A -> Z) l, (forall x, 0 <= f x) -> 0 <= zsum (map f l).
Proof. intros A f l H. induction l as [|x l IH]; [reflexivity|]. cbn [map]. rewrite zsum_cons. pose proof (H x). lia. Qed.
Lemma insert_sum : forall V (f : list Z * V -> Z) k v m, (forall x, 0 <= f x) -> zsum (map f (sm_insert k v m)) <= f (k, v) + zsum (map f m).
Proof.
  intros V f k v m N. induction m as [|[k' v'] m IH]; cbn [sm_insert map]; [unfold zsum; cbn; lia|].
  destruct (str_cmp k k') eqn:E; cbn [map]; rewrite !zsum_cons.
  - apply str_cmp_eq in E. subst k'. pose proof (N (k, v')). lia.
  - lia.
  - lia.
Qed.
Lemma of_list_sum : forall V (f : list Z * V -> Z) l, (forall x, 0 <= f x) -> zsum (map f (sm_of_list l)) <= zsum (map f l).
Proof.
  intros V f l N. unfold sm_of_list. assert (G : forall acc, zsum (map f (fold_left (fun m kv => sm_insert (fst kv) (snd kv) m) l acc)) <= zsum (map f l) + zsum (map f acc)).
  { induction l as [|[k v] l IH]; intros acc; cbn [fold_left fst snd]; [unfold zsum; cbn; lia|].
    etransitivity; [apply IH|]. pose proof (insert_sum V f k v acc N). cbn [map]. rewrite zsum_cons. lia. }
  specialize (G []). unfold zsum in *. cbn [map fold_right] in G. lia.
Qed.
(** a weight of the declared series is at most its value on the schema *)
Lemma decls_sum : forall (a : list Z -> Z) (f : list Z -> list Z -> Z) sc, (forall d, 0 <= a d) -> (forall d m, 0 <= f d m) ->
  zsum (map (fun dg => a (fst dg) + zsum (map (fun kv => f (fst dg) (fst kv)) (snd dg))) (decls sc)) <=
  zsum (map (fun dg => a (fst dg) + zsum (map (fun kv => f (fst dg) (fst kv)) (snd dg))) sc).
Proof.
  intros a f sc A F. unfold decls.
  etransitivity; [apply (of_list_sum _ (fun dg : list Z * smap mschema => a (fst dg) + zsum (map (fun kv => f (fst dg) (fst kv)) (snd dg))))|].
  { intros [d g]. cbn [fst snd]. pose proof (A d). pose proof (zsum_map_nonneg _ (fun kv : list Z * mschema => f d (fst kv)) g (fun x => F d (fst x))). lia. }
  unfold sm_mapk. rewrite map_map. apply zsum_map_le. intros [d g] _. cbn [fst snd].
  pose proof (of_list_sum _ (fun kv : list Z * mschema => f d (fst kv)) g (fun x => F d (fst x))). lia.
Qed.
Lemma keys_sum : forall (f : list Z -> list Z -> Z) G0,
  zsum (map (fun dg : list Z * smap mschema => zsum (map (fun kv => f (fst dg) (fst kv)) (snd dg))) G0) = zsum (map (fun k => f (fst k) (snd k)) (keys_of G0)).
Proof.
  intros f G0. induction G0 as [|[d g] G0 IH]; [reflexivity|]. cbn [map keys_of flat_map fst snd]. rewrite zsum_cons, IH, map_app, zsum_app, map_map. reflexivity.
Qed.

(** ** Chunks and chunk groups *)
Lemma size_i32_le : forall s, zlen s < 2 ^ 31 -> 1 <= zlen (wbytes (write_str s)) - zlen s <= 5.
Proof.
  intros s H. unfold write_str. cbn [wbytes]. rewrite app_nil_r, zlen_app. pose proof (zlen_nonneg _ s).
  rewrite wrapS_small by (change (2 ^ (32 - 1)) with (2 ^ 31); lia).
  destruct (var_i32_len (zlen s) ltac:(lia)) as (A & _). lia.
Qed.

Section Data.
Variable p : profile.
Variable snap decomp : list Z -> option (list Z).
Hypothesis HG : good_snap snap decomp.

Lemma cbytes_le : forall c, citem_ok p snap c -> zlen (c_name c) < 2 ^ 31 -> zlen (cbytes c) <= 24 * zlen (c_pts c) + 314 + zlen (c_name c).
Proof.
  intros c [[C1 C2] _ C3] H. unfold sealed in C3. pose proof (sealed_buffer_le p snap decomp HG _ _ _ _ _ _ C1 C2 C3) as B.
  destruct (sealed_inv p snap decomp HG _ _ _ _ (conj C1 C2) C3) as (pages & ims & I & _).
  unfold cbytes, chunk_bytes. rewrite zlen_app, (ci_id _ _ _ _ _ _ _ _ _ _ I), chunk_header_len by (auto using wrapU32_range).
  pose proof (zlen_nonneg _ (c_name c)). destruct (var_i32_len (zlen (c_name c)) ltac:(lia)) as (A & ->).
  destruct (var_u32_len _ (wrapU32_range (zlen (cw_buffer (c_cw c))))) as (A2 & _ & ->). lia.
Qed.
Lemma ghead_le : forall d, zlen d < 2 ^ 31 -> zlen (ghead d) <= 6 + zlen d.
Proof. intros d H. unfold ghead, chunk_group_header. cbn [wbytes]. pose proof (size_i32_le d H). rewrite !zlen_app, !zlen_cons, !zlen_nil. lia. Qed.
Lemma chunks_le : forall f g0 cs, map plan_of cs = chunk_plan f g0 -> Forall (citem_ok p snap) cs -> Forall (fun m => zlen m < 2 ^ 31) (map fst g0) ->
  zlen (concat (map cbytes cs)) <= zsum (map (fun kv : list Z * mschema => 24 * zlen (f (fst kv)) + (314 + zlen (fst kv))) g0) /\ zlen cs <= zlen g0.
Proof.
  intros f g0. induction g0 as [|[m ms] g0 IH]; intros cs HP HC HN.
  - destruct cs; [|discriminate]. cbn [map concat]. rewrite !zlen_nil. unfold zsum. cbn. lia.
  - inversion HN as [|? ? N1 N2]; subst. cbn [fst] in *. unfold chunk_plan in HP. cbn [map filter snd fst] in HP. cbn [map]. rewrite zsum_cons, zlen_cons. cbn [fst].
    pose proof (zlen_nonneg _ m). destruct (f m) as [|x l] eqn:EF.
    + destruct (IH cs HP HC N2) as [A B]. rewrite zlen_nil. lia.
    + destruct cs as [|ci cs]; [discriminate|]. cbn [map] in HP. injection HP as P1 P2 P3 P4. inversion HC as [|? ? HC1 HC2]; subst.
      destruct (IH cs P4 HC2 N2) as [A B]. cbn [map concat]. pose proof (cbytes_le ci HC1 N1) as C. rewrite P3 in C. rewrite zlen_app, !zlen_cons in *. lia.
Qed.
Definition groups_weight (F : list Z -> list Z -> list (Z * value)) (G0 : smap (smap mschema)) : Z :=
  zsum (map (fun dg => 6 + zlen (fst dg) + zsum (map (fun kv : list Z * mschema => 24 * zlen (F (fst dg) (fst kv)) + (314 + zlen (fst kv))) (snd dg))) G0).
Lemma items_le : forall F G0 new, Forall2 (item_plan p snap F) G0 new ->
  Forall (fun dg => zlen (fst dg) < 2 ^ 31 /\ Forall (fun m => zlen m < 2 ^ 31) (map fst (snd dg))) G0 ->
  zlen (file_of new) <= groups_weight F G0 /\ forall o, zlen (flat (metas o new)) <= zsum (map (fun dg => zlen (snd dg)) G0).
Proof.
  intros F G0 new H. induction H as [|[d g0] it G0 new (cs & -> & C1 & C2) H IH]; intros HN; [split; [reflexivity|intros; reflexivity]|].
  inversion HN as [|? ? [N1 N2] N3]; subst. cbn [fst snd] in *. destruct (IH N3) as [A B]. destruct (chunks_le _ _ _ C2 C1 N2) as [D E].
  unfold groups_weight in *. cbn [map]. rewrite !zsum_cons. cbn [fst snd]. split.
  - unfold file_of in *. cbn [map concat item_bytes]. rewrite !zlen_app. pose proof (ghead_le d N1). lia.
  - intros o. cbn [metas]. rewrite flat_app, zlen_app. specialize (B (o + zlen (item_bytes (GItem d cs)))).
    assert (L : zlen (flat (imetas o (GItem d cs))) = zlen cs).
    { cbn [imetas]. destruct cs as [|c cs]; [reflexivity|]. unfold flat. cbn [map concat fst snd]. rewrite app_nil_r. unfold zlen. rewrite map_length.
      assert (X : forall cs o, length (cmetas o cs) = length cs) by (clear; induction cs; intros; cbn [cmetas length]; auto). rewrite X. reflexivity. }
    lia.
Qed.
End Data.

Section Reach.
Variable p : profile.
Variable snap decomp : list Z -> option (list Z).
Hypothesis HG : good_snap snap decomp.
Variable sc : schema.
Hypothesis Hsc : schema_ok sc.

Definition flush_cost : Z := zsum (map (fun dg => 6 + zlen (fst dg) + zsum (map (fun kv => 314 + zlen (fst kv)) (snd dg))) sc).
Lemma groups_weight_le : forall h, groups_weight (recent h) (decls sc) <= 24 * zlen (h_recent h) + flush_cost.
Proof.
  intros h. unfold groups_weight.
  assert (E : forall G0 : smap (smap mschema), zsum (map (fun dg => 6 + zlen (fst dg) + zsum (map (fun kv : list Z * mschema => 24 * zlen (recent h (fst dg) (fst kv)) + (314 + zlen (fst kv))) (snd dg))) G0) =
     24 * zsum (map (fun k => zlen (recent h (fst k) (snd k))) (keys_of G0)) + zsum (map (fun dg => 6 + zlen (fst dg) + zsum (map (fun kv => 314 + zlen (fst kv)) (snd dg))) G0)).
  { intros G0. rewrite <- (keys_sum (fun d m => zlen (recent h d m))). induction G0 as [|[d g] G0 IH]; [reflexivity|]. cbn [map]. rewrite !zsum_cons, IH. cbn [fst snd].
    assert (X : zsum (map (fun kv : list Z * mschema => 24 * zlen (recent h d (fst kv)) + (314 + zlen (fst kv))) g) =
       24 * zsum (map (fun kv : list Z * mschema => zlen (recent h d (fst kv))) g) + zsum (map (fun kv : list Z * mschema => 314 + zlen (fst kv)) g)).
    { clear. induction g as [|kv g IH]; [reflexivity|]. cbn [map]. rewrite !zsum_cons, IH. lia. }
    rewrite X. lia. }
  rewrite E.
  assert (N : NoDup (keys_of (decls sc))).
  { apply keys_nodup.
    - apply lt_nodup. apply decls_sorted.
    - apply Forall_forall. intros [d g0] I. cbn [snd]. apply in_sm_get in I; [|apply decls_sorted]. apply lt_nodup. eapply decls_inner_sorted; eauto. }
  pose proof (series_sum (h_recent h) _ N) as S.
  pose proof (decls_sum (fun d => 6 + zlen d) (fun d m => 314 + zlen m) sc ltac:(intros d; pose proof (zlen_nonneg _ d); lia) ltac:(intros d m; pose proof (zlen_nonneg _ m); lia)) as W.
  unfold recent, flush_cost in *. lia.
Qed.
Lemma decls_series : zsum (map (fun dg => zlen (snd dg)) (decls sc)) <= series_count sc.
Proof.
  assert (E : forall G0 : smap (smap mschema), zlen (keys_of G0) = zsum (map (fun dg => zlen (snd dg)) G0)).
  { induction G0 as [|[d g] G0 IH]; [reflexivity|]. cbn [keys_of flat_map]. rewrite zlen_app. unfold keys_of in IH. rewrite IH. unfold zlen at 1. rewrite map_length. reflexivity. }
  rewrite <- E. apply keys_len.
Qed.
Lemma flush_le : forall h new, Forall2 (item_plan p snap (recent h)) (decls sc) new ->
  zlen (file_of new) <= 24 * zlen (h_recent h) + flush_cost /\ forall o, zlen (flat (metas o new)) <= series_count sc.
Proof.
  intros h new H. destruct (items_le p snap decomp HG _ _ _ H (decls_names _ Hsc)) as [A B]. pose proof (groups_weight_le h). pose proof decls_series.
  split; [lia|]. intros o. specialize (B o). lia.
Qed.

(** a call that is not a close either leaves the file alone or flushes more than 128 MiB of estimated memory *)
Lemma step_plan : forall h its w o w' a, winv p snap sc h its w -> op_ok o -> zlen (h_all h) + op_points o < 2 ^ 32 -> is_close o = false ->
  step p snap w o = Ret (w', a) ->
  (w_io w' = w_io w) \/
  (exists wm n new, winv p snap sc (h_call sc o h) its wm /\ mem_size p (w_groups wm) = Ret n /\ CHUNK_GROUP_SIZE_THRESHOLD_BYTE < n /\
     h_step sc o (grew w w') h = h_flush (h_call sc o h) /\
     winv p snap sc (h_flush (h_call sc o h)) (its ++ new) w' /\ Forall2 (item_plan p snap (recent (h_call sc o h))) (decls sc) new).
Proof.
  intros h its w o w' a I HO HL NC H. pose proof (wi_counted _ _ _ _ _ _ I) as WC.
  assert (HA : zlen (h_all h) = zlen (h_flushed h) + zlen (h_recent h)) by (unfold h_all; apply zlen_app).
  pose proof (zlen_nonneg _ (h_flushed h)) as NF. pose proof (zlen_nonneg _ (h_recent h)) as NR.
  (* the tail of a successful write *)
  assert (TAIL : forall h1 w1 n rc w2, winv p snap sc h1 its w1 -> w_io w1 = w_io w -> 0 <= n -> h_counted h1 + n <= zlen (h_recent h1) -> zlen (h_all h1) < 2 ^ 32 ->
     arithU p 32 (w_records w1 + n) = Ret rc -> check_memory p snap (with_records rc w1) = Ret w2 ->
     w_io w2 = w_io w \/ exists wm k new, winv p snap sc (h_count n h1) its wm /\ mem_size p (w_groups wm) = Ret k /\ CHUNK_GROUP_SIZE_THRESHOLD_BYTE < k /\
       grew w w2 && (0 <? h_counted (h_count n h1)) = true /\
       winv p snap sc (h_flush (h_count n h1)) (its ++ new) w2 /\ Forall2 (item_plan p snap (recent (h_count n h1))) (decls sc) new).
  { intros h1 w1 n rc w2 I1 EIO Hn HL1 HA1 A C. unfold h_all in HA1. rewrite zlen_app in HA1. pose proof (zlen_nonneg _ (h_flushed h1)).
    pose proof (wi_counted _ _ _ _ _ _ I1) as WC1. rewrite (wi_records _ _ _ _ _ _ I1) in A. rewrite arithU_ok in A by lia. apply ret_inj in A. subst rc.
    rewrite <- (wi_records _ _ _ _ _ _ I1) in C. pose proof (winv_records _ _ _ _ _ _ _ I1 Hn HL1) as I2.
    set (w3 := with_records (w_records w1 + n) w1) in *. assert (E3 : w_io w3 = w_io w) by exact EIO. clearbody w3. unfold check_memory in C.
    destruct (w_records w3 >=? w_next_check w3); [|rinj C; auto]. apply bind_ret in C. destruct C as (mem & M & C). destruct (mem =? 0); [discriminate|].
    match type of C with context [mkW _ _ _ ?x _] => set (nx := x) in C end. fold (set_next nx w3) in C.
    destruct (mem >? _) eqn:G; [|rinj C; left; exact E3]. apply bind_ret in C. destruct C as ([w4 e] & F & C). rinj C. cbn [fst].
    pose proof (winv_set_next p snap sc _ _ _ nx I2) as I3.
    destruct (flush_all_ok p snap decomp HG sc Hsc _ _ _ _ _ I3 F) as (-> & K). destruct (0 <? h_counted (h_count n h1)) eqn:C1.
    - destruct K as (new & K1 & K2 & K3 & K4 & K5 & K6). right. exists w3, mem, new. rewrite Z.gtb_ltb in G. apply Z.ltb_lt in G.
      split; [exact I2|]. split; [exact M|]. split; [exact G|]. split; [|split; [exact K1|exact K5]]. rewrite andb_true_r. unfold grew, file_bytes in *. cbn [set_next w_io] in K3. rewrite <- E3. exact K3.
    - left. subst w4. exact E3. }
  destruct o as [d m t v|d t vs|ord]; cbn [step is_close op_ok op_points] in *; [| |discriminate]; unfold h_step; cbn [h_call].
  - destruct HO as [Ht Hv]. pose proof (winv_get _ _ _ _ _ _ d I) as WG. unfold writer_write in H.
    destruct (sm_get d (w_groups w)) as [g|] eqn:EG; destruct (sm_get d (decls sc)) as [g0|] eqn:ED; try tauto; [|rinj H; auto].
    apply bind_ret in H. destruct H as ([g' e] & W & H).
    pose proof (group_write_ok p snap decomp HG sc Hsc _ _ _ _ _ _ _ _ _ ED WG (wi_points _ _ _ _ _ _ I) Ht Hv HL W) as GW. fold (with_group d g' w) in H.
    destruct (h_verdict sc h d m t).
    + destruct GW as (-> & -> & GI & HP). set (q := mkPoint d m t v) in *.
      assert (I1 : winv p snap sc (h_store q h) its (with_group d g' w)).
      { eapply winv_group; eauto.
        - intros d' m' N. rewrite recent_store. unfold q. rewrite series_other, app_nil_r; auto. congruence.
        - cbn [h_store h_recent]. rewrite zlen_app. pose proof (zlen_nonneg _ [q]). lia. }
      apply bind_ret in H. destruct H as (rc & A & H). apply bind_ret in H. destruct H as (w2 & C & H). rinj H.
      destruct (TAIL (h_store q h) (with_group d g' w) 1 rc w' I1 eq_refl Z.le_0_1) as [X|(wm & k & new & X1 & X2 & X3 & X4 & X5 & X6)]; auto.
      { cbn [h_store h_counted h_recent]. rewrite zlen_app, zlen_cons, zlen_nil. lia. }
      { unfold h_all. cbn [h_store h_flushed h_recent]. rewrite !zlen_app, zlen_cons, zlen_nil. lia. }
      right. exists wm, k, new. rewrite X4. auto 8.
    + destruct GW as (-> & -> & GI). rinj H. left. reflexivity.
    + destruct GW as (-> & (s & ->) & GI). rinj H. left. reflexivity.
  - destruct HO as [Ht Hv]. pose proof (winv_get _ _ _ _ _ _ d I) as WG. unfold writer_write_many in H.
    destruct (sm_get d (w_groups w)) as [g|] eqn:EG; destruct (sm_get d (decls sc)) as [g0|] eqn:ED; try tauto; [|rinj H; auto].
    apply bind_ret in H. destruct H as ([g' r] & W & H). fold (with_group d g' w) in H.
    assert (B0 : 0 + zlen vs < 2 ^ 32) by lia.
    pose proof (group_batch_ok p snap decomp HG sc Hsc _ _ _ ED Ht _ _ _ _ _ _ WG (wi_points _ _ _ _ _ _ I) Hv HL (Z.le_refl 0) B0 W) as GB.
    destruct (h_batch sc d t vs h) as [h' ok] eqn:EB. destruct GB as (GI & HP & HF & HC & HR & (l & L1 & L2 & L3) & GB).
    assert (I1 : winv p snap sc h' its (with_group d g' w)).
    { eapply winv_group; eauto. rewrite L1, zlen_app. pose proof (zlen_nonneg _ l). lia. }
    assert (HA' : zlen (h_all h') < 2 ^ 32).
    { unfold h_all. rewrite HF, L1, !zlen_app. lia. }
    destruct (b_verdict sc h d t vs).
    + destruct GB as (-> & ->). apply bind_ret in H. destruct H as (rc & A & H). apply bind_ret in H. destruct H as (w2 & C & H). rinj H.
      destruct (TAIL h' (with_group d g' w) (zlen vs) rc w' I1 eq_refl (zlen_nonneg _ vs)) as [X|(wm & k & new & X1 & X2 & X3 & X4 & X5 & X6)]; auto.
      { rewrite HC, L1, zlen_app, L3 by auto. lia. }
      right. exists wm, k, new. rewrite X4. auto 8.
    + destruct GB as (-> & ->). rinj H. left. reflexivity.
    + destruct GB as (-> & (s & ->)). rinj H. left. reflexivity.
Qed.

(** the file between calls: [n] flushes so far *)
Record sized (h : hist) (w : writer) (n : Z) : Prop := {
  sz_n : 0 <= n;
  sz_file : zlen (file_bytes w) <= 7 + 24 * zlen (h_flushed h) + n * flush_cost;
  sz_chunks : zlen (flat (io_groups (w_io w))) <= n * series_count sc;
  sz_flushes : n * (2 ^ 27 - 150 * series_count sc) <= 24 * zlen (h_flushed h) }.
Lemma flush_cost_nonneg : 0 <= flush_cost.
Proof.
  apply zsum_map_nonneg. intros [d g]. cbn [fst snd]. pose proof (zlen_nonneg _ d).
  pose proof (zsum_map_nonneg _ (fun kv : list Z * mschema => 314 + zlen (fst kv)) g ltac:(intros [m ms]; cbn [fst]; pose proof (zlen_nonneg _ m); lia)). lia.
Qed.
Lemma flush_sized : forall h its new w w' , winv p snap sc h its w -> winv p snap sc (h_flush h) (its ++ new) w' -> Forall2 (item_plan p snap (recent h)) (decls sc) new ->
  zlen (file_bytes w') <= zlen (file_bytes w) + 24 * zlen (h_recent h) + flush_cost /\
  zlen (flat (io_groups (w_io w'))) <= zlen (flat (io_groups (w_io w))) + series_count sc.
Proof.
  intros h its new w w' I I' P. destruct (flush_le h new P) as [A B].
  rewrite (wi_data _ _ _ _ _ _ I), (wi_data _ _ _ _ _ _ I'), (wi_metas _ _ _ _ _ _ I), (wi_metas _ _ _ _ _ _ I').
  rewrite file_of_app, metas_app, flat_app, !zlen_app. specialize (B (7 + zlen (file_of its))). lia.
Qed.
Lemma h_call_flushed : forall o h, h_flushed (h_call sc o h) = h_flushed h.
Proof.
  intros o h.
  assert (B : forall d t vs h, h_flushed (fst (h_batch sc d t vs h)) = h_flushed h).
  { intros d t vs. induction vs as [|[m v] vs IH]; intros h0; cbn [h_batch fst]; auto. destruct (admits sc h0 d m t); auto. rewrite IH. reflexivity. }
  destruct o as [d m t v|d t vs|ord]; cbn [h_call]; auto.
  - destruct (admits sc h d m t); reflexivity.
  - specialize (B d t vs h). destruct (h_batch sc d t vs h) as [h' [|]]; exact B.
Qed.
(** no call of the session lets the memory estimate reach 4 GiB *)
Definition slim (ops : list op) : Prop :=
  forall w h a l o b, ops = a ++ o :: b -> trace p snap sc w h a l -> memory_bound sc (h_call sc o h) < 2 ^ 32.
Lemma slim_app : forall a b, slim (a ++ b) -> slim a.
Proof. intros a b H w h x l o y ->. eapply H. rewrite <- app_assoc. reflexivity. Qed.
Lemma slim_of : forall ops, ops_ok ops -> 24 * zsum (map op_points ops) + 150 * series_count sc < 2 ^ 32 -> slim ops.
Proof.
  intros ops O M w h a l o b -> T. rewrite map_app, zsum_app in M. cbn [map] in M. rewrite zsum_cons in M. pose proof (zsum_map_nonneg _ op_points b op_points_nonneg).
  assert (OK : ops_ok a). { destruct O as [X Y]. apply Forall_app in X. split; [tauto|]. rewrite map_app, zsum_app in Y. cbn [map] in Y. rewrite zsum_cons in Y. pose proof (op_points_nonneg o). lia. }
  destruct (trace_ok p snap decomp HG sc Hsc _ _ _ _ T OK) as (TL & _). pose proof (h_call_len sc o h) as CL.
  unfold memory_bound. pose proof (h_all_split (h_call sc o h)). pose proof (zlen_nonneg _ (h_flushed (h_call sc o h))). lia.
Qed.
Lemma trace_sized : forall w h ops l, trace p snap sc w h ops l -> ops_ok ops -> no_close ops = true -> slim ops ->
  exists n, sized h w n.
Proof.
  intros w h ops l T. induction T as [out w N|w h ops l o w' a T IH H]; intros O NC M.
  - exists 0. pose proof (winv_new p snap sc out w N) as I. split; [lia| | |].
    + rewrite (wi_data _ _ _ _ _ _ I). vm_compute. discriminate.
    + rewrite (wi_metas _ _ _ _ _ _ I). vm_compute. discriminate.
    + vm_compute. discriminate.
  - unfold no_close in NC. rewrite forallb_app in NC. cbn [forallb] in NC. apply andb_prop in NC. destruct NC as [NC1 NC2]. rewrite andb_true_r in NC2. apply negb_true_iff in NC2.
    destruct (last_ok _ _ O) as [O1 O2]. pose proof (op_points_nonneg o).
    assert (OK : ops_ok ops). { destruct O as [X _]. apply Forall_app in X. split; [tauto|]. lia. }
    destruct (IH OK NC1 (slim_app _ _ M)) as (n & S). destruct (trace_ok p snap decomp HG sc Hsc _ _ _ _ T OK) as (TL & its & I & _).
    pose proof (h_call_len sc o h) as CL.
    destruct (step_plan h its w o w' a I O1 ltac:(lia) NC2 H) as [E|(wm & k & new & W1 & W2 & W3 & W4 & W5 & W6)].
    + assert (G : grew w w' = false) by (apply grew_same; unfold file_bytes; rewrite E; reflexivity). rewrite G. unfold h_step. cbn [andb].
      exists n. destruct S as [S1 S2 S3 S4]. unfold file_bytes in *. split; unfold file_bytes; rewrite ?E, ?h_call_flushed; auto.
    + rewrite W4. destruct (mem_bound p snap decomp HG sc Hsc _ _ _ W1) as (k' & _ & K1 & K2).
      { eapply M; [reflexivity|exact T]. }
      rewrite (K1 p) in W2. apply ret_inj in W2. subst k'. unfold memory_bound in K2. change CHUNK_GROUP_SIZE_THRESHOLD_BYTE with (2 ^ 27) in W3.
      exists (n + 1). destruct (flush_sized _ _ _ _ _ W1 W5 W6) as [A B]. destruct S as [S1 S2 S3 S4].
      assert (FB : file_bytes wm = file_bytes w) by (rewrite (wi_data _ _ _ _ _ _ W1), (wi_data _ _ _ _ _ _ I); reflexivity).
      assert (GB : io_groups (w_io wm) = io_groups (w_io w)) by (rewrite (wi_metas _ _ _ _ _ _ W1), (wi_metas _ _ _ _ _ _ I); reflexivity).
      rewrite FB in A. rewrite GB in B. split; [lia| | |]; cbn [h_flush h_flushed]; rewrite ?zlen_app, ?h_call_flushed; lia.
Qed.
(** the state in which the index is written *)
Lemma call_grows : forall w h ops l o w' a, trace p snap sc w h ops l -> ops_ok (ops ++ [o]) -> no_close (ops ++ [o]) = true ->
  step p snap w o = Ret (w', a) -> zlen (file_bytes w') <= zlen (file_bytes w) + 24 * (zlen (h_recent h) + op_points o) + flush_cost.
Proof.
  intros w h ops l o w' a T O NC H. unfold no_close in NC. rewrite forallb_app in NC. cbn [forallb] in NC. apply andb_prop in NC. destruct NC as [NC1 NC2]. rewrite andb_true_r in NC2. apply negb_true_iff in NC2.
  destruct (last_ok _ _ O) as [O1 O2]. pose proof (op_points_nonneg o).
  assert (OK : ops_ok ops). { destruct O as [X _]. apply Forall_app in X. split; [tauto|]. lia. }
  destruct (trace_ok p snap decomp HG sc Hsc _ _ _ _ T OK) as (TL & its & I & _). pose proof (h_call_len sc o h) as CL. rewrite !h_all_split, h_call_flushed in CL. pose proof flush_cost_nonneg. pose proof (zlen_nonneg _ (h_recent h)).
  destruct (step_plan h its w o w' a I O1 ltac:(lia) NC2 H) as [E|(wm & k & new & W1 & W2 & W3 & W4 & W5 & W6)].
  - unfold file_bytes. rewrite E. lia.
  - destruct (flush_sized _ _ _ _ _ W1 W5 W6) as [A _]. assert (FB : file_bytes wm = file_bytes w) by (rewrite (wi_data _ _ _ _ _ _ W1), (wi_data _ _ _ _ _ _ I); reflexivity). rewrite FB in A. lia.
Qed.
Lemma close_sized : forall w h ops l ord w' a, trace p snap sc w h ops l -> ops_ok ops -> no_close ops = true -> slim ops ->
  150 * series_count sc <= 2 ^ 27 -> step p snap w (OpClose ord) = Ret (w', a) ->
  exists w1 its n, winv p snap sc (if 0 <? h_counted h then h_flush h else h) its w1 /\ Forall is_group its /\ end_file p ord (w_io w1) = Ret (w_io w') /\
    0 <= n /\ (n - 1) * (2 ^ 27 - 150 * series_count sc) <= 24 * zlen (h_flushed h) /\
    zlen (file_bytes w1) <= 7 + 24 * zlen (h_all h) + n * flush_cost /\ zlen (flat (io_groups (w_io w1))) <= n * series_count sc /\
    zlen (file_bytes w1) <= zlen (file_bytes w) + 24 * zlen (h_recent h) + flush_cost.
Proof.
  intros w h ops l ord w' a T O NC M M2 H. destruct (trace_sized _ _ _ _ T O NC M) as (n & S). destruct (trace_ok p snap decomp HG sc Hsc w h ops l T O) as (_ & its & I & G). specialize (G NC).
  cbn [step] in H. unfold writer_close in H. apply bind_ret in H. destruct H as ([w1 e] & F & H). cbn [fst] in H. apply bind_ret in H. destruct H as (io & E & H). rinj H.
  destruct (flush_all_ok _ _ _ HG _ Hsc _ _ _ _ _ I F) as [_ K]. cbn [w_io]. destruct S as [S1 S2 S3 S4]. pose proof (h_all_split h) as HA. pose proof flush_cost_nonneg.
  pose proof (zlen_nonneg _ (h_recent h)). assert (SC : 0 <= series_count sc) by (apply zsum_map_nonneg; intros; apply zlen_nonneg).
  destruct (0 <? h_counted h).
  - destruct K as (new & K1 & K2 & _ & _ & K3 & _). exists w1, (its ++ new), (n + 1). destruct (flush_sized _ _ _ _ _ I K1 K3) as [A B].
    split; [exact K1|]. split; [apply Forall_app; auto|]. split; [exact E|]. split; [lia|]. split; [|lia]. replace (n + 1 - 1) with n by lia. exact S4.
  - subst w1. exists w, its, n. split; [exact I|]. split; [auto|]. split; [exact E|]. split; [lia|]. split; lia.
Qed.
End Reach.

(** ** Sums over maps *)
Lemma sum_filter_zero : forall A (k : A -> str) (G : A -> Z) e keys, (forall x, 0 <= G x) -> NoDup keys -> 
  zsum (map (fun q => if str_eqb (k e) q then G e else 0) keys) <= G e.
Proof.
  intros A k G e keys N D. induction D as [|q keys I D IH]; [apply N|]. cbn [map]. rewrite zsum_cons. destruct (str_eqb (k e) q) eqn:E; [|lia].
  apply str_eqb_eq in E. subst q. assert (Z0 : zsum (map (fun q => if str_eqb (k e) q then G e else 0) keys) = 0); [|lia].
  clear - I. induction keys as [|q keys IH]; [reflexivity|]. cbn [map]. rewrite zsum_cons, IH by (intros X; apply I; right; auto).
  destruct (str_eqb (k e) q) eqn:E; [|lia]. apply str_eqb_eq in E. exfalso. apply I. left. auto.
Qed.
Lemma partition_sum : forall A (k : A -> str) (G : A -> Z) keys l, (forall x, 0 <= G x) -> NoDup keys ->
  zsum (map (fun q => zsum (map G (filter (fun e => str_eqb (k e) q) l))) keys) <= zsum (map G l).
Proof.
  intros A k G keys l N D. induction l as [|e l IH].
  - cbn [filter map]. clear. induction keys; [reflexivity|]. cbn [map]. rewrite zsum_cons. unfold zsum at 1. cbn [fold_right]. lia.
  - pose proof (sum_filter_zero A k G e keys N D) as Z0. cbn [map]. rewrite zsum_cons.
    assert (E : zsum (map (fun q => zsum (map G (filter (fun e => str_eqb (k e) q) (e :: l)))) keys) =
      zsum (map (fun q => if str_eqb (k e) q then G e else 0) keys) + zsum (map (fun q => zsum (map G (filter (fun e => str_eqb (k e) q) l))) keys)).
    { rewrite <- zsum_plus. f_equal. apply map_ext. intros q. cbn [filter]. destruct (str_eqb (k e) q); cbn [map]; rewrite ?zsum_cons; lia. }
    lia.
Qed.
Lemma incl_sum : forall A (f : A -> Z) l l', (forall x, 0 <= f x) -> NoDup l -> incl l l' -> zsum (map f l) <= zsum (map f l').
Proof.
  intros A f l l' N D. revert l'. induction D as [|x l I D IH]; intros l' C; [apply zsum_map_nonneg; auto|].
  destruct (in_split x l' (C x (or_introl eq_refl))) as (a & b & ->). specialize (IH (a ++ b)).
  assert (X : incl l (a ++ b)).
  { intros y Y. pose proof (C y (or_intror Y)) as Z0. apply in_app_or in Z0. apply in_or_app. destruct Z0 as [Z0|[Z0|Z0]]; auto. subst y. contradiction. }
  specialize (IH X). rewrite map_app, zsum_app in *. cbn [map]. rewrite !zsum_cons. lia.
Qed.
Lemma zlen_concat_map : forall A B (f : A -> list B) l, zlen (concat (map f l)) = zsum (map (fun x => zlen (f x)) l).
Proof. intros. induction l as [|x l IH]; [reflexivity|]. cbn [map concat]. rewrite zlen_app, zsum_cons, IH. reflexivity. Qed.
Lemma perm_sum : forall A (f : A -> Z) l l', Permutation l l' -> zsum (map f l) = zsum (map f l').
Proof. intros A f l l' H. induction H; cbn [map]; rewrite ?zsum_cons; lia. Qed.

(** ** The index *)
Definition count_ok (cm : chunk_meta) : Prop := 0 <= st_count (cm_stats cm) < 2 ^ 32.
Lemma arithU32_range : forall p v c, arithU p 32 v = Ret c -> 0 <= c < 2 ^ 32.
Proof.
  intros p v c H. apply arithU_inv in H; [|lia]. subst c. apply wrapU32_range.
Qed.
Lemma ts_fold_size : forall p (sev : bool) dt l buf st buf' st', Forall count_ok l -> 0 <= st_count st < 2 ^ 32 ->
  foldM (fun acc m => let '(buffer, st) := acc in
           if dtype_eqb (cm_type m) dt then let* st' := stats_merge p st (cm_stats m) in Ret (buffer ++ wbytes (chunk_meta_serialize sev m), st')
           else Ret acc) l (buf, st) = Ret (buf', st') ->
  zlen buf' <= zlen buf + 69 * zlen l /\ 0 <= st_count st' < 2 ^ 32.
Proof.
  intros p sev dt l. induction l as [|cm l IH]; intros buf st buf' st' F C H; cbn [foldM] in H; [rinj H; rewrite zlen_nil; lia|].
  inversion F as [|? ? F1 F2]; subst. rewrite zlen_cons. apply bind_ret in H. destruct H as ([b1 s1] & H1 & H). destruct (dtype_eqb (cm_type cm) dt).
  - apply bind_ret in H1. destruct H1 as (s2 & M & H1). rinj H1. apply IH in H; [|auto|].
    + rewrite zlen_app in H. unfold chunk_meta_serialize in H. cbn [wbytes] in H. rewrite zlen_app, be_bytes_zlen in H. pose proof (stats_bytes_le _ F1).
      assert (zlen (wbytes (if sev then stats_serialize (cm_stats cm) else WNil)) <= 61) by (destruct sev; [auto|vm_compute; discriminate]). lia.
    + unfold stats_merge in M. destruct (dtype_eqb _ _) in M; [|discriminate]. destruct (_ <? _) in M; destruct (_ >? _) in M;
        (apply bind_ret in M; destruct M as (c & M1 & M); apply bind_ret in M; destruct M as (sm & _ & M); apply ret_inj in M; subst s1; cbn [st_count]; eapply arithU32_range; exact M1).
  - rinj H1. apply IH in H; auto. lia.
Qed.
Lemma tser_le : forall p cms tm, ts_meta_of p cms = Ret tm -> Forall count_ok cms -> (forall m0 l, cms = m0 :: l -> zlen (cm_id m0) < 2 ^ 31) ->
  exists m0 l, cms = m0 :: l /\ zlen (tser tm) <= 73 + zlen (cm_id m0) + 69 * zlen cms.
Proof.
  intros p cms tm H F N. unfold ts_meta_of in H. destruct cms as [|m0 l]; [discriminate|]. exists m0, l. split; [reflexivity|].
  apply bind_ret in H. destruct H as ([b st] & H1 & H). apply ret_inj in H. subst tm. apply ts_fold_size in H1; [|auto|cbn; lia]. destruct H1 as [A B]. rewrite zlen_nil in A.
  unfold tser, ts_meta_serialize. cbn [wbytes tm_type tm_id tm_dtype tm_list_size tm_stats tm_buffer]. rewrite app_nil_r, !zlen_app. change (zlen [_]) with 1.
  pose proof (size_i32_le _ (N m0 l eq_refl)). destruct (var_u32_len _ (wrapU32_range (zlen b))) as (U & _). pose proof (stats_bytes_le _ B). lia.
Qed.
Lemma entry_le : forall tm o, zlen (wbytes (index_entry_serialize (mkIE (tm_id tm) o))) <= zlen (tser tm).
Proof.
  intros tm o. unfold index_entry_serialize, tser, ts_meta_serialize. cbn [wbytes ie_name ie_offset tm_id]. rewrite !app_nil_r, !zlen_app, be_bytes_zlen.
  unfold stats_serialize. cbn [wbytes]. rewrite !zlen_app, !be_bytes_zlen.
  repeat match goal with |- context [zlen ?x] => lazymatch goal with H : 0 <= zlen x |- _ => fail | _ => pose proof (zlen_nonneg _ x) end end. lia.
Qed.
Lemma leaf_le : forall blocks o, Forall (fun b => b <> []) blocks -> zlen (nbytes (leaf_node o blocks)) <= 14 + zlen (tbytes (concat blocks)).
Proof.
  intros blocks o F. unfold nbytes. rewrite node_bytes. cbn [leaf_node in_children in_end in_type]. rewrite !zlen_app, be_bytes_zlen. change (zlen [_]) with 1.
  destruct (var_u32_len _ (wrapU32_range (zlen (block_entries o blocks)))) as (U & _).
  assert (E : forall bs o, Forall (fun b => b <> []) bs -> zlen (entries_bytes (block_entries o bs)) <= zlen (tbytes (concat bs))).
  { clear. induction bs as [|b bs IH]; intros o F; [reflexivity|]. inversion F as [|? ? F1 F2]; subst. destruct b as [|m b]; [congruence|].
    specialize (IH (o + zlen (tbytes (m :: b))) F2). cbn [block_entries first_id concat]. rewrite tbytes_app, zlen_app. unfold entries_bytes in *. cbn [map concat]. rewrite zlen_app.
    change (tbytes (m :: b)) with (tser m ++ tbytes b) in *. rewrite zlen_app in *. pose proof (entry_le m o). pose proof (zlen_nonneg _ (tbytes b)). lia. }
  pose proof (E blocks o F). change (Z.of_nat 8) with 8 in *. lia.
Qed.
Lemma bits_loop_len : forall bits i res r, bits_loop i bits res = Ret r -> length r = length res.
Proof.
  intros bits. induction bits as [|b bits IH]; intros i res r H; cbn [bits_loop] in H; [apply ret_inj in H; congruence|].
  apply bind_ret in H. destruct H as (v & _ & H). cbv zeta in H. apply IH in H. rewrite H. apply vec_set_length.
Qed.
Lemma bloom_len : forall p paths bf bw, bloom_build p paths = Ret bf -> bloom_serialize bf = Ret bw -> zlen paths <= 300000000 -> zlen (wbytes bw) <= zlen paths + 48.
Proof.
  intros p paths bf bw B W N. apply build_shape in B. destruct B as (B1 & B2 & B3). pose proof (bloom_bits_le (zlen paths)) as BL. pose proof (zlen_nonneg _ paths).
  unfold bloom_serialize in W. apply bind_ret in W. destruct W as (bs & S & W). apply ret_inj in W. subst bw. cbn [wbytes]. rewrite app_nil_r, !zlen_app.
  destruct (var_u32_len _ (wrapU32_range (zlen bs))) as (U1 & _). destruct (var_u32_len _ (wrapU32_range (bf_size bf))) as (U2 & _).
  destruct (var_u32_len _ (wrapU32_range (bf_hash_function_size bf))) as (U3 & _).
  assert (L : 8 * zlen bs <= zlen (bf_bits bf) + 7); [|lia].
  unfold serialize_bits in S. cbv zeta in S. apply bind_ret in S. destruct S as (r & S1 & S). apply ret_inj in S. subst bs. apply bits_loop_len in S1. rewrite repeat_length in S1.
  pose proof (strip_trailing_len r) as T. rewrite S1 in T. unfold zlen. set (n := length (bf_bits bf)) in *.
  pose proof (Nat.div_mod n 8 ltac:(lia)). pose proof (Nat.mod_upper_bound n 8 ltac:(lia)). pose proof (Nat.div_mod (n + n mod 8) 8 ltac:(lia)).
  destruct (n mod 8 =? 0)%nat; lia.
Qed.
Lemma root_le : forall root, Forall (fun e => zlen (ie_name e) < 2 ^ 31) (in_children root) ->
  zlen (nbytes root) <= 14 + zsum (map (fun e => 13 + zlen (ie_name e)) (in_children root)).
Proof.
  intros root F. unfold nbytes. rewrite node_bytes, !zlen_app, be_bytes_zlen. change (zlen [_]) with 1.
  destruct (var_u32_len _ (wrapU32_range (zlen (in_children root)))) as (U & _).
  assert (E : zlen (entries_bytes (in_children root)) <= zsum (map (fun e => 13 + zlen (ie_name e)) (in_children root))).
  { unfold entries_bytes. rewrite zlen_concat_map. apply zsum_map_le. intros e I. rewrite Forall_forall in F. specialize (F e I).
    unfold index_entry_serialize. cbn [wbytes]. rewrite app_nil_r, zlen_app, be_bytes_zlen. pose proof (size_i32_le _ F). change (Z.of_nat 8) with 8. lia. }
  change (Z.of_nat 8) with 8. lia.
Qed.
Lemma nonempty_sum : forall V (f : str * list V -> Z) m, (forall x, 0 <= f x) -> zsum (map f (nonempty m)) <= zsum (map f m).
Proof.
  intros V f m N. induction m as [|x m IH]; [reflexivity|]. unfold nonempty in *. cbn [filter]. pose proof (N x). destruct (snd x); cbn [map]; rewrite ?zsum_cons; lia.
Qed.
Lemma construct_size : forall ord tsm out root out', good_order ord -> is_healthy out -> sk_pos out = zlen (sk_data out) ->
  Forall (fun dl => zlen (fst dl) < 2 ^ 31 /\ zlen (snd dl) <= 65536) tsm -> construct_metadata_index 256 ord tsm out = Ret (root, out') ->
  zlen (sk_data out') + zlen (nbytes root) <= zlen (sk_data out) + 14 + zsum (map (fun dl => 2 * zlen (tbytes (snd dl)) + (27 + zlen (fst dl))) tsm).
Proof.
  intros ord tsm out root out' GO Hh Hp F H. unfold construct_metadata_index in H. apply bind_ret in H. destruct H as ([imap o1] & H1 & H).
  destruct (device_loop_spec tsm out imap o1 Hh Hp ltac:(eapply Forall_impl; [|exact F]; cbn; tauto) H1) as [A B].
  destruct (length imap <=? 256)%nat; [|discriminate].
  destruct (device_entries (ord imap) (index_node_new LeafDevice) o1) as [node o2] eqn:E. rinj H.
  assert (P1 : sk_pos o1 = zlen (sk_data o1)). { rewrite (se_data _ _ _ B), (se_pos _ _ _ B), zlen_app. lia. }
  destruct (device_entries_spec _ _ _ _ _ (sk_ext_healthy _ _ _ B Hh) P1 E) as (es & E1 & E2 & E3 & _). cbn [index_node_new in_children in_end in_type app] in E1. subst node.
  rewrite (se_data _ _ _ E3), (se_data _ _ _ B), !zlen_app, !zlen_concat_map.
  assert (N : map ie_name es = map fst (ord imap)). { clear - E2. induction E2 as [|a e l es [X _] E2 IH]; [reflexivity|]. cbn [map]. congruence. }
  assert (R1 : zsum (map (fun dn : str * index_node => zlen (nbytes (snd dn))) (ord imap)) <= zsum (map (fun dl => 14 + zlen (tbytes (snd dl))) (nonempty tsm))).
  { rewrite (perm_sum _ _ _ _ (GO imap)). clear - A. induction A as [|dl dn l im [_ X] A IH]; [reflexivity|]. cbn [map]. rewrite !zsum_cons.
    destruct X as [(o & bl & X1 & X2 & X3 & _)]. rewrite X1. pose proof (leaf_le bl o X3) as Y. rewrite X2 in Y. lia. }
  assert (R2 : zlen (nbytes (with_end (sk_pos out') (mkIN es 0 LeafDevice))) <= 14 + zsum (map (fun dl : str * list ts_meta => 13 + zlen (fst dl)) (nonempty tsm))).
  { assert (Q : map fst imap = map fst (nonempty tsm)). { clear - A. induction A as [|dl dn l im [X _] A IH]; [reflexivity|]. cbn [map]. congruence. }
    assert (S : zsum (map (fun e => 13 + zlen (ie_name e)) es) = zsum (map (fun dl : str * list ts_meta => 13 + zlen (fst dl)) (nonempty tsm))).
    { rewrite <- (map_map ie_name (fun s => 13 + zlen s)), N, map_map, (perm_sum _ _ _ _ (GO imap)).
      rewrite <- (map_map fst (fun s => 13 + zlen s)), Q, map_map. reflexivity. }
    rewrite <- S. apply (root_le (with_end (sk_pos out') (mkIN es 0 LeafDevice))). cbn [with_end in_children]. apply Forall_forall. intros e I. apply (in_map ie_name) in I. rewrite N in I.
    apply in_map_iff in I. destruct I as (dn & <- & I). apply (Permutation_in _ (GO imap)) in I. apply (in_map fst) in I. rewrite Q in I. apply in_map_iff in I. destruct I as (dl & <- & I).
    unfold nonempty in I. apply filter_In in I. rewrite Forall_forall in F. apply (F _ (proj1 I)). }
  assert (R3 : zsum (map (fun dl : str * list ts_meta => 27 + zlen (fst dl) + zlen (tbytes (snd dl))) (nonempty tsm)) <= zsum (map (fun dl => 27 + zlen (fst dl) + zlen (tbytes (snd dl))) tsm)).
  { apply nonempty_sum. intros x. pose proof (zlen_nonneg _ (fst x)). pose proof (zlen_nonneg _ (tbytes (snd x))). lia. }
  assert (R4 : zsum (map (fun dl : str * list ts_meta => 27 + zlen (fst dl) + zlen (tbytes (snd dl))) (nonempty tsm)) =
    zsum (map (fun dl : str * list ts_meta => 14 + zlen (tbytes (snd dl))) (nonempty tsm)) + zsum (map (fun dl : str * list ts_meta => 13 + zlen (fst dl)) (nonempty tsm))).
  { rewrite <- zsum_plus. f_equal. apply map_ext. intros x. lia. }
  assert (R5 : zsum (map (fun dl => 2 * zlen (tbytes (snd dl)) + (27 + zlen (fst dl))) tsm) = zsum (map (fun dl => zlen (tbytes (snd dl))) tsm) + zsum (map (fun dl => 27 + zlen (fst dl) + zlen (tbytes (snd dl))) tsm)).
  { rewrite <- zsum_plus. f_equal. apply map_ext. intros x. lia. }
  lia.
Qed.
Lemma end_file_size : forall p ord io io', good_order ord -> is_healthy (io_out io) -> sk_pos (io_out io) = zlen (sk_data (io_out io)) -> io_tsmeta io = [] ->
  (forall q cms, In (q, cms) (chunk_map (io_groups io)) -> zlen (device_of_path q) < 2 ^ 31 /\ Forall count_ok cms /\ (forall m0 l, cms = m0 :: l -> zlen (cm_id m0) < 2 ^ 31 /\ zlen (cm_id m0) <= zlen q)) ->
  (forall d, zlen (filter (of_device d) (chunk_map (io_groups io))) <= 65536) -> zlen (chunk_map (io_groups io)) <= 300000000 ->
  end_file p ord io = Ret io' ->
  zlen (sk_data (io_out io')) <= zlen (sk_data (io_out io)) + 81 + 138 * zlen (flat (io_groups io)) + zsum (map (fun q => 174 + 3 * zlen q) (map fst (chunk_map (io_groups io)))).
Proof.
  intros p ord io io' GO Hh Hp HT HC HD HN H. unfold end_file in H. cbv zeta in H.
  apply bind_ret in H. destruct H as (tsm & HM & H). apply bind_ret in H. destruct H as ([root o1] & HX & H).
  apply bind_ret in H. destruct H as (bf & HB & H). apply bind_ret in H. destruct H as (bw & HW & H).
  set (cmap := chunk_map (io_groups io)) in *. destruct (chunk_map_spec (io_groups io)) as (CS & CN & CG). fold cmap in CS, CN, CG.
  rewrite HT in HM. destruct (metadata_loop_spec _ _ _ _ _ HM (sorted_nil _) (Forall_nil _)) as (tms & F2 & TS & TN & TG).
  assert (TIN : forall d l, In (d, l) tsm -> l = map snd (filter (of_device d) tms) /\ l <> []).
  { intros d l I. apply (getl_in _ _ _ _ TS TN) in I. destruct I as [I1 I2]. split; auto. rewrite TG in I1. cbn in I1. congruence. }
  assert (K : map fst tms = map fst cmap). { clear - F2. induction F2 as [|a b l l' [X _] F2 IH]; [reflexivity|]. cbn [map]. congruence. }
  assert (KD : forall d, zlen (filter (of_device d) tms) = zlen (filter (of_device d) cmap)).
  { intros d. clear - F2. induction F2 as [|a b l l' [X _] F2 IH]; [reflexivity|]. cbn [filter]. assert (Y : of_device d b = of_device d a) by (unfold of_device; rewrite X; auto). rewrite Y. destruct (of_device d a); rewrite ?zlen_cons; congruence. }
  assert (FT : Forall (fun dl : str * list ts_meta => zlen (fst dl) < 2 ^ 31 /\ zlen (snd dl) <= 65536) tsm).
  { apply Forall_forall. intros [d l] I. cbn [fst snd]. destruct (TIN d l I) as [E NE]. split.
    - destruct (filter (of_device d) tms) as [|[q e] r] eqn:EF; [cbn in E; congruence|].
      assert (J : In (q, e) tms /\ of_device d (q, e) = true) by (apply (filter_In (of_device d)); rewrite EF; left; auto). destruct J as [J1 J2].
      unfold of_device in J2. cbn [fst] in J2. apply str_eqb_eq in J2. subst d. apply (in_map fst) in J1. rewrite K in J1. apply in_map_iff in J1. destruct J1 as ([q' cms] & Q & J1). cbn [fst] in Q. subst q'.
      apply (HC q cms J1).
    - rewrite E. unfold zlen at 1. rewrite map_length. specialize (KD d). specialize (HD d). unfold zlen in *. lia. }
  (* sizes of the time series metadata *)
  assert (TM : zsum (map (fun e : str * ts_meta => zlen (tser (snd e))) tms) <= zsum (map (fun q => 73 + zlen q) (map fst cmap)) + 69 * zlen (flat (io_groups io))).
  { assert (C : zsum (map (fun qc : str * list chunk_meta => zlen (snd qc)) cmap) <= zlen (flat (io_groups io))).
    { pose proof (partition_sum _ (fun x : str * chunk_meta => path_of (fst x) (cm_id (snd x))) (fun _ => 1) (map fst cmap) (flat (io_groups io)) ltac:(intros; lia) (lt_nodup _ CS)) as P.
      assert (ONE : forall A (l : list A), zsum (map (fun _ => 1) l) = zlen l). { induction l as [|x l IH]; [reflexivity|]. cbn [map]. rewrite zsum_cons, zlen_cons, IH. lia. }
      rewrite ONE, map_map in P. etransitivity; [|exact P]. apply zsum_map_le. intros [q cms] I. cbn [fst snd]. apply (getl_in _ _ _ _ CS CN) in I. destruct I as [I _].
      rewrite ONE, <- I, CG. unfold zlen. rewrite map_length. apply Z.le_refl. }
    assert (C2 : zsum (map (fun e : str * ts_meta => zlen (tser (snd e))) tms) <= zsum (map (fun qc : str * list chunk_meta => 73 + zlen (fst qc) + 69 * zlen (snd qc)) cmap)).
    { clear - F2 HC. induction F2 as [|[q cms] [q' tm] l l' [X Y] F2 IH]; [reflexivity|]. cbn [map fst snd] in *. rewrite !zsum_cons.
      destruct (HC q cms (or_introl eq_refl)) as (_ & C1 & C2). destruct (tser_le p cms tm Y C1 ltac:(intros; apply (C2 m0 l0); auto)) as (m0 & r & E & T).
      specialize (IH (fun q0 c0 I => HC q0 c0 (or_intror I))). destruct (C2 m0 r E). lia. }
    assert (C3 : zsum (map (fun qc : str * list chunk_meta => 73 + zlen (fst qc) + 69 * zlen (snd qc)) cmap) = zsum (map (fun q => 73 + zlen q) (map fst cmap)) + 69 * zsum (map (fun qc : str * list chunk_meta => zlen (snd qc)) cmap)).
    { rewrite map_map. generalize cmap. intros l. induction l as [|x l IH]; [reflexivity|]. cbn [map]. rewrite !zsum_cons, IH. lia. }
    lia. }
  assert (NN : NoDup (map fst tsm)) by (apply lt_nodup; exact TS).
  assert (SUM : zsum (map (fun dl => 2 * zlen (tbytes (snd dl)) + (27 + zlen (fst dl))) tsm) <= zsum (map (fun e : str * ts_meta => 2 * zlen (tser (snd e)) + (27 + zlen (fst e))) tms)).
  { assert (NG : forall e : str * ts_meta, 0 <= 2 * zlen (tser (snd e)) + (27 + zlen (fst e))) by (intros e; pose proof (zlen_nonneg _ (tser (snd e))); pose proof (zlen_nonneg _ (fst e)); lia).
    etransitivity; [|apply (partition_sum _ (fun x : str * ts_meta => device_of_path (fst x)) _ (map fst tsm) tms NG NN)].
    rewrite map_map. apply zsum_map_le. intros [d l] I. cbn [fst snd]. destruct (TIN d l I) as [E NE].
    change (fun e : str * ts_meta => str_eqb (device_of_path (fst e)) d) with (@of_device d ts_meta).
    assert (A1 : zlen (tbytes l) = zsum (map (fun e : str * ts_meta => zlen (tser (snd e))) (filter (of_device d) tms))).
    { rewrite E. unfold tbytes. rewrite map_map, zlen_concat_map. reflexivity. }
    assert (A2 : zsum (map (fun e : str * ts_meta => 2 * zlen (tser (snd e)) + (27 + zlen (fst e))) (filter (of_device d) tms)) = 2 * zlen (tbytes l) + zsum (map (fun e : str * ts_meta => 27 + zlen (fst e)) (filter (of_device d) tms))).
    { rewrite A1. generalize (filter (of_device d) tms). intros r. induction r as [|x r IH]; [reflexivity|]. cbn [map]. rewrite !zsum_cons, IH. lia. }
    rewrite A2. assert (A3 : 27 + zlen d <= zsum (map (fun e : str * ts_meta => 27 + zlen (fst e)) (filter (of_device d) tms))); [|lia].
    destruct (filter (of_device d) tms) as [|[q e] r] eqn:EF; [cbn in E; congruence|].
    assert (J : of_device d (q, e) = true) by (apply (proj2 (proj1 (filter_In (of_device d) (q, e) tms) ltac:(rewrite EF; left; auto)))).
    unfold of_device in J. cbn [fst] in J. apply str_eqb_eq in J. subst d. cbn [map]. rewrite zsum_cons. cbn [fst].
    pose proof (join_len q). pose proof (zsum_map_nonneg _ (fun e : str * ts_meta => 27 + zlen (fst e)) r ltac:(intros x; pose proof (zlen_nonneg _ (fst x)); lia)). lia. }
  assert (SPL : zsum (map (fun e : str * ts_meta => 2 * zlen (tser (snd e)) + (27 + zlen (fst e))) tms) =
    2 * zsum (map (fun e : str * ts_meta => zlen (tser (snd e))) tms) + zsum (map (fun q => 27 + zlen q) (map fst cmap))).
  { rewrite <- K, map_map. generalize tms. intros r. induction r as [|x r IH]; [reflexivity|]. cbn [map]. rewrite !zsum_cons, IH. lia. }
  assert (FIN : zsum (map (fun q => 174 + 3 * zlen q) (map fst cmap)) = 2 * zsum (map (fun q => 73 + zlen q) (map fst cmap)) + zsum (map (fun q => 27 + zlen q) (map fst cmap)) + zlen (map fst cmap)).
  { generalize (map fst cmap). intros r. induction r as [|x r IH]; [reflexivity|]. cbn [map]. rewrite !zsum_cons, IH, zlen_cons. lia. }
  assert (LK : zlen (map fst cmap) <= 300000000) by (unfold zlen in *; rewrite map_length; auto).
  pose proof (bloom_len _ _ _ _ HB HW LK) as BL.
  (* the bytes *)
  pose proof (wexec_healthy_fst (WAll [2]) _ Hh) as X0. cbn [wbytes] in X0.
  assert (P0 : sk_pos (fst (wexec (WAll [2]) (io_out io))) = zlen (sk_data (fst (wexec (WAll [2]) (io_out io))))).
  { rewrite (se_data _ _ _ X0), (se_pos _ _ _ X0), zlen_app. lia. }
  pose proof (sk_ext_healthy _ _ _ X0 Hh) as H0. destruct (construct_spec _ _ _ _ _ H0 P0 HX) as (_ & pre & _ & _ & _ & _ & _ & _ & C6).
  pose proof (construct_size _ _ _ _ _ GO H0 P0 FT HX) as CZ.
  set (o0 := fst (wexec (WAll [2]) (io_out io))) in *. clearbody o0. pose proof (sk_ext_healthy _ _ _ C6 H0) as H1.
  pose proof (wexec_healthy_fst (ts_file_metadata_serialize root (sk_pos (io_out io))) o1 H1) as X2. set (o2 := fst (wexec (ts_file_metadata_serialize root (sk_pos (io_out io))) o1)) in *. clearbody o2.
  pose proof (sk_ext_healthy _ _ _ X2 H1) as H2. pose proof (wexec_healthy_fst bw o2 H2) as X3. set (o3 := fst (wexec bw o2)) in *. clearbody o3.
  pose proof (sk_ext_healthy _ _ _ X3 H2) as H3.
  pose proof (wexec_healthy_fst (WAll (be_bytes 4 (wrapU 32 (sk_pos o3 - sk_pos o1)))) o3 H3) as X4. set (o4 := fst (wexec (WAll (be_bytes 4 (wrapU 32 (sk_pos o3 - sk_pos o1)))) o3)) in *. clearbody o4.
  pose proof (sk_ext_healthy _ _ _ X4 H3) as H4. pose proof (wexec_healthy_fst (WAll MAGIC) o4 H4) as X5. set (o5 := fst (wexec (WAll MAGIC) o4)) in *. clearbody o5.
  rinj H. cbn [io_with_out io_out] in *. cbn [wbytes] in X4, X5.
  rewrite (se_data _ _ _ X5), (se_data _ _ _ X4), (se_data _ _ _ X3), (se_data _ _ _ X2), !zlen_app, be_bytes_zlen. change (zlen MAGIC) with 6.
  assert (RZ : zlen (wbytes (ts_file_metadata_serialize root (sk_pos (io_out io)))) = zlen (nbytes root) + 8).
  { unfold ts_file_metadata_serialize. cbn [wbytes]. rewrite app_nil_r, zlen_app, be_bytes_zlen. reflexivity. }
  rewrite (se_data _ _ _ X0), zlen_app in CZ. change (zlen [2]) with 1 in CZ. change (Z.of_nat 4) with 4. lia.
Qed.

Lemma weighted_sum : forall A (f g h : A -> Z) l, (forall x, g x = f x + 138 * h x) -> zsum (map f l) + 138 * zsum (map h l) = zsum (map g l).
Proof. intros A f g h l H. induction l as [|x l IH]; [reflexivity|]. cbn [map]. rewrite !zsum_cons, <- IH, H. lia. Qed.
Lemma per_flush_split : forall sc, flush_cost sc + 138 * series_count sc = per_flush sc.
Proof.
  intros sc. unfold flush_cost, per_flush, series_count. apply weighted_sum. intros dg.
  assert (E : zlen (snd dg) = zsum (map (fun _ => 1) (snd dg))). { generalize (snd dg). intros l. induction l as [|x l IH]; [reflexivity|]. cbn [map]. rewrite zsum_cons, zlen_cons, IH. lia. }
  rewrite E, <- (Z.add_assoc (6 + _)). f_equal. symmetry. apply weighted_sum. intros x. lia.
Qed.

(** ** The closed file *)
Section Closed.
Variable p : profile.
Variable snap decomp : list Z -> option (list Z).
Hypothesis HG : good_snap snap decomp.
Variable sc : schema.
Hypothesis Hsc : schema_ok sc.

Lemma cmap_group : forall its off, Forall (item_ok p snap sc) its -> no_dots sc -> forall d, filter (of_device d) (chunk_map (metas off its)) = [] \/
  exists g, In (d, g) sc /\ zlen (filter (of_device d) (chunk_map (metas off its))) <= zlen g.
Proof.
  intros its off HI ND d. set (A := filter (of_device d) (chunk_map (metas off its))). destruct (chunk_map_spec (metas off its)) as (S & _ & _).
  assert (N : NoDup (map fst A)).
  { assert (N0 : NoDup (map fst (chunk_map (metas off its)))) by (apply lt_nodup; exact S). clear - N0. unfold A. revert N0. generalize (chunk_map (metas off its)). intros l. induction l as [|a l IH]; intros H; [constructor|].
    inversion H; subst. cbn [filter]. destruct (of_device d a); auto. cbn [map]. constructor; auto. intros X. apply H2. apply in_map_iff in X. destruct X as (z & <- & X). apply filter_In in X. apply in_map. apply X. }
  assert (K : forall q, In q (map fst A) -> exists m ms, q = path_of d m /\ declares sc d m ms).
  { intros q I. apply in_map_iff in I. destruct I as ([q' cms] & <- & I). unfold A in I. apply filter_In in I. destruct I as [I1 I2]. cbn [fst].
    apply (in_map fst) in I1. destruct (cmap_keys p snap decomp HG sc Hsc its off _ HI I1) as (d' & m & ms & D & E). cbn [fst] in E. subst q'.
    unfold of_device in I2. cbn [fst] in I2. apply str_eqb_eq in I2. change (d' ++ [46] ++ m) with (path_of d' m) in *. rewrite device_of_path_of in I2 by (eapply ND; eauto). subst d'. eauto. }
  destruct A as [|a A'] eqn:EA; [left; reflexivity|right]. destruct (K (fst a)) as (m0 & ms0 & _ & (g & D1 & D2)); [left; auto|]. exists g. split; [exact D1|].
  assert (L : (length (map fst (a :: A')) <= length (map (fun x => path_of d (fst x)) g))%nat).
  { apply NoDup_incl_length; auto. intros q I. apply K in I. destruct I as (m & ms & -> & (g' & D3 & D4)).
    assert (g' = g). { destruct Hsc as [ND' _]. pose proof (sm_get_nodup _ _ _ _ ND' D1). pose proof (sm_get_nodup _ _ _ _ ND' D3). congruence. }
    subst g'. apply in_map_iff. exists (m, ms). auto. }
  rewrite !map_length in L. unfold zlen in *. lia.
Qed.
Lemma cmap_count : forall its off, Forall (item_ok p snap sc) its -> no_dots sc -> small_devices sc -> forall d, zlen (filter (of_device d) (chunk_map (metas off its))) <= 65536.
Proof.
  intros its off HI ND SD d. destruct (cmap_group its off HI ND d) as [->|(g & D1 & L)]; [unfold zlen; cbn; lia|].
  unfold small_devices in SD. rewrite Forall_forall in SD. apply SD in D1. cbn [snd] in D1. lia.
Qed.
Lemma declares_keys : forall d m ms, declares sc d m ms -> In (d, m) (keys_of (decls sc)).
Proof.
  intros d m ms D. apply declares_get in D; auto. destruct D as (g & D1 & D2). unfold keys_of. apply in_flat_map. exists (d, g). split; [apply sm_get_in; auto|].
  cbn [fst snd]. apply in_map_iff. exists (m, ms). split; auto. apply sm_get_in; auto.
Qed.
Lemma cmap_sum : forall its off (f : str -> Z), (forall q, 0 <= f q) -> Forall (item_ok p snap sc) its ->
  zsum (map f (map fst (chunk_map (metas off its)))) <= zsum (map (fun dg => zsum (map (fun kv => f (path_of (fst dg) (fst kv))) (snd dg))) sc).
Proof.
  intros its off f N HI. destruct (chunk_map_spec (metas off its)) as (S & _ & _).
  etransitivity; [apply (incl_sum _ f _ (map (fun k => path_of (fst k) (snd k)) (keys_of (decls sc))) N (lt_nodup _ S))|].
  - intros q I. destruct (cmap_keys p snap decomp HG sc Hsc its off _ HI I) as (d & m & ms & D & ->). apply declares_keys in D. apply in_map_iff. exists (d, m). auto.
  - rewrite map_map, <- (keys_sum (fun d m => f (path_of d m))). exact (decls_sum (fun _ => 0) (fun d m => f (path_of d m)) sc ltac:(intros; lia) ltac:(intros; apply N)).
Qed.
Lemma cmap_entries : forall its off q cms, Forall (item_ok p snap sc) its -> no_dots sc -> In (q, cms) (chunk_map (metas off its)) ->
  zlen (device_of_path q) < 2 ^ 31 /\ Forall count_ok cms /\ (forall m0 l, cms = m0 :: l -> zlen (cm_id m0) < 2 ^ 31 /\ zlen (cm_id m0) <= zlen q).
Proof.
  intros its off q cms HI ND I. destruct (chunk_map_spec (metas off its)) as (S & N & E). pose proof I as I0. apply (getl_in _ _ _ _ S N) in I. destruct I as [I NE]. rewrite E in I.
  assert (LEN : forall d m ms, declares sc d m ms -> zlen d < 2 ^ 31 /\ zlen m < 2 ^ 31).
  { intros d m ms (g & A & B). destruct Hsc as [_ F]. rewrite Forall_forall in F. apply F in A. cbn [fst snd] in A. destruct A as (A1 & A2 & A3). split; auto.
    rewrite Forall_forall in A3. apply (A3 _ B). }
  assert (ALL : forall cm, In cm cms -> exists d o c, cm = cmeta o (c_cw c) /\ citem_ok p snap c /\ declares sc d (c_name c) (c_ms c) /\ q = path_of d (c_name c) /\ cm_id cm = c_name c).
  { intros cm J. rewrite <- I in J. apply in_map_iff in J. destruct J as ([d cm'] & <- & J). cbn [snd]. apply filter_In in J. destruct J as [J1 J2]. unfold on_path in J2. cbn [fst snd] in J2. apply str_eqb_eq in J2.
    destruct (flat_in_its _ _ _ _ J1) as (x & cs & y & c & o & -> & K & ->). destruct (item_declares p snap sc Hsc _ _ _ _ _ HI K) as [C D].
    exists d, o, c. destruct (sealed_inv p snap decomp HG _ _ _ _ (co_ok _ _ _ C) (co_sealed _ _ _ C)) as (pages & ims & IV & _). pose proof (ci_id _ _ _ _ _ _ _ _ _ _ IV) as ID.
    cbn [cmeta cm_id] in *. rewrite ID in J2. auto. }
  split; [|split].
  - apply (in_map fst) in I0. destruct (cmap_keys p snap decomp HG sc Hsc its off _ HI I0) as (d & m & ms & D & E2). cbn [fst] in E2. subst q.
    change (d ++ [46] ++ m) with (path_of d m). rewrite device_of_path_of by (eapply ND; eauto). apply (LEN _ _ _ D).
  - apply Forall_forall. intros cm J. destruct (ALL cm J) as (d & o & c & -> & C & _). unfold count_ok. cbn [cmeta cm_stats].
    destruct (chunk_tree_count p snap decomp HG _ _ _ _ (co_ok _ _ _ C) (co_sealed _ _ _ C)) as [-> _]. pose proof (zlen_nonneg _ (c_pts c)). split; [lia|]. apply (proj2 (co_ok _ _ _ C)).
  - intros m0 l ->. destruct (ALL m0 (or_introl eq_refl)) as (d & o & c & X & C & D & -> & ID). rewrite ID. split; [apply (LEN _ _ _ D)|]. unfold path_of. rewrite !zlen_app. pose proof (zlen_nonneg _ d). pose proof (zlen_nonneg _ [46]). lia.
Qed.

Lemma close_grows : forall w h ops l ord w' a, trace p snap sc w h ops l -> ops_ok ops -> no_close ops = true -> slim p snap sc ops ->
  150 * series_count sc < 2 ^ 27 -> no_dots sc -> small_devices sc -> good_order ord -> step p snap w (OpClose ord) = Ret (w', a) ->
  zlen (file_bytes w') <= size_bound sc (zlen (h_all h)) /\
  zlen (file_bytes w') <= zlen (file_bytes w) + 24 * zlen (h_recent h) + (most_flushes sc (zlen (h_all h)) + 1) * per_flush sc + per_file sc.
Proof.
  intros w h ops l ord w' a T O NC M M2 ND SD GO H. destruct (close_sized p snap decomp HG sc Hsc _ _ _ _ _ _ _ T O NC M ltac:(lia) H) as (w1 & its & n & I & IG & E & N0 & N1 & N2 & N3 & N4).
  pose proof (wi_items _ _ _ _ _ _ I) as HI. pose proof (wi_metas _ _ _ _ _ _ I) as HM. change 7 with (zlen (MAGIC ++ [3])) in HM.
  assert (SC : 0 <= series_count sc) by (apply zsum_map_nonneg; intros; apply zlen_nonneg).
  assert (CL : zlen (chunk_map (io_groups (w_io w1))) <= 300000000).
  { rewrite HM. pose proof (cmap_sum its (zlen (MAGIC ++ [3])) (fun _ => 1) ltac:(intros; lia) HI) as X.
    assert (ONE : forall A (l : list A), zsum (map (fun _ => 1) l) = zlen l). { induction l0 as [|x l0 IH]; [reflexivity|]. cbn [map]. rewrite zsum_cons, zlen_cons, IH. lia. }
    rewrite ONE in X. assert (Y : zsum (map (fun dg : list Z * list (list Z * mschema) => zsum (map (fun _ => 1) (snd dg))) sc) = series_count sc).
    { unfold series_count. f_equal. apply map_ext. intros dg. apply ONE. }
    rewrite Y in X. unfold zlen at 1 in X. rewrite map_length in X. fold (zlen (chunk_map (metas (zlen (MAGIC ++ [3])) its))) in X. lia. }
  pose proof (end_file_size p ord (w_io w1) (w_io w') GO (wi_healthy _ _ _ _ _ _ I) (wi_pos _ _ _ _ _ _ I) (wi_tsmeta _ _ _ _ _ _ I IG)) as EF.
  rewrite HM in EF. rewrite HM in CL. specialize (EF ltac:(intros; eapply cmap_entries; eauto) (cmap_count its _ HI ND SD) CL E). rewrite <- HM in EF.
  assert (CM : zsum (map (fun q => 174 + 3 * zlen q) (map fst (chunk_map (io_groups (w_io w1))))) + 100 <= per_file sc).
  { rewrite HM. pose proof (cmap_sum its (zlen (MAGIC ++ [3])) (fun q => 174 + 3 * zlen q) ltac:(intros q; pose proof (zlen_nonneg _ q); lia) HI) as X. unfold per_file. apply Z.add_le_mono_r. etransitivity; [exact X|].
    apply zsum_map_le. intros dg _. apply zsum_map_le. intros kv _. unfold path_of. rewrite !zlen_app. change (zlen [46]) with 1. lia. }
  change (sk_data (io_out (w_io w'))) with (file_bytes w') in EF. change (sk_data (io_out (w_io w1))) with (file_bytes w1) in EF.
  pose proof (per_flush_split sc) as PF.
  pose proof (flush_cost_nonneg sc) as FN. pose proof (h_all_split h) as HA. pose proof (zlen_nonneg _ (h_recent h)).
  assert (MF : n <= most_flushes sc (zlen (h_all h))).
  { unfold most_flushes. assert (n - 1 <= 24 * zlen (h_all h) / (2 ^ 27 - 150 * series_count sc)); [|lia]. apply Z.div_le_lower_bound; lia. }
  unfold size_bound. rewrite <- PF. split; nia.
Qed.
Lemma file_size_le : forall w h ops l ord w' a, trace p snap sc w h ops l -> ops_ok ops -> no_close ops = true -> 24 * zsum (map op_points ops) + 150 * series_count sc < 2 ^ 32 ->
  150 * series_count sc < 2 ^ 27 -> no_dots sc -> small_devices sc -> good_order ord -> step p snap w (OpClose ord) = Ret (w', a) ->
  zlen (file_bytes w') <= size_bound sc (zlen (h_all h)).
Proof. intros w h ops l ord w' a T O NC M M2 ND SD GO H. eapply close_grows; eauto. eapply slim_of; eauto. Qed.
End Closed.
