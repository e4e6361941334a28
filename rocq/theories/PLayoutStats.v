(** The bytes of statistics (C55). *)
From Verif Require Export PLayoutCol.
Ltac Zify.zify_post_hook ::= idtac.

Section Pick.
Context {A : Type}.
Variables (lt : A -> A -> bool) (good : A -> Prop) (top : A).
Definition pick (a b : A) : A := if lt b a then b else a.
Hypothesis assoc : forall m a y, good m -> good a -> pick (pick m a) y = pick m (pick a y).
Hypothesis good_pick : forall a y, good a -> good (pick a y).
Hypothesis good_top : good top.
Hypothesis pick_top : forall m, good m -> pick m top = m.
Lemma fold_good : forall l a, good a -> good (fold_left pick l a).
Proof. induction l; cbn [fold_left]; auto. Qed.
Lemma fold_pick : forall l m a, good m -> good a -> fold_left pick l (pick m a) = pick m (fold_left pick l a).
Proof. induction l as [|y l IH]; intros m a Hm Ha; cbn [fold_left]; [reflexivity|]. rewrite assoc, IH by auto. reflexivity. Qed.
Lemma fold_pick_app : forall l l', fold_left pick (l ++ l') top = pick (fold_left pick l top) (fold_left pick l' top).
Proof.
  intros l l'. rewrite fold_left_app. rewrite <- (pick_top (fold_left pick l top)) at 1 by (apply fold_good; auto).
  apply fold_pick; auto. apply fold_good. auto.
Qed.
End Pick.

Definition lowest (dt : dtype) : Z := match dt with INT32 => - 2 ^ 31 | INT64 => - 2 ^ 63 | FLOAT => 0xFF7FFFFF end.
Definition highest (dt : dtype) : Z := match dt with INT32 => 2 ^ 31 - 1 | INT64 => 2 ^ 63 - 1 | FLOAT => 0x7F7FFFFF end.
Definition a_number (dt : dtype) (n : Z) : Prop := match dt with FLOAT => bits_nan n = false | _ => True end.
Ltac below_cases := unfold pick, below in *;
  repeat match goal with
  | |- context [Z.ltb ?a ?b] => destruct (Z.ltb_spec a b)
  | H : context [Z.ltb ?a ?b] |- _ => destruct (Z.ltb_spec a b)
  end; cbn [andb negb] in *; try congruence; try lia; auto.
Lemma nan_assoc : forall (N : Z -> bool) (K : Z -> Z) m x y, N m = false -> N x = false ->
  let lt a b := negb (N a) && negb (N b) && (K a <? K b) in
  pick lt (pick lt m x) y = pick lt m (pick lt x y) /\ pick (fun a b => lt b a) (pick (fun a b => lt b a) m x) y = pick (fun a b => lt b a) m (pick (fun a b => lt b a) x y).
Proof.
  intros N K m x y H1 H2 lt. unfold lt.
  destruct (N y) eqn:Y, (K x <? K m) eqn:A, (K y <? K x) eqn:B, (K y <? K m) eqn:C, (K m <? K x) eqn:A', (K x <? K y) eqn:B', (K m <? K y) eqn:C';
    try lia; split; unfold pick; repeat (rewrite ?H1, ?H2, ?Y, ?A, ?B, ?C, ?A', ?B', ?C'; cbn [negb andb]); reflexivity.
Qed.
Lemma nan_keep : forall (N : Z -> bool) (K : Z -> Z) t x y, N t = false ->
  let lt a b := negb (N a) && negb (N b) && (K a <? K b) in
  (N x = false /\ lt t x = false -> N (pick lt x y) = false /\ lt t (pick lt x y) = false) /\
  (N x = false /\ lt x t = false -> N (pick (fun a b => lt b a) x y) = false /\ lt (pick (fun a b => lt b a) x y) t = false).
Proof.
  intros N K t x y H1 lt. unfold lt.
  destruct (N y) eqn:Y, (N x) eqn:X, (K x <? K t) eqn:A, (K y <? K x) eqn:B, (K y <? K t) eqn:C, (K t <? K x) eqn:A', (K x <? K y) eqn:B', (K t <? K y) eqn:C';
    try lia; split; unfold pick; repeat (rewrite ?H1, ?X, ?Y, ?A, ?B, ?C, ?A', ?B', ?C'; cbn [negb andb]); tauto.
Qed.
Lemma highest_num : bits_nan (highest FLOAT) = false. Proof. reflexivity. Qed.
Lemma lowest_num : bits_nan (lowest FLOAT) = false. Proof. reflexivity. Qed.
Lemma smallest_app : forall dt a b, smallest dt (a ++ b) = pick (below dt) (smallest dt a) (smallest dt b).
Proof.
  intros dt a b. unfold smallest.
  apply (fold_pick_app (below dt) (fun m => a_number dt m /\ below dt (highest dt) m = false) (highest dt)); unfold a_number.
  - intros m x y [H1 H2] [H3 H4]. destruct dt; [below_cases|below_cases|].
    exact (proj1 (nan_assoc bits_nan f32_key m x y H1 H3)).
  - intros x y H. destruct dt; [split; [auto|]; destruct H; below_cases|split; [auto|]; destruct H; below_cases|].
    exact (proj1 (nan_keep bits_nan f32_key (highest FLOAT) x y highest_num) H).
  - destruct dt; split; auto; vm_compute; auto.
  - intros m [H1 H2]. unfold pick. rewrite H2. reflexivity.
Qed.
Lemma largest_app : forall dt a b, largest dt (a ++ b) = pick (fun y x => below dt x y) (largest dt a) (largest dt b).
Proof.
  intros dt a b. unfold largest.
  apply (fold_pick_app (fun y x => below dt x y) (fun m => a_number dt m /\ below dt m (lowest dt) = false) (lowest dt)); unfold a_number.
  - intros m x y [H1 H2] [H3 H4]. destruct dt; [below_cases|below_cases|].
    exact (proj2 (nan_assoc bits_nan f32_key m x y H1 H3)).
  - intros x y H. destruct dt; [split; [auto|]; destruct H; below_cases|split; [auto|]; destruct H; below_cases|].
    exact (proj2 (nan_keep bits_nan f32_key (lowest FLOAT) x y lowest_num) H).
  - destruct dt; split; auto; vm_compute; auto.
  - intros m [H1 H2]. unfold pick. rewrite H2. reflexivity.
Qed.
Lemma earliest_app : forall a b, earliest (a ++ b) = pick (fun y x => fst y <? fst x) (earliest a) (earliest b).
Proof.
  intros a b. unfold earliest. apply (fold_pick_app (fun y x : Z * Z => fst y <? fst x) (fun m => fst m <= 2 ^ 63 - 1) (2 ^ 63 - 1, 0)).
  - intros m x y _ _. below_cases.
  - intros x y H. below_cases.
  - cbn. lia.
  - intros m H. unfold pick. cbn [fst]. destruct (Z.ltb_spec (2 ^ 63 - 1) (fst m)); [lia|reflexivity].
Qed.
Lemma latest_app : forall a b, latest (a ++ b) = pick (fun y x => fst x <? fst y) (latest a) (latest b).
Proof.
  intros a b. unfold latest. apply (fold_pick_app (fun y x : Z * Z => fst x <? fst y) (fun m => - 2 ^ 63 <= fst m) (- 2 ^ 63, 0)).
  - intros m x y _ _. below_cases.
  - intros x y H. below_cases.
  - cbn. lia.
  - intros m H. unfold pick. cbn [fst]. destruct (Z.ltb_spec (fst m) (- 2 ^ 63)); [lia|reflexivity].
Qed.

Lemma below_val : forall d a b, num_ok d a -> num_ok d b -> val_ltb d a b = below d a b.
Proof.
  intros d a b Ha Hb. destruct d; cbn [val_ltb below num_ok] in *; auto.
  destruct (f32_ltb a b) eqn:E.
  - apply f32_ltb_key in E; auto. unfold f32_nan, bits_nan in *. destruct E as (E1 & E2 & E3).
    destruct (Z.gtb_spec (a mod 2 ^ 31) 0x7F800000); [lia|]. destruct (Z.gtb_spec (b mod 2 ^ 31) 0x7F800000); [lia|]. cbn [negb andb]. lia.
  - symmetry. apply not_true_is_false. intros Q. apply andb_true_iff in Q. destruct Q as [Q Q3]. apply andb_true_iff in Q. destruct Q as [Q1 Q2].
    enough (f32_ltb a b = true) by congruence. apply f32_ltb_key; auto. unfold f32_nan, bits_nan in *.
    destruct (Z.gtb_spec (a mod 2 ^ 31) 0x7F800000); [discriminate|]. destruct (Z.gtb_spec (b mod 2 ^ 31) 0x7F800000); [discriminate|]. lia.
Qed.
Record exact_stats (d : dtype) (pts : list (Z * value)) (s : stats) : Prop := {
  xs_first : (st_ts_first s, st_first s) = earliest (tnums pts);
  xs_last : (st_ts_last s, st_last s) = latest (tnums pts);
  xs_min : st_min s = smallest d (nums pts);
  xs_max : st_max s = largest d (nums pts) }.
Lemma exact_new : forall d, exact_stats d [] (stats_new d).
Proof. intros d. split; try reflexivity; destruct d; reflexivity. Qed.
Lemma gtb_flip : forall a b, (a >? b) = (b <? a). Proof. intros. apply Z.gtb_ltb. Qed.
Lemma exact_update : forall p d pts s t v s', st_inv d pts s -> exact_stats d pts s -> value_ok d v ->
  stats_update p t v s = Ret s' -> exact_stats d (pts ++ [(t, v)]) s'.
Proof.
  intros p d pts s t v s' I [X1 X2 X3 X4] Hv F. destruct I as [si_type0 si_count0 _ _ _ _ _ _ _ _ si_min_ok0 si_max_ok0 _ _ _ _ _ _].
  assert (F' : stats_update_raw p t (value_num v) s = Ret s').
  { unfold stats_update in F. rewrite si_type0 in F. destruct d, v; try discriminate F; exact F. }
  clear F. unfold stats_update_raw in F'. rewrite si_type0 in F'.
  pose proof (value_num_ok d v Hv) as Nv. rewrite !below_val in F' by auto. rewrite gtb_flip in F'.
  destruct (if t <? st_ts_first s then (t, value_num v) else (st_ts_first s, st_first s)) as [tf fv] eqn:E1.
  destruct (if st_ts_last s <? t then (t, value_num v) else (st_ts_last s, st_last s)) as [tl lv] eqn:E2.
  cbv zeta in F'. apply bind_ret in F'. destruct F' as (c & _ & F'). apply bind_ret in F'. destruct F' as (sm & _ & F').
  apply ret_inj in F'. subst s'.
  unfold tnums, nums, earliest, latest, smallest, largest in *.
  split; cbn [st_ts_first st_first st_ts_last st_last st_min st_max]; unfold tnums, nums, earliest, latest, smallest, largest; rewrite map_app, fold_left_app; cbn [map fold_left fst snd].
  - rewrite <- X1. cbn [fst]. auto.
  - rewrite <- X2. cbn [fst]. auto.
  - rewrite <- X3. auto.
  - rewrite <- X4. auto.
Qed.
Lemma exact_merge : forall p d a b s o r, st_inv d a s -> st_inv d b o -> exact_stats d a s -> exact_stats d b o ->
  stats_merge p s o = Ret r -> exact_stats d (a ++ b) r.
Proof.
  intros p d a b s o r I J [X1 X2 X3 X4] [Y1 Y2 Y3 Y4] F. unfold stats_merge in F. destruct I as [si_type0 si_count0 _ _ _ _ _ _ _ _ si_min_ok0 si_max_ok0 _ _ _ _ _ _], J as [si_type1 si_count1 _ _ _ _ _ _ _ _ si_min_ok1 si_max_ok1 _ _ _ _ _ _]. rewrite si_type0, si_type1 in F.
  replace (dtype_eqb d d) with true in F by (destruct d; reflexivity). rewrite !below_val in F by auto. rewrite gtb_flip in F.
  destruct (if st_ts_first o <? st_ts_first s then (st_ts_first o, st_first o) else (st_ts_first s, st_first s)) as [tf fv] eqn:E1.
  destruct (if st_ts_last s <? st_ts_last o then (st_ts_last o, st_last o) else (st_ts_last s, st_last s)) as [tl lv] eqn:E2.
  cbv zeta in F. apply bind_ret in F. destruct F as (c & _ & F). apply bind_ret in F. destruct F as (sm & _ & F).
  apply ret_inj in F. subst r. 
  assert (T : tnums (a ++ b) = tnums a ++ tnums b) by (apply map_app). assert (N : nums (a ++ b) = nums a ++ nums b) by (apply map_app).
  split; cbn [st_ts_first st_first st_ts_last st_last st_min st_max]; rewrite ?T, ?N.
  - rewrite earliest_app, <- X1, <- Y1. unfold pick. cbn [fst]. auto.
  - rewrite latest_app, <- X2, <- Y2. unfold pick. cbn [fst]. auto.
  - rewrite smallest_app, <- X3, <- Y3. reflexivity.
  - rewrite largest_app, <- X4, <- Y4. reflexivity.
Qed.
Lemma exact_page : forall p d l pts s s', st_inv d pts s -> exact_stats d pts s -> points_ok d l ->
  foldM (fun s tv => stats_update p (fst tv) (snd tv) s) l s = Ret s' -> exact_stats d (pts ++ l) s'.
Proof.
  induction l as [|[t v] l IH]; intros pts s s' I X H F.
  - cbn in F. apply ret_inj in F. subst. rewrite app_nil_r. auto.
  - apply Forall_cons_iff in H. destruct H as [H1 H2]. cbn [foldM fst snd] in *. apply bind_ret in F. destruct F as (s1 & F1 & F).
    replace (pts ++ (t, v) :: l) with ((pts ++ [(t, v)]) ++ l) by (rewrite <- app_assoc; reflexivity).
    eapply IH; eauto; [eapply st_inv_update; eauto|eapply exact_update; eauto]; tauto.
Qed.
Lemma exact_tree : forall p d t s, points_ok d (tree_points t) -> tree_stats p d t = Ret s -> exact_stats d (tree_points t) s.
Proof.
  intros p d. induction t as [|l|a IHa b IHb]; cbn [tree_points tree_stats]; intros s H F.
  - apply ret_inj in F. subst. apply exact_new.
  - apply (exact_page p d l [] (stats_new d) s (st_inv_new d) (exact_new d) H F).
  - apply Forall_app in H. destruct H as [H1 H2]. apply bind_ret in F. destruct F as (x & Fx & F).
    apply bind_ret in F. destruct F as (y & Fy & F). eapply exact_merge; [eapply tree_inv; eauto|eapply tree_inv; eauto|eauto|eauto|exact F].
Qed.
Lemma pattern64_bits : forall x, pattern64 x = f64_to_bits x.
Proof. destruct x; cbn [pattern64 f64_to_bits]; try reflexivity. destruct (Zpos m <? 2 ^ 52); lia. Qed.

Lemma stat_bytes_ok : forall p d t s, points_ok d (tree_points t) -> zlen (tree_points t) < 2 ^ 32 -> tree_stats p d t = Ret s ->
  wbytes (stats_serialize s) = stat_bytes d (tree_points t) (tree_fsum d t).
Proof.
  intros p d t s H L F. destruct (exact_tree p d t s H F) as [X1 X2 X3 X4]. pose proof (tree_inv p d t s H F) as I.
  assert (S : sum_bits (st_sum s) = match d with INT32 => zsum (nums (tree_points t)) | _ => pattern64 (tree_fsum d t) end).
  { destruct d.
    - rewrite (int32_sum_exact p t s H L F). reflexivity.
    - destruct (float_sum p INT64 t s ltac:(discriminate) H F) as [_ E]. rewrite E, pattern64_bits. reflexivity.
    - destruct (float_sum p FLOAT t s ltac:(discriminate) H F) as [_ E]. rewrite E, pattern64_bits. reflexivity. }
  destruct I as [si_type0 si_count0 _ _ _ _ _ _ _ _ si_min_ok0 si_max_ok0 _ _ _ _ _ _]. unfold stats_serialize, stat_bytes. rewrite si_type0. cbn [wbytes]. rewrite <- X1, <- X2, <- X3, <- X4, <- S. cbn [fst snd].
  rewrite !digits_be, si_count0. rewrite Z.mod_small by (split; [apply zlen_nonneg|auto]). rewrite leb_var by (split; [apply zlen_nonneg|auto]).
  rewrite app_nil_r. destruct d; reflexivity.
Qed.
