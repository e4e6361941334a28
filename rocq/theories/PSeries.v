(** Paths, and the maps built by [end_file] (C17, C20, C24). *)
From Verif Require Export PIndex.
Ltac Zify.zify_post_hook ::= idtac.

(** ** Paths *)
Definition name_of_path (q : list Z) : list Z := last (split_dot q) [].
Lemma split_ne : forall s, split_dot s <> [].
Proof. intros [|c s]; cbn [split_dot]; [discriminate|]. destruct (c =? 46); [discriminate|]. destruct (split_dot s); discriminate. Qed.
Lemma split_nodot : forall s, ~ In 46 s -> split_dot s = [s].
Proof.
  induction s as [|c s IH]; intros N; cbn [split_dot]; auto. destruct (Z.eqb_spec c 46) as [->|]; [exfalso; apply N; left; auto|].
  rewrite IH; auto. intros I. apply N. right. auto.
Qed.
Lemma split_path : forall d m, ~ In 46 m -> split_dot (path_of d m) = split_dot d ++ [m].
Proof.
  unfold path_of. induction d as [|c d IH]; intros m N.
  - cbn [app split_dot]. change (46 =? 46) with true. cbv iota. rewrite split_nodot by auto. reflexivity.
  - change ((c :: d) ++ [46] ++ m) with (c :: (d ++ [46] ++ m)). cbn [split_dot]. rewrite IH by auto. destruct (c =? 46); auto. pose proof (split_ne d). destruct (split_dot d); [congruence|]. reflexivity.
Qed.
Lemma join_split : forall s, join_dot (split_dot s) = s.
Proof.
  induction s as [|c s IH]; auto. cbn [split_dot]. pose proof (split_ne s) as N. destruct (Z.eqb_spec c 46) as [->|].
  - cbn [join_dot]. destruct (split_dot s) as [|x r]; [congruence|]. rewrite IH. reflexivity.
  - destruct (split_dot s) as [|x r]; [congruence|]. cbn [join_dot] in *. destruct r as [|y r]; [subst; reflexivity|]. rewrite <- IH. reflexivity.
Qed.
Lemma device_of_path_of : forall d m, ~ In 46 m -> device_of_path (path_of d m) = d.
Proof. intros d m N. unfold device_of_path. rewrite split_path, removelast_last by auto. apply join_split. Qed.
Lemma name_of_path_of : forall d m, ~ In 46 m -> name_of_path (path_of d m) = m.
Proof. intros d m N. unfold name_of_path. rewrite split_path, last_last by auto. auto. Qed.
Lemma path_inj : forall d m d' m', ~ In 46 m -> ~ In 46 m' -> path_of d m = path_of d' m' -> d = d' /\ m = m'.
Proof.
  intros d m d' m' N N' E. split; [rewrite <- (device_of_path_of d m N), E; apply device_of_path_of; auto|].
  rewrite <- (name_of_path_of d m N), E. apply name_of_path_of; auto.
Qed.
Lemma path_lt : forall d m m', str_lt (path_of d m) (path_of d m') <-> str_lt m m'.
Proof.
  intros d m m'. unfold path_of, str_lt. assert (P : forall (x : list Z), str_cmp (x ++ m) (x ++ m') = str_cmp m m').
  { induction x as [|c x IH]; auto. cbn [app str_cmp]. rewrite Z.compare_refl. auto. }
  rewrite !app_assoc, P. reflexivity.
Qed.

(** ** The chunk metadata by path *)
Definition getl {V} (q : str) (m : smap (list V)) : list V := match sm_get q m with Some l => l | None => [] end.
Definition no_empty {V} (m : smap (list V)) : Prop := Forall (fun kv => snd kv <> []) m.
Lemma no_empty_insert : forall V q (l : list V) m, l <> [] -> no_empty m -> no_empty (sm_insert q l m).
Proof.
  intros V q l m N. induction m as [|[k v] m IH]; intros F; cbn [sm_insert].
  - repeat constructor; auto.
  - inversion F; subst. destruct (str_cmp q k); constructor; auto. apply IH. auto.
Qed.
Lemma getl_insert : forall V q (l : list V) m x, getl x (sm_insert q l m) = if str_eqb x q then l else getl x m.
Proof. intros. unfold getl. rewrite sm_get_insert. destruct (str_eqb x q); auto. Qed.
Lemma getl_in : forall V q (l : list V) m, sorted m -> no_empty m -> (In (q, l) m <-> getl q m = l /\ l <> []).
Proof.
  intros V q l m S N. unfold getl. split.
  - intros I. rewrite (in_sm_get _ _ _ _ S I). split; auto. unfold no_empty in N. rewrite Forall_forall in N. exact (N _ I).
  - intros [G L]. destruct (sm_get q m) as [x|] eqn:E; [|congruence]. subst x. apply sm_get_in. auto.
Qed.

Definition flat (G : list (str * list chunk_meta)) : list (str * chunk_meta) := concat (map (fun g => map (pair (fst g)) (snd g)) G).
Definition on_path (q : str) (x : str * chunk_meta) : bool := str_eqb (path_of (fst x) (cm_id (snd x))) q.
Definition chunk_add (m : smap (list chunk_meta)) (x : str * chunk_meta) := chunk_map_add (fst x) m (snd x).
Lemma chunk_map_flat : forall G, chunk_map G = fold_left chunk_add (flat G) [].
Proof.
  intros G. unfold chunk_map. generalize (@nil (str * list chunk_meta)). induction G as [|[d l] G IH]; intros m; auto.
  unfold flat. cbn [map concat fold_left fst snd]. rewrite fold_left_app. rewrite IH. f_equal.
  clear. revert m. induction l as [|cm l IH]; intros m; auto. cbn [fold_left map]. rewrite IH. reflexivity.
Qed.
Lemma chunk_fold_spec : forall l m, sorted m -> no_empty m ->
  sorted (fold_left chunk_add l m) /\ no_empty (fold_left chunk_add l m) /\
  forall q, getl q (fold_left chunk_add l m) = getl q m ++ map snd (filter (on_path q) l).
Proof.
  induction l as [|[d cm] l IH]; intros m S N; cbn [fold_left].
  - split; [auto|]. split; [auto|]. intros q. rewrite app_nil_r. auto.
  - set (m1 := chunk_add m (d, cm)). assert (E : m1 = sm_insert (path_of d (cm_id cm)) (getl (path_of d (cm_id cm)) m ++ [cm]) m).
    { unfold m1, chunk_add, chunk_map_add, getl. cbn [fst snd]. destruct (sm_get _ m); reflexivity. }
    destruct (IH m1) as (A & B & C).
    { rewrite E. apply sm_insert_sorted. auto. }
    { rewrite E. apply no_empty_insert; auto. destruct (getl _ m); discriminate. }
    split; [exact A|]. split; [exact B|]. intros q. rewrite C, E, getl_insert. unfold on_path at 2. cbn [filter fst snd].
    assert (SY : str_eqb (path_of d (cm_id cm)) q = str_eqb q (path_of d (cm_id cm))).
    { destruct (str_eq_dec q (path_of d (cm_id cm))) as [->|X]; [reflexivity|]. rewrite !str_eqb_neq; auto. }
    rewrite SY. destruct (str_eqb q (path_of d (cm_id cm))) eqn:X; [|reflexivity]. apply str_eqb_eq in X. subst q. cbn [map snd]. rewrite <- app_assoc. reflexivity.
Qed.
Lemma chunk_map_spec : forall G, sorted (chunk_map G) /\ no_empty (chunk_map G) /\ forall q, getl q (chunk_map G) = map snd (filter (on_path q) (flat G)).
Proof.
  intros G. rewrite chunk_map_flat. destruct (chunk_fold_spec (flat G) [] (sorted_nil _) (Forall_nil _)) as (A & B & C). split; [exact A|]. split; [exact B|]. intros q. rewrite C. reflexivity.
Qed.

(** ** Time series metadata by device *)
Definition of_device (d : str) {V} (x : str * V) : bool := str_eqb (device_of_path (fst x)) d.
Lemma metadata_loop_spec : forall p l last acc tsm, metadata_loop p last l acc = Ret tsm -> sorted acc -> no_empty acc ->
  exists tms, Forall2 (fun pm e => fst e = fst pm /\ ts_meta_of p (snd pm) = Ret (snd e)) l tms /\ sorted tsm /\ no_empty tsm /\
    forall d, getl d tsm = getl d acc ++ map snd (filter (of_device d) tms).
Proof.
  intros p l. induction l as [|[q cms] l IH]; intros last acc tsm H S N; cbn [metadata_loop] in H.
  - rinj H. exists []. split; [constructor|]. split; [auto|]. split; [auto|]. intros d. rewrite app_nil_r. auto.
  - apply bind_ret in H. destruct H as (last' & _ & H). apply bind_ret in H. destruct H as (tm & T & H). cbv zeta in H.
    set (dev := device_of_path q) in *. change (match sm_get dev acc with Some x => x | None => [] end) with (getl dev acc) in H.
    apply IH in H; [|apply sm_insert_sorted; auto|apply no_empty_insert; auto; destruct (getl dev acc); discriminate].
    destruct H as (tms & A & B & C & D). exists ((q, tm) :: tms). split; [constructor; auto|]. split; [auto|]. split; [auto|].
    intros d. rewrite D, getl_insert. cbn [filter of_device fst]. unfold of_device at 2. cbn [fst]. fold dev.
    assert (SY : str_eqb dev d = str_eqb d dev).
    { destruct (str_eq_dec d dev) as [->|X]; [reflexivity|]. rewrite !str_eqb_neq; auto. }
    rewrite SY. destruct (str_eqb d dev) eqn:X; [|reflexivity]. apply str_eqb_eq in X. subst d. cbn [map snd]. rewrite <- app_assoc. reflexivity.
Qed.
