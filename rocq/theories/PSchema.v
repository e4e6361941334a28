(** Proofs about the schema builders (C37). *)
From Verif Require Export PBisim SSchema.
Ltac Zify.zify_post_hook ::= idtac.

Lemma hm_keys_insert : forall V k (v : V) m, In k (map fst m) -> map fst (hm_insert k v m) = map fst m.
Proof.
  intros V k v m. induction m as [|[x u] m IH]; intros H; [destruct H|]. cbn [hm_insert map fst] in *.
  destruct (str_eqb k x) eqn:E; [reflexivity|]. cbn [map fst]. f_equal. apply IH. destruct H as [->|H]; auto.
  rewrite str_eqb_refl in E. discriminate.
Qed.
Lemma hm_insert_new : forall V k (v : V) m, ~ In k (map fst m) -> hm_insert k v m = m ++ [(k, v)].
Proof.
  intros V k v m. induction m as [|[x u] m IH]; intros H; [reflexivity|]. cbn [hm_insert map fst app] in *.
  rewrite str_eqb_neq by (intros E; apply H; left; auto). f_equal. apply IH. intros I. apply H. right. auto.
Qed.
Lemma NoDup_app_end : forall A (x : A) l, NoDup l -> ~ In x l -> NoDup (l ++ [x]).
Proof. intros A x l N H. rewrite <- (rev_involutive (l ++ [x])), rev_app_distr. apply NoDup_rev. cbn. constructor; [rewrite <- in_rev; auto|apply NoDup_rev; auto]. Qed.
Lemma nodup_value : forall V (k : list Z) (a b : V) l, NoDup (map fst l) -> In (k, a) l -> In (k, b) l -> a = b.
Proof. intros V k a b l N A B. apply sm_get_nodup in A; auto. apply sm_get_nodup in B; auto. congruence. Qed.
Lemma key_dec : forall V k (m : list (str * V)), In k (map fst m) \/ ~ In k (map fst m).
Proof. intros V k m. destruct (in_dec (list_eq_dec Z.eq_dec) k (map fst m)); auto. Qed.
Lemma hm_nodup : forall V k (v : V) m, NoDup (map fst m) -> NoDup (map fst (hm_insert k v m)).
Proof.
  intros V k v m N. destruct (key_dec V k m) as [I|I].
  - rewrite hm_keys_insert; auto.
  - rewrite hm_insert_new, map_app by auto. cbn [map fst]. apply NoDup_app_end; auto.
Qed.
Lemma hm_get_insert : forall V k (v : V) m x, hm_get x (hm_insert k v m) = if str_eqb x k then Some v else hm_get x m.
Proof.
  intros V k v m x. induction m as [|[y u] m IH]; cbn [hm_insert hm_get]; auto.
  destruct (str_eqb k y) eqn:E; cbn [hm_get].
  - apply str_eqb_eq in E. subst y. destruct (str_eqb x k); auto.
  - rewrite IH. destruct (str_eqb x y) eqn:X; auto. apply str_eqb_eq in X. subst y. rewrite str_eqb_neq; auto. intros ->. rewrite str_eqb_refl in E. discriminate.
Qed.
Lemma hm_get_in : forall V k (v : V) m, NoDup (map fst m) -> (hm_get k m = Some v <-> In (k, v) m).
Proof.
  intros V k v m N. change (hm_get k m) with (sm_get k m). split; intros H; [apply sm_get_in; auto|apply sm_get_nodup; auto].
Qed.
(** copying keeps the list *)
Lemma hm_copy_app : forall V (m a : list (str * V)), NoDup (map fst (a ++ m)) ->
  fold_left (fun acc kv => hm_insert (fst kv) (snd kv) acc) m a = a ++ m.
Proof.
  intros V m. induction m as [|[k v] m IH]; intros a N; cbn [fold_left fst snd]; [rewrite app_nil_r; auto|].
  rewrite hm_insert_new.
  - rewrite IH; rewrite <- app_assoc; auto.
  - rewrite map_app in N. cbn [map fst] in N. apply NoDup_remove_2 in N. intros I. apply N. apply in_or_app. auto.
Qed.
Lemma hm_copy_id : forall V (m : list (str * V)), NoDup (map fst m) -> hm_copy m = m.
Proof. intros V m N. unfold hm_copy. apply (hm_copy_app V m []). auto. Qed.

Lemma last_def_snoc : forall V k x (v : V) l, last_def k (l ++ [(x, v)]) = if str_eqb k x then Some v else last_def k l.
Proof.
  intros V k x v l. unfold last_def. rewrite rev_app_distr. cbn [rev app find fst]. rewrite same_name_str.
  destruct (str_eqb k x) eqn:E.
  - apply str_eqb_eq in E. subst x. rewrite str_eqb_refl. reflexivity.
  - rewrite str_eqb_neq; [reflexivity|]. intros ->. rewrite str_eqb_refl in E. discriminate.
Qed.
(** adding in sequence *)
Lemma hm_adds : forall V (l : list (str * V)),
  let m := fold_left (fun b kv => hm_insert (fst kv) (snd kv) b) l [] in
  NoDup (map fst m) /\ forall k, hm_get k m = last_def k l.
Proof.
  intros V l. cbv zeta. induction l as [|[x v] l [N H]] using rev_ind.
  - split; [constructor|reflexivity].
  - rewrite fold_left_app. cbn [fold_left fst snd]. split; [apply hm_nodup; auto|].
    intros k. rewrite hm_get_insert, last_def_snoc, H. reflexivity.
Qed.
Lemma last_def_none : forall V k (l : list (str * V)), last_def k l = None <-> ~ In k (map fst l).
Proof.
  intros V k l. induction l as [|[x v] l IH] using rev_ind; [cbn; tauto|]. rewrite last_def_snoc, map_app, in_app_iff. cbn [map fst In].
  destruct (str_eqb k x) eqn:E.
  - apply str_eqb_eq in E. subst x. split; [discriminate|tauto].
  - rewrite IH. split; intros H; [|tauto]. intros [A|[->|[]]]; [tauto|]. rewrite str_eqb_refl in E. discriminate.
Qed.
Lemma last_def_in : forall V k (v : V) l, last_def k l = Some v -> In (k, v) l.
Proof.
  intros V k v l. induction l as [|[x u] l IH] using rev_ind; [discriminate|]. rewrite last_def_snoc, in_app_iff. cbn [In].
  destruct (str_eqb k x) eqn:E; [|auto]. apply str_eqb_eq in E. subst x. intros H. inversion H. auto.
Qed.

(** devices *)
Lemma build_device_ok : forall adds, adds <> [] -> exists g, build_device adds = Ret g /\ NoDup (map fst g) /\ (forall m, hm_get m g = last_def m adds).
Proof.
  intros adds N. unfold build_device.
  assert (E : forall l b, fold_left (fun b a => device_builder_add (fst a) (ms_type (snd a)) (ms_enc (snd a)) (ms_comp (snd a)) b) l b =
    fold_left (fun b kv => hm_insert (fst kv) (snd kv) b) l b).
  { intros l. induction l as [|[m [t e c]] l IH]; intros b; cbn [fold_left]; auto. }
  rewrite E. destruct (hm_adds _ adds) as [ND G]. cbv zeta in ND, G. unfold device_builder_new.
  remember (fold_left (fun b kv => hm_insert (fst kv) (snd kv) b) adds []) as m eqn:Em. exists m.
  assert (M : m <> []). { intros ->. destruct adds as [|[x v] adds]; [congruence|]. specialize (G x). cbn [hm_get] in G. symmetry in G. apply last_def_none in G. cbn in G. tauto. }
  split; [|auto]. unfold device_builder_build. destruct m; [congruence|]. rewrite hm_copy_id; auto.
Qed.
Lemma build_schema_ok : forall s, Forall (fun da => snd da <> []) s -> exists sc, build_schema s = Ret sc /\
  NoDup (map fst sc) /\ Forall (fun dg => NoDup (map fst (snd dg)) /\ snd dg <> []) sc /\
  (forall d, hm_get d sc <> None <-> In d (map fst s)) /\
  (forall d m, match hm_get d sc with Some g => hm_get m g | None => None end = defined s d m).
Proof.
  intros s F. unfold build_schema.
  assert (M : exists gs, mapM (fun da => let* g := build_device (snd da) in Ret (fst da, g)) s = Ret gs /\
    Forall2 (fun da dg => fst dg = fst da /\ NoDup (map fst (snd dg)) /\ snd dg <> [] /\ forall m, hm_get m (snd dg) = last_def m (snd da)) s gs).
  { induction F as [|[d a] s Fa F IH]; [exists []; split; [reflexivity|constructor]|].
    destruct IH as (gs & E & H). destruct (build_device_ok a Fa) as (g & Eg & Ng & Gg). exists ((d, g) :: gs). cbn [mapM fst snd]. rewrite Eg. cbn [bind]. rewrite E.
    split; [reflexivity|]. constructor; auto. cbn [fst snd]. repeat split; auto. intros ->.
    destruct a as [|[x v] a]; [apply Fa; reflexivity|]. specialize (Gg x). symmetry in Gg. apply last_def_none in Gg. cbn in Gg. tauto. }
  destruct M as (gs & E & H). rewrite E. cbn [bind]. eexists. split; [reflexivity|]. unfold schema_builder_build, schema_builder_add, schema_builder_new.
  destruct (hm_adds _ gs) as [N G]. cbv zeta in N, G. rewrite hm_copy_id by exact N.
  set (sc := fold_left (fun b dg => hm_insert (fst dg) (snd dg) b) gs []) in *.
  assert (K : map fst gs = map fst s). { clear - H. induction H as [|? ? ? ? [A _] _ IH]; [reflexivity|]. cbn [map]. f_equal; [exact A|exact IH]. }
  split; [exact N|]. split.
  { apply Forall_forall. intros [d g] I. apply hm_get_in in I; auto. rewrite G in I. apply last_def_in in I.
    clear - H I. induction H as [|x y s gs [A [B [C _]]] _ IH]; [destruct I|]. destruct I as [->|I]; auto. }
  split.
  { intros d. rewrite G. rewrite <- K. rewrite (last_def_none _ d gs). destruct (key_dec _ d gs); tauto. }
  intros d m. rewrite G. unfold defined.
  assert (L : match last_def d gs, last_def d s with Some g, Some a => forall m, hm_get m g = last_def m a | None, None => True | _, _ => False end).
  { clear - H. revert gs H. induction s as [|[x a] s IH] using rev_ind; intros gs H.
    - inversion H. cbn. auto.
    - apply Forall2_app_inv_l in H. destruct H as (g1 & g2 & H1 & H2 & ->). inversion H2 as [|? [y g] ? ? (A & _ & _ & B) H3]; subst. inversion H3; subst. cbn [fst snd] in *. subst y.
      rewrite !last_def_snoc. destruct (str_eqb d x); [exact B|exact (IH g1 H1)]. }
  destruct (last_def d gs), (last_def d s); try contradiction; auto.
Qed.
Lemma build_schema_empty : forall s d, In (d, []) s -> build_schema s = Panic PExplicit.
Proof.
  intros s d I. unfold build_schema.
  assert (M : mapM (fun da => let* g := build_device (snd da) in Ret (fst da, g)) s = Panic PExplicit).
  { induction s as [|[x a] s IH]; [destruct I|]. cbn [mapM fst snd]. destruct a as [|y a].
    - reflexivity.
    - destruct (build_device_ok (y :: a)) as (g & E & _); [discriminate|]. rewrite E. cbn [bind]. destruct I as [I|I]; [inversion I|]. rewrite IH; auto. }
  rewrite M. reflexivity.
Qed.
Lemma build_schema_defined : forall s sc, build_schema s = Ret sc ->
  NoDup (map fst sc) /\ Forall (fun dg => NoDup (map fst (snd dg)) /\ snd dg <> []) sc /\
  (forall d, In d (map fst sc) <-> In d (map fst s)) /\
  forall d m ms, declares sc d m ms <-> defined s d m = Some ms.
Proof.
  intros s sc H. assert (F : Forall (fun da : list Z * list (list Z * mschema) => snd da <> []) s).
  { apply Forall_forall. intros [d a] I E. cbn in E. subst a. rewrite (build_schema_empty s d I) in H. discriminate. }
  destruct (build_schema_ok s F) as (sc' & E & N & F2 & K & D). rewrite H in E. inversion E; subst sc'. clear E.
  split; [exact N|]. split; [exact F2|]. split.
  { intros d. rewrite <- K. split.
    - intros I. apply in_map_iff in I. destruct I as ([x g] & <- & I). cbn [fst]. apply hm_get_in in I; auto. rewrite I. discriminate.
    - intros I. destruct (hm_get d sc) as [g|] eqn:G; [|congruence]. apply hm_get_in in G; auto. apply (in_map fst) in G. exact G. }
  intros d m ms. rewrite <- D. unfold declares. rewrite Forall_forall in F2. split.
  - intros (g & I & J). pose proof (proj1 (F2 _ I)) as NG. apply hm_get_in in I; auto. rewrite I. apply hm_get_in; auto.
  - intros G. destruct (hm_get d sc) as [g|] eqn:E; [|discriminate]. apply hm_get_in in E; auto. exists g. split; auto. apply hm_get_in; auto. apply (F2 _ E).
Qed.

(** same definitions, same writer *)
Lemma groups_of_ext : forall sc sc', NoDup (map fst sc) -> NoDup (map fst sc') ->
  Forall (fun dg => NoDup (map fst (snd dg)) /\ snd dg <> []) sc -> Forall (fun dg => NoDup (map fst (snd dg)) /\ snd dg <> []) sc' ->
  (forall d m ms, declares sc d m ms <-> declares sc' d m ms) -> groups_of sc = groups_of sc'.
Proof.
  intros sc sc' N N' F F' D. unfold groups_of. apply sm_ext; try apply sm_of_list_sorted. intros d.
  rewrite Forall_forall in F, F'.
  assert (G : forall g g', In (d, g) sc -> In (d, g') sc' -> group_of g = group_of g').
  { intros g g' I I'. unfold group_of. f_equal. apply sm_ext; try apply sm_of_list_sorted. intros m.
    pose proof (proj1 (F _ I)) as Ng. pose proof (proj1 (F' _ I')) as Ng'. cbn [snd] in *.
    assert (Q : forall x c (h : mgroup), NoDup (map fst h) ->
      (sm_get x (sm_of_list (map (fun ms => (fst ms, cw_new (fst ms) (ms_type (snd ms)) (ms_comp (snd ms)) (ms_enc (snd ms)))) h)) = Some c
       <-> exists ms, In (x, ms) h /\ c = cw_new x (ms_type ms) (ms_comp ms) (ms_enc ms))).
    { intros x c h Nh. rewrite sm_of_list_nodup by (rewrite map_map; exact Nh). rewrite in_map_iff. split.
      - intros ([y ms] & E & J). inversion E; subst. eauto.
      - intros (ms & J & ->). exists (x, ms). auto. }
    assert (R : forall ms, In (m, ms) g <-> In (m, ms) g').
    { intros ms. specialize (D d m ms). unfold declares in D. split; intros J.
      - destruct (proj1 D) as (h & A & B); [eauto|]. rewrite (nodup_value _ _ _ _ _ N' I' A). auto.
      - destruct (proj2 D) as (h & A & B); [eauto|]. rewrite (nodup_value _ _ _ _ _ N I A). auto. }
    destruct (sm_get m (sm_of_list (map _ g))) as [c|] eqn:A; symmetry.
    - apply (Q m c g Ng) in A. destruct A as (ms & J & ->). apply (Q m _ g' Ng'). exists ms. split; auto. apply R. auto.
    - destruct (sm_get m (sm_of_list (map _ g'))) as [c|] eqn:B; auto. exfalso. apply (Q m c g' Ng') in B. destruct B as (ms & J & ->).
      assert (X : In (m, ms) g) by (apply R; auto). pose proof (proj2 (Q m _ g Ng) (ex_intro _ ms (conj X eq_refl))) as Y. congruence. }
  assert (Q : forall x c (h : schema), NoDup (map fst h) ->
    (sm_get x (sm_of_list (map (fun dg => (fst dg, group_of (snd dg))) h)) = Some c <-> exists g, In (x, g) h /\ c = group_of g)).
  { intros x c h Nh. rewrite sm_of_list_nodup by (rewrite map_map; exact Nh). rewrite in_map_iff. split.
    - intros ([y g] & E & J). inversion E; subst. eauto.
    - intros (g & J & ->). exists (x, g). auto. }
  assert (K : forall g, In (d, g) sc -> exists g', In (d, g') sc').
  { intros g I. pose proof (proj2 (F _ I)) as NE. cbn [snd] in NE. destruct g as [|[m ms] g]; [congruence|]. destruct (proj1 (D d m ms)) as (h & A & _); [|eauto].
    exists ((m, ms) :: g). split; [exact I|left; auto]. }
  assert (K' : forall g, In (d, g) sc' -> exists g', In (d, g') sc).
  { intros g I. pose proof (proj2 (F' _ I)) as NE. cbn [snd] in NE. destruct g as [|[m ms] g]; [congruence|]. destruct (proj2 (D d m ms)) as (h & A & _); [|eauto].
    exists ((m, ms) :: g). split; [exact I|left; auto]. }
  match goal with |- ?a = ?b => destruct a as [c|] eqn:A; symmetry; [|destruct b as [c|] eqn:B; [exfalso|reflexivity]] end.
  - apply (Q d c sc N) in A. destruct A as (g & I & ->). destruct (K g I) as [g' I']. apply (Q d _ sc' N'). exists g'. split; auto.
  - apply (Q d c sc' N') in B. destruct B as (g & I & ->).
    destruct (K' g I) as [g' I']. pose proof (proj2 (Q d _ sc N) (ex_intro _ g' (conj I' eq_refl))). congruence.
Qed.

Record wsame (a b : writer) : Prop := {
  ws_io : w_io a = w_io b;
  ws_groups : w_groups a = w_groups b;
  ws_records : w_records a = w_records b;
  ws_next : w_next_check a = w_next_check b;
  ws_schema : groups_of (w_schema a) = groups_of (w_schema b) }.
Lemma flush_all_same : forall p snap a b, wsame a b ->
  orel (fun x y => snd x = snd y /\ wsame (fst x) (fst y)) (flush_all p snap a) (flush_all p snap b).
Proof.
  intros p snap [ia ga ra na sa] [ib gb rb nb sb] [A B C D E]. cbn in A, B, C, D, E. subst. unfold flush_all. cbn [w_records w_groups w_io w_next_check w_schema].
  destruct (rb >? 0); [|cbn; split; auto; split; auto].
  destruct (flush_groups p snap gb ib) as [[[gs io] [e|]]|e]; cbn; auto; split; auto; split; cbn; auto.
Qed.
Lemma check_memory_same : forall p snap a b, wsame a b -> orel wsame (check_memory p snap a) (check_memory p snap b).
Proof.
  intros p snap [ia ga ra na sa] [ib gb rb nb sb] [A B C D E]. cbn in A, B, C, D, E. subst. unfold check_memory. cbn [w_records w_groups w_io w_next_check w_schema].
  destruct (rb >=? nb); [|cbn; split; auto]. destruct (mem_size p gb) as [m|e]; cbn [bind]; [|reflexivity]. destruct (m =? 0); [reflexivity|].
  destruct (m >? CHUNK_GROUP_SIZE_THRESHOLD_BYTE); [|cbn; split; auto].
  eapply orel_bind; [apply flush_all_same; split; reflexivity || exact E|]. intros x y [_ H]. exact H.
Qed.
Lemma step_same : forall p snap a b o, wsame a b ->
  orel (fun x y => snd x = snd y /\ wsame (fst x) (fst y)) (step p snap a o) (step p snap b o).
Proof.
  intros p snap a b o W. destruct o as [d m t v|d t vs|ord]; cbn [step].
  - pose proof W as [A B C D E]. unfold writer_write. rewrite B. destruct (sm_get d (w_groups b)) as [g|]; [|cbn; auto].
    destruct (gw_write p snap m t v g) as [[g' [e|]]|e]; cbn [bind]; [|cbn [w_io w_groups w_records w_next_check w_schema]|reflexivity].
    + cbn. split; auto. split; cbn; auto; congruence.
    + rewrite C. destruct (arithU p 32 (w_records b + 1)) as [rc|e]; cbn [bind]; [|reflexivity].
      eapply orel_bind; [apply check_memory_same; split; cbn; auto; congruence|]. intros x y H. cbn. auto.
  - pose proof W as [A B C D E]. unfold writer_write_many. rewrite B. destruct (sm_get d (w_groups b)) as [g|]; [|cbn; auto].
    destruct (gw_write_many p snap t vs 0 g) as [[g' [n|e]]|e]; cbn [bind]; [cbn [w_io w_groups w_records w_next_check w_schema]| |reflexivity].
    + rewrite C. destruct (arithU p 32 (w_records b + n)) as [rc|e]; cbn [bind]; [|reflexivity].
      eapply orel_bind; [apply check_memory_same; split; cbn; auto; congruence|]. intros x y H. cbn. auto.
    + cbn. split; auto. split; cbn; auto; congruence.
  - unfold writer_close. eapply orel_bind; [apply flush_all_same; exact W|]. intros [x e] [y e'] [_ [A B C D E]]. cbn [fst] in *. rewrite A.
    destruct (end_file p ord (w_io y)) as [io|e2]; cbn; auto. split; auto. split; cbn; auto.
Qed.
Lemma run_same : forall p snap ops a b, wsame a b ->
  orel (fun x y => snd x = snd y /\ wsame (fst x) (fst y)) (run p snap a ops) (run p snap b ops).
Proof.
  intros p snap ops. induction ops as [|o ops IH]; intros a b W; cbn [run]; [cbn; auto|].
  eapply orel_bind; [apply step_same; exact W|]. intros [x c] [y c'] [E H]. cbn [fst snd] in *. subst c'.
  eapply orel_bind; [apply IH; exact H|]. intros [x' l] [y' l'] [E' H']. cbn [fst snd] in *. subst. cbn. auto.
Qed.
(** observable behaviour of a schema: creating a writer and running calls *)
Lemma schema_behaviour : forall s1 s2 sc1 sc2, build_schema s1 = Ret sc1 -> build_schema s2 = Ret sc2 ->
  (forall d m, defined s1 d m = defined s2 d m) ->
  forall out, match writer_new sc1 out, writer_new sc2 out with
  | (o1, Some w1), (o2, Some w2) => o1 = o2 /\ forall p snap ops,
      orel (fun x y => snd x = snd y /\ w_io (fst x) = w_io (fst y)) (run p snap w1 ops) (run p snap w2 ops)
  | (o1, None), (o2, None) => o1 = o2
  | _, _ => False
  end.
Proof.
  intros s1 s2 sc1 sc2 B1 B2 D out. destruct (build_schema_defined _ _ B1) as (N1 & F1 & _ & D1). destruct (build_schema_defined _ _ B2) as (N2 & F2 & _ & D2).
  assert (G : groups_of sc1 = groups_of sc2). { apply groups_of_ext; auto. intros d m ms. rewrite D1, D2, D. tauto. }
  unfold writer_new. destruct (io_new out) as [o [io|]]; [|reflexivity]. split; [reflexivity|]. intros p snap ops.
  assert (W : wsame (mkW io (groups_of sc1) 0 100 sc1) (mkW io (groups_of sc2) 0 100 sc2)) by (split; auto).
  pose proof (run_same p snap ops _ _ W) as R.
  destruct (run p snap _ ops) as [x|e], (run p snap _ ops) as [y|f]; cbn in *; try contradiction; auto. destruct R as [E H]. split; [exact E|apply H].
Qed.
