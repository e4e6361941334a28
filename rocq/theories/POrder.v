(** The iteration order of the hash map changes nothing but the order of the devices in an index (C70). *)
From Verif Require Export SOrder PSink PLayoutCol.
Ltac Zify.zify_post_hook ::= idtac.
Open Scope list_scope. Open Scope Z_scope.

(** ** Files *)
Lemma rows_app : forall a b, rows_bytes (a ++ b) = rows_bytes a ++ rows_bytes b.
Proof. intros. unfold rows_bytes. rewrite map_app, concat_app. reflexivity. Qed.
Lemma rows_len : forall n1 n2, Permutation n1 n2 -> zlen (rows_bytes n1) = zlen (rows_bytes n2).
Proof.
  induction 1; unfold rows_bytes in *; cbn [map concat]; rewrite ?zlen_app; try lia.
Qed.
Fixpoint names_len (l : list (list Z * list Z)) : Z := match l with [] => 0 | x :: l' => zlen (fst x) + 8 + names_len l' end.
Lemma digits_len : forall n v, zlen (digits n v) = Z.of_nat n.
Proof. intros. rewrite digits_be. apply be_bytes_zlen. Qed.
Lemma entries_len : forall l o, zlen (root_entries o l) = names_len l.
Proof. induction l as [|[a b] l IH]; intros o; cbn [root_entries names_len fst]; [reflexivity|]. rewrite !zlen_app, digits_len, IH. change (Z.of_nat 8) with 8. lia. Qed.
Lemma names_perm : forall n1 n2, Permutation n1 n2 -> names_len n1 = names_len n2.
Proof. induction 1; cbn [names_len]; lia. Qed.
Lemma zlen_perm {A} : forall l1 l2 : list A, Permutation l1 l2 -> zlen l1 = zlen l2.
Proof. intros. unfold zlen. rewrite (Permutation_length H). reflexivity. Qed.
Lemma devices_len : forall o1 o2 n1 n2, Permutation n1 n2 -> zlen (devices_bytes o1 n1) = zlen (devices_bytes o2 n2).
Proof.
  intros o1 o2 n1 n2 P. unfold devices_bytes. rewrite !zlen_app, !entries_len, !digits_len, (names_perm _ _ P), (rows_len _ _ P), (zlen_perm _ _ P). reflexivity.
Qed.
Lemma alike_len : forall k a b, alike k a b -> zlen a = zlen b.
Proof. induction 1; rewrite ?zlen_app; try lia. rewrite (devices_len (zlen a) (zlen b) _ _ H0). lia. Qed.
Lemma alike_none : forall a b, alike 0 a b -> a = b.
Proof. intros a b H. remember 0%nat as k eqn:E. induction H; try discriminate; [reflexivity|]. rewrite (IHalike E). reflexivity. Qed.
Lemma alike_refl : forall a, alike 0 a a.
Proof. intros. apply (alike_same 0 [] [] a). constructor. Qed.

(** ** Outcomes *)
Definition orel {A B} (R : A -> B -> Prop) (x : outcome A) (y : outcome B) : Prop :=
  match x, y with Ret a, Ret b => R a b | Panic e, Panic f => e = f | _, _ => False end.
Lemma orel_bind {A B C D} : forall (R : A -> B -> Prop) (S : C -> D -> Prop) x y f g,
  orel R x y -> (forall a b, R a b -> orel S (f a) (g b)) -> orel S (bind x f) (bind y g).
Proof. intros R S [a|e] [b|e'] f g H K; cbn in *; try contradiction; auto. Qed.
Lemma orel_eq {A} : forall x : outcome A, orel eq x x.
Proof. destruct x; cbn; auto. Qed.

(** ** Sinks *)
Record near (k : nat) (a b : sink) : Prop := {
  ne_a : is_healthy a; ne_b : is_healthy b;
  ne_pos : sk_pos a = sk_pos b;
  ne_at : sk_pos a = zlen (sk_data a);
  ne_data : alike k (sk_data a) (sk_data b) }.
Lemma near_wexec : forall k w a b, near k a b -> near k (fst (wexec w a)) (fst (wexec w b)) /\ snd (wexec w a) = true /\ snd (wexec w b) = true.
Proof.
  intros k w a b [H1 H2 H3 H4 H5]. destruct (wexec_healthy w a H1) as (a' & E1 & X1), (wexec_healthy w b H2) as (b' & E2 & X2).
  rewrite E1, E2. cbn [fst snd]. split; [|auto]. constructor.
  - eapply sk_ext_healthy; eauto.
  - eapply sk_ext_healthy; eauto.
  - rewrite (se_pos _ _ _ X1), (se_pos _ _ _ X2). lia.
  - rewrite (se_pos _ _ _ X1), (se_data _ _ _ X1), zlen_app. lia.
  - rewrite (se_data _ _ _ X1), (se_data _ _ _ X2). apply alike_same; auto.
Qed.
Definition near1 {k} (w : wprog) (a b : sink) (N : near k a b) := proj1 (near_wexec k w a b N).

Record io_near (k : nat) (a b : io_writer) : Prop := {
  in_out : near k (io_out a) (io_out b);
  in_device : io_device a = io_device b;
  in_chunks : io_chunks a = io_chunks b;
  in_current : io_current a = io_current b;
  in_groups : io_groups a = io_groups b;
  in_tsmeta : io_tsmeta a = io_tsmeta b }.

Lemma write_all_pages_near : forall k c a b, io_near k a b -> orel (io_near k) (write_all_pages c a) (write_all_pages c b).
Proof.
  intros k c a b S. unfold write_all_pages. destruct (st_count (cw_stats c) =? 0); [exact S|].
  destruct S as [S1 S2 S3 S4 S5 S6]. unfold end_current_chunk, io_with_out, start_flush_chunk.
  cbn [io_current io_out io_device io_chunks io_groups io_tsmeta orel]. rewrite S2, S3, S5, S6, (ne_pos _ _ _ S1).
  constructor; cbn [io_current io_out io_device io_chunks io_groups io_tsmeta]; auto. apply near1, near1, S1.
Qed.
Definition R2 {A} (R : io_writer -> io_writer -> Prop) (x y : A * io_writer) : Prop := fst x = fst y /\ R (snd x) (snd y).
Lemma write_to_file_near : forall k p snap c a b, io_near k a b -> orel (R2 (io_near k)) (write_to_file_writer p snap c a) (write_to_file_writer p snap c b).
Proof.
  intros k p snap c a b S. unfold write_to_file_writer. eapply orel_bind; [apply orel_eq|]. intros c1 c2 <-.
  eapply orel_bind; [apply write_all_pages_near, S|]. intros a' b' T. split; auto.
Qed.
Lemma flush_chunks_near : forall k p snap cs a b, io_near k a b -> orel (R2 (io_near k)) (flush_chunks p snap cs a) (flush_chunks p snap cs b).
Proof.
  intros k; induction cs as [|[i c] cs IH]; intros a b S; cbn [flush_chunks]; [split; auto|].
  eapply orel_bind; [apply write_to_file_near, S|]. intros [c1 a1] [c2 b1] [E T]. cbn [fst snd] in E, T. subst c2.
  eapply orel_bind; [apply IH, T|]. intros [x a2] [y b2] [E U]. cbn [fst snd] in *. subst y. split; auto.
Qed.
Definition R3 {A B} k (x y : A * io_writer * B) : Prop := fst (fst x) = fst (fst y) /\ io_near k (snd (fst x)) (snd (fst y)) /\ snd x = snd y.
Lemma flush_to_near : forall k p snap g a b, io_near k a b -> orel (R3 k) (flush_to_filewriter p snap g a) (flush_to_filewriter p snap g b).
Proof.
  intros k p snap g a b S. unfold flush_to_filewriter. eapply orel_bind; [apply orel_eq|]. intros c1 c2 <-. cbv zeta.
  eapply orel_bind; [apply flush_chunks_near, S|]. intros [x a2] [y b2] [E U]. cbn [fst snd] in *. subst y. repeat split; auto; apply U.
Qed.
Lemma start_group_near : forall k d a b, io_near k a b -> io_near k (fst (start_chunk_group d a)) (fst (start_chunk_group d b)) /\
  snd (start_chunk_group d a) = true /\ snd (start_chunk_group d b) = true.
Proof.
  intros k d a b [S1 S2 S3 S4 S5 S6]. unfold start_chunk_group. destruct (near_wexec k (chunk_group_header d) _ _ S1) as (T & Ea & Eb).
  destruct (wexec (chunk_group_header d) (io_out a)) as [oa ka], (wexec (chunk_group_header d) (io_out b)) as [ob kb].
  cbn [fst snd] in *. subst. cbn [fst snd]. split; [|auto]. constructor; cbn; auto.
Qed.
Lemma end_group_near : forall k a b, io_near k a b -> io_near k (end_chunk_group a) (end_chunk_group b).
Proof.
  intros k a b [S1 S2 S3 S4 S5 S6]. unfold end_chunk_group. rewrite S2, S3, S4, S5, S6.
  destruct (io_device b) eqn:D1; [destruct (io_chunks b) eqn:D2|]; constructor; cbn; auto; congruence.
Qed.
Lemma flush_groups_near : forall k p snap gs a b, io_near k a b -> orel (R3 k) (flush_groups p snap gs a) (flush_groups p snap gs b).
Proof.
  intros k; induction gs as [|[d g] gs IH]; intros a b S; cbn [flush_groups]; [repeat split; auto; apply S|].
  destruct (start_group_near k d a b S) as (T & Ea & Eb).
  destruct (start_chunk_group d a) as [a1 ra], (start_chunk_group d b) as [b1 rb]. cbn [fst snd] in *. subst ra rb. cbv zeta.
  eapply orel_bind; [apply flush_to_near, T|]. intros [[g1 a2] n1] [[g2 b2] n2] (E1 & U & E2). cbn [fst snd] in E1, U, E2. subst g2 n2.
  rewrite (ne_pos _ _ _ (in_out _ _ _ U)), (ne_pos _ _ _ (in_out _ _ _ T)). destruct (negb _); [repeat split; auto; apply U|].
  eapply orel_bind; [apply IH, end_group_near, U|]. intros [[x a3] e1] [[y b3] e2] (E1 & V & E2). cbn [fst snd] in E1, V, E2. subst y e2.
  repeat split; auto; apply V.
Qed.

Record w_near (k : nat) (a b : writer) : Prop := {
  wn_io : io_near k (w_io a) (w_io b);
  wn_groups : w_groups a = w_groups b;
  wn_records : w_records a = w_records b;
  wn_next : w_next_check a = w_next_check b;
  wn_schema : w_schema a = w_schema b }.
Definition RA {A} k (x y : writer * A) : Prop := w_near k (fst x) (fst y) /\ snd x = snd y.
Lemma flush_all_near : forall k p snap a b, w_near k a b -> orel (RA k) (flush_all p snap a) (flush_all p snap b).
Proof.
  intros k p snap a b S. pose proof S as [S1 S2 S3 S4 S5]. unfold flush_all. rewrite S3. destruct (w_records b >? 0).
  - rewrite S2. eapply orel_bind; [apply flush_groups_near, S1|]. intros [[x a3] e1] [[y b3] e2] (E1 & V & E2). cbn [fst snd] in E1, V, E2. subst y e2.
    cbv zeta. rewrite S4, S5. destruct e1; (split; [constructor; cbn; auto|reflexivity]).
  - split; [exact S|reflexivity].
Qed.
Lemma check_memory_near : forall k p snap a b, w_near k a b -> orel (w_near k) (check_memory p snap a) (check_memory p snap b).
Proof.
  intros k p snap a b S. pose proof S as [S1 S2 S3 S4 S5]. unfold check_memory. rewrite S3, S4.
  destruct (w_records b >=? w_next_check b); [|exact S]. rewrite S2. eapply orel_bind; [apply orel_eq|]. intros m m' <-.
  destruct (m =? 0); [reflexivity|]. cbv zeta. rewrite S5. destruct (m >? CHUNK_GROUP_SIZE_THRESHOLD_BYTE).
  - eapply orel_bind; [apply (flush_all_near k)|]. { exact (Build_w_near k (mkW _ _ _ _ _) (mkW _ _ _ _ _) S1 eq_refl eq_refl eq_refl eq_refl). } intros x y [T _]. exact T.
  - constructor; cbn; auto.
Qed.

(** ** The index *)
Lemma measurement_loop_near : forall k deg l i cur queue a b, near k a b ->
  fst (measurement_loop deg i l cur queue a) = fst (measurement_loop deg i l cur queue b) /\
  near k (snd (measurement_loop deg i l cur queue a)) (snd (measurement_loop deg i l cur queue b)).
Proof.
  intros k; induction l as [|m l IH]; intros i cur queue a b S; cbn [measurement_loop]; [auto|].
  rewrite (ne_pos _ _ _ S). match goal with |- context [let '(_, _) := ?x in _] => destruct x as [cu qu] end.
  apply IH, near1, S.
Qed.
Definition RS {A} k (x y : A * sink) : Prop := fst x = fst y /\ near k (snd x) (snd y).
Lemma device_loop_near : forall k deg ds a b, near k a b -> orel (RS k) (device_loop deg ds a) (device_loop deg ds b).
Proof.
  intros k; induction ds as [|[d l] ds IH]; intros a b S; cbn [device_loop]; [split; auto|].
  destruct l as [|x l]; [apply IH, S|].
  destruct (measurement_loop_near k deg (x :: l) 0 (index_node_new LeafMeasurement) [] a b S) as [E T].
  destruct (measurement_loop deg 0 (x :: l) (index_node_new LeafMeasurement) [] a) as [[ca qa] a1], (measurement_loop deg 0 (x :: l) (index_node_new LeafMeasurement) [] b) as [[cb qb] b1].
  cbn [fst snd] in E, T. inversion E; subst. cbv zeta. rewrite (ne_pos _ _ _ T).
  eapply orel_bind; [apply orel_eq|]. intros r1 r2 <-. eapply orel_bind; [apply IH, T|].
  intros [x1 a2] [x2 b2] [E2 U]. cbn [fst snd] in *. subst x2. split; auto.
Qed.
Definition shown (x : str * index_node) : list Z * list Z := (wbytes (write_str (fst x)), wbytes (index_node_serialize (snd x))).
Lemma device_entries_is : forall l node s, is_healthy s ->
  exists es, fst (device_entries l node s) = mkIN (in_children node ++ es) (in_end node) (in_type node) /\ length es = length l /\
    wbytes (fold_right (fun e k => WAnd (index_entry_serialize e) k) WNil es) = root_entries (sk_pos s) (map shown l) /\
    sk_ext s (snd (device_entries l node s)) (rows_bytes (map shown l)).
Proof.
  induction l as [|[d n] l IH]; intros node s H; cbn [device_entries map].
  - exists []. cbn. rewrite app_nil_r. destruct node. repeat split; auto; try (unfold zlen; cbn; lia).
    + rewrite app_nil_r. reflexivity.
  - pose proof (wexec_healthy_fst (index_node_serialize n) s H) as X.
    destruct (IH (push_child (mkIE d (sk_pos s)) node) _ (sk_ext_healthy _ _ _ X H)) as (es & E & L & B & Y).
    exists (mkIE d (sk_pos s) :: es). rewrite E. cbn [push_child in_children in_end in_type length fold_right wbytes].
    split; [rewrite <- app_assoc; reflexivity|]. split; [lia|]. split.
    + rewrite B. cbn [root_entries shown fst snd]. unfold index_entry_serialize. cbn [ie_name ie_offset wbytes]. rewrite (se_pos _ _ _ X), digits_be, app_nil_r.
      rewrite <- !app_assoc. reflexivity.
    + unfold rows_bytes. cbn [map concat shown snd]. eapply sk_ext_trans; eauto.
Qed.
Lemma entries_cut : forall es k, wbytes (fold_right (fun e k => WAnd (index_entry_serialize e) k) k es) =
  wbytes (fold_right (fun e k => WAnd (index_entry_serialize e) k) WNil es) ++ wbytes k.
Proof. induction es as [|e es IH]; intros k; cbn [fold_right wbytes]; [reflexivity|]. rewrite IH, app_assoc. reflexivity. Qed.

(** The devices and the root node after them. *)
Definition index_then_root (ord : hash_order) (m : list (str * index_node)) (off : Z) (out : sink) : sink :=
  let '(node, out) := device_entries (ord m) (index_node_new LeafDevice) out in
  fst (wexec (ts_file_metadata_serialize (with_end (sk_pos out) node) off) out).
Lemma index_then_root_is : forall ord m off s, is_healthy s -> zlen (ord m) <= 256 ->
  sk_ext s (index_then_root ord m off s) (devices_bytes (sk_pos s) (map shown (ord m)) ++ be_bytes 8 off).
Proof.
  intros ord m off s H L. unfold index_then_root. destruct (device_entries_is (ord m) (index_node_new LeafDevice) s H) as (es & E & LE & B & X).
  destruct (device_entries (ord m) (index_node_new LeafDevice) s) as [node out]. cbn [fst snd] in E, X. subst node.
  pose proof (wexec_healthy_fst (ts_file_metadata_serialize (with_end (sk_pos out) (mkIN (in_children (index_node_new LeafDevice) ++ es) (in_end (index_node_new LeafDevice)) (in_type (index_node_new LeafDevice)))) off) out (sk_ext_healthy _ _ _ X H)) as Y.
  eapply sk_ext_trans in Y; [|exact X]. refine (eq_rect _ (fun l => sk_ext s _ l) Y _ _).
  unfold ts_file_metadata_serialize, index_node_serialize, with_end, index_node_new. cbn [in_children in_end in_type app wbytes].
  rewrite entries_cut, B. cbn [wbytes node_type_serialize node_type_code app].
  unfold devices_bytes. rewrite leb_var; [|apply wrapU_range; lia]. rewrite digits_be, (se_pos _ _ _ X). unfold zlen at 1. rewrite LE.
  assert (Z.of_nat (length (ord m)) = zlen (map shown (ord m))) as -> by (unfold zlen; rewrite map_length; reflexivity).
  rewrite wrapU_small by (unfold zlen in *; rewrite map_length; lia). rewrite <- !app_assoc. reflexivity.
Qed.

Lemma near_index : forall k o1 o2 m off a b, good_order o1 -> good_order o2 -> (length m <= 256)%nat -> near k a b ->
  near (S k) (index_then_root o1 m off a) (index_then_root o2 m off b).
Proof.
  intros k o1 o2 m off a b G1 G2 L [H1 H2 H3 H4 H5].
  assert (L1 : zlen (o1 m) <= 256) by (rewrite (zlen_perm _ _ (G1 m)); unfold zlen; lia).
  assert (L2 : zlen (o2 m) <= 256) by (rewrite (zlen_perm _ _ (G2 m)); unfold zlen; lia).
  pose proof (index_then_root_is o1 m off a H1 L1) as X1. pose proof (index_then_root_is o2 m off b H2 L2) as X2.
  assert (P : Permutation (map shown (o1 m)) (map shown (o2 m))).
  { apply Permutation_map. eapply Permutation_trans; [apply G1|]. apply Permutation_sym, G2. }
  constructor.
  - eapply sk_ext_healthy; eauto.
  - eapply sk_ext_healthy; eauto.
  - rewrite (se_pos _ _ _ X1), (se_pos _ _ _ X2), !zlen_app, (devices_len (sk_pos a) (sk_pos b) _ _ P). lia.
  - rewrite (se_pos _ _ _ X1), (se_data _ _ _ X1), !zlen_app. lia.
  - rewrite (se_data _ _ _ X1), (se_data _ _ _ X2), !app_assoc. apply alike_same. rewrite <- H3, H4.
    rewrite (alike_len _ _ _ H5) at 2. apply alike_index; auto. unfold zlen in *. rewrite map_length. lia.
Qed.
Lemma end_file_near : forall k p o1 o2 a b, good_order o1 -> good_order o2 -> io_near k a b -> orel (io_near (S k)) (end_file p o1 a) (end_file p o2 b).
Proof.
  intros k p o1 o2 a b G1 G2 [S1 S2 S3 S4 S5 S6]. unfold end_file, construct_metadata_index, io_with_tsmeta, io_with_out. cbv zeta. rewrite S5, S6.
  eapply orel_bind; [apply orel_eq|]. intros tsm tsm' <-.
  pose proof (device_loop_near k cfg_max_degree_of_index_node tsm _ _ (near1 (WAll [2]) _ _ S1)) as D. rewrite (ne_pos _ _ _ S1). clear S5 S6.
  destruct (device_loop cfg_max_degree_of_index_node tsm (fst (wexec (WAll [2]) (io_out a)))) as [[m x]|e],
           (device_loop cfg_max_degree_of_index_node tsm (fst (wexec (WAll [2]) (io_out b)))) as [[m' y]|e']; cbn [orel] in D; try contradiction; [|subst; reflexivity].
  destruct D as [D T]. cbn [fst snd] in D, T. subst m'. cbn [bind].
  destruct (length m <=? cfg_max_degree_of_index_node)%nat eqn:L; [|reflexivity]. apply Nat.leb_le in L.
  pose proof (near_index k o1 o2 m (sk_pos (io_out b)) x y G1 G2 L T) as U. pose proof (device_entries_is (o1 m) (index_node_new LeafDevice) x (ne_a _ _ _ T)) as V1.
  pose proof (device_entries_is (o2 m) (index_node_new LeafDevice) y (ne_b _ _ _ T)) as V2.
  unfold index_then_root in U. destruct (device_entries (o1 m) (index_node_new LeafDevice) x) as [n1 x1], (device_entries (o2 m) (index_node_new LeafDevice) y) as [n2 y1].
  cbn [bind fst snd] in *. destruct V1 as (_ & _ & _ & _ & X1), V2 as (_ & _ & _ & _ & X2).
  assert (E : sk_pos x1 = sk_pos y1).
  { rewrite (se_pos _ _ _ X1), (se_pos _ _ _ X2), (ne_pos _ _ _ T). f_equal. apply rows_len, Permutation_map. eapply Permutation_trans; [apply G1|apply Permutation_sym, G2]. }
  set (s1 := fst (wexec (ts_file_metadata_serialize (with_end (sk_pos x1) n1) (sk_pos (io_out b))) x1)) in *.
  set (s2 := fst (wexec (ts_file_metadata_serialize (with_end (sk_pos y1) n2) (sk_pos (io_out b))) y1)) in *. clearbody s1 s2.
  eapply orel_bind; [apply orel_eq|]. intros bf bf' <-. eapply orel_bind; [apply orel_eq|]. intros bw bw' <-. cbn [orel].
  pose proof (near1 bw _ _ U) as W. rewrite E, (ne_pos _ _ _ W).
  constructor; cbn [io_current io_out io_device io_chunks io_groups io_tsmeta]; auto. apply near1, near1, W.
Qed.

(** ** Sessions *)
Lemma write_near : forall k p snap o a b, w_near k a b -> (forall ord, o <> OpClose ord) -> orel (RA k) (step p snap a o) (step p snap b o).
Proof.
  intros k p snap o a b S NC. pose proof S as [S1 S2 S3 S4 S5]. destruct o as [d m t v|d t vs|ord]; [| |destruct (NC ord eq_refl)]; cbn [step].
  - unfold writer_write. rewrite S2. destruct (sm_get d (w_groups b)) as [g|]; [|split; auto].
    eapply orel_bind; [apply orel_eq|]. intros [g1 e] r <-. cbv zeta. cbn [w_io w_groups w_records w_next_check w_schema]. rewrite S3, S4, S5.
    destruct e; [split; [constructor; cbn; auto|reflexivity]|]. eapply orel_bind; [apply orel_eq|]. intros rc rc' <-.
    eapply orel_bind; [apply (check_memory_near k); exact (Build_w_near k (mkW _ _ _ _ _) (mkW _ _ _ _ _) S1 eq_refl eq_refl eq_refl eq_refl)|]. intros x y T. split; auto.
  - unfold writer_write_many. rewrite S2. destruct (sm_get d (w_groups b)) as [g|]; [|split; auto].
    eapply orel_bind; [apply orel_eq|]. intros [g1 e] r <-. cbv zeta. cbn [w_io w_groups w_records w_next_check w_schema]. rewrite S3, S4, S5.
    destruct e; [|split; [constructor; cbn; auto|reflexivity]]. eapply orel_bind; [apply orel_eq|]. intros rc rc' <-.
    eapply orel_bind; [apply (check_memory_near k); exact (Build_w_near k (mkW _ _ _ _ _) (mkW _ _ _ _ _) S1 eq_refl eq_refl eq_refl eq_refl)|]. intros x y T. split; auto.
Qed.
Lemma step_near : forall k p snap o1 o2 a b, w_near k a b -> same_call o1 o2 -> orel (RA (close_count [o1] + k)) (step p snap a o1) (step p snap b o2).
Proof.
  intros k p snap o1 o2 a b S C. destruct o1 as [d m t v|d t vs|ord], o2 as [d' m' t' v'|d' t' vs'|ord']; cbn [same_call] in C; try contradiction.
  - rewrite <- C. apply write_near; [exact S|discriminate].
  - discriminate.
  - discriminate.
  - rewrite <- C. apply write_near; [exact S|discriminate].
  - destruct C as [G1 G2]. cbn [step]. unfold writer_close. eapply orel_bind; [apply flush_all_near, S|]. intros x y [T _]. cbv zeta.
    destruct T as [T1 T2 T3 T4 T5]. eapply orel_bind; [apply (end_file_near k p ord ord' _ _ G1 G2 T1)|]. intros i j U. rewrite T2, T3, T4, T5.
    split; [constructor; cbn; auto|reflexivity].
Qed.
Lemma run_near : forall p snap ops1 ops2, Forall2 same_call ops1 ops2 -> forall k a b, w_near k a b -> orel (RA (close_count ops1 + k)) (run p snap a ops1) (run p snap b ops2).
Proof.
  induction 1 as [|o1 o2 ops1 ops2 C F IH]; intros k a b S; cbn [run]; [split; auto|].
  eapply orel_bind; [apply step_near; eauto|]. intros [x a1] [y a2] [T E]. cbn [fst snd] in T, E. subst a2.
  eapply orel_bind; [apply IH, T|]. intros r r' [U E]. split; cbn [fst snd]; [|congruence].
  refine (eq_rect _ (fun n => w_near n _ _) U _ _). unfold close_count. cbn [filter]. destruct o1; cbn [length]; lia.
Qed.
Lemma start_near : forall sc out w, writer_new sc (sink_new healthy) = (out, Some w) -> w_near 0 w w.
Proof.
  intros sc out w H. unfold writer_new, io_new in H. destruct (wexec_healthy (WThen (WAll MAGIC) (WThen (WAll [3]) WNil)) _ healthy_new) as (s & E & X).
  rewrite E in H. inversion H; subst. constructor; auto. constructor; auto. cbn [w_io io_out].
  constructor; auto; try (eapply sk_ext_healthy; [exact X|apply healthy_new]); [|apply alike_refl].
  rewrite (se_pos _ _ _ X), (se_data _ _ _ X), zlen_app. reflexivity.
Qed.

Theorem orders_only : forall p snap sc out w0 ops1 ops2, writer_new sc (sink_new healthy) = (out, Some w0) -> Forall2 same_call ops1 ops2 ->
  (forall e, run p snap w0 ops1 = Panic e <-> run p snap w0 ops2 = Panic e) /\
  (forall w1 l1, run p snap w0 ops1 = Ret (w1, l1) -> exists w2, run p snap w0 ops2 = Ret (w2, l1) /\
     alike (close_count ops1) (file_bytes w1) (file_bytes w2) /\ zlen (file_bytes w1) = zlen (file_bytes w2)).
Proof.
  intros p snap sc out w0 ops1 ops2 N F. pose proof (run_near p snap ops1 ops2 F 0%nat w0 w0 (start_near _ _ _ N)) as R. rewrite Nat.add_0_r in R.
  destruct (run p snap w0 ops1) as [[w1 l1]|e1], (run p snap w0 ops2) as [[w2 l2]|e2]; cbn [orel] in R; try contradiction.
  - destruct R as [S E]. cbn [fst snd] in S, E. subst l2. split; [split; discriminate|].
    intros w l H. apply ret_inj in H. inversion H; subst. exists w2. split; [reflexivity|].
    pose proof (ne_data _ _ _ (in_out _ _ _ (wn_io _ _ _ S))) as A. split; [exact A|]. exact (alike_len _ _ _ A).
  - subst e2. split; [tauto|discriminate].
Qed.
