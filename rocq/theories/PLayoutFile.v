(** The bytes of the data part of a file (C55). *)
From Verif Require Export PLayoutChunk PFile PFileSize.
Ltac Zify.zify_post_hook ::= idtac.

(** ** Order of names *)
Lemma insert_name_sm : forall V k (v : V) m, ~ In k (map fst m) -> insert_name (k, v) m = sm_insert k v m.
Proof.
  induction m as [|[k' v'] m IH]; intros N; [reflexivity|]. cbn [insert_name sm_insert fst]. cbn [map fst] in N.
  destruct (str_cmp k k') eqn:C.
  - apply str_cmp_eq in C. subst. exfalso. apply N. left. auto.
  - destruct (lex_leb k k') eqn:E; [reflexivity|]. apply lex_leb_false, bytes_lt_iff in E. unfold str_lt in E. rewrite str_cmp_antisym, C in E. discriminate.
  - destruct (lex_leb k k') eqn:E; [|f_equal; apply IH; intros X; apply N; right; auto].
    exfalso. assert (X : lex_leb k k' = false); [|congruence]. apply lex_leb_false, bytes_lt_iff. unfold str_lt. rewrite str_cmp_antisym, C. reflexivity.
Qed.
Lemma by_name_perm : forall V (l : list (list Z * V)), NoDup (map fst l) -> (forall x, In x (map fst (by_name l)) <-> In x (map fst l)) /\ sorted (by_name l) /\
  forall k, sm_get k (by_name l) = sm_get k l.
Proof.
  induction l as [|[k v] l IH]; intros N; [repeat split; auto; apply sorted_nil|]. cbn [map fst] in N. inversion N as [|? ? N1 N2]; subst.
  destruct (IH N2) as (A & B & C). change (by_name ((k, v) :: l)) with (insert_name (k, v) (by_name l)).
  rewrite insert_name_sm by (rewrite A; auto). split; [|split; [apply sm_insert_sorted; auto|]].
  - intros x. rewrite sm_insert_keys, A. cbn [map fst In]. split; intros [X|X]; auto.
  - intros x. rewrite sm_get_insert, C. reflexivity.
Qed.
Lemma by_name_sm : forall V (l : list (list Z * V)), NoDup (map fst l) -> by_name l = sm_of_list l.
Proof.
  intros V l N. destruct (by_name_perm V l N) as (A & B & C). apply sm_ext; [exact B|apply sm_of_list_sorted|]. intros k. rewrite C.
  destruct (sm_get k l) as [v|] eqn:E.
  - symmetry. apply sm_of_list_nodup; auto. apply sm_get_in. exact E.
  - symmetry. destruct (sm_get k (sm_of_list l)) as [v|] eqn:E2; auto. apply sm_of_list_nodup in E2; auto. apply (sm_get_nodup _ _ _ _ N) in E2. congruence.
Qed.
Lemma decls_by_name : forall sc, schema_ok sc -> decls sc = map (fun dg => (fst dg, by_name (snd dg))) (by_name sc).
Proof.
  intros sc [N F]. unfold decls. rewrite sm_of_list_mapk, by_name_sm by auto. unfold sm_mapk. apply map_ext_in. intros [d g] I. cbn [fst snd]. f_equal.
  symmetry. apply by_name_sm. apply in_sm_get in I; [|apply sm_of_list_sorted]. apply sm_of_list_nodup in I; auto. rewrite Forall_forall in F. apply (F _ I).
Qed.

(** ** Items and pieces *)
Definition citem_piece (d : list Z) (c : citem) : piece := Chunk d (c_name c) (c_ms c) (c_pts c).
Definition item_pieces (it : item) : list piece :=
  match it with GItem d cs => Header d :: map (citem_piece d) cs | Raw bs => [Tail bs] end.
Definition its_pieces (its : list item) : list piece := concat (map item_pieces its).
Lemma ghead_text : forall d, zlen d < 2 ^ 31 -> ghead d = [0] ++ text d.
Proof. intros d H. unfold ghead, chunk_group_header. cbn [wbytes]. rewrite app_nil_r, write_str_text by auto. reflexivity. Qed.

Section Layout.
Variable p : profile.
Variable snap decomp : list Z -> option (list Z).
Hypothesis HG : good_snap snap decomp.
Variable sc : schema.
Hypothesis Hsc : schema_ok sc.

Lemma plan_pieces : forall fl d g cs, map plan_of cs = chunk_plan (fun m => series_of d m fl) (by_name g) ->
  Header d :: map (citem_piece d) cs = group_pieces fl d g.
Proof.
  intros fl d g cs H. unfold group_pieces. f_equal.
  assert (E : map (citem_piece d) cs = map (fun x => Chunk d (fst (fst x)) (snd (fst x)) (snd x)) (map plan_of cs)) by (rewrite map_map; reflexivity).
  rewrite E, H. clear. unfold chunk_plan. induction (by_name g) as [|[m ms] l IH]; [reflexivity|]. cbn [map filter concat fst snd].
  destruct (series_of d m fl) as [|x r] eqn:S; cbn [map app fst snd]; [exact IH|]. f_equal. exact IH.
Qed.
(** one group of items per flush *)
Definition flushed_as (flushes : list (list point)) (its : list item) : Prop :=
  exists gs, its = concat gs /\ Forall2 (fun fl grp => Forall2 (item_plan p snap (fun d m => series_of d m fl)) (decls sc) grp) flushes gs.
Lemma flushed_nil : flushed_as [] [].
Proof. exists []. split; auto. Qed.
Lemma flushed_snoc : forall fls its fl grp, flushed_as fls its -> Forall2 (item_plan p snap (fun d m => series_of d m fl)) (decls sc) grp ->
  flushed_as (fls ++ [fl]) (its ++ grp).
Proof.
  intros fls its fl grp (gs & -> & F) H. exists (gs ++ [grp]). rewrite concat_app. cbn [concat]. rewrite app_nil_r. split; auto.
  apply Forall2_app; auto.
Qed.
Lemma flushed_pieces : forall fls its, flushed_as fls its -> its_pieces its = pieces sc fls.
Proof.
  intros fls its (gs & -> & F). unfold its_pieces, pieces. induction F as [|fl grp fls gs H F IH]; [reflexivity|].
  cbn [concat map]. rewrite map_app, concat_app, IH. f_equal. clear IH F. unfold flush_pieces.
  rewrite decls_by_name in H by auto. revert grp H. induction (by_name sc) as [|[d g] l IH]; intros grp H; inversion H as [|? it ? its' (cs & -> & C1 & C2) H']; subst; [reflexivity|].
  cbn [map concat fst snd] in *. rewrite (IH _ H'). f_equal. cbn [item_pieces]. apply plan_pieces. exact C2.
Qed.

(** ** Bytes of the items *)
Lemma cbuffer_le : forall c, zlen (cw_buffer c) <= zlen (chunk_bytes c).
Proof.
  intros c. unfold chunk_bytes. rewrite zlen_app.
  match goal with |- _ <= zlen ?a + _ => pose proof (zlen_nonneg _ a) end. lia.
Qed.
Lemma item_image : forall it, item_ok p snap sc it -> light it ->
  data_bytes snap (item_pieces it) = item_bytes it /\
  match it with GItem d cs => ghead d = [0] ++ text d /\ Forall (fun c => piece_bytes snap (citem_piece d c) = cbytes c) cs | Raw _ => True end.
Proof.
  intros [d cs|bs] H L; [|split; [|exact I]; unfold data_bytes, item_pieces; cbn [map concat piece_bytes item_bytes]; apply app_nil_r]. destruct H as (g0 & A & F). cbn [light] in L.
  assert (N : zlen d < 2 ^ 31 /\ Forall (fun m => zlen m < 2 ^ 31) (map fst g0)).
  { pose proof (decls_names sc Hsc) as DN. rewrite Forall_forall in DN. apply sm_get_in in A. exact (DN _ A). }
  destruct N as [N1 N2].
  assert (P : Forall (fun c => piece_bytes snap (citem_piece d c) = cbytes c) cs).
  { induction cs as [|c cs IH]; [constructor|].
    inversion F as [|? ? [C1 C2] F']; subst. inversion L; subst.
    constructor; [|apply IH; auto]. cbn [citem_piece piece_bytes]. symmetry. unfold cbytes in *. destruct C1 as [C1 C3 C4].
    apply (chunk_exact p snap decomp HG); auto.
    - apply sm_get_in in C2. rewrite Forall_forall in N2. apply N2. apply (in_map fst) in C2. exact C2.
  }
  split; [|split; [apply ghead_text; auto|exact P]].
  unfold data_bytes, item_pieces. cbn [map concat item_bytes]. f_equal; [symmetry; apply ghead_text; auto|]. rewrite map_map. f_equal. apply map_ext_in.
  intros c I. rewrite Forall_forall in P. exact (P c I).
Qed.
Lemma item_le : forall it its, In it its -> zlen (item_bytes it) <= zlen (file_of its).
Proof.
  intros it its I. apply in_split in I. destruct I as (a & b & ->). rewrite file_of_app. change (it :: b) with ([it] ++ b). rewrite file_of_app.
  unfold file_of at 2. cbn [map concat]. rewrite app_nil_r, !zlen_app. pose proof (zlen_nonneg _ (file_of a)). pose proof (zlen_nonneg _ (file_of b)). lia.
Qed.
Lemma its_image : forall its, Forall (item_ok p snap sc) its -> Forall light its ->
  data_bytes snap (its_pieces its) = file_of its.
Proof.
  intros its F L. induction its as [|it its IH]; [reflexivity|]. inversion F; inversion L; subst.
  unfold file_of, its_pieces, data_bytes in *. cbn [map concat] in *.
  rewrite map_app, concat_app, IH by auto. f_equal. apply item_image; auto.
Qed.

(** ** Places of the chunks of a series *)
Fixpoint located (d m : list Z) (o : Z) (its : list item) : list (Z * citem) :=
  match its with
  | [] => []
  | it :: r =>
      match it with
      | GItem d' cs => (fix go (o : Z) (cs : list citem) : list (Z * citem) :=
          match cs with
          | [] => []
          | c :: cs' => (if same_name d' d && same_name (c_name c) m then [(o, c)] else []) ++ go (o + zlen (cbytes c)) cs'
          end) (o + zlen (ghead d')) cs
      | Raw _ => []
      end ++ located d m (o + zlen (item_bytes it)) r
  end.
Definition located_in (d' d m : list Z) := fix go (o : Z) (cs : list citem) : list (Z * citem) :=
  match cs with
  | [] => []
  | c :: cs' => (if same_name d' d && same_name (c_name c) m then [(o, c)] else []) ++ go (o + zlen (cbytes c)) cs'
  end.
Lemma places_app : forall d m a b o, places snap d m o (a ++ b) = places snap d m o a ++ places snap d m (o + zlen (data_bytes snap a)) b.
Proof.
  induction a as [|x a IH]; intros b o; cbn [app places].
  - unfold data_bytes. cbn [map concat]. rewrite zlen_nil, Z.add_0_r. reflexivity.
  - rewrite IH, <- app_assoc. unfold data_bytes. cbn [map concat]. rewrite zlen_app, Z.add_assoc. reflexivity.
Qed.
Lemma located_places : forall d m its o, Forall (item_ok p snap sc) its -> Forall light its ->
  places snap d m o (its_pieces its) = map (fun x => (fst x, c_pts (snd x))) (located d m o its).
Proof.
  intros d m its. induction its as [|it its IH]; intros o F L; [reflexivity|]. inversion F; inversion L; subst.
  unfold its_pieces in *. cbn [map concat located]. rewrite places_app, map_app.
  destruct (item_image it) as [E P]; auto. rewrite E, IH by auto. f_equal.
  destruct it as [d' cs|bs]; [|reflexivity]. fold (located_in d' d m). destruct P as [P0 P]. cbn [item_pieces places]. change (piece_bytes snap (Header d')) with ([0] ++ text d'). rewrite <- P0. cbn [app]. clear - P.
  generalize (o + zlen (ghead d')). clear o. induction P as [|c cs E P IH]; intros o; [reflexivity|]. cbn [map places located_in citem_piece] in *.
  change (Chunk d' (c_name c) (c_ms c) (c_pts c)) with (citem_piece d' c). rewrite E, map_app, IH. destruct (same_name d' d && same_name (c_name c) m); reflexivity.
Qed.
Lemma located_metas : forall d m its off, ~ In 46 m -> Forall (names_ok p snap) its -> Forall nodot_item its ->
  map snd (filter (on_path (path_of d m)) (flat (metas off its))) = map (fun x => cmeta (fst x) (c_cw (snd x))) (located d m off its).
Proof.
  intros d m its. induction its as [|it its IH]; intros off ND F FD; [reflexivity|].
  inversion F as [|? ? F1 F2]; subst. inversion FD as [|? ? D1 FD']; subst. cbn [metas located]. rewrite flat_app, filter_app, !map_app, IH by auto. f_equal.
  destruct it as [d' cs|bs]; [|reflexivity]. fold (located_in d' d m). destruct F1 as [D C]. cbn [nodot_item] in D1.
  assert (R : flat (imetas off (GItem d' cs)) = map (pair d') (cmetas (off + zlen (ghead d')) cs)).
  { unfold flat. destruct cs; cbn [imetas map concat fst snd]; [reflexivity|]. rewrite app_nil_r. reflexivity. }
  rewrite R. clear R. generalize (off + zlen (ghead d')). clear off IH F FD. induction cs as [|c cs IH]; intros o; [reflexivity|].
  inversion C as [|? ? [C1 C2] C']; subst. inversion D1; subst. cbn [cmetas map filter located_in]. rewrite map_app, <- IH by auto.
  assert (ID : cw_id (c_cw c) = c_name c). { destruct C1 as [A1 _ A2]. destruct (sealed_inv p snap decomp HG _ _ _ _ A1 A2) as (pages & ims & IV & _). apply IV. }
  assert (OP : on_path (path_of d m) (d', cmeta o (c_cw c)) = same_name d' d && same_name (c_name c) m).
  { unfold on_path. cbn [fst snd cmeta cm_id]. rewrite ID. apply eq_true_iff_eq. rewrite andb_true_iff, str_eqb_eq, !same_name_eq.
    split; [intros X; apply path_inj in X; auto|intros [-> ->]; auto]. }
  rewrite OP. destruct (same_name d' d && same_name (c_name c) m); reflexivity.
Qed.
Lemma located_in_its : forall d m its o x, In x (located d m o its) -> In (snd x) (citems_of d m its) /\ o <= fst x <= o + zlen (file_of its).
Proof.
  intros d m its. induction its as [|it its IH]; intros o x I; [destruct I|]. cbn [located] in I. unfold citems_of, file_of. cbn [map concat]. rewrite zlen_app.
  fold (citems_of d m its) (file_of its). pose proof (zlen_nonneg _ (file_of its)) as NF. pose proof (zlen_nonneg _ (item_bytes it)) as NI.
  apply in_app_or in I. destruct I as [I|I].
  - destruct it as [d' cs|bs]; [|destruct I]. fold (located_in d' d m) in I. cbn [ipick item_bytes] in *. rewrite zlen_app in *. pose proof (zlen_nonneg _ (ghead d')).
    assert (X : forall o, In x (located_in d' d m o cs) -> In (snd x) (if same_name d' d then filter (fun c => same_name (c_name c) m) cs else []) /\ o <= fst x <= o + zlen (concat (map cbytes cs))).
    { clear. induction cs as [|c cs IH]; intros o I; [destruct I|]. cbn [located_in] in I. cbn [map concat filter]. rewrite zlen_app.
      pose proof (zlen_nonneg _ (cbytes c)). pose proof (zlen_nonneg _ (concat (map cbytes cs))). apply in_app_or in I. destruct I as [I|I].
      - destruct (same_name d' d), (same_name (c_name c) m); cbn [andb] in I; try destruct I as [<-|[]]; try destruct I. cbn [fst snd]. split; [left; auto|lia].
      - apply IH in I. destruct I as [I L]. split; [|lia]. destruct (same_name d' d); auto. destruct (same_name (c_name c) m); auto. right. auto. }
    apply X in I. destruct I as [I L]. split; [apply in_or_app; left; exact I|lia].
  - apply IH in I. destruct I as [I L]. split; [apply in_or_app; right; exact I|lia].
Qed.
End Layout.
