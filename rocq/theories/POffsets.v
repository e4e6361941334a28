(** The chunk offsets kept for the index. *)
From Verif Require Export PScan.
Ltac Zify.zify_post_hook ::= idtac.

Lemma drop_app : forall a b o, o = zlen a -> drop o (a ++ b) = Some b.
Proof.
  intros a b o ->. unfold drop. pose proof (zlen_nonneg _ a).
  replace ((0 <=? zlen a) && (zlen a <=? Z.of_nat (length (a ++ b)))) with true.
  - unfold zlen. rewrite Nat2Z.id, skipn_app, skipn_all, Nat.sub_diag. reflexivity.
  - symmetry. apply andb_true_intro. split; apply Z.leb_le; [auto|]. unfold zlen. rewrite app_length. lia.
Qed.

Lemma cmetas_in : forall cs o cm, In cm (cmetas o cs) ->
  exists a c b, cs = a ++ c :: b /\ cm = cmeta (o + zlen (concat (map cbytes a))) (c_cw c).
Proof.
  induction cs as [|c cs IH]; intros o cm H; [destruct H|]. destruct H as [<-|H].
  - exists [], c, cs. split; auto. cbn [map concat]. rewrite zlen_nil, Z.add_0_r. auto.
  - apply IH in H. destruct H as (a & c' & b & -> & ->). exists (c :: a), c', b. split; auto. cbn [map concat].
    rewrite zlen_app, Z.add_assoc. auto.
Qed.
Lemma metas_in : forall its off d l, In (d, l) (metas off its) ->
  exists x cs y, its = x ++ GItem d cs :: y /\ l = cmetas (off + zlen (file_of x) + zlen (ghead d)) cs.
Proof.
  induction its as [|it its IH]; intros off d l H; [destruct H|]. cbn [metas] in H. apply in_app_or in H. destruct H as [H|H].
  - destruct it as [d' cs|bs]; [|destruct H]. cbn [imetas] in H. destruct cs as [|c cs]; [destruct H|]. destruct H as [H|[]].
    inversion H; subst. exists [], (c :: cs), its. split; auto. unfold file_of. cbn [map concat]. rewrite zlen_nil, Z.add_0_r. auto.
  - apply IH in H. destruct H as (x & cs & y & -> & ->). exists (it :: x), cs, y. split; auto. unfold file_of. cbn [map concat].
    rewrite zlen_app, Z.add_assoc. auto.
Qed.

Section Offsets.
Variable p : profile.
Variable snap decomp : list Z -> option (list Z).
Hypothesis HG : good_snap snap decomp.

(** a chunk inside a file *)
Lemma chunk_at_ok : forall c pre rest o, citem_ok p snap c -> zlen (c_name c) < 2 ^ 31 -> thin c -> o = zlen pre ->
  exists k, ck_ok p c k /\ chunk_at decomp (pre ++ cbytes c ++ rest) o = Some k.
Proof.
  intros c pre rest o C N L E. destruct (chunk_read_ok p snap decomp HG c C N L) as (k & K & _ & R). exists k. split; auto.
  unfold chunk_at. rewrite (drop_app _ _ _ E), R. auto.
Qed.

Lemma cseries_at : forall m cs pre rest o, Forall (fun c => citem_ok p snap c /\ zlen (c_name c) < 2 ^ 31) cs ->
  Forall thin cs -> o = zlen pre -> o + zlen (concat (map cbytes cs)) < 2 ^ 63 ->
  concat (map (points_at decomp (pre ++ concat (map cbytes cs) ++ rest))
    (map cm_offset (filter (fun cm => same_name (cm_id cm) m) (cmetas o cs)))) = tnums (cseries m cs).
Proof.
  intros m cs. induction cs as [|c cs IH]; intros pre rest o F L E B; [reflexivity|].
  inversion F as [|? ? [C1 C2] F']; subst. cbn [map concat cmetas filter] in *. inversion L as [|? ? L1 L2]; subst. rewrite zlen_app in B.
  pose proof (zlen_nonneg _ (cbytes c)) as N1. pose proof (zlen_nonneg _ (concat (map cbytes cs))) as N2. pose proof (zlen_nonneg _ pre) as N3.
  destruct (chunk_at_ok c pre (concat (map cbytes cs) ++ rest) (zlen pre) C1 C2 L1 eq_refl) as (k & K & A).
  specialize (IH (pre ++ cbytes c) rest (zlen pre + zlen (cbytes c)) F' L2 ltac:(rewrite zlen_app; auto) ltac:(lia)).
  rewrite <- !app_assoc in *. unfold cseries in *. cbn [filter cm_id cmeta]. rewrite (proj1 (ck_ids _ _ _ K)).
  destruct (same_name (c_name c) m); [|exact IH]. cbn [map concat cm_offset cmeta]. rewrite tnums_app. f_equal; [|exact IH].
  unfold points_at. rewrite wrapS_small by (change (2 ^ (64 - 1)) with (2 ^ 63); lia). rewrite A. apply K.
Qed.
Lemma recorded_app : forall a b d m, recorded (a ++ b) d m = recorded a d m ++ recorded b d m.
Proof. intros. unfold recorded. rewrite filter_app, map_app, concat_app, filter_app, map_app. auto. Qed.

Lemma series_at : forall d m its pre rest off, Forall (names_ok p snap) its ->
  Forall light its -> off = zlen pre -> off + zlen (file_of its) < 2 ^ 63 ->
  concat (map (points_at decomp (pre ++ file_of its ++ rest)) (recorded (metas off its) d m)) = tnums (its_series d m its).
Proof.
  intros d m its. induction its as [|it its IH]; intros pre rest off F L E B; [reflexivity|].
  inversion F as [|? ? F1 F2]; subst. unfold file_of, its_series in *. cbn [map concat metas] in *. inversion L as [|? ? L1 L2]; subst. rewrite zlen_app in B.
  pose proof (zlen_nonneg _ (item_bytes it)) as N1. pose proof (zlen_nonneg _ (concat (map item_bytes its))) as N2. pose proof (zlen_nonneg _ pre) as N3.
  rewrite recorded_app, map_app, concat_app, tnums_app.
  specialize (IH (pre ++ item_bytes it) rest (zlen pre + zlen (item_bytes it)) F2 L2 ltac:(rewrite zlen_app; auto) ltac:(lia)).
  rewrite <- !app_assoc in *. f_equal; [|exact IH]. clear IH. destruct it as [d' cs|bs]; [|reflexivity].
  destruct F1 as [D C]. cbn [item_bytes iseries] in *. rewrite zlen_app in *. pose proof (zlen_nonneg _ (ghead d')) as N4. pose proof (zlen_nonneg _ (concat (map cbytes cs))) as N5.
  assert (R : recorded (imetas (zlen pre) (GItem d' cs)) d m = if same_name d' d then map cm_offset (filter (fun cm => same_name (cm_id cm) m) (cmetas (zlen pre + zlen (ghead d')) cs)) else []).
  { unfold recorded. destruct cs; cbn [imetas filter map concat]; [destruct (same_name d' d); reflexivity|]. cbn [fst]. destruct (same_name d' d); [|reflexivity].
    cbn [map concat snd]. rewrite app_nil_r. reflexivity. }
  rewrite R. destruct (same_name d' d); [|reflexivity]. rewrite <- app_assoc.
  pose proof (cseries_at m cs (pre ++ ghead d') (concat (map item_bytes its) ++ rest) (zlen pre + zlen (ghead d')) C L1 ltac:(rewrite zlen_app; auto) ltac:(lia)) as X.
  rewrite <- !app_assoc in X. exact X.
Qed.

Lemma meta_at : forall sc its pre rest off d l cm, schema_ok sc -> Forall (item_ok p snap sc) its ->
  Forall light its -> off = zlen pre -> off + zlen (file_of its) < 2 ^ 63 ->
  In (d, l) (metas off its) -> In cm l ->
  exists k ms, chunk_at decomp (pre ++ file_of its ++ rest) (cm_offset cm) = Some k /\
    declares sc d (cm_id cm) ms /\ cm_type cm = ms_type ms /\
    ch_name k = cm_id cm /\ ch_type k = dtype_code (cm_type cm) /\ chunk_points k <> [] /\
    in_group decomp (pre ++ file_of its ++ rest) d (cm_offset cm).
Proof.
  intros sc its pre rest off d l cm Hs F L E B I J. pose proof (items_names p snap sc its Hs F) as N.
  apply metas_in in I. destruct I as (x & cs & y & -> & ->). apply cmetas_in in J. destruct J as (a & c & b & -> & ->).
  apply Forall_app in F. destruct F as [_ F]. apply Forall_inv in F. destruct F as (g0 & G0 & F1).
  apply Forall_app in N. destruct N as [_ N]. apply Forall_inv in N. destruct N as [N1 N2].
  assert (FO : file_of (x ++ GItem d (a ++ c :: b) :: y) = file_of x ++ ghead d ++ concat (map cbytes a) ++ cbytes c ++ concat (map cbytes b) ++ file_of y).
  { rewrite file_of_app. f_equal. unfold file_of at 1. cbn [map concat item_bytes]. rewrite map_app, concat_app. cbn [map concat]. rewrite <- !app_assoc. auto. }
  apply Forall_app in L. destruct L as [_ L]. apply Forall_inv in L. cbn [light] in L. apply Forall_app in L. destruct L as [L1 L2]. apply Forall_inv in L2.
  rewrite FO in *. rewrite !zlen_app in B.
  pose proof (zlen_nonneg _ (file_of x)). pose proof (zlen_nonneg _ (ghead d)). pose proof (zlen_nonneg _ (concat (map cbytes a))).
  pose proof (zlen_nonneg _ (cbytes c)). pose proof (zlen_nonneg _ (concat (map cbytes b))). pose proof (zlen_nonneg _ (file_of y)). pose proof (zlen_nonneg _ pre).
  apply Forall_app in N2. destruct N2 as [N2 N3]. inversion N3 as [|? ? [C1 C2] _]; subst.
  apply Forall_app in F1. destruct F1 as [_ F1]. inversion F1 as [|? ? [_ G1] _]; subst.
  set (o := zlen pre + zlen (file_of x) + zlen (ghead d) + zlen (concat (map cbytes a))).
  cbn [cmeta cm_offset cm_id cm_type]. rewrite wrapS_small by (change (2 ^ (64 - 1)) with (2 ^ 63); lia). fold o.
  destruct (chunk_at_ok c (pre ++ file_of x ++ ghead d ++ concat (map cbytes a)) (concat (map cbytes b) ++ file_of y ++ rest) o C1 C2 L2) as (k & K & A).
  { unfold o. rewrite !zlen_app. lia. }
  exists k, (c_ms c). rewrite (proj1 (ck_ids _ _ _ K)), (proj2 (ck_ids _ _ _ K)).
  rewrite <- !app_assoc in *. split; [exact A|]. split; [apply declares_get; eauto|]. split; [auto|]. split; [apply K|]. split; [apply K|]. split.
  { rewrite (ck_points _ _ _ K). destruct C1 as [_ NE _]. destruct (c_pts c); [congruence|discriminate]. }
  destruct (scan_chunks p snap decomp HG d a N2 L1) as (ks & K1 & _ & K3).
  exists (zlen pre + zlen (file_of x)), (ghead d ++ concat (map cbytes a) ++ cbytes c ++ concat (map cbytes b) ++ file_of y ++ rest), ks,
    (cbytes c ++ concat (map cbytes b) ++ file_of y ++ rest).
  split; [rewrite app_assoc; apply drop_app; rewrite zlen_app; auto|]. split; [rewrite ghead_eq; reflexivity|]. split; [|split].
  - rewrite ghead_eq. cbn [scan app]. rewrite write_str_roundtrip by auto.
    replace (length ks) with (length a + 0)%nat by (rewrite Nat.add_0_r; clear - K1; induction K1; cbn; auto).
    rewrite K3. cbn [scan]. rewrite app_nil_r. auto.
  - set (z := cbytes c ++ concat (map cbytes b) ++ file_of y ++ rest).
    replace (pre ++ file_of x ++ ghead d ++ concat (map cbytes a) ++ z) with ((pre ++ file_of x ++ ghead d ++ concat (map cbytes a)) ++ z)
      by (rewrite <- !app_assoc; auto). apply drop_app. unfold o. rewrite !zlen_app. lia.
  - destruct (chunk_read_ok p snap decomp HG c C1 C2 L2) as (_ & _ & (z & r & -> & _) & _). discriminate.
Qed.
End Offsets.
