(** The index of a closed file, for whole histories (C17, C18, C20, C21, C24). *)
From Verif Require Export PHist PClose.
Ltac Zify.zify_post_hook ::= idtac.

(** Chunks of one series, in file order *)
Definition ipick (d m : list Z) (it : item) : list citem :=
  match it with GItem d' cs => if same_name d' d then filter (fun c => same_name (c_name c) m) cs else [] | Raw _ => [] end.
Definition citems_of (d m : list Z) (its : list item) : list citem := concat (map (ipick d m) its).
Lemma citems_series : forall d m its, its_series d m its = concat (map c_pts (citems_of d m its)).
Proof.
  intros. unfold its_series, citems_of. induction its as [|it its IH]; auto. cbn [map concat]. rewrite map_app, concat_app, IH. f_equal.
  destruct it as [d' cs|bs]; auto. cbn [iseries ipick]. destruct (same_name d' d); auto.
Qed.

Lemma lt_nodup : forall l, StronglySorted str_lt l -> NoDup l.
Proof.
  intros l S. induction S as [|a l S IH F]; constructor; auto. intros I. rewrite Forall_forall in F. apply F in I. unfold str_lt in I. rewrite str_cmp_refl in I. discriminate.
Qed.

Lemma NoDup_app_intro : forall A (a b : list A), NoDup a -> NoDup b -> (forall x, In x a -> ~ In x b) -> NoDup (a ++ b).
Proof.
  intros A a b HA. induction HA as [|x a NI HA IH]; intros HB D; auto. cbn [app]. constructor.
  - rewrite in_app_iff. intros [I|I]; [auto|]. apply (D x); [left|]; auto.
  - apply IH; auto. intros y I. apply D. right. auto.
Qed.

Section File.
Variable p : profile.
Variable snap decomp : list Z -> option (list Z).
Hypothesis HG : good_snap snap decomp.

Record cm_ok (file : list Z) (cm : chunk_meta) (c : citem) : Prop := {
  ck_citem : citem_ok p snap c;
  ck_len : zlen (c_name c) < 2 ^ 31;
  ck_cid : cm_id cm = c_name c;
  ck_ctype : cm_type cm = ms_type (c_ms c);
  ck_stats : cm_stats cm = cw_stats (c_cw c);
  ck_off : 0 <= cm_offset cm < 2 ^ 63;
  ck_read : exists k, ck_ok p c k /\ chunk_at decomp file (cm_offset cm) = Some k }.

Definition nodot_item (it : item) : Prop := match it with GItem _ cs => Forall (fun c => ~ In 46 (c_name c)) cs | Raw _ => True end.

Lemma flat_app : forall a b, flat (a ++ b) = flat a ++ flat b.
Proof. intros. unfold flat. rewrite map_app, concat_app. auto. Qed.

Lemma cs_metas : forall d m d' cs pre rest o, ~ In 46 m -> Forall (fun c => citem_ok p snap c /\ zlen (c_name c) < 2 ^ 31) cs -> Forall (fun c => ~ In 46 (c_name c)) cs ->
  Forall thin cs -> o = zlen pre -> o + zlen (concat (map cbytes cs)) < 2 ^ 63 ->
  Forall2 (cm_ok (pre ++ concat (map cbytes cs) ++ rest)) (map snd (filter (on_path (path_of d m)) (map (pair d') (cmetas o cs))))
    (if same_name d' d then filter (fun c => same_name (c_name c) m) cs else []).
Proof.
  intros d m d' cs. induction cs as [|c cs IH]; intros pre rest o ND F FD L E B.
  - cbn. destruct (same_name d' d); constructor.
  - inversion F as [|? ? [C1 C2] F']; subst. inversion FD as [|? ? D1 FD']; subst. cbn [map concat cmetas filter] in *. inversion L as [|? ? L1 L2]; subst. rewrite zlen_app in B.
    pose proof (zlen_nonneg _ (cbytes c)) as N1. pose proof (zlen_nonneg _ (concat (map cbytes cs))) as N2. pose proof (zlen_nonneg _ pre) as N3.
    destruct (chunk_at_ok p snap decomp HG c pre (concat (map cbytes cs) ++ rest) (zlen pre) C1 C2 L1 eq_refl) as (k & K & A).
    specialize (IH (pre ++ cbytes c) rest (zlen pre + zlen (cbytes c)) ND F' FD' L2 ltac:(rewrite zlen_app; auto) ltac:(lia)).
    rewrite <- !app_assoc in *.
    assert (OP : on_path (path_of d m) (d', cmeta (zlen pre) (c_cw c)) = same_name d' d && same_name (c_name c) m).
    { unfold on_path. cbn [fst snd cmeta cm_id]. rewrite (proj1 (ck_ids _ _ _ K)). apply eq_true_iff_eq. rewrite andb_true_iff, str_eqb_eq, !same_name_eq.
      split; [intros X; apply path_inj in X; auto|intros [-> ->]; auto]. }
    rewrite OP. destruct (same_name d' d); cbn [andb]; [|exact IH]. destruct (same_name (c_name c) m); [|exact IH]. cbn [map snd].
    constructor; [|exact IH]. assert (W : wrapS 64 (zlen pre) = zlen pre) by (apply wrapS_small; change (2 ^ (64 - 1)) with (2 ^ 63); lia).
    split; cbn [cmeta cm_id cm_type cm_stats cm_offset]; auto; try apply K; rewrite W; [lia|eauto].
Qed.
Lemma its_metas : forall d m its pre rest off, ~ In 46 m -> Forall (names_ok p snap) its -> Forall nodot_item its ->
  Forall light its -> off = zlen pre -> off + zlen (file_of its) < 2 ^ 63 ->
  Forall2 (cm_ok (pre ++ file_of its ++ rest)) (map snd (filter (on_path (path_of d m)) (flat (metas off its)))) (citems_of d m its).
Proof.
  intros d m its. induction its as [|it its IH]; intros pre rest off ND F FD L E B; [constructor|].
  inversion F as [|? ? F1 F2]; subst. inversion FD as [|? ? D1 FD']; subst. unfold file_of, citems_of in *. cbn [map concat metas] in *. inversion L as [|? ? L1 L2]; subst. rewrite zlen_app in B.
  pose proof (zlen_nonneg _ (item_bytes it)) as N1. pose proof (zlen_nonneg _ (concat (map item_bytes its))) as N2. pose proof (zlen_nonneg _ pre) as N3.
  rewrite flat_app, filter_app, map_app.
  specialize (IH (pre ++ item_bytes it) rest (zlen pre + zlen (item_bytes it)) ND F2 FD' L2 ltac:(rewrite zlen_app; auto) ltac:(lia)).
  rewrite <- !app_assoc in *. apply Forall2_app; [|exact IH]. clear IH. destruct it as [d' cs|bs]; [|constructor].
  destruct F1 as [D C]. cbn [item_bytes ipick nodot_item] in *. rewrite zlen_app in *. pose proof (zlen_nonneg _ (ghead d')) as N4. pose proof (zlen_nonneg _ (concat (map cbytes cs))) as N5.
  assert (R : flat (imetas (zlen pre) (GItem d' cs)) = map (pair d') (cmetas (zlen pre + zlen (ghead d')) cs)).
  { unfold flat. destruct cs; cbn [imetas map concat fst snd]; [reflexivity|]. rewrite app_nil_r. reflexivity. }
  rewrite R. rewrite <- app_assoc.
  pose proof (cs_metas d m d' cs (pre ++ ghead d') (concat (map item_bytes its) ++ rest) (zlen pre + zlen (ghead d')) ND C D1 L1 ltac:(rewrite zlen_app; auto) ltac:(lia)) as X.
  rewrite <- !app_assoc in X. exact X.
Qed.
Lemma flat_in_its : forall its off d cm, In (d, cm) (flat (metas off its)) -> exists x cs y c o, its = x ++ GItem d cs :: y /\ In c cs /\ cm = cmeta o (c_cw c).
Proof.
  intros its off d cm I. unfold flat in I. apply in_concat in I. destruct I as (l & J & I). apply in_map_iff in J. destruct J as ([d' l'] & <- & J). cbn [fst snd] in I.
  apply in_map_iff in I. destruct I as (cm' & X & I). inversion X; subst. apply metas_in in J. destruct J as (x & cs & y & -> & ->).
  apply cmetas_in in I. destruct I as (a & c & b & -> & ->). exists x, (a ++ c :: b), y, c. eexists. split; [reflexivity|]. split; [apply in_or_app; right; left; auto|reflexivity].
Qed.

(** ** Statistics *)
Lemma series_tree_points_aux : forall chunks t, tree_points (fold_left (fun t pages => Merge t (chunk_tree pages)) chunks t) = tree_points t ++ concat (map (@concat _) chunks).
Proof.
  induction chunks as [|pg chunks IH]; intros t; cbn [fold_left map concat]; [rewrite app_nil_r; auto|]. rewrite IH. cbn [tree_points].
  rewrite chunk_tree_points, <- app_assoc. auto.
Qed.
Lemma series_tree_points : forall chunks, tree_points (series_tree chunks) = concat (map (@concat _) chunks).
Proof. intros. apply series_tree_points_aux. Qed.
Lemma series_tree_merge : forall dt cms chunks t st s, Forall2 (fun cm pages => tree_stats p dt (chunk_tree pages) = Ret (cm_stats cm)) cms chunks ->
  tree_stats p dt t = Ret st -> merge_all p cms st = Ret s ->
  tree_stats p dt (fold_left (fun t pages => Merge t (chunk_tree pages)) chunks t) = Ret s.
Proof.
  intros dt cms chunks t st s F. revert t st. induction F as [|cm pages cms chunks E F IH]; intros t st T M; unfold merge_all in M; cbn [foldM fold_left] in *.
  - rinj M. auto.
  - apply bind_ret in M. destruct M as (s1 & M1 & M2). apply (IH _ s1); [cbn [tree_stats]; rewrite T, E; exact M1|exact M2].
Qed.

(** ** Schemas *)
Variable sc : schema.
Hypothesis Hsc : schema_ok sc.
Definition ty_of (d m : str) : dtype :=
  match sm_get d (decls sc) with Some g0 => match sm_get m g0 with Some ms => ms_type ms | None => INT32 end | None => INT32 end.
Lemma ty_declares : forall d m ms, declares sc d m ms -> ty_of d m = ms_type ms.
Proof. intros d m ms D. apply declares_get in D; auto. destruct D as (g0 & A & B). unfold ty_of. rewrite A, B. auto. Qed.
Lemma declares_short : forall d m ms, declares sc d m ms -> zlen d < 2 ^ 31 /\ zlen m < 2 ^ 31.
Proof.
  intros d m ms (g & A & B). destruct Hsc as [_ F]. rewrite Forall_forall in F. apply F in A. cbn [fst snd] in A. destruct A as (A1 & A2 & A3).
  rewrite Forall_forall in A3. apply A3 in B. auto.
Qed.
Lemma item_declares : forall x d cs y c, Forall (item_ok p snap sc) (x ++ GItem d cs :: y) -> In c cs -> citem_ok p snap c /\ declares sc d (c_name c) (c_ms c).
Proof.
  intros x d cs y c F I. apply Forall_app in F. destruct F as [_ F]. apply Forall_inv in F. destruct F as (g0 & A & F). rewrite Forall_forall in F. apply F in I.
  destruct I as [I1 I2]. split; auto. apply declares_get; eauto.
Qed.
Lemma its_nodot : forall its, no_dots sc -> Forall (item_ok p snap sc) its -> Forall nodot_item its.
Proof.
  intros its ND F. apply Forall_forall. intros [d cs|bs] I; [|exact Logic.I]. cbn. apply Forall_forall. intros c J. apply in_split in I. destruct I as (x & y & ->).
  destruct (item_declares _ _ _ _ _ F J) as [_ D]. eapply ND; eauto.
Qed.
Lemma citems_declares : forall its d m c, Forall (item_ok p snap sc) its -> In c (citems_of d m its) -> c_name c = m /\ citem_ok p snap c /\ declares sc d m (c_ms c).
Proof.
  intros its d m c F I. unfold citems_of in I. apply in_concat in I. destruct I as (l & J & I). apply in_map_iff in J. destruct J as (it & <- & J).
  destruct it as [d' cs|bs]; [|destruct I]. cbn [ipick] in I. destruct (same_name d' d) eqn:E; [|destruct I]. apply same_name_eq in E. subst d'.
  apply filter_In in I. destruct I as [I1 I2]. apply same_name_eq in I2. apply in_split in J. destruct J as (x & y & ->). destruct (item_declares _ _ _ _ _ F I1) as [A B].
  rewrite I2 in B. auto.
Qed.

(** Light chunks in a file below 2^63 bytes *)
Definition bulk (its : list item) (pre rest : list Z) : Prop := Forall light its /\ zlen (pre ++ file_of its ++ rest) < 2 ^ 63.
Lemma bulk_of : forall its pre rest, zlen (pre ++ file_of its ++ rest) < 2 ^ 32 -> bulk its pre rest.
Proof.
  intros its pre rest L. assert (2 ^ 32 < 2 ^ 63) by reflexivity. split; [|lia]. apply light_of. rewrite !zlen_app in L.
  pose proof (zlen_nonneg _ pre). pose proof (zlen_nonneg _ rest). lia.
Qed.
(** The file: a header, the items, the metadata *)
Section Items.
Variable its : list item.
Variable pre rest : list Z.
Hypothesis HI : Forall (item_ok p snap sc) its.
Hypothesis HND : no_dots sc.
Hypothesis HL : bulk its pre rest.
Local Notation file := (pre ++ file_of its ++ rest).
Local Notation G := (metas (zlen pre) its).

Lemma its_bound : Forall light its /\ zlen pre + zlen (file_of its) < 2 ^ 63.
Proof.
  destruct HL as [F L]. split; [exact F|]. rewrite !zlen_app in L. pose proof (zlen_nonneg _ pre). pose proof (zlen_nonneg _ rest). pose proof (zlen_nonneg _ (file_of its)). lia.
Qed.
Lemma path_items : forall d m, ~ In 46 m -> Forall2 (cm_ok file) (map snd (filter (on_path (path_of d m)) (flat G))) (citems_of d m its).
Proof.
  intros d m ND. destruct its_bound as [B1 B2]. apply its_metas; auto. eapply items_names; eauto. apply its_nodot; auto.
Qed.
Lemma cm_tree : forall cm c, cm_ok file cm c -> exists pages k b, chunk_at decomp file (cm_offset cm) = Some k /\ concat pages = c_pts c /\
  points_ok (ms_type (c_ms c)) (concat pages) /\ tree_stats p (ms_type (c_ms c)) (chunk_tree pages) = Ret (cm_stats cm) /\
  chunk_points k = tnums (concat pages) /\ ch_name k = c_name c /\ ch_type k = dtype_code (ms_type (c_ms c)) /\ Forall2 (page_holds p (ms_type (c_ms c)) b) pages (ch_pages k).
Proof.
  intros cm c [C1 C2 C3 C4 C5 C6 (k & K & A)]. destruct (ck_pages _ _ _ K) as (pages & b & P1 & P2 & P3). exists pages, k, b.
  rewrite C5, P1. destruct C1 as [[X _] _ _]. repeat (split; [auto; apply K|]). auto.
Qed.
Lemma all_meta_ok : forall d cm, In (d, cm) (flat G) -> meta_ok p decomp file ty_of d cm.
Proof.
  intros d cm I. destruct (flat_in_its _ _ _ _ I) as (x & cs & y & c0 & o & E & I0 & EC).
  assert (X : exists c, declares sc d (c_name c) (c_ms c) /\ cm_ok file cm c).
  { pose proof HI as HI'. rewrite E in HI'. destruct (item_declares _ _ _ _ _ HI' I0) as [A D]. pose proof (HND _ _ _ D) as ND.
    assert (J : cm_id cm = c_name c0).
    { subst cm. cbn [cmeta cm_id]. destruct A as [A1 _ A2]. destruct (sealed_inv p snap decomp HG _ _ _ _ A1 A2) as (pages & ims & IV & _). apply IV. }
    pose proof (path_items d (c_name c0) ND) as F.
    destruct (F2_in_l _ _ _ _ _ cm F) as (c & Y1 & Y2).
    { apply in_map_iff. exists (d, cm). split; auto. apply filter_In. split; auto. unfold on_path. cbn [fst snd]. rewrite J. apply str_eqb_refl. }
    exists c. destruct (citems_declares _ _ _ _ HI Y1) as (Z1 & Z2 & Z3). rewrite Z1. auto. }
  destruct X as (c & D & C). pose proof (declares_short _ _ _ D) as [S1 S2]. pose proof (ty_declares _ _ _ D) as T.
  destruct (cm_tree _ _ C) as (pages & k & b & K1 & K2 & K3 & K4 & K5 & _).
  assert (P : points_ok (ms_type (c_ms c)) (tree_points (chunk_tree pages))) by (rewrite chunk_tree_points; auto).
  destruct C as [C1 C2 C3 C4 C5 C6 _]. split; rewrite ?C3, ?T; auto; eauto. split; auto.
  - eapply tree_type; eauto.
  - eapply tree_wf; eauto.
  - assert (2 ^ 63 < 2 ^ 64) by (apply Z.pow_lt_mono_r; lia). lia.
Qed.

Lemma dev_count_in : forall d, filter (of_device d) (chunk_map G) <> [] -> exists g, In (d, g) sc /\ zlen (filter (of_device d) (chunk_map G)) <= zlen g.
Proof.
  intros d NN. set (A := filter (of_device d) (chunk_map G)) in *. destruct (chunk_map_spec G) as (S & _ & _).
  assert (N : NoDup (map fst A)).
  { assert (N0 : NoDup (map fst (chunk_map G))) by (apply lt_nodup; exact S). clear - N0. unfold A. revert N0. generalize (chunk_map G). intros l. induction l as [|a l IH]; intros H; [constructor|].
    inversion H; subst. cbn [filter]. destruct (of_device d a); auto. cbn [map]. constructor; auto. intros X. apply H2. apply in_map_iff in X. destruct X as (z & <- & X). apply filter_In in X. apply in_map. apply X. }
  assert (K : forall q, In q (map fst A) -> exists m ms, q = path_of d m /\ declares sc d m ms).
  { intros q I. apply in_map_iff in I. destruct I as ([q' cms] & <- & I). unfold A in I. apply filter_In in I. destruct I as [I1 I2].
    destruct (cmap_key p decomp file G ty_of all_meta_ok q' cms I1) as (d' & m & -> & K). unfold of_device in I2. cbn [fst] in *. apply str_eqb_eq in I2.
    rewrite device_of_path_of in I2 by apply K. subst d'. destruct K as (ND & NE & E & _).
    pose proof (path_items d m ND) as F. rewrite <- E in F. destruct cms as [|cm cms]; [congruence|]. destruct (citems_of d m its) as [|c cs] eqn:EC; [inversion F|].
    destruct (citems_declares its d m c HI) as (_ & _ & D); [rewrite EC; left; auto|]. eauto. }
  destruct A as [|a A'] eqn:EA; [congruence|]. destruct (K (fst a)) as (m0 & ms0 & _ & (g & D1 & D2)); [left; auto|].
  assert (L : (length (map fst (a :: A')) <= length (map (fun x => path_of d (fst x)) g))%nat).
  { apply NoDup_incl_length; auto. intros q I. apply K in I. destruct I as (m & ms & -> & (g' & D3 & D4)).
    assert (g' = g). { destruct Hsc as [ND _]. pose proof (sm_get_nodup _ _ _ _ ND D1). pose proof (sm_get_nodup _ _ _ _ ND D3). congruence. }
    subst g'. apply in_map_iff. exists (m, ms). auto. }
  rewrite !map_length in L. exists g. split; [exact D1|]. unfold zlen. lia.
Qed.
Lemma dev_count : small_devices sc -> forall d, zlen (filter (of_device d) (chunk_map G)) <= 65536.
Proof.
  intros SD d. destruct (filter (of_device d) (chunk_map G)) as [|a l] eqn:E; [rewrite zlen_nil; lia|]. rewrite <- E.
  destruct (dev_count_in d) as (g & D & L'); [rewrite E; discriminate|]. unfold small_devices in SD. rewrite Forall_forall in SD. apply SD in D. cbn [snd] in D. lia.
Qed.

Lemma x_found : forall d qc x, x_reads p decomp file G ty_of d qc x -> exists m ms, declares sc d m ms /\ f_key x = (d, m) /\ fst qc = path_of d m /\
  its_series d m its <> [] /\ series_found p (ms_type ms) (its_series d m its) x.
Proof.
  intros d qc x (m & st & ks & Q & (ND & NE & E & F0) & M & -> & FK). pose proof (path_items d m ND) as F. rewrite <- E in F.
  destruct (snd qc) as [|cm0 cms0] eqn:EQ; [congruence|]. rewrite <- EQ in *. 
  assert (DC : exists c0, In c0 (citems_of d m its)). { rewrite EQ in F. destruct (citems_of d m its) as [|c0 cs]; [inversion F|]. exists c0. left. auto. }
  destruct DC as (c0 & I0). destruct (citems_declares its d m c0 HI I0) as (_ & C0 & D0). exists m, (c_ms c0). pose proof (ty_declares _ _ _ D0) as T. rewrite T in *.
  split; [exact D0|]. split; [reflexivity|]. split; [exact Q|]. split.
  { rewrite citems_series. apply in_split in I0. destruct I0 as (a & b & ->). rewrite map_app, concat_app. cbn [map concat]. destruct C0 as [_ X _]. destruct (c_pts c0); [congruence|].
    intros Y. apply app_eq_nil in Y. destruct Y as [_ Y]. discriminate. }
  split; [reflexivity|].
  assert (FT : Forall (fun c => ms_type (c_ms c) = ms_type (c_ms c0) /\ c_name c = m) (citems_of d m its)).
  { apply Forall_forall. intros c I. destruct (citems_declares its d m c HI I) as (X & _ & D). split; auto. rewrite <- (ty_declares _ _ _ D). auto. }
  assert (PO : points_ok (ms_type (c_ms c0)) (its_series d m its)).
  { assert (PF : Forall (fun c => points_ok (ms_type (c_ms c0)) (c_pts c)) (citems_of d m its)).
    { apply Forall_forall. intros c I. destruct (citems_declares its d m c HI I) as (_ & [[P _] _ _] & _). rewrite Forall_forall in FT. destruct (FT c I) as [<- _]. exact P. }
    rewrite citems_series. clear - PF. unfold points_ok in *. induction PF; cbn [map concat]; [constructor|]. apply Forall_app. auto. }
  split; [exact PO|].
  assert (X : exists chunks, Forall2 (fun cm pages => tree_stats p (ms_type (c_ms c0)) (chunk_tree pages) = Ret (cm_stats cm) /\ points_ok (ms_type (c_ms c0)) (concat pages)) (snd qc) chunks /\
     concat (map (@concat _) chunks) = concat (map c_pts (citems_of d m its)) /\
     Forall2 (fun pages k => chunk_points k = tnums (concat pages) /\ ch_name k = m /\ ch_type k = dtype_code (ms_type (c_ms c0)) /\
       exists stored, Forall2 (page_holds p (ms_type (c_ms c0)) stored) pages (ch_pages k)) chunks ks).
  { clear - F FT FK Hsc HG. revert ks FK. induction F as [|cm c cms cs X F IH]; intros ks FK.
    - inversion FK; subst. exists []. split; [constructor|]. split; [reflexivity|constructor].
    - inversion FK as [|? k ? ks' K1 K2]; subst. inversion FT as [|? ? [T1 T2] FT']; subst. destruct (IH FT' ks' K2) as (chunks & I1 & I2 & I3).
      destruct (cm_tree _ _ X) as (pages & k' & b & Y1 & Y2 & Y3 & Y4 & Y5 & Y6 & Y7 & Y8). rewrite T1 in *. replace k' with k in * by congruence.
      exists (pages :: chunks). split; [constructor; auto|]. split; [cbn [map concat]; rewrite Y2, I2; auto|]. constructor; [|exact I3]. rewrite <- Y6. eauto. }
  destruct X as (chunks & X1 & X2 & X3). exists chunks. rewrite X2, citems_series. split; [reflexivity|]. cbn [snd f_meta fst ts_name ts_stats ts_chunks]. split; [exact X3|].
  assert (LC : length chunks = length (snd qc)) by (symmetry; eapply F2_length; exact X1).
  assert (SS : forall t s, points_ok (ms_type (c_ms c0)) (tree_points t) -> tree_stats p (ms_type (c_ms c0)) t = Ret s -> same_stats (stat_of s) s).
  { intros t s PT TS. apply (stats_roundtrip_exact s []). eapply tree_wf; eauto. }
  split.
  - assert (TS : tree_stats p (ms_type (c_ms c0)) (series_tree chunks) = Ret st).
    { apply (series_tree_merge _ (snd qc) chunks Empty (stats_new (ms_type (c_ms c0)))); auto. eapply F2_impl; [|exact X1]. cbn beta. tauto. }
    exists st. split; auto. apply (SS (series_tree chunks)); auto. rewrite series_tree_points, X2, <- citems_series. exact PO.
  - rewrite LC. remember (several (snd qc)) as sv eqn:SV. unfold several in SV. destruct (1 <? length (snd qc))%nat eqn:LT; subst sv.
    + apply Nat.ltb_lt in LT. assert (NL : length (snd qc) <> 1%nat) by lia. revert NL. generalize (length (snd qc)). intros n NL. clear - X1 SS NL. induction X1 as [|cm pages cms chunks [A B] F IH]; constructor; auto. cbn [ref_of snd].
      split; auto. exists (cm_stats cm). split; auto. apply (SS (chunk_tree pages)); auto. rewrite chunk_tree_points. auto.
    + apply Nat.ltb_ge in LT. assert (NL : length (snd qc) = 1%nat) by (rewrite EQ in *; cbn [length] in *; lia). revert NL. generalize (length (snd qc)). intros n NL. clear - X1 NL. induction X1 as [|cm pages cms chunks [A B] F IH]; constructor; auto.
Qed.
Lemma found_conv : forall d m, its_series d m its <> [] -> exists cms, In (path_of d m, cms) (chunk_map G) /\ of_device d (path_of d m, cms) = true.
Proof.
  intros d m N. rewrite citems_series in N. destruct (citems_of d m its) as [|c cs] eqn:E; [exfalso; apply N; reflexivity|].
  destruct (citems_declares its d m c HI) as (_ & _ & D); [rewrite E; left; auto|]. pose proof (HND _ _ _ D) as ND.
  pose proof (path_items d m ND) as F. rewrite E in F. destruct (map snd (filter (on_path (path_of d m)) (flat G))) as [|cm l] eqn:EM; [inversion F|].
  assert (I : In cm (map snd (filter (on_path (path_of d m)) (flat G)))) by (rewrite EM; left; auto).
  apply in_map_iff in I. destruct I as ([d' cm'] & <- & I). apply filter_In in I. destruct I as [I1 I2]. unfold on_path in I2. cbn [fst snd] in *. apply str_eqb_eq in I2.
  pose proof (mo_dot _ _ _ _ _ _ (all_meta_ok _ _ I1)) as ND'. apply path_inj in I2; auto. destruct I2 as [-> I2].
  destruct (cmap_key_conv p decomp file G ty_of all_meta_ok d m ND) as (cms & C1 & _); [eauto|].
  exists cms. split; auto. unfold of_device. cbn [fst]. rewrite device_of_path_of by auto. apply str_eqb_refl.
Qed.
End Items.

Lemma close_parts : forall w h ops l ord w' a, trace p snap sc w h ops l -> ops_ok ops -> no_close ops = true -> step p snap w (OpClose ord) = Ret (w', a) ->
  exists w1 its, winv p snap sc (if 0 <? h_counted h then h_flush h else h) its w1 /\ Forall is_group its /\ end_file p ord (w_io w1) = Ret (w_io w').
Proof.
  intros w h ops l ord w' a T O NC H. destruct (trace_ok p snap decomp HG sc Hsc w h ops l T O) as (_ & its & I & G). specialize (G NC).
  cbn [step] in H. unfold writer_close in H. apply bind_ret in H. destruct H as ([w1 e] & F & H). cbn [fst] in H. apply bind_ret in H. destruct H as (io & E & H). rinj H.
  destruct (flush_all_ok _ _ _ HG _ Hsc _ _ _ _ _ I F) as [_ K]. exists w1. cbn [w_io]. destruct (0 <? h_counted h).
  - destruct K as (new & K1 & K2 & _). exists (its ++ new). split; [exact K1|]. split; [apply Forall_app; auto|exact E].
  - subst w1. exists its. auto.
Qed.
Lemma close_parts_light : forall w h ops l ord w' a, trace p snap sc w h ops l -> ops_ok ops -> no_close ops = true -> step p snap w (OpClose ord) = Ret (w', a) ->
  modest p snap sc (ops ++ [OpClose ord]) ->
  exists w1 its, winv p snap sc (if 0 <? h_counted h then h_flush h else h) its w1 /\ Forall is_group its /\ end_file p ord (w_io w1) = Ret (w_io w') /\
    Forall light its /\ brief (file_bytes w1) (file_bytes w').
Proof.
  intros w h ops l ord w' a T O NC H M. pose proof (trace_modest _ _ _ _ _ _ _ _ _ _ T H M) as [M1 M2].
  destruct (trace_light p snap decomp HG sc Hsc w h ops l T O (modest_app _ _ _ _ _ M)) as (_ & its & I & G & LI). specialize (G NC).
  cbn [step] in H. unfold writer_close in H. apply bind_ret in H. destruct H as ([w1 e] & F & H). cbn [fst] in H. apply bind_ret in H. destruct H as (io & E & H). rinj H.
  destruct (flush_all_ok _ _ _ HG _ Hsc _ _ _ _ _ I F) as [_ K]. unfold file_bytes in *. cbn [w_io] in *. exists w1.
  destruct (0 <? h_counted h).
  - destruct K as (new & K1 & K2 & _). exists (its ++ new). destruct (end_file_ok p _ _ _ (wi_healthy _ _ _ _ _ _ K1) E) as (r & X & _). pose proof (se_data _ _ _ X) as FB.
    pose proof (wi_data _ _ _ _ _ _ I) as D0. pose proof (wi_data _ _ _ _ _ _ K1) as D1. unfold file_bytes in D0, D1.
    pose proof M1 as M1'. rewrite FB, D0, D1, file_of_app, !zlen_app in M1'. pose proof (zlen_nonneg _ (file_of new)). pose proof (zlen_nonneg _ (2 :: r)).
    split; [exact K1|]. split; [apply Forall_app; auto|]. split; [exact E|]. split; [apply Forall_app; split; [exact LI|apply light_of; lia]|].
    split; [|exact M2]. rewrite D0, !zlen_app in M1. rewrite D1, file_of_app, !zlen_app. lia.
  - subst w1. exists its. split; [exact I|]. split; [exact G|]. split; [exact E|]. split; [exact LI|]. split; assumption.
Qed.
Lemma kept_all : forall h, h_recent h = [] \/ 0 < h_counted h -> h_flushed (if 0 <? h_counted h then h_flush h else h) = h_all h.
Proof.
  intros h [H|H]; unfold h_all.
  - destruct (0 <? h_counted h); unfold h_flush; cbn [h_flushed]; rewrite H, app_nil_r; auto.
  - apply Z.ltb_lt in H. rewrite H. auto.
Qed.


(** ** The whole index *)
Lemma found_points : forall dt pts x, series_found p dt pts x -> f_points x = tnums pts.
Proof.
  intros dt pts [[d ts] ks] (_ & _ & chunks & <- & F & _). unfold f_points. cbn [snd] in *. induction F as [|pages k chunks0 ks0 (E & _) F IH]; [reflexivity|].
  cbn [map concat]. rewrite tnums_app, E, IH. auto.
Qed.
Lemma dev_keys : forall file G ty d A xs, Forall2 (x_reads p decomp file G ty d) A xs -> StronglySorted str_lt (map fst A) ->
  Forall (fun x => fst (f_key x) = d) xs /\ StronglySorted bytes_lt (map (fun x => ts_name (f_meta x)) xs) /\
  (forall m, In (d, m) (map f_key xs) <-> ~ In 46 m /\ In (path_of d m) (map fst A)).
Proof.
  intros file G ty d A xs F S.
  assert (FF : Forall2 (fun qc x => fst (f_key x) = d /\ fst qc = path_of d (ts_name (f_meta x)) /\ ~ In 46 (ts_name (f_meta x))) A xs).
  { eapply F2_impl; [|exact F]. cbn beta. intros qc x (m & st & ks & Q & (ND & _) & _ & -> & _). split; [reflexivity|]. split; auto. }
  clear F. split; [induction FF as [|? ? ? ? (X & _)]; constructor; auto; apply IHFF; inversion S; auto|]. split.
  - induction FF as [|qc x A xs (_ & Q & _) FF IH]; cbn [map]; [constructor|]. cbn [map] in S. inversion S as [|? ? S' FS]; subst. constructor; [auto|].
    apply Forall_forall. intros m I. apply bytes_lt_iff. apply (path_lt d). rewrite <- Q. rewrite Forall_forall in FS. apply FS.
    apply in_map_iff in I. destruct I as (x' & <- & I). destruct (F2_in_r _ _ _ _ _ x' FF I) as (qc' & I' & _ & Q' & _). rewrite <- Q'. apply in_map. auto.
  - intros m. split.
    + intros I. apply in_map_iff in I. destruct I as (x & K & I). destruct (F2_in_r _ _ _ _ _ x FF I) as (qc & I' & _ & Q & ND).
      assert (ts_name (f_meta x) = m) by (apply (f_equal snd) in K; exact K). subst m. rewrite <- Q. split; auto. apply in_map. auto.
    + intros [ND I]. apply in_map_iff in I. destruct I as (qc & Q & I). destruct (F2_in_l _ _ _ _ _ qc FF I) as (x & I' & D & Q' & ND').
      rewrite Q in Q'. apply path_inj in Q'; auto. destruct Q' as [_ ->]. apply in_map_iff. exists x. split; auto. unfold f_key in *. cbn [fst] in D. subst d. auto.
Qed.
Lemma sorted_filter : forall V (f : str * V -> bool) l, StronglySorted str_lt (map fst l) -> StronglySorted str_lt (map fst (filter f l)).
Proof.
  intros V f l. induction l as [|a l IH]; intros S; [constructor|]. cbn [map] in S. inversion S as [|? ? S' F]; subst. cbn [filter]. destruct (f a); [|auto].
  cbn [map]. constructor; auto. apply Forall_forall. intros q I. rewrite Forall_forall in F. apply F. apply in_map_iff in I. destruct I as (z & <- & I). apply filter_In in I. apply in_map. apply I.
Qed.
Lemma bytes_lt_nodup : forall l, StronglySorted bytes_lt l -> NoDup l.
Proof. intros l S. induction S as [|a l S IH F]; constructor; auto. intros I. rewrite Forall_forall in F. apply F in I. eapply bytes_lt_irrefl; eauto. Qed.
Lemma filter_dev : forall (xs : list found) d d', Forall (fun x => fst (f_key x) = d) xs -> filter (fun x => same_name (fst (f_key x)) d') xs = if same_name d d' then xs else [].
Proof.
  intros xs d d' F. induction F as [|x xs E F IH]; [destruct (same_name d d'); auto|]. cbn [filter]. rewrite E, IH. destruct (same_name d d'); auto.
Qed.
Lemma index_keys : forall file G ty (devs : list str) (xss : list (list found)), NoDup devs -> StronglySorted str_lt (map fst (chunk_map G)) ->
  Forall2 (fun d xs => Forall2 (x_reads p decomp file G ty d) (filter (of_device d) (chunk_map G)) xs) devs xss ->
  NoDup (map f_key (concat xss)) /\ (forall d, StronglySorted bytes_lt (names_of d (concat xss))) /\ (forall x, In x (concat xss) -> In (fst (f_key x)) devs) /\
  (forall d m, In d devs -> (In (d, m) (map f_key (concat xss)) <-> ~ In 46 m /\ In (path_of d m) (map fst (filter (of_device d) (chunk_map G))))).
Proof.
  intros file G ty devs xss N S F. induction F as [|d xs devs xss X F IH]; [cbn; repeat split; try constructor; tauto|].
  inversion N as [|? ? NI N']; subst. destruct (IH N') as (I1 & I2 & I3 & I4). clear IH. destruct (dev_keys _ _ _ _ _ _ X (sorted_filter _ _ _ S)) as (K1 & K2 & K3).
  cbn [concat].
  assert (OUT : forall x, In x (concat xss) -> fst (f_key x) <> d) by (intros x I E; subst d; apply NI; apply I3; auto).
  split; [|split; [|split]].
  - rewrite map_app. apply NoDup_app_intro; auto.
    + apply bytes_lt_nodup in K2. clear - K2. induction xs as [|x xs IH]; [constructor|]. cbn [map] in *. inversion K2; subst. constructor; auto. intros I. apply H1.
      apply in_map_iff in I. destruct I as (y & E & I). apply in_map_iff. exists y. split; auto. apply (f_equal snd) in E. exact E.
    + intros k I J. apply in_map_iff in I. destruct I as (x & <- & I). apply in_map_iff in J. destruct J as (y & E & J). rewrite Forall_forall in K1. apply K1 in I. apply OUT in J. congruence.
  - intros d'. unfold names_of. rewrite filter_app, map_app. rewrite (filter_dev _ _ d' K1). destruct (same_name d d') eqn:E.
    + apply same_name_eq in E. subst d'. assert (NF : names_of d (concat xss) = []); [|change (StronglySorted bytes_lt (map (fun x => ts_name (f_meta x)) xs ++ names_of d (concat xss))); rewrite NF, app_nil_r; auto].
      unfold names_of. clear - OUT. induction (concat xss) as [|x l IH]; auto. cbn [filter]. destruct (same_name (fst (f_key x)) d) eqn:E; [|apply IH; intros; apply OUT; right; auto].
      apply same_name_eq in E. exfalso. eapply OUT; [left; reflexivity|exact E].
    + apply I2.
  - intros x I. apply in_app_or in I. destruct I as [I|I]; [left; rewrite Forall_forall in K1; symmetry; auto|right; auto].
  - intros d' m I. rewrite map_app, in_app_iff. destruct I as [<-|I].
    + rewrite <- K3. split; [|auto]. intros [J|J]; auto. exfalso. apply in_map_iff in J. destruct J as (x & E & J). apply (OUT x J). rewrite E. auto.
    + rewrite <- I4 by auto. split; [|auto]. intros [J|J]; auto. exfalso. apply in_map_iff in J. destruct J as (x & E & J). rewrite Forall_forall in K1. apply K1 in J. rewrite E in J. cbn in J. subst d'. auto.
Qed.

Definition is_key (d m : list Z) (x : found) : bool := same_name (fst (f_key x)) d && same_name (snd (f_key x)) m.
Lemma find_key : forall d m (xs : list found), Forall (fun x => fst (f_key x) = d) xs -> option_map f_meta (find (is_key d m) xs) = find (named m) (map f_meta xs).
Proof.
  intros d m xs F. induction F as [|x xs E F IH]; auto. cbn [find map]. unfold is_key, named in *. rewrite E, same_name_refl. cbn [andb].
  unfold f_key, f_meta. cbn [snd]. destruct (same_name (ts_name (snd (fst x))) m); auto.
Qed.
Lemma find_other : forall d d' m (xs : list found), d <> d' -> Forall (fun x => fst (f_key x) = d') xs -> find (is_key d m) xs = None.
Proof.
  intros d d' m xs N F. apply find_none_all. intros x I. rewrite Forall_forall in F. apply F in I. unfold is_key. rewrite I.
  destruct (same_name d' d) eqn:E; auto. apply same_name_eq in E. congruence.
Qed.
Lemma lookup_all : forall file d m (es : list (list Z * Z)) (xss : list (list found)), NoDup (map fst es) ->
  Forall2 (fun eo xs => Forall (fun x => fst (f_key x) = fst eo) xs /\ forall m, entry_lookup file eo m = find (named m) (map f_meta xs)) es xss ->
  match find (fun eo => same_name (fst eo) d) es with None => None | Some eo => entry_lookup file eo m end = option_map f_meta (find (is_key d m) (concat xss)).
Proof.
  intros file d m es xss N F. induction F as [|eo xs es xss [A B] F IH]; auto. cbn [map] in N. inversion N as [|? ? NI N']; subst. cbn [find concat]. rewrite find_app.
  destruct (same_name (fst eo) d) eqn:E.
  - apply same_name_eq in E. rewrite B, <- (find_key d m xs) by (rewrite <- E; auto). destruct (find (is_key d m) xs); auto.
    rewrite find_none_all; auto. intros x I. apply in_concat in I. destruct I as (ys & J & I). destruct (F2_in_r _ _ _ _ _ ys F J) as (eo' & J' & A' & _).
    rewrite Forall_forall in A'. apply A' in I. unfold is_key. rewrite I. destruct (same_name (fst eo') d) eqn:E'; auto. apply same_name_eq in E'. exfalso. apply NI. rewrite E, <- E'. apply in_map. auto.
  - rewrite (find_other d (fst eo) m xs); auto. intros X. subst d. rewrite same_name_refl in E. discriminate.
Qed.

Lemma dev_metas : forall (es : list (list Z * Z)) (xss : list (list found)) (P : list Z * Z -> list found -> Prop), NoDup (map fst es) ->
  Forall2 (fun eo xs => Forall (fun x => fst (f_key x) = fst eo) xs /\ P eo xs) es xss ->
  forall eo, In eo es -> exists xs, filter (fun x => same_name (fst (f_key x)) (fst eo)) (concat xss) = xs /\ P eo xs.
Proof.
  intros es xss P N F. induction F as [|e xs es xss [A B] F IH]; intros eo I; [destruct I|]. cbn [map] in N. inversion N as [|? ? NI N']; subst. cbn [concat]. rewrite filter_app, (filter_dev _ _ (fst eo) A).
  assert (OUT : forall es0 yss d, Forall2 (fun eo xs => Forall (fun x => fst (f_key x) = fst eo) xs /\ P eo xs) es0 yss -> ~ In d (map fst es0) -> filter (fun x => same_name (fst (f_key x)) d) (concat yss) = []).
  { intros es0 yss d F0. induction F0 as [|e0 ys es0 yss [A0 _] F0 IH0]; intros ND; auto. cbn [concat map] in *. rewrite filter_app, (filter_dev _ _ d A0), IH0 by (intros X; apply ND; right; auto).
    destruct (same_name (fst e0) d) eqn:E; auto. apply same_name_eq in E. exfalso. apply ND. left. auto. }
  destruct I as [<-|I].
  - rewrite same_name_refl, (OUT es xss (fst e) F NI), app_nil_r. eauto.
  - destruct (same_name (fst e) (fst eo)) eqn:E; [apply same_name_eq in E; exfalso; apply NI; rewrite E; apply in_map; auto|]. apply IH; auto.
Qed.
Record index_ok (pts : list point) (file : list Z) (ft : footer) (xs : list found) : Prop := {
  ix_read : index_read decomp file = Some xs;
  ix_keys : NoDup (map f_key xs);
  ix_all : forall d m, In (d, m) (map f_key xs) <-> series_of d m pts <> [];
  ix_found : Forall (fun x => exists ms, declares sc (fst (f_key x)) (snd (f_key x)) ms /\
     series_found p (ms_type ms) (series_of (fst (f_key x)) (snd (f_key x)) pts) x) xs;
  ix_sorted : forall d, StronglySorted bytes_lt (names_of d xs);
  ix_lookup : forall d m, lookup file d m = option_map f_meta (find (is_key d m) xs);
  ix_nodes : Forall (fun eo => exists b n b', drop (snd eo) file = Some b /\ node_read b = Some (n, b') /\ nd_type n = 3 /\ StronglySorted bytes_lt (map fst (nd_entries n)) /\
     node_shape file n (metas_of (fst eo) xs)) (nd_entries (ft_root ft));
  ix_devs : NoDup (map fst (nd_entries (ft_root ft)));
  ix_dev : forall d, In d (map fst (nd_entries (ft_root ft))) <-> exists m, series_of d m pts <> [] }.
(** [end_file] after any items *)
Lemma items_index : forall pts ord its io io', Forall (item_ok p snap sc) its -> is_healthy (io_out io) -> sk_pos (io_out io) = zlen (sk_data (io_out io)) ->
  sk_data (io_out io) = MAGIC ++ [3] ++ file_of its -> io_groups io = metas 7 its -> io_tsmeta io = [] -> (forall d m, its_series d m its = series_of d m pts) ->
  end_file p ord io = Ret io' -> Forall light its -> brief (sk_data (io_out io)) (sk_data (io_out io')) -> good_order ord -> no_dots sc -> small_devices sc ->
  exists ft xs, footer_read (sk_data (io_out io')) = Some ft /\ index_ok pts (sk_data (io_out io')) ft xs /\
    exists imap : list (str * index_node), map fst (nd_entries (ft_root ft)) = map fst (ord imap) /\ StronglySorted bytes_lt (map fst imap).
Proof.
  intros pts ord its io io' HI HH HP HD HM HT HS E LI L GO ND SD.
  destruct (end_file_ok p _ _ _ HH E) as (r & X & _). pose proof (se_data _ _ _ X) as FB.
  assert (FE : sk_data (io_out io') = (MAGIC ++ [3]) ++ file_of its ++ 2 :: r).
  { rewrite FB, HD, <- !app_assoc. reflexivity. }
  change 7 with (zlen (MAGIC ++ [3])) in HM.
  assert (HL : bulk its (MAGIC ++ [3]) (2 :: r)) by (split; [exact LI|rewrite <- FE; apply L]).
  pose proof (all_meta_ok its (MAGIC ++ [3]) (2 :: r) HI ND HL) as AM. pose proof (dev_count its (MAGIC ++ [3]) (2 :: r) HI ND HL SD) as DC.
  rewrite <- FE, <- HM in AM. rewrite <- HM in DC.
  destruct (end_file_index p decomp ty_of ord io io' GO HH HP HT E L AM DC)
    as (ft & devs & xss & dd & B1 & B2 & B3 & B4 & BL & B5 & (imap & B6 & B7) & B8 & B9 & _).
  set (cmap := chunk_map (io_groups io)) in *.
  assert (ND' : NoDup devs).
  { apply (Permutation_NoDup (l := dd)); [|apply lt_nodup; auto]. rewrite B6, B7. apply Permutation_map. apply Permutation_sym. apply GO. }
  assert (ID : forall d, In d devs <-> filter (of_device d) cmap <> []).
  { intros d. rewrite <- B9, B6, B7. split; intros J; (eapply Permutation_in; [|exact J]); apply Permutation_map; [|apply Permutation_sym]; apply GO. }
  destruct (chunk_map_spec (io_groups io)) as (SC & _ & _).
  destruct (index_keys _ _ _ devs xss ND' SC B4) as (K1 & K2 & K3 & K4). fold cmap in K4.
  assert (SE : forall d m, its_series d m its <> [] <-> In (d, m) (map f_key (concat xss))).
  { intros d m. split.
    - intros N. destruct (found_conv its (MAGIC ++ [3]) (2 :: r) HI ND HL d m N) as (cms & C1 & C2). rewrite <- HM in C1. fold cmap in C1.
      assert (C3 : In (path_of d m, cms) (filter (of_device d) cmap)) by (apply filter_In; auto).
      assert (D : In d devs) by (apply ID; intros Z; rewrite Z in C3; destruct C3). apply (K4 d m D). split; [|apply (in_map fst) in C3; exact C3].
      rewrite citems_series in N. destruct (citems_of d m its) as [|c cs] eqn:EC; [exfalso; apply N; reflexivity|].
      destruct (citems_declares its d m c HI) as (_ & _ & DD); [rewrite EC; left; auto|]. eapply ND; eauto.
    - intros J. apply in_map_iff in J. destruct J as (x & KX & J). apply in_concat in J. destruct J as (xs & J1 & J2).
      destruct (F2_in_r _ _ _ _ _ xs B4 J1) as (d' & _ & J3). destruct (F2_in_r _ _ _ _ _ x J3 J2) as (qc & _ & J4). rewrite FE, HM in J4.
      destruct (x_found its (MAGIC ++ [3]) (2 :: r) HI ND HL d' qc x J4) as (m' & ms & _ & KX' & _ & N & _). rewrite KX in KX'. inversion KX'; subst. exact N. }
  assert (LK : Forall2 (fun eo xs => (Forall (fun x => fst (f_key x) = fst eo) xs /\ forall m, entry_lookup (sk_data (io_out io')) eo m = find (named m) (map f_meta xs)) /\
     exists b n b', drop (snd eo) (sk_data (io_out io')) = Some b /\ node_read b = Some (n, b') /\ nd_type n = 3 /\ StronglySorted bytes_lt (map fst (nd_entries n)) /\
       node_shape (sk_data (io_out io')) n (map f_meta xs)) (nd_entries (ft_root ft)) xss).
  { rewrite <- B5 in B4. clear - B4 BL SC. revert B4. induction BL as [|eo xs es xss X BL IH]; intros F; [constructor|]. cbn [map] in F. inversion F as [|? ? ? ? F1 F2]; subst.
    destruct (dev_keys _ _ _ _ _ _ F1 (sorted_filter _ _ _ SC)) as (D1 & D2 & _). rewrite <- map_map in D2. destruct (X D2) as [X1 X2]. constructor; [|apply IH; auto]. auto. }
  exists ft, (concat xss). split; [exact B1|]. split.
  - split; auto.
    + intros d m. rewrite <- HS. symmetry. apply SE.
    + apply Forall_forall. intros x J. apply in_concat in J. destruct J as (xs & J1 & J2).
      destruct (F2_in_r _ _ _ _ _ xs B4 J1) as (d' & _ & J3). destruct (F2_in_r _ _ _ _ _ x J3 J2) as (qc & _ & J4). rewrite FE, HM in J4.
      destruct (x_found its (MAGIC ++ [3]) (2 :: r) HI ND HL d' qc x J4) as (m' & ms & D & KX' & _ & _ & SF). rewrite KX'. cbn [fst snd]. exists ms. split; auto.
      rewrite <- HS. exact SF.
    + intros d m. unfold lookup. rewrite B1. apply lookup_all; [rewrite B5; exact ND'|]. eapply F2_impl; [|exact LK]. cbn beta. tauto.
    + apply Forall_forall. intros eo J. assert (NE' : NoDup (map fst (nd_entries (ft_root ft)))) by (rewrite B5; exact ND').
      destruct (dev_metas _ _ (fun eo xs => exists b n b', drop (snd eo) (sk_data (io_out io')) = Some b /\ node_read b = Some (n, b') /\ nd_type n = 3 /\ StronglySorted bytes_lt (map fst (nd_entries n)) /\
         node_shape (sk_data (io_out io')) n (map f_meta xs)) NE' (F2_impl _ _ _ _ _ _ (fun eo xs H => conj (proj1 (proj1 H)) (proj2 H)) LK) eo J) as (xs & EX & X').
      subst xs. exact X'.
    + rewrite B5. exact ND'.
    + intros d. rewrite B5, ID. split.
      * intros N. destruct (filter (of_device d) cmap) as [|qc A] eqn:EA; [congruence|]. assert (J : In d devs) by (apply ID; rewrite EA; discriminate).
        destruct (F2_in_l _ _ _ _ _ d B4 J) as (xs & _ & J3). fold cmap in J3. rewrite EA in J3. inversion J3 as [|? x ? ? J4 J5]; subst. rewrite FE, HM in J4.
        destruct (x_found its (MAGIC ++ [3]) (2 :: r) HI ND HL d qc x J4) as (m' & ms & D & KX' & _ & N' & SF). exists m'. rewrite <- HS. exact N'.
      * intros (m & N). rewrite <- HS in N. apply SE in N. rewrite <- ID. apply in_map_iff in N. destruct N as (x & KX & J). apply K3 in J. rewrite KX in J. exact J.
  - exists imap. rewrite B5, <- B7. split; auto. clear - B8. induction B8; constructor; auto. eapply Forall_impl; [|exact H]. cbn beta. intros b. apply bytes_lt_iff.
Qed.
Lemma closed_index_large : forall w h ops l ord w' a, trace p snap sc w h ops l -> ops_ok ops -> no_close ops = true -> h_recent h = [] \/ 0 < h_counted h ->
  step p snap w (OpClose ord) = Ret (w', a) -> modest p snap sc (ops ++ [OpClose ord]) -> good_order ord -> no_dots sc -> small_devices sc ->
  exists ft xs, footer_read (file_bytes w') = Some ft /\ index_ok (h_all h) (file_bytes w') ft xs /\
    exists imap : list (str * index_node), map fst (nd_entries (ft_root ft)) = map fst (ord imap) /\ StronglySorted bytes_lt (map fst imap).
Proof.
  intros w h ops l ord w' a T O NC HR H M GO ND SD. destruct (close_parts_light _ _ _ _ _ _ _ T O NC H M) as (w1 & its & I & IG & E & LI & L).
  rewrite <- (kept_all h HR). set (h1 := if 0 <? h_counted h then h_flush h else h) in *. change (file_bytes w') with (sk_data (io_out (w_io w'))) in *.
  eapply (items_index (h_flushed h1) ord its (w_io w1) (w_io w')); auto; try apply I; auto.
Qed.
Lemma closed_index : forall w h ops l ord w' a, trace p snap sc w h ops l -> ops_ok ops -> no_close ops = true -> h_recent h = [] \/ 0 < h_counted h ->
  step p snap w (OpClose ord) = Ret (w', a) -> zlen (file_bytes w') < 2 ^ 32 -> good_order ord -> no_dots sc -> small_devices sc ->
  exists ft xs, footer_read (file_bytes w') = Some ft /\ index_ok (h_all h) (file_bytes w') ft xs /\
    exists imap : list (str * index_node), map fst (nd_entries (ft_root ft)) = map fst (ord imap) /\ StronglySorted bytes_lt (map fst imap).
Proof. intros w h ops l ord w' a T O NC HR H L GO ND SD. eapply closed_index_large; eauto using small_step. Qed.
End File.
