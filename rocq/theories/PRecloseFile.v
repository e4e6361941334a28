(** Sessions with several closes (C54). *)
From Verif Require Export PRecloseIndex.
Ltac Zify.zify_post_hook ::= idtac.

Lemma filter_filter : forall A (f g : A -> bool) l, (forall x, f x = true -> g x = true) -> filter f (filter g l) = filter f l.
Proof.
  intros A f g l H. induction l as [|a l IH]; auto. cbn [filter]. destruct (g a) eqn:E; cbn [filter]; [rewrite IH; auto|]. destruct (f a) eqn:F; [|auto]. apply H in F. congruence.
Qed.
Lemma find_hd : forall A (f : A -> bool) l, find f l = hd_error (filter f l).
Proof. intros A f l. induction l as [|a l IH]; auto. cbn [find filter]. destruct (f a); auto. Qed.
Lemma concat_filter : forall A (f : A -> bool) ls, filter f (concat ls) = concat (map (filter f) ls).
Proof. intros A f ls. induction ls as [|l ls IH]; auto. cbn [concat map]. rewrite filter_app, IH. auto. Qed.
Lemma filter_nil_all : forall A (f : A -> bool) l, (forall x, In x l -> f x = false) -> filter f l = [].
Proof. intros A f l. induction l as [|a l IH]; intros H; auto. cbn [filter]. rewrite (H a) by (left; auto). apply IH. intros x I. apply H. right. auto. Qed.
Lemma is_key_iff : forall d m x, is_key d m x = true <-> f_key x = (d, m).
Proof.
  intros d m x. unfold is_key. rewrite andb_true_iff, !same_name_eq. destruct (f_key x); cbn [fst snd]. split; [intros [-> ->]; auto|]. intros E. inversion E; auto.
Qed.
Lemma filter_unique : forall d m (xs : list found) x, NoDup (map f_key xs) -> In x xs -> f_key x = (d, m) -> filter (is_key d m) xs = [x].
Proof.
  intros d m xs x N I K. induction xs as [|y xs IH]; [destruct I|]. cbn [map] in N. inversion N as [|? ? N1 N2]; subst. cbn [filter].
  destruct I as [->|I].
  - rewrite (proj2 (is_key_iff d m x) K). f_equal. apply filter_nil_all. intros y I. destruct (is_key d m y) eqn:E; auto. apply is_key_iff in E. exfalso. apply N1. rewrite K, <- E. apply in_map. auto.
  - destruct (is_key d m y) eqn:E; [|auto]. apply is_key_iff in E. exfalso. apply N1. rewrite E, <- K. apply in_map. auto.
Qed.

Lemma declares_fun : forall sc d m ms ms', schema_ok sc -> declares sc d m ms -> declares sc d m ms' -> ms' = ms.
Proof.
  intros sc d m ms ms' H A B. apply declares_get in A; auto. apply declares_get in B; auto. destruct A as (g1 & A1 & A2), B as (g2 & B1 & B2). congruence.
Qed.

Section RecloseFile.
Variable p : profile.
Variable snap decomp : list Z -> option (list Z).
Hypothesis HG : good_snap snap decomp.
Variable sc : schema.
Hypothesis Hsc : schema_ok sc.
Hypothesis HND : no_dots sc.

(** ** One listing *)
Definition part (file : list Z) (s : list item) : Prop := Forall (item_ok p snap sc) s /\ exists rest, file = (MAGIC ++ [3]) ++ file_of s ++ rest.
Local Notation G s := (metas 7 s).
Lemma part_meta_ok : forall file s, part file s -> zlen file < 2 ^ 32 -> forall d cm, In (d, cm) (flat (G s)) -> meta_ok p decomp file (ty_of sc) d cm.
Proof.
  intros file s [HI (rest & ->)] L. change 7 with (zlen (MAGIC ++ [3])). apply (all_meta_ok p snap decomp HG sc Hsc s (MAGIC ++ [3]) rest HI HND (bulk_of _ _ _ L)).
Qed.
Lemma part_entries : forall file s d xs, part file s -> zlen file < 2 ^ 32 ->
  Forall2 (x_reads p decomp file (G s) (ty_of sc) d) (filter (of_device d) (chunk_map (G s))) xs ->
  Forall (fun x => fst (f_key x) = d) xs /\ StronglySorted bytes_lt (map (fun x => ts_name (f_meta x)) xs) /\
  (forall x, In x xs -> its_series d (snd (f_key x)) s <> [] /\ exists ms, declares sc d (snd (f_key x)) ms) /\
  (forall m, its_series d m s <> [] -> In (d, m) (map f_key xs)) /\
  (forall m, its_series d m s = [] -> filter (is_key d m) xs = []) /\
  (forall m, its_series d m s <> [] -> exists x ms, filter (is_key d m) xs = [x] /\ declares sc d m ms /\ series_found p (ms_type ms) (its_series d m s) x).
Proof.
  intros file s d xs PT L F. pose proof PT as [HI (rest & FE)]. assert (HL : bulk s (MAGIC ++ [3]) rest) by (apply bulk_of; rewrite <- FE; exact L).
  destruct (chunk_map_spec (G s)) as (SC & _ & _). destruct (dev_keys p decomp _ _ _ _ _ _ F (sorted_filter _ _ _ SC)) as (K1 & K2 & K3).
  assert (XF : forall x, In x xs -> exists m ms, declares sc d m ms /\ f_key x = (d, m) /\ its_series d m s <> [] /\ series_found p (ms_type ms) (its_series d m s) x).
  { intros x I. destruct (F2_in_r _ _ _ _ _ x F I) as (qc & _ & X). rewrite FE in X. change 7 with (zlen (MAGIC ++ [3])) in X.
    destruct (x_found p snap decomp HG sc Hsc s (MAGIC ++ [3]) rest HI HND HL d qc x X) as (m & ms & D & K & _ & N & S). eauto 8. }
  assert (CV : forall m, its_series d m s <> [] -> In (d, m) (map f_key xs)).
  { intros m N. destruct (found_conv p snap decomp HG sc Hsc s (MAGIC ++ [3]) rest HI HND HL d m N) as (cms & C1 & C2). change (zlen (MAGIC ++ [3])) with 7 in C1.
    apply K3. split.
    - rewrite citems_series in N. destruct (citems_of d m s) as [|c cs] eqn:EC; [exfalso; apply N; reflexivity|].
      destruct (citems_declares p snap sc Hsc s d m c HI) as (_ & _ & DD); [rewrite EC; left; auto|]. eapply HND; eauto.
    - assert (C3 : In (path_of d m, cms) (filter (of_device d) (chunk_map (G s)))) by (apply filter_In; auto). apply (in_map fst) in C3. exact C3. }
  assert (NK : NoDup (map f_key xs)).
  { apply bytes_lt_nodup in K2. clear - K2. induction xs as [|x xs IH]; [constructor|]. cbn [map] in *. inversion K2; subst. constructor; auto. intros I. apply H1.
    apply in_map_iff in I. destruct I as (y & E & I). apply in_map_iff. exists y. split; auto. apply (f_equal snd) in E. exact E. }
  split; [exact K1|]. split; [exact K2|]. split; [|split; [exact CV|split]].
  - intros x I. destruct (XF x I) as (m & ms & D & K & N & _). rewrite K. cbn [snd]. eauto.
  - intros m N. apply filter_nil_all. intros x I. destruct (is_key d m x) eqn:E; auto. apply is_key_iff in E. destruct (XF x I) as (m' & ms & _ & K & N' & _). rewrite E in K. inversion K; subst. congruence.
  - intros m N. pose proof (CV m N) as I. apply in_map_iff in I. destruct I as (x & K & I). exists x. destruct (XF x I) as (m' & ms & D & K' & _ & S). rewrite K in K'. inversion K'; subst m'.
    exists ms. split; [apply filter_unique; auto|]. auto.
Qed.

(** ** All listings of one device *)
Definition listing (s : list item) := metas 7 s.
Lemma parts_good : forall file snaps, zlen file < 2 ^ 32 -> Forall (part file) snaps ->
  Forall (fun G => forall d cm, In (d, cm) (flat G) -> meta_ok p decomp file (ty_of sc) d cm) (map listing snaps).
Proof.
  intros file snaps L F. apply Forall_forall. intros g I. apply in_map_iff in I. destruct I as (s & <- & I). rewrite Forall_forall in F. apply part_meta_ok; auto.
Qed.
Lemma device_entries : forall file d snaps pss xss, zlen file < 2 ^ 32 -> Forall (part file) snaps ->
  Forall2 (fun s pts => forall d m, its_series d m s = series_of d m pts) snaps pss ->
  dev_reads p decomp file (ty_of sc) (map listing snaps) d xss ->
  Forall (fun x => fst (f_key x) = d /\ exists ms, declares sc d (snd (f_key x)) ms) (concat xss) /\
  (forall m, (versions d m pss = [] /\ filter (is_key d m) (concat xss) = []) \/
     exists ms, declares sc d m ms /\ Forall2 (series_found p (ms_type ms)) (versions d m pss) (filter (is_key d m) (concat xss))).
Proof.
  intros file d snaps pss xss L PT SP DR. unfold dev_reads in DR. revert pss xss SP DR PT. induction snaps as [|s snaps IH]; intros pss xss SP DR PT.
  - inversion SP; subst. inversion DR; subst. cbn [concat]. split; [constructor|]. intros m. left. auto.
  - inversion SP as [|? pts ? pss' S1 S2]; subst. inversion DR as [|? xs ? xss' D1 D2]; subst. inversion PT as [|? ? P1 P2]; subst.
    destruct (IH _ _ S2 D2 P2) as (I1 & I2). clear IH. destruct (part_entries file s d xs P1 L D1) as (E1 & _ & E3 & _ & E5 & E6). cbn [concat]. split.
    + apply Forall_app. split; [|exact I1]. rewrite Forall_forall in *. intros x I. split; auto. apply E3. exact I.
    + intros m. unfold versions. cbn [map filter]. rewrite filter_app, <- S1. destruct (its_series d m s) as [|tv r] eqn:E; cbn [nonempty_series].
      * rewrite (E5 m E). exact (I2 m).
      * destruct (E6 m) as (x & ms & X1 & X2 & X3); [rewrite E; discriminate|]. rewrite E in X3. right. exists ms. split; auto. rewrite X1. cbn [app]. constructor; [exact X3|].
        destruct (I2 m) as [[V1 V2]|(ms' & D & V)]; [unfold versions in V1; rewrite V1, V2; constructor|].
        assert (ms' = ms) by exact (declares_fun _ _ _ _ _ Hsc X2 D).
        subst ms'. exact V.
Qed.
Lemma listed_len : forall d A B, Forall2 (listed p) A B -> length (dev_metas_of d B) = length (filter (of_device d) A).
Proof.
  intros d A B F. unfold dev_metas_of. rewrite map_length. symmetry. eapply F2_length.
  exact (F2_filter _ _ _ (of_device d) (of_device d) _ _ (fun a b H => f_equal (fun q => str_eqb (device_of_path q) d) (eq_sym (proj1 H))) F).
Qed.
Lemma device_total : forall file d snaps tmss, zlen file < 2 ^ 32 -> Forall (part file) snaps ->
  Forall2 (fun g tms => Forall2 (listed p) (chunk_map g) tms) (map listing snaps) tmss ->
  concat (map (dev_metas_of d) tmss) = [] \/ exists g, In (d, g) sc /\ zlen (concat (map (dev_metas_of d) tmss)) <= zlen snaps * zlen g.
Proof.
  intros file d snaps. induction snaps as [|s snaps IH]; intros tmss L PT F; inversion F as [|? tms ? tmss' F1 F2]; subst; [left; reflexivity|].
  inversion PT as [|? ? P1 P2]; subst. specialize (IH _ L P2 F2). cbn [map concat]. pose proof (listed_len d _ _ F1) as LL.
  destruct (filter (of_device d) (chunk_map (listing s))) as [|a A] eqn:EA.
  - destruct (dev_metas_of d tms); [|discriminate]. cbn [app]. destruct IH as [IH|(g & I1 & I2)]; [left; exact IH|right]. exists g. split; auto. rewrite zlen_cons. pose proof (zlen_nonneg _ g). lia.
  - pose proof P1 as [HI (rest & FE)]. assert (HL : bulk s (MAGIC ++ [3]) rest) by (apply bulk_of; rewrite <- FE; exact L).
    destruct (dev_count_in p snap decomp HG sc Hsc s (MAGIC ++ [3]) rest HI HND HL d) as (g & D & LG); [change (zlen (MAGIC ++ [3])) with 7; unfold listing in EA; rewrite EA; discriminate|].
    change (zlen (MAGIC ++ [3])) with 7 in LG. fold (listing s) in LG. rewrite EA in LG. assert (LD : zlen (dev_metas_of d tms) <= zlen g) by (unfold zlen in *; rewrite LL; exact LG).
    right. exists g. split; auto. rewrite zlen_app, zlen_cons. destruct IH as [IH|(g' & I1 & I2)].
    + rewrite IH, zlen_nil. pose proof (zlen_nonneg _ g). pose proof (zlen_nonneg _ snaps). nia.
    + assert (g' = g). { destruct Hsc as [NDs _]. pose proof (sm_get_nodup _ _ _ _ NDs I1). pose proof (sm_get_nodup _ _ _ _ NDs D). congruence. } subst g'. lia.
Qed.
Lemma reads_len : forall file d gs tmss xss, Forall2 (fun g tms => Forall2 (listed p) (chunk_map g) tms) gs tmss -> dev_reads p decomp file (ty_of sc) gs d xss ->
  length (concat xss) = length (concat (map (dev_metas_of d) tmss)).
Proof.
  intros file d gs tmss xss F D. unfold dev_reads in D. revert xss D. induction F as [|g tms gs tmss X F IH]; intros xss D; inversion D as [|? xs ? xss' D1 D2]; subst; auto.
  cbn [map concat]. rewrite !app_length, (IH _ D2), (listed_len d _ _ X). f_equal. symmetry. eapply F2_length; exact D1.
Qed.

(** ** The file after another close *)
Record reclosed (pss : list (list point)) (file : list Z) (xs : list found) : Prop := {
  rc_read : index_read decomp file = Some xs;
  rc_declared : Forall (fun x => exists ms, declares sc (fst (f_key x)) (snd (f_key x)) ms) xs;
  rc_none : forall d m, versions d m pss = [] -> entries_of d m xs = [];
  rc_versions : forall d m ms, declares sc d m ms -> Forall2 (series_found p (ms_type ms)) (versions d m pss) (entries_of d m xs);
  rc_lookup : few_entries sc (zlen pss) 256 -> forall d before q after, pss = before ++ q :: after -> (forall pts m, In pts before -> series_of d m pts = []) -> (exists m, series_of d m q <> []) ->
    forall m, ((forall m', series_of d m' q <> [] -> bytes_lt m m') -> lookup file d m = None) /\
              (forall m', series_of d m' q <> [] -> ~ bytes_lt m m' -> lookup file d m = option_map f_meta (hd_error (entries_of d m xs))) }.
(** [end_file] after any items and earlier closes *)
Lemma items_reclosed : forall pss last snaps its tmss ord io io', Forall (item_ok p snap sc) its -> is_healthy (io_out io) -> sk_pos (io_out io) = zlen (sk_data (io_out io)) ->
  sk_data (io_out io) = MAGIC ++ [3] ++ file_of its -> io_groups io = metas 7 its -> minv p snaps (io_tsmeta io) tmss -> Forall (fun s => exists more, its = s ++ more) snaps ->
  Forall2 (fun s pts0 => forall d m, its_series d m s = series_of d m pts0) snaps pss -> (forall d m, its_series d m its = series_of d m last) ->
  end_file p ord io = Ret io' -> zlen (sk_data (io_out io')) < 2 ^ 32 -> good_order ord -> let pss' := pss ++ [last] in
  few_entries sc (zlen pss') 65536 -> exists xs, reclosed pss' (sk_data (io_out io')) xs.
Proof.
  intros pss last snaps its tmss ord io io' HI HH HP HDT HM P4 P1 P2 HS E L GO pss' FE.
  pose proof (end_file_tsmeta _ _ _ _ E) as M. rewrite HM in M. destruct (minv_close _ _ _ _ _ _ P4 M) as (tms & [Q1 Q2 Q3 Q4]).
  set (snaps' := snaps ++ [its]) in *. set (tmss' := tmss ++ [tms]) in *.
  destruct (end_file_ok p _ _ _ HH E) as (r & X & _). assert (FB : sk_data (io_out io') = sk_data (io_out io) ++ 2 :: r) by (apply X). rewrite HDT in FB.
  assert (PT : Forall (part (sk_data (io_out io'))) snaps').
  { assert (PM : Forall (fun s => exists more, its = s ++ more) snaps').
    { apply Forall_app. split; [exact P1|]. constructor; [|constructor]. exists []. rewrite app_nil_r. reflexivity. }
    eapply Forall_impl; [|exact PM]. cbn beta. intros s (more & EM). split.
    - pose proof HI as W. rewrite EM in W. apply Forall_app in W. apply W.
    - exists (file_of more ++ 2 :: r). rewrite FB, EM, file_of_app, <- !app_assoc. reflexivity. }
  assert (SP : Forall2 (fun s pts => forall d m, its_series d m s = series_of d m pts) snaps' pss').
  { apply Forall2_app; [exact P2|]. constructor; [|constructor]. exact HS. }
  assert (LEN : zlen pss' = zlen snaps') by (unfold zlen; f_equal; symmetry; eapply F2_length; exact SP).
  assert (Q1' : Forall2 (fun g tms => Forall2 (listed p) (chunk_map g) tms) (map listing snaps') tmss') by (apply F2_map_l; exact Q1).
  assert (TOT : forall k, few_entries sc (zlen pss') k -> 0 <= k -> forall d, zlen (concat (map (dev_metas_of d) tmss')) <= k).
  { intros k FK K0 d. destruct (device_total (sk_data (io_out io')) d snaps' tmss' L PT Q1') as [Z|(g & D & LE)]; [rewrite Z, zlen_nil; lia|].
    unfold few_entries in FK. rewrite Forall_forall in FK. apply FK in D. cbn [snd] in D. rewrite LEN in D. lia. }
  destruct (end_file_many p decomp (sk_data (io_out io')) (ty_of sc) (map listing snaps') (parts_good _ _ L PT) L ord io io' tmss' GO HH HP E eq_refl Q1' Q2 Q3 Q4 (TOT _ FE ltac:(lia)))
    as (ft & xsss & B1 & B2 & B3 & B4 & B5).
  assert (DE : Forall2 (fun eo xs => Forall (fun x => fst (f_key x) = fst eo) xs /\ exists xss, xs = concat xss /\ dev_reads p decomp (sk_data (io_out io')) (ty_of sc) (map listing snaps') (fst eo) xss /\
     small_lookup (sk_data (io_out io')) eo (concat xss)) (nd_entries (ft_root ft)) (map (@concat _) xsss)).
  { clear - B4 L PT SP HG Hsc HND. induction B4 as [|eo xss es xsss [D S] F IH]; cbn [map]; constructor; auto.
    destruct (device_entries _ _ _ _ _ L PT SP D) as (K & _). split; [|eauto 6]. eapply Forall_impl; [|exact K]. cbn beta. tauto. }
  set (xs := concat (map (@concat _) xsss)) in *. exists xs.
  assert (IN : forall d, In d (map fst (nd_entries (ft_root ft))) -> exists eo xss, In eo (nd_entries (ft_root ft)) /\ fst eo = d /\
     (forall m, entries_of d m xs = filter (is_key d m) (concat xss)) /\ dev_reads p decomp (sk_data (io_out io')) (ty_of sc) (map listing snaps') d xss /\ small_lookup (sk_data (io_out io')) eo (concat xss)).
  { intros d J. apply in_map_iff in J. destruct J as (eo & <- & J). destruct (dev_metas _ _ _ B2 DE eo J) as (ys & Y1 & xss & -> & Y2 & Y3). exists eo, xss. split; auto. split; auto. split; auto.
    intros m. rewrite <- Y1. unfold entries_of. symmetry. apply filter_filter. intros x. unfold is_key. intros Z. apply andb_prop in Z. apply Z. }
  assert (OUT : forall d, ~ In d (map fst (nd_entries (ft_root ft))) -> forall x, In x xs -> fst (f_key x) <> d).
  { intros d NI x J EQ. apply in_concat in J. destruct J as (ys & J1 & J2). destruct (F2_in_r _ _ _ _ _ ys DE J1) as (eo & J3 & J4 & _). rewrite Forall_forall in J4. apply J4 in J2. apply NI. rewrite <- EQ, J2. apply in_map. auto. }
  assert (VE : forall d m, (versions d m pss' = [] /\ entries_of d m xs = []) \/ exists ms, declares sc d m ms /\ Forall2 (series_found p (ms_type ms)) (versions d m pss') (entries_of d m xs)).
  { intros d m. destruct (in_dec (list_eq_dec Z.eq_dec) d (map fst (nd_entries (ft_root ft)))) as [J|J].
    - destruct (IN d J) as (eo & xss & _ & _ & N1 & N2 & _). rewrite N1. apply (device_entries _ d snaps' pss' xss L PT SP N2).
    - left. split.
      + assert (Z : forall tms, In tms tmss' -> dev_metas_of d tms = []).
        { intros t J'. rewrite B5 in J. destruct (dev_metas_of d t) as [|y ys] eqn:EY; auto. exfalso. apply J. intros Z. apply in_split in J'. destruct J' as (u & v & EU). rewrite EU, map_app, concat_app in Z.
          apply app_eq_nil in Z. destruct Z as [_ Z]. cbn [map concat] in Z. rewrite EY in Z. discriminate. }
        unfold versions. apply filter_nil_all. intros y J'. apply in_map_iff in J'. destruct J' as (pts & <- & J'). destruct (F2_in_r _ _ _ _ _ pts SP J') as (s & S1 & S2). rewrite <- S2.
        destruct (its_series d m s) as [|tv u] eqn:ES; auto. exfalso. rewrite Forall_forall in PT. pose proof (PT s S1) as PS. pose proof PS as [HI' (rest & FE')].
        assert (HL : bulk s (MAGIC ++ [3]) rest) by (apply bulk_of; rewrite <- FE'; exact L).
        destruct (found_conv p snap decomp HG sc Hsc s (MAGIC ++ [3]) rest HI' HND HL d m) as (cms & C1 & C2); [rewrite ES; discriminate|]. change (zlen (MAGIC ++ [3])) with 7 in C1.
        destruct (F2_in_l _ _ _ _ _ s Q1 S1) as (t & T1 & T2). pose proof (listed_len d _ _ T2) as LL. rewrite (Z t T1) in LL. 
        assert (C3 : In (path_of d m, cms) (filter (of_device d) (chunk_map (metas 7 s)))) by (apply filter_In; auto). destruct (filter (of_device d) (chunk_map (metas 7 s))); [destruct C3|discriminate].
      + apply filter_nil_all. intros x J'. pose proof (OUT d J x J') as NE. destruct (same_name (fst (f_key x)) d) eqn:ES; auto. apply same_name_eq in ES. congruence. }
  split.
  - exact B3.
  - apply Forall_forall. intros x J. apply in_concat in J. destruct J as (ys & J1 & J2). destruct (F2_in_r _ _ _ _ _ ys DE J1) as (eo & J3 & J4 & xss & -> & J5 & _).
    destruct (device_entries _ _ _ _ _ L PT SP J5) as (K & _). rewrite Forall_forall in K. destruct (K x J2) as [K1 K2]. rewrite K1. exact K2.
  - intros d m V. destruct (VE d m) as [[_ Z]|(ms & _ & F)]; auto. rewrite V in F. inversion F. reflexivity.
  - intros d m ms D. destruct (VE d m) as [[-> ->]|(ms' & D' & F)]; [constructor|].
    assert (ms' = ms) by exact (declares_fun _ _ _ _ _ Hsc D D'). subst ms'. exact F.
  - intros FK d before q after EP NB (m0 & NQ) m.
    assert (ID : In d (map fst (nd_entries (ft_root ft)))).
    { destruct (in_dec (list_eq_dec Z.eq_dec) d (map fst (nd_entries (ft_root ft)))) as [J|J]; auto. exfalso. destruct (VE d m0) as [[V _]|(ms & _ & F)].
      - rewrite EP in V. unfold versions in V. rewrite map_app, filter_app in V. apply app_eq_nil in V. destruct V as [_ V]. cbn [map filter] in V. destruct (series_of d m0 q); [congruence|discriminate].
      - assert (EE : entries_of d m0 xs = []).
        { apply filter_nil_all. intros x J'. pose proof (OUT d J x J') as NE. destruct (same_name (fst (f_key x)) d) eqn:ES; auto. apply same_name_eq in ES. congruence. }
        rewrite EE in F. inversion F as [V|]. symmetry in V. rewrite EP in V. unfold versions in V. rewrite map_app, filter_app in V. apply app_eq_nil in V. destruct V as [_ V]. cbn [map filter] in V. destruct (series_of d m0 q); [congruence|discriminate]. }
    destruct (IN d ID) as (eo & xss & E1 & E2 & E3 & E4 & E5).
    assert (LK : lookup (sk_data (io_out io')) d m = entry_lookup (sk_data (io_out io')) eo m).
    { unfold lookup. rewrite B1. destruct (find (fun eo0 => same_name (fst eo0) d) (nd_entries (ft_root ft))) as [eo'|] eqn:EF.
      - pose proof (find_some _ _ EF) as [F1 F2]. apply same_name_eq in F2. f_equal. clear - B2 E1 E2 F1 F2. revert B2 E1 F1. generalize (nd_entries (ft_root ft)). intros es N. induction es as [|e es IH]; intros E1 F1; [destruct E1|].
        cbn [map] in N. inversion N as [|? ? N1 N2]; subst. destruct E1 as [->|E1], F1 as [->|F1]; auto; exfalso; apply N1; [rewrite <- F2; apply in_map; auto|rewrite F2; apply in_map; auto].
      - exfalso. pose proof (find_none _ _ EF eo E1) as Z. cbn beta in Z. rewrite E2, same_name_refl in Z. discriminate. }
    assert (SM : zlen (concat xss) <= 256).
    { unfold zlen. rewrite (reads_len _ _ _ _ _ Q1' E4). apply (TOT 256 FK ltac:(lia) d). }
    specialize (E5 SM m). rewrite LK, E5.
    assert (HD : exists x0 r0, concat xss = x0 :: r0 /\ series_of d (ts_name (f_meta x0)) q <> [] /\ forall m', series_of d m' q <> [] -> ts_name (f_meta x0) = m' \/ bytes_lt (ts_name (f_meta x0)) m').
    { clear - EP NB NQ SP E4 PT L HG Hsc HND. rewrite EP in SP. apply Forall2_app_inv_r in SP. destruct SP as (s1 & s2 & SP1 & SP2 & ES). rewrite ES in *. inversion SP2 as [|s ? s2' ? S1 S2]; subst s2.
      unfold dev_reads in E4. rewrite map_app in E4. apply Forall2_app_inv_l in E4. destruct E4 as (xs1 & xs2 & X1 & X2 & ->). cbn [map] in X2. inversion X2 as [|? xq ? xs3 X3 X4]; subst xs2. apply Forall_app in PT. destruct PT as [PT1 PT2]. inversion PT2 as [|? ? PS _]; subst.
      assert (Z : concat xs1 = []).
      { clear - SP1 X1 PT1 NB L HG Hsc HND. revert xs1 X1 PT1 NB. induction SP1 as [|s pts s1 before S SP IH]; intros xs1 X1 PT1 NB; inversion X1 as [|? ys ? xs1' Y1 Y2]; subst; auto. inversion PT1 as [|? ? P1 P2]; subst. cbn [concat].
        rewrite (IH _ Y2 P2) by (intros pts' m I; apply NB; right; auto). rewrite app_nil_r. destruct ys as [|y ys]; auto. exfalso.
        destruct (part_entries _ s d (y :: ys) P1 L Y1) as (_ & _ & K & _). destruct (K y (or_introl eq_refl)) as [K1 _]. apply K1. rewrite S. apply NB. left. auto. }
      rewrite concat_app, Z. cbn [app concat]. destruct (part_entries _ s d xq PS L X3) as (K1 & K2 & K3 & K4 & _).
      assert (I0 : In (d, m0) (map f_key xq)) by (apply K4; rewrite S1; exact NQ). destruct xq as [|x0 xq]; [destruct I0|]. exists x0, (xq ++ concat xs3). split; [reflexivity|]. split.
      - rewrite <- S1. apply (K3 x0 (or_introl eq_refl)).
      - intros m' N'. rewrite <- S1 in N'. apply K4 in N'. apply in_map_iff in N'. destruct N' as (x & KX & I). assert (EX : ts_name (f_meta x) = m') by (apply (f_equal snd) in KX; exact KX).
        destruct I as [->|I]; [left; auto|right]. cbn [map] in K2. inversion K2 as [|? ? _ FS]; subst. rewrite Forall_forall in FS. apply FS. apply in_map_iff. exists x. auto. }
    destruct HD as (x0 & r0 & EX & N0 & MIN). rewrite EX. split.
    + intros LOW. specialize (LOW _ N0). apply lex_leb_false in LOW. rewrite LOW. reflexivity.
    + intros m' N' NL. assert (LE : lex_leb (ts_name (f_meta x0)) m = true).
      { destruct (lex_leb (ts_name (f_meta x0)) m) eqn:EL; auto. exfalso. apply lex_leb_false in EL. destruct (MIN m' N') as [<-|LT]; [auto|]. apply NL. eapply bytes_lt_trans; eauto. }
      rewrite LE, <- EX, E3, <- find_hd. symmetry. apply find_key. destruct (device_entries _ d snaps' pss' xss L PT SP E4) as (K & _). eapply Forall_impl; [|exact K]. cbn beta. tauto.
Qed.
Lemma reclosed_file : forall w h pss ops l ord w' a, ctrace p snap sc w h pss ops l -> ops_ok ops -> step p snap w (OpClose ord) = Ret (w', a) ->
  zlen (file_bytes w') < 2 ^ 32 -> good_order ord -> let pss' := pss ++ [h_flushed (if 0 <? h_counted h then h_flush h else h)] in
  few_entries sc (zlen pss') 65536 -> exists xs, reclosed pss' (file_bytes w') xs.
Proof.
  intros w h pss ops l ord w' a T O H L GO pss' FE. destruct (ctrace_ok p snap decomp HG sc Hsc _ _ _ _ _ T O) as (snaps & its & CI). pose proof CI as [I P1 P2 _ (tmss & P4)].
  destruct (close_step p snap decomp HG sc Hsc _ _ _ _ _ _ _ _ CI H) as (w1 & gs & I1 & _ & E & TS). destruct I1 as [J1 J2 J3 J4 J5 J6 J7 J8 J9 J10 J11 J12 J13].
  rewrite <- TS in P4. eapply items_reclosed; eauto. apply pre_more. exact P1.
Qed.
End RecloseFile.

(** ** Runs *)
Lemma map_points : forall p dt vs xs, Forall2 (series_found p dt) vs xs -> map f_points xs = map tnums vs.
Proof. intros p dt vs xs F. induction F as [|v x vs xs X F IH]; auto. cbn [map]. rewrite IH, (found_points _ _ _ _ X). reflexivity. Qed.
Lemma reclose_run : forall p snap decomp sc out w0 ops w l ord w' a, good_snap snap decomp -> schema_ok sc ->
  writer_new sc (sink_new healthy) = (out, Some w0) -> run p snap w0 ops = Ret (w, l) -> ops_ok ops -> batches_ok ops l ->
  step p snap w (OpClose ord) = Ret (w', a) -> zlen (file_bytes w') < 2 ^ 32 -> good_order ord -> no_dots sc ->
  let pss := closings [] ops l ++ [acked ops l] in
  few_entries sc (zlen pss) 65536 -> exists xs, reclosed p decomp sc pss (file_bytes w') xs.
Proof.
  intros p snap decomp sc out w0 ops w l ord w' a HG Hs N R O B H L GO ND pss FE. destruct (run_trace _ _ _ _ _ _ _ _ N R) as (h & T). destruct (trace_ctrace _ _ _ _ _ _ _ T) as (ps & C).
  pose proof (ctrace_closings p snap decomp HG sc Hs _ _ _ _ _ C O B) as EC. subst ps.
  pose proof (counted_all p snap decomp HG sc Hs _ _ _ _ T O B) as K.
  assert (EP : h_flushed (if 0 <? h_counted h then h_flush h else h) = acked ops l).
  { rewrite <- (trace_acked p snap decomp HG sc Hs _ _ _ _ T O B). apply kept_all. destruct (h_recent h) as [|q r]; [left; auto|right]. rewrite K, zlen_cons. pose proof (zlen_nonneg _ r). lia. }
  pose proof (reclosed_file p snap decomp HG sc Hs ND w h _ ops l ord w' a C O H L GO) as X. cbv zeta in X. rewrite EP in X. apply X. exact FE.
Qed.
Lemma reclose_index : forall p snap decomp sc out w0 ops w l ord w' a, good_snap snap decomp -> schema_ok sc ->
  writer_new sc (sink_new healthy) = (out, Some w0) -> run p snap w0 ops = Ret (w, l) -> ops_ok ops -> batches_ok ops l ->
  step p snap w (OpClose ord) = Ret (w', a) -> zlen (file_bytes w') < 2 ^ 32 -> good_order ord -> no_dots sc ->
  let pss := closings [] ops l ++ [acked ops l] in few_entries sc (zlen pss) 65536 ->
  exists xs, index_read decomp (file_bytes w') = Some xs /\
    Forall (fun x => exists ms, declares sc (fst (f_key x)) (snd (f_key x)) ms) xs /\
    (forall d m ms, declares sc d m ms -> Forall2 (series_found p (ms_type ms)) (versions d m pss) (entries_of d m xs)) /\
    (forall d m, map f_points (entries_of d m xs) = map tnums (versions d m pss)).
Proof.
  intros p snap decomp sc out w0 ops w l ord w' a HG Hs N R O B H L GO ND pss FE.
  destruct (reclose_run p snap decomp sc out w0 ops w l ord w' a HG Hs N R O B H L GO ND FE) as (xs & [X1 X2 X3 X4 X5]). exists xs. split; auto. split; auto. split; auto.
  intros d m. destruct (versions d m pss) as [|v vs] eqn:E; [rewrite (X3 d m E); reflexivity|].
  assert (D : exists ms, declares sc d m ms).
  { destruct (entries_of d m xs) as [|x r] eqn:EE.
    - destruct (is_declared sc d m) eqn:ID; [apply is_declared_iff in ID; auto|]. exfalso.
      assert (I : In v (versions d m pss)) by (rewrite E; left; auto). unfold versions in I. apply filter_In in I. destruct I as [I1 I2]. apply in_map_iff in I1. destruct I1 as (pts & <- & I1).
      assert (SUB : exists ops1 l1 w1 h1, trace p snap sc w1 h1 ops1 l1 /\ ops_ok ops1 /\ batches_ok ops1 l1 /\ pts = acked ops1 l1).
      { destruct (run_trace _ _ _ _ _ _ _ _ N R) as (h & T). unfold pss in I1. apply in_app_iff in I1. destruct I1 as [I1|[<-|[]]]; [|exists ops, l, w, h; auto].
        clear - T O B I1. induction T as [out w N|w h ops l o w' a T IH H]; [destruct I1|]. pose proof (trace_len _ _ _ _ _ _ _ T) as TL. rewrite closings_snoc in I1 by auto.
        pose proof O as O0. pose proof B as B0. apply Forall2_app_inv_l in B. destruct B as (l1 & l2 & B1 & B2 & E). inversion B2 as [|? ? ? ? B3 B4]; subst. inversion B4; subst. apply app_inj_tail in E. destruct E as [<- <-].
        destruct O as [O1 O2]. apply Forall_app in O1. destruct O1 as [O1 _]. rewrite map_app, zsum_app in O2. cbn [map zsum fold_right] in O2. pose proof (op_points_nonneg o).
        apply in_app_iff in I1. destruct I1 as [I1|I1]; [apply IH; auto; split; auto; lia|]. destruct (is_close o); [|destruct I1]. destruct I1 as [<-|[]].
        exists (ops ++ [o]), (l ++ [a]), w', (h_step sc o (grew w w') h). split; [econstructor; eauto|]. split; [exact O0|]. split; [exact B0|reflexivity]. }
      destruct SUB as (ops1 & l1 & w1 & h1 & T1 & O1 & B1 & ->). destruct (trace_ok p snap decomp HG sc Hs w1 h1 ops1 l1 T1 O1) as (_ & its & W & _). pose proof (wi_points _ _ _ _ _ _ W) as WP.
      rewrite (trace_acked p snap decomp HG sc Hs _ _ _ _ T1 O1 B1) in WP.
      destruct (series_of d m (acked ops1 l1)) as [|tv r] eqn:ES; [discriminate|]. unfold series_of in ES.
      destruct (filter (fun q => same_name (pt_device q) d && same_name (pt_name q) m) (acked ops1 l1)) as [|q r'] eqn:EF; [discriminate|].
      assert (J : In q (q :: r')) by (left; auto). rewrite <- EF in J. apply filter_In in J. destruct J as [J1 J2]. apply andb_prop in J2. destruct J2 as [J2 J3]. apply same_name_eq in J2. apply same_name_eq in J3. subst d m.
      rewrite Forall_forall in WP. destruct (WP q J1) as (ms & D & _). assert (is_declared sc (pt_device q) (pt_name q) = true) by (apply is_declared_iff; eauto). congruence.
    - assert (I : In x (entries_of d m xs)) by (rewrite EE; left; auto). apply filter_In in I. destruct I as [I1 I2]. apply is_key_iff in I2. rewrite Forall_forall in X2. destruct (X2 x I1) as (ms & D). rewrite I2 in D. eauto. }
  destruct D as (ms & D). rewrite <- E. eapply map_points. apply X4. exact D.
Qed.
Lemma reclose_lookup : forall p snap decomp sc out w0 ops w l ord w' a, good_snap snap decomp -> schema_ok sc ->
  writer_new sc (sink_new healthy) = (out, Some w0) -> run p snap w0 ops = Ret (w, l) -> ops_ok ops -> batches_ok ops l ->
  step p snap w (OpClose ord) = Ret (w', a) -> zlen (file_bytes w') < 2 ^ 32 -> good_order ord -> no_dots sc ->
  let pss := closings [] ops l ++ [acked ops l] in few_entries sc (zlen pss) 256 ->
  forall d before q after, pss = before ++ q :: after -> (forall pts m, In pts before -> series_of d m pts = []) -> (exists m, series_of d m q <> []) ->
  (forall m, (forall m', series_of d m' q <> [] -> bytes_lt m m') -> lookup (file_bytes w') d m = None) /\
  (forall m, series_of d m q <> [] -> exists x ms, declares sc d m ms /\ lookup (file_bytes w') d m = Some (f_meta x) /\ f_key x = (d, m) /\ series_found p (ms_type ms) (series_of d m q) x) /\
  (forall xs m m', index_read decomp (file_bytes w') = Some xs -> series_of d m' q <> [] -> ~ bytes_lt m m' -> lookup (file_bytes w') d m = option_map f_meta (hd_error (entries_of d m xs))).
Proof.
  intros p snap decomp sc out w0 ops w l ord w' a HG Hs N R O B H L GO ND pss FE d before q after EP NB NQ.
  assert (FE' : few_entries sc (zlen pss) 65536) by (eapply Forall_impl; [|exact FE]; cbn beta; intros; lia).
  destruct (reclose_run p snap decomp sc out w0 ops w l ord w' a HG Hs N R O B H L GO ND FE') as (xs & [X1 X2 X3 X4 X5]). fold pss in X3, X4, X5. specialize (X5 FE d before q after EP NB NQ).
  split; [intros m; apply X5|]. split; [|intros xs' m m' XR; assert (xs' = xs) by congruence; subst xs'; apply X5]. intros m NM. destruct (X5 m) as [_ Y]. rewrite (Y m NM (bytes_lt_irrefl m)).
  assert (V : exists vs, versions d m pss = series_of d m q :: vs).
  { rewrite EP. unfold versions. rewrite map_app, filter_app. replace (filter nonempty_series (map (series_of d m) before)) with (@nil (list (Z * value))).
    - cbn [app map filter]. case_eq (series_of d m q); [intros; congruence|]. intros tv r EQ. cbn [nonempty_series]. eauto.
    - symmetry. apply filter_nil_all. intros s I. apply in_map_iff in I. destruct I as (pts & <- & I). rewrite (NB pts m I). reflexivity. }
  destruct V as (vs & V).
  assert (D : exists ms, declares sc d m ms).
  { destruct (reclose_index p snap decomp sc out w0 ops w l ord w' a HG Hs N R O B H L GO ND FE') as (xs' & Z1 & Z2 & Z3 & Z4). fold pss in Z3, Z4. specialize (Z4 d m). rewrite V in Z4.
    destruct (entries_of d m xs') as [|x r] eqn:EE; [discriminate|]. assert (I : In x (entries_of d m xs')) by (rewrite EE; left; auto). apply filter_In in I. destruct I as [I1 I2]. apply is_key_iff in I2.
    rewrite Forall_forall in Z2. destruct (Z2 x I1) as (ms & D). rewrite I2 in D. eauto. }
  destruct D as (ms & D). pose proof (X4 d m ms D) as F. rewrite V in F. destruct (entries_of d m xs) as [|x r] eqn:EE; inversion F as [|? ? ? ? F1 F2]; subst. exists x, ms. split; auto. cbn [hd_error option_map]. split; auto. split; [|exact F1].
  assert (I : In x (entries_of d m xs)) by (rewrite EE; left; auto). apply filter_In in I. apply is_key_iff. apply I.
Qed.
Lemma reclose_scan : forall p snap decomp sc out w0 ops w l pts pss, good_snap snap decomp -> schema_ok sc ->
  writer_new sc (sink_new healthy) = (out, Some w0) -> run p snap w0 ops = Ret (w, l) -> ops_ok ops -> batches_ok ops l ->
  closings [] ops l = pts :: pss -> zlen (file_bytes w) < 2 ^ 32 ->
  exists cs, read_file decomp (file_bytes w) = Some cs /\ (forall d m, SReader.series_in cs d m = tnums (series_of d m pts)) /\ Forall (kind_ok sc) cs.
Proof.
  intros p snap decomp sc out w0 ops w l pts pss HG Hs N R O B EC L. destruct (run_trace _ _ _ _ _ _ _ _ N R) as (h & T). destruct (trace_ctrace _ _ _ _ _ _ _ T) as (ps & C).
  pose proof (ctrace_closings p snap decomp HG sc Hs _ _ _ _ _ C O B) as EP. rewrite EC in EP. subst ps. eapply reclosed_scan; eauto.
Qed.
