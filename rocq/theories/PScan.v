(** Reading back the data section of a file by scanning it. *)
From Verif Require Export PRefine.
Ltac Zify.zify_post_hook ::= idtac.

(** Chunks whose data size fits its four byte field. *)
Definition thin (c : citem) : Prop := zlen (cw_buffer (c_cw c)) < 2 ^ 32.
Definition light (it : item) : Prop := match it with GItem _ cs => Forall thin cs | Raw _ => True end.
Lemma cbytes_buffer : forall c, zlen (cw_buffer (c_cw c)) <= zlen (cbytes c).
Proof.
  intros. unfold cbytes, chunk_bytes. rewrite zlen_app.
  match goal with |- _ <= zlen ?x + _ => pose proof (zlen_nonneg _ x) end. lia.
Qed.
Lemma thin_of : forall cs, zlen (concat (map cbytes cs)) < 2 ^ 32 -> Forall thin cs.
Proof.
  induction cs as [|c cs IH]; intros L; [constructor|]. cbn [map concat] in L. rewrite zlen_app in L.
  pose proof (cbytes_buffer c). pose proof (zlen_nonneg _ (cbytes c)). pose proof (zlen_nonneg _ (concat (map cbytes cs))).
  constructor; [unfold thin; lia|apply IH; lia].
Qed.
Lemma light_item : forall it, zlen (item_bytes it) < 2 ^ 32 -> light it.
Proof.
  intros [d cs|bs] L; [|exact I]. cbn [item_bytes light] in *. rewrite zlen_app in L. pose proof (zlen_nonneg _ (ghead d)). apply thin_of. lia.
Qed.
Lemma light_of : forall its, zlen (file_of its) < 2 ^ 32 -> Forall light its.
Proof.
  induction its as [|it its IH]; intros L; [constructor|]. unfold file_of in *. cbn [map concat] in L. rewrite zlen_app in L.
  pose proof (zlen_nonneg _ (item_bytes it)). pose proof (zlen_nonneg _ (concat (map item_bytes its))).
  constructor; [apply light_item; lia|apply IH; lia].
Qed.

Section Scan.
Variable p : profile.
Variable snap decomp : list Z -> option (list Z).
Hypothesis HG : good_snap snap decomp.

(** A chunk read back is the chunk written. *)
Record ck_ok (c : citem) (k : chunk) : Prop := {
  ck_name : ch_name k = c_name c;
  ck_type : ch_type k = dtype_code (ms_type (c_ms c));
  ck_points : chunk_points k = tnums (c_pts c);
  ck_pages : exists pages b, concat pages = c_pts c /\ Forall2 (page_holds p (ms_type (c_ms c)) b) pages (ch_pages k) /\
    tree_stats p (ms_type (c_ms c)) (chunk_tree pages) = Ret (cw_stats (c_cw c));
  ck_ids : cw_id (c_cw c) = c_name c /\ cw_type (c_cw c) = ms_type (c_ms c) }.

Lemma pages_points : forall dt b pages qs, Forall2 (page_holds p dt b) pages qs ->
  concat (map pg_points qs) = tnums (concat pages).
Proof.
  intros dt b pages qs H. induction H as [|pg q pages qs [E _] H IH]; [reflexivity|]. cbn [map concat].
  rewrite E, IH, tnums_app. auto.
Qed.

Lemma chunk_read_ok : forall c, citem_ok p snap c -> zlen (c_name c) < 2 ^ 31 -> thin c ->
  exists k, ck_ok c k /\ (exists x r, cbytes c = x :: r /\ (x = 1 \/ x = 5)) /\
    forall rest, chunk_read decomp (cbytes c ++ rest) = Some (k, rest).
Proof.
  intros [m ms pts c] [[O1 O2] NE S] Hm HB. unfold thin in HB. cbn [c_name c_ms c_pts c_cw] in *.
  destruct (chunk_session p snap decomp m (ms_type ms) (ms_comp ms) (ms_enc ms) pts c HG O1 O2 S) as (pages0 & ims & I & _).
  destruct (chunk_faithful p snap decomp m (ms_type ms) (ms_comp ms) (ms_enc ms) pts c HG O1 NE O2 S) as (pages & qs & P1 & P2 & P3 & P4 & P5 & P6).
  exists (mkChunk m (dtype_code (ms_type ms)) qs). split; [split; cbn [ch_name ch_type ch_pages c_name c_ms c_pts c_cw]; auto|].
  - unfold chunk_points. cbn [ch_pages]. rewrite (pages_points _ _ _ _ P5). congruence.
  - exists pages, (negb (zlen pages <=? 1)). auto.
  - split; apply I.
  - unfold cbytes, chunk_bytes, chunk_header. cbn [c_cw wbytes].
    rewrite P3, (ci_id _ _ _ _ _ _ _ _ _ _ I), (ci_type _ _ _ _ _ _ _ _ _ _ I), (ci_comp _ _ _ _ _ _ _ _ _ _ I), (ci_enc _ _ _ _ _ _ _ _ _ _ I).
    assert (EM : Z.lor (if zlen pages <=? 1 then ONLY_ONE_PAGE_CHUNK_HEADER else CHUNK_HEADER) 0 = if zlen pages <=? 1 then 5 else 1)
      by (destruct (zlen pages <=? 1); reflexivity).
    rewrite EM. split.
    + eexists _, _. split; [reflexivity|]. destruct (zlen pages <=? 1); auto.
    + intros rest. rewrite app_nil_r. pose proof (zlen_nonneg _ (cw_buffer c)) as NB. rewrite wrapU_small by lia.
      rewrite <- !app_assoc. unfold chunk_read. cbn [app byte_field].
      rewrite write_str_roundtrip by auto. rewrite var_u32_roundtrip by lia. cbn [app byte_field].
      rewrite take_app, P4. reflexivity.
Qed.

(** ** Scanning chunks and groups *)
Definition names_ok (it : item) : Prop :=
  match it with
  | GItem d cs => zlen d < 2 ^ 31 /\ Forall (fun c => citem_ok p snap c /\ zlen (c_name c) < 2 ^ 31) cs
  | Raw _ => True
  end.
Lemma scan_chunks : forall d cs, Forall (fun c => citem_ok p snap c /\ zlen (c_name c) < 2 ^ 31) cs -> Forall thin cs ->
  exists ks, Forall2 ck_ok cs ks /\ (length cs <= length (concat (map cbytes cs)))%nat /\
    forall f rest, scan decomp (length cs + f) (Some d) (concat (map cbytes cs) ++ rest) =
      let '(x, r) := scan decomp f (Some d) rest in (map (pair d) ks ++ x, r).
Proof.
  intros d cs H. induction H as [|c cs [C1 C2] H IH]; intros L.
  - exists []. split; [constructor|]. split; [cbn; lia|]. intros f rest. cbn. destruct (scan decomp f (Some d) rest). auto.
  - cbn [map concat] in *. inversion L as [|? ? L1 L2]; subst.
    destruct IH as (ks & K1 & K2 & K3); [auto|]. destruct (chunk_read_ok c C1 C2 L1) as (k & K & (x & r & E & X) & R).
    exists (k :: ks). split; [constructor; auto|]. split.
    + rewrite app_length, E. cbn [length]. lia.
    + intros f rest. cbn [length Nat.add scan]. specialize (R (concat (map cbytes cs) ++ rest)). rewrite E in R |- *. rewrite <- app_assoc. cbn [app] in *.
      assert (MX : match x with 0 => match str_field (r ++ concat (map cbytes cs) ++ rest) with
          | Some (d0, r0) => scan decomp (length cs + f) (Some d0) r0 | None => ([], x :: r ++ concat (map cbytes cs) ++ rest) end
        | _ => match chunk_read decomp (x :: r ++ concat (map cbytes cs) ++ rest) with
               | Some (c0, r0) => let '(cs0, rest0) := scan decomp (length cs + f) (Some d) r0 in ((d, c0) :: cs0, rest0)
               | None => ([], x :: r ++ concat (map cbytes cs) ++ rest) end end
        = let '(cs0, rest0) := scan decomp (length cs + f) (Some d) (concat (map cbytes cs) ++ rest) in ((d, k) :: cs0, rest0)).
      { rewrite R. destruct X; subst x; reflexivity. }
      destruct X; subst x; rewrite MX, K3; destruct (scan decomp f (Some d) rest); reflexivity.
Qed.

Definition last_dev (dev : option (list Z)) (its : list item) : option (list Z) :=
  fold_left (fun dv it => match it with GItem d _ => Some d | Raw _ => dv end) its dev.
(** The chunks read for the items. *)
Definition reads (its : list item) (xs : list (list (list Z * chunk))) : Prop :=
  Forall2 (fun it x => match it with
    | GItem d cs => exists ks, x = map (pair d) ks /\ Forall2 ck_ok cs ks
    | Raw _ => x = [] end) its xs.
Lemma ghead_eq : forall d, ghead d = 0 :: wbytes (write_str d).
Proof. intros. unfold ghead, chunk_group_header. cbn [wbytes]. rewrite app_nil_r. reflexivity. Qed.
Lemma scan_items : forall its, Forall names_ok its -> Forall is_group its -> Forall light its ->
  exists xs n, reads its xs /\ (n <= length (file_of its))%nat /\
    forall f dev rest, scan decomp (n + f) dev (file_of its ++ rest) =
      let '(x, r) := scan decomp f (last_dev dev its) rest in (concat xs ++ x, r).
Proof.
  intros its H. induction H as [|it its N H IH]; intros G L.
  - exists [], 0%nat. split; [constructor|]. split; [cbn; lia|]. intros f dev rest. cbn. destruct (scan decomp f dev rest). auto.
  - inversion G as [|? ? G1 G2]; subst. destruct it as [d cs|]; [|contradiction]. destruct N as [N1 N2].
    unfold file_of in *. cbn [map concat item_bytes] in *. inversion L as [|? ? L1 L2]; subst.
    destruct IH as (xs & n & X1 & X2 & X3); [auto|auto|]. destruct (scan_chunks d cs N2 L1) as (ks & K1 & K2 & K3).
    exists (map (pair d) ks :: xs), (S (length cs + n))%nat. split; [constructor; eauto|]. split.
    + rewrite !app_length, ghead_eq. cbn [length]. lia.
    + intros f dev rest. rewrite ghead_eq, <- !app_assoc. cbn [Nat.add app scan]. rewrite write_str_roundtrip by auto.
      rewrite <- Nat.add_assoc, K3, X3. cbn [last_dev fold_left]. destruct (scan decomp f _ rest). cbn [concat].
      rewrite app_assoc. reflexivity.
Qed.

Lemma scan_stop : forall f dev r, scan decomp f dev (2 :: r) = ([], 2 :: r).
Proof.
  intros [|f] dev r; [reflexivity|]. cbn [scan]. destruct dev as [d|]; [|reflexivity].
  assert (chunk_read decomp (2 :: r) = None) as ->; [|reflexivity].
  unfold chunk_read. cbn [byte_field]. destruct (str_field r) as [[n l]|]; [|reflexivity]. destruct (leb128 l) as [[s l1]|]; [|reflexivity].
  destruct (byte_field l1) as [[t l2]|]; [|reflexivity]. destruct (byte_field l2) as [[c l3]|]; [|reflexivity].
  destruct (byte_field l3) as [[e l4]|]; [|reflexivity]. destruct (take s l4) as [[x l5]|]; reflexivity.
Qed.

(** a header, items, anything *)
Lemma scan_file_ok : forall its tail, Forall names_ok its -> Forall is_group its -> Forall light its ->
  exists xs, reads its xs /\ exists extra rest, scan_file decomp ((MAGIC ++ [3] ++ file_of its) ++ tail) = Some (concat xs ++ extra, rest) /\
    (forall r, tail = 2 :: r -> extra = [] /\ rest = 2 :: r).
Proof.
  intros its tail H G L. destruct (scan_items its H G L) as (xs & n & X1 & X2 & X3). exists xs. split; auto.
  unfold scan_file. replace ((MAGIC ++ [3] ++ file_of its) ++ tail) with ((MAGIC ++ [3]) ++ (file_of its ++ tail)) by (rewrite <- !app_assoc; auto).
  rewrite (take_app_n 7) by reflexivity. destruct (list_eq_dec Z.eq_dec (MAGIC ++ [3]) (magic ++ [3])) as [_|N]; [|exfalso; apply N; reflexivity].
  replace (length (file_of its ++ tail)) with (n + (length (file_of its) - n + length tail))%nat by (rewrite app_length; lia).
  rewrite X3. set (f := (length (file_of its) - n + length tail)%nat).
  destruct (scan decomp f (last_dev None its) tail) as [extra rest] eqn:E. exists extra, rest. split; [reflexivity|].
  intros r ->. rewrite scan_stop in E. inversion E; subst. auto.
Qed.

(** ** Series of what was read *)
Lemma ks_series : forall d m d' cs ks, Forall2 ck_ok cs ks ->
  SReader.series_in (map (pair d') ks) d m = tnums (if same_name d' d then cseries m cs else []).
Proof.
  intros d m d' cs ks H. unfold SReader.series_in. induction H as [|c k cs ks K H IH].
  - cbn. destruct (same_name d' d); reflexivity.
  - cbn [map filter fst snd]. rewrite (ck_name _ _ K). destruct (same_name d' d) eqn:E; cbn [andb].
    + unfold cseries in *. cbn [filter]. destruct (same_name (c_name c) m).
      * cbn [map concat snd]. rewrite tnums_app, (ck_points _ _ K). f_equal. exact IH.
      * exact IH.
    + exact IH.
Qed.
Lemma series_in_app : forall a b d m, SReader.series_in (a ++ b) d m = SReader.series_in a d m ++ SReader.series_in b d m.
Proof. intros. unfold SReader.series_in. rewrite filter_app, map_app, concat_app. auto. Qed.
Lemma reads_series : forall its xs d m, reads its xs -> SReader.series_in (concat xs) d m = tnums (its_series d m its).
Proof.
  intros its xs d m H. unfold its_series. induction H as [|it x its xs E H IH]; [reflexivity|]. cbn [map concat].
  rewrite series_in_app, tnums_app, IH. f_equal. destruct it as [d' cs|bs]; cbn [iseries].
  - destruct E as (ks & -> & K). apply ks_series; auto.
  - subst x. reflexivity.
Qed.
Lemma reads_declared : forall sc its xs, Forall (item_ok p snap sc) its -> schema_ok sc -> reads its xs ->
  Forall (fun dk => chunk_points (snd dk) <> [] /\
    exists ms, declares sc (fst dk) (ch_name (snd dk)) ms /\ ch_type (snd dk) = dtype_code (ms_type ms)) (concat xs).
Proof.
  intros sc its xs H Hs R. induction R as [|it x its xs E R IH]; [constructor|]. inversion H as [|? ? H1 H2]; subst.
  cbn [concat]. apply Forall_app. split; [|auto]. destruct it as [d cs|bs]; [|subst x; constructor].
  destruct E as (ks & -> & K). destruct H1 as (g0 & G & F). clear - K F G Hs.
  induction K as [|c k cs ks K1 K IH]; [constructor|]. inversion F as [|? ? [F1 F2] F3]; subst. cbn [map]. constructor; [|auto].
  cbn [fst snd]. split.
  - rewrite (ck_points _ _ K1). destruct F1 as [_ NE _]. destruct (c_pts c); [congruence|discriminate].
  - exists (c_ms c). rewrite (ck_name _ _ K1), (ck_type _ _ K1). split; auto. apply declares_get; eauto.
Qed.

Lemma items_names : forall sc its, schema_ok sc -> Forall (item_ok p snap sc) its -> Forall names_ok its.
Proof.
  intros sc its Hs H. eapply Forall_impl; [|exact H]. intros [d cs|bs]; cbn; auto. intros (g0 & G & F).
  pose proof (decls_names sc Hs) as D. rewrite Forall_forall in D. apply sm_get_in in G. apply D in G. cbn in G. destruct G as [G1 G2].
  split; auto. eapply Forall_impl; [|exact F]. cbn beta. intros c [C1 C2]. split; auto. rewrite Forall_forall in G2. apply G2.
  apply sm_get_in in C2. apply (in_map fst) in C2. exact C2.
Qed.

(** ** Reachable files *)
Lemma scan_reachable : forall sc h its w tail, schema_ok sc -> winv p snap sc h its w -> Forall is_group its ->
  Forall light its ->
  exists cs extra rest, scan_file decomp (file_bytes w ++ tail) = Some (cs ++ extra, rest) /\
    (forall r, tail = 2 :: r -> extra = [] /\ rest = 2 :: r) /\
    (forall d m, SReader.series_in cs d m = tnums (series_of d m (h_flushed h))) /\
    Forall (fun dk => chunk_points (snd dk) <> [] /\
      exists ms, declares sc (fst dk) (ch_name (snd dk)) ms /\ ch_type (snd dk) = dtype_code (ms_type ms)) cs.
Proof.
  intros sc h its w tail Hs I G L. rewrite (wi_data _ _ _ _ _ _ I).
  destruct (scan_file_ok its tail) as (xs & X1 & extra & rest & X2 & X3); auto.
  - eapply items_names; eauto. apply I.
  - exists (concat xs), extra, rest. split; auto. split; auto. split.
    + intros d m. rewrite (reads_series _ _ _ _ X1). f_equal. apply I.
    + apply (reads_declared sc its xs); auto. apply I.
Qed.
End Scan.
