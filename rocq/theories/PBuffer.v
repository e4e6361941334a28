(** Proofs about buffered points (C60). *)
From Verif Require Import PLarge SBuffer SAmple.
Ltac Zify.zify_post_hook ::= idtac.

(** * Least sizes of columns *)
Lemma chop_many : forall A f (l : list A), (length l <= f)%nat -> zlen l <= 129 * zlen (chop_fuel f 129 l).
Proof.
  intros A f. induction f as [|f IH]; intros l H; [destruct l; [apply Z.le_refl|cbn in H; lia]|].
  destruct l as [|x l]; [apply Z.le_refl|].
  cbn [chop_fuel]. rewrite !zlen_cons. specialize (IH (skipn 129 (x :: l))).
  assert (L : length (skipn 129 (x :: l)) = (length (x :: l) - 129)%nat) by apply skipn_length. rewrite L in IH.
  assert (J : (length (x :: l) - 129 <= f)%nat) by (cbn [length] in *; lia). specialize (IH J). unfold zlen in IH at 1. rewrite L in IH. unfold zlen at 1. cbn [length] in *. lia.
Qed.
Lemma zlen_digits : forall n v, zlen (digits n v) = Z.of_nat n.
Proof. induction n as [|n IH]; intros v; [reflexivity|]. cbn [digits]. rewrite zlen_app, IH, zlen_cons, zlen_nil. lia. Qed.
Lemma leb_ge : forall u, 1 <= zlen (SLayout.leb u).
Proof. intros u. unfold SLayout.leb. cbn [leb_groups]. destruct (u <? 128); rewrite zlen_cons; [rewrite zlen_nil; lia|]. set (x := if _ <? 128 then _ else _). pose proof (zlen_nonneg _ x). lia. Qed.
Lemma block_ge : forall bits b, bits = 32 \/ bits = 64 -> 8 + bits / 4 <= zlen (ts2_block_bytes bits b).
Proof.
  intros bits b Hb. unfold ts2_block_bytes. cbv zeta. rewrite !zlen_app, !zlen_digits. match goal with |- _ <= _ + (_ + (_ + (_ + ?x))) => assert (0 <= x) by lia end.
  destruct Hb as [-> | ->]; [change (32 / 4) with 8; change (Z.of_nat (Z.to_nat (32 / 8))) with 4|change (64 / 4) with 16; change (Z.of_nat (Z.to_nat (64 / 8))) with 8]; lia.
Qed.
Lemma concat_ge : forall A B (f : A -> list B) k l, (forall x, k <= zlen (f x)) -> k * zlen l <= zlen (concat (map f l)).
Proof. intros A B f k l H. induction l as [|x l IH]; cbn [map concat]; [rewrite !zlen_nil; lia|]. rewrite zlen_app, zlen_cons. specialize (H x). lia. Qed.
Lemma ts2_bytes_ge : forall bits vs, bits = 32 \/ bits = 64 -> (8 + bits / 4) * zlen vs <= 129 * zlen (ts2_bytes bits vs).
Proof.
  intros bits vs Hb. unfold ts2_bytes. pose proof (concat_ge _ _ (ts2_block_bytes bits) (8 + bits / 4) (chop 129 vs) (fun b => block_ge bits b Hb)) as C.
  pose proof (chop_many _ (length vs) vs (le_n _)) as M. fold (chop 129 vs) in M. assert (0 <= 8 + bits / 4) by (destruct Hb as [-> | ->]; cbv; discriminate). nia.
Qed.
Lemma content_ge : forall ms pts, least_bytes ms * zlen pts <= 129 * zlen (page_content (ms_type ms) (ms_enc ms) pts).
Proof.
  intros ms pts. unfold page_content. cbv zeta. rewrite !zlen_app. pose proof (leb_ge (zlen (ts2_bytes 64 (times pts)))) as L1.
  pose proof (ts2_bytes_ge 64 (times pts) (or_intror eq_refl)) as T. change (8 + 64 / 4) with 24 in T.
  assert (LT : zlen (times pts) = zlen pts) by (unfold zlen, times; rewrite map_length; reflexivity). rewrite LT in T.
  assert (LV : zlen (nums pts) = zlen pts) by (unfold zlen, nums; rewrite !map_length; reflexivity).
  assert (V : (least_bytes ms - 24) * zlen pts <= 129 * zlen (column_bytes (ms_type ms) (ms_enc ms) (nums pts))); [|lia].
  unfold least_bytes. destruct (ms_enc ms), (ms_type ms); cbn [column_bytes].
  - pose proof (concat_ge _ _ (fun n => SLayout.leb (zigzag n)) 1 (nums pts) (fun n => leb_ge _)). lia.
  - pose proof (concat_ge _ _ (digits 8) 8 (nums pts) (fun n => Z.eq_le_incl _ _ (eq_sym (zlen_digits 8 n)))). lia.
  - pose proof (concat_ge _ _ (digits 4) 4 (nums pts) (fun n => Z.eq_le_incl _ _ (eq_sym (zlen_digits 4 n)))). lia.
  - pose proof (ts2_bytes_ge 32 (nums pts) (or_introl eq_refl)) as X. change (8 + 32 / 4) with 16 in X. lia.
  - pose proof (ts2_bytes_ge 64 (nums pts) (or_intror eq_refl)) as X. change (8 + 64 / 4) with 24 in X. lia.
  - pose proof (ts2_bytes_ge 64 (nums pts) (or_intror eq_refl)) as X. change (8 + 64 / 4) with 24 in X. lia.
Qed.
Lemma page_ge : forall snap ms st pts, ms_comp ms = UNCOMPRESSED -> least_bytes ms * zlen pts <= 129 * zlen (page_bytes snap ms st pts).
Proof.
  intros snap ms st pts U. pose proof (content_ge ms pts) as C. unfold page_bytes. cbv zeta. rewrite U. cbn [squeeze]. rewrite !zlen_app.
  set (c := page_content _ _ _) in *. pose proof (zlen_nonneg _ (SLayout.leb (zlen c))). set (x := if st then _ else _). pose proof (zlen_nonneg _ x). lia.
Qed.
Lemma pages_ge : forall snap ms st pages, ms_comp ms = UNCOMPRESSED -> least_bytes ms * zlen (concat pages) <= 129 * zlen (concat (map (page_bytes snap ms st) pages)).
Proof.
  intros snap ms st pages U. induction pages as [|pg pages IH]; cbn [map concat]; [rewrite !zlen_nil; lia|]. rewrite !zlen_app. pose proof (page_ge snap ms st pg U). lia.
Qed.
Lemma least_density : forall ms, least_bytes ms <= density (ms_type ms) (ms_enc ms).
Proof. intros ms. unfold least_bytes, density. destruct (ms_enc ms), (ms_type ms); cbv; discriminate. Qed.
Lemma series_memory_ge : forall snap ms pts, ms_comp ms = UNCOMPRESSED -> least_bytes ms * zlen pts <= 129 * series_memory snap ms pts.
Proof.
  intros snap ms pts U. unfold series_memory. destruct pts as [|q pts]; [rewrite zlen_nil; lia|]. remember (q :: pts) as l eqn:El. clear El.
  pose proof (cut_concat (ms_type ms) (ms_enc ms) l) as C. destruct (cut (ms_type ms) (ms_enc ms) l) as [[pages cur] next]. rewrite <- C, zlen_app.
  pose proof (pages_ge snap ms (negb (zlen pages =? 1)) pages U) as P. fold (pages_bytes snap ms pages) in P. pose proof (estimate_ge (ms_type ms) (ms_enc ms) cur) as E.
  pose proof (least_density ms) as D. pose proof (zlen_nonneg _ cur). pose proof (zlen_nonneg _ (SLayout.leb (zlen cur))). destruct (ms_type ms); nia.
Qed.
Lemma chunk_ge : forall snap m ms pts, ms_comp ms = UNCOMPRESSED -> least_bytes ms * zlen pts <= 129 * zlen (chunk_image snap m ms pts).
Proof.
  intros snap m ms pts U. unfold chunk_image. cbv zeta. rewrite !zlen_app. set (pages := pages_of _ _ pts).
  assert (C : concat pages = pts).
  { unfold pages, pages_of. pose proof (cut_concat (ms_type ms) (ms_enc ms) pts) as C. destruct (cut (ms_type ms) (ms_enc ms) pts) as [[pg cur] next]. rewrite concat_app. rewrite <- C at 1. f_equal.
    destruct cur; cbn [concat]; [reflexivity|apply app_nil_r]. }
  pose proof (pages_ge snap ms (negb (zlen pages =? 1)) pages U) as P. fold (pages_bytes snap ms pages) in P. rewrite C in P. set (x := pages_bytes _ _ _) in *.
  pose proof (zlen_nonneg _ (text m)). pose proof (zlen_nonneg _ (SLayout.leb (zlen x))). rewrite !zlen_cons, !zlen_nil. lia.
Qed.

(** * Sums over the series *)
Definition lengths (sc : schema) (pts : list point) : Z :=
  zsum (map (fun dg => zsum (map (fun kv => zlen (series_of (fst dg) (fst kv) pts)) (snd dg))) sc).
Lemma zsum_plus : forall A (f g : A -> Z) l, zsum (map (fun x => f x + g x) l) = zsum (map f l) + zsum (map g l).
Proof. intros A f g l. induction l as [|x l IH]; [reflexivity|]. cbn [map]. rewrite !zsum_cons, IH. lia. Qed.
Lemma zsum_member : forall A (f : A -> Z) l x, (forall y, 0 <= f y) -> In x l -> f x <= zsum (map f l).
Proof.
  intros A f l x N H. induction l as [|y l IH]; [destruct H|]. cbn [map]. rewrite zsum_cons. pose proof (zsum_map_nonneg _ f l N). destruct H as [-> | H]; [lia|]. specialize (IH H). specialize (N y). lia.
Qed.
Definition declared_points (sc : schema) (pts : list point) : Prop := Forall (fun q => is_declared sc (pt_device q) (pt_name q) = true) pts.
Lemma zsum_eq : forall A (f g : A -> Z) l, (forall x, f x = g x) -> zsum (map f l) = zsum (map g l).
Proof. intros A f g l H. f_equal. apply map_ext. exact H. Qed.
Lemma lengths_cons : forall sc q pts, lengths sc (q :: pts) = lengths sc [q] + lengths sc pts.
Proof.
  intros sc q pts. unfold lengths. rewrite <- zsum_plus. apply zsum_eq. intros [d g]. cbn [fst snd]. rewrite <- zsum_plus. apply zsum_eq. intros [m ms]. cbn [fst].
  change (q :: pts) with ([q] ++ pts). rewrite PWriter.series_app, zlen_app. reflexivity.
Qed.
Lemma lengths_ge : forall sc pts, declared_points sc pts -> zlen pts <= lengths sc pts.
Proof.
  intros sc pts. induction pts as [|q pts IH]; intros D.
  - rewrite zlen_nil. apply zsum_map_nonneg. intros [d g]. apply zsum_map_nonneg. intros. apply zlen_nonneg.
  - inversion D as [|? ? D1 D2]; subst. rewrite lengths_cons, zlen_cons. specialize (IH D2). assert (1 <= lengths sc [q]); [|lia].
    apply is_declared_iff in D1. destruct D1 as (ms & g & I1 & I2). unfold lengths.
    etransitivity; [|apply (zsum_member _ _ sc (pt_device q, g)); [|exact I1]]; [|intros [d' g']; apply zsum_map_nonneg; intros; apply zlen_nonneg].
    cbn [fst snd]. etransitivity; [|apply (zsum_member _ _ g (pt_name q, ms)); [|exact I2]]; [|intros; apply zlen_nonneg].
    cbn [fst]. unfold series_of. cbn [filter map]. rewrite !PWriter.same_name_refl. cbn. apply Z.le_refl.
Qed.
Lemma memory_ge : forall snap sc L pts, uncompressed sc L -> 0 <= L -> declared_points sc pts -> L * zlen pts <= 129 * memory snap sc pts.
Proof.
  intros snap sc L pts U HL D. pose proof (lengths_ge sc pts D) as G.
  assert (X : L * lengths sc pts <= 129 * memory snap sc pts); [|nia].
  assert (S : forall A k (f : A -> Z) l, k * zsum (map f l) = zsum (map (fun x => k * f x) l)).
  { intros A k f l. induction l as [|x l IH]; [cbn; lia|]. cbn [map]. rewrite !zsum_cons. lia. }
  unfold lengths, memory. rewrite !S. apply zsum_map_le. intros [d g] I. cbn [fst snd]. rewrite !S. apply zsum_map_le. intros [m ms] J. cbn [fst snd].
  destruct (U d m ms (ex_intro _ g (conj I J))) as [U1 U2]. pose proof (series_memory_ge snap ms (series_of d m pts) U1). pose proof (zlen_nonneg _ (series_of d m pts)). nia.
Qed.

(** * Calls *)
Lemma batch_buffer : forall sc d t vs h, schema_ok sc ->
  let h' := fst (h_batch sc d t vs h) in
  h_counted h' = h_counted h /\ zlen (h_recent h) <= zlen (h_recent h') <= zlen (h_recent h) + zlen vs /\
  (snd (h_batch sc d t vs h) = true -> zlen (h_recent h') = zlen (h_recent h) + zlen vs) /\
  (declared_points sc (h_recent h) -> declared_points sc (h_recent h')).
Proof.
  intros sc d t vs. induction vs as [|[m v] vs IH]; intros h Hs; cbn [h_batch].
  - cbn [fst snd]. rewrite zlen_nil. repeat split; auto; lia.
  - destruct (admits sc h d m t) eqn:A; cbn [fst snd].
    + destruct (IH (h_store (mkPoint d m t v) h) Hs) as (I1 & I2 & I3 & I4).
      assert (E : zlen (h_recent (h_store (mkPoint d m t v) h)) = zlen (h_recent h) + 1) by (unfold h_store; cbn [h_recent]; rewrite zlen_app, zlen_cons, zlen_nil; lia).
      rewrite E in *. rewrite zlen_cons. split; [exact I1|]. split; [lia|]. split; [intros X; rewrite I3; [lia|exact X]|]. intros D. apply I4. unfold h_store, declared_points. cbn [h_recent].
      apply Forall_app. split; [exact D|]. constructor; [|constructor]. cbn [pt_device pt_name]. unfold admits in A. apply andb_prop in A. apply A.
    + rewrite zlen_cons. pose proof (zlen_nonneg _ vs). split; [reflexivity|]. split; [lia|]. split; [discriminate|auto].
Qed.
(** What a call does to the number of buffered points. *)
Definition refused_call (sc : schema) (o : op) (h : hist) : Z :=
  match o with OpWriteMany _ _ vs => if call_ok sc o h then 0 else zlen vs | _ => 0 end.
Lemma call_buffer : forall sc o h, schema_ok sc ->
  let h' := h_call sc o h in
  (declared_points sc (h_recent h) -> declared_points sc (h_recent h')) /\ 0 <= refused_call sc o h /\
  h_counted h <= h_counted h' /\
  (call_ok sc o h = true -> zlen (h_recent h') - zlen (h_recent h) = h_counted h' - h_counted h) /\
  (call_ok sc o h = false -> h_counted h' = h_counted h /\ zlen (h_recent h) <= zlen (h_recent h') <= zlen (h_recent h) + refused_call sc o h).
Proof.
  intros sc o h Hs. destruct o as [d m t v|d t vs|ord]; cbn [h_call call_ok refused_call].
  - pose proof (verdict_admits sc h d m t Hs) as V. destruct (admits sc h d m t) eqn:A.
    + rewrite (proj2 V eq_refl). unfold h_count, h_store. cbn [h_recent h_counted]. rewrite zlen_app, zlen_cons, zlen_nil.
      split; [|split; [lia|split; [lia|split; [lia|discriminate]]]]. intros D. apply Forall_app. split; [exact D|]. constructor; [|constructor]. cbn [pt_device pt_name]. unfold admits in A. apply andb_prop in A. apply A.
    + destruct (h_verdict sc h d m t); [exfalso; destruct V as [V _]; specialize (V eq_refl); discriminate| |]; repeat split; auto; try lia; try discriminate.
  - pose proof (batch_buffer sc d t vs h Hs) as (B1 & B2 & B3 & B4). pose proof (zlen_nonneg _ vs) as NV.
    destruct vs as [|mv vs].
    + cbn [h_batch]. rewrite !zlen_nil. unfold h_count. cbn [h_recent h_counted]. split; [auto|]. split; [destruct (b_verdict _ _ _ _ _); lia|]. split; [lia|]. split; [lia|]. intros _. destruct (b_verdict _ _ _ _ _); lia.
    + pose proof (verdict_batch sc d t (mv :: vs) h Hs ltac:(left; discriminate)) as V.
      destruct (h_batch sc d t (mv :: vs) h) as [h' ok] eqn:E. cbn [fst snd] in *. destruct ok.
      * rewrite (proj2 V eq_refl). unfold h_count. cbn [h_recent h_counted]. rewrite B3, B1 by reflexivity. split; [exact B4|]. repeat split; try lia; discriminate.
      * destruct (b_verdict sc h d t (mv :: vs)); [exfalso; destruct V as [V _]; specialize (V eq_refl); discriminate| |]; (split; [exact B4|]); (repeat split; try lia; try discriminate).
  - repeat split; auto; try lia; try discriminate.
Qed.
Lemma capacity_ge : forall L, 100 <= capacity L.
Proof. intros. unfold capacity. lia. Qed.
Definition bounded (sc : schema) (L : Z) (u : Z) (s : session) : Prop :=
  declared_points sc (h_recent (ss_hist s)) /\ 0 <= h_counted (ss_hist s) <= zlen (h_recent (ss_hist s)) /\
  zlen (h_recent (ss_hist s)) - h_counted (ss_hist s) <= u /\ 0 <= ss_next s <= capacity L /\ 0 <= u /\
  zlen (h_recent (ss_hist s)) <= capacity L + u.
Lemma call_bounded : forall snap sc L u s o, schema_ok sc -> uncompressed sc L -> 0 < L -> bounded sc L u s ->
  bounded sc L (u + refused_call sc o (ss_hist s)) (session_call snap sc s o).
Proof.
  intros snap sc L u s o Hs U HL (D & C & R & N & U0 & B). pose proof (call_buffer sc o (ss_hist s) Hs) as (D' & Q & M & G1 & G2). unfold session_call.
  set (h := h_call sc o (ss_hist s)) in *. specialize (D' D). pose proof (memory_ge snap sc L (h_recent h) U ltac:(lia) D') as MG. pose proof (capacity_ge L) as CG.
  destruct (call_ok sc o (ss_hist s)) eqn:OK; cbn [andb].
  - specialize (G1 eq_refl). clear G2. assert (Q0 : refused_call sc o (ss_hist s) = 0) by (unfold refused_call; destruct o; auto; rewrite OK; reflexivity). rewrite Q0, Z.add_0_r.
    destruct (ss_next s <=? h_counted h) eqn:K; [|unfold bounded; cbn [ss_hist ss_next]; repeat split; auto; lia].
    set (mem := memory snap sc (h_recent h)) in *.
    assert (NX : 0 <= (ss_next s * 2 ^ 27 / mem) mod 2 ^ 32 <= capacity L).
    { split; [apply Z.mod_pos_bound; lia|]. destruct (Z.eq_dec mem 0) as [Z0|Z0]; [rewrite Z0, Zdiv_0_r; cbn; lia|].
      assert (P : 0 < mem) by (pose proof (zlen_nonneg _ (h_recent h)); nia).
      etransitivity; [apply Z.mod_le; [apply Z.div_pos; lia|lia]|]. unfold capacity. etransitivity; [|apply Z.le_max_r].
      apply Z.div_le_lower_bound; [lia|]. assert (E : mem * (ss_next s * 2 ^ 27 / mem) <= ss_next s * 2 ^ 27) by (apply Z.mul_div_le; lia). set (q := ss_next s * 2 ^ 27 / mem) in *.
      assert (F : L * ss_next s <= 129 * mem) by nia. assert (0 <= q) by (apply Z.div_pos; lia). nia. }
    destruct ((2 ^ 27 <? mem) && (0 <? h_counted h)) eqn:F; unfold bounded; cbn [ss_hist ss_next h_flush h_recent h_counted].
    + rewrite zlen_nil. repeat split; auto; try lia. constructor.
    + repeat split; auto; try lia. destruct (0 <? h_counted h) eqn:H0; [|lia]. assert (mem <= 2 ^ 27) by (apply andb_false_iff in F; destruct F as [F|F]; [lia|discriminate]).
      assert (X : zlen (h_recent h) <= 129 * 2 ^ 27 / L) by (apply Z.div_le_lower_bound; nia). unfold capacity. lia.
  - destruct (G2 eq_refl) as [E1 E2]. unfold bounded. cbn [ss_hist ss_next]. repeat split; auto; lia.
Qed.
Lemma refused_nonneg : forall snap sc ops s, 0 <= refused_from snap sc s ops.
Proof.
  intros snap sc ops. induction ops as [|o ops IH]; intros s; cbn [refused_from]; [lia|]. specialize (IH (session_call snap sc s o)). destruct o as [| d t vs |]; try lia. destruct (call_ok _ _ _); pose proof (zlen_nonneg _ vs); lia.
Qed.
Lemma run_bounded : forall snap sc L ops u s, schema_ok sc -> uncompressed sc L -> 0 < L -> bounded sc L u s ->
  bounded sc L (u + refused_from snap sc s ops) (fold_left (session_call snap sc) ops s).
Proof.
  intros snap sc L ops. induction ops as [|o ops IH]; intros u s Hs U HL B; cbn [refused_from fold_left]; [rewrite Z.add_0_r; exact B|].
  pose proof (call_bounded snap sc L u s o Hs U HL B) as C. specialize (IH _ _ Hs U HL C). fold (refused_call sc o (ss_hist s)). rewrite Z.add_assoc. exact IH.
Qed.
Lemma new_bounded : forall sc L, bounded sc L 0 session_new.
Proof. intros sc L. pose proof (capacity_ge L). unfold bounded, session_new, h_new. cbn [ss_hist ss_next h_recent h_counted]. rewrite zlen_nil. repeat split; try lia. constructor. Qed.
Lemma buffer_bounded : forall snap sc L ops, schema_ok sc -> uncompressed sc L -> 0 < L ->
  zlen (h_recent (ss_hist (session_of snap sc ops))) <= capacity L + refused snap sc ops /\ 0 <= ss_next (session_of snap sc ops) <= capacity L.
Proof.
  intros snap sc L ops Hs U HL. pose proof (run_bounded snap sc L ops 0 session_new Hs U HL (new_bounded sc L)) as (_ & _ & _ & N & _ & B). rewrite Z.add_0_l in B. split; [exact B|exact N].
Qed.

(** * Sessions that are ample *)
Lemma refused_app : forall snap sc a b s, refused_from snap sc s (a ++ b) = refused_from snap sc s a + refused_from snap sc (fold_left (session_call snap sc) a s) b.
Proof. intros snap sc a. induction a as [|o a IH]; intros b s; cbn [app refused_from fold_left]; [lia|]. rewrite IH. lia. Qed.
Lemma flushes_mono : forall sc m n, 150 * series_count sc < 2 ^ 27 -> m <= n -> most_flushes sc m <= most_flushes sc n.
Proof. intros sc m n S H. unfold most_flushes. apply Z.add_le_mono_r, Z.div_le_mono; lia. Qed.
Lemma ample_of : forall snap sc L ops B, schema_ok sc -> uncompressed sc L -> 0 < L -> Forall (fun o => op_points o <= B) ops -> 0 <= B ->
  150 * series_count sc < 2 ^ 27 ->
  24 * (capacity L + refused snap sc ops + B) + (most_flushes sc (zsum (map op_points ops)) + 1) * per_flush sc + per_file sc < 2 ^ 32 -> ample snap sc ops.
Proof.
  intros snap sc L ops B Hs U HL F B0 S K. pose proof (per_flush_series sc) as [S0 PF]. pose proof (per_file_pos sc) as PP. pose proof (points_nonneg ops) as PN.
  assert (MF : 1 <= most_flushes sc (zsum (map op_points ops))). { unfold most_flushes. assert (0 <= 24 * zsum (map op_points ops) / (2 ^ 27 - 150 * series_count sc)) by (apply Z.div_pos; lia). lia. }
  split; [exact S|]. split.
  - intros a o b E. pose proof (buffer_bounded snap sc L a Hs U HL) as [Q _]. unfold refused in *. rewrite E, refused_app in K. pose proof (refused_nonneg snap sc (o :: b) (fold_left (session_call snap sc) a session_new)) as RN.
    rewrite <- E in K. rewrite E in F. apply Forall_app in F. destruct F as [_ F]. apply Forall_inv in F. nia.
  - pose proof (buffer_bounded snap sc L ops Hs U HL) as [Q _]. lia.
Qed.

(** * Least size of the file *)
Lemma chunks_ge : forall snap L d pts g, Forall (fun kv : list Z * mschema => ms_comp (snd kv) = UNCOMPRESSED /\ L <= least_bytes (snd kv)) g ->
  L * zsum (map (fun kv => zlen (series_of d (fst kv) pts)) g) <=
  129 * zlen (data_bytes snap (concat (map (fun ms => match series_of d (fst ms) pts with [] => [] | l => [Chunk d (fst ms) (snd ms) l] end) g))).
Proof.
  intros snap L d pts g F. unfold data_bytes. induction F as [|[m ms] g [U1 U2] F IH]; [change (L * 0 <= 129 * 0); lia|]. cbn [map concat]. rewrite zsum_cons, map_app, concat_app, zlen_app. cbn [fst snd] in *.
  destruct (series_of d m pts) as [|q l] eqn:E; [cbn [map concat]; rewrite !zlen_nil; lia|]. cbn [map concat piece_bytes]. rewrite app_nil_r. pose proof (chunk_ge snap m ms (q :: l) U1). pose proof (zlen_nonneg _ (q :: l)). nia.
Qed.
Lemma flush_ge : forall snap sc L pts, schema_ok sc -> uncompressed sc L -> 0 <= L -> declared_points sc pts ->
  L * zlen pts <= 129 * zlen (data_bytes snap (flush_pieces sc pts)).
Proof.
  intros snap sc L pts Hs U HL D. pose proof (lengths_ge sc pts D) as G. assert (X : L * lengths sc pts <= 129 * zlen (data_bytes snap (flush_pieces sc pts))); [|nia].
  unfold lengths. rewrite <- (perm_sum _ _ _ _ (by_name_permutation _ sc)). unfold flush_pieces.
  assert (F : Forall (fun dg => Forall (fun kv : list Z * mschema => ms_comp (snd kv) = UNCOMPRESSED /\ L <= least_bytes (snd kv)) (snd dg)) (by_name sc)).
  { apply Forall_forall. intros [d g] I. apply Forall_forall. intros [m ms] J. apply (U d m ms). exists g. split; [|exact J]. eapply Permutation_in; [apply by_name_permutation|exact I]. }
  unfold data_bytes. induction F as [|[d g] l F1 F IH]; [change (L * 0 <= 129 * 0); lia|]. cbn [map concat]. rewrite zsum_cons, map_app, concat_app, zlen_app. cbn [fst snd] in *.
  assert (C : L * zsum (map (fun kv => zlen (series_of d (fst kv) pts)) g) <= 129 * zlen (concat (map (piece_bytes snap) (group_pieces pts d g)))); [|lia].
  unfold group_pieces. cbn [map concat]. rewrite zlen_app. rewrite <- (perm_sum _ _ _ _ (by_name_permutation _ g)).
  pose proof (chunks_ge snap L d pts (by_name g)) as C. unfold data_bytes in C. pose proof (zlen_nonneg _ (piece_bytes snap (Header d))).
  assert (FG : Forall (fun kv : list Z * mschema => ms_comp (snd kv) = UNCOMPRESSED /\ L <= least_bytes (snd kv)) (by_name g)) by (eapply Permutation_Forall; [apply Permutation_sym, by_name_permutation|exact F1]).
  specialize (C FG). lia.
Qed.
Lemma open_ge : forall snap sc L flushes, schema_ok sc -> uncompressed sc L -> 0 <= L -> declared_points sc (concat flushes) ->
  L * zlen (concat flushes) <= 129 * zlen (open_file snap sc flushes).
Proof.
  intros snap sc L flushes Hs U HL D. unfold open_file. rewrite !zlen_app. pose proof (zlen_nonneg _ magic). pose proof (zlen_nonneg _ [3]).
  assert (X : L * zlen (concat flushes) <= 129 * zlen (data_bytes snap (pieces sc flushes))); [|lia]. unfold pieces, data_bytes.
  induction flushes as [|pts flushes IH]; [change (L * 0 <= 129 * 0); lia|]. cbn [map concat] in *. apply Forall_app in D. destruct D as [D1 D2]. rewrite map_app, concat_app, !zlen_app. specialize (IH D2).
  pose proof (flush_ge snap sc L pts Hs U HL D1) as F. unfold data_bytes in F. lia.
Qed.
Lemma call_flushed : forall sc o h, h_flushed (h_call sc o h) = h_flushed h.
Proof.
  intros sc o h.
  assert (A : forall d t vs h, h_flushed (fst (h_batch sc d t vs h)) = h_flushed h).
  { intros d t vs. induction vs as [|[m v] vs IH]; intros h'; cbn [h_batch fst]; auto. destruct (admits sc h' d m t); cbn [fst]; auto. rewrite IH. reflexivity. }
  destruct o as [d m t v|d t vs|ord]; cbn [h_call]; auto. { destruct (admits sc h d m t); reflexivity. }
  specialize (A d t vs h). destruct (h_batch sc d t vs h) as [h' ok]. cbn [fst] in A. destruct ok; auto.
Qed.
Lemma session_declared : forall snap sc ops, schema_ok sc -> declared_points sc (h_all (ss_hist (session_of snap sc ops))).
Proof.
  intros snap sc ops Hs. induction ops as [|o ops IH] using rev_ind; [constructor|]. rewrite session_snoc. set (s := session_of snap sc ops) in *. unfold session_call.
  assert (D : declared_points sc (h_all (h_call sc o (ss_hist s)))).
  { unfold h_all in *. apply Forall_app in IH. destruct IH as [I1 I2]. apply Forall_app. split; [rewrite call_flushed; exact I1|]. apply (call_buffer sc o (ss_hist s) Hs). exact I2. }
  destruct (_ && _); [|exact D]. destruct (_ && _); [|exact D]. cbn [ss_hist]. unfold h_all, h_flush in *. cbn [h_flushed h_recent]. rewrite app_nil_r. exact D.
Qed.

(** * Writers *)
Lemma writer_buffer : forall p snap decomp sc L w h ops l, good_snap snap decomp -> schema_ok sc -> uncompressed sc L -> 0 < L ->
  trace p snap sc w h ops l -> ops_ok ops -> no_close ops = true -> roomy snap sc ops ->
  zlen (h_recent h) <= capacity L + refused snap sc ops /\ w_next_check w <= capacity L.
Proof.
  intros p snap decomp sc L w h ops l HG Hs U HL T O NC B. destruct (flush_points_large p snap decomp sc w h ops l HG Hs T O NC B) as (E & _ & N). rewrite E, N.
  pose proof (buffer_bounded snap sc L ops Hs U HL). lia.
Qed.
Lemma writer_least : forall p snap decomp sc L w h ops l, good_snap snap decomp -> schema_ok sc -> uncompressed sc L -> 0 < L ->
  trace p snap sc w h ops l -> ops_ok ops -> no_close ops = true -> roomy snap sc ops -> modest p snap sc ops ->
  L * (zlen (h_all h) - capacity L - refused snap sc ops) <= 129 * zlen (file_bytes w).
Proof.
  intros p snap decomp sc L w h ops l HG Hs U HL T O NC B M. rewrite (open_bytes_large p snap decomp HG sc Hs w h ops l T O NC B M).
  destruct (flush_points_large p snap decomp sc w h ops l HG Hs T O NC B) as (E & F & _). pose proof (writer_buffer p snap decomp sc L w h ops l HG Hs U HL T O NC B) as [R _].
  pose proof (session_declared snap sc ops Hs) as D. rewrite <- E in D. unfold h_all in *. apply Forall_app in D. destruct D as [D _]. rewrite F in D. rewrite zlen_app, F.
  pose proof (open_ge snap sc L (ss_flushes (session_of snap sc ops)) Hs U ltac:(lia) D). nia.
Qed.
Lemma final_points : forall snap sc ops x, In x (concat (final_flushes (session_of snap sc ops))) -> In x (h_all (ss_hist (session_of snap sc ops))).
Proof.
  intros snap sc ops x. unfold final_flushes, h_all. rewrite concat_app, session_flushed, !in_app_iff. destruct (0 <? _); cbn [concat]; rewrite ?app_nil_r; cbn [In]; tauto.
Qed.
Lemma closed_least : forall p snap decomp sc L out w0 ops ord w l, good_snap snap decomp -> schema_ok sc -> uncompressed sc L -> 0 < L ->
  writer_new sc (sink_new healthy) = (out, Some w0) -> run p snap w0 (ops ++ [OpClose ord]) = Ret (w, l) -> ops_ok ops -> no_close ops = true ->
  roomy snap sc ops -> modest p snap sc (ops ++ [OpClose ord]) -> good_order ord ->
  no_dots sc -> small_devices sc -> byte_names sc -> short_paths sc ->
  L * zlen (concat (final_flushes (session_of snap sc ops))) <= 129 * zlen (file_bytes w).
Proof.
  intros p snap decomp sc L out w0 ops ord w l HG Hs U HL N R O NC B M GO ND SD BN SP.
  destruct (closed_run_large p snap decomp sc out w0 ops ord w l HG Hs N R O NC B M GO ND SD BN SP) as (nodes & _ & ->).
  unfold closed_file. cbv zeta. rewrite !zlen_app. set (x := open_file _ _ _). pose proof (open_ge snap sc L (final_flushes (session_of snap sc ops)) Hs U ltac:(lia)) as G. fold x in G.
  assert (D : declared_points sc (concat (final_flushes (session_of snap sc ops)))).
  { apply Forall_forall. intros q I. apply final_points in I. pose proof (session_declared snap sc ops Hs) as D. unfold declared_points in D. rewrite Forall_forall in D. auto. }
  specialize (G D). repeat match goal with |- context [zlen ?y] => lazymatch goal with H : 0 <= zlen y |- _ => fail | _ => pose proof (zlen_nonneg _ y) end end. lia.
Qed.
