(** The index nodes of devices with any number of records (C72). *)
From Verif Require Export PDotsClose PDeepFile SMany.
Ltac Zify.zify_post_hook ::= idtac.

(** ** [generate_root_node] *)
Definition first_name (n : index_node) : list Z := match in_children n with c :: _ => ie_name c | [] => [] end.
Definition level (pos : Z) (fs : list (list Z)) : list index_entry := map (fun f => mkIE f pos) fs.
Lemma round_open : forall pos t e n q2 rest cs, length q2 = n -> Forall has_child q2 -> (length cs + n <= 256)%nat ->
  root_round 256 pos n (rest ++ q2) (mkIN cs e t) = Ret (rest, mkIN (cs ++ level pos (rev (map first_name q2))) e t).
Proof.
  intros pos t e. induction n as [|n IH]; intros q2 rest cs L F B.
  - destruct q2; [|discriminate]. cbn [root_round map rev level]. rewrite !app_nil_r. reflexivity.
  - assert (N : q2 <> []) by (intros ->; discriminate). destruct (exists_last N) as (q & x & ->). rewrite app_length in L. cbn [length] in L. apply Forall_app in F. destruct F as [F1 F2]. apply Forall_inv in F2.
    cbn [root_round]. rewrite app_assoc, rev_app_distr. cbn [rev app]. unfold has_child in F2.
    destruct (in_children x) as [|c c'] eqn:EX; [congruence|]. rewrite rev_involutive, map_app, rev_app_distr. cbn [map rev app]. replace (first_name x) with (ie_name c) by (unfold first_name; rewrite EX; reflexivity). unfold is_full. cbn [in_children]. destruct (Nat.leb_spec 256 (length cs)) as [Y|Y]; [lia|].
    unfold push_child. cbn [in_children in_end in_type]. rewrite IH; [|lia|exact F1|rewrite app_length; cbn [length]; lia]. rewrite <- app_assoc. reflexivity.
Qed.
Lemma round_full : forall pos n rest x cur, has_child x -> (256 <= length (in_children cur))%nat -> (1 <= n)%nat ->
  exists y z, root_round 256 pos n (rest ++ [x]) cur = Ret (rest ++ [y], z) /\ has_child y /\ has_child z /\ first_name y = first_name cur /\ first_name z = first_name cur.
Proof.
  intros pos. induction n as [|n IH]; intros rest x cur Hx B L; [lia|]. cbn [root_round]. rewrite rev_app_distr. cbn [rev app]. unfold has_child in Hx.
  destruct (in_children x) as [|c c'] eqn:E; [congruence|]. rewrite rev_involutive. unfold is_full. destruct (Nat.leb_spec 256 (length (in_children cur))) as [_|Y]; [|lia].
  set (y0 := with_end pos cur). set (z0 := push_child (mkIE (ie_name c) pos) y0).
  assert (C : in_children cur <> []) by (intros X; rewrite X in B; cbn [length] in B; lia).
  assert (Y0 : has_child y0 /\ first_name y0 = first_name cur) by (split; [exact C|reflexivity]).
  assert (Z0 : has_child z0 /\ first_name z0 = first_name cur /\ (256 <= length (in_children z0))%nat).
  { unfold z0, y0, push_child, has_child, first_name, with_end. cbn [in_children]. rewrite app_length. destruct (in_children cur); [congruence|]. cbn [app length] in *. split; [discriminate|]. split; [reflexivity|lia]. }
  destruct Y0 as [Y1 Y2]. destruct Z0 as (Z1 & Z2 & Z3). destruct n as [|n].
  - exists y0, z0. cbn [root_round]. auto.
  - destruct (IH rest y0 z0 Y1 Z3) as (y & z & R & A & B1 & C1 & D1); [lia|]. exists y, z. rewrite R. rewrite <- Z2. auto.
Qed.
Lemma round_add : forall deg pos a b queue cur r, root_round deg pos a queue cur = Ret r -> root_round deg pos (a + b) queue cur = root_round deg pos b (fst r) (snd r).
Proof.
  intros deg pos. induction a as [|a IH]; intros b queue cur r H; cbn [root_round Nat.add] in *; [rinj H; reflexivity|]. destruct (rev queue) as [|node rest]; [discriminate|].
  destruct (in_children node) as [|c c']; [discriminate|]. destruct (is_full deg cur); apply IH; exact H.
Qed.
Lemma top_short : forall l, zlen l <= 256 -> top_names l = rev l.
Proof. intros l H. unfold top_names. destruct (Z.leb_spec (zlen l) 256); [reflexivity|lia]. Qed.
Lemma last_last : forall A (l : list A) x y d, last (l ++ [x; y]) d = y.
Proof. intros. change [x; y] with ([x] ++ [y]). rewrite app_assoc. apply last_last. Qed.
Lemma top_round : forall fs, 256 < zlen fs -> top_names (firstn (Z.to_nat (zlen fs - 257)) fs ++ [last fs []; last fs []]) = top_names fs.
Proof.
  intros fs H. set (e := last fs []). set (g := firstn (Z.to_nat (zlen fs - 257)) fs). assert (G : zlen g = zlen fs - 257) by (unfold g, zlen in *; rewrite firstn_length; lia).
  assert (M : (zlen fs - 255 - 2) mod 255 = (zlen fs - 2) mod 255). { replace (zlen fs - 2) with ((zlen fs - 255 - 2) + 1 * 255) by lia. rewrite Z_mod_plus_full. reflexivity. }
  unfold top_names. rewrite zlen_app, G, last_last. change (zlen [e; e]) with 2. replace (zlen fs - 257 + 2) with (zlen fs - 255) by lia. fold e. destruct (Z.leb_spec (zlen fs) 256); [lia|].
  destruct (Z.leb_spec (zlen fs - 255) 256).
  - rewrite rev_app_distr. cbn [rev app]. do 3 f_equal. unfold g. rewrite <- M, Z.mod_small by lia. f_equal. lia.
  - rewrite M. do 3 f_equal. pose proof (Z.mod_pos_bound (zlen fs - 2) 255 ltac:(lia)) as MB. rewrite firstn_app.
    replace (Z.to_nat ((zlen fs - 2) mod 255) - length g)%nat with 0%nat by (unfold zlen in *; lia). cbn [firstn]. rewrite app_nil_r. unfold g. rewrite firstn_firstn. f_equal. unfold zlen in *. lia.
Qed.
Lemma last_map : forall A B (f : A -> B) l d d', l <> [] -> last (map f l) d' = f (last l d).
Proof. intros A B f l d d' N. destruct (exists_last N) as (r & x & ->). rewrite map_app. cbn [map]. rewrite !List.last_last. reflexivity. Qed.
Lemma root_loop_S : forall deg f pos t queue, generate_root_loop deg (S f) pos t queue =
  if (length queue =? 1)%nat then match queue with n :: _ => Ret n | [] => Panic PUnwrap end
  else bind (root_round deg pos (length queue) queue (index_node_new t)) (fun r => let '(queue', cur) := r in generate_root_loop deg f pos t (queue' ++ [with_end pos cur])).
Proof. reflexivity. Qed.
Lemma root_exact : forall pos t fuel queue, (length queue <= fuel)%nat -> (2 <= length queue)%nat -> Forall has_child queue ->
  generate_root_loop 256 (S fuel) pos t queue = Ret (mkIN (level pos (top_names (map first_name queue))) pos t).
Proof.
  intros pos t. induction fuel as [|fuel IH]; intros queue L G F; [lia|]. rewrite root_loop_S.
  destruct (Nat.eqb_spec (length queue) 1) as [E1|_]; [lia|]. destruct (Nat.leb_spec (length queue) 256) as [SH|SH].
  - pose proof (round_open pos t 0 (length queue) queue [] [] eq_refl F) as R. cbn [app length] in R. specialize (R ltac:(lia)). change (index_node_new t) with (mkIN [] 0 t). rewrite R. cbn [bind app].
    rewrite root_loop_S. cbn [length Nat.eqb app]. unfold with_end. cbn [in_children in_type]. rewrite top_short by (unfold zlen; rewrite map_length; lia). reflexivity.
  - set (n := length queue) in *. set (q2 := skipn (n - 256) queue). set (q1 := firstn (n - 256) queue).
    assert (EQ : queue = q1 ++ q2) by (symmetry; apply firstn_skipn). assert (L2 : length q2 = 256%nat) by (unfold q2; rewrite skipn_length; fold n; lia). assert (L1 : length q1 = (n - 256)%nat) by (unfold q1; rewrite firstn_length; fold n; lia).
    rewrite EQ in F. apply Forall_app in F. destruct F as [F1 F2]. pose proof (round_open pos t 0 256 q2 q1 [] L2 F2) as R. cbn [app] in R. specialize (R ltac:(cbn [length]; lia)).
    assert (NE : q1 <> []) by (intros X; rewrite X in L1; cbn [length] in L1; lia). destruct (exists_last NE) as (q0 & x & E0). rewrite E0 in *. apply Forall_app in F1. destruct F1 as [F0 Fx]. apply Forall_inv in Fx.
    set (c0 := mkIN (level pos (rev (map first_name q2))) 0 t) in *. assert (LC : (256 <= length (in_children c0))%nat) by (unfold c0, level; cbn [in_children]; rewrite map_length, rev_length, map_length; lia).
    destruct (round_full pos (n - 256) q0 x c0 Fx LC ltac:(lia)) as (y & z & R2 & Y1 & Z1 & Y2 & Z2).
    pose proof (round_add 256 pos 256 (n - 256) _ _ _ R) as RA. cbn [fst snd] in RA. rewrite R2 in RA. replace (256 + (n - 256))%nat with n in RA by lia. rewrite EQ. change (index_node_new t) with (mkIN [] 0 t).
    rewrite RA. cbn [bind]. rewrite app_length in L1. cbn [length] in L1.
    rewrite IH.
    + f_equal. f_equal. f_equal.
      assert (MQ : map first_name ((q0 ++ [y]) ++ [with_end pos z]) = map first_name q0 ++ [first_name c0; first_name c0]).
      { rewrite <- app_assoc. cbn [app]. rewrite map_app. cbn [map]. change (first_name (with_end pos z)) with (first_name z). rewrite Y2, Z2. reflexivity. }
      rewrite MQ.
      assert (FC : first_name c0 = last (map first_name ((q0 ++ [x]) ++ q2)) []).
      { assert (N2 : q2 <> []) by (intros X; rewrite X in L2; discriminate). destruct (exists_last N2) as (u & v & ->). unfold c0, first_name at 1, level. cbn [in_children]. rewrite !map_app. cbn [map]. rewrite rev_app_distr. cbn [rev app map ie_name]. rewrite app_assoc, List.last_last. reflexivity. }
      rewrite FC. set (fs := map first_name ((q0 ++ [x]) ++ q2)). assert (LF : zlen fs = Z.of_nat n) by (unfold fs, zlen; rewrite map_length, !app_length; cbn [length]; lia).
      rewrite <- (top_round fs) by lia. f_equal. f_equal. replace (Z.to_nat (zlen fs - 257)) with (length q0) by lia.
      unfold fs. rewrite <- app_assoc, firstn_map, firstn_app, Nat.sub_diag. cbn [firstn]. rewrite app_nil_r, firstn_all. reflexivity.
    + rewrite !app_length. cbn [length]. lia.
    + rewrite !app_length. cbn [length]. lia.
    + apply Forall_app. split; [apply Forall_app; split; [exact F0|constructor; [exact Y1|constructor]]|]. constructor; [exact Z1|constructor].
Qed.

(** ** The measurement loop *)
Lemma mloop_app : forall deg a b i cur queue out, measurement_loop deg i (a ++ b) cur queue out =
  let '(c, q, o) := measurement_loop deg i a cur queue out in measurement_loop deg (i + zlen a) b c q o.
Proof.
  intros deg. induction a as [|m a IH]; intros b i cur queue out; cbn [app measurement_loop]; [rewrite zlen_nil, Z.add_0_r; reflexivity|].
  destruct (i mod Z.of_nat deg =? 0); [destruct (is_full deg cur)|]; rewrite IH, zlen_cons, Z.add_assoc; reflexivity.
Qed.
Lemma mloop_shift : forall deg k l i cur queue out, (1 <= deg)%nat -> measurement_loop deg (i + k * Z.of_nat deg) l cur queue out = measurement_loop deg i l cur queue out.
Proof.
  intros deg k. induction l as [|m l IH]; intros i cur queue out D; [reflexivity|]. cbn [measurement_loop]. rewrite Z_mod_plus_full.
  replace (i + k * Z.of_nat deg + 1) with (i + 1 + k * Z.of_nat deg) by lia. destruct (i mod Z.of_nat deg =? 0); [destruct (is_full deg cur)|]; apply IH; exact D.
Qed.
Lemma mloop_next : forall m l cur queue out, (256 <= length (in_children cur))%nat ->
  measurement_loop 256 65536 (m :: l) cur queue out = measurement_loop 256 0 (m :: l) (index_node_new LeafMeasurement) (queue ++ [with_end (sk_pos out) cur]) out.
Proof.
  intros m l cur queue out F. pose proof (mloop_shift 256 256 (m :: l) 0 cur queue out ltac:(lia)) as X. change (0 + 256 * Z.of_nat 256) with 65536 in X. rewrite X. clear X.
  assert (E1 : is_full 256 cur = true) by (apply Nat.leb_le; exact F). assert (E2 : is_full 256 (index_node_new LeafMeasurement) = false) by reflexivity.
  cbn [measurement_loop]. rewrite E1, E2. reflexivity.
Qed.
Lemma cut_full : forall bl, Forall (fun b => b <> []) bl -> cut256 bl -> zlen (concat bl) = 65536 -> zlen bl = 256.
Proof. intros bl _ [C _] E. rewrite E in C. exact C. Qed.
Lemma chop_nil : forall A n, @chop A n [] = [].
Proof. reflexivity. Qed.
Lemma chop_more : forall A n k (a b : list A), (1 <= n)%nat -> length a = (n * k)%nat -> chop n (a ++ b) = chop n a ++ chop n b.
Proof.
  intros A n k. induction k as [|k IH]; intros a b N L; [rewrite Nat.mul_0_r in L; destruct a; [reflexivity|discriminate]|].
  rewrite <- (firstn_skipn n a). assert (LF : length (firstn n a) = n) by (rewrite firstn_length; lia). rewrite <- app_assoc.
  rewrite (chop_app _ n (firstn n a) (skipn n a ++ b)), (chop_app _ n (firstn n a) (skipn n a)) by (exact LF || lia). rewrite IH by (auto; rewrite skipn_length; lia). reflexivity.
Qed.
Lemma chop_more_z : forall A n k (a b : list A), (1 <= n)%nat -> zlen a = Z.of_nat n * Z.of_nat k -> chop n (a ++ b) = chop n a ++ chop n b.
Proof. intros A n k a b N L. apply (chop_more A n k a b N). apply Nat2Z.inj. rewrite Nat2Z.inj_mul. exact L. Qed.
Lemma chop_count_gen : forall A k (a : list A), zlen a = 256 * Z.of_nat k -> length (chop 256 a) = k.
Proof.
  intros A. induction k as [|k IH]; intros a L; [destruct a; [reflexivity|rewrite zlen_cons in L; pose proof (zlen_nonneg _ a0); lia]|].
  rewrite Nat2Z.inj_succ in L. unfold zlen in L. rewrite <- (firstn_skipn 256 a). rewrite (chop_app _ 256) by (rewrite ?firstn_length; lia). cbn [length]. f_equal. apply IH. unfold zlen. rewrite skipn_length. lia.
Qed.
Lemma chop_count : forall A (a : list A), zlen a = 65536 -> length (chop 256 a) = 256%nat.
Proof. intros A a L. apply chop_count_gen. exact L. Qed.
Definition leaf_first (leaf : list (list ts_meta)) : list Z := first_id (hd [] leaf).
Lemma leaf_head : forall o bl e t, bl <> [] -> has_child (mkIN (block_entries o bl) e t) /\ first_name (mkIN (block_entries o bl) e t) = first_id (hd [] bl).
Proof. intros o [|b bl] e t N; [congruence|]. split; [discriminate|reflexivity]. Qed.
Lemma mloop_many : forall k l q out cur' queue' out', (length l <= k)%nat -> l <> [] -> is_healthy out ->
  measurement_loop 256 0 l (index_node_new LeafMeasurement) q out = (cur', queue', out') ->
  exists leaves, queue' ++ [with_end (sk_pos out') cur'] = q ++ leaves /\ map first_name leaves = map leaf_first (chop 256 (chop 256 l)) /\ Forall has_child leaves /\ sk_ext out out' (tbytes l) /\
    (zlen l <= 65536 -> exists bl, leaves = [leaf_node (sk_pos out) bl] /\ concat bl = l /\ Forall (fun b => b <> []) bl /\ cut256 bl /\ zlen bl <= 256) /\ (65536 < zlen l -> (2 <= length leaves)%nat).
Proof.
  induction k as [|k IH]; intros l q out cur' queue' out' LK NE Hh H; [destruct l; [congruence|cbn [length] in LK; lia]|].
  assert (KZ : exists K, Z.of_nat K = 65536) by (exists (Z.to_nat 65536); apply Z2Nat.id; discriminate). destruct KZ as (K & KZ).
  set (a := firstn K l). set (b := skipn K l). assert (EL : l = a ++ b) by (symmetry; apply firstn_skipn).
  assert (LA : zlen a = Z.min 65536 (zlen l)) by (unfold a, zlen; rewrite firstn_length; lia).
  assert (LB : length b = (length l - K)%nat) by (unfold b; apply skipn_length). clearbody a b.
  rewrite EL, mloop_app in H. destruct (measurement_loop 256 0 a (index_node_new LeafMeasurement) q out) as [[cur1 q1] out1] eqn:E.
  change (index_node_new LeafMeasurement) with (mkIN (block_entries (sk_pos out) []) 0 LeafMeasurement) in E.
  destruct (mloop_spec a 0 (sk_pos out) [] 0 LeafMeasurement q out cur1 q1 out1 Hh) as (bl & B1 & B2 & B3 & B4 & B5 & B6 & B7);
    [lia|lia|apply Forall_nil|cbn [concat]; change (tbytes []) with (@nil Z); rewrite zlen_nil; lia|reflexivity|split; [reflexivity|constructor]|exact E|]. cbn [concat app] in B3. clear E. subst q1.
  assert (NA : a <> []). { intros X. rewrite X, zlen_nil in LA. destruct l; [congruence|]. rewrite zlen_cons in LA. pose proof (zlen_nonneg _ l). lia. }
  assert (NB : bl <> []) by (intros X; rewrite X in B3; cbn [concat] in B3; congruence).
  pose proof (cut256_chop bl B4 B7) as CB. rewrite B3 in CB.
  destruct (leaf_head (sk_pos out) bl 0 LeafMeasurement NB) as [HC HF]. rewrite <- B1 in HC, HF.
  destruct b as [|m b].
  - cbn [measurement_loop] in H. injection H as <- <- <-. rewrite app_nil_r in EL. subst l. exists [with_end (sk_pos out1) cur1]. split; [reflexivity|].
    split; [|split; [constructor; [exact HC|constructor]|split; [exact B5|]]].
    + rewrite <- CB, (chop_short _ 256 bl NB) by (unfold zlen in B6; lia). cbn [map]. f_equal. exact HF.
    + split; [|intros X; lia]. intros _. exists bl. split; [|auto]. f_equal. rewrite B1. unfold with_end, leaf_node. cbn [in_children in_type]. rewrite B3, (se_pos _ _ _ B5). reflexivity.
  - assert (F : zlen a = 65536). { rewrite LA. cbn [length] in LB. unfold zlen. lia. }
    pose proof (cut_full bl B4 B7 ltac:(rewrite B3; exact F)) as BL. rewrite F in H. change (0 + 65536) with 65536 in H.
    rewrite mloop_next in H by (rewrite B1; cbn [in_children]; rewrite block_entries_length; unfold zlen in BL; lia).
    destruct (IH (m :: b) _ out1 cur' queue' out' ltac:(lia) ltac:(discriminate) (sk_ext_healthy _ _ _ B5 Hh) H) as (lv & C1 & C2 & C3 & C4 & C5 & C6).
    exists (with_end (sk_pos out1) cur1 :: lv). split; [rewrite C1, <- app_assoc; reflexivity|].
    split; [|split; [constructor; [exact HC|exact C3]|split; [rewrite EL, tbytes_app; exact (sk_ext_trans _ _ _ _ _ B5 C4)|]]].
    + rewrite EL, (chop_more_z _ 256 256 a (m :: b)) by (exact F || lia). rewrite <- CB. rewrite (chop_app _ 256 bl) by (unfold zlen in BL; lia). cbn [map]. rewrite C2. f_equal. exact HF.
    + assert (65536 < zlen l) by (rewrite EL, zlen_app, zlen_cons, F; pose proof (zlen_nonneg _ b); lia). split; [lia|]. intros _. cbn [length].
      destruct lv; [|cbn [length]; lia]. exfalso. apply (f_equal (@length _)) in C2. cbn [map length] in C2. rewrite map_length in C2. unfold chop in C2. cbn [length chop_fuel] in C2. discriminate.
Qed.

(** ** The device loop *)
Lemma leaf_names_rows : forall l, leaf_names (map row_of l) = map leaf_first (chop 256 (chop 256 l)).
Proof.
  intros l. unfold leaf_names. rewrite !chop_map, !map_map. apply map_ext. intros [|[|m b] leaf]; reflexivity.
Qed.
Lemma chop_fuel_in : forall A n f (l b : list A) x, In b (chop_fuel f n l) -> In x b -> In x l.
Proof.
  intros A n. induction f as [|f IH]; intros l b x J K; [destruct J|]. destruct l as [|y l]; [destruct J|]. cbn [chop_fuel] in J. rewrite <- (firstn_skipn n (y :: l)). apply in_or_app. destruct J as [<-|J]; [left; exact K|right; exact (IH _ _ _ J K)].
Qed.
Lemma chop_in : forall A n (l b : list A) x, In b (chop n l) -> In x b -> In x l.
Proof. intros A n l. apply chop_fuel_in. Qed.
Lemma leaf_first_short : forall l, Forall (fun tm => zlen (tm_id tm) < 2 ^ 31) l -> Forall (fun n => zlen n < 2 ^ 31) (map leaf_first (chop 256 (chop 256 l))).
Proof.
  intros l F. rewrite Forall_map. apply Forall_forall. intros leaf J. unfold leaf_first, first_id. destruct leaf as [|[|m b] leaf]; [rewrite zlen_nil; lia|cbn [hd]; rewrite zlen_nil; lia|]. cbn [hd].
  rewrite Forall_forall in F. apply F. apply (chop_in _ 256 l (m :: b)); [|left; reflexivity]. apply (chop_in _ 256 _ ((m :: b) :: leaf)); [exact J|left; reflexivity].
Qed.
Lemma top_in : forall l n, l <> [] -> In n (top_names l) -> In n l.
Proof.
  intros l n N J. unfold top_names in J. destruct (_ <=? _); [apply in_rev; exact J|]. assert (L : In (last l []) l) by (destruct (exists_last N) as (r & x & ->); rewrite List.last_last; apply in_or_app; right; left; reflexivity).
  destruct J as [<-|[<-|J]]; [exact L|exact L|]. apply in_rev in J. rewrite <- (firstn_skipn (Z.to_nat ((zlen l - 2) mod 255)) l). apply in_or_app. left. exact J.
Qed.
Lemma top_size : forall l, zlen (top_names l) <= 256.
Proof.
  intros l. unfold top_names. destruct (Z.leb_spec (zlen l) 256); [unfold zlen in *; rewrite rev_length; assumption|]. rewrite !zlen_cons. unfold zlen at 1. rewrite rev_length, firstn_length.
  pose proof (Z.mod_pos_bound (zlen l - 2) 255 ltac:(lia)). lia.
Qed.
Lemma device_loop_many : forall tsm out imap out', is_healthy out -> no_empty tsm -> Forall (fun dl => Forall (fun tm => zlen (tm_id tm) < 2 ^ 31) (snd dl)) tsm ->
  device_loop 256 tsm out = Ret (imap, out') ->
  map nrow imap = record_nodes (sk_pos out) (map dev_rows tsm) /\ sk_ext out out' (concat (map (fun dr => rows_bytes (snd dr)) (map dev_rows tsm))).
Proof.
  induction tsm as [|[d l] tsm IH]; intros out imap out' Hh NE F H; cbn [device_loop] in H.
  - rinj H. split; [constructor|apply sk_ext_refl].
  - pose proof (Forall_inv F) as F2. apply Forall_inv_tail in F. pose proof (Forall_inv NE) as NE1. apply Forall_inv_tail in NE. cbn [snd] in F2, NE1. cbn [map concat dev_rows snd fst record_nodes].
    destruct l as [|m l]; [congruence|].
    set (L := m :: l) in *. destruct (measurement_loop 256 0 L (index_node_new LeafMeasurement) [] out) as [[cur queue] out1] eqn:E.
    destruct (mloop_many (length L) L [] out cur queue out1 (le_n _) NE1 Hh E) as (leaves & C1 & C2 & C3 & C4 & C5 & C6). clear E. cbn [app] in C1. rewrite C1 in H. clear C1.
    apply bind_ret in H. destruct H as (root & HR & H). apply bind_ret in H. destruct H as ([im o2] & H1 & H). cbn [fst snd] in H. rinj H.
    destruct (IH out1 im out' (sk_ext_healthy _ _ _ C4 Hh) NE F H1) as [A B]. rewrite rows_tbytes. split; [|exact (sk_ext_trans _ _ _ _ _ C4 B)].
    cbn [map]. rewrite A, (se_pos _ _ _ C4). f_equal. unfold nrow. cbn [fst snd]. f_equal. unfold record_node. rewrite rows_tbytes. replace (zlen (map row_of L)) with (zlen L) by (unfold zlen; rewrite map_length; reflexivity).
    destruct (Z.leb_spec (zlen L) 65536) as [S1|S1].
    + destruct (C5 S1) as (bl & -> & D1 & D2 & D3 & D4). cbn [length] in HR. unfold generate_root_node in HR. rewrite root_loop_S in HR. cbn [length Nat.eqb] in HR. rinj HR.
      rewrite leaf_image by (try rewrite D1; auto). rewrite D1, rows_tbytes. reflexivity.
    + unfold generate_root_node in HR. rewrite (root_exact _ _ _ _ (le_n _) (C6 S1) C3) in HR. rinj HR. rewrite leaf_names_rows, C2, (se_pos _ _ _ C4).
      set (fs := map leaf_first (chop 256 (chop 256 L))). assert (NF : fs <> []) by (intros X; unfold fs in X; rewrite <- C2 in X; apply map_eq_nil in X; specialize (C6 S1); rewrite X in C6; cbn [length] in C6; lia).
      rewrite node_image_ok; cbn [in_children in_end in_type].
      * unfold level. rewrite map_map. reflexivity.
      * unfold level. rewrite Forall_map. cbn [ie_name]. apply Forall_forall. intros n J. pose proof (leaf_first_short L F2) as X. rewrite Forall_forall in X. apply X. apply top_in; assumption.
      * unfold level, zlen. rewrite map_length. pose proof (top_size fs) as X. unfold zlen in X. lia.
Qed.

(** ** [end_file] *)
Lemma end_file_raw : forall p ord io io' tsm, (forall l, Permutation (ord l) l) -> is_healthy (io_out io) -> sk_pos (io_out io) = zlen (sk_data (io_out io)) ->
  end_file p ord io = Ret io' ->
  metadata_loop p None (chunk_map (io_groups io)) (io_tsmeta io) = Ret tsm -> no_empty tsm ->
  Forall (fun dl => zlen (fst dl) < 2 ^ 31 /\ Forall (fun tm => zlen (tm_id tm) < 2 ^ 31) (snd dl)) tsm ->
  exists nodes bf bw, Permutation nodes (record_nodes (zlen (sk_data (io_out io)) + 1) (map dev_rows tsm)) /\
    bloom_build p (map fst (chunk_map (io_groups io))) = Ret bf /\ bloom_serialize bf = Ret bw /\
    let head := sk_data (io_out io) ++ [2] ++ concat (map (fun dr => rows_bytes (snd dr)) (map dev_rows tsm)) in
    let o := zlen head in
    let foot := node_image (entries o (map (fun x => [x]) nodes)) (o + zlen (rows_bytes nodes)) 1 ++ digits 8 (zlen (sk_data (io_out io))) ++ wbytes bw in
    sk_data (io_out io') = head ++ rows_bytes nodes ++ foot ++ be_bytes 4 (wrapU 32 (zlen foot)) ++ MAGIC.
Proof.
  intros p ord io io' tsm Ho Hh Hp H HM NE F. unfold end_file in H. cbv zeta in H. rewrite HM in H. cbn [bind] in H.
  apply bind_ret in H. destruct H as ([root o2] & HC & H). cbv beta iota in H.
  apply bind_ret in H. destruct H as (bf & HB & H). apply bind_ret in H. destruct H as (bw & HW & H).
  pose proof (wexec_healthy_fst (WAll [2]) _ Hh) as X0. cbn [wbytes] in X0.
  assert (P0 : sk_pos (fst (wexec (WAll [2]) (io_out io))) = zlen (sk_data (io_out io)) + 1). { rewrite (se_pos _ _ _ X0), Hp. reflexivity. }
  pose proof (sk_ext_healthy _ _ _ X0 Hh) as H0. set (o0 := fst (wexec (WAll [2]) (io_out io))) in *. clearbody o0.
  unfold construct_metadata_index in HC. apply bind_ret in HC. destruct HC as ([imap o1] & D1 & HC). destruct (Nat.leb_spec (length imap) cfg_max_degree_of_index_node) as [LI|LI]; [|discriminate].
  change cfg_max_degree_of_index_node with 256%nat in *.
  destruct (device_entries (ord imap) (index_node_new LeafDevice) o1) as [node o2'] eqn:E. rinj HC.
  destruct (device_loop_many tsm o0 imap o1 H0 NE) as [A B]; [eapply Forall_impl; [|exact F]; cbn; tauto|exact D1|].
  pose proof (sk_ext_healthy _ _ _ B H0) as H1.
  destruct (device_entries_exact _ _ _ _ _ H1 E) as (es & E1 & E2 & E3). cbn [index_node_new in_children in_end in_type app] in E1. subst node.
  pose proof (sk_ext_healthy _ _ _ E3 H1) as H2. set (nodes := map nrow (ord imap)) in *.
  set (root := with_end (sk_pos o2) (mkIN es 0 LeafDevice)) in *.
  assert (PN : Permutation nodes (record_nodes (zlen (sk_data (io_out io)) + 1) (map dev_rows tsm))).
  { rewrite <- P0, <- A. unfold nodes. apply Permutation_map. apply Ho. }
  assert (RI : nbytes root = node_image (entries (sk_pos o1) (map (fun x => [x]) nodes)) (sk_pos o1 + zlen (rows_bytes nodes)) 1).
  { rewrite node_image_ok; cbn [root with_end in_children in_end in_type node_type_code].
    - rewrite E2, (se_pos _ _ _ E3). reflexivity.
    - assert (X : Forall (fun n => zlen n < 2 ^ 31) (map fst (map entry_of es))).
      { rewrite E2. unfold nodes. rewrite entries_names. apply Forall_forall. intros d I. apply in_map_iff in I. destruct I as (x & <- & I).
        apply (Permutation_in _ (Ho imap)) in I. cbn [nrow fst]. destruct (device_loop_ext _ _ _ _ _ H0 D1) as [K _]. rewrite (nonempty_id _ _ NE) in K.
        apply (in_map fst) in I. rewrite K in I. apply in_map_iff in I. destruct I as (y & <- & I). rewrite Forall_forall in F. apply (F _ I). }
      rewrite map_map in X. rewrite Forall_map in X. exact X.
    - assert (Y : length es = length imap).
      { apply (f_equal (@length _)) in E2. rewrite map_length in E2. rewrite E2, <- (map_length fst). unfold nodes. rewrite entries_names, map_length. apply Permutation_length, Ho. }
      unfold zlen. lia. }
  clearbody root.
  pose proof (wexec_healthy_fst (ts_file_metadata_serialize root (sk_pos (io_out io))) o2 H2) as X2. set (q2 := fst (wexec (ts_file_metadata_serialize root (sk_pos (io_out io))) o2)) in *. clearbody q2.
  pose proof (sk_ext_healthy _ _ _ X2 H2) as H2'. pose proof (wexec_healthy_fst bw q2 H2') as X3. set (o3 := fst (wexec bw q2)) in *. clearbody o3.
  pose proof (sk_ext_healthy _ _ _ X3 H2') as H3.
  pose proof (wexec_healthy_fst (WAll (be_bytes 4 (wrapU 32 (sk_pos o3 - sk_pos o2)))) o3 H3) as X4. set (o4 := fst (wexec (WAll (be_bytes 4 (wrapU 32 (sk_pos o3 - sk_pos o2)))) o3)) in *. clearbody o4.
  pose proof (sk_ext_healthy _ _ _ X4 H3) as H4. pose proof (wexec_healthy_fst (WAll MAGIC) o4 H4) as X5. set (o5 := fst (wexec (WAll MAGIC) o4)) in *. clearbody o5.
  rinj H. cbn [io_with_out io_out] in *. cbn [wbytes] in X4, X5.
  exists nodes, bf, bw. split; [exact PN|]. split; [exact HB|]. split; [exact HW|]. cbv zeta.
  set (head := sk_data (io_out io) ++ [2] ++ concat (map (fun dr => rows_bytes (snd dr)) (map dev_rows tsm))).
  assert (HD : sk_data o1 = head). { rewrite (se_data _ _ _ B), (se_data _ _ _ X0). unfold head. rewrite <- app_assoc. reflexivity. }
  assert (HO : sk_pos o1 = zlen head). { rewrite (se_pos _ _ _ B), P0. unfold head. rewrite !zlen_app. change (zlen [2]) with 1. lia. }
  rewrite <- HO, <- RI.
  assert (FT : wbytes (ts_file_metadata_serialize root (sk_pos (io_out io))) ++ wbytes bw = nbytes root ++ digits 8 (zlen (sk_data (io_out io))) ++ wbytes bw).
  { unfold ts_file_metadata_serialize. cbn [wbytes]. rewrite app_nil_r, digits_be, Hp, <- app_assoc. reflexivity. }
  set (foot := nbytes root ++ digits 8 (zlen (sk_data (io_out io))) ++ wbytes bw) in *.
  assert (SZ : sk_pos o3 - sk_pos o2 = zlen foot). { rewrite (se_pos _ _ _ X3), (se_pos _ _ _ X2), <- FT, zlen_app. lia. }
  rewrite (se_data _ _ _ X5), (se_data _ _ _ X4), (se_data _ _ _ X3), (se_data _ _ _ X2), (se_data _ _ _ E3), HD, SZ, <- FT. rewrite <- !app_assoc. reflexivity.
Qed.
Lemma end_file_many : forall p ord io io' tsm, (forall l, Permutation (ord l) l) -> is_healthy (io_out io) -> sk_pos (io_out io) = zlen (sk_data (io_out io)) ->
  end_file p ord io = Ret io' -> brief (sk_data (io_out io)) (sk_data (io_out io')) ->
  metadata_loop p None (chunk_map (io_groups io)) (io_tsmeta io) = Ret tsm -> no_empty tsm ->
  Forall (fun dl => zlen (fst dl) < 2 ^ 31 /\ Forall (fun tm => zlen (tm_id tm) < 2 ^ 31) (snd dl)) tsm ->
  exists nodes bf bw, Permutation nodes (record_nodes (zlen (sk_data (io_out io)) + 1) (map dev_rows tsm)) /\
    bloom_build p (map fst (chunk_map (io_groups io))) = Ret bf /\ bloom_serialize bf = Ret bw /\
    let head := sk_data (io_out io) ++ [2] ++ concat (map (fun dr => rows_bytes (snd dr)) (map dev_rows tsm)) in
    let o := zlen head in
    let foot := node_image (entries o (map (fun x => [x]) nodes)) (o + zlen (rows_bytes nodes)) 1 ++ digits 8 (zlen (sk_data (io_out io))) ++ wbytes bw in
    sk_data (io_out io') = head ++ rows_bytes nodes ++ foot ++ digits 4 (zlen foot) ++ magic.
Proof.
  intros p ord io io' tsm Ho Hh Hp H [L _] HM NE F. destruct (end_file_raw p ord io io' tsm Ho Hh Hp H HM NE F) as (nodes & bf & bw & A & B & C & D). exists nodes, bf, bw. split; [exact A|]. split; [exact B|]. split; [exact C|]. cbv zeta in *.
  set (rows := concat (map (fun dr => rows_bytes (snd dr)) (map dev_rows tsm))) in *. set (head := sk_data (io_out io) ++ [2] ++ rows) in *.
  set (foot := node_image (entries (zlen head) (map (fun x => [x]) nodes)) (zlen head + zlen (rows_bytes nodes)) 1 ++ digits 8 (zlen (sk_data (io_out io))) ++ wbytes bw) in *. clearbody foot.
  rewrite D in *. unfold head in L at 1. rewrite !zlen_app in L. pose proof (zlen_nonneg _ [2]). pose proof (zlen_nonneg _ rows). pose proof (zlen_nonneg _ foot). pose proof (zlen_nonneg _ head). pose proof (zlen_nonneg _ (rows_bytes nodes)).
  pose proof (zlen_nonneg _ (be_bytes 4 (wrapU 32 (zlen foot)))). pose proof (zlen_nonneg _ MAGIC). rewrite wrapU_small by lia. rewrite digits_be. reflexivity.
Qed.
