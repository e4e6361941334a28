(** What a reader finds through the index of a closed file (C17, C20, C24). *)
From Verif Require Export PLookup.
From Coq Require Import Permutation.
Ltac Zify.zify_post_hook ::= idtac.

Lemma all_some_F2 : forall A B (f : A -> option B) l r, Forall2 (fun a b => f a = Some b) l r -> all_some (map f l) = Some r.
Proof. intros A B f l r F. induction F as [|a b l r E F IH]; auto. cbn [map all_some]. rewrite E, IH. auto. Qed.
Lemma F2_map_l : forall A B C (P : C -> B -> Prop) (f : A -> C) l m, Forall2 (fun a b => P (f a) b) l m -> Forall2 P (map f l) m.
Proof. intros A B C P f l m F. induction F; cbn [map]; constructor; auto. Qed.
Lemma F2_ex : forall A B (P : A -> B -> Prop) l, (forall a, In a l -> exists b, P a b) -> exists m, Forall2 P l m.
Proof.
  intros A B P l. induction l as [|a l IH]; intros H; [exists []; constructor|]. destruct (H a (or_introl eq_refl)) as (b & Pb).
  destruct IH as (m & Fm). { intros x I. apply H. right. auto. } exists (b :: m). constructor; auto.
Qed.
Lemma F2_filter : forall A B (P : A -> B -> Prop) (f : A -> bool) (g : B -> bool) l m, (forall a b, P a b -> f a = g b) ->
  Forall2 P l m -> Forall2 P (filter f l) (filter g m).
Proof. intros A B P f g l m H F. induction F as [|a b l m X F IH]; cbn [filter]; [constructor|]. rewrite (H a b X). destruct (g b); auto. Qed.
Lemma F2_in_l : forall A B (P : A -> B -> Prop) l m a, Forall2 P l m -> In a l -> exists b, In b m /\ P a b.
Proof.
  intros A B P l m a F I. induction F as [|x y l m X F IH]; [destruct I|]. destruct I as [->|I]; [exists y; split; auto; left; auto|].
  destruct (IH I) as (b & I' & X'). exists b. split; auto. right. auto.
Qed.
Lemma F2_in_r : forall A B (P : A -> B -> Prop) l m b, Forall2 P l m -> In b m -> exists a, In a l /\ P a b.
Proof.
  intros A B P l m b F I. induction F as [|x y l m X F IH]; [destruct I|]. destruct I as [->|I]; [exists x; split; auto; left; auto|].
  destruct (IH I) as (a & I' & X'). exists a. split; auto. right. auto.
Qed.
Lemma F2_comp : forall A B C (P : A -> B -> Prop) (Q : A -> C -> Prop) l m n, Forall2 P l m -> Forall2 Q l n -> Forall2 (fun b c => exists a, P a b /\ Q a c) m n.
Proof. intros A B C P Q l m n F. revert n. induction F as [|x y l m X F IH]; intros n G; inversion G; subst; constructor; eauto. Qed.

Lemma block_entries_ok : forall bl o, Forall (fun b => b <> []) bl ->
  Forall (fun e => o <= ie_offset e <= o + zlen (tbytes (concat bl)) /\ exists tm, In tm (concat bl) /\ ie_name e = tm_id tm) (block_entries o bl).
Proof.
  induction bl as [|b bl IH]; intros o F; cbn [block_entries]; constructor.
  - cbn [ie_offset ie_name]. pose proof (zlen_nonneg _ (tbytes (concat (b :: bl)))). split; [lia|]. destruct b as [|tm b]; [exfalso; exact (Forall_inv F eq_refl)|].
    exists tm. split; [left; auto|reflexivity].
  - eapply Forall_impl; [|apply (IH (o + zlen (tbytes b)) (Forall_inv_tail F))]. cbn [concat]. intros e (H & tm & I & E). rewrite tbytes_app, zlen_app.
    pose proof (zlen_nonneg _ (tbytes b)). split; [lia|]. exists tm. split; auto. apply in_or_app. auto.
Qed.
Lemma tser_le : forall tm l, In tm l -> zlen (tser tm) <= zlen (tbytes l).
Proof.
  intros tm l. induction l as [|a l IH]; intros I; [destruct I|]. change (tbytes (a :: l)) with (tser a ++ tbytes l). rewrite zlen_app.
  pose proof (zlen_nonneg _ (tser a)). pose proof (zlen_nonneg _ (tbytes l)). destruct I as [->|I]; [lia|]. specialize (IH I). lia.
Qed.
Lemma all_some_map : forall A (l : list A), all_some (map Some l) = Some l.
Proof. induction l as [|a l IH]; auto. cbn [map all_some]. rewrite IH. auto. Qed.

Section Read.
Variable p : profile.
Variable decomp : list Z -> option (list Z).
Variable file : list Z.
Variable G : list (str * list chunk_meta).
Variable ty : str -> str -> dtype.
(** what is known of every chunk *)
Record meta_ok (d : str) (cm : chunk_meta) : Prop := {
  mo_wf : cm_wf (ty d (cm_id cm)) cm;
  mo_dev : zlen d < 2 ^ 31;
  mo_name : zlen (cm_id cm) < 2 ^ 31;
  mo_dot : ~ In 46 (cm_id cm);
  mo_tree : exists t, points_ok (ty d (cm_id cm)) (tree_points t) /\ tree_stats p (ty d (cm_id cm)) t = Ret (cm_stats cm);
  mo_chunk : exists k, chunk_at decomp file (cm_offset cm) = Some k }.
Hypothesis HGood : forall d cm, In (d, cm) (flat G) -> meta_ok d cm.
Hypothesis HLen : zlen file < 2 ^ 63.

Definition key_of (d m : str) (cms : list chunk_meta) : Prop :=
  ~ In 46 m /\ cms <> [] /\ cms = map snd (filter (on_path (path_of d m)) (flat G)) /\
  Forall (fun cm => cm_id cm = m /\ meta_ok d cm) cms.
Lemma cmap_key : forall q cms, In (q, cms) (chunk_map G) -> exists d m, q = path_of d m /\ key_of d m cms.
Proof.
  intros q cms I. destruct (chunk_map_spec G) as (S & N & E). apply (getl_in _ _ _ _ S N) in I. destruct I as [I NE]. rewrite E in I.
  destruct (filter (on_path q) (flat G)) as [|[d cm0] r] eqn:F; [cbn in I; congruence|].
  assert (X : forall x, In x ((d, cm0) :: r) -> In x (flat G) /\ path_of (fst x) (cm_id (snd x)) = q).
  { intros x J. rewrite <- F in J. apply filter_In in J. destruct J as [J1 J2]. split; auto. apply str_eqb_eq. exact J2. }
  destruct (X (d, cm0) (or_introl eq_refl)) as [X1 X2]. cbn [fst snd] in X2. pose proof (mo_dot _ _ (HGood _ _ X1)) as ND.
  exists d, (cm_id cm0). split; [auto|]. split; [exact ND|]. split; [exact NE|]. split; [rewrite X2, F; auto|].
  apply Forall_forall. intros cm J. rewrite <- I in J. apply in_map_iff in J. destruct J as ([d' cm'] & <- & J). destruct (X _ J) as [Y1 Y2]. cbn [fst snd] in *.
  rewrite <- X2 in Y2. pose proof (HGood _ _ Y1) as M. apply path_inj in Y2; [|apply M|exact ND]. destruct Y2 as [-> Y2]. auto.
Qed.
Lemma cmap_key_conv : forall d m, ~ In 46 m -> (exists cm, In (d, cm) (flat G) /\ cm_id cm = m) -> exists cms, In (path_of d m, cms) (chunk_map G) /\ key_of d m cms.
Proof.
  intros d m ND (cm & I & <-). destruct (chunk_map_spec G) as (S & N & E).
  assert (J : In (path_of d (cm_id cm), map snd (filter (on_path (path_of d (cm_id cm))) (flat G))) (chunk_map G)).
  { apply (getl_in _ _ _ _ S N). split; [apply E|]. intros X. apply map_eq_nil in X.
    assert (In (d, cm) (filter (on_path (path_of d (cm_id cm))) (flat G))) by (apply filter_In; split; auto; apply str_eqb_refl). rewrite X in H. destruct H. }
  eexists. split; [exact J|]. destruct (cmap_key _ _ J) as (d' & m' & Q & K). pose proof K as K'. destruct K' as (ND' & _). apply path_inj in Q; auto. destruct Q as [<- <-]. exact K.
Qed.
Lemma merge_tree : forall dt l st t0 s, Forall (fun cm => exists t, points_ok dt (tree_points t) /\ tree_stats p dt t = Ret (cm_stats cm)) l ->
  points_ok dt (tree_points t0) -> tree_stats p dt t0 = Ret st -> merge_all p l st = Ret s -> exists t, points_ok dt (tree_points t) /\ tree_stats p dt t = Ret s.
Proof.
  intros dt l. induction l as [|cm l IH]; intros st t0 s F P T M; unfold merge_all in M; cbn [foldM] in M.
  - rinj M. eauto.
  - inversion F as [|? ? (t & P1 & T1) F']; subst. apply bind_ret in M. destruct M as (s1 & M1 & M2).
    apply (IH s1 (Merge t0 t) s F'); [cbn [tree_points]; apply Forall_app; auto|cbn [tree_stats]; rewrite T, T1; exact M1|exact M2].
Qed.
Lemma tree_type : forall dt t s, points_ok dt (tree_points t) -> tree_stats p dt t = Ret s -> st_type s = dt.
Proof. intros dt t s P T. exact (si_type _ _ _ (tree_inv p dt t s P T)). Qed.

(** a series in the index *)
Definition x_reads (d : str) (qc : str * list chunk_meta) (x : list Z * tsmeta * list chunk) : Prop :=
  exists m st ks, fst qc = path_of d m /\ key_of d m (snd qc) /\ merge_all p (snd qc) (stats_new (ty d m)) = Ret st /\
    x = (d, mkTsMeta m (dtype_code (ty d m)) (stat_of st) (map (ref_of (several (snd qc))) (snd qc)), ks) /\
    Forall2 (fun cm k => chunk_at decomp file (cm_offset cm) = Some k) (snd qc) ks.
Lemma key_reads : forall d m cms tm, key_of d m cms -> ts_meta_of p cms = Ret tm -> zlen (tser tm) < 2 ^ 32 ->
  exists st ks, merge_all p cms (stats_new (ty d m)) = Ret st /\
    ts_reads tm (mkTsMeta m (dtype_code (ty d m)) (stat_of st) (map (ref_of (several cms)) cms)) /\ tm_id tm = m /\
    Forall2 (fun cm k => chunk_at decomp file (cm_offset cm) = Some k) cms ks.
Proof.
  intros d m cms tm (ND & NE & E & F) T L. destruct cms as [|m0 cms]; [congruence|].
  assert (FW : Forall (cm_wf (ty d m)) (m0 :: cms)). { eapply Forall_impl; [|exact F]. cbn. intros cm [<- M]. apply M. }
  rewrite (ts_meta_of_spec p (ty d m)) in T by auto. apply bind_ret in T. destruct T as (st & M & T). rinj T.
  destruct (F2_ex _ _ (fun cm k => chunk_at decomp file (cm_offset cm) = Some k) (m0 :: cms)) as (ks & K).
  { intros cm I. rewrite Forall_forall in F. exact (mo_chunk _ _ (proj2 (F cm I))). }
  exists st, ks. split; [exact M|]. assert (W : exists t, points_ok (ty d m) (tree_points t) /\ tree_stats p (ty d m) t = Ret st).
  { apply (merge_tree (ty d m) (m0 :: cms) (stats_new (ty d m)) Empty st); auto; [|constructor]. eapply Forall_impl; [|exact F]. cbn. intros cm [<- X]. apply X. }
  destruct W as (t & W1 & W2). assert (I0 : cm_id m0 = m) by (apply (Forall_inv F)).
  assert (R : zlen (ref_bytes (several (m0 :: cms)) (m0 :: cms)) < 2 ^ 32).
  { assert (X : exists a, tser (mkTM (if several (m0 :: cms) then 1 else 0) (zlen (ref_bytes (several (m0 :: cms)) (m0 :: cms))) (cm_id m0) (ty d m) st (ref_bytes (several (m0 :: cms)) (m0 :: cms))) = a ++ ref_bytes (several (m0 :: cms)) (m0 :: cms)).
    { eexists. unfold tser, ts_meta_serialize. cbn [wbytes tm_buffer]. rewrite app_nil_r, !app_assoc. reflexivity. }
    destruct X as (a & X). rewrite X, zlen_app in L. pose proof (zlen_nonneg _ a). lia. }
  split; [|split; [exact I0|exact K]]. rewrite I0. apply ts_roundtrip; auto; [eapply tree_wf; eauto|eapply tree_type; eauto|rewrite <- I0; apply (Forall_inv F)].
Qed.

Definition rd (d : list Z) (ts : tsmeta) : option (list Z * tsmeta * list chunk) :=
  match all_some (map (fun r => chunk_at decomp file (fst r)) (ts_chunks ts)) with Some cs => Some (d, ts, cs) | None => None end.
Lemma dev_list : forall d A B, Forall2 (fun pm e => fst e = fst pm /\ ts_meta_of p (snd pm) = Ret (snd e)) A B ->
  (forall a, In a A -> In a (chunk_map G) /\ of_device d a = true) -> (forall tm, In tm (map snd B) -> zlen (tser tm) < 2 ^ 32) ->
  exists ts xs, Forall2 ts_reads (map snd B) ts /\ Forall2 (x_reads d) A xs /\ map (rd d) ts = map Some xs /\
    Forall (fun tm => zlen (tm_id tm) < 2 ^ 31) (map snd B).
Proof.
  intros d A B F. induction F as [|[q cms] [q' tm] A B [E T] F IH]; intros HA HB.
  - exists [], []. repeat split; constructor.
  - cbn [fst snd] in *. subst q'. destruct IH as (ts & xs & I1 & I2 & I3 & I4); [intros a I; apply HA; right; auto|intros x I; apply HB; right; auto|].
    destruct (HA _ (or_introl eq_refl)) as [C1 C2]. destruct (cmap_key _ _ C1) as (d' & m & -> & K).
    unfold of_device in C2. cbn [fst] in C2. apply str_eqb_eq in C2. rewrite device_of_path_of in C2 by apply K. subst d'.
    destruct (key_reads d m cms tm K T) as (st & ks & M & R & N & KS); [apply HB; left; auto|].
    eexists (_ :: ts), ((d, mkTsMeta m (dtype_code (ty d m)) (stat_of st) (map (ref_of (several cms)) cms), ks) :: xs).
    split; [cbn [map snd]; constructor; [exact R|exact I1]|]. split; [|split].
    + constructor; [|exact I2]. exists m, st, ks. cbn [fst snd]. auto.
    + cbn [map]. f_equal; [|exact I3]. unfold rd. cbn [ts_chunks]. rewrite map_map. cbn [ref_of fst].
      rewrite (all_some_F2 _ _ (fun cm => chunk_at decomp file (cm_offset cm)) _ _ KS). reflexivity.
    + cbn [map snd]. constructor; [|exact I4]. rewrite N. destruct K as (_ & NE & _ & FK). destruct cms as [|m0 cms]; [congruence|].
      destruct (Forall_inv FK) as [<- X]. apply X.
Qed.

Definition read_dev (eo : list Z * Z) : option (list (list Z * tsmeta * list chunk)) :=
  match drop (snd eo) file with None => None | Some l =>
  match node_read l with None => None | Some (n, _) =>
  match measurements (length file) file n with None => None | Some tss => all_some (map (rd (fst eo)) tss) end end end.
Lemma index_read_unfold : forall ft, footer_read file = Some ft -> nd_type (ft_root ft) = 1 -> index_read decomp file =
  match all_some (map read_dev (nd_entries (ft_root ft))) with Some xs => Some (concat xs) | None => None end.
Proof. intros ft H T. unfold index_read. rewrite H, T. reflexivity. Qed.

Lemma read_dev_ok : forall tms d l n o, Forall2 (fun pm e => fst e = fst pm /\ ts_meta_of p (snd pm) = Ret (snd e)) (chunk_map G) tms ->
  l = map snd (filter (of_device d) tms) -> zlen (tbytes l) < 2 ^ 32 -> leaf_ok file l n -> at_ file o (nbytes n) ->
  exists xs, read_dev (d, o) = Some xs /\ Forall2 (x_reads d) (filter (of_device d) (chunk_map G)) xs /\
    (StronglySorted bytes_lt (map ts_name (map f_meta xs)) -> forall m, entry_lookup file (d, o) m = find (named m) (map f_meta xs)) /\
    (StronglySorted bytes_lt (map ts_name (map f_meta xs)) -> exists b n b', drop o file = Some b /\ node_read b = Some (n, b') /\ nd_type n = 3 /\ StronglySorted bytes_lt (map fst (nd_entries n)) /\ node_shape file n (map f_meta xs)).
Proof.
  intros tms d l n o HT HL LT LO AT. pose proof LO as [(o1 & bl & N1 & N2 & N3 & N4 & N5 & _)]. pose proof (at_range _ _ _ N5) as AR.
  pose proof (zlen_nonneg _ (tbytes l)) as TL.
  pose proof (F2_filter _ _ _ (of_device d) (of_device d) _ _ (fun a b H => f_equal (fun q => str_eqb (device_of_path q) d) (eq_sym (proj1 H))) HT) as F.
  destruct (dev_list d _ _ F) as (ts & xs & R1 & R2 & R3 & R4).
  { intros a I. apply filter_In in I. exact I. }
  { rewrite <- HL. intros tm I. pose proof (tser_le tm l I). lia. }
  rewrite <- HL in R1, R4. exists xs. unfold read_dev, entry_lookup. cbn [fst snd]. destruct (at_drop _ _ _ AT) as (b & ->).
  assert (MT : ts = map f_meta xs).
  { clear - R3. revert xs R3. induction ts as [|t ts IH]; intros [|x xs] R3; try discriminate; auto. cbn [map] in *. injection R3 as E R3. f_equal; [|apply IH; auto].
    unfold rd in E. destruct (all_some _); [|discriminate]. injection E as <-. reflexivity. }
  assert (OK : inode_ok n).
  { subst n. unfold inode_ok, leaf_node. cbn [in_children in_end]. split; [|split; [rewrite N2; lia|unfold zlen; rewrite block_entries_length; fold (zlen bl); lia]].
    eapply Forall_impl; [|exact (block_entries_ok bl o1 N3)]. rewrite N2. intros e (E1 & tm & E2 & E3). split; [|lia]. rewrite E3. rewrite Forall_forall in R4. exact (R4 tm E2). }
  unfold nbytes. rewrite (node_roundtrip _ _ OK).
  destruct (length file) as [|f] eqn:EL.
  - exfalso. destruct AT as (a' & b' & X & _). apply (f_equal (@length Z)) in X. rewrite !app_length, EL in X. unfold nbytes in X. rewrite node_bytes in X. rewrite !app_length in X. cbn [length] in X. lia.
  - split; [rewrite (measurements_leaf file l n ts f LO R1); rewrite R3; apply all_some_map|]. split; [exact R2|]. rewrite <- MT. split.
    + intros S m. apply (leaf_lookup file l n ts m LO R1 R4 S).
    + intros S. eexists _, _, _. split; [reflexivity|]. split; [apply (node_roundtrip _ _ OK)|]. split; [subst n; reflexivity|]. split; [apply (leaf_lookup file l n ts [] LO R1 R4 S)|exact (leaf_shape file l n ts LO R1 R4)].
Qed.
End Read.

(** ** A closed file *)
Lemma nonempty_id : forall V (m : smap (list V)), no_empty m -> nonempty m = m.
Proof. intros V m F. induction F as [|[k v] m N F IH]; auto. unfold nonempty in *. cbn [filter snd] in *. destruct v; [congruence|]. rewrite IH. auto. Qed.
Lemma footer_of_end : forall p ord io io', (forall l, Permutation (ord l) l) -> is_healthy (io_out io) -> sk_pos (io_out io) = zlen (sk_data (io_out io)) ->
  end_file p ord io = Ret io' -> brief (sk_data (io_out io)) (sk_data (io_out io')) ->
  (forall tsm d, metadata_loop p None (chunk_map (io_groups io)) (io_tsmeta io) = Ret tsm -> In d (map fst tsm) -> zlen d < 2 ^ 31) ->
  exists tsm imap root blk,
    metadata_loop p None (chunk_map (io_groups io)) (io_tsmeta io) = Ret tsm /\ map fst imap = map fst (nonempty tsm) /\ loop_ok (sk_data (io_out io')) tsm imap root /\
    (Forall (fun dl => zlen (snd dl) <= 65536) tsm -> Forall2 (fun dl dn => fst dn = fst dl /\ leaf_ok (sk_data (io_out io')) (snd dl) (snd dn)) (nonempty tsm) imap) /\
    root_ok (sk_data (io_out io')) (ord imap) root /\
    (exists n, footer_read (sk_data (io_out io')) = Some (mkFooter (node_of root) (zlen (sk_data (io_out io))) blk n) /\ zlen (sk_data (io_out io)) + 1 + n + 10 <= zlen (sk_data (io_out io'))) /\
    (exists r, sk_data (io_out io') = sk_data (io_out io) ++ 2 :: r) /\
    (Forall path_ok (map fst (chunk_map (io_groups io))) -> forall s, In s (map fst (chunk_map (io_groups io))) -> might_contain blk s = true).
Proof.
  intros p ord io io' Ho Hh Hp H L HN. destruct (end_file_layout _ _ _ _ Hh Hp H L) as (tsm & imap & root & bf & bw & pre & A1 & A2 & AL & A3 & A4 & A5 & A6 & A7 & A8 & A9). cbv zeta in A9.
  destruct (filter_roundtrip _ _ _ _ A7 A8) as (blk & B1 & B2 & B3 & B4).
  exists tsm, imap, root, blk. split; [auto|]. split; [auto|]. split; [exact AL|]. split; [auto|]. split; [auto|]. split; [|split; [eexists; rewrite A9, <- !app_assoc; reflexivity|auto]].
  pose proof (proj1 L) as L'. destruct L as [_ L]. rewrite A9 in L'. rewrite !zlen_app in L'. pose proof (zlen_nonneg _ (sk_data (io_out io))). pose proof (zlen_nonneg _ pre).
  rewrite be_bytes_zlen in L'. change (zlen MAGIC) with 6 in L'. change (zlen [2]) with 1 in L'.
  pose proof (zlen_nonneg _ (wbytes bw)). pose proof (zlen_nonneg _ (wbytes (ts_file_metadata_serialize root (zlen (sk_data (io_out io)))))).
  exists (zlen (wbytes (ts_file_metadata_serialize root (zlen (sk_data (io_out io)))) ++ wbytes bw)).
  assert (SZ : zlen (sk_data (io_out io)) + 1 + zlen (wbytes (ts_file_metadata_serialize root (zlen (sk_data (io_out io)))) ++ wbytes bw) + 10 <= zlen (sk_data (io_out io'))).
  { rewrite A9, !zlen_app, be_bytes_zlen. change (zlen MAGIC) with 6. change (zlen [2]) with 1. lia. }
  split; [|exact SZ]. rewrite A9 at 1. apply footer_read_ok; auto; [|rewrite zlen_app in SZ; lia|rewrite zlen_app; lia].
  destruct A5 as [R1 R2]. split; [|split; [lia|]].
  - apply Forall_forall. intros e I. destruct (F2_in_r _ _ _ _ _ _ R2 I) as ([d n] & I' & E1 & E2). cbn [fst snd] in *. split.
    + rewrite E1. apply (HN tsm); auto. apply (Permutation_in _ (Ho imap)) in I'. apply (in_map fst) in I'. cbn [fst] in I'. rewrite A2 in I'.
      apply in_map_iff in I'. destruct I' as (x & <- & I'). apply filter_In in I'. apply in_map. apply I'.
    + pose proof (at_range _ _ _ E2) as AR. pose proof (zlen_nonneg _ (nbytes n)). lia.
  - assert (X : length (in_children root) = length (ord imap)) by (symmetry; eapply F2_length; exact R2).
    pose proof (Permutation_length (Ho imap)). unfold zlen in *. lia.
Qed.

Definition entry_finds (file : list Z) (eo : list Z * Z) (xs : list found) : Prop :=
  StronglySorted bytes_lt (map ts_name (map f_meta xs)) ->
  (forall m, entry_lookup file eo m = find (named m) (map f_meta xs)) /\
  exists b n b', drop (snd eo) file = Some b /\ node_read b = Some (n, b') /\ nd_type n = 3 /\ StronglySorted bytes_lt (map fst (nd_entries n)) /\ node_shape file n (map f_meta xs).
Lemma end_file_index : forall p decomp ty ord io io', (forall l, Permutation (ord l) l) -> is_healthy (io_out io) -> sk_pos (io_out io) = zlen (sk_data (io_out io)) ->
  io_tsmeta io = [] -> end_file p ord io = Ret io' -> brief (sk_data (io_out io)) (sk_data (io_out io')) ->
  let file := sk_data (io_out io') in let cmap := chunk_map (io_groups io) in
  (forall d cm, In (d, cm) (flat (io_groups io)) -> meta_ok p decomp file ty d cm) ->
  (forall d, zlen (filter (of_device d) cmap) <= 65536) ->
  exists ft devs xss dd, footer_read file = Some ft /\ ft_meta ft = zlen (sk_data (io_out io)) /\
    index_read decomp file = Some (concat xss) /\
    Forall2 (fun d xs => Forall2 (x_reads p decomp file (io_groups io) ty d) (filter (of_device d) cmap) xs) devs xss /\
    Forall2 (entry_finds file) (nd_entries (ft_root ft)) xss /\
    map fst (nd_entries (ft_root ft)) = devs /\ (exists imap : list (str * index_node), devs = map fst (ord imap) /\ dd = map fst imap) /\ StronglySorted str_lt dd /\
    (forall d, In d dd <-> filter (of_device d) cmap <> []) /\
    (Forall path_ok (map fst cmap) -> forall s, In s (map fst cmap) -> might_contain (ft_bloom ft) s = true).
Proof.
  intros p decomp ty ord io io' Ho Hh Hp HT H L file cmap HG HM.
  assert (KEY : forall tsm, metadata_loop p None cmap (io_tsmeta io) = Ret tsm ->
    exists tms, Forall2 (fun pm e => fst e = fst pm /\ ts_meta_of p (snd pm) = Ret (snd e)) cmap tms /\ sorted tsm /\ no_empty tsm /\
      (forall d, getl d tsm = map snd (filter (of_device d) tms))).
  { intros tsm M. destruct (metadata_loop_spec p cmap None [] tsm) as (tms & T1 & T2 & T3 & T4); [rewrite <- HT; exact M|apply sorted_nil|constructor|].
    exists tms. split; [exact T1|]. split; [exact T2|]. split; [exact T3|exact T4]. }
  assert (FL : forall d tms, Forall2 (fun pm e => fst e = fst pm /\ ts_meta_of p (snd pm) = Ret (snd e)) cmap tms ->
     Forall2 (fun pm e => fst e = fst pm /\ ts_meta_of p (snd pm) = Ret (snd e)) (filter (of_device d) cmap) (filter (of_device d) tms)).
  { intros d tms T. exact (F2_filter _ _ _ (of_device d) (of_device d) _ _ (fun a b H => f_equal (fun q => str_eqb (device_of_path q) d) (eq_sym (proj1 H))) T). }
  assert (DD : forall tsm, metadata_loop p None cmap (io_tsmeta io) = Ret tsm -> forall d, In d (map fst tsm) <-> filter (of_device d) cmap <> []).
  { intros tsm M d. destruct (KEY tsm M) as (tms & T1 & T2 & T3 & T4). pose proof (F2_length _ _ _ _ _ (FL d tms T1)) as LN.
    transitivity (getl d tsm <> []).
    - unfold getl. split; [intros I; destruct (sm_get_some_in _ _ _ I) as (v & E); rewrite E; apply sm_get_in in E; unfold no_empty in T3; rewrite Forall_forall in T3; exact (T3 _ E)|].
      intros N. destruct (sm_get d tsm) eqn:E; [|congruence]. apply sm_get_in in E. apply (in_map fst) in E. exact E.
    - rewrite T4. destruct (filter (of_device d) cmap), (filter (of_device d) tms); cbn in *; try lia; split; intros; try congruence; discriminate. }
  destruct (footer_of_end p ord io io' Ho Hh Hp H L) as (tsm & imap & root & blk & A1 & A2 & _ & A3 & A4 & (n & A5 & _) & _ & A6).
  { intros tsm d M I. apply (DD tsm M) in I. fold cmap in I. destruct (filter (of_device d) cmap) as [|[q cms] r] eqn:E; [congruence|].
    assert (J : In (q, cms) (filter (of_device d) cmap)) by (rewrite E; left; auto). apply filter_In in J. destruct J as [J1 J2].
    destruct (cmap_key p decomp file (io_groups io) ty HG q cms J1) as (d' & m & -> & K). unfold of_device in J2. cbn [fst] in J2. apply str_eqb_eq in J2.
    rewrite device_of_path_of in J2 by apply K. subst d'. destruct K as (_ & NE & _ & FK). destruct cms; [congruence|]. apply (Forall_inv FK). }
  fold cmap in A1, A6. fold file in A3, A4, A5, L. destruct (KEY tsm A1) as (tms & T1 & T2 & T3 & T4). rewrite (nonempty_id _ _ T3) in *.
  assert (B : Forall (fun dl => zlen (snd dl) <= 65536) tsm).
  { apply Forall_forall. intros [d l] I. cbn [snd]. apply (getl_in _ _ _ _ T2 T3) in I. destruct I as [<- _]. rewrite T4. unfold zlen. rewrite map_length.
    rewrite <- (F2_length _ _ _ _ _ (FL d tms T1)). apply HM. }
  specialize (A3 B). destruct A4 as [R1 R2].
  assert (XS : exists xss, Forall2 (fun dn xs => Forall2 (x_reads p decomp file (io_groups io) ty (fst dn)) (filter (of_device (fst dn)) cmap) xs) (ord imap) xss /\
     Forall2 (fun e xs => read_dev decomp file (entry_of e) = Some xs) (in_children root) xss /\
     Forall2 (fun e xs => entry_finds file (entry_of e) xs) (in_children root) xss).
  { assert (PT : forall dn, In dn (ord imap) -> exists l, l = map snd (filter (of_device (fst dn)) tms) /\ zlen (tbytes l) < 2 ^ 32 /\ leaf_ok file l (snd dn)).
    { intros [d nd] I. apply (Permutation_in _ (Ho imap)) in I. destruct (F2_in_r _ _ _ _ _ _ A3 I) as ([d' l] & I' & E1 & E2). cbn [fst snd] in *. subst d'.
      exists l. split; [apply (getl_in _ _ _ _ T2 T3) in I'; rewrite <- T4; symmetry; apply I'|]. split; [exact (Z.le_lt_trans _ _ _ (end_file_rows _ _ _ _ _ Hh Hp H A1 _ _ I') (proj1 L))|exact E2]. }
    destruct L as [_ L]. clear - R2 PT T1 HG L. revert R2 PT. generalize (ord imap) (in_children root). intros im es R2. induction R2 as [|[d nd] e im es [E1 E2] R2 IH]; intros PT.
    - exists []. repeat split; constructor.
    - destruct IH as (xss & I1 & I2 & I3); [intros dn I; apply PT; right; auto|]. destruct (PT _ (or_introl eq_refl)) as (l & L1 & LT & L2). cbn [fst snd] in *.
      destruct (read_dev_ok p decomp file (io_groups io) ty HG L tms d l nd (ie_offset e) T1 L1 LT L2 E2) as (xs & X1 & X2 & X3 & X4).
      exists (xs :: xss). split; [constructor; auto|]. split; constructor; auto; unfold entry_of; rewrite E1; [exact X1|]. intros S. split; [apply X3; exact S|apply X4; exact S]. }
  destruct XS as (xss & X1 & X2 & X3). eexists. exists (map fst (ord imap)), xss, (map fst tsm).
  split; [exact A5|]. cbn [ft_meta ft_root ft_bloom node_of nd_entries]. split; [reflexivity|]. split; [|split; [|split; [|split; [|split; [|split; [|split]]]]]].
  - rewrite (index_read_unfold decomp file _ A5) by (cbn [ft_root node_of nd_type]; rewrite R1; reflexivity). cbn [ft_root node_of nd_entries]. rewrite map_map.
    rewrite (all_some_F2 _ _ (fun e => read_dev decomp file (entry_of e)) _ _ X2). reflexivity.
  - apply F2_map_l. exact X1.
  - apply F2_map_l. exact X3.
  - rewrite map_map. clear - R2. induction R2 as [|a b l m [E _] R IH]; auto. cbn [map]. f_equal; auto.
  - exists imap. auto.
  - exact T2.
  - apply DD. exact A1.
  - exact A6.
Qed.
