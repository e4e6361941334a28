(** What the index of a file closed several times lists (C54). *)
From Verif Require Export PReclose.
Ltac Zify.zify_post_hook ::= idtac.

Lemma rd_metas : forall decomp file d ts (xs : list found), map (rd decomp file d) ts = map Some xs -> ts = map f_meta xs.
Proof.
  intros decomp file d ts. induction ts as [|t ts IH]; intros [|x xs] R; try discriminate; auto. cbn [map] in *. injection R as E R. f_equal; [|apply IH; auto].
  unfold rd in E. destruct (all_some _); [|discriminate]. injection E as <-. reflexivity.
Qed.
(** a node of at most 256 series has at most one entry *)
Lemma leaf_small : forall file l n ts m, leaf_ok file l n -> zlen l <= 256 -> Forall2 ts_reads l ts -> Forall (fun tm => zlen (tm_id tm) < 2 ^ 31) l ->
  node_lookup file (node_of n) m = match ts with [] => None | t0 :: _ => if lex_leb (ts_name t0) m then find (named m) ts else None end.
Proof.
  intros file l n ts m [(o & bl & -> & <- & NE & _ & A & (C1 & _))] L F N.
  assert (B : zlen bl <= 1) by (rewrite C1; pose proof (zlen_nonneg _ (concat bl)); Z.div_mod_to_equations; lia).
  destruct bl as [|b [|b2 bl]].
  - cbn [concat] in *. inversion F; subst. reflexivity.
  - cbn [concat] in *. rewrite app_nil_r in *. destruct b as [|tm b]; [exfalso; exact (Forall_inv NE eq_refl)|]. inversion F as [|? t0 ? ts' R1 R2]; subst.
    assert (T : ts_name t0 = tm_id tm) by (apply ts_reads_name; [exact (Forall_inv N)|exact R1]).
    unfold node_lookup. cbn [node_of leaf_node in_type node_type_code nd_type nd_entries nd_end in_children in_end Z.eqb Pos.eqb block_entries map entry_of ie_name ie_offset first_id floor_range concat].
    rewrite app_nil_r, T. destruct (lex_leb (tm_id tm) m); [|reflexivity].
    rewrite (at_slice file o (tbytes (tm :: b)) (o + zlen (tbytes (tm :: b)))); auto.
    rewrite (parts_many _ tsmeta_read (tbytes (tm :: b)) (t0 :: ts')) by (first [apply ts_parts; auto|auto]). reflexivity.
  - rewrite !zlen_cons in B. pose proof (zlen_nonneg _ bl). lia.
Qed.

Section Many.
Variable p : profile.
Variable decomp : list Z -> option (list Z).
Variable file : list Z.
Variable ty : str -> str -> dtype.
Variable Gs : list (list (str * list chunk_meta)).
Hypothesis HGood : Forall (fun G => forall d cm, In (d, cm) (flat G) -> meta_ok p decomp file ty d cm) Gs.
Hypothesis HLen : zlen file < 2 ^ 32.

Definition dev_reads (d : str) (xss : list (list found)) : Prop :=
  Forall2 (fun G xs => Forall2 (x_reads p decomp file G ty d) (filter (of_device d) (chunk_map G)) xs) Gs xss.
Lemma dev_list_many : forall d tmss, Forall2 (fun G tms => Forall2 (listed p) (chunk_map G) tms) Gs tmss ->
  (forall tm, In tm (concat (map (dev_metas_of d) tmss)) -> zlen (tser tm) < 2 ^ 32) ->
  exists ts xss, Forall2 ts_reads (concat (map (dev_metas_of d) tmss)) ts /\ dev_reads d xss /\ map (rd decomp file d) ts = map Some (concat xss) /\
    Forall (fun tm => zlen (tm_id tm) < 2 ^ 31) (concat (map (dev_metas_of d) tmss)).
Proof.
  unfold dev_reads. intros d tmss F. revert HGood. induction F as [|G tms Gs0 tmss0 X F IH]; intros HGd HB.
  - exists [], []. repeat split; constructor.
  - inversion HGd as [|? ? HG1 HG2]; subst. destruct (IH HG2) as (ts & xss & I1 & I2 & I3 & I4); [intros tm I; apply HB; cbn [map concat]; apply in_or_app; auto|]. clear IH.
    pose proof (F2_filter _ _ _ (of_device d) (of_device d) _ _ (fun a b H => f_equal (fun q => str_eqb (device_of_path q) d) (eq_sym (proj1 H))) X) as FF.
    destruct (dev_list p decomp file G ty HG1 d _ _ FF) as (ts1 & xs1 & R1 & R2 & R3 & R4).
    { intros a I. apply filter_In in I. exact I. }
    { intros tm I. apply HB. cbn [map concat]. apply in_or_app. left. exact I. }
    exists (ts1 ++ ts), (xs1 :: xss). cbn [map concat]. split; [apply Forall2_app; [exact R1|exact I1]|]. split; [constructor; [exact R2|exact I2]|].
    split; [rewrite !map_app, R3, I3; reflexivity|]. apply Forall_app. split; [exact R4|exact I4].
Qed.
Definition small_lookup (eo : list Z * Z) (xs : list found) : Prop := zlen xs <= 256 -> forall m,
  entry_lookup file eo m = match xs with [] => None | x0 :: _ => if lex_leb (ts_name (f_meta x0)) m then find (named m) (map f_meta xs) else None end.
Lemma read_dev_many : forall tmss d l n o, Forall2 (fun G tms => Forall2 (listed p) (chunk_map G) tms) Gs tmss ->
  l = concat (map (dev_metas_of d) tmss) -> leaf_ok file l n -> at_ file o (nbytes n) ->
  exists xss, read_dev decomp file (d, o) = Some (concat xss) /\ dev_reads d xss /\ small_lookup (d, o) (concat xss).
Proof.
  intros tmss d l n o HT HL LO AT. pose proof LO as [(o1 & bl & N1 & N2 & N3 & N4 & N5 & _)]. pose proof (at_range _ _ _ N5) as AR. pose proof (zlen_nonneg _ (tbytes l)) as TL.
  destruct (dev_list_many d tmss HT) as (ts & xss & R1 & R2 & R3 & R4).
  { rewrite <- HL. intros tm I. pose proof (tser_le tm l I). lia. }
  rewrite <- HL in R1, R4. exists xss. unfold read_dev, small_lookup, entry_lookup. cbn [fst snd]. destruct (at_drop _ _ _ AT) as (b & ->).
  pose proof (rd_metas _ _ _ _ _ R3) as MT.
  assert (OK : inode_ok n).
  { subst n. unfold inode_ok, leaf_node. cbn [in_children in_end]. split; [|split; [rewrite N2; lia|unfold zlen; rewrite block_entries_length; fold (zlen bl); lia]].
    eapply Forall_impl; [|exact (block_entries_ok bl o1 N3)]. rewrite N2. intros e (E1 & tm & E2 & E3). split; [|lia]. rewrite E3. rewrite Forall_forall in R4. exact (R4 tm E2). }
  unfold nbytes. rewrite (node_roundtrip _ _ OK).
  destruct (length file) as [|f] eqn:EL.
  - exfalso. destruct AT as (a' & b' & X & _). apply (f_equal (@length Z)) in X. rewrite !app_length, EL in X. unfold nbytes in X. rewrite node_bytes in X. rewrite !app_length in X. cbn [length] in X. lia.
  - split; [rewrite (measurements_leaf file l n ts f LO R1); rewrite R3; apply all_some_map|]. split; [exact R2|].
    intros LN m. assert (LL : zlen l <= 256) by (unfold zlen in *; rewrite (F2_length _ _ _ _ _ R1), MT, map_length; exact LN).
    rewrite (leaf_small file l n ts m LO LL R1 R4), MT.
    assert (Y : forall xs : list found, match map f_meta xs with [] => None | t0 :: _ => if lex_leb (ts_name t0) m then find (named m) (map f_meta xs) else None end =
      match xs with [] => None | x0 :: _ => if lex_leb (ts_name (f_meta x0)) m then find (named m) (map f_meta xs) else None end) by (intros [|x xs]; reflexivity). apply Y.
Qed.

Lemma end_file_many : forall ord io io' tmss, (forall l, Permutation (ord l) l) -> is_healthy (io_out io) -> sk_pos (io_out io) = zlen (sk_data (io_out io)) ->
  end_file p ord io = Ret io' -> file = sk_data (io_out io') ->
  Forall2 (fun G tms => Forall2 (listed p) (chunk_map G) tms) Gs tmss -> sorted (io_tsmeta io') -> no_empty (io_tsmeta io') ->
  (forall d, getl d (io_tsmeta io') = concat (map (dev_metas_of d) tmss)) ->
  (forall d, zlen (concat (map (dev_metas_of d) tmss)) <= 65536) ->
  exists ft xsss, footer_read file = Some ft /\ NoDup (map fst (nd_entries (ft_root ft))) /\
    index_read decomp file = Some (concat (map (@concat _) xsss)) /\
    Forall2 (fun eo xss => dev_reads (fst eo) xss /\ small_lookup eo (concat xss)) (nd_entries (ft_root ft)) xsss /\
    (forall d, In d (map fst (nd_entries (ft_root ft))) <-> concat (map (dev_metas_of d) tmss) <> []).
Proof.
  intros ord io io' tmss Ho Hh Hp H EF T1 T2 T3 T4 HM. pose proof HLen as L. rewrite EF in L. pose proof (end_file_tsmeta _ _ _ _ H) as TM.
  assert (DD : forall d, In d (map fst (io_tsmeta io')) <-> concat (map (dev_metas_of d) tmss) <> []).
  { intros d. rewrite <- T4. unfold getl. split; [intros I; destruct (sm_get_some_in _ _ _ I) as (v & E); rewrite E; apply sm_get_in in E; unfold no_empty in T3; rewrite Forall_forall in T3; exact (T3 _ E)|].
    intros N. destruct (sm_get d (io_tsmeta io')) eqn:E; [|congruence]. apply sm_get_in in E. apply (in_map fst) in E. exact E. }
  destruct (footer_of_end p ord io io' Ho Hh Hp H (brief_of _ _ L)) as (tsm & imap & root & blk & A1 & A2 & _ & A3 & A4 & (n & A5 & _) & _ & A6).
  { intros tsm d M I. assert (tsm = io_tsmeta io') by congruence. subst tsm. apply DD in I.
    destruct (concat (map (dev_metas_of d) tmss)) as [|tm r] eqn:E; [congruence|]. assert (J : In tm (concat (map (dev_metas_of d) tmss))) by (rewrite E; left; auto).
    apply in_concat in J. destruct J as (l & J1 & J2). apply in_map_iff in J1. destruct J1 as (tms & <- & J1). unfold dev_metas_of in J2. apply in_map_iff in J2. destruct J2 as ([q tm'] & <- & J2).
    apply filter_In in J2. destruct J2 as [J2 J3]. destruct (F2_in_r _ _ _ _ _ _ T1 J1) as (G & G1 & G2). destruct (F2_in_r _ _ _ _ _ _ G2 J2) as ([q' cms] & C1 & C2 & _). cbn [fst] in C2. subst q'.
    pose proof HGood as HGd. rewrite Forall_forall in HGd. specialize (HGd G G1). destruct (cmap_key p decomp file G ty HGd q cms C1) as (d' & m & -> & K).
    unfold of_device in J3. cbn [fst] in J3. apply str_eqb_eq in J3. rewrite device_of_path_of in J3 by apply K. subst d'. destruct K as (_ & NE & _ & FK). destruct cms; [congruence|]. apply (Forall_inv FK). }
  assert (tsm = io_tsmeta io') by congruence. subst tsm. rewrite <- EF in *. rewrite (nonempty_id _ _ T3) in *.
  assert (B : Forall (fun dl => zlen (snd dl) <= 65536) (io_tsmeta io')).
  { apply Forall_forall. intros [d l] I. cbn [snd]. apply (getl_in _ _ _ _ T2 T3) in I. destruct I as [<- _]. rewrite T4. apply HM. }
  specialize (A3 B). destruct A4 as [R1 R2].
  assert (PT : forall dn, In dn (ord imap) -> exists l, l = concat (map (dev_metas_of (fst dn)) tmss) /\ leaf_ok file l (snd dn)).
  { intros [d nd] I. apply (Permutation_in _ (Ho imap)) in I. destruct (F2_in_r _ _ _ _ _ _ A3 I) as ([d' l] & I' & E1 & E2). cbn [fst snd] in *. subst d'.
    exists l. split; auto. apply (getl_in _ _ _ _ T2 T3) in I'. rewrite <- T4. symmetry. apply I'. }
  assert (XS : exists xsss, Forall2 (fun e xss => read_dev decomp file (entry_of e) = Some (concat xss)) (in_children root) xsss /\
     Forall2 (fun e xss => dev_reads (fst (entry_of e)) xss /\ small_lookup (entry_of e) (concat xss)) (in_children root) xsss).
  { clear - R2 PT T1 HGood HLen. revert R2 PT. generalize (ord imap) (in_children root). intros im es R2. induction R2 as [|[d nd] e im es [E1 E2] R2 IH]; intros PT.
    - exists []. split; constructor.
    - destruct IH as (xss & I1 & I2); [intros dn I; apply PT; right; auto|]. destruct (PT _ (or_introl eq_refl)) as (l & L1 & L2). cbn [fst snd] in *.
      destruct (read_dev_many tmss d l nd (ie_offset e) T1 L1 L2 E2) as (xs & X1 & X2 & X3).
      exists (xs :: xss). split; constructor; auto; unfold entry_of; rewrite E1; [exact X1|]. cbn [fst]. split; [exact X2|exact X3]. }
  destruct XS as (xsss & X1 & X2).
  assert (DE : map fst (nd_entries (node_of root)) = map fst (ord imap)).
  { cbn [node_of nd_entries]. rewrite map_map. clear - R2. induction R2 as [|a b l m [E _] R IH]; auto. cbn [map]. f_equal; auto. }
  assert (PE : Permutation (map fst (ord imap)) (map fst (io_tsmeta io'))) by (rewrite <- A2; apply Permutation_map; apply Ho).
  eexists. exists xsss. split; [exact A5|]. cbn [ft_root]. rewrite DE. split; [|split; [|split]].
  - apply (Permutation_NoDup (Permutation_sym PE)). apply lt_nodup. exact T2.
  - rewrite (index_read_unfold decomp file _ A5) by (cbn [ft_root node_of nd_type]; rewrite R1; reflexivity). cbn [ft_root node_of nd_entries]. rewrite map_map.
    assert (X1' : Forall2 (fun e xs => read_dev decomp file (entry_of e) = Some xs) (in_children root) (map (@concat _) xsss)).
    { clear - X1. induction X1; cbn [map]; constructor; auto. }
    rewrite (all_some_F2 _ _ (fun e => read_dev decomp file (entry_of e)) _ _ X1'). reflexivity.
  - cbn [node_of nd_entries]. apply F2_map_l. exact X2.
  - intros d. rewrite <- DD. split; intros J; (eapply Permutation_in; [|exact J]); [exact PE|apply Permutation_sym; exact PE].
Qed.
End Many.
