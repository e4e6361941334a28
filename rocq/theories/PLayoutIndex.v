(** The bytes of the index and the footer (C55). *)
From Verif Require Export PLayoutFile.
Ltac Zify.zify_post_hook ::= idtac.

(** ** Blocks of 256 *)
Lemma chop_fuel_map : forall A B (g : A -> B) n f l, chop_fuel f n (map g l) = map (map g) (chop_fuel f n l).
Proof.
  intros A B g n f. induction f as [|f IH]; intros l; [reflexivity|]. destruct l as [|a l]; [reflexivity|]. cbn [chop_fuel map].
  change (g a :: map g l) with (map g (a :: l)). rewrite firstn_map, skipn_map, IH. reflexivity.
Qed.
Lemma chop_map : forall A B (g : A -> B) n l, chop n (map g l) = map (map g) (chop n l).
Proof. intros. unfold chop. rewrite map_length. apply chop_fuel_map. Qed.
Lemma cut256_chop : forall bs, Forall (fun b => b <> []) bs -> cut256 bs -> bs = chop 256 (concat bs).
Proof.
  induction bs as [|b bs IH]; intros N C; [reflexivity|]. destruct (cut_cons b bs N C) as [[[-> L]|[NE L]] C'].
  - cbn [concat]. rewrite app_nil_r. symmetry. apply chop_short; [exact (Forall_inv N)|unfold zlen in L; lia].
  - cbn [concat]. rewrite chop_app by (unfold zlen in L; lia). f_equal. apply IH; auto. exact (Forall_inv_tail N).
Qed.

(** ** Nodes *)
Definition row_of (tm : ts_meta) : list Z * list Z := (tm_id tm, tser tm).
Definition dev_rows (dl : list Z * list ts_meta) : list Z * list (list Z * list Z) := (fst dl, map row_of (snd dl)).
Definition nrow (dn : list Z * index_node) : list Z * list Z := (fst dn, nbytes (snd dn)).
Lemma rows_tbytes : forall l, rows_bytes (map row_of l) = tbytes l.
Proof. intros. unfold rows_bytes, tbytes. rewrite map_map. reflexivity. Qed.
Lemma entries_blocks : forall bl o, entries o (map (map row_of) bl) = map entry_of (block_entries o bl).
Proof.
  induction bl as [|b bl IH]; intros o; [reflexivity|]. cbn [map entries block_entries]. rewrite rows_tbytes, IH. f_equal.
  unfold entry_of. cbn [ie_name ie_offset]. f_equal. destruct b; reflexivity.
Qed.
Lemma node_image_ok : forall n, Forall (fun e => zlen (ie_name e) < 2 ^ 31) (in_children n) -> zlen (in_children n) < 2 ^ 32 ->
  nbytes n = node_image (map entry_of (in_children n)) (in_end n) (node_type_code (in_type n)).
Proof.
  intros n F L. unfold nbytes. rewrite node_bytes. unfold node_image. pose proof (zlen_nonneg _ (in_children n)) as NN.
  rewrite wrapU_small by lia. rewrite leb_var by lia. rewrite digits_be. replace (zlen (map entry_of (in_children n))) with (zlen (in_children n)) by (unfold zlen; rewrite map_length; auto).
  f_equal. f_equal. unfold entries_bytes. rewrite map_map. f_equal. apply map_ext_in. intros e I. unfold index_entry_serialize, entry_of. cbn [wbytes fst snd].
  rewrite Forall_forall in F. rewrite app_nil_r, digits_be, write_str_text by auto. reflexivity.
Qed.
Lemma leaf_image : forall o bl, Forall (fun b => b <> []) bl -> cut256 bl -> zlen bl <= 256 -> Forall (fun tm => zlen (tm_id tm) < 2 ^ 31) (concat bl) ->
  nbytes (leaf_node o bl) = node_image (entries o (chop 256 (map row_of (concat bl)))) (o + zlen (rows_bytes (map row_of (concat bl)))) 3.
Proof.
  intros o bl N C L F. rewrite node_image_ok.
  - cbn [leaf_node in_children in_end in_type node_type_code]. rewrite chop_map, <- (cut256_chop bl) by auto. rewrite entries_blocks, rows_tbytes. reflexivity.
  - cbn [leaf_node in_children]. eapply Forall_impl; [|exact (block_entries_ok bl o N)]. cbn beta. intros e (_ & tm & I & ->). rewrite Forall_forall in F. auto.
  - cbn [leaf_node in_children]. unfold zlen in *. rewrite block_entries_length. lia.
Qed.
Lemma device_loop_exact : forall tsm out imap out', is_healthy out -> no_empty tsm ->
  Forall (fun dl => zlen (snd dl) <= 65536 /\ Forall (fun tm => zlen (tm_id tm) < 2 ^ 31) (snd dl)) tsm ->
  device_loop 256 tsm out = Ret (imap, out') ->
  map nrow imap = device_nodes (sk_pos out) (map dev_rows tsm) /\ sk_ext out out' (concat (map (fun dr => rows_bytes (snd dr)) (map dev_rows tsm))).
Proof.
  induction tsm as [|[d l] tsm IH]; intros out imap out' Hh NE F H; cbn [device_loop] in H.
  - rinj H. split; [constructor|apply sk_ext_refl].
  - destruct (Forall_inv F) as [F1 F2]. apply Forall_inv_tail in F. pose proof (Forall_inv NE) as NE1. apply Forall_inv_tail in NE. cbn [snd] in F1, F2, NE1. cbn [map concat dev_rows snd fst device_nodes].
    destruct l as [|m l]; [congruence|].
    set (L := m :: l) in *. destruct (measurement_loop 256 0 L (index_node_new LeafMeasurement) [] out) as [[cur queue] out1] eqn:E.
    change (index_node_new LeafMeasurement) with (mkIN (block_entries (sk_pos out) []) 0 LeafMeasurement) in E.
    destruct (mloop_spec L 0 (sk_pos out) [] 0 LeafMeasurement [] out cur queue out1 Hh) as (bl & B1 & B2 & B3 & B4 & B5 & B6 & B7);
      [lia|lia|apply Forall_nil|cbn [concat]; change (tbytes []) with (@nil Z); rewrite zlen_nil; lia|reflexivity|split; [reflexivity|constructor]|exact E|]. cbn [concat app] in B3. clear E.
    subst queue. cbn [app] in H. unfold generate_root_node in H. cbn [length generate_root_loop Nat.eqb] in H. cbn [bind] in H.
    apply bind_ret in H. destruct H as ([im o2] & H1 & H). cbn [fst snd] in H. rinj H.
    destruct (IH out1 im out' (sk_ext_healthy _ _ _ B5 Hh) NE F H1) as [A B]. rewrite rows_tbytes. split; [|exact (sk_ext_trans _ _ _ _ _ B5 B)].
    cbn [map]. rewrite A, (se_pos _ _ _ B5). f_equal. unfold nrow. cbn [fst snd]. f_equal.
    change (with_end (sk_pos out + zlen (tbytes L)) (mkIN (block_entries (sk_pos out) bl) 0 LeafMeasurement)) with (mkIN (block_entries (sk_pos out) bl) (sk_pos out + zlen (tbytes L)) LeafMeasurement).
    rewrite <- B3. fold (leaf_node (sk_pos out) bl). rewrite leaf_image by (try rewrite B3; auto). rewrite rows_tbytes. reflexivity.
Qed.
Lemma device_entries_exact : forall l node out node' out', is_healthy out -> device_entries l node out = (node', out') ->
  exists es, node' = mkIN (in_children node ++ es) (in_end node) (in_type node) /\
    map entry_of es = entries (sk_pos out) (map (fun x => [x]) (map nrow l)) /\ sk_ext out out' (rows_bytes (map nrow l)).
Proof.
  induction l as [|[d n] l IH]; intros node out node' out' Hh H; cbn [device_entries] in H.
  - injection H as <- <-. exists []. rewrite app_nil_r. split; [destruct node; auto|]. split; [constructor|]. apply sk_ext_refl.
  - pose proof (wexec_healthy_fst (index_node_serialize n) out Hh) as X. set (o1 := fst (wexec (index_node_serialize n) out)) in *.
    destruct (IH _ _ _ _ (sk_ext_healthy _ _ _ X Hh) H) as (es & A & B & C). cbn [push_child in_children in_end in_type] in A.
    exists (mkIE d (sk_pos out) :: es). split; [rewrite A, <- app_assoc; reflexivity|]. split; [|exact (sk_ext_trans _ _ _ _ _ X C)].
    cbn [map entries hd nrow fst snd]. rewrite B, (se_pos _ _ _ X). unfold entry_of. cbn [ie_name ie_offset]. unfold rows_bytes. cbn [map concat snd]. rewrite app_nil_r. reflexivity.
Qed.
Lemma entries_names : forall A (f : A -> list Z * list Z) l o, map fst (entries o (map (fun x => [x]) (map f l))) = map (fun x => fst (f x)) l.
Proof. induction l as [|a l IH]; intros o; [reflexivity|]. cbn [map entries hd fst]. f_equal. apply IH. Qed.

(** ** [end_file] *)
Lemma end_file_exact : forall p ord io io' tsm, (forall l, Permutation (ord l) l) -> is_healthy (io_out io) -> sk_pos (io_out io) = zlen (sk_data (io_out io)) ->
  end_file p ord io = Ret io' -> brief (sk_data (io_out io)) (sk_data (io_out io')) ->
  metadata_loop p None (chunk_map (io_groups io)) (io_tsmeta io) = Ret tsm -> no_empty tsm ->
  Forall (fun dl => zlen (fst dl) < 2 ^ 31 /\ zlen (snd dl) <= 65536 /\ Forall (fun tm => zlen (tm_id tm) < 2 ^ 31) (snd dl)) tsm ->
  exists nodes bf bw, Permutation nodes (device_nodes (zlen (sk_data (io_out io)) + 1) (map dev_rows tsm)) /\
    bloom_build p (map fst (chunk_map (io_groups io))) = Ret bf /\ bloom_serialize bf = Ret bw /\
    let head := sk_data (io_out io) ++ [2] ++ concat (map (fun dr => rows_bytes (snd dr)) (map dev_rows tsm)) in
    let o := zlen head in
    let foot := node_image (entries o (map (fun x => [x]) nodes)) (o + zlen (rows_bytes nodes)) 1 ++ digits 8 (zlen (sk_data (io_out io))) ++ wbytes bw in
    sk_data (io_out io') = head ++ rows_bytes nodes ++ foot ++ digits 4 (zlen foot) ++ magic.
Proof.
  intros p ord io io' tsm Ho Hh Hp H L HM NE F. unfold end_file in H. cbv zeta in H. rewrite HM in H. cbn [bind] in H.
  apply bind_ret in H. destruct H as ([root o2] & HC & H). cbv beta iota in H.
  apply bind_ret in H. destruct H as (bf & HB & H). apply bind_ret in H. destruct H as (bw & HW & H).
  pose proof (wexec_healthy_fst (WAll [2]) _ Hh) as X0. cbn [wbytes] in X0.
  assert (P0 : sk_pos (fst (wexec (WAll [2]) (io_out io))) = zlen (sk_data (io_out io)) + 1). { rewrite (se_pos _ _ _ X0), Hp. reflexivity. }
  pose proof (sk_ext_healthy _ _ _ X0 Hh) as H0. set (o0 := fst (wexec (WAll [2]) (io_out io))) in *. clearbody o0.
  unfold construct_metadata_index in HC. apply bind_ret in HC. destruct HC as ([imap o1] & D1 & HC). destruct (Nat.leb_spec (length imap) cfg_max_degree_of_index_node) as [LI|LI]; [|discriminate].
  change cfg_max_degree_of_index_node with 256%nat in *.
  destruct (device_entries (ord imap) (index_node_new LeafDevice) o1) as [node o2'] eqn:E. rinj HC.
  destruct (device_loop_exact tsm o0 imap o1 H0 NE) as [A B]; [eapply Forall_impl; [|exact F]; cbn; tauto|exact D1|].
  pose proof (sk_ext_healthy _ _ _ B H0) as H1.
  destruct (device_entries_exact _ _ _ _ _ H1 E) as (es & E1 & E2 & E3). cbn [index_node_new in_children in_end in_type app] in E1. subst node.
  pose proof (sk_ext_healthy _ _ _ E3 H1) as H2. set (nodes := map nrow (ord imap)) in *.
  set (root := with_end (sk_pos o2) (mkIN es 0 LeafDevice)) in *.
  assert (PN : Permutation nodes (device_nodes (zlen (sk_data (io_out io)) + 1) (map dev_rows tsm))).
  { rewrite <- P0, <- A. unfold nodes. apply Permutation_map. apply Ho. }
  assert (RI : nbytes root = node_image (entries (sk_pos o1) (map (fun x => [x]) nodes)) (sk_pos o1 + zlen (rows_bytes nodes)) 1).
  { rewrite node_image_ok; cbn [root with_end in_children in_end in_type node_type_code].
    - rewrite E2, (se_pos _ _ _ E3). reflexivity.
    - assert (X : Forall (fun n => zlen n < 2 ^ 31) (map fst (map entry_of es))).
      { rewrite E2. unfold nodes. rewrite entries_names. apply Forall_forall. intros d I. apply in_map_iff in I. destruct I as (x & <- & I).
        apply (Permutation_in _ (Ho imap)) in I. cbn [nrow fst]. destruct (device_loop_ext _ _ _ _ _ H0 D1) as [K _]. rewrite (nonempty_id _ _ NE) in K.
        apply (in_map fst) in I. rewrite K in I. apply in_map_iff in I. destruct I as (y & <- & I). rewrite Forall_forall in F. apply (F _ I). }
      rewrite map_map in X. rewrite Forall_map in X. exact X.
    - assert (Y : length es = length imap).
      { apply (f_equal (@length _)) in E2. rewrite map_length in E2. rewrite E2, <- (map_length fst). unfold nodes. rewrite entries_names, map_length. apply Permutation_length, Ho. }
      unfold zlen. lia. }
  clearbody root.
  pose proof (wexec_healthy_fst (ts_file_metadata_serialize root (sk_pos (io_out io))) o2 H2) as X2. set (q2 := fst (wexec (ts_file_metadata_serialize root (sk_pos (io_out io))) o2)) in *. clearbody q2.
  pose proof (sk_ext_healthy _ _ _ X2 H2) as H2'. pose proof (wexec_healthy_fst bw q2 H2') as X3. set (o3 := fst (wexec bw q2)) in *. clearbody o3.
  pose proof (sk_ext_healthy _ _ _ X3 H2') as H3.
  pose proof (wexec_healthy_fst (WAll (be_bytes 4 (wrapU 32 (sk_pos o3 - sk_pos o2)))) o3 H3) as X4. set (o4 := fst (wexec (WAll (be_bytes 4 (wrapU 32 (sk_pos o3 - sk_pos o2)))) o3)) in *. clearbody o4.
  pose proof (sk_ext_healthy _ _ _ X4 H3) as H4. pose proof (wexec_healthy_fst (WAll MAGIC) o4 H4) as X5. set (o5 := fst (wexec (WAll MAGIC) o4)) in *. clearbody o5.
  rinj H. cbn [io_with_out io_out] in *. cbn [wbytes] in X4, X5.
  exists nodes, bf, bw. split; [exact PN|]. split; [exact HB|]. split; [exact HW|]. cbv zeta.
  set (head := sk_data (io_out io) ++ [2] ++ concat (map (fun dr => rows_bytes (snd dr)) (map dev_rows tsm))).
  assert (HD : sk_data o1 = head). { rewrite (se_data _ _ _ B), (se_data _ _ _ X0). unfold head. rewrite <- app_assoc. reflexivity. }
  assert (HO : sk_pos o1 = zlen head). { rewrite (se_pos _ _ _ B), P0. unfold head. rewrite !zlen_app. change (zlen [2]) with 1. lia. }
  rewrite <- HO, <- RI.
  assert (FT : wbytes (ts_file_metadata_serialize root (sk_pos (io_out io))) ++ wbytes bw = nbytes root ++ digits 8 (zlen (sk_data (io_out io))) ++ wbytes bw).
  { unfold ts_file_metadata_serialize. cbn [wbytes]. rewrite app_nil_r, digits_be, Hp, <- app_assoc. reflexivity. }
  set (foot := nbytes root ++ digits 8 (zlen (sk_data (io_out io))) ++ wbytes bw) in *.
  assert (SZ : sk_pos o3 - sk_pos o2 = zlen foot). { rewrite (se_pos _ _ _ X3), (se_pos _ _ _ X2), <- FT, zlen_app. lia. }
  assert (D : sk_data o5 = head ++ rows_bytes nodes ++ foot ++ be_bytes 4 (wrapU 32 (zlen foot)) ++ MAGIC).
  { rewrite (se_data _ _ _ X5), (se_data _ _ _ X4), (se_data _ _ _ X3), (se_data _ _ _ X2), (se_data _ _ _ E3), HD, SZ, <- FT. rewrite <- !app_assoc. reflexivity. }
  destruct L as [L _]. rewrite D in *. unfold head in L at 1. rewrite !zlen_app in L. pose proof (zlen_nonneg _ [2]). pose proof (zlen_nonneg _ (concat (map (fun dr => rows_bytes (snd dr)) (map dev_rows tsm)))). pose proof (zlen_nonneg _ foot). pose proof (zlen_nonneg _ head). pose proof (zlen_nonneg _ (rows_bytes nodes)).
  pose proof (zlen_nonneg _ (be_bytes 4 (wrapU 32 (zlen foot)))). pose proof (zlen_nonneg _ MAGIC). rewrite wrapU_small by lia. rewrite digits_be. reflexivity.
Qed.
