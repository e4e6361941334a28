(** The metadata index and footer written by [end_file], read back (C17, C18, C20, C21, C24). *)
From Verif Require Export PHist PBloom.
From Coq Require Import Permutation.
Ltac Zify.zify_post_hook ::= idtac.

Lemma F2_impl : forall A B (P Q : A -> B -> Prop) l m, (forall a b, P a b -> Q a b) -> Forall2 P l m -> Forall2 Q l m.
Proof. intros A B P Q l m H F. induction F; constructor; auto. Qed.

(** ** Bytes inside a file *)
Definition at_ (file : list Z) (o : Z) (bs : list Z) : Prop := exists a b, file = a ++ bs ++ b /\ o = zlen a.
Lemma at_ext : forall f o bs x, at_ f o bs -> at_ (f ++ x) o bs.
Proof. intros f o bs x (a & b & -> & ->). exists a, (b ++ x). split; auto. rewrite <- !app_assoc. auto. Qed.
Lemma at_end : forall f bs, at_ (f ++ bs) (zlen f) bs.
Proof. intros f bs. exists f, []. rewrite app_nil_r. auto. Qed.
Lemma at_sub : forall f o x bs y, at_ f o (x ++ bs ++ y) -> at_ f (o + zlen x) bs.
Proof. intros f o x bs y (a & b & -> & ->). exists (a ++ x), (y ++ b). rewrite zlen_app, <- !app_assoc. auto. Qed.
Lemma at_drop : forall f o bs, at_ f o bs -> exists b, drop o f = Some (bs ++ b).
Proof. intros f o bs (a & b & -> & ->). exists b. apply drop_app. auto. Qed.
Lemma at_slice : forall f o bs e, at_ f o bs -> e = o + zlen bs -> slice o e f = Some bs.
Proof.
  intros f o bs e (a & b & -> & ->) ->. unfold slice. rewrite (drop_app _ _ _ eq_refl).
  rewrite take_app_n by lia. reflexivity.
Qed.
Lemma at_range : forall f o bs, at_ f o bs -> 0 <= o /\ o + zlen bs <= zlen f.
Proof. intros f o bs (a & b & -> & ->). rewrite !zlen_app. pose proof (zlen_nonneg _ a). pose proof (zlen_nonneg _ b). lia. Qed.

(** ** Nodes *)
Definition entry_of (e : index_entry) : list Z * Z := (ie_name e, ie_offset e).
Definition node_of (n : index_node) : node := mkNode (map entry_of (in_children n)) (in_end n) (node_type_code (in_type n)).
Definition entry_ok (e : index_entry) : Prop := zlen (ie_name e) < 2 ^ 31 /\ 0 <= ie_offset e < 2 ^ 64.
Definition inode_ok (n : index_node) : Prop := Forall entry_ok (in_children n) /\ 0 <= in_end n < 2 ^ 64 /\ zlen (in_children n) < 2 ^ 32.
Lemma entry_roundtrip : forall e rest, entry_ok e -> entry_read (wbytes (index_entry_serialize e) ++ rest) = Some (entry_of e, rest).
Proof.
  intros e rest [H1 H2]. unfold entry_read, index_entry_serialize. cbn [wbytes]. rewrite app_nil_r, <- app_assoc.
  rewrite write_str_roundtrip by auto. rewrite (be_unsigned_small 8) by exact H2. reflexivity.
Qed.
Definition entries_bytes (es : list index_entry) : list Z := concat (map (fun e => wbytes (index_entry_serialize e)) es).
Lemma entries_roundtrip : forall es rest, Forall entry_ok es -> times_read (length es) entry_read (entries_bytes es ++ rest) = Some (map entry_of es, rest).
Proof.
  induction es as [|e es IH]; intros rest F; [reflexivity|]. inversion F; subst. unfold entries_bytes. cbn [length times_read map concat].
  rewrite <- app_assoc, entry_roundtrip by auto. unfold entries_bytes in IH. rewrite IH by auto. reflexivity.
Qed.
Lemma node_bytes : forall n, wbytes (index_node_serialize n) =
  wbytes (write_var_u32 (wrapU 32 (zlen (in_children n)))) ++ entries_bytes (in_children n) ++ be_bytes 8 (in_end n) ++ [node_type_code (in_type n)].
Proof.
  intros n. unfold index_node_serialize. cbn [wbytes]. f_equal. unfold entries_bytes. induction (in_children n) as [|e es IH]; cbn [fold_right wbytes map concat app].
  - cbn [node_type_serialize wbytes]. rewrite !app_nil_r. reflexivity.
  - rewrite IH, <- !app_assoc. reflexivity.
Qed.
Lemma node_roundtrip : forall n rest, inode_ok n -> node_read (wbytes (index_node_serialize n) ++ rest) = Some (node_of n, rest).
Proof.
  intros n rest (H1 & H2 & H3). rewrite node_bytes. pose proof (zlen_nonneg _ (in_children n)).
  rewrite wrapU_small by lia. unfold node_read. rewrite <- !app_assoc. rewrite var_u32_roundtrip by lia.
  unfold zlen at 1. rewrite Nat2Z.id, entries_roundtrip by auto. rewrite (be_unsigned_small 8) by exact H2. cbn [app byte_field]. reflexivity.
Qed.

(** ** Footer *)
Lemma footer_read_ok : forall pre root meta bw blk, inode_ok root -> 0 <= meta < 2 ^ 64 ->
  (forall rest, bloom_read (wbytes bw ++ rest) = Some (blk, rest)) ->
  let body := wbytes (ts_file_metadata_serialize root meta) ++ wbytes bw in
  zlen body < 2 ^ 32 ->
  footer_read (pre ++ body ++ be_bytes 4 (zlen body) ++ MAGIC) = Some (mkFooter (node_of root) meta blk (zlen body)).
Proof.
  intros pre root meta bw blk R M B body L. pose proof (zlen_nonneg _ body) as LB. unfold footer_read. cbv zeta.
  set (file := pre ++ body ++ be_bytes 4 (zlen body) ++ MAGIC).
  assert (LF : zlen file = zlen pre + zlen body + 10). { unfold file. rewrite !zlen_app, be_bytes_zlen. change (zlen MAGIC) with 6. lia. }
  change (Z.of_nat (length file)) with (zlen file). rewrite LF.
  assert (A : at_ file (zlen pre) body). { exists pre, (be_bytes 4 (zlen body) ++ MAGIC). auto. }
  assert (A2 : at_ file (zlen pre + zlen body) (be_bytes 4 (zlen body))). { exists (pre ++ body), MAGIC. rewrite zlen_app, <- app_assoc. auto. }
  assert (A3 : at_ file (zlen pre + zlen body + 4) MAGIC).
  { exists (pre ++ body ++ be_bytes 4 (zlen body)), []. rewrite !zlen_app, be_bytes_zlen, app_nil_r, <- !app_assoc. split; auto. lia. }
  replace (zlen pre + zlen body + 10 - 6) with (zlen pre + zlen body + 4) by lia.
  rewrite (at_slice _ _ _ (zlen pre + zlen body + 10) A3) by (change (zlen MAGIC) with 6; lia).
  destruct (list_eq_dec Z.eq_dec MAGIC magic) as [_|N]; [|exfalso; apply N; reflexivity].
  replace (zlen pre + zlen body + 10 - 10) with (zlen pre + zlen body) by lia.
  rewrite (at_slice _ _ _ (zlen pre + zlen body + 4) A2) by (rewrite be_bytes_zlen; lia).
  rewrite be_val_be_bytes. rewrite Z.mod_small by (change (256 ^ Z.of_nat 4) with (2 ^ 32); lia).
  replace (zlen pre + zlen body - zlen body) with (zlen pre) by lia.
  rewrite (at_slice _ _ _ (zlen pre + zlen body) A) by lia.
  unfold body at 1. unfold ts_file_metadata_serialize. cbn [wbytes]. rewrite app_nil_r, <- !app_assoc. rewrite node_roundtrip by auto.
  rewrite (be_unsigned_small 8) by exact M. specialize (B []). rewrite app_nil_r in B. rewrite B. reflexivity.
Qed.

(** ** Time series metadata of a device *)
Definition tser (m : ts_meta) : list Z := wbytes (ts_meta_serialize m).
Definition tbytes (l : list ts_meta) : list Z := concat (map tser l).
Lemma tbytes_app : forall a b, tbytes (a ++ b) = tbytes a ++ tbytes b.
Proof. intros. unfold tbytes. rewrite map_app, concat_app. auto. Qed.
Definition first_id (b : list ts_meta) : list Z := match b with m :: _ => tm_id m | [] => [] end.
Fixpoint block_entries (o : Z) (bs : list (list ts_meta)) : list index_entry :=
  match bs with
  | [] => []
  | b :: bs' => mkIE (first_id b) o :: block_entries (o + zlen (tbytes b)) bs'
  end.
Lemma block_entries_snoc : forall bs o b, block_entries o (bs ++ [b]) = block_entries o bs ++ [mkIE (first_id b) (o + zlen (tbytes (concat bs)))].
Proof.
  induction bs as [|a bs IH]; intros o b; cbn [app block_entries concat].
  - change (tbytes []) with (@nil Z). rewrite zlen_nil, Z.add_0_r. reflexivity.
  - rewrite IH, tbytes_app, zlen_app, Z.add_assoc. reflexivity.
Qed.
Lemma block_entries_length : forall bs o, length (block_entries o bs) = length bs.
Proof. induction bs; intros; cbn [block_entries length]; auto. Qed.
(** Blocks of 256, the last one possibly shorter *)
Definition cut256 (bs : list (list ts_meta)) : Prop :=
  zlen bs = (zlen (concat bs) + 255) / 256 /\ Forall (fun b => zlen b = 256) (removelast bs).
Lemma concat_256 : forall (bs : list (list ts_meta)), Forall (fun b => zlen b = 256) bs -> zlen (concat bs) = 256 * zlen bs.
Proof. intros bs F. induction F as [|b bs E F IH]; [reflexivity|]. cbn [concat]. rewrite zlen_app, zlen_cons, IH, E. lia. Qed.
Lemma mloop_spec : forall l i o0 blocks e t queue out cur' queue' out', is_healthy out -> 0 <= i -> i + zlen l <= 65536 ->
  Forall (fun b => b <> []) blocks -> sk_pos out = o0 + zlen (tbytes (concat blocks)) -> zlen (concat blocks) = i -> cut256 blocks ->
  measurement_loop 256 i l (mkIN (block_entries o0 blocks) e t) queue out = (cur', queue', out') ->
  exists blocks', cur' = mkIN (block_entries o0 blocks') e t /\ queue' = queue /\ concat blocks' = concat blocks ++ l /\
    Forall (fun b => b <> []) blocks' /\ sk_ext out out' (tbytes l) /\ zlen blocks' <= 256 /\ cut256 blocks'.
Proof.
  induction l as [|m l IH]; intros i o0 blocks e t queue out cur' queue' out' Hh Hi Hl Hb Hp Hc Hcut H; destruct Hcut as [Hn Hfull]; rewrite Hc in Hn.
  - cbn [measurement_loop] in H. injection H as <- <- <-. exists blocks. rewrite app_nil_r. rewrite zlen_nil in Hl. split; [auto|]. split; [auto|]. split; [auto|]. split; [auto|]. split; [apply sk_ext_refl|].
    split; [rewrite Hn; apply Z.lt_succ_r; apply Z.div_lt_upper_bound; lia|]. split; [rewrite Hc; exact Hn|exact Hfull].
  - rewrite zlen_cons in Hl. pose proof (zlen_nonneg _ l) as Ll. cbn [measurement_loop] in H. change (Z.of_nat 256) with 256 in H.
    pose proof (wexec_healthy_fst (ts_meta_serialize m) out Hh) as X. set (out1 := fst (wexec (ts_meta_serialize m) out)) in *.
    pose proof (sk_ext_healthy _ _ _ X Hh) as Hh1.
    assert (ZB : zlen (block_entries o0 blocks) = zlen blocks) by (unfold zlen; rewrite block_entries_length; auto).
    assert (N : exists blocks1, (if i mod 256 =? 0 then
          let '(cur, queue) := if is_full 256 (mkIN (block_entries o0 blocks) e t) then (index_node_new LeafMeasurement, queue ++ [with_end (sk_pos out) (mkIN (block_entries o0 blocks) e t)])
            else (mkIN (block_entries o0 blocks) e t, queue) in
          (push_child (mkIE (tm_id m) (sk_pos out)) cur, queue)
        else (mkIN (block_entries o0 blocks) e t, queue)) = (mkIN (block_entries o0 blocks1) e t, queue) /\
        concat blocks1 = concat blocks ++ [m] /\ Forall (fun b => b <> []) blocks1 /\ zlen blocks1 = (i + 1 + 255) / 256 /\ Forall (fun b => zlen b = 256) (removelast blocks1)).
    { destruct (Z.eqb_spec (i mod 256) 0) as [E|E].
      - assert (D : i = 256 * (i / 256)) by (pose proof (Z.div_mod i 256 ltac:(lia)); lia).
        assert (Q : (i + 255) / 256 = i / 256) by (symmetry; apply (Z.div_unique _ _ _ 255); lia).
        assert (NF : is_full 256 (mkIN (block_entries o0 blocks) e t) = false).
        { unfold is_full. cbn [in_children]. apply Nat.leb_gt. unfold zlen in ZB, Hn. lia. }
        rewrite NF. exists (blocks ++ [[m]]). unfold push_child. cbn [in_children in_end in_type]. rewrite block_entries_snoc. cbn [first_id]. rewrite <- Hp.
        split; [reflexivity|]. split; [rewrite concat_app; reflexivity|]. split; [apply Forall_app; split; auto; repeat constructor; discriminate|].
        split; [rewrite zlen_app, Hn; change (zlen [[m]]) with 1; rewrite Q; apply (Z.div_unique _ _ _ 0); lia|].
        rewrite removelast_last. destruct blocks as [|b0 bs0]; [constructor|]. destruct (exists_last (l := b0 :: bs0) ltac:(discriminate)) as (bs & b & EB). rewrite EB in *. clear EB b0 bs0.
        rewrite removelast_last in Hfull. apply Forall_app. split; [exact Hfull|]. apply Forall_cons; [|apply Forall_nil]. pose proof (concat_256 _ Hfull) as CL.
        rewrite concat_app, zlen_app in Hc. cbn [concat] in Hc. rewrite app_nil_r in Hc. rewrite zlen_app in Hn. change (zlen [b]) with 1 in Hn. lia.
      - assert (D : blocks <> []).
        { intros ->. rewrite zlen_nil in Hn. pose proof (Z.div_mod (i + 255) 256 ltac:(lia)). pose proof (Z.mod_pos_bound (i + 255) 256 ltac:(lia)).
          assert (i = 0) by lia. subst i. apply E. reflexivity. }
        destruct (exists_last D) as (bs & b & ->). apply Forall_app in Hb. destruct Hb as [Hb1 Hb2]. pose proof (Forall_inv Hb2) as Hb3. cbv beta in Hb3.
        exists (bs ++ [b ++ [m]]). split; [|split; [|split; [|split]]].
        + rewrite !block_entries_snoc. destruct b; [congruence|]. reflexivity.
        + rewrite !concat_app. cbn [concat]. rewrite !app_nil_r, <- app_assoc. reflexivity.
        + apply Forall_app. split; auto. repeat constructor. destruct b; discriminate.
        + rewrite zlen_app in *. change (zlen [b ++ [m]]) with 1. change (zlen [b]) with 1 in Hn. rewrite Hn.
          assert (D2 : i = 256 * (i / 256) + i mod 256) by (apply Z.div_mod; lia). pose proof (Z.mod_pos_bound i 256 ltac:(lia)).
          transitivity (i / 256 + 1); [symmetry|]; [apply (Z.div_unique _ _ _ (i mod 256 - 1)); lia|apply (Z.div_unique _ _ _ (i mod 256)); lia].
        + rewrite removelast_last in *. exact Hfull. }
    destruct N as (blocks1 & N1 & N2 & N3 & N4 & N5).
    assert (C1 : zlen (concat blocks1) = i + 1) by (rewrite N2, zlen_app, Hc; reflexivity). rewrite N1 in H.
    destruct (IH (i + 1) o0 blocks1 e t queue out1 cur' queue' out' Hh1 ltac:(lia) ltac:(lia) N3) as (blocks' & P1 & P2 & P3 & P4 & P5 & P6 & P7); auto.
    { rewrite (se_pos _ _ _ X), Hp, N2, tbytes_app, zlen_app. replace (tbytes [m]) with (tser m) by (unfold tbytes; cbn [map concat]; rewrite app_nil_r; reflexivity). unfold tser. lia. }
    { split; [rewrite C1; exact N4|exact N5]. }
    exists blocks'. split; [auto|]. split; [auto|]. split; [rewrite P3, N2, <- app_assoc; reflexivity|]. split; [auto|]. split; [|auto].
    change (tbytes (m :: l)) with (tser m ++ tbytes l). exact (sk_ext_trans _ _ _ _ _ X P5).
Qed.

(** The leaf node of a device whose metadata starts at [o]. *)
Definition leaf_node (o : Z) (blocks : list (list ts_meta)) : index_node :=
  mkIN (block_entries o blocks) (o + zlen (tbytes (concat blocks))) LeafMeasurement.
Record leaf_ok (file : list Z) (l : list ts_meta) (n : index_node) : Prop := {
  lo_node : exists o blocks, n = leaf_node o blocks /\ concat blocks = l /\ Forall (fun b => b <> []) blocks /\ zlen blocks <= 256 /\ at_ file o (tbytes l) /\ cut256 blocks }.
Lemma leaf_ok_ext : forall file x l n, leaf_ok file l n -> leaf_ok (file ++ x) l n.
Proof. intros file x l n [(o & bl & H1 & H2 & H3 & H4 & H5 & H6)]. split. exists o, bl. do 4 (split; [auto|]). split; [|auto]. apply at_ext. auto. Qed.
Definition nonempty {V} (m : smap (list V)) : smap (list V) := filter (fun kv => match snd kv with [] => false | _ => true end) m.
Lemma mloop_ext : forall deg l i cur queue out cur' queue' out', is_healthy out ->
  measurement_loop deg i l cur queue out = (cur', queue', out') -> sk_ext out out' (tbytes l).
Proof.
  intros deg l. induction l as [|m l IH]; intros i cur queue out cur' queue' out' Hh H; cbn [measurement_loop] in H.
  - injection H as <- <- <-. apply sk_ext_refl.
  - match type of H with (let '(_, _) := ?x in _) = _ => destruct x as [c q] end.
    pose proof (wexec_healthy_fst (ts_meta_serialize m) out Hh) as X. apply IH in H; [|exact (sk_ext_healthy _ _ _ X Hh)].
    change (tbytes (m :: l)) with (tser m ++ tbytes l). exact (sk_ext_trans _ _ _ _ _ X H).
Qed.
Lemma device_loop_ext : forall deg tsm out imap out', is_healthy out -> device_loop deg tsm out = Ret (imap, out') ->
  map fst imap = map fst (nonempty tsm) /\ sk_ext out out' (concat (map (fun dl => tbytes (snd dl)) tsm)).
Proof.
  intros deg tsm. induction tsm as [|[d l] tsm IH]; intros out imap out' Hh H; cbn [device_loop] in H.
  - rinj H. split; [reflexivity|apply sk_ext_refl].
  - cbn [map concat nonempty filter snd]. destruct l as [|m l]; [exact (IH _ _ _ Hh H)|]. cbn [map fst].
    destruct (measurement_loop deg 0 (m :: l) (index_node_new LeafMeasurement) [] out) as [[cur queue] out1] eqn:E.
    pose proof (mloop_ext _ _ _ _ _ _ _ _ _ Hh E) as X. apply bind_ret in H. destruct H as (root & _ & H).
    apply bind_ret in H. destruct H as ([im o2] & H1 & H). cbn [fst snd] in H. rinj H.
    destruct (IH _ _ _ (sk_ext_healthy _ _ _ X Hh) H1) as [A B]. split; [cbn [map fst]; f_equal; exact A|exact (sk_ext_trans _ _ _ _ _ X B)].
Qed.
Lemma device_loop_spec : forall tsm out imap out', is_healthy out -> sk_pos out = zlen (sk_data out) ->
  Forall (fun dl => zlen (snd dl) <= 65536) tsm -> device_loop 256 tsm out = Ret (imap, out') ->
  Forall2 (fun dl dn => fst dn = fst dl /\ leaf_ok (sk_data out') (snd dl) (snd dn)) (nonempty tsm) imap /\
  sk_ext out out' (concat (map (fun dl => tbytes (snd dl)) tsm)).
Proof.
  induction tsm as [|[d l] tsm IH]; intros out imap out' Hh Hp F H; cbn [device_loop] in H.
  - rinj H. split; [constructor|apply sk_ext_refl].
  - pose proof (Forall_inv F) as F1. apply Forall_inv_tail in F. cbn [snd] in F1. cbn [map concat nonempty filter snd].
    destruct l as [|m l]. { destruct (IH _ _ _ Hh Hp F H) as [A B]. split; auto. }
    set (L := m :: l) in *. destruct (measurement_loop 256 0 L (index_node_new LeafMeasurement) [] out) as [[cur queue] out1] eqn:E.
    change (index_node_new LeafMeasurement) with (mkIN (block_entries (sk_pos out) []) 0 LeafMeasurement) in E.
    destruct (mloop_spec L 0 (sk_pos out) [] 0 LeafMeasurement [] out cur queue out1 Hh) as (bl & B1 & B2 & B3 & B4 & B5 & B6 & B7);
      [lia|lia|apply Forall_nil|cbn [concat]; change (tbytes []) with (@nil Z); rewrite zlen_nil; lia|reflexivity|split; [reflexivity|constructor]|exact E|]. cbn [concat app] in B3. clear E.
    subst queue. cbn [app] in H. unfold generate_root_node in H. cbn [length generate_root_loop Nat.eqb] in H. cbn [bind] in H.
    apply bind_ret in H. destruct H as ([im o2] & H1 & H). cbn [fst snd] in H. rinj H.
    assert (P1 : sk_pos out1 = zlen (sk_data out1)). { rewrite (se_data _ _ _ B5), (se_pos _ _ _ B5), zlen_app. lia. }
    destruct (IH out1 im out' (sk_ext_healthy _ _ _ B5 Hh) P1 F H1) as [A B]. split; [|exact (sk_ext_trans _ _ _ _ _ B5 B)].
    constructor; [|exact A]. cbn [fst snd]. split; [reflexivity|]. rewrite (se_data _ _ _ B). apply leaf_ok_ext. split. exists (sk_pos out), bl.
    split; [|split; [exact B3|split; [exact B4|split; [exact B6|split; [|exact B7]]]]].
    + unfold with_end, leaf_node. cbn [in_children in_type]. rewrite (se_pos _ _ _ B5), B3. reflexivity.
    + rewrite (se_data _ _ _ B5), Hp. apply at_end.
Qed.

(** The root: one entry per device, pointing to its node. *)
Definition nbytes (n : index_node) : list Z := wbytes (index_node_serialize n).
(** Entries laid out from [q] on *)
Definition starts_at (q : Z) (es : list index_entry) : Prop :=
  match es with [] => True | e :: _ => ie_offset e = q end /\ Forall (fun e => q <= ie_offset e) es.
Lemma device_entries_spec : forall l node out node' out', is_healthy out -> sk_pos out = zlen (sk_data out) ->
  device_entries l node out = (node', out') ->
  exists es, node' = mkIN (in_children node ++ es) (in_end node) (in_type node) /\
    Forall2 (fun dn e => ie_name e = fst dn /\ at_ (sk_data out') (ie_offset e) (nbytes (snd dn))) l es /\
    sk_ext out out' (concat (map (fun dn => nbytes (snd dn)) l)) /\ starts_at (sk_pos out) es.
Proof.
  induction l as [|[d n] l IH]; intros node out node' out' Hh Hp H; cbn [device_entries] in H.
  - injection H as <- <-. exists []. rewrite app_nil_r. split; [destruct node; auto|]. split; [constructor|]. split; [apply sk_ext_refl|]. split; [exact I|constructor].
  - pose proof (wexec_healthy_fst (index_node_serialize n) out Hh) as X. set (o1 := fst (wexec (index_node_serialize n) out)) in *.
    assert (P1 : sk_pos o1 = zlen (sk_data o1)). { rewrite (se_data _ _ _ X), (se_pos _ _ _ X), zlen_app. lia. }
    destruct (IH _ _ _ _ (sk_ext_healthy _ _ _ X Hh) P1 H) as (es & A & B & C & D1 & D2). cbn [push_child in_children in_end in_type] in A.
    exists (mkIE d (sk_pos out) :: es). split; [rewrite A, <- app_assoc; reflexivity|].
    assert (ST : starts_at (sk_pos out) (mkIE d (sk_pos out) :: es)).
    { split; [reflexivity|]. apply Forall_cons; [cbn [ie_offset]; lia|]. eapply Forall_impl; [|exact D2]. cbn beta. intros e. rewrite (se_pos _ _ _ X).
      pose proof (zlen_nonneg _ (wbytes (index_node_serialize n))). lia. }
    split; [|split; [exact (sk_ext_trans _ _ _ _ _ X C)|exact ST]].
    constructor; [|exact B]. cbn [ie_name ie_offset fst snd]. split; auto. rewrite (se_data _ _ _ C), (se_data _ _ _ X), Hp. apply at_ext, at_end.
Qed.
Definition root_ok (file : list Z) (imap : list (str * index_node)) (root : index_node) : Prop :=
  in_type root = LeafDevice /\ Forall2 (fun dn e => ie_name e = fst dn /\ at_ file (ie_offset e) (nbytes (snd dn))) imap (in_children root).
(** The nodes come from the device loop; the root's entries begin where it stopped. *)
Definition loop_ok (file : list Z) (tsm : smap (list ts_meta)) (imap : list (str * index_node)) (root : index_node) : Prop :=
  exists oa ob x, is_healthy oa /\ 0 <= sk_pos oa /\ device_loop 256 tsm oa = Ret (imap, ob) /\ sk_pos ob = zlen (sk_data ob) /\ file = sk_data ob ++ x /\ starts_at (sk_pos ob) (in_children root).
Lemma construct_spec : forall ord tsm out root out', is_healthy out -> sk_pos out = zlen (sk_data out) ->
  construct_metadata_index 256 ord tsm out = Ret (root, out') ->
  exists imap bs, map fst imap = map fst (nonempty tsm) /\ loop_ok (sk_data out') tsm imap root /\
    (Forall (fun dl => zlen (snd dl) <= 65536) tsm -> Forall2 (fun dl dn => fst dn = fst dl /\ leaf_ok (sk_data out') (snd dl) (snd dn)) (nonempty tsm) imap) /\
    zlen imap <= 256 /\ root_ok (sk_data out') (ord imap) root /\ in_end root = zlen (sk_data out') /\ sk_ext out out' bs.
Proof.
  intros ord tsm out root out' Hh Hp H. unfold construct_metadata_index in H. apply bind_ret in H. destruct H as ([imap o1] & H1 & H).
  destruct (device_loop_ext _ _ _ _ _ Hh H1) as [A B]. destruct (Nat.leb_spec (length imap) 256) as [L|L]; [|discriminate].
  destruct (device_entries (ord imap) (index_node_new LeafDevice) o1) as [node o2] eqn:E. rinj H.
  assert (P1 : sk_pos o1 = zlen (sk_data o1)). { rewrite (se_data _ _ _ B), (se_pos _ _ _ B), zlen_app. lia. }
  destruct (device_entries_spec _ _ _ _ _ (sk_ext_healthy _ _ _ B Hh) P1 E) as (es & E1 & E2 & E3 & E4). cbn [index_node_new in_children in_end in_type app] in E1. subst node.
  exists imap. eexists. split; [exact A|].
  split; [exists out, o1; eexists; split; [exact Hh|]; split; [rewrite Hp; apply zlen_nonneg|]; split; [exact H1|]; split; [exact P1|]; split; [exact (se_data _ _ _ E3)|exact E4]|].
  split; [|split; [unfold zlen; lia|split; [split; [reflexivity|exact E2]|split; [|exact (sk_ext_trans _ _ _ _ _ B E3)]]]].
  - intros F. destruct (device_loop_spec _ _ _ _ Hh Hp F H1) as [A' _].
    rewrite (se_data _ _ _ E3). eapply F2_impl; [|exact A']. cbn. intros a b [X Y]. split; auto. apply leaf_ok_ext. auto.
  - cbn [with_end in_end]. rewrite (se_data _ _ _ E3), (se_pos _ _ _ E3), zlen_app. lia.
Qed.
Lemma root_ok_ext : forall f x imap root, root_ok f imap root -> root_ok (f ++ x) imap root.
Proof. intros f x imap root [A B]. split; auto. eapply F2_impl; [|exact B]. cbn. intros a b [X Y]. split; auto. apply at_ext. auto. Qed.

(** ** The whole of [end_file] *)
(** What [end_file] appends has a four byte size, the whole a signed eight byte size. *)
Definition brief (a b : list Z) : Prop := zlen b - zlen a < 2 ^ 32 /\ zlen b < 2 ^ 63.
Lemma brief_of : forall a b, zlen b < 2 ^ 32 -> brief a b.
Proof. intros a b L. pose proof (zlen_nonneg _ a). assert (2 ^ 32 < 2 ^ 63) by reflexivity. split; lia. Qed.
Lemma end_file_rows : forall p ord io io' tsm, is_healthy (io_out io) -> sk_pos (io_out io) = zlen (sk_data (io_out io)) ->
  end_file p ord io = Ret io' -> metadata_loop p None (chunk_map (io_groups io)) (io_tsmeta io) = Ret tsm ->
  forall d l, In (d, l) tsm -> zlen (tbytes l) <= zlen (sk_data (io_out io')) - zlen (sk_data (io_out io)).
Proof.
  intros p ord io io' tsm Hh Hp H M d l I. unfold end_file in H. cbv zeta in H. rewrite M in H. cbn [bind] in H.
  apply bind_ret in H. destruct H as ([root o1] & HC & H). apply bind_ret in H. destruct H as (bf & _ & H). apply bind_ret in H. destruct H as (bw & _ & H).
  pose proof (wexec_healthy_fst (WAll [2]) _ Hh) as X0. set (o0 := fst (wexec (WAll [2]) (io_out io))) in *. clearbody o0. pose proof (sk_ext_healthy _ _ _ X0 Hh) as H0.
  assert (B : exists x, sk_ext o0 o1 (concat (map (fun dl => tbytes (snd dl)) tsm) ++ x)).
  { unfold construct_metadata_index in HC. apply bind_ret in HC. destruct HC as ([imap oa] & H1 & HC). destruct (device_loop_ext _ _ _ _ _ H0 H1) as [_ B].
    destruct (Nat.leb_spec (length imap) cfg_max_degree_of_index_node) as [L|L]; [|discriminate HC].
    destruct (device_entries (ord imap) (index_node_new LeafDevice) oa) as [node ob] eqn:E. rinj HC.
    assert (P0 : sk_pos o0 = zlen (sk_data o0)) by (rewrite (se_data _ _ _ X0), (se_pos _ _ _ X0), zlen_app; lia).
    assert (P1 : sk_pos oa = zlen (sk_data oa)) by (rewrite (se_data _ _ _ B), (se_pos _ _ _ B), zlen_app; lia).
    destruct (device_entries_spec _ _ _ _ _ (sk_ext_healthy _ _ _ B H0) P1 E) as (es & _ & _ & E3 & _). eexists. exact (sk_ext_trans _ _ _ _ _ B E3). }
  destruct B as (x & B). pose proof (sk_ext_healthy _ _ _ B H0) as H1.
  pose proof (wexec_healthy_fst (ts_file_metadata_serialize root (sk_pos (io_out io))) o1 H1) as X2. set (o2 := fst (wexec (ts_file_metadata_serialize root (sk_pos (io_out io))) o1)) in *. clearbody o2.
  pose proof (sk_ext_healthy _ _ _ X2 H1) as H2. pose proof (wexec_healthy_fst bw o2 H2) as X3. set (o3 := fst (wexec bw o2)) in *. clearbody o3.
  pose proof (sk_ext_healthy _ _ _ X3 H2) as H3.
  pose proof (wexec_healthy_fst (WAll (be_bytes 4 (wrapU 32 (sk_pos o3 - sk_pos o1)))) o3 H3) as X4. set (o4 := fst (wexec (WAll (be_bytes 4 (wrapU 32 (sk_pos o3 - sk_pos o1)))) o3)) in *. clearbody o4.
  pose proof (sk_ext_healthy _ _ _ X4 H3) as H4. pose proof (wexec_healthy_fst (WAll MAGIC) o4 H4) as X5. set (o5 := fst (wexec (WAll MAGIC) o4)) in *. clearbody o5.
  rinj H. cbn [io_with_out io_out] in *.
  rewrite (se_data _ _ _ X5), (se_data _ _ _ X4), (se_data _ _ _ X3), (se_data _ _ _ X2), (se_data _ _ _ B), (se_data _ _ _ X0), !zlen_app.
  assert (S : zlen (tbytes l) <= zlen (concat (map (fun dl => tbytes (snd dl)) tsm))).
  { clear - I. induction tsm as [|[d' l'] tsm IH]; [destruct I|]. cbn [map concat snd]. rewrite zlen_app. pose proof (zlen_nonneg _ (tbytes l')). pose proof (zlen_nonneg _ (concat (map (fun dl => tbytes (snd dl)) tsm))).
    destruct I as [I|I]; [injection I as -> ->; lia|apply IH in I; lia]. }
  repeat match goal with |- context [zlen ?y] => match goal with K : 0 <= zlen y |- _ => fail 1 | _ => pose proof (zlen_nonneg _ y) end end. lia.
Qed.
Lemma end_file_layout : forall p ord io io', is_healthy (io_out io) -> sk_pos (io_out io) = zlen (sk_data (io_out io)) ->
  end_file p ord io = Ret io' -> brief (sk_data (io_out io)) (sk_data (io_out io')) ->
  exists tsm imap root bf bw pre,
    metadata_loop p None (chunk_map (io_groups io)) (io_tsmeta io) = Ret tsm /\
    map fst imap = map fst (nonempty tsm) /\ loop_ok (sk_data (io_out io')) tsm imap root /\
    (Forall (fun dl => zlen (snd dl) <= 65536) tsm -> Forall2 (fun dl dn => fst dn = fst dl /\ leaf_ok (sk_data (io_out io')) (snd dl) (snd dn)) (nonempty tsm) imap) /\
    zlen imap <= 256 /\ root_ok (sk_data (io_out io')) (ord imap) root /\ 0 <= in_end root < 2 ^ 63 /\
    bloom_build p (map fst (chunk_map (io_groups io))) = Ret bf /\ bloom_serialize bf = Ret bw /\
    let body := wbytes (ts_file_metadata_serialize root (zlen (sk_data (io_out io)))) ++ wbytes bw in
    let index := sk_data (io_out io) ++ [2] ++ pre in
    sk_data (io_out io') = index ++ body ++ be_bytes 4 (zlen body) ++ MAGIC.
Proof.
  intros p ord io io' Hh Hp H [LB L]. unfold end_file in H. cbv zeta in H.
  apply bind_ret in H. destruct H as (tsm & HM & H). apply bind_ret in H. destruct H as ([root o1] & HC & H).
  apply bind_ret in H. destruct H as (bf & HB & H). apply bind_ret in H. destruct H as (bw & HW & H).
  pose proof (wexec_healthy_fst (WAll [2]) _ Hh) as X0. cbn [wbytes] in X0.
  assert (P0 : sk_pos (fst (wexec (WAll [2]) (io_out io))) = zlen (sk_data (fst (wexec (WAll [2]) (io_out io))))).
  { rewrite (se_data _ _ _ X0), (se_pos _ _ _ X0), zlen_app. lia. }
  pose proof (sk_ext_healthy _ _ _ X0 Hh) as H0. destruct (construct_spec _ _ _ _ _ H0 P0 HC) as (imap & pre & C1 & CL & C2 & C3 & C4 & C5 & C6).
  set (o0 := fst (wexec (WAll [2]) (io_out io))) in *. clearbody o0.
  pose proof (sk_ext_healthy _ _ _ C6 H0) as H1.
  pose proof (wexec_healthy_fst (ts_file_metadata_serialize root (sk_pos (io_out io))) o1 H1) as X2. set (o2 := fst (wexec (ts_file_metadata_serialize root (sk_pos (io_out io))) o1)) in *. clearbody o2.
  pose proof (sk_ext_healthy _ _ _ X2 H1) as H2. pose proof (wexec_healthy_fst bw o2 H2) as X3. set (o3 := fst (wexec bw o2)) in *. clearbody o3.
  pose proof (sk_ext_healthy _ _ _ X3 H2) as H3.
  pose proof (wexec_healthy_fst (WAll (be_bytes 4 (wrapU 32 (sk_pos o3 - sk_pos o1)))) o3 H3) as X4. set (o4 := fst (wexec (WAll (be_bytes 4 (wrapU 32 (sk_pos o3 - sk_pos o1)))) o3)) in *. clearbody o4.
  pose proof (sk_ext_healthy _ _ _ X4 H3) as H4. pose proof (wexec_healthy_fst (WAll MAGIC) o4 H4) as X5. set (o5 := fst (wexec (WAll MAGIC) o4)) in *. clearbody o5.
  rinj H. cbn [io_with_out io_out] in *. cbn [wbytes] in X4, X5.
  set (body := wbytes (ts_file_metadata_serialize root (sk_pos (io_out io))) ++ wbytes bw).
  assert (SZ : sk_pos o3 - sk_pos o1 = zlen body). { rewrite (se_pos _ _ _ X3), (se_pos _ _ _ X2). unfold body. rewrite zlen_app. lia. }
  assert (D : sk_data o5 = (sk_data (io_out io) ++ [2] ++ pre) ++ body ++ be_bytes 4 (wrapU 32 (zlen body)) ++ MAGIC).
  { rewrite (se_data _ _ _ X5), (se_data _ _ _ X4), (se_data _ _ _ X3), (se_data _ _ _ X2), (se_data _ _ _ C6), (se_data _ _ _ X0), SZ. unfold body. rewrite <- !app_assoc. reflexivity. }
  pose proof (zlen_nonneg _ body) as NB. pose proof LB as L'. rewrite D in L'. rewrite !zlen_app in L'. pose proof (zlen_nonneg _ (sk_data (io_out io))). pose proof (zlen_nonneg _ pre).
  rewrite be_bytes_zlen in L'. change (zlen MAGIC) with 6 in L'. change (zlen [2]) with 1 in L'. rewrite wrapU_small in D by lia. unfold body in D. rewrite Hp in D.
  exists tsm, imap, root, bf, bw, pre.
  assert (DE : exists x, sk_data o5 = sk_data o1 ++ x).
  { eexists. rewrite (se_data _ _ _ X5), (se_data _ _ _ X4), (se_data _ _ _ X3), (se_data _ _ _ X2), <- !app_assoc. reflexivity. }
  destruct DE as (x & DE). split; [exact HM|]. split; [exact C1|].
  split; [destruct CL as (oa & ob & y & L1 & L0 & L2 & L3 & L4 & L5); exists oa, ob, (y ++ x); split; [exact L1|]; split; [exact L0|]; split; [exact L2|]; split; [exact L3|]; split; [rewrite DE, L4, <- app_assoc; reflexivity|exact L5]|].
  split; [|split; [exact C3|split; [|split; [|split; [exact HB|split; [exact HW|exact D]]]]]].
  - intros F. specialize (C2 F). rewrite DE. eapply F2_impl; [|exact C2]. cbn. intros a b [X Y]. split; auto. apply leaf_ok_ext. auto.
  - rewrite DE. apply root_ok_ext. exact C4.
  - rewrite C5. pose proof (zlen_nonneg _ (sk_data o1)). split; [lia|]. rewrite DE, zlen_app in L. pose proof (zlen_nonneg _ x). lia.
Qed.

(** ** Reading the index: time series metadata *)
Definition ts_reads (m : ts_meta) (t : tsmeta) : Prop := tser m <> [] /\ forall rest, tsmeta_read (tser m ++ rest) = Some (t, rest).
Lemma ts_parts : forall l ts, Forall2 ts_reads l ts -> parts tsmeta_read (tbytes l) ts.
Proof.
  intros l. induction l as [|m l IH] using rev_ind; intros ts F.
  - inversion F. apply parts_nil.
  - apply Forall2_app_inv_l in F. destruct F as (t1 & t2 & F1 & F2 & ->). inversion F2 as [|? t ? ? [N R] F3]; subst. inversion F3; subst.
    rewrite tbytes_app. unfold tbytes at 2. cbn [map concat]. rewrite app_nil_r. apply parts_snoc; auto.
Qed.
Definition read_range (file : list Z) (ab : Z * Z) : option (list tsmeta) :=
  match slice (fst ab) (snd ab) file with Some l => many (length l) tsmeta_read l | None => None end.
Lemma blocks_read : forall file blocks o ts, Forall (fun b => b <> []) blocks -> at_ file o (tbytes (concat blocks)) ->
  Forall2 ts_reads (concat blocks) ts ->
  exists tb, all_some (map (read_range file) (ranges (map entry_of (block_entries o blocks)) (o + zlen (tbytes (concat blocks))))) = Some tb /\ concat tb = ts.
Proof.
  intros file blocks. induction blocks as [|b bs IH]; intros o ts NE A F.
  - inversion F. exists []. auto.
  - cbn [concat] in *. apply Forall2_app_inv_l in F. destruct F as (t1 & t2 & F1 & F2 & ->). rewrite tbytes_app in A.
    assert (R : read_range file (o, o + zlen (tbytes b)) = Some t1).
    { unfold read_range. cbn [fst snd]. rewrite (at_slice file o (tbytes b) (o + zlen (tbytes b))); auto.
      - apply parts_many; [apply ts_parts; auto|auto].
      - replace o with (o + zlen (@nil Z)) by (rewrite zlen_nil; lia). apply (at_sub _ _ [] _ (tbytes (concat bs))). exact A. }
    assert (A2 : at_ file (o + zlen (tbytes b)) (tbytes (concat bs))).
    { apply (at_sub _ _ _ _ []). rewrite app_nil_r. exact A. }
    destruct (IH _ _ (Forall_inv_tail NE) A2 F2) as (tb & T1 & T2). rewrite tbytes_app, zlen_app, Z.add_assoc.
    exists (t1 :: tb). split; [|cbn [concat]; congruence].
    assert (RG : ranges (map entry_of (block_entries o (b :: bs))) (o + zlen (tbytes b) + zlen (tbytes (concat bs))) =
                 (o, o + zlen (tbytes b)) :: ranges (map entry_of (block_entries (o + zlen (tbytes b)) bs)) (o + zlen (tbytes b) + zlen (tbytes (concat bs)))).
    { destruct bs as [|b' bs]; cbn [block_entries map ranges entry_of ie_name ie_offset concat]; [|reflexivity].
      change (tbytes []) with (@nil Z). rewrite zlen_nil, Z.add_0_r. reflexivity. }
    rewrite RG. cbn [map all_some]. rewrite R, T1. reflexivity.
Qed.
Lemma measurements_leaf : forall file l n ts f, leaf_ok file l n -> Forall2 ts_reads l ts -> measurements (S f) file (node_of n) = Some ts.
Proof.
  intros file l n ts f [(o & bl & -> & <- & NE & _ & A & _)] F. destruct (blocks_read file bl o ts NE A F) as (tb & T1 & T2).
  cbn [measurements node_of leaf_node in_type node_type_code nd_type nd_entries nd_end in_children in_end Z.eqb Pos.eqb]. fold (read_range file) in *.
  change (fun ab : Z * Z => match slice (fst ab) (snd ab) file with Some l => many (length l) tsmeta_read l | None => None end) with (read_range file).
  rewrite T1, T2. reflexivity.
Qed.

(** ** The metadata of one series *)
Record cm_wf (dt : dtype) (cm : chunk_meta) : Prop := {
  cw_type : cm_type cm = dt; cw_stype : st_type (cm_stats cm) = dt; cw_wf : stats_wf (cm_stats cm); cw_off : 0 <= cm_offset cm < 2 ^ 64 }.
Definition ref_of (several : bool) (cm : chunk_meta) : Z * option stat_fields :=
  (cm_offset cm, if several then Some (stat_of (cm_stats cm)) else None).
Definition ref_bytes (several : bool) (l : list chunk_meta) : list Z := concat (map (fun cm => wbytes (chunk_meta_serialize several cm)) l).
Lemma ref_parts : forall dt (several : bool) l, Forall (cm_wf dt) l ->
  parts (chunk_ref (dtype_code dt) (if several then 1 else 0)) (ref_bytes several l) (map (ref_of several) l).
Proof.
  intros dt several l. induction l as [|cm l IH] using rev_ind; intros F; [apply parts_nil|].
  apply Forall_app in F. destruct F as [F1 F2]. pose proof (Forall_inv F2) as C. unfold ref_bytes. rewrite !map_app, concat_app. cbn [map concat]. rewrite app_nil_r.
  apply parts_snoc; [apply IH; auto| |].
  - intros X. apply (f_equal zlen) in X. unfold chunk_meta_serialize in X. cbn [wbytes] in X. rewrite zlen_app, be_bytes_zlen, zlen_nil in X.
    pose proof (zlen_nonneg _ (wbytes (if several then stats_serialize (cm_stats cm) else WNil))). lia.
  - intros rest. unfold chunk_ref, chunk_meta_serialize, ref_of. cbn [wbytes]. rewrite <- app_assoc. rewrite (be_unsigned_small 8) by apply C.
    destruct several; cbn [Z.eqb wbytes app]; [|reflexivity]. rewrite <- (cw_stype _ _ C). rewrite (proj1 (stats_roundtrip_exact _ rest (cw_wf _ _ C))). reflexivity.
Qed.
Definition merge_all (p : profile) (l : list chunk_meta) (st : stats) : outcome stats := foldM (fun st cm => stats_merge p st (cm_stats cm)) l st.
Lemma ts_fold : forall p (several : bool) dt l buf st, Forall (cm_wf dt) l ->
  foldM (fun acc m => let '(buffer, st) := acc in
           if dtype_eqb (cm_type m) dt then let* st' := stats_merge p st (cm_stats m) in Ret (buffer ++ wbytes (chunk_meta_serialize several m), st')
           else Ret acc) l (buf, st) =
  let* st' := merge_all p l st in Ret (buf ++ ref_bytes several l, st').
Proof.
  intros p several dt l. induction l as [|cm l IH]; intros buf st F; [cbn; rewrite app_nil_r; reflexivity|].
  inversion F as [|? ? C F']; subst. unfold merge_all. cbn [foldM]. rewrite (cw_type _ _ C).
  replace (dtype_eqb dt dt) with true by (destruct dt; reflexivity). destruct (stats_merge p st (cm_stats cm)) as [st'|e]; [|reflexivity].
  cbn [bind]. rewrite IH by auto. unfold merge_all. destruct (foldM _ l st'); [|reflexivity]. cbn [bind]. unfold ref_bytes. cbn [map concat]. rewrite <- app_assoc. reflexivity.
Qed.
Definition several (l : list chunk_meta) : bool := (1 <? length l)%nat.
Lemma ts_meta_of_spec : forall p dt m0 l, Forall (cm_wf dt) (m0 :: l) ->
  ts_meta_of p (m0 :: l) = let* st := merge_all p (m0 :: l) (stats_new dt) in
    Ret (mkTM (if several (m0 :: l) then 1 else 0) (zlen (ref_bytes (several (m0 :: l)) (m0 :: l))) (cm_id m0) dt st (ref_bytes (several (m0 :: l)) (m0 :: l))).
Proof.
  intros p dt m0 l F. unfold ts_meta_of. rewrite (cw_type _ _ (Forall_inv F)), (ts_fold p _ dt) by auto. fold (several (m0 :: l)).
  destruct (merge_all p (m0 :: l) (stats_new dt)); [|reflexivity]. cbn [bind app]. rewrite Z.lor_0_r. reflexivity.
Qed.
Lemma ts_roundtrip : forall dt id l st, Forall (cm_wf dt) l -> stats_wf st -> st_type st = dt -> zlen id < 2 ^ 31 -> zlen (ref_bytes (several l) l) < 2 ^ 32 ->
  ts_reads (mkTM (if several l then 1 else 0) (zlen (ref_bytes (several l) l)) id dt st (ref_bytes (several l) l))
    (mkTsMeta id (dtype_code dt) (stat_of st) (map (ref_of (several l)) l)).
Proof.
  intros dt id l st F W T N L. pose proof (zlen_nonneg _ (ref_bytes (several l) l)). split; [discriminate|]. intros rest.
  unfold tser, ts_meta_serialize. cbn [wbytes tm_type tm_id tm_dtype tm_list_size tm_stats tm_buffer]. rewrite app_nil_r, <- !app_assoc.
  unfold tsmeta_read. cbn [app byte_field]. rewrite write_str_roundtrip by auto. cbn [app byte_field].
  rewrite wrapU_small by lia. rewrite var_u32_roundtrip by lia. rewrite <- T at 1. rewrite (proj1 (stats_roundtrip_exact _ _ W)).
  rewrite take_app. rewrite (parts_many _ _ _ (map (ref_of (several l)) l)); [reflexivity|apply ref_parts; auto|auto].
Qed.
