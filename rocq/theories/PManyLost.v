(** A session that loses all its index records (C72): one point and very many closes. The calls are those of
    tsfile_writer.rs:123-168; the session is chosen here. *)
From Verif Require Import PropertiesWriter PDotsReply PManyIndex.
Open Scope list_scope. Open Scope Z_scope.
Ltac Zify.zify_post_hook ::= idtac.

(** ** How long a node is *)
Lemma leb_le : forall u, zlen (SLayout.leb u) <= 5.
Proof.
  intros u. unfold SLayout.leb. change (zlen (leb_groups 5 u) <= Z.of_nat 5). generalize 5%nat. intros n. revert u. induction n as [|n IH]; intros u; [reflexivity|].
  cbn [leb_groups]. destruct (u <? 128); [unfold zlen; cbn [length]; lia|]. rewrite zlen_cons, Nat2Z.inj_succ. specialize (IH (u / 128)). lia.
Qed.
Lemma node_len : forall es e t, Forall (fun x : list Z * Z => zlen (fst x) <= 1) es -> zlen (node_image es e t) <= 14 + 14 * zlen es.
Proof.
  intros es e t F. unfold node_image. rewrite !zlen_app, digits_be, be_bytes_zlen. change (zlen [t]) with 1. pose proof (leb_le (zlen es)).
  assert (X : zlen (concat (map (fun x : list Z * Z => text (fst x) ++ digits 8 (snd x)) es)) <= 14 * zlen es); [|lia].
  clear H. induction F as [|x l X F IH]; [reflexivity|]. cbn [map concat]. rewrite zlen_app, zlen_cons, zlen_app, digits_be, be_bytes_zlen. assert (T : zlen (text (fst x)) <= 6) by (unfold text; rewrite zlen_app; pose proof (leb_le (zigzag (zlen (fst x)))); cbv beta in X; lia). change (Z.of_nat 8) with 8. lia.
Qed.
Lemma chop_le : forall A n (l : list A), (1 <= n)%nat -> zlen (chop n l) <= zlen l.
Proof.
  intros A n l N. unfold chop. generalize (length l). intros f. revert l. induction f as [|f IH]; intros l; [apply zlen_nonneg|]. destruct l as [|a l]; [reflexivity|].
  cbn [chop_fuel]. rewrite zlen_cons. specialize (IH (skipn n (a :: l))). destruct n as [|n]; [lia|]. cbn [skipn] in *. rewrite zlen_cons.
  assert (zlen (skipn n l) <= zlen l) by (unfold zlen; rewrite skipn_length; lia). lia.
Qed.
Lemma entries_count : forall l o, zlen (entries o l) = zlen l.
Proof. induction l as [|a l IH]; intros o; [reflexivity|]. cbn [entries]. rewrite !zlen_cons, IH. reflexivity. Qed.
Lemma hd_short : forall A (P : A -> Prop) d l, P d -> (forall x, In x l -> P x) -> P (hd d l).
Proof. intros A P d l D H. destruct l as [|x l]; [exact D|apply H; left; reflexivity]. Qed.
Lemma entries_short : forall l o, Forall (fun b : list (list Z * list Z) => Forall (fun r => zlen (fst r) <= 1) b) l -> Forall (fun x : list Z * Z => zlen (fst x) <= 1) (entries o l).
Proof.
  induction l as [|a l IH]; intros o F; [constructor|]. cbn [entries]. constructor; [|apply IH, (Forall_inv_tail F)]. apply Forall_inv in F. cbn [fst].
  apply (hd_short _ (fun r => zlen (fst r) <= 1)); [cbn; unfold zlen; cbn; lia|]. apply Forall_forall. exact F.
Qed.
Lemma top_count : forall l, zlen (top_names l) <= zlen l + 2.
Proof.
  intros l. unfold top_names. destruct (zlen l <=? 256); [unfold zlen; rewrite rev_length; lia|]. cbv zeta. rewrite !zlen_cons. unfold zlen. rewrite rev_length, firstn_length. lia.
Qed.
Lemma top_short : forall l, Forall (fun n => zlen n <= 1) l -> Forall (fun n => zlen n <= 1) (top_names l).
Proof.
  intros l F. assert (R : forall k, Forall (fun n : list Z => zlen n <= 1) k -> Forall (fun n : list Z => zlen n <= 1) (rev k)). { intros k K. rewrite Forall_forall in *. intros x I. apply K. apply in_rev. exact I. }
  unfold top_names. destruct (zlen l <=? 256); [auto|]. cbv zeta.
  assert (E : zlen (last l []) <= 1). { clear R. induction F as [|x l X F IH]; [cbn; unfold zlen; cbn; lia|]. destruct l; [exact X|exact IH]. }
  constructor; [exact E|]. constructor; [exact E|]. apply R. rewrite Forall_forall in *. intros x I. apply F. rewrite <- (firstn_skipn (Z.to_nat ((zlen l - 2) mod 255)) l). apply in_or_app. left. exact I.
Qed.
Lemma record_node_le : forall o rows, Forall (fun r : list Z * list Z => zlen (fst r) <= 1) rows -> zlen (record_node o rows) <= 42 + 14 * zlen rows.
Proof.
  intros o rows F. assert (C : Forall (fun b : list (list Z * list Z) => Forall (fun r => zlen (fst r) <= 1) b) (chop 256 rows)).
  { apply Forall_forall. intros b I. apply Forall_forall. intros r J. rewrite Forall_forall in F. apply F. exact (chop_in _ _ _ _ _ I J). }
  pose proof (chop_le _ 256 rows ltac:(lia)). unfold record_node. cbv zeta. destruct (zlen rows <=? 65536).
  - pose proof (node_len (entries o (chop 256 rows)) (o + zlen (rows_bytes rows)) 3 (entries_short _ _ C)) as X. rewrite entries_count in X. lia.
  - set (e := o + zlen (rows_bytes rows)). assert (G : Forall (fun x : list Z * Z => zlen (fst x) <= 1) (map (fun n => (n, e)) (top_names (leaf_names rows)))).
    { rewrite Forall_map. apply (top_short (leaf_names rows)). unfold leaf_names. rewrite Forall_map. apply Forall_forall. intros b I.
      apply (hd_short _ (fun r => zlen (fst r) <= 1)); [cbn; unfold zlen; cbn; lia|]. intros r J. rewrite Forall_forall in F. apply F.
      destruct b as [|x b]; [destruct J|]. cbn [hd] in J. assert (K : In x (chop 256 rows)) by (apply (chop_in _ 256 (chop 256 rows) (x :: b)); [exact I|left; reflexivity]). exact (chop_in _ _ _ _ _ K J). }
    pose proof (node_len _ e 2 G) as X. pose proof (top_count (leaf_names rows)) as Y. pose proof (chop_le _ 256 (chop 256 rows) ltac:(lia)) as Z1. unfold leaf_names in Y at 2. unfold zlen in *. rewrite map_length in *. lia.
Qed.

(** ** The session *)
Definition ls_sc : schema := [([97], [([98], mkMS INT64 PLAIN UNCOMPRESSED)])].
Definition ls_write : op := OpWrite [97] [98] 1 (VLong 6).
Definition ls_close : op := OpClose (fun l => l).
Definition ls_start : writer := Eval vm_compute in
  match writer_new ls_sc (sink_new healthy) with (_, Some w) => w | (o, None) => mkW (mkIO o None [] None [] []) [] 0 0 [] end.
Definition ls_one : writer := Eval vm_compute in match run Release ex_snap ls_start [ls_write; ls_close] with Ret r => fst r | Panic _ => ls_start end.
(** the state after further closes *)
Definition ls_at (out : sink) (l : list ts_meta) : writer := mkW (mkIO out None [] None (io_groups (w_io ls_one)) [([97], l)]) (w_groups ls_one) 0 100 ls_sc.
Definition ls_meta : ts_meta := Eval vm_compute in match io_tsmeta (w_io ls_one) with (_, m :: _) :: _ => m | _ => mkTM 0 0 [] INT64 (stats_new INT64) [] end.
Lemma ls_one_at : ls_one = ls_at (io_out (w_io ls_one)) [ls_meta].
Proof. reflexivity. Qed.
Lemma ls_flush : forall out l, flush_all Release ex_snap (ls_at out l) = Ret (ls_at out l, None).
Proof. intros. reflexivity. Qed.
Lemma ls_loop : forall l, metadata_loop Release None (chunk_map (io_groups (w_io ls_one))) [([97], l)] = Ret [([97], l ++ [ls_meta])].
Proof. intros. reflexivity. Qed.
Lemma ls_step : forall out l w r, is_healthy out -> sk_pos out = zlen (sk_data out) -> Forall (eq ls_meta) l -> step Release ex_snap (ls_at out l) ls_close = Ret (w, r) ->
  exists out', w = ls_at out' (l ++ [ls_meta]) /\ is_healthy out' /\ sk_pos out' = zlen (sk_data out') /\
    zlen (sk_data out) <= zlen (sk_data out') <= zlen (sk_data out) + 1000 + 200 * zlen l.
Proof.
  intros out l w r Hh Hp F S. unfold ls_close, step, writer_close in S. rewrite ls_flush in S. cbn [bind fst] in S. apply bind_ret in S. destruct S as (io & E & S). rinj S.
  change (w_io (ls_at out l)) with (mkIO out None [] None (io_groups (w_io ls_one)) [([97], l)]) in E. set (i0 := mkIO out None [] None (io_groups (w_io ls_one)) [([97], l)]) in *.
  destruct (end_file_ok Release (fun l => l) i0 io Hh E) as (x & SE & G & CU).
  pose proof (end_file_tsmeta Release (fun l => l) i0 io E) as TM. change (io_groups i0) with (io_groups (w_io ls_one)) in TM. change (io_tsmeta i0) with [([97], l)] in TM. rewrite ls_loop in TM. apply ret_inj in TM.
  assert (F2 : Forall (eq ls_meta) (l ++ [ls_meta])) by (apply Forall_app; split; [exact F|repeat constructor]).
  destruct (end_file_raw Release (fun l => l) i0 io [([97], l ++ [ls_meta])] ltac:(intros; apply Permutation_refl) Hh Hp E (ls_loop l)) as (nodes & bf & bw & A & B & C & D).
  { constructor; [|constructor]. cbn [snd]. destruct l; discriminate. }
  { constructor; [|constructor]. cbn [fst snd]. split; [reflexivity|]. eapply Forall_impl; [|exact F2]. intros ? <-. reflexivity. }
  exists (io_out io). split; [|split; [exact (sk_ext_healthy _ _ _ SE Hh)|split]].
  - assert (X : io = mkIO (io_out io) None [] None (io_groups (w_io ls_one)) [([97], l ++ [ls_meta])]).
    { unfold end_file in E. cbv zeta in E. apply bind_ret in E. destruct E as (tsm & E1 & E). change (io_groups i0) with (io_groups (w_io ls_one)) in E1. change (io_tsmeta i0) with [([97], l)] in E1. rewrite ls_loop in E1. apply ret_inj in E1. subst tsm.
      apply bind_ret in E. destruct E as ([ix o1] & _ & E). apply bind_ret in E. destruct E as (? & _ & E). apply bind_ret in E. destruct E as (? & _ & E). apply ret_inj in E. rewrite <- E. reflexivity. }
    rewrite X at 1. reflexivity.
  - rewrite (se_pos _ _ _ SE), (se_data _ _ _ SE), zlen_app. change (io_out i0) with out. lia.
  - cbv zeta in D. rewrite D. change (io_out i0) with out. cbn [map concat dev_rows fst snd record_nodes] in A |- *. apply Permutation_sym, Permutation_length_1_inv in A. rewrite A. clear D A. change (io_out i0) with out.
    rewrite app_nil_r. set (rows := map row_of (l ++ [ls_meta])). assert (RW : Forall (fun r : list Z * list Z => zlen (fst r) <= 1) rows) by (unfold rows; rewrite Forall_map; eapply Forall_impl; [|exact F2]; intros ? <-; cbn; unfold zlen; cbn; lia).
    assert (ZR : zlen rows = zlen l + 1) by (unfold rows, zlen; rewrite map_length, app_length; cbn [length]; lia).
    assert (BR : zlen (rows_bytes rows) <= 100 * zlen rows).
    { assert (SR : Forall (fun r : list Z * list Z => zlen (snd r) <= 100) rows) by (unfold rows; rewrite Forall_map; eapply Forall_impl; [|exact F2]; intros ? <-; vm_compute; discriminate).
      clear - SR. unfold rows_bytes. induction SR as [|x r X SR IH]; [reflexivity|]. cbn [map concat]. rewrite zlen_app, zlen_cons. lia. }
    pose proof (bloom_len _ _ _ _ B C ltac:(vm_compute; discriminate)) as BL. change (zlen (map fst (chunk_map (io_groups i0)))) with 1 in BL.
    clearbody rows. set (o := zlen (sk_data out) + 1). pose proof (record_node_le o rows RW) as RN. set (nd := record_node o rows) in *. clearbody nd.
    cbn [rows_bytes map concat snd]. unfold rows_bytes at 2 3. cbn [map concat snd]. rewrite app_nil_r.
    set (h := sk_data out ++ [2] ++ rows_bytes rows). set (f := node_image _ _ 1). assert (FL : zlen f <= 28) by (apply (node_len (entries (zlen h) [[([97], nd)]])); repeat constructor; cbn; unfold zlen; cbn; lia). clearbody f.
    unfold h. rewrite !zlen_app, digits_be, !be_bytes_zlen. change (zlen [2]) with 1. change (zlen MAGIC) with 6. pose proof (zlen_nonneg _ f). pose proof (zlen_nonneg _ nd). pose proof (zlen_nonneg _ (rows_bytes rows)). pose proof (zlen_nonneg _ (wbytes bw)). pose proof (zlen_nonneg _ l). lia.
Qed.
Lemma repeat_snoc : forall A (x : A) n, repeat x (S n) = repeat x n ++ [x].
Proof. intros A x. induction n as [|n IH]; [reflexivity|]. cbn [repeat app] in *. f_equal. exact IH. Qed.
Lemma ls_run : forall n w l, Z.of_nat n <= 70000 -> run Release ex_snap ls_start (ls_write :: repeat ls_close (S n)) = Ret (w, l) ->
  exists out, w = ls_at out (repeat ls_meta (S n)) /\ is_healthy out /\ sk_pos out = zlen (sk_data out) /\ zlen (sk_data out) <= 1000 + Z.of_nat n * 14002000.
Proof.
  induction n as [|n IH]; intros w l N R.
  - assert (E : run Release ex_snap ls_start (ls_write :: repeat ls_close 1) = Ret (ls_one, [AOk; AUnit])) by (vm_compute; reflexivity). rewrite E in R. apply ret_inj in R. injection R as <- <-.
    exists (io_out (w_io ls_one)). split; [reflexivity|]. split; [split; reflexivity|]. split; [vm_compute; reflexivity|vm_compute; discriminate].
  - rewrite repeat_snoc, app_comm_cons, run_snoc in R. apply bind_ret in R. destruct R as ([w1 l1] & R1 & R). apply bind_ret in R. destruct R as ([w2 a] & S & R). apply ret_inj in R. injection R as E0 _. subst w2.
    rewrite Nat2Z.inj_succ in N. destruct (IH w1 l1 ltac:(lia) R1) as (out & -> & A & B & C).
    destruct (ls_step out (repeat ls_meta (Datatypes.S n)) w a A B) as (out' & E1 & E2 & E3 & E4); [|exact S|].
    + apply Forall_forall. intros y I. apply repeat_spec in I. symmetry. exact I.
    + exists out'. split; [rewrite E1, repeat_snoc with (n := Datatypes.S n); reflexivity|]. split; [exact E2|]. split; [exact E3|]. assert (Z1 : zlen (repeat ls_meta (Datatypes.S n)) = Z.succ (Z.of_nat n)) by (unfold zlen; rewrite repeat_length, Nat2Z.inj_succ; reflexivity). rewrite Z1 in E4. rewrite Nat2Z.inj_succ. lia.
Qed.

(** ** It returns *)
Definition ls_session : session := Eval vm_compute in session_after ex_snap ls_sc [ls_write; ls_close].
Lemma ls_replies : forall n, any_replies Release ex_snap ls_sc ls_session (repeat ls_close n) = Some (repeat AUnit n).
Proof.
  induction n as [|n IH]; [reflexivity|]. cbn [repeat]. unfold any_replies in *. cbn [session_replies].
  assert (S : stops (texts_fine ls_sc) Release ex_snap ls_sc ls_session ls_close = false) by (vm_compute; reflexivity). rewrite S.
  assert (T : session_next ex_snap ls_sc ls_session ls_close = ls_session) by (vm_compute; reflexivity). rewrite T, IH. reflexivity.
Qed.
Lemma ls_answers : forall n, any_replies Release ex_snap ls_sc session_new (ls_write :: repeat ls_close (S n)) = Some (AOk :: repeat AUnit (S n)).
Proof.
  intros n. cbn [repeat]. unfold any_replies. cbn [session_replies].
  assert (S : stops (texts_fine ls_sc) Release ex_snap ls_sc session_new ls_write = false) by (vm_compute; reflexivity). rewrite S. clear S.
  set (s := session_next ex_snap ls_sc session_new ls_write). assert (S : stops (texts_fine ls_sc) Release ex_snap ls_sc s ls_close = false) by (vm_compute; reflexivity). rewrite S. clear S.
  assert (T : session_next ex_snap ls_sc s ls_close = ls_session) by (vm_compute; reflexivity). rewrite T. pose proof (ls_replies n) as E. unfold any_replies in E. rewrite E. reflexivity.
Qed.
Lemma ls_points : forall n, zsum (map op_points (ls_write :: repeat ls_close n)) = 1.
Proof. intros n. cbn [map]. rewrite zsum_cons. assert (E : zsum (map op_points (repeat ls_close n)) = 0); [|rewrite E; reflexivity]. induction n as [|n IH]; [reflexivity|]. cbn [repeat map]. rewrite zsum_cons, IH. reflexivity. Qed.
Lemma ls_ops_ok : forall n, ops_ok (ls_write :: repeat ls_close n).
Proof.
  intros n. split; [|rewrite ls_points; reflexivity]. constructor; [vm_compute; repeat split; discriminate|]. apply Forall_forall. intros o I. apply repeat_spec in I. subst o. exact Logic.I.
Qed.

Lemma ls_sc_ok : schema_ok ls_sc.
Proof. split; [repeat constructor; cbn; intuition discriminate|]. repeat constructor; cbn; intuition discriminate. Qed.
Lemma ls_names : forall d m ms, declares ls_sc d m ms -> d = [97] /\ m = [98].
Proof. intros d m ms (g & A & B). destruct A as [A|[]]. inversion A; subst. destruct B as [B|[]]. inversion B; subst. auto. Qed.
Lemma ls_bytes : byte_names ls_sc.
Proof. intros d m ms D. apply ls_names in D. destruct D as [-> ->]. cbn. repeat constructor; lia. Qed.
Lemma ls_short : short_paths ls_sc.
Proof. intros d m ms D. apply ls_names in D. destruct D as [-> ->]. reflexivity. Qed.
Lemma ls_orders : forall n, orders_ok (ls_write :: repeat ls_close n).
Proof. intros n. constructor; [exact Logic.I|]. apply Forall_forall. intros o I. apply repeat_spec in I. subst o. intros l. apply Permutation_refl. Qed.
Lemma ls_new : exists out, writer_new ls_sc (sink_new healthy) = (out, Some ls_start).
Proof. eexists. vm_compute. reflexivity. Qed.
Lemma ls_split : forall n a o b, ls_write :: repeat ls_close n = a ++ o :: b -> (a = [] /\ o = ls_write) \/ exists k, a = ls_write :: repeat ls_close k /\ o = ls_close /\ (k < n)%nat.
Proof.
  intros n a o b E. destruct a as [|x a]; cbn [app] in E; injection E as E0 E; [left; auto|]. right. subst x.
  assert (R : forall a n, repeat ls_close n = a ++ o :: b -> exists k, a = repeat ls_close k /\ o = ls_close /\ (k < n)%nat).
  { clear. induction a as [|x a IH]; intros n E; destruct n as [|n]; cbn [repeat app] in E; try discriminate; injection E as E0 E.
    - exists 0%nat. split; [reflexivity|]. split; [auto|lia].
    - subst x. destruct (IH n E) as (k & -> & -> & K). exists (S k). split; [reflexivity|]. split; [reflexivity|lia]. }
  destruct (R a n E) as (k & -> & -> & K). exists k. auto.
Qed.
Lemma ls_modest : forall n, Z.of_nat n <= 70000 -> modest Release ex_snap ls_sc (ls_write :: repeat ls_close n).
Proof.
  intros n N out w0 a o b w l w' r W E R S. destruct ls_new as (out0 & W0). rewrite W0 in W. injection W as _ <-.
  destruct (ls_split n a o b E) as [[-> ->]|(k & -> & -> & K)].
  - cbn [run] in R. apply ret_inj in R. injection R as <- <-. assert (X : zlen (match step Release ex_snap ls_start ls_write with Ret (x, _) => file_bytes x | _ => [] end) = 7) by (vm_compute; reflexivity). rewrite S in X. rewrite X. assert (Y : zlen (file_bytes ls_start) = 7) by (vm_compute; reflexivity). rewrite Y. split; reflexivity.
  - destruct k as [|k].
    + cbn [repeat] in R. assert (X : match run Release ex_snap ls_start [ls_write] with Ret (y, _) => match step Release ex_snap y ls_close with Ret (x, _) => (zlen (file_bytes y), zlen (file_bytes x)) | _ => (0, 0) end | _ => (0, 0) end = (7, 213)) by (vm_compute; reflexivity).
      rewrite R, S in X. injection X as X1 X2. rewrite X1, X2. split; reflexivity.
    + destruct (ls_run k w l ltac:(lia) R) as (o1 & -> & A & B & C). destruct (ls_step o1 (repeat ls_meta (Datatypes.S k)) w' r A B) as (o2 & -> & D1 & D2 & D3); [|exact S|].
      * apply Forall_forall. intros y I. apply repeat_spec in I. symmetry. exact I.
      * change (file_bytes (ls_at o1 _)) with (sk_data o1). change (file_bytes (ls_at o2 _)) with (sk_data o2). assert (Z1 : zlen (repeat ls_meta (Datatypes.S k)) = Z.succ (Z.of_nat k)) by (unfold zlen; rewrite repeat_length, Nat2Z.inj_succ; reflexivity). rewrite Z1 in D3.
        assert (2 ^ 32 = 4294967296) by reflexivity. assert (2 ^ 63 = 9223372036854775808) by reflexivity. lia.
Qed.
(** ** What is listed *)
Lemma spots_tail : forall snap bs ps o, spots snap o (ps ++ [Tail bs]) = spots snap o ps.
Proof. intros snap bs. induction ps as [|x ps IH]; intros o; [reflexivity|]. cbn [app spots]. rewrite IH. reflexivity. Qed.
Lemma ls_after : forall n, session_after ex_snap ls_sc (ls_write :: repeat ls_close (S n)) = ls_session.
Proof.
  induction n as [|n IH]; [vm_compute; reflexivity|]. rewrite repeat_snoc, app_comm_cons. unfold session_after in *. rewrite fold_left_app, IH. vm_compute. reflexivity.
Qed.
Lemma ls_added : forall n, added ex_snap ls_sc (ls_write :: repeat ls_close (S n)) ls_close = [].
Proof. intros n. unfold added. rewrite <- app_comm_cons, <- repeat_snoc, !ls_after. reflexivity. Qed.
Lemma ls_stages : forall A ops ps stages, session_file A ex_snap ls_sc ops ps stages -> (ops = [] -> ps = [] /\ stages = []) /\
  forall n, ops = ls_write :: repeat ls_close n -> zlen stages = Z.of_nat n /\ Forall (fun s => chunk_paths ex_snap s = [[97; 46; 98]]) stages /\
    match n with O => ps = [] | S _ => chunk_paths ex_snap ps = [[97; 46; 98]] end.
Proof.
  intros A ops ps stages H. induction H as [|ops ps stages o H [I1 I2] K|ops ps stages ord bs H [I1 I2] ps' K].
  - split; [auto|]. intros n E. discriminate.
  - split; [intros E; destruct ops; discriminate|]. intros n E. symmetry in E. destruct (ls_split n ops o [] E) as [[-> ->]|(k & -> & -> & _)]; [|discriminate K].
    destruct n as [|n]; [|discriminate E]. destruct (I1 eq_refl) as [-> ->]. split; [reflexivity|]. split; [constructor|]. vm_compute. reflexivity.
  - split; [intros E; destruct ops; discriminate|]. intros n E. symmetry in E. destruct (ls_split n ops (OpClose ord) [] E) as [[-> F]|(k & -> & F & _)]; [discriminate F|]. unfold ls_close in F. injection F as F. subst ord. fold ls_close in *.
    assert (NK : n = S k). { apply (f_equal (@length _)) in E. cbn [length] in E. rewrite app_length in E. cbn [length] in E. rewrite !repeat_length in E. lia. }
    subst n. destruct (I2 k eq_refl) as (J1 & J2 & J3).
    assert (P : chunk_paths ex_snap ps' = [[97; 46; 98]]).
    { unfold ps'. destruct k as [|k]; [subst ps; vm_compute; reflexivity|]. change (OpClose (fun l => l)) with ls_close. rewrite ls_added. change (pieces ls_sc []) with (@nil piece). rewrite app_nil_r. exact J3. }
    split; [rewrite zlen_app, J1, Nat2Z.inj_succ; change (zlen [ps']) with 1; lia|]. split; [apply Forall_app; split; [exact J2|repeat constructor; exact P]|].
    unfold chunk_paths in *. rewrite spots_tail. exact P.
Qed.
Lemma ls_texts : forall stages, Forall (fun s => chunk_paths ex_snap s = [[97; 46; 98]]) stages -> zlen (texts_of ex_snap stages [97]) = zlen stages.
Proof. intros stages F. unfold texts_of. induction F as [|s stages E F IH]; [reflexivity|]. cbn [map concat]. rewrite zlen_app, zlen_cons, IH, E. reflexivity. Qed.
Lemma ls_parts : forall stages ps, Forall (fun s => chunk_paths ex_snap s = [[97; 46; 98]]) (stages ++ [ps]) ->
  forall d, In d (name_set (map device_part (concat (map (chunk_paths ex_snap) (stages ++ [ps]))))) -> d = [97].
Proof.
  intros stages ps F d I. apply (proj1 (name_set_in _ _)) in I. apply in_map_iff in I. destruct I as (q & <- & I). apply in_concat in I. destruct I as (x & X & I). apply in_map_iff in X. destruct X as (s & <- & X).
  rewrite Forall_forall in F. rewrite (F s X) in I. destruct I as [<-|[]]. reflexivity.
Qed.
