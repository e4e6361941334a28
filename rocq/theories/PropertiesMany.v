(** Property C72: sessions with any number of index records. C62 and C63 without their condition on the number of records of
    a device part: SMany.v says which bytes the file holds ([written_many]) and what is found under each device part
    ([parts_follow]). *)
From Verif Require Import PropertiesWriter PropertiesIndex PropertiesDots PManyIndex PManyLost.
Open Scope list_scope. Open Scope Z_scope.

(** ** The bytes *)
Theorem C72_bytes : forall p snap decomp sc out w0 ops w l, good_snap snap decomp -> schema_ok sc ->
  writer_new sc (sink_new healthy) = (out, Some w0) -> run p snap w0 ops = Ret (w, l) -> ops_ok ops ->
  roomy_after snap sc ops -> modest p snap sc ops -> orders_ok ops -> (0 < closes ops -> byte_names sc /\ short_paths sc) ->
  exists ps stages, written_many snap sc ops ps stages /\ file_bytes w = the_file snap ps.
Proof.
  intros p snap decomp sc out w0 ops w l HG Hsc N R O B L OO C. destruct (run_trace _ _ _ _ _ _ _ _ N R) as (h & T).
  exact (many_bytes p snap decomp HG sc Hsc w h ops l T O B L (conj OO C)).
Qed.
Print Assumptions C72_bytes.
Theorem C72_bytes_small : forall p snap decomp sc out w0 ops w l, good_snap snap decomp -> schema_ok sc ->
  writer_new sc (sink_new healthy) = (out, Some w0) -> run p snap w0 ops = Ret (w, l) -> ops_ok ops ->
  24 * zsum (map op_points ops) + 150 * series_count sc < 2 ^ 32 -> zlen (file_bytes w) < 2 ^ 32 -> orders_ok ops ->
  (0 < closes ops -> byte_names sc /\ short_paths sc) ->
  exists ps stages, written_many snap sc ops ps stages /\ file_bytes w = the_file snap ps.
Proof.
  intros p snap decomp sc out w0 ops w l HG Hsc N R O B L OO C. destruct (run_trace _ _ _ _ _ _ _ _ N R) as (h & T).
  exact (many_bytes p snap decomp HG sc Hsc w h ops l T O (roomy_after_of snap sc ops B) (small_modest _ _ _ _ _ _ _ T L) (conj OO C)).
Qed.
Print Assumptions C72_bytes_small.
(** Up to 65536 records a close appends what SDots.v says. *)
Theorem C72_few : forall snap stages ps bs, (forall d, zlen (texts_of snap stages d) <= 65536) -> (many_close_appends snap stages ps bs <-> any_close_appends snap stages ps bs).
Proof. exact few_records. Qed.
Print Assumptions C72_few.

(** ** The parts *)
Theorem C72_parts : forall p snap decomp sc out w0 ops ord w l, good_snap snap decomp -> schema_ok sc ->
  writer_new sc (sink_new healthy) = (out, Some w0) -> run p snap w0 (ops ++ [OpClose ord]) = Ret (w, l) -> ops_ok (ops ++ [OpClose ord]) ->
  roomy_after snap sc (ops ++ [OpClose ord]) -> modest p snap sc (ops ++ [OpClose ord]) -> orders_ok (ops ++ [OpClose ord]) -> byte_names sc -> short_paths sc ->
  exists ps stages bs, written_many snap sc (ops ++ [OpClose ord]) (ps ++ [Tail bs]) (stages ++ [ps]) /\ file_bytes w = the_file snap (ps ++ [Tail bs]) /\
    parts_follow p snap decomp (stages ++ [ps]) (file_bytes w).
Proof.
  intros p snap decomp sc out w0 ops ord w l HG Hsc N R O B L OO BN SP. destruct (run_trace _ _ _ _ _ _ _ _ N R) as (h & T).
  exact (many_closed p snap decomp HG sc Hsc w h ops ord l T O B L (conj OO (fun _ => conj BN SP))).
Qed.
Print Assumptions C72_parts.

(** ** The session of C62: two closes, one text of two series *)
Example C72_case : schema_ok dt_sc /\ run Release ex_snap dt_start dt_ops = Ret (dt_closed, [AOk; AOk; AUnit; AOk; AUnit]) /\ ops_ok dt_ops /\
  roomy_after ex_snap dt_sc dt_ops /\ modest Release ex_snap dt_sc dt_ops /\ orders_ok dt_ops /\ byte_names dt_sc /\ short_paths dt_sc /\
  written_many ex_snap dt_sc dt_ops (dt_one ++ [dt_first] ++ dt_two ++ [dt_second]) [dt_one; dt_one ++ [dt_first] ++ dt_two] /\
  map (fun d => zlen (texts_of ex_snap [dt_one; dt_one ++ [dt_first] ++ dt_two] d)) [[97; 46; 98]; [97]] = [2; 0] /\
  option_map (map (fun x => (f_key x, f_points x))) (part_read ex_snap (file_bytes dt_closed) [97; 46; 98]) =
    Some [(([97; 46; 98], [98; 46; 99]), [(1, 5)]); (([97; 46; 98], [98; 46; 99]), [(1, 5); (3, 7)])] /\
  part_read ex_snap (file_bytes dt_closed) [97] = None.
Proof.
  destruct C62_case as (A1 & A2 & A3 & A4 & A5 & A6 & _ & (A7 & A8 & A9) & _). split; [exact A1|]. split; [exact A2|]. split; [exact A3|].
  assert (N : exists out, writer_new dt_sc (sink_new healthy) = (out, Some dt_start)) by (eexists; vm_compute; reflexivity). destruct N as (out & N). destruct (run_trace _ _ _ _ _ _ _ _ N A2) as (h & T).
  split; [exact (roomy_after_of ex_snap dt_sc dt_ops A4)|]. split; [exact (small_modest _ _ _ _ _ _ _ T A5)|]. split; [exact A6|]. split; [exact A7|]. split; [exact A8|]. split; [|vm_compute; repeat split; reflexivity].
  pose proof (written_new (many_close_appends ex_snap) ex_snap dt_sc) as W.
  apply (written_call _ _ _ _ _ _ (OpWrite [97] [98; 46; 99] 1 (VInt 5))) in W; [|reflexivity]. apply (written_call _ _ _ _ _ _ (OpWrite [97; 46; 98] [99] 2 (VLong 6))) in W; [|reflexivity].
  eapply (written_close _ _ _ _ _ _ (fun l => l)) in W; [|eexists; split; [apply Permutation_refl|reflexivity]].
  apply (written_call _ _ _ _ _ _ (OpWrite [97] [98; 46; 99] 3 (VInt 7))) in W; [|reflexivity].
  eapply (written_close _ _ _ _ _ _ (fun l => l)) in W; [|eexists; split; [apply Permutation_refl|reflexivity]].
  match type of W with session_file _ _ _ _ ?a ?b => replace (dt_one ++ [dt_first] ++ dt_two ++ [dt_second]) with a by (vm_compute; reflexivity); replace [dt_one; dt_one ++ [dt_first] ++ dt_two] with b by (vm_compute; reflexivity) end.
  exact W.
Qed.
(** One record more than fits: the node has two entries, both leading to the end of the records. *)
Example C72_node_case : forall k, Z.of_nat k = 65536 ->
  record_node 8 (repeat ([98], [1; 2]) k ++ [([99], [3])]) = node_image [([99], 131081); ([98], 131081)] 131081 2 /\
  record_node 8 (repeat ([98], [1; 2]) k) = node_image (entries 8 (chop 256 (repeat ([98], [1; 2]) k))) 131080 3.
Proof.
  intros k K. set (a := repeat ([98], [1; 2]) k). assert (ZA : zlen a = 65536) by (unfold a, zlen; rewrite repeat_length; exact K).
  assert (RB : zlen (rows_bytes a) = 131072).
  { assert (X : zlen (rows_bytes a) = 2 * Z.of_nat k); [|lia]. unfold a. clear. induction k as [|k IH]; [reflexivity|]. cbn [repeat]. unfold rows_bytes in *. cbn [map concat snd]. rewrite zlen_app, IH, Nat2Z.inj_succ. change (zlen [1; 2]) with 2. lia. }
  assert (NE : exists b, a = ([98], [1; 2]) :: b) by (unfold a; destruct k; [discriminate|eexists; reflexivity]). clearbody a. unfold record_node. split.
  - rewrite zlen_app, ZA. change (zlen [([99], [3])]) with 1. cbn [Z.leb Z.add Z.compare Pos.compare Pos.compare_cont Pos.add Pos.succ Pos.add_carry]. unfold rows_bytes. rewrite map_app, concat_app, zlen_app. fold (rows_bytes a). rewrite RB. change (65536 + 1 <=? 65536) with false. cbv iota.
    assert (LN : leaf_names (a ++ [([99], [3])]) = [[98]; [99]]); [|rewrite LN; reflexivity].
    unfold leaf_names. rewrite (chop_more_z _ 256 256 a) by (exact ZA || lia). assert (CL : length (chop 256 a) = 256%nat) by (apply chop_count; exact ZA).
    rewrite (chop_app _ 256 (chop 256 a)) by (rewrite ?CL; lia). destruct NE as (b & ->). reflexivity.
  - rewrite ZA, RB. reflexivity.
Qed.
(** More than 256 leaf nodes: 600 names leave 90 entries. *)
Example C72_top_case : let l := map (fun i => [Z.of_nat i]) (seq 0 600) in zlen (top_names l) = 90 /\ firstn 4 (top_names l) = [[599]; [599]; [87]; [86]].
Proof. vm_compute. split; reflexivity. Qed.
(** A session that meets the conditions and loses everything: one point, closed 65537 times. Every call succeeds; the point
    cannot be found. *)
Example C72_lost_case : let ops := ls_write :: repeat ls_close (Z.to_nat 65537) in
  schema_ok ls_sc /\ ops_ok ops /\ roomy_after ex_snap ls_sc ops /\ modest Release ex_snap ls_sc ops /\ orders_ok ops /\ byte_names ls_sc /\ short_paths ls_sc /\
  exists w, run Release ex_snap ls_start ops = Ret (w, AOk :: repeat AUnit (Z.to_nat 65537)) /\
    index_read ex_snap (file_bytes w) = None /\ forall m, lookup (file_bytes w) [97] m = None.
Proof.
  assert (ZN : Z.of_nat (Z.to_nat 65537) = 65537) by (apply Z2Nat.id; lia). revert ZN. generalize (Z.to_nat 65537). intros N ZN. cbv zeta. destruct N as [|n]; [discriminate|].
  assert (B : 24 * zsum (map op_points (ls_write :: repeat ls_close (S n))) + 150 * series_count ls_sc < 2 ^ 32) by (rewrite ls_points; reflexivity).
  split; [exact ls_sc_ok|]. split; [apply ls_ops_ok|]. split; [exact (roomy_after_of ex_snap ls_sc _ B)|]. split; [apply ls_modest; lia|]. split; [apply ls_orders|]. split; [exact ls_bytes|]. split; [exact ls_short|].
  destruct ls_new as (out & W). pose proof (C62_outcomes Release ex_snap ex_snap ls_sc out ls_start _ ex_snap_good ls_sc_ok W (ls_ops_ok (S n)) B (fun _ => conj ls_bytes ls_short)) as X.
  rewrite ls_answers in X. destruct X as (w & R). exists w. split; [exact R|].
  rewrite repeat_snoc, app_comm_cons in R. pose proof (ls_ops_ok (S n)) as O. pose proof (roomy_after_of ex_snap ls_sc _ B) as RA. pose proof (ls_modest (S n) ltac:(lia)) as M. pose proof (ls_orders (S n)) as OO.
  rewrite repeat_snoc, app_comm_cons in O, RA, M, OO.
  destruct (C72_parts Release ex_snap ex_snap ls_sc out ls_start _ _ w _ ex_snap_good ls_sc_ok W R O RA M OO ls_bytes ls_short) as (ps & stages & bs & F & _ & (ft & P1 & P2 & _ & P4)).
  destruct (ls_stages _ _ _ _ F) as [_ S1]. destruct (S1 (S n)) as (S2 & S3 & _); [rewrite repeat_snoc; reflexivity|].
  destruct (P4 [97]) as (nd & o & q & _ & L & Q); [rewrite (ls_texts _ S3); lia|]. split; [|exact L].
  apply Q. intros d I. apply (Permutation_in _ P2) in I. exact (ls_parts _ _ S3 d I).
Qed.
(** So not every file whose calls all succeed leads to its points. *)
Theorem C72_reachable_refuted : exists sc out w0 ops w l, schema_ok sc /\ writer_new sc (sink_new healthy) = (out, Some w0) /\ run Release ex_snap w0 ops = Ret (w, l) /\
  Forall (fun a => a = AOk \/ a = AUnit) l /\ In AOk l /\ last ops ls_write = ls_close /\ index_read ex_snap (file_bytes w) = None.
Proof.
  destruct C72_lost_case as (A & _ & _ & _ & _ & _ & _ & w & R & I & _). destruct ls_new as (out & W). exists ls_sc, out, ls_start, (ls_write :: repeat ls_close (Z.to_nat 65537)), w, (AOk :: repeat AUnit (Z.to_nat 65537)).
  split; [exact A|]. split; [exact W|]. split; [exact R|]. clear - I. split; [|split; [left; reflexivity|split; [|exact I]]].
  - constructor; [left; reflexivity|]. apply Forall_forall. intros a J. apply repeat_spec in J. right. exact J.
  - assert (N : Z.to_nat 65537 <> 0%nat) by (intros E; apply (f_equal Z.of_nat) in E; rewrite Z2Nat.id in E by lia; discriminate). generalize dependent (Z.to_nat 65537). intros n N.
    destruct n as [|n]; [congruence|]. rewrite repeat_snoc, app_comm_cons, last_last. reflexivity.
Qed.
Print Assumptions C72_reachable_refuted.
