(** Property C57: sessions on a disk that fails now and then (any schedule of refused and cut writes) and
    that may work again later. The ledger (SFault.v) is kept from what can be seen from outside: the calls,
    the answers, whether the file grew and whether the disk refused or cut a write during a call.
    [few]: between a disturbed call and the next undisturbed flush no series is offered more than 3446
    points; beyond that see [C57_reused_chunk_refuted]. *)
From Verif Require Import PropertiesWriter PropertiesIndex PLedger.
Open Scope list_scope. Open Scope Z_scope.

(** ** Material for the examples: two devices; the disk refuses one write call *)
Definition fl_sc : schema := [([100], [([97], mkMS INT32 PLAIN UNCOMPRESSED)]); ([101], [([99], mkMS INT32 PLAIN UNCOMPRESSED)])].
Definition fl_disk (k : nat) : nat -> fault := fun n => if (n =? k)%nat then FFail else FFull.
Definition fl_start (k : nat) : writer := match writer_new fl_sc (sink_new (fl_disk k)) with (_, Some w) => w | (o, None) => mkW (mkIO o None [] None [] []) [] 0 0 [] end.
Definition fl_ops : list op := [OpWrite [100] [97] 1 (VInt 7); OpWrite [101] [99] 1 (VInt 8); OpClose (fun l => l); OpWrite [100] [97] 2 (VInt 9)].
Definition fl_end (k : nat) : writer * ledger * list ledger * list answer :=
  match session Release ex_snap (fl_start k) l_new [] [] fl_ops with Some r => r | None => (fl_start k, l_new, [], []) end.
Definition fl_writer (k : nat) : writer := fst (fst (fst (fl_end k))).
Definition fl_closed (k : nat) : writer := match step Release ex_snap (fl_writer k) (OpClose (fun l => l)) with Ret r => fst r | Panic _ => fl_start k end.
Definition pt (d m t : Z) (v : value) : point := mkPoint [d] [m] t v.
Lemma fl_sc_ok : schema_ok fl_sc.
Proof. split; [|]; repeat constructor; cbn; try tauto; try (intros [|[|]]; congruence); intros []; congruence. Qed.
Lemma fl_no_dots : no_dots fl_sc.
Proof. intros d m ms (g & [E|[E|[]]] & I) J; inversion E; subst; cbn in I; destruct I as [I|[]]; inversion I; subst; destruct J as [J|[]]; discriminate. Qed.
(** Call 6 (part of the first chunk) is refused during the first close; the second close is undisturbed. *)
Example fl_case : good_snap ex_snap ex_snap /\ schema_ok fl_sc /\ no_dots fl_sc /\ few_entries fl_sc (zlen (snd (fst (fl_end 6))) + 1) 65536 /\ ops_ok fl_ops /\ good_order (fun l => l) /\
  endured Release ex_snap fl_sc (fl_disk 6) (fl_writer 6) (snd (fst (fst (fl_end 6)))) (snd (fst (fl_end 6))) fl_ops [AOk; AOk; AUnit; AOk] /\
  recovered (fl_writer 6) /\ step Release ex_snap (fl_writer 6) (OpClose (fun l => l)) = Ret (fl_closed 6, AUnit) /\ zlen (file_bytes (fl_closed 6)) < 2 ^ 32 /\
  snd (fst (fst (fl_end 6))) = mkL [pt 100 97 1 (VInt 7); pt 101 99 1 (VInt 8); pt 100 97 2 (VInt 9)] [] [pt 100 97 2 (VInt 9)] (Some [pt 100 97 2 (VInt 9)]).
Proof.
  split; [exact ex_snap_good|]. split; [exact fl_sc_ok|]. split; [exact fl_no_dots|]. split; [repeat constructor; vm_compute; discriminate|].
  split; [split; [repeat constructor; vm_compute; try discriminate|reflexivity]|]. split; [exact order_id|]. split.
  - assert (E : session Release ex_snap (fl_start 6) l_new [] [] fl_ops = Some (fl_end 6)) by (vm_compute; reflexivity).
    change [AOk; AOk; AUnit; AOk] with (snd (fl_end 6)). change fl_ops with ([] ++ fl_ops). eapply session_endured; [|exact E]. eapply endured_new. vm_compute. reflexivity.
  - split; [|vm_compute; auto]. intros n L. assert (C : sk_calls (io_out (w_io (fl_writer 6))) = 19%nat) by (vm_compute; reflexivity). rewrite C in L.
    replace (sk_sched (io_out (w_io (fl_writer 6)))) with (fl_disk 6) by (vm_compute; reflexivity). unfold fl_disk. destruct (n =? 6)%nat eqn:E; auto. apply Nat.eqb_eq in E. lia.
Qed.

(** ** At every moment of every session: the offsets kept for the index lead to whole, decodable chunks of
    declared series in a group of their device - whatever was torn before, between or after them - and for
    every series these chunks hold, in order, the points that undisturbed flushes wrote and nothing that was
    not offered. *)
Theorem C57_recorded : forall p snap decomp sc sched w g cs ops l, good_snap snap decomp -> schema_ok sc ->
  endured p snap sc sched w g cs ops l -> ops_ok ops -> zlen (file_bytes w) < 2 ^ 32 ->
  (forall d ms cm, In (d, ms) (io_groups (w_io w)) -> In cm ms -> exists k s, chunk_at decomp (file_bytes w) (cm_offset cm) = Some k /\
     declares sc d (cm_id cm) s /\ cm_type cm = ms_type s /\ ch_name k = cm_id cm /\ ch_type k = dtype_code (cm_type cm) /\ chunk_points k <> [] /\
     in_group decomp (file_bytes w) d (cm_offset cm)) /\
  (forall d m, exists s, booked d m g s /\ concat (map (points_at decomp (file_bytes w)) (recorded (io_groups (w_io w)) d m)) = tnums s).
Proof. intros p snap decomp sc sched w g cs ops l HG Hs. exact (endured_recorded p snap decomp HG sc Hs sched w g cs ops l). Qed.
Print Assumptions C57_recorded.
(** Call 16 (the first chunk of the second group) is refused: the first group is recorded. *)
Example C57_recorded_case : map (fun g => (fst g, map cm_offset (snd g))) (io_groups (w_io (fl_writer 16))) = [([100], [10])] /\
  points_at ex_snap (file_bytes (fl_writer 16)) 10 = [(1, 7)].
Proof. vm_compute. auto. Qed.

(** ** When the disk works again, the next close delivers a readable index: one entry of every series per
    close; the last one holds everything kept so far and everything acknowledged since the last disturbed call. *)
Theorem C57_index_after_recovery : forall p snap decomp sc sched w g cs ops l ord w' a, good_snap snap decomp -> schema_ok sc ->
  endured p snap sc sched w g cs ops l -> ops_ok ops -> recovered w ->
  step p snap w (OpClose ord) = Ret (w', a) -> zlen (file_bytes w') < 2 ^ 32 -> good_order ord -> no_dots sc -> few_entries sc (zlen cs + 1) 65536 ->
  exists pss xs, Forall2 (fun pts c => forall d m, booked d m c (series_of d m pts)) pss (cs ++ [mkL (l_offered g) (l_kept g ++ l_pending g) [] None]) /\
    index_read decomp (file_bytes w') = Some xs /\
    Forall (fun x => exists ms, declares sc (fst (f_key x)) (snd (f_key x)) ms) xs /\
    (forall d m ms, declares sc d m ms -> Forall2 (series_found p (ms_type ms)) (versions d m pss) (entries_of d m xs)) /\
    (forall d m, map f_points (entries_of d m xs) = map tnums (versions d m pss)).
Proof. exact endured_index. Qed.
Print Assumptions C57_index_after_recovery.
Theorem C57_found_after_recovery : forall p snap decomp sc sched w g cs ops l ord w' a d m, good_snap snap decomp -> schema_ok sc ->
  endured p snap sc sched w g cs ops l -> ops_ok ops -> recovered w ->
  step p snap w (OpClose ord) = Ret (w', a) -> zlen (file_bytes w') < 2 ^ 32 -> good_order ord -> no_dots sc -> few_entries sc (zlen cs + 1) 65536 ->
  series_of d m (l_kept g ++ l_pending g) <> [] ->
  exists xs x, index_read decomp (file_bytes w') = Some xs /\ In x xs /\ f_key x = (d, m) /\
    subseq (tnums (series_of d m (l_kept g ++ l_pending g))) (f_points x) /\ subseq (f_points x) (tnums (series_of d m (l_offered g))).
Proof. exact endured_found. Qed.
Print Assumptions C57_found_after_recovery.
(** Without a disturbed call these are all acknowledged points. *)
Theorem C57_undisturbed : forall p snap sc sched w g cs ops l, endured p snap sc sched w g cs ops l -> (forall n, sched n = FFull) ->
  (forall n, sk_sched (io_out (w_io w)) n = FFull) /\ l_kept g ++ l_pending g = acked ops l /\ l_since g = None.
Proof. exact endured_calm. Qed.
Print Assumptions C57_undisturbed.
Example C57_after_recovery_case :
  option_map (map (fun x => (f_key x, f_points x))) (index_read ex_snap (file_bytes (fl_closed 6))) = Some [(([100], [97]), [(2, 9)]); (([101], [99]), [(1, 8)])] /\
  option_map (map (fun x => (f_key x, f_points x))) (index_read ex_snap (file_bytes (fl_closed 16))) =
    Some [(([100], [97]), [(1, 7)]); (([100], [97]), [(1, 7); (2, 9)])].
Proof. vm_compute. auto. Qed.

(** ** What is false: one refused write call costs an acknowledged point although the close answers as always, the
    disk works again and another close follows. *)
Theorem C57_acknowledged_lost_refuted : exists sched w g cs w' xs, endured Release ex_snap fl_sc sched w g cs fl_ops [AOk; AOk; AUnit; AOk] /\ recovered w /\
  step Release ex_snap w (OpClose (fun l => l)) = Ret (w', AUnit) /\ In (pt 100 97 1 (VInt 7)) (acked fl_ops [AOk; AOk; AUnit; AOk]) /\
  index_read ex_snap (file_bytes w') = Some xs /\ Forall (fun x => ~ In (1, 7) (f_points x)) xs.
Proof.
  destruct fl_case as (_ & _ & _ & _ & _ & _ & T & R & S & _).
  assert (X : exists xs, index_read ex_snap (file_bytes (fl_closed 6)) = Some xs /\ Forall (fun x => ~ In (1, 7) (f_points x)) xs).
  { eexists. split; [vm_compute; reflexivity|]. repeat constructor; vm_compute; intros [E|[]]; discriminate. }
  destruct X as (xs & X1 & X2). do 6 eexists. do 3 (split; [eassumption|]). split; [left; reflexivity|]. split; [exact X1|exact X2].
Qed.
Print Assumptions C57_acknowledged_lost_refuted.

(** A chunk writer that is used on after its chunk went out ([reset] normally replaces it; after a failed
    flush it stays) puts the statistics of the first page of its next chunk in the wrong place when that chunk
    has two pages: the size of the page head is not reset. A reader cannot decode that chunk. *)
Definition fl_put (t n : Z) (c : chunk_writer) : outcome chunk_writer :=
  match cw_write Release ex_snap t (VInt n) c with Ret (inl c') => Ret c' | Ret (inr _) => Panic PExplicit | Panic q => Panic q end.
Definition fl_two_pages (c : chunk_writer) : outcome chunk_writer :=
  let* c := fl_put 2 8 c in let* c := seal_current_page Release ex_snap c in let* c := fl_put 3 9 c in seal_current_page Release ex_snap c.
Definition fl_io : io_writer := mkIO (sink_new healthy) None [] None [] [].
Theorem C57_reused_chunk_refuted : exists c io c1 io1 c2 k,
  (let* c := fl_two_pages (cw_new [97] INT32 UNCOMPRESSED PLAIN) in write_to_file_writer Release ex_snap c fl_io) = Ret (c, io) /\
  chunk_read ex_snap (sk_data (io_out io)) = Some (k, []) /\ chunk_points k = [(2, 8); (3, 9)] /\
  (let* c := fl_put 1 7 (cw_new [97] INT32 UNCOMPRESSED PLAIN) in write_to_file_writer Release ex_snap c fl_io) = Ret (c1, io1) /\
  (let* c := fl_two_pages c1 in write_to_file_writer Release ex_snap c fl_io) = Ret c2 /\
  chunk_read ex_snap (sk_data (io_out (snd c2))) = None.
Proof. do 6 eexists. do 5 (split; [vm_compute; reflexivity|]). vm_compute. reflexivity. Qed.
Print Assumptions C57_reused_chunk_refuted.
(** Two bytes are added at every reuse; after fourteen the split point lies beyond the buffer and sealing
    the second page panics (a slice index out of range), although every value had its declared type. *)
Fixpoint fl_uses (n : nat) (c : chunk_writer) : outcome chunk_writer :=
  match n with
  | O => Ret c
  | S k => let* c := fl_put 1 7 c in let* r := write_to_file_writer Release ex_snap c fl_io in fl_uses k (fst r)
  end.
Theorem C57_reused_chunk_panic_refuted : exists n c,
  fl_uses n (cw_new [97] INT32 UNCOMPRESSED PLAIN) = Ret c /\ fl_two_pages c = Panic PIndex /\
  exists c', fl_two_pages (cw_new [97] INT32 UNCOMPRESSED PLAIN) = Ret c'.
Proof. exists 14%nat. eexists. split; [vm_compute; reflexivity|]. split; [vm_compute; reflexivity|]. eexists. vm_compute. reflexivity. Qed.
Print Assumptions C57_reused_chunk_panic_refuted.
