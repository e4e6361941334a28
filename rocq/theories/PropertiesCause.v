(** Property C73: what makes a call panic in a release build, whatever the disk does (any schedule of refused
    and cut writes), whatever the compressor returns and for any schema. *)
From Verif Require Import PropertiesWriter PLean PDots PropertiesFault.
Open Scope list_scope. Open Scope Z_scope.

(** Writes and batches: a value of another type, a FLOAT series declared with TS_2DIFF, an estimate of 0 bytes
    or an index out of range; nothing else. *)
Theorem C73_write : forall snap sc out out' w0 ops w l o q, writer_new sc out = (out', Some w0) -> run Release snap w0 ops = Ret (w, l) ->
  (forall ord, o <> OpClose ord) -> step Release snap w o = Panic q -> write_cause sc o q.
Proof. exact write_causes. Qed.
Print Assumptions C73_write.
(** A close: the flush runs out of range, or for some of the declared paths and their device texts the
    conditions of C23 fail. *)
Definition unfit (sc : schema) : Prop := exists paths devs, NoDup paths /\ NoDup devs /\
  Forall (fun x => exists d m ms, declares sc d m ms /\ x = d ++ [46] ++ m) paths /\ Forall (fun x => exists d m ms, declares sc d m ms /\ x = device_part (d ++ [46] ++ m)) devs /\
  (256 < zlen devs \/
   ~ ((forall s seed, In s paths -> In seed [5; 7; 11; 19; 31] -> ~ (path_hash s seed = - 2 ^ 31 /\ 2 ^ 31 mod bloom_bits (zlen paths) <> 0)) /\
      (bloom_bits (zlen paths) mod 8 = 0 \/ 4 <= bloom_bits (zlen paths) mod 8))).
Lemma unfit_of : forall sc, (exists paths devs, NoDup paths /\ NoDup devs /\ Forall (fun q => exists d m ms, declares sc d m ms /\ q = path_of d m) paths /\ Forall (dev_of sc) devs /\ (256 < zlen devs \/ ~ filter_fits paths)) -> unfit sc.
Proof.
  intros sc (paths & devs & A & B & C & D & E). exists paths, devs. split; [exact A|]. split; [exact B|]. split; [exact C|]. split.
  - eapply Forall_impl; [|exact D]. intros x (d & m & ms & X & ->). exists d, m, ms. split; [exact X|apply device_part_of].
  - rewrite <- filter_fits_iff. exact E.
Qed.
Theorem C73_close : forall snap sc out out' w0 ops w l ord q, byte_names sc -> short_paths sc -> writer_new sc out = (out', Some w0) -> run Release snap w0 ops = Ret (w, l) ->
  step Release snap w (OpClose ord) = Panic q -> flush_all Release snap w = Panic PIndex \/ unfit sc.
Proof. intros snap sc out out' w0 ops w l ord q BN SP N R H. destruct (close_causes snap sc out out' w0 ops w l ord q BN SP N R H) as [T|X]; [auto|right; apply unfit_of; exact X]. Qed.
Print Assumptions C73_close.
(** Fewer than 7989 points per series: the index out of range is impossible. *)
Theorem C73_few_points : forall snap sc out out' w0 ops w l o q, writer_new sc out = (out', Some w0) -> few_points (ops ++ [o]) -> run Release snap w0 ops = Ret (w, l) ->
  (forall ord, o <> OpClose ord) -> step Release snap w o = Panic q -> calm_cause sc o q.
Proof. exact calm_write. Qed.
Print Assumptions C73_few_points.
Theorem C73_few_points_close : forall snap sc out out' w0 ops w l ord q, byte_names sc -> short_paths sc -> writer_new sc out = (out', Some w0) -> few_points ops -> run Release snap w0 ops = Ret (w, l) ->
  step Release snap w (OpClose ord) = Panic q -> unfit sc.
Proof. intros. apply unfit_of. eapply calm_causes; eauto. Qed.
Print Assumptions C73_few_points_close.
(** And with at most 41 series every close returns. *)
Theorem C73_small : forall snap sc out out' w0 ops w l ord, byte_names sc -> short_paths sc -> series_count sc <= 41 -> writer_new sc out = (out', Some w0) -> few_points ops ->
  run Release snap w0 ops = Ret (w, l) -> exists w', step Release snap w (OpClose ord) = Ret (w', AUnit).
Proof. exact calm_close. Qed.
Print Assumptions C73_small.

(** With at most 4095 series a write panics only for its point, and a batch only for one of its points or,
    being empty, for an estimate of 0. *)
Theorem C73_few_series : forall snap sc out out' w0 ops w l o q, writer_new sc out = (out', Some w0) -> few_points (ops ++ [o]) -> series_count sc <= 4095 -> run Release snap w0 ops = Ret (w, l) ->
  (forall ord, o <> OpClose ord) -> step Release snap w o = Panic q -> small_cause sc o q.
Proof. exact small_write. Qed.
Print Assumptions C73_few_series.
(** Sessions without a wrong value and without an empty batch never panic, whatever the disk and the compressor do
    and wherever they close. *)
Theorem C73_safe_session : forall snap sc out out' w0 ops, byte_names sc -> short_paths sc -> series_count sc <= 41 -> writer_new sc out = (out', Some w0) -> few_points ops -> Forall (safe_call sc) ops ->
  exists w l, run Release snap w0 ops = Ret (w, l).
Proof. exact safe_run. Qed.
Print Assumptions C73_safe_session.

(** With at most 128 series nothing reaches the disk between the header and the close, so the disk has no part in what
    the calls answer or whether they panic. *)
Theorem C73_silent : forall snap sc out1 out1' w1 out2 out2' w2 ops, writer_new sc out1 = (out1', Some w1) -> writer_new sc out2 = (out2', Some w2) -> few_points ops -> series_count sc <= 128 -> no_close ops = true ->
  match run Release snap w1 ops, run Release snap w2 ops with
  | Ret (a, l), Ret (b, l') => l = l' /\ io_out (w_io a) = out1' /\ io_out (w_io b) = out2'
  | Panic q, Panic q' => q = q'
  | _, _ => False
  end.
Proof. exact silent. Qed.
Print Assumptions C73_silent.

(** A caller cannot tell a failing disk from a working one: with the first close the answers are the same, even
    where nothing but the header was stored. *)
Theorem C73_unnoticed : forall snap sc out1 out1' w1 out2 out2' w2 ops ord, byte_names sc -> short_paths sc -> series_count sc <= 41 ->
  writer_new sc out1 = (out1', Some w1) -> writer_new sc out2 = (out2', Some w2) -> few_points ops -> Forall (safe_call sc) ops -> no_close ops = true ->
  exists a b l, run Release snap w1 (ops ++ [OpClose ord]) = Ret (a, l) /\ run Release snap w2 (ops ++ [OpClose ord]) = Ret (b, l).
Proof. exact unnoticed. Qed.
Print Assumptions C73_unnoticed.

(** ** A session on a disk that refuses call 6; then a value of another type, and a close *)
Lemma fl_names : byte_names fl_sc /\ short_paths fl_sc.
Proof.
  split; intros d m ms (g & [E|[E|[]]] & I); inversion E; subst; cbn in I; destruct I as [I|[]]; inversion I; subst; try reflexivity; repeat constructor; lia.
Qed.
Lemma few_ops : forall ops, zsum (map (fun o => match o with OpWrite _ _ _ _ => 1 | OpWriteMany _ _ vs => zlen vs | OpClose _ => 0 end) ops) < 7989 -> few_points ops.
Proof.
  intros ops H d m. eapply Z.le_lt_trans; [|exact H]. clear H. induction ops as [|o ops IH]; [reflexivity|]. rewrite offered_cons. unfold zsum in *. cbn [map fold_right].
  assert (offered_by d m o <= match o with OpWrite _ _ _ _ => 1 | OpWriteMany _ _ vs => zlen vs | OpClose _ => 0 end); [|lia].
  destruct o as [d' m' t v|d' t vs|ord]; cbn [offered_by]; [destruct (_ && _)%bool; lia| |lia]. destruct (same_text d d'); [|apply zlen_nonneg].
  induction vs as [|mv vs IHv]; [cbn; lia|]. rewrite filter_cons_one, zlen_cons. unfold one. destruct (same_text m (fst mv)); lia.
Qed.
Example C73_case : writer_new fl_sc (sink_new (fl_disk 6)) = (io_out (w_io (fl_start 6)), Some (fl_start 6)) /\
  byte_names fl_sc /\ short_paths fl_sc /\ series_count fl_sc <= 41 /\ few_points fl_ops /\ few_points (fl_ops ++ [OpWrite [100] [97] 3 (VLong 9)]) /\
  match run Release ex_snap (fl_start 6) fl_ops with
  | Ret (w, l) => step Release ex_snap w (OpWrite [100] [97] 3 (VLong 9)) = Panic PTodo
  | Panic _ => False
  end /\ calm_cause fl_sc (OpWrite [100] [97] 3 (VLong 9)) PTodo.
Proof.
  split; [reflexivity|]. split; [apply fl_names|]. split; [apply fl_names|]. split; [vm_compute; discriminate|].
  split; [apply few_ops; reflexivity|]. split; [apply few_ops; reflexivity|]. split; [vm_compute; reflexivity|]. left. exists (mkMS INT32 PLAIN UNCOMPRESSED).
  split; [exists [([97], mkMS INT32 PLAIN UNCOMPRESSED)]; split; left; reflexivity|]. left. split; [reflexivity|]. intros [].
Qed.
(** The same session, with a close in its middle, meets the conditions of [C73_safe_session]; the disk refuses call 6. *)
Example C73_safe_case : Forall (safe_call fl_sc) (fl_ops ++ [OpWriteMany [101] 5 [([99], VInt 3); ([97], VLong 1)]]) /\ few_points (fl_ops ++ [OpWriteMany [101] 5 [([99], VInt 3); ([97], VLong 1)]]) /\
  match run Release ex_snap (fl_start 6) (fl_ops ++ [OpWriteMany [101] 5 [([99], VInt 3); ([97], VLong 1)]]) with
  | Ret (_, l) => length l = 5%nat /\ nth 4 l AOk <> AOk
  | Panic _ => False
  end.
Proof.
  assert (D : forall d m ms, declares fl_sc d m ms -> ms = mkMS INT32 PLAIN UNCOMPRESSED /\ (d = [100] /\ m = [97] \/ d = [101] /\ m = [99])).
  { intros d m ms (g & [E|[E|[]]] & I); inversion E; subst; destruct I as [I|[]]; inversion I; subst; auto. }
  assert (S : forall d m z, safe_point fl_sc d m (VInt z)).
  { intros d m z ms H. destruct (D d m ms H) as [-> _]. split; [exact I|]. intros [X _]. discriminate. }
  split; [|split; [apply few_ops; reflexivity|vm_compute; split; [reflexivity|discriminate]]].
  unfold fl_ops. cbn [app]. do 5 (apply Forall_cons; [cbn [safe_call]; try apply S; try exact I|]); [|apply Forall_nil]. split; [discriminate|].
  intros m v [E|[E|[]]]; inversion E; subst; [apply S|]. intros ms H. destruct (D _ _ _ H) as [_ [[X _]|[_ X]]]; discriminate.
Qed.
(** Two disks that refuse call 6 and call 9 (the header takes two). *)
Example C73_silent_case : let ops := [OpWrite [100] [97] 1 (VInt 7); OpWrite [100] [97] 1 (VInt 8); OpWrite [101] [99] 1 (VInt 8)] in
  writer_new fl_sc (sink_new (fl_disk 9)) = (io_out (w_io (fl_start 9)), Some (fl_start 9)) /\ few_points ops /\ series_count fl_sc <= 128 /\ no_close ops = true /\
  match run Release ex_snap (fl_start 6) ops, run Release ex_snap (fl_start 9) ops with
  | Ret (a, l), Ret (b, l') => l = [AOk; AErr EOutOfOrderData; AOk] /\ l' = l /\ file_bytes a = MAGIC ++ [3]
  | _, _ => False
  end.
Proof. cbv zeta. split; [reflexivity|]. split; [apply few_ops; reflexivity|]. split; [vm_compute; discriminate|]. split; [reflexivity|]. vm_compute. repeat split; reflexivity. Qed.
(** A disk that takes the header only: both writes and the close are answered as on a working disk. *)
Definition full_disk : nat -> fault := fun n => if (n <? 2)%nat then FFull else FFail.
Example C73_unnoticed_case : let ops := [OpWrite [100] [97] 1 (VInt 7); OpWrite [101] [99] 1 (VInt 8)] in
  Forall (safe_call fl_sc) ops /\ few_points ops /\ no_close ops = true /\
  match writer_new fl_sc (sink_new full_disk), writer_new fl_sc (sink_new healthy) with
  | (_, Some w1), (_, Some w2) =>
      match run Release ex_snap w1 (ops ++ [OpClose (fun l => l)]), run Release ex_snap w2 (ops ++ [OpClose (fun l => l)]) with
      | Ret (a, l), Ret (b, l') => l = [AOk; AOk; AUnit] /\ l' = l /\ file_bytes a = MAGIC ++ [3] /\ 100 < zlen (file_bytes b)
      | _, _ => False
      end
  | _, _ => False
  end.
Proof.
  assert (S : forall d m z, safe_point fl_sc d m (VInt z)).
  { intros d m z ms (g & [E|[E|[]]] & J); inversion E; subst; destruct J as [J|[]]; inversion J; subst; (split; [exact I|intros [X _]; discriminate]). }
  cbv zeta. split; [do 2 (apply Forall_cons; [cbn [safe_call]; apply S|]); apply Forall_nil|]. split; [apply few_ops; reflexivity|]. split; [reflexivity|]. vm_compute. repeat split; reflexivity.
Qed.
(** A FLOAT series with TS_2DIFF: the first point panics. *)
Example C73_unwrap_case : let sc := [([100], [([97], mkMS FLOAT TS2DIFF UNCOMPRESSED)])] in
  match writer_new sc (sink_new healthy) with (_, Some w0) => step Release ex_snap w0 (OpWrite [100] [97] 3 (VFloat 9)) = Panic PUnwrap | _ => False end.
Proof. vm_compute. reflexivity. Qed.

(** ** The disk can make the difference: 44 series of one device and two of another can be closed (a filter of
    287 bits); when the disk refuses the group of the second device only 44 are listed (275 bits), and the
    close panics *)
Definition ca_names : list Z := map Z.of_nat (seq 1 44).
Definition ca_sc : schema := [([100], map (fun m => ([m], mkMS INT32 PLAIN UNCOMPRESSED)) ca_names); ([101], [([97], mkMS INT32 PLAIN UNCOMPRESSED); ([98], mkMS INT32 PLAIN UNCOMPRESSED)])].
Definition ca_ops : list op := map (fun m => OpWrite [100] [m] 1 (VInt 7)) ca_names ++ [OpWrite [101] [97] 1 (VInt 7); OpWrite [101] [98] 1 (VInt 7)].
Definition ca_close (f : nat -> fault) : outcome bool :=
  match writer_new ca_sc (sink_new f) with
  | (_, Some w0) => let* r := run Release ex_snap w0 ca_ops in let* r := step Release ex_snap (fst r) (OpClose (fun l => l)) in Ret true
  | _ => Ret false
  end.
(** That a close which returns on a working disk returns on any disk is refuted: *)
Theorem C73_fault_refuted : ca_close healthy = Ret true /\ exists k q, ca_close (fl_disk k) = Panic q.
Proof. split; [vm_compute; reflexivity|]. exists 357%nat. eexists. vm_compute. reflexivity. Qed.
Print Assumptions C73_fault_refuted.
