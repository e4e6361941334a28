(** Property C45: the C interface (tsfile-writer-c/src/lib.rs). Property C46: the Python classes on top of it
    (tsfile-writer-c/rust.py). [frun] (MFfi.v) executes the calls of a C caller together with what the caller
    does to its own buffers, [pyrun] (MPy.v) the method calls of a Python program. *)
From Verif Require Import PPy PropertiesWriter.
Open Scope list_scope. Open Scope Z_scope.

(** ** Material for the examples *)
Definition ex_env : ffi_env := mkEnv (fun _ => true) (fun _ => true) (fun _ => healthy) (fun l => l).
(** Two names, a schema (pointer 1), a file "f" (pointer 2), two points. *)
Definition ex_calls : list fcall :=
  [CBuf 1 [100; 0]; CBuf 2 [97; 0]; FSchemaSimple 1 2 1 0 0; CBuf 3 [102; 0]; FWriterNew 3 1; FSchemaFree 1;
   FWriteInt32 2 1 2 5 7; FWriteInt32 2 1 2 6 (-1)].
Definition ex_ffi (calls : list fcall) : cresult (ffi * list Z) := frun Release ex_snap ex_env ffi_new calls.
Definition ex_run_ok (calls : list fcall) : bool := match ex_ffi calls with CVal _ => true | _ => false end.

(** ** C45 *)
(** The library accepts exactly the well-formed UTF-8 strings. *)
Theorem C45_utf8 : forall l, utf8_ok l = true <-> exists cs, Forall scalar cs /\ l = utf8 cs.
Proof. exact utf8_iff. Qed.
Print Assumptions C45_utf8.
Example C45_utf8_case : Forall scalar [0x64; 0xFC; 0x20AC; 0x1F600] /\
  utf8_ok (utf8 [0x64; 0xFC; 0x20AC; 0x1F600]) = true /\ utf8_ok [0xC0; 0x80] = false /\ utf8_ok [0xED; 0xA0; 0x80] = false.
Proof. split; [repeat constructor; unfold scalar; lia|]. repeat split. Qed.

(** When [schema_simple] returns; otherwise the process ends. *)
Theorem C45_schema_iff : forall p snap env st da ma dt en co rd rm, da <> 0 -> ma <> 0 ->
  f_bufs st da = Some rd -> In 0 rd -> f_bufs st ma = Some rm -> In 0 rm ->
  ((exists st', fstep p snap env st (FSchemaSimple da ma dt en co) = CVal (st', f_next st)) <->
    is_text (before_nul rd) /\ is_text (before_nul rm) /\ In dt [1; 2; 3] /\ In en [0; 4] /\ In co [0; 1]) /\
  fstep p snap env st (FSchemaSimple da ma dt en co) <> CUndef.
Proof. exact schema_iff. Qed.
Print Assumptions C45_schema_iff.
(** Data type 1 is accepted, 4 ends the process. *)
Example C45_schema_case : ex_run_ok [CBuf 1 [100; 0; 255]; CBuf 2 [195; 188; 0]; FSchemaSimple 1 2 1 4 1] = true /\
  ex_ffi [CBuf 1 [100; 0; 255]; CBuf 2 [195; 188; 0]; FSchemaSimple 1 2 4 4 1] = CAbort /\
  ex_ffi [CBuf 1 [100; 0]; CBuf 2 [195; 0]; FSchemaSimple 1 2 1 0 0] = CAbort /\
  ex_ffi [CBuf 1 [100]; CBuf 2 [97; 0]; FSchemaSimple 1 2 1 0 0] = CUndef.
Proof. vm_compute. auto. Qed.

(** A call of [file_writer_write_int32] that is not undefined returns iff the write on the Rust side is accepted,
    and then does the same; a rejected write ends the process. *)
Theorem C45_write_iff : forall p snap env st h da ma t n fw rd rm, f_writers st h = Some fw -> h <> 0 ->
  f_bufs st da = Some rd -> f_bufs st ma = Some rm ->
  fstep p snap env st (FWriteInt32 h da ma t n) <> CUndef ->
  forall st' r, fstep p snap env st (FWriteInt32 h da ma t n) = CVal (st', r) <->
    r = h /\ is_text (before_nul rd) /\ is_text (before_nul rm) /\ da <> 0 /\ ma <> 0 /\
    exists w bs, writer_write p snap (before_nul rd) (before_nul rm) t (VInt n) (fw_writer fw) = Ret (w, AOk) /\
      st' = mkFfi (f_bufs st) (f_schemas st) (upd h (Some (mkFW (fw_file fw) bs w)) (f_writers st)) (f_files st) (f_next st) /\
      bs = (if keeps_name (fw_writer fw) (before_nul rd) (before_nul rm) then (ma, before_nul rm) :: fw_borrows fw else fw_borrows fw).
Proof. exact write_iff. Qed.
Print Assumptions C45_write_iff.
(** A stale timestamp ends the process, where the Rust interface answers [Err]. *)
Example C45_rejected_case : ex_ffi (ex_calls ++ [FWriteInt32 2 1 2 6 0]) = CAbort /\ ex_run_ok (ex_calls ++ [FWriteInt32 2 1 2 7 0]) = true.
Proof. vm_compute. auto. Qed.

(** Whatever the session, a writer that exists is the one that the same points, written through the Rust
    interface, would have made; all of them were acknowledged. *)
Theorem C45_native : forall p snap env calls st rets h fw, frun p snap env ffi_new calls = CVal (st, rets) ->
  f_writers st h = Some fw -> exists sc out w0,
    writer_new sc (sink_new (e_sched env (fw_file fw))) = (out, Some w0) /\
    run p snap w0 (map op_of (written h no_bufs calls)) = Ret (fw_writer fw, map (fun _ => AOk) (written h no_bufs calls)).
Proof.
  intros p snap env calls st rets h fw R W. destruct (fi_writers _ _ _ _ _ (finv_run _ _ _ _ _ _ R) _ _ W) as (sc & out & w0 & _ & N & Rn).
  exists sc, out, w0. split; [exact N|exact Rn].
Qed.
Print Assumptions C45_native.
(** The file of a writer that was closed holds exactly the points written through its pointer. *)
Theorem C45_file : forall p snap decomp env calls st rets h n data, good_snap snap decomp ->
  frun p snap env ffi_new calls = CVal (st, rets) -> In (h, (n, data)) (f_files st) ->
  e_sched env n = healthy -> Forall call_ok calls -> zlen (written h no_bufs calls) < 2 ^ 32 -> zlen data < 2 ^ 32 ->
  exists cs, read_file decomp data = Some cs /\
    forall d m, SReader.series_in cs d m = tnums (series_of d m (written h no_bufs calls)).
Proof. exact ffi_file. Qed.
Print Assumptions C45_file.
(** If the process ends early (say, on a rejected write): the points flushed so far can be read, whatever
    else reached the file. *)
Theorem C45_crash : forall p snap decomp env calls st rets h fw tail, good_snap snap decomp ->
  frun p snap env ffi_new calls = CVal (st, rets) -> f_writers st h = Some fw ->
  e_sched env (fw_file fw) = healthy -> Forall call_ok calls -> zlen (written h no_bufs calls) < 2 ^ 32 ->
  zlen (file_bytes (fw_writer fw)) < 2 ^ 32 ->
  exists flushed recent cs extra rest, written h no_bufs calls = flushed ++ recent /\
    scan_file decomp (file_bytes (fw_writer fw) ++ tail) = Some (cs ++ extra, rest) /\
    forall d m, SReader.series_in cs d m = tnums (series_of d m flushed).
Proof. exact ffi_crash. Qed.
Print Assumptions C45_crash.
Example C45_case : Forall call_ok (ex_calls ++ [FClose 2]) /\
  written 2 no_bufs (ex_calls ++ [FClose 2]) = [mkPoint [100] [97] 5 (VInt 7); mkPoint [100] [97] 6 (VInt (-1))] /\
  match ex_ffi (ex_calls ++ [FClose 2]) with
  | CVal (st, rets) => rets = [0; 0; 1; 0; 2; 0; 2; 2; 0] /\ map (fun f => (fst f, fst (snd f))) (f_files st) = [(2, [102])] /\ f_writers st 2 = None
  | _ => False
  end.
Proof. split; [repeat constructor; cbn; lia|]. split; [reflexivity|]. vm_compute. auto. Qed.

(** No call of a polite caller is undefined: every pointer is null or one it got and did not give back, every
    string is NUL-terminated, and a buffer stays as long as a schema or writer made with it, or a writer that got
    it as a measurement name, is in use. *)
Theorem C45_polite : forall p snap env calls st rets next, frun p snap env ffi_new calls = CVal (st, rets) ->
  polite_session noted caller_new calls rets next -> fstep p snap env st next <> CUndef.
Proof. intros p snap env calls st rets next R P. exact (polite_run p snap env calls _ _ st rets next psim_new R P). Qed.
Print Assumptions C45_polite.
Example C45_polite_case : polite_session noted caller_new ex_calls [0; 0; 1; 0; 2; 0; 2; 2] (FClose 2).
Proof.
  apply (session_b_ok true ex_calls _ _ [] [] []). vm_compute. reflexivity.
Qed.
(** It is not enough to keep the names given to [schema_simple]: a writer also keeps the pointer to the
    measurement name of a write (tsfile-writer/src/writer/group_writer.rs:110). Here the name of the first
    write is freed after the call, and the second write uses freed memory. *)
Definition ex_temporary : list fcall :=
  [CBuf 1 [100; 0]; CBuf 2 [97; 0]; FSchemaSimple 1 2 1 0 0; CBuf 3 [102; 0]; FWriterNew 3 1; CFree 3;
   CBuf 4 [97; 0]; FWriteInt32 2 1 4 5 7; CFree 4].
Theorem C45_temporary_name_refuted : exists calls st rets next, frun Release ex_snap ex_env ffi_new calls = CVal (st, rets) /\
  polite_session noted_schema caller_new calls rets next /\ fstep Release ex_snap ex_env st next = CUndef.
Proof.
  exists ex_temporary.
  assert (R : match frun Release ex_snap ex_env ffi_new ex_temporary with
    | CVal (st, rets) => rets = [0; 0; 1; 0; 2; 0; 0; 2; 0] /\ match fstep Release ex_snap ex_env st (FWriteInt32 2 1 2 6 8) with CUndef => True | _ => False end
    | _ => False end) by (vm_compute; auto).
  destruct (frun Release ex_snap ex_env ffi_new ex_temporary) as [[st rets]| |]; try contradiction. destruct R as [-> U].
  exists st, [0; 0; 1; 0; 2; 0; 0; 2; 0], (FWriteInt32 2 1 2 6 8). split; [reflexivity|]. split; [|destruct (fstep Release ex_snap ex_env st (FWriteInt32 2 1 2 6 8)); [contradiction|contradiction|reflexivity]]. clear.
  apply (session_b_ok false ex_temporary _ _ [] [] []). vm_compute. reflexivity.
Qed.
Print Assumptions C45_temporary_name_refuted.

(** ** C46 *)
(** Nothing a Python program does with the classes is undefined: methods in any order, on closed or freed objects,
    with any arguments, whatever the garbage collector takes when. *)
Theorem C46_never_undefined : forall p snap env ops, pyrun p snap env (ffi_new, py_new) ops <> CUndef.
Proof. intros p snap env ops. exact (pyrun_ok p snap env ops _ _ pyinv_new). Qed.
Print Assumptions C46_never_undefined.
(** The file of a writer object that was closed holds exactly the points of the [write_int] calls on it that
    raised no exception. *)
Theorem C46_file : forall p snap decomp env ops f st rets n s w, good_snap snap decomp ->
  pyrun p snap env (ffi_new, py_new) ops = CVal (f, st, rets) ->
  In (PyWriter n s, PyObj w) (combine ops rets) -> In (PyClose w, PyNone) (combine ops rets) ->
  e_sched env (py_name n) = healthy -> Forall pyop_ok ops -> zlen ops < 2 ^ 32 ->
  exists h data, In (h, (py_name n, data)) (f_files f) /\ (zlen data < 2 ^ 32 ->
    exists cs, read_file decomp data = Some cs /\
      forall d m, SReader.series_in cs d m = tnums (series_of d m (py_points w (combine ops rets)))).
Proof. exact py_file. Qed.
Print Assumptions C46_file.
(** Schema, writer, freed schema, a measurement name from another string object, a write after [close]. *)
Definition ex_py : list pyop :=
  [PySchema [100] [97] 1 0 0; PyWriter [102] 0; PyFree 0; PyWrite 1 [100] [97] 5 7; PyFree 0; PyForgetSchema 0;
   PyWrite 1 [100] [97] (2 ^ 40) 7; PyWrite 1 [100] [97] 6 8; PyClose 1; PyWrite 1 [100] [97] 7 9; PyClose 1; PyForgetWriter 1; PyForgetSchema 0].
Definition ex_rets : list pyret :=
  [PyObj 0; PyObj 1; PyNone; PyNone; PyExc; PyExc; PyExc; PyNone; PyNone; PyExc; PyExc; PyNone; PyNone].
Example C46_case : Forall pyop_ok ex_py /\
  match pyrun Release ex_snap ex_env (ffi_new, py_new) ex_py with
  | CVal (f, _, rets) => rets = ex_rets /\ map (fun f => (fst f, fst (snd f))) (f_files f) = [(2, [102])] /\ f_bufs f 1 = None
  | _ => False
  end /\
  py_points 1 (combine ex_py ex_rets) = [mkPoint [100] [97] 5 (VInt 7); mkPoint [100] [97] 6 (VInt 8)].
Proof. split; [repeat constructor; cbn; lia|]. split; [|reflexivity]. vm_compute. auto. Qed.
(** Names are cut at an embedded NUL: two different Python names, one series. *)
Theorem C46_distinct_names_refuted : exists a b : list Z, a <> b /\ Forall scalar a /\ Forall scalar b /\ py_name a = py_name b /\
  match pyrun Release ex_snap ex_env (ffi_new, py_new) [PySchema [100] a 1 0 0; PyWriter [102] 0; PyWrite 1 [100] b 5 7; PyClose 1] with
  | CVal (f, _, rets) => rets = [PyObj 0; PyObj 1; PyNone; PyNone]
  | _ => False
  end.
Proof.
  exists [97], [97; 0; 98]. split; [discriminate|]. split; [repeat constructor; unfold scalar; lia|]. split; [repeat constructor; unfold scalar; lia|].
  split; [reflexivity|]. vm_compute. reflexivity.
Qed.
Print Assumptions C46_distinct_names_refuted.
(** Names without NUL characters stay apart. *)
Theorem C46_distinct_names : forall a b, Forall scalar a -> Forall scalar b -> ~ In 0 a -> ~ In 0 b -> py_name a = py_name b -> a = b.
Proof. exact py_name_inj. Qed.
Print Assumptions C46_distinct_names.
Example C46_distinct_names_case : py_name [0x20AC; 0x61] = [0xE2; 0x82; 0xAC; 0x61] /\ py_name [0x20AC; 0x62] <> py_name [0x20AC; 0x61].
Proof. vm_compute. split; [reflexivity|discriminate]. Qed.
