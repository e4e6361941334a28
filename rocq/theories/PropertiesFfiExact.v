(** Property C64: what sessions through the C interface (tsfile-writer-c/src/lib.rs) and the Python classes
    (tsfile-writer-c/rust.py) write, byte by byte, and when a call through the C interface returns. *)
From Verif Require Import PFfiExact PropertiesWriter PropertiesFfi.
Open Scope list_scope. Open Scope Z_scope.

(** A pointer from [file_writer_new] stands for the file and the series that were asked for. *)
Theorem C64_request : forall p snap env calls st rets h fw, frun p snap env ffi_new calls = CVal (st, rets) -> f_writers st h = Some fw ->
  exists q sc out w0, k_writers (asked calls rets) h = Some (fw_file fw, q) /\ stands_for q sc /\
    writer_new sc (sink_new (e_sched env (fw_file fw))) = (out, Some w0) /\
    run p snap w0 (writes h calls) = Ret (fw_writer fw, map (fun _ => AOk) (writes h calls)).
Proof. exact ffi_request. Qed.
Print Assumptions C64_request.
(** The file of a closed writer. *)
Theorem C64_bytes : forall p snap decomp env calls st rets h n data, good_snap snap decomp ->
  frun p snap env ffi_new calls = CVal (st, rets) -> In (h, (n, data)) (f_files st) ->
  e_sched env n = healthy -> good_order (e_order env) -> Forall SFfi.call_ok calls -> few_points (SFfi.written h no_bufs calls) -> zlen data < 2 ^ 32 ->
  (forall q, k_writers (asked calls rets) h = Some (n, q) -> short_names q) ->
  exists q sc ps stages, k_writers (asked calls rets) h = Some (n, q) /\ stands_for q sc /\
    written_any snap sc (writes h calls ++ [OpClose (e_order env)]) ps stages /\ data = the_file snap ps.
Proof. exact ffi_bytes. Qed.
Print Assumptions C64_bytes.
(** When a write returns, in either build; otherwise the process ends. *)
Theorem C64_write : forall p snap decomp env calls st rets h fw da ma t n, good_snap snap decomp ->
  frun p snap env ffi_new calls = CVal (st, rets) -> f_writers st h = Some fw -> h <> 0 -> da <> 0 -> ma <> 0 ->
  e_sched env (fw_file fw) = healthy -> Forall SFfi.call_ok (calls ++ [FWriteInt32 h da ma t n]) -> few_points (SFfi.written h no_bufs (calls ++ [FWriteInt32 h da ma t n])) ->
  (forall q, k_writers (asked calls rets) h = Some (fw_file fw, q) -> short_names q) ->
  fstep p snap env st (FWriteInt32 h da ma t n) <> CUndef ->
  exists q sc, k_writers (asked calls rets) h = Some (fw_file fw, q) /\ stands_for q sc /\ all_fine p snap sc (writes h calls) /\
    ((exists st' r, fstep p snap env st (FWriteInt32 h da ma t n) = CVal (st', r)) <->
      is_text (name_at (f_bufs st) da) /\ is_text (name_at (f_bufs st) ma) /\
      all_fine p snap sc (writes h calls ++ [OpWrite (name_at (f_bufs st) da) (name_at (f_bufs st) ma) t (VInt n)])).
Proof. exact write_returns. Qed.
Print Assumptions C64_write.
(** In a release build that is: the names are those of the schema, its type is INT32, the timestamp is greater than
    the last one since the last flush. *)
Theorem C64_write_release : forall snap q sc ops d m t n, stands_for q sc -> all_fine Release snap sc ops ->
  (all_fine Release snap sc (ops ++ [OpWrite d m t (VInt n)]) <->
    d = rq_device q /\ m = rq_name q /\ rq_type q = 1 /\ last_time (ss_hist (session_after snap sc ops)) d m < t).
Proof. exact release_write. Qed.
Print Assumptions C64_write_release.
(** When [file_writer_close] returns. *)
Theorem C64_close : forall p snap decomp env calls st rets h fw, good_snap snap decomp ->
  frun p snap env ffi_new calls = CVal (st, rets) -> f_writers st h = Some fw -> h <> 0 ->
  e_sched env (fw_file fw) = healthy -> Forall SFfi.call_ok calls -> few_points (SFfi.written h no_bufs calls) ->
  (forall q, k_writers (asked calls rets) h = Some (fw_file fw, q) -> short_names q) ->
  fstep p snap env st (FClose h) <> CUndef ->
  exists q sc, k_writers (asked calls rets) h = Some (fw_file fw, q) /\ stands_for q sc /\ all_fine p snap sc (writes h calls) /\
    ((exists st' r, fstep p snap env st (FClose h) = CVal (st', r)) <-> texts_fine sc p (session_after snap sc (writes h calls)) = true).
Proof. exact close_returns. Qed.
Print Assumptions C64_close.
(** The file of a closed Python writer object. *)
Theorem C64_python : forall p snap decomp env ops f st rets d m ty en co s n w, good_snap snap decomp ->
  pyrun p snap env (ffi_new, py_new) ops = CVal (f, st, rets) -> let tr := combine ops rets in
  In (PySchema d m ty en co, PyObj s) tr -> In (PyWriter n s, PyObj w) tr -> In (PyClose w, PyNone) tr ->
  e_sched env (py_name n) = healthy -> good_order (e_order env) -> Forall pyop_ok ops -> few_points (py_points w tr) -> short_names (py_request d m ty en co) ->
  exists h data, In (h, (py_name n, data)) (f_files f) /\ (zlen data < 2 ^ 32 ->
    exists sc ps stages, stands_for (py_request d m ty en co) sc /\
      written_any snap sc (map op_of (py_points w tr) ++ [OpClose (e_order env)]) ps stages /\ data = the_file snap ps).
Proof. exact py_exact. Qed.
Print Assumptions C64_python.

(** ** The session of C45 *)
Definition fx_sc : schema := [([100], [([97], mkMS INT32 PLAIN UNCOMPRESSED)])].
Definition fx_q : request := mkRequest [100] [97] 1 0 0.
Definition fx_data : list Z := Eval vm_compute in match ex_ffi (ex_calls ++ [FClose 2]) with CVal (st, _) => match f_files st with [(_, (_, b))] => b | _ => [] end | _ => [] end.
Definition fx_ps : list piece := Eval vm_compute in pieces fx_sc [[mkPoint [100] [97] 5 (VInt 7); mkPoint [100] [97] 6 (VInt (-1))]].
Example C64_case : k_writers (asked (ex_calls ++ [FClose 2]) [0; 0; 1; 0; 2; 0; 2; 2; 0]) 2 = Some ([102], fx_q) /\ stands_for fx_q fx_sc /\ short_names fx_q /\
  few_points (SFfi.written 2 no_bufs (ex_calls ++ [FClose 2])) /\ writes 2 (ex_calls ++ [FClose 2]) = [OpWrite [100] [97] 5 (VInt 7); OpWrite [100] [97] 6 (VInt (-1))] /\
  match ex_ffi (ex_calls ++ [FClose 2]) with CVal (st, rets) => rets = [0; 0; 1; 0; 2; 0; 2; 2; 0] /\ f_files st = [(2, ([102], fx_data))] | _ => False end /\
  fx_data = the_file ex_snap (fx_ps ++ [Tail (skipn (length (the_file ex_snap fx_ps)) fx_data)]).
Proof.
  split; [reflexivity|]. split; [exists INT32, PLAIN, UNCOMPRESSED; repeat split; left; reflexivity|]. split; [reflexivity|]. split; [reflexivity|]. split; [reflexivity|].
  split; [vm_compute; auto|vm_compute; reflexivity].
Qed.
(** A third write returns if its timestamp is 7, not if it is 6. *)
Example C64_write_case : all_fine Release ex_snap fx_sc (writes 2 ex_calls) /\
  all_fine Release ex_snap fx_sc (writes 2 ex_calls ++ [OpWrite [100] [97] 7 (VInt 0)]) /\
  ~ all_fine Release ex_snap fx_sc (writes 2 ex_calls ++ [OpWrite [100] [97] 6 (VInt 0)]) /\
  texts_fine fx_sc Release (session_after ex_snap fx_sc (writes 2 ex_calls)) = true /\
  texts_fine fx_sc Debug (session_after ex_snap fx_sc (writes 2 ex_calls)) = true.
Proof. split; [reflexivity|]. split; [reflexivity|]. split; [intros H; vm_compute in H; discriminate H|]. split; vm_compute; reflexivity. Qed.
(** A Python program may pass 257 for the type INT32: one byte of the number arrives. *)
Example C64_python_case : stands_for (py_request [100] [97] 257 0 256) fx_sc /\
  match pyrun Release ex_snap ex_env (ffi_new, py_new) [PySchema [100] [97] 257 0 256; PyWriter [102] 0; PyWrite 1 [100] [97] 5 7; PyWrite 1 [100] [97] 6 (-1); PyClose 1] with
  | CVal (f, _, rets) => rets = [PyObj 0; PyObj 1; PyNone; PyNone; PyNone] /\ f_files f = [(2, ([102], fx_data))]
  | _ => False
  end.
Proof. split; [exists INT32, PLAIN, UNCOMPRESSED; repeat split; left; reflexivity|]. vm_compute. auto. Qed.
