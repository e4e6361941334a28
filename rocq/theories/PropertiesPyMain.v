(** C67: the program at the end of tsfile-writer-c/rust.py. *)
From Verif Require Import PPyMain PropertiesWriter PropertiesFfi.
Open Scope list_scope. Open Scope Z_scope.

(** With a file that can be made on a healthy disk: in either build the program ends without an exception, the one file, the same
    in both builds, holds the numbers counted through, nothing is left behind in the library. *)
Theorem C67_file : forall snap decomp env n, good_snap snap decomp -> e_parent env pm_file = true -> e_create env pm_file = true -> e_sched env pm_file = healthy ->
  good_order (e_order env) -> 0 <= n -> size_bound py_sc n < 2 ^ 32 ->
  exists file, (forall p, exists f st h, py_main p snap env n = CVal (f, st, false) /\ f_files f = [(h, (pm_file, file))] /\ no_boxes f) /\
    zlen file <= size_bound py_sc n /\ holds decomp file (python_points pm_device pm_name n).
Proof. exact main_file. Qed.
Print Assumptions C67_file.
(** ... in particular with the number in the source *)
Theorem C67_as_shipped : forall snap decomp env, good_snap snap decomp -> e_parent env pm_file = true -> e_create env pm_file = true -> e_sched env pm_file = healthy ->
  good_order (e_order env) ->
  exists file, (forall p, exists f st h, py_main p snap env 10000001 = CVal (f, st, false) /\ f_files f = [(h, (pm_file, file))] /\ no_boxes f) /\
    zlen file <= 240000000 + 2000 /\ holds decomp file (python_points pm_device pm_name 10000001).
Proof. exact main_shipped. Qed.
Print Assumptions C67_as_shipped.
(** On any disk, in either build: nothing is undefined; if the process is not ended by the library, the writer was
    closed, everything was released, and an exception ended the program exactly if a number did not fit an [int]. *)
Theorem C67_any_disk : forall p snap env n, 0 <= n -> py_main p snap env n <> CUndef /\
  forall f st e, py_main p snap env n = CVal (f, st, e) -> (e = true <-> 2 ^ 31 < n) /\ no_boxes f /\ exists h file, f_files f = [(h, (pm_file, file))].
Proof. exact (fun p snap env n H => conj (main_defined p snap env n H) (fun f st e => main_status p snap env n f st e H)). Qed.
Print Assumptions C67_any_disk.
(** If the file cannot be made the process is ended, not by an exception. *)
Theorem C67_no_file : forall p snap env n, 0 <= n ->
  e_parent env pm_file = false \/ e_create env pm_file = false \/ snd (writer_new py_sc (sink_new (e_sched env pm_file))) = None ->
  py_main p snap env n = CAbort.
Proof. exact main_no_file. Qed.
Print Assumptions C67_no_file.

Definition pm_env (sched : nat -> fault) : ffi_env := mkEnv (fun _ => true) (fun _ => true) (fun _ => sched) (fun l => l).
Example C67_case : size_bound py_sc 3 < 2 ^ 32 /\ good_order (e_order (pm_env healthy)) /\
  python_points pm_device pm_name 2 = [mkPoint pm_device pm_name 0 (VInt 0); mkPoint pm_device pm_name 1 (VInt 1)] /\
  match py_main Release ex_snap (pm_env healthy) 3 with
  | CVal (f, _, false) => match f_files f with
      | [(2, (n, file))] => n = pm_file /\ option_map (fun cs => SReader.series_in cs pm_device pm_name) (read_file ex_snap file) = Some [(0, 0); (1, 1); (2, 2)]
      | _ => False
      end
  | _ => False
  end /\
  snd (writer_new py_sc (sink_new (e_sched (pm_env (fun _ => FFail)) pm_file))) = None.
Proof. split; [vm_compute; reflexivity|]. split; [intros l; apply Permutation.Permutation_refl|]. vm_compute. repeat split; reflexivity. Qed.
(** "A program that ends without an exception has stored its points" is false: errors of the disk during [close] are
    dropped. *)
Theorem C67_success_refuted : exists env, match py_main Release ex_snap env 1 with
  | CVal (f, _, false) => match f_files f with [(_, (n, file))] => n = pm_file /\ read_file ex_snap file = None | _ => False end
  | _ => False
  end.
Proof.
  exists (pm_env (fun k => if (k <=? 2)%nat then FFull else FFail)). vm_compute. split; reflexivity.
Qed.
Print Assumptions C67_success_refuted.
