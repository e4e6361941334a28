(** The program at the end of tsfile-writer-c/rust.py (lines 105-112). Time measurement and printing are not
    modelled. Line numbers are those of that file. *)
From Verif Require Export MPy.

(** A statement: the new state and whether an exception is on its way. Of the block at lines 107-110. *)
Definition pystmt := ffi * py -> cresult (ffi * py * bool).
(** Did the call raise an exception? Lines 55, 75, 86 raise them. *)
Definition is_exc (r : pyret) : bool := match r with PyExc => true | _ => false end.
(** A call whose result is dropped. Line 110. *)
Definition py_call (p : profile) (snap : compressor) (env : ffi_env) (o : pyop) : pystmt :=
  fun fs => let! r := pystep p snap env fs o in CVal (fst r, is_exc (snd r)).
(** [with make as x: body] (Python), with [__enter__] and [__exit__] of lines 40-44 and 63-67: [__exit__] runs
    however the body ends and lets exceptions pass. *)
Definition py_with (p : profile) (snap : compressor) (env : ffi_env) (make : pyop) (leave : Z -> pyop) (body : Z -> pystmt) : pystmt :=
  fun fs =>
    let! r := pystep p snap env fs make in
    match snd r with
    | PyObj x =>
        let! b := body x (fst r) in
        let! e := py_call p snap env (leave x) (fst b) in
        CVal (fst e, snd b || snd e)
    | _ => CVal (fst r, true)
    end.
(** [for i in range(from, from + n): body] (Python), line 109 *)
Fixpoint py_for (n : nat) (from : Z) (body : Z -> pystmt) : pystmt :=
  fun fs =>
    match n with
    | O => CVal (fs, false)
    | S n' => let! r := body from fs in if snd r then CVal r else py_for n' (from + 1) body (fst r)
    end.

(** "d1", "s1", "test.tsfile": the first of them, lines 107, 110 *)
Definition pm_device : list Z := [100; 49].
(** "s1", lines 107, 110 *)
Definition pm_name : list Z := [115; 49].
(** "test.tsfile", line 108 *)
Definition pm_file : list Z := [116; 101; 115; 116; 46; 116; 115; 102; 105; 108; 101].
(** Lines 107-110; [n] is 10000001 there; the enumerations of lines 89-102 are integers *)
Definition py_main (p : profile) (snap : compressor) (env : ffi_env) (n : Z) : cresult (ffi * py * bool) :=
  py_with p snap env (PySchema pm_device pm_name 1 0 0) PyFree (fun schema =>
    py_with p snap env (PyWriter pm_file schema) PyClose (fun file_writer =>
      py_for (Z.to_nat n) 0 (fun i => py_call p snap env (PyWrite file_writer pm_device pm_name i i))))
  (ffi_new, py_new).
