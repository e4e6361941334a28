(** sync/_main.rs: the stand-alone synchronisation program. Printing and the final sleep are left out. The
    client (sync/sync.rs) is again a function from a request to an answer. *)
From Verif Require Export MSync.

(** A request of the program: the handshake, whose address may be absent, or one of the others.
    sync/_main.rs:81-83, 93-144. *)
Inductive mrequest :=
  | MCheck (addr : option str) (uuid : str) (interval : Z) (version : str)
  | MSend (rq : request).
(** The other end of the connection of sync/_main.rs:35-43 *)
Definition mserver := list mrequest -> mrequest -> reply.

(** What the program looks at: whether the connection can be opened and split (36-38), the addresses of the
    network interfaces (50), the lock file (58), the next random identifier (65), whether the lock file can
    be written (67) and the file system (132). Lines of sync/_main.rs. *)
Record main_env := mkMainEnv { me_opens : bool; me_interfaces : list (list str); me_lock : option str;
  me_fresh : str; me_can_write : bool; me_fs : str -> option (list byte) }.

(** Result of [run], sync/_main.rs:29 *)
Inductive run_result := RPanic | RErr | ROk.

(** "root.sg", "root.sg.d1.s1", sync/_main.rs:174,178 *)
Definition main_group : str := [114; 111; 111; 116; 46; 115; 103].
(** sync/_main.rs:178 *)
Definition main_series : str := [114; 111; 111; 116; 46; 115; 103; 46; 100; 49; 46; 115; 49].
(** "0_0_1654074550252-1-0-0.tsfile", sync/_main.rs:127; "../1654074550252-1-0-0.tsfile", line 132 *)
Definition main_file : str :=
  [49; 54; 53; 52; 48; 55; 52; 53; 53; 48; 50; 53; 50; 45; 49; 45; 48; 45; 48; 46; 116; 115; 102; 105; 108; 101].
(** sync/_main.rs:127 *)
Definition main_name : str := [48; 95; 48; 95] ++ main_file.
(** sync/_main.rs:132 *)
Definition main_path : str := [46; 46; 47] ++ main_file.

(** [write_mlog] sync/_main.rs:169-186; it never fails because its target is a [Vec]. *)
Definition main_mlog : list byte :=
  let m := mlog_set_storage_group_plan main_group [] in
  let '(m, out, _) := mlog_flush m (sink_new healthy) in
  let m := mlog_create_plan main_series INT32 PLAIN UNCOMPRESSED m in
  let '(_, out, _) := mlog_flush m out in
  sk_data out.

(** [run] sync/_main.rs:29-150. Result: the requests sent, the new content of the lock file, the outcome.
    [calculate_digest] 152-161 is that of sync/sync_sender.rs:181-190. *)
Definition main_run (sha : list byte -> list byte) (env : main_env) (srv : mserver)
  : list mrequest * option str * run_result :=
  let call (tr : list mrequest) (rq : mrequest) := (tr ++ [rq], srv tr rq) in
  if negb (me_opens env) then ([], me_lock env, RErr)                    (* 36-38 *)
  else
  let ip := match me_interfaces env with
    | [] => None
    | ips :: _ => Some (match ips with [] => loopback | ip :: _ => ip end)
    end in                                                                (* 50-55 *)
  match (match me_lock env with
    | Some content => Some content
    | None => if me_can_write env then Some (strip_dashes (me_fresh env)) else None
    end) with
  | None => ([], None, RPanic)                                            (* 71-73 *)
  | Some uuid =>
  let lock := Some uuid in
  match call [] (MCheck ip uuid partition_interval sync_version) with
  | (tr, RpErr) => (tr, lock, RPanic)                                     (* 89-91 *)
  | (tr, RpStatus _) =>
  match call tr (MSend RqStartSync) with
  | (tr, RpErr) => (tr, lock, RPanic)                                     (* 93 *)
  | (tr, RpStatus _) =>
  match call tr (MSend (RqInit main_group)) with
  | (tr, RpErr) => (tr, lock, RPanic)                                     (* 94 *)
  | (tr, RpStatus _) =>
  match call tr (MSend (RqInitSyncData mlog_name)) with
  | (tr, RpErr) => (tr, lock, RErr)                                       (* 97 *)
  | (tr, RpStatus _) =>
  match call tr (MSend (RqSyncData main_mlog)) with
  | (tr, RpErr) => (tr, lock, RErr)                                       (* 102 *)
  | (tr, RpStatus _) =>
  match call tr (MSend (RqCheckDataDigest (calculate_digest sha main_mlog))) with
  | (tr, RpErr) => (tr, lock, RPanic)                                     (* 114-116 *)
  | (tr, RpStatus code) =>
  if code =? -1 then (tr, lock, RPanic)                                   (* 110-112 *)
  else
  match call tr (MSend (RqInitSyncData main_name)) with
  | (tr, RpErr) => (tr, lock, RPanic)                                     (* 129-131 *)
  | (tr, RpStatus _) =>
  match me_fs env main_path with
  | None => (tr, lock, RPanic)                                            (* 132 *)
  | Some bytes =>
  match call tr (MSend (RqSyncData bytes)) with
  | (tr, RpErr) => (tr, lock, RPanic)                                     (* 133 *)
  | (tr, RpStatus _) =>
  let '(tr, _) := call tr (MSend (RqCheckDataDigest (calculate_digest sha bytes))) in   (* 136-143 *)
  match call tr (MSend RqEndSync) with
  | (tr, RpErr) => (tr, lock, RErr)                                       (* 144 *)
  | (tr, RpStatus _) => (tr, lock, ROk)
  end end end end end end end end end end end.

(** [main] sync/_main.rs:19-27: the exit status of the process; a panic of the main thread gives 101. *)
Definition main_exit (r : run_result) : Z := match r with ROk => 0 | RErr => 1 | RPanic => 101 end.
