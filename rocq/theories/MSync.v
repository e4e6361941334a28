(** sync/sync_sender.rs: the sender side of the synchronisation protocol. The thrift client
    (sync/sync.rs) is seen as a function from a request to an answer; an answer is a status code or
    an error (transport error, protocol error, exception). *)
From Verif Require Export MMlog.

(** Calls of the client, sync/sync_sender.rs:118, 133-134, 138, 144, 149, 176 *)
Inductive request :=
  | RqCheck (addr uuid : str) (interval : Z) (version : str)
  | RqStartSync
  | RqInit (sg : str)
  | RqInitSyncData (name : str)
  | RqSyncData (data : list byte)
  | RqCheckDataDigest (digest : str)
  | RqEndSync.

(** Their results, sync/sync_sender.rs:120-123, 149-159 *)
Inductive reply := RpErr | RpStatus (code : Z).

(** A server: answers a request, given all earlier requests. Stands for the other end of sync/sync_sender.rs:87-95. *)
Definition server := list request -> request -> reply.

(** [SyncSenderError] sync/sync_sender.rs:33-39 *)
Inductive sync_error := SNoLocalIpFound | SUnableGenerateUuid | SConnectionError | SHandshakeError.

(** Result of a run: panic, [Err] or [Ok]. sync/sync_sender.rs:132. *)
Inductive sync_result := SPanic | SErr (e : sync_error) | SOk.

(** "0.13", line 101; [PARTITION_INTERVAL] line 20 of sync/sync_sender.rs *)
Definition sync_version : str := [48; 46; 49; 51].
(** sync/sync_sender.rs:20 *)
Definition partition_interval : Z := 604800.

(** [_connect] sync/sync_sender.rs:110-124 *)
Definition sync_connect (srv : server) (addr uuid : str) (tr : list request) : list request * sync_result :=
  let rq := RqCheck addr uuid partition_interval sync_version in
  (tr ++ [rq], match srv tr rq with RpErr => SErr SHandshakeError | RpStatus _ => SOk end).

(** "mlog.bin", line 138; "0_0_", line 161 of sync/sync_sender.rs *)
Definition mlog_name : str := [109; 108; 111; 103; 46; 98; 105; 110].
(** sync/sync_sender.rs:161 *)
Definition data_prefix : str := [48; 95; 48; 95].

(** [sync] sync/sync_sender.rs:127-178; [fs] is the file system seen by [fs::read]; [write_mlog] never
    fails because its target is a [Vec]. *)
Definition sync (sha : list byte -> list byte) (fs : str -> option (list byte)) (srv : server)
    (filename sg : str) (s : schema) (tr : list request) : list request * sync_result :=
  let call (tr : list request) (rq : request) := (tr ++ [rq], srv tr rq) in
  match call tr RqStartSync with
  | (tr, RpErr) => (tr, SPanic)                                       (* 133 *)
  | (tr, RpStatus _) =>
  match call tr (RqInit sg) with
  | (tr, RpErr) => (tr, SErr SConnectionError)                        (* 134 *)
  | (tr, RpStatus _) =>
  match call tr (RqInitSyncData mlog_name) with
  | (tr, RpErr) => (tr, SErr SConnectionError)                        (* 137-138 *)
  | (tr, RpStatus _) =>
  let mlog := write_mlog sg s in
  match call tr (RqSyncData mlog) with
  | (tr, RpErr) => (tr, SErr SConnectionError)                        (* 144 *)
  | (tr, RpStatus _) =>
  match call tr (RqCheckDataDigest (calculate_digest sha mlog)) with
  | (tr, RpErr) => (tr, SPanic)                                       (* 157 *)
  | (tr, RpStatus code) =>
  if code =? -1 then (tr, SPanic)                                     (* 152-154 *)
  else
  let name := data_prefix ++ filename in
  match call tr (RqInitSyncData name) with
  | (tr, RpErr) => (tr, SPanic)                                       (* 163 *)
  | (tr, RpStatus _) =>
  match fs name with
  | None => (tr, SPanic)                                              (* 164 *)
  | Some bytes =>
  match call tr (RqSyncData bytes) with
  | (tr, RpErr) => (tr, SPanic)                                       (* 165 *)
  | (tr, RpStatus _) =>
  let '(tr, _) := call tr (RqCheckDataDigest (calculate_digest sha bytes)) in   (* 168-175 *)
  match call tr RqEndSync with
  | (tr, RpErr) => (tr, SErr SConnectionError)                        (* 176 *)
  | (tr, RpStatus _) => (tr, SOk)
  end end end end end end end end end.

(** [get_or_generate_uuid] sync/sync_sender.rs:218-240: [lock] is the content of [uuid.lock] if it can
    be read, [fresh] the generated identifier with dashes, [can_write] whether the file can be
    written. Result: the identifier or an error, and the new content of the lock file. Here [replace('-', "")], 227. *)
Definition strip_dashes (s : str) : str := filter (fun c => negb (c =? 45)) s.
(** [get_or_generate_uuid] sync/sync_sender.rs:218-240 *)
Definition get_or_generate_uuid (lock : option str) (fresh : str) (can_write : bool)
  : (str + sync_error) * option str :=
  match lock with
  | Some content => (inl content, lock)
  | None =>
      let uuid := strip_dashes fresh in
      if can_write then (inl uuid, Some uuid) else (inr SUnableGenerateUuid, lock)
  end.

(** The part of the environment [SyncSender::new] looks at: the addresses of the network interfaces
    ([datalink::interfaces]), the lock file, the next random identifier, whether the lock file can be
    written and whether the connection can be opened and split. sync/sync_sender.rs:65-90. *)
Record sync_env := mkSyncEnv { se_interfaces : list (list str); se_lock : option str; se_fresh : str;
  se_can_write : bool; se_opens : bool }.

(** "127.0.0.1", sync/sync_sender.rs:70 *)
Definition loopback : str := [49; 50; 55; 46; 48; 46; 48; 46; 49].

(** [SyncSender::new] sync/sync_sender.rs:54-108. Result: the local address and the identifier of the
    new sender or an error; the new content of the lock file; the requests sent. *)
Definition sender_new (env : sync_env) (srv : server) (local uuid : option str)
  : (str * str + sync_error) * option str * list request :=
  let addr := match local with
    | Some la => Some la
    | None => match se_interfaces env with
              | [] => None
              | ips :: _ => Some (match ips with [] => loopback | ip :: _ => ip end)
              end
    end in
  match addr with
  | None => (inr SNoLocalIpFound, se_lock env, [])                      (* 72-74 *)
  | Some addr =>
  let '(u, lock) := match uuid with
    | Some u => (inl u, se_lock env)
    | None => get_or_generate_uuid (se_lock env) (se_fresh env) (se_can_write env)
    end in
  match u with
  | inr e => (inr e, lock, [])                                          (* 81 *)
  | inl u =>
  if negb (se_opens env) then (inr SConnectionError, lock, [])          (* 86-88 *)
  else
  let '(tr, res) := sync_connect srv addr u [] in
  match res with
  | SErr e => (inr e, lock, tr)                                         (* 104 *)
  | _ => (inl (addr, u), lock, tr)
  end end end.
