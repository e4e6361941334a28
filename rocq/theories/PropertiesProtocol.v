(** C44: the sessions of the sync sender. *)
From Verif Require Import PSync.

(** C44. The requests follow the script, one by one, up to the first that is not answered; the answer to
    the digest of the data file plays no part. *)
Theorem C44_requests : forall sha fs srv name sg s tr rqs res, sync sha fs srv name sg s tr = (rqs, res) ->
  exists data k, rqs = tr ++ firstn k (script (calculate_digest sha) sg (write_mlog sg s) name data) /\ (k <= 9)%nat /\
    (fs ([48; 95; 48; 95] ++ name) = Some data \/ (k <= 6)%nat) /\
    (forall i, (S i < k)%nat -> i <> 7%nat ->
      is_status (answer_at srv tr (script (calculate_digest sha) sg (write_mlog sg s) name data) i) = true).
Proof. exact sync_prefix. Qed.
Print Assumptions C44_requests.
(** Success: the data file can be read, every request but the data digest is answered, and the digest of
    the schema log is not refused. *)
Theorem C44_ok_iff : forall sha fs srv name sg s tr, snd (sync sha fs srv name sg s tr) = SOk <->
  exists data, fs ([48; 95; 48; 95] ++ name) = Some data /\
    (forall i, (i <= 8)%nat -> i <> 7%nat ->
      is_status (answer_at srv tr (script (calculate_digest sha) sg (write_mlog sg s) name data) i) = true) /\
    answer_at srv tr (script (calculate_digest sha) sg (write_mlog sg s) name data) 4 <> RpStatus (-1).
Proof. exact ok_iff. Qed.
Print Assumptions C44_ok_iff.
(** An error value: one of the requests 1, 2, 3 or 8 fails; every other failure is a panic. *)
Theorem C44_err_iff : forall sha fs srv name sg s tr e, snd (sync sha fs srv name sg s tr) = SErr e <->
  let at_ data := answer_at srv tr (script (calculate_digest sha) sg (write_mlog sg s) name data) in
  e = SConnectionError /\ (forall data, is_status (at_ data 0%nat) = true /\
    exists i, (1 <= i <= 3)%nat /\ at_ data i = RpErr) \/
  e = SConnectionError /\ exists data, fs ([48; 95; 48; 95] ++ name) = Some data /\
    (forall i, (i <= 6)%nat -> is_status (at_ data i) = true) /\ at_ data 4%nat <> RpStatus (-1) /\ at_ data 8%nat = RpErr.
Proof. exact err_iff. Qed.
Print Assumptions C44_err_iff.

(** With a receiver that keeps what passes the digest check. The channel hands on the schema log intact:
    the session succeeds, and the receiver holds it and, if its digest is right, the data file. *)
Theorem C44_delivered : forall sha ch fs name sg s addr uuid data,
  let dig := calculate_digest sha in let srv := receiver_server dig ch in
  let start := fst (sync_connect srv addr uuid []) in
  dig (ch (write_mlog sg s)) = dig (write_mlog sg s) -> fs ([48; 95; 48; 95] ++ name) = Some data ->
  sync sha fs srv name sg s start = (start ++ script dig sg (write_mlog sg s) name data, SOk) /\
  receive_all dig ch (start ++ script dig sg (write_mlog sg s) name data) =
    mkRecv sg ([48; 95; 48; 95] ++ name) []
      (([109; 108; 111; 103; 46; 98; 105; 110], ch (write_mlog sg s)) ::
       (if list_eq_dec Z.eq_dec (dig (ch data)) (dig data) then [([48; 95; 48; 95] ++ name, ch data)] else [])) true.
Proof. exact delivered. Qed.
Print Assumptions C44_delivered.
(** A faithful channel: both files arrive, and the schema log lists the series of the schema. *)
Theorem C44_faithful : forall sha fs name sg s addr uuid data,
  let dig := calculate_digest sha in let srv := receiver_server dig (fun l => l) in
  let start := fst (sync_connect srv addr uuid []) in
  fs ([48; 95; 48; 95] ++ name) = Some data ->
  bytes sg -> Forall (fun dg => bytes (fst dg) /\ Forall (fun ms => bytes (fst ms)) (snd dg)) s -> zlen (write_mlog sg s) < 2 ^ 31 ->
  exists rqs log, sync sha fs srv name sg s start = (rqs, SOk) /\ mlog_read log = Some (expected_plans sg s) /\
    receive_all dig (fun l => l) rqs = mkRecv sg ([48; 95; 48; 95] ++ name) []
      [([109; 108; 111; 103; 46; 98; 105; 110], log); ([48; 95; 48; 95] ++ name, data)] true.
Proof.
  intros sha fs name sg s addr uuid data dig srv start F Bs Bd L.
  destruct (delivered sha (fun l => l) fs name sg s addr uuid data eq_refl F) as [S R].
  eexists _, (write_mlog sg s). split; [exact S|]. split; [exact (mlog_roundtrip sg s Bs Bd L)|].
  etransitivity; [exact R|]. destruct (list_eq_dec Z.eq_dec _ _) as [_|E]; [reflexivity|]. exfalso. apply E. reflexivity.
Qed.
Print Assumptions C44_faithful.
(** A schema log damaged on the way: the sender panics and sends nothing of the data file. *)
Theorem C44_damaged_log : forall sha ch fs name sg s addr uuid,
  let dig := calculate_digest sha in let srv := receiver_server dig ch in
  let start := fst (sync_connect srv addr uuid []) in
  dig (ch (write_mlog sg s)) <> dig (write_mlog sg s) ->
  sync sha fs srv name sg s start = (start ++ firstn 5 (script dig sg (write_mlog sg s) name []), SPanic).
Proof. exact damaged_log. Qed.
Print Assumptions C44_damaged_log.

(** "Success means that the receiver holds the data file" is false: a damaged data file is refused by the
    receiver, and the sender reports success. *)
Definition ex_sha (l : list Z) : list Z := [fold_left Z.add l 0 mod 256].
Definition ex_schema : schema := [([100], [([115], mkMS INT32 PLAIN UNCOMPRESSED)])].
Definition ex_channel (l : list Z) : list Z := if zlen l =? 2 then [0; 0] else l.
Definition ex_fs (n : str) : option (list Z) := if list_eq_dec Z.eq_dec n [48; 95; 48; 95; 102] then Some [7; 8] else None.
Theorem C44_ok_means_stored_refuted : exists sha ch fs name sg s addr uuid data rqs,
  let dig := calculate_digest sha in let srv := receiver_server dig ch in
  let start := fst (sync_connect srv addr uuid []) in
  fs ([48; 95; 48; 95] ++ name) = Some data /\ sync sha fs srv name sg s start = (rqs, SOk) /\
  rc_done (receive_all dig ch rqs) = true /\
  ~ In ([48; 95; 48; 95] ++ name) (map fst (rc_files (receive_all dig ch rqs))).
Proof.
  exists ex_sha, ex_channel, ex_fs, [102], [103], ex_schema, [97], [117], [7; 8]. eexists. cbv zeta. split; [reflexivity|].
  split; [vm_compute; reflexivity|]. split; [vm_compute; reflexivity|]. vm_compute. intros [H|[]]. discriminate H.
Qed.
Print Assumptions C44_ok_means_stored_refuted.

(** Starting a sender: which address and which identifier it presents, and when it succeeds. *)
Theorem C44_new_ok_iff : forall env srv local uuid a u lock rqs, sender_new env srv local uuid = (inl (a, u), lock, rqs) <->
  (local = Some a \/ local = None /\ exists ips rest, se_interfaces env = ips :: rest /\
     a = hd [49; 50; 55; 46; 48; 46; 48; 46; 49] ips) /\
  (uuid = Some u /\ lock = se_lock env \/ uuid = None /\ get_or_generate_uuid (se_lock env) (se_fresh env) (se_can_write env) = (inl u, lock)) /\
  se_opens env = true /\ rqs = [RqCheck a u 604800 [48; 46; 49; 51]] /\ (exists c, srv [] (RqCheck a u 604800 [48; 46; 49; 51]) = RpStatus c).
Proof. exact new_ok_iff. Qed.
Print Assumptions C44_new_ok_iff.
(** The constructor, all outcomes: which error, what is left in the lock file, what was sent. *)
Theorem C44_new_iff : forall env srv local uuid r lock rqs, sender_new env srv local uuid = (r, lock, rqs) <->
  let check a u := RqCheck a u 604800 [48; 46; 49; 51] in
  r = inr SNoLocalIpFound /\ local = None /\ se_interfaces env = [] /\ lock = se_lock env /\ rqs = [] \/
  (exists a, own_address env local a /\
    (r = inr SUnableGenerateUuid /\ uuid = None /\ se_lock env = None /\ se_can_write env = false /\ lock = None /\ rqs = [] \/
     exists u, own_uuid env uuid u lock /\
      (r = inr SConnectionError /\ se_opens env = false /\ rqs = [] \/
       se_opens env = true /\ rqs = [check a u] /\
         (r = inr SHandshakeError /\ srv [] (check a u) = RpErr \/ r = inl (a, u) /\ exists c, srv [] (check a u) = RpStatus c)))).
Proof. exact new_iff. Qed.
Print Assumptions C44_new_iff.
Example C44_new_case : let env i l w o := mkSyncEnv i l [97; 45; 98] w o in let srv r := fun (_ : list request) (_ : request) => r in
  sender_new (env [] None true true) (srv RpErr) None None = (inr SNoLocalIpFound, None, []) /\
  sender_new (env [[]] None false true) (srv RpErr) None None = (inr SUnableGenerateUuid, None, []) /\
  sender_new (env [[]] None true false) (srv RpErr) None None = (inr SConnectionError, Some [97; 98], []) /\
  sender_new (env [[[49]]] (Some [99]) true true) (srv RpErr) None None = (inr SHandshakeError, Some [99], [RqCheck [49] [99] 604800 [48; 46; 49; 51]]) /\
  sender_new (env [] (Some [99]) true true) (srv (RpStatus 1)) (Some [50]) (Some [100]) = (inl ([50], [100]), Some [99], [RqCheck [50] [100] 604800 [48; 46; 49; 51]]).
Proof. vm_compute. repeat split; reflexivity. Qed.
(** The identifier in use is the one in the lock file afterwards; a new one has no dashes. *)
Theorem C44_uuid : forall lock fresh w u lock', get_or_generate_uuid lock fresh w = (inl u, lock') ->
  lock' = Some u /\ (lock = None -> u = filter (fun c => negb (c =? 45)) fresh /\ ~ In 45 u).
Proof. exact uuid_first. Qed.
Print Assumptions C44_uuid.
(** It is chosen once: later senders that find the lock file use it. *)
Theorem C44_uuid_stable : forall env srv local a u lock rqs env' srv' local' a' u' lock' rqs',
  sender_new env srv local None = (inl (a, u), lock, rqs) -> se_lock env' = lock ->
  sender_new env' srv' local' None = (inl (a', u'), lock', rqs') -> u' = u /\ lock' = lock.
Proof. exact uuid_stable. Qed.
Print Assumptions C44_uuid_stable.

(** The cases of the theorems above: a session that succeeds, one that stops at the second request, a lost
    schema log, a missing file, and two senders in a row. *)
Example C44_case :
  let dig := calculate_digest ex_sha in
  let srv := receiver_server dig (fun l => l) in
  let start := [RqCheck [97] [117] 604800 [48; 46; 49; 51]] in
  let mute : server := fun tr rq => match rq with RqInit _ => RpErr | _ => RpStatus 1 end in
  let drop (l : list Z) := tl l in
  let env := mkSyncEnv [[]] None [49; 45; 50] true true in
  let env' := mkSyncEnv [[[65]]] (Some [49; 50]) [51] true true in
  snd (sync ex_sha ex_fs srv [102] [103] ex_schema start) = SOk /\
  length (fst (sync ex_sha ex_fs srv [102] [103] ex_schema start)) = 10%nat /\
  sync ex_sha ex_fs mute [102] [103] ex_schema [] = ([RqStartSync; RqInit [103]], SErr SConnectionError) /\
  dig (drop (write_mlog [103] ex_schema)) = dig (write_mlog [103] ex_schema) /\
  dig (ex_channel [7; 8]) <> dig [7; 8] /\
  snd (sync ex_sha ex_fs srv [104] [103] ex_schema start) = SPanic /\
  dig (1 :: write_mlog [103] ex_schema) <> dig (write_mlog [103] ex_schema) /\
  snd (sync ex_sha ex_fs (receiver_server dig (cons 1)) [102] [103] ex_schema start) = SPanic /\
  sender_new env srv None None = (inl ([49; 50; 55; 46; 48; 46; 48; 46; 49], [49; 50]), Some [49; 50],
    [RqCheck [49; 50; 55; 46; 48; 46; 48; 46; 49] [49; 50] 604800 [48; 46; 49; 51]]) /\
  sender_new env' srv None None = (inl ([65], [49; 50]), Some [49; 50], [RqCheck [65] [49; 50] 604800 [48; 46; 49; 51]]).
Proof. vm_compute. repeat split; discriminate. Qed.
