(** C65: the stand-alone synchronisation program, sync/_main.rs. *)
From Verif Require Import PSyncMain.

(** Without a connection nothing is sent and the exit status is 1; without an identifier it is 101. *)
Theorem C65_start : forall sha env srv,
  (me_opens env = false -> main_run sha env srv = ([], me_lock env, RErr)) /\
  (me_opens env = true -> (forall u, ~ main_uuid env u) -> main_run sha env srv = ([], None, RPanic)).
Proof. exact (fun sha env srv => conj (closed sha env srv) (nobody sha env srv)). Qed.
Print Assumptions C65_start.
(** Otherwise the identifier is in the lock file afterwards and a prefix of the session is sent, up to the first
    request without an answer; the answer to the digest of the data file is not looked at. *)
Theorem C65_sent : forall sha env srv u, me_opens env = true -> main_uuid env u ->
  forall r lock res, main_run sha env srv = (r, lock, res) -> lock = Some u /\
  exists data k, let rqs := main_script (calculate_digest sha) env u main_mlog data in
    r = firstn k rqs /\ (1 <= k <= 10)%nat /\
    (me_fs env ([46; 46; 47] ++ demo_file) = Some data \/ (k <= 7)%nat) /\
    (forall i, (S i < k)%nat -> i <> 8%nat -> is_status (main_answer srv rqs i) = true).
Proof. exact main_prefix. Qed.
Print Assumptions C65_sent.
(** Exit status 0: every request but the digest of the data file is answered, the digest of the log not with -1. *)
Theorem C65_ok : forall sha env srv, main_exit (snd (main_run sha env srv)) = 0 <->
  me_opens env = true /\ exists u data, main_uuid env u /\ me_fs env ([46; 46; 47] ++ demo_file) = Some data /\
    let answer := main_answer srv (main_script (calculate_digest sha) env u main_mlog data) in
    (forall i, (i <= 9)%nat -> i <> 8%nat -> is_status (answer i) = true) /\ answer 5%nat <> RpStatus (-1).
Proof. exact exit_ok. Qed.
Print Assumptions C65_ok.
(** Exit status 1: no connection; no answer when the log is announced or sent; no answer to the last request. *)
Theorem C65_error : forall sha env srv, main_exit (snd (main_run sha env srv)) = 1 <->
  me_opens env = false \/
  exists u, main_uuid env u /\
  let answer data := main_answer srv (main_script (calculate_digest sha) env u main_mlog data) in
  ((forall data, (forall i, (i <= 2)%nat -> is_status (answer data i) = true) /\ (answer data 3%nat = RpErr \/ answer data 4%nat = RpErr)) \/
   exists data, me_fs env ([46; 46; 47] ++ demo_file) = Some data /\
    (forall i, (i <= 7)%nat -> is_status (answer data i) = true) /\ answer data 5%nat <> RpStatus (-1) /\ answer data 9%nat = RpErr).
Proof. exact exit_err. Qed.
Print Assumptions C65_error.
(** In all other cases the program panics. *)
Theorem C65_values : forall sha env srv, let e := main_exit (snd (main_run sha env srv)) in e = 0 \/ e = 1 \/ e = 101.
Proof. exact exit_values. Qed.
Print Assumptions C65_values.
(** The log sent is that of the sender in sync_sender.rs for the storage group and its one series. *)
Theorem C65_log : main_mlog = write_mlog demo_group demo_schema /\ mlog_read main_mlog = Some (expected_plans demo_group demo_schema).
Proof. exact (conj main_log main_log_read). Qed.
Print Assumptions C65_log.
(** Against a receiver behind any channel: a log whose digest shows damage ends in a panic with nothing stored; else
    the program ends with status 0, and the data file is stored exactly if its digest survived. *)
Theorem C65_receiver : forall sha ch env u data, let digest := calculate_digest sha in
  me_opens env = true -> main_uuid env u -> me_fs env ([46; 46; 47] ++ demo_file) = Some data ->
  exists rqs res, main_run sha env (main_receiver digest ch) = (rqs, Some u, res) /\
  (digest (ch main_mlog) <> digest main_mlog -> res = RPanic /\ rc_files (main_receive_all digest ch rqs) = []) /\
  (digest (ch main_mlog) = digest main_mlog -> res = ROk /\
     main_receive_all digest ch rqs = mkRecv demo_group ([48; 95; 48; 95] ++ demo_file) []
       (([109; 108; 111; 103; 46; 98; 105; 110], ch main_mlog) ::
        (if list_eq_dec Z.eq_dec (digest (ch data)) (digest data) then [([48; 95; 48; 95] ++ demo_file, ch data)] else [])) true).
Proof. exact main_received. Qed.
Print Assumptions C65_receiver.

Definition sm_sha (l : list byte) : list byte := [1; zlen l mod 256].
Definition sm_env (data : list Z) : main_env :=
  mkMainEnv true [[[49; 48]]] None [97; 45; 98] true
    (fun p => if list_eq_dec Z.eq_dec p ([46; 46; 47] ++ demo_file) then Some data else None).
(** A perfect channel: both files arrive. *)
Example C65_case : let env := sm_env [7; 8; 9] in
  me_opens env = true /\ main_uuid env [97; 98] /\ main_address env = Some [49; 48] /\
  let '(rqs, lock, res) := main_run sm_sha env (main_receiver (calculate_digest sm_sha) (fun l => l)) in
  length rqs = 10%nat /\ lock = Some [97; 98] /\ main_exit res = 0 /\
  map snd (rc_files (main_receive_all (calculate_digest sm_sha) (fun l => l) rqs)) = [main_mlog; [7; 8; 9]].
Proof. vm_compute. repeat split; auto. Qed.
(** A silent server. *)
Example C65_error_case : main_exit (snd (main_run sm_sha (sm_env []) (fun tr _ => if (4 <=? length tr)%nat then RpErr else RpStatus 1))) = 1 /\
  main_exit (snd (main_run sm_sha (sm_env []) (fun tr _ => if (5 <=? length tr)%nat then RpErr else RpStatus 1))) = 101.
Proof. vm_compute. auto. Qed.
(** "Exit status 0 means that the receiver has the data file" is false: the answer to its digest is dropped. *)
Theorem C65_status_refuted : exists sha ch env data, let digest := calculate_digest sha in
  me_fs env ([46; 46; 47] ++ demo_file) = Some data /\
  let '(rqs, _, res) := main_run sha env (main_receiver digest ch) in
  main_exit res = 0 /\ rc_done (main_receive_all digest ch rqs) = true /\
  map fst (rc_files (main_receive_all digest ch rqs)) = [[109; 108; 111; 103; 46; 98; 105; 110]].
Proof.
  exists sm_sha, (fun l => if zlen l <? 5 then [] else l), (sm_env [7; 8; 9]), [7; 8; 9]. vm_compute. repeat split.
Qed.
Print Assumptions C65_status_refuted.
