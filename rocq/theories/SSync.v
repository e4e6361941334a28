(** Specification side: what a synchronisation session should look like. *)
From Verif Require Export SMlog MSync.

(** The canonical session for a storage group, its schema log and one data file. *)
Definition script (digest : list Z -> list Z) (sg mlog name data : list Z) : list request :=
  [RqStartSync; RqInit sg;
   RqInitSyncData [109; 108; 111; 103; 46; 98; 105; 110]; RqSyncData mlog; RqCheckDataDigest (digest mlog);
   RqInitSyncData ([48; 95; 48; 95] ++ name); RqSyncData data; RqCheckDataDigest (digest data);
   RqEndSync].
(** Answer to the [i]-th request of a session that follows the script after the requests [tr]. *)
Definition answer_at (srv : server) (tr rqs : list request) (i : nat) : reply :=
  srv (tr ++ firstn i rqs) (nth i rqs RqStartSync).
Definition is_status (r : reply) : bool := match r with RpStatus _ => true | RpErr => false end.

(** A receiver: stores what it is sent, under the name announced last; data pass through a channel [ch].
    A file is kept only if the digest sent afterwards is that of the stored bytes. *)
Record receiver := mkRecv { rc_sg : list Z; rc_name : list Z; rc_data : list Z; rc_files : list (list Z * list Z); rc_done : bool }.
Definition receiver_new : receiver := mkRecv [] [] [] [] false.
Definition receive (digest ch : list Z -> list Z) (r : receiver) (rq : request) : receiver * reply :=
  match rq with
  | RqCheck _ _ _ _ => (r, RpStatus 1)
  | RqStartSync => (r, RpStatus 1)
  | RqInit sg => (mkRecv sg (rc_name r) (rc_data r) (rc_files r) (rc_done r), RpStatus 1)
  | RqInitSyncData n => (mkRecv (rc_sg r) n [] (rc_files r) (rc_done r), RpStatus 1)
  | RqSyncData d => (mkRecv (rc_sg r) (rc_name r) (rc_data r ++ ch d) (rc_files r) (rc_done r), RpStatus 1)
  | RqCheckDataDigest g =>
      if list_eq_dec Z.eq_dec (digest (rc_data r)) g
      then (mkRecv (rc_sg r) (rc_name r) [] (rc_files r ++ [(rc_name r, rc_data r)]) (rc_done r), RpStatus 1)
      else (mkRecv (rc_sg r) (rc_name r) [] (rc_files r) (rc_done r), RpStatus (-1))
  | RqEndSync => (mkRecv (rc_sg r) (rc_name r) (rc_data r) (rc_files r) true, RpStatus 1)
  end.
Definition receive_all (digest ch : list Z -> list Z) (rqs : list request) : receiver :=
  fold_left (fun r rq => fst (receive digest ch r rq)) rqs receiver_new.
Definition receiver_server (digest ch : list Z -> list Z) : server :=
  fun tr rq => snd (receive digest ch (receive_all digest ch tr) rq).

(** The local address a sender uses: the given one, else the first of the first interface, else loopback. *)
Definition own_address (env : sync_env) (local : option (list Z)) (a : list Z) : Prop :=
  local = Some a \/ local = None /\ exists ips rest, se_interfaces env = ips :: rest /\ a = hd [49; 50; 55; 46; 48; 46; 48; 46; 49] ips.
(** Its identifier and the lock file afterwards: the given one, else the one in the lock file, else a new one
    without dashes. *)
Definition own_uuid (env : sync_env) (uuid : option (list Z)) (u : list Z) (lock : option (list Z)) : Prop :=
  uuid = Some u /\ lock = se_lock env \/
  uuid = None /\ lock = Some u /\ (se_lock env = Some u \/ se_lock env = None /\ se_can_write env = true /\ u = filter (fun c => negb (c =? 45)) (se_fresh env)).
