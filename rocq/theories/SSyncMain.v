(** Specification side: what the stand-alone synchronisation program should do. *)
From Verif Require Export SSync MSyncMain.

(** The address it gives: the first of the first interface, else loopback; none without an interface. *)
Definition main_address (env : main_env) : option (list Z) :=
  option_map (hd [49; 50; 55; 46; 48; 46; 48; 46; 49]) (hd_error (me_interfaces env)).
(** Its identifier: that of the lock file, else a new one without dashes that could be saved. *)
Definition main_uuid (env : main_env) (u : list Z) : Prop :=
  me_lock env = Some u \/
  me_lock env = None /\ me_can_write env = true /\ u = filter (fun c => negb (c =? 45)) (me_fresh env).

(** "root.sg" with the one series "d1", "s1"; 1654074550252-1-0-0.tsfile *)
Definition demo_group : list Z := [114; 111; 111; 116; 46; 115; 103].
Definition demo_schema : schema := [([100; 49], [([115; 49], mkMS INT32 PLAIN UNCOMPRESSED)])].
Definition demo_file : list Z :=
  [49; 54; 53; 52; 48; 55; 52; 53; 53; 48; 50; 53; 50; 45; 49; 45; 48; 45; 48; 46; 116; 115; 102; 105; 108; 101].

(** The session: the handshake, then the script of the protocol. *)
Definition main_script (digest : list Z -> list Z) (env : main_env) (u log data : list Z) : list mrequest :=
  MCheck (main_address env) u 604800 [48; 46; 49; 51] :: map MSend (script digest demo_group log demo_file data).
(** Answer to the [i]-th request of the session. *)
Definition main_answer (srv : mserver) (rqs : list mrequest) (i : nat) : reply :=
  srv (firstn i rqs) (nth i rqs (MSend RqStartSync)).

(** The receiver of the protocol, for this program. *)
Definition main_receive (digest ch : list Z -> list Z) (r : receiver) (rq : mrequest) : receiver * reply :=
  match rq with MCheck _ _ _ _ => (r, RpStatus 1) | MSend rq => receive digest ch r rq end.
Definition main_receive_all (digest ch : list Z -> list Z) (rqs : list mrequest) : receiver :=
  fold_left (fun r rq => fst (main_receive digest ch r rq)) rqs receiver_new.
Definition main_receiver (digest ch : list Z -> list Z) : mserver :=
  fun tr rq => snd (main_receive digest ch (main_receive_all digest ch tr) rq).
