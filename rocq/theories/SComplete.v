(** Specification side: every outcome of a session of a release build, from the schema and the calls alone. *)
From Verif Require Export SLayout SSession.
From Coq Require Import String.
Open Scope list_scope. Open Scope Z_scope.

(** The series, if declared, can store the value. *)
Definition can_store (sc : schema) (d m : list Z) (v : value) : bool :=
  forallb (fun dg => negb (same_name (fst dg) d) || forallb (fun ms => negb (same_name (fst ms) m) || storable (snd ms) v) (snd dg)) sc.
(** Every point that is reached and admitted can be stored. *)
Fixpoint stores (sc : schema) (h : hist) (d : list Z) (t : Z) (vs : list (list Z * value)) : bool :=
  match vs with
  | [] => true
  | (m, v) :: vs' => negb (admits sc h d m t) || can_store sc d m v && stores sc (h_store (mkPoint d m t v) h) d t vs'
  end.
Definition nothing {A} (l : list A) : bool := match l with [] => true | _ => false end.
(** A call panics if it reaches a value of the wrong type, or if it looks at an empty memory: an empty batch once the
    count of the next look has become 0. *)
Definition call_panics (sc : schema) (s : session) (o : op) : bool :=
  let h := ss_hist s in
  match o with
  | OpWrite d m t v => negb (stores sc h d t [(m, v)])
  | OpWriteMany d t vs => negb (stores sc h d t vs) || nothing vs && has_device sc d && nothing (h_recent h) && (ss_next s =? 0)
  | OpClose _ => false
  end.
(** The answers, word for word. *)
Fixpoint batch_reply (sc : schema) (h : hist) (d : list Z) (t : Z) (vs : list (list Z * value)) : answer :=
  match vs with
  | [] => AOk
  | (m, v) :: vs' =>
      if t <=? last_time h d m then AErr EOutOfOrderData
      else if is_declared sc d m then batch_reply sc (h_store (mkPoint d m t v) h) d t vs'
      else AErr (EIllegalState (Some "Unknown measurement id"%string))
  end.
Definition reply (sc : schema) (h : hist) (o : op) : answer :=
  match o with
  | OpWrite d m t v => if has_device sc d then batch_reply sc h d t [(m, v)] else AErr (EIllegalState (Some "No Group Writer found"%string))
  | OpWriteMany d t vs => if has_device sc d then batch_reply sc h d t vs else AErr (EIllegalState None)
  | OpClose _ => AUnit
  end.
(** The answers of a session; [None]: some call panics. *)
Fixpoint replies (snap : list Z -> option (list Z)) (sc : schema) (s : session) (ops : list op) : option (list answer) :=
  match ops with
  | [] => Some []
  | o :: ops' => if call_panics sc s o then None else option_map (cons (reply sc (ss_hist s) o)) (replies snap sc (session_call snap sc s o) ops')
  end.

(** Devices and paths with data. *)
Definition stored_names (d : list Z) (g : mgroup) (pts : list point) : list (list Z) :=
  filter (fun m => negb (nothing (series_of d m pts))) (map fst g).
Definition stored_paths (sc : schema) (pts : list point) : list (list Z) :=
  flat_map (fun dg => map (fun m => fst dg ++ [46] ++ m) (stored_names (fst dg) (snd dg) pts)) sc.
Definition stored_devices (sc : schema) (pts : list point) : list (list Z) :=
  map fst (filter (fun dg => negb (nothing (stored_names (fst dg) (snd dg) pts))) sc).
(** A file with these points can be closed: at most 256 devices, a filter whose last byte is at least half full, no
    path whose hash has no absolute value. *)
Definition closable (sc : schema) (pts : list point) : bool :=
  let paths := stored_paths sc pts in
  let size := filter_size (zlen paths) in
  (zlen (stored_devices sc pts) <=? 256) && ((size mod 8 =? 0) || (4 <=? size mod 8)) &&
  forallb (fun q => forallb (fun s => negb (path_hash q s =? - 2 ^ 31) || (2 ^ 31 mod size =? 0)) [5; 7; 11; 19; 31]) paths.
