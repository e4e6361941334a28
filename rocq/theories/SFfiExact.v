(** Specification side: what C and Python sessions write, byte by byte, and when calls return (C64). *)
From Verif Require Export SFfi SPy SDotsReply.

(** The points written through [h] so far, as calls. *)
Definition writes (h : Z) (calls : list fcall) : list op := map op_of (SFfi.written h no_bufs calls).
(** Every call of the session is answered [Ok]. *)
Definition all_fine (p : profile) (snap : list Z -> option (list Z)) (sc : schema) (ops : list op) : Prop :=
  any_replies p snap sc session_new ops = Some (map (fun _ => AOk) ops).
(** Fewer than 2^31 bytes in the names. *)
Definition short_names (q : request) : Prop := zlen (rq_device q) + zlen (rq_name q) + 1 < 2 ^ 31.
(** Memory: at most 24 bytes per point. *)
Definition few_points (pts : list point) : Prop := 24 * zlen pts + 150 < 2 ^ 32.
