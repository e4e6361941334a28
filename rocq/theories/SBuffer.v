(** Specification side: how many points a writer can hold in memory (C60). *)
From Verif Require Export SLayout.

(** Least number of bytes that 129 points of an uncompressed series occupy: one header of a TS_2DIFF block for the
    timestamps (24 bytes), and the values. *)
Definition least_bytes (ms : mschema) : Z :=
  24 + match ms_enc ms, ms_type ms with
       | PLAIN, INT32 => 129 | PLAIN, INT64 => 8 * 129 | PLAIN, FLOAT => 4 * 129
       | TS2DIFF, INT32 => 16 | TS2DIFF, _ => 24
       end.
(** No series is compressed, and 129 points of any series occupy at least [L] bytes. *)
Definition uncompressed (sc : schema) (L : Z) : Prop :=
  forall d m ms, declares sc d m ms -> ms_comp ms = UNCOMPRESSED /\ L <= least_bytes ms.
(** Points that occupy the 128 MiB at which the writer flushes; at least the 100 points before the first look. *)
Definition capacity (L : Z) : Z := Z.max 100 (129 * 2 ^ 27 / L).
(** Values handed over in batches that were not answered [Ok]. *)
Fixpoint refused_from (snap : list Z -> option (list Z)) (sc : schema) (s : session) (ops : list op) : Z :=
  match ops with
  | [] => 0
  | o :: ops' =>
      match o with OpWriteMany _ _ vs => if call_ok sc o (ss_hist s) then 0 else zlen vs | _ => 0 end +
      refused_from snap sc (session_call snap sc s o) ops'
  end.
Definition refused (snap : list Z -> option (list Z)) (sc : schema) (ops : list op) : Z := refused_from snap sc session_new ops.
