(** Specification side of C71: what a log holds after plans and flushes. *)
From Verif Require Export SMlog MMlogRun.

(** The plan of a call. *)
Definition plan_of (o : mlog_op) : list plan :=
  match o with
  | MlCreate path t e c => [CreateTimeseries path (format_type t) (format_encoding e) (format_compression c) (-1) [0; 0; 0; 0]]
  | MlGroup path => [SetStorageGroup path]
  | MlFlush => []
  end.
(** The flushes with the plans they had to write: those since the last flush that succeeded. *)
Fixpoint flush_attempts (held : list plan) (ops : list mlog_op) (oks : list bool) : list (list plan * bool) :=
  match ops with
  | [] => []
  | MlFlush :: ops' =>
      match oks with
      | ok :: oks' => (held, ok) :: flush_attempts (if ok then [] else held) ops' oks'
      | [] => []
      end
  | o :: ops' => flush_attempts (held ++ plan_of o) ops' oks
  end.
(** What a flush left in the file: all of a frame if it succeeded, else only a part of one. *)
Definition left_by (a : list plan * bool) (bs : list Z) : Prop :=
  exists missing, (forall rest, frame_read ((bs ++ missing) ++ rest) = Some (fst a, rest)) /\ (snd a = true <-> missing = []).
(** Bytes of all plans. *)
Definition plans_size (ops : list mlog_op) : Z :=
  fold_right (fun o n => n + match o with MlCreate path _ _ _ => 28 + zlen path | MlGroup path => 13 + zlen path | MlFlush => 0 end) 0 ops.
Definition byte_paths (ops : list mlog_op) : Prop :=
  Forall (fun o => match o with MlCreate path _ _ _ | MlGroup path => Forall (fun b => 0 <= b < 256) path | MlFlush => True end) ops.
Definition is_flush (o : mlog_op) : bool := match o with MlFlush => true | _ => false end.
