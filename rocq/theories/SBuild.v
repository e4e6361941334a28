(** Specification side of C69: schemas for which both builds do the same. *)
From Verif Require Export SDotsReply.

(** No TS_2DIFF columns. *)
Definition all_plain (sc : schema) : Prop := forall d m ms, declares sc d m ms -> ms_enc ms = PLAIN.
(** No overflow in the hash of a declared path. *)
Definition hashes_fine (sc : schema) : Prop :=
  forall d m ms, declares sc d m ms -> forallb (hash_fine (d ++ [46] ++ m)) [5; 7; 11; 19; 31] = true.
