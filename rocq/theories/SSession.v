(** Specification side: whole sessions judged from their inputs alone. *)
From Verif Require Export SSize SIndex.

(** The points a call carries. *)
Definition op_list (o : op) : list point :=
  match o with
  | OpWrite d m t v => [mkPoint d m t v]
  | OpWriteMany d t vs => map (fun mv => mkPoint d (fst mv) t (snd mv)) vs
  | OpClose _ => []
  end.
Definition input (ops : list op) : list point := concat (map op_list ops).
(** Every series is written in strictly increasing, non-negative time. *)
Definition in_order (pts : list point) : Prop := forall d m, increasing (-1) (map fst (series_of d m pts)).
(** A call of a session: arguments in range, a write, and not an empty batch. *)
Definition write_call (o : op) : Prop := op_ok o /\ op_list o <> [].

(** What the file should hold, read front to back and through the index. *)
Definition holds (decomp : list Z -> option (list Z)) (file : list Z) (pts : list point) : Prop :=
  (exists cs, read_file decomp file = Some cs /\ forall d m, SReader.series_in cs d m = tnums (series_of d m pts)) /\
  (exists xs, index_read decomp file = Some xs /\ NoDup (map f_key xs) /\ (forall d m, In (d, m) (map f_key xs) <-> series_of d m pts <> []) /\
     forall x d m, In x xs -> f_key x = (d, m) -> f_points x = tnums (series_of d m pts) /\ lookup file d m = Some (f_meta x)).
