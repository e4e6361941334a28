(** Specification side of the program in rust.py: the points it is meant to store. *)
From Verif Require Export SExample SPy.

Definition python_points (d m : list Z) (n : Z) : list point := of_series d m (map (fun i => (i, VInt i)) (zrange 0 (Z.to_nat n))).
(** Nothing made in the library is left behind. *)
Definition no_boxes (f : ffi) : Prop := forall h, f_schemas f h = None /\ f_writers f h = None.
