(** Specification side of C70: what the iteration order of the hash map can change in a file. *)
From Verif Require Export SIndex SLayout.

(** The same calls, up to the iteration orders of the closes. *)
Definition same_call (a b : op) : Prop :=
  match a, b with
  | OpClose o1, OpClose o2 => good_order o1 /\ good_order o2
  | OpClose _, _ | _, OpClose _ => False
  | _, _ => a = b
  end.
(** The devices of an index, written from offset [o] on: for each device its name as it is in the file, and its node.
    First the nodes, then the root with the names and the offsets of the nodes. *)
Fixpoint root_entries (o : Z) (nodes : list (list Z * list Z)) : list Z :=
  match nodes with
  | [] => []
  | (name, node) :: l => name ++ digits 8 o ++ root_entries (o + zlen node) l
  end.
Definition devices_bytes (o : Z) (nodes : list (list Z * list Z)) : list Z :=
  rows_bytes nodes ++ leb (zlen nodes) ++ root_entries o nodes ++ digits 8 (o + zlen (rows_bytes nodes)) ++ [1].
(** Files that differ only in the order of the devices in their indexes, of which there are [k]. *)
Inductive alike : nat -> list Z -> list Z -> Prop :=
  | alike_empty : alike 0 [] []
  | alike_same k a b l : alike k a b -> alike k (a ++ l) (b ++ l)
  | alike_index k a b n1 n2 : alike k a b -> Permutation n1 n2 -> zlen n1 <= 256 ->
      alike (S k) (a ++ devices_bytes (zlen a) n1) (b ++ devices_bytes (zlen b) n2).
(** Number of closes. *)
Definition close_count (ops : list op) : nat := length (filter (fun o => match o with OpClose _ => true | _ => false end) ops).
