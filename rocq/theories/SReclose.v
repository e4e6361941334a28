(** Specification side: files closed more than once (C54). *)
From Verif Require Export SIndex.

(** For every [close] of a history: the points acknowledged up to then ([pre] before the history). *)
Fixpoint closings (pre : list point) (ops : list op) (l : list answer) : list (list point) :=
  match ops, l with
  | o :: ops', a :: l' =>
      let pre' := pre ++ acked1 o a in
      if is_close o then pre' :: closings pre' ops' l' else closings pre' ops' l'
  | _, _ => []
  end.
(** The contents of one series at these closes, without the closes at which it was empty. *)
Definition nonempty_series (s : list (Z * value)) : bool := match s with [] => false | _ => true end.
Definition versions (d m : list Z) (pss : list (list point)) : list (list (Z * value)) :=
  filter nonempty_series (map (series_of d m) pss).
(** The entries of one series in what is read through the index. *)
Definition entries_of (d m : list Z) (xs : list found) : list found :=
  filter (fun x => same_name (fst (f_key x)) d && same_name (snd (f_key x)) m) xs.
(** With [n] closes no device lists more than [k] entries. *)
Definition few_entries (sc : schema) (n k : Z) : Prop := Forall (fun dg => n * zlen (snd dg) <= k) sc.
