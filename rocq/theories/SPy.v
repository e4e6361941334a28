(** Specification side of the Python classes. *)
From Verif Require Export SFfi MPy.

(** The name that a Python string stands for in a file: its UTF-8 form up to the first NUL character. *)
Definition py_name (s : list Z) : list Z := before_nul (utf8 s).
(** The points written through a writer object: the calls of [write_int] that raised no exception. *)
Fixpoint py_points (w : Z) (session : list (pyop * pyret)) : list point :=
  match session with
  | [] => []
  | (PyWrite w' d m t v, PyNone) :: r =>
      (if w' =? w then [mkPoint (py_name d) (py_name m) t (VInt v)] else []) ++ py_points w r
  | _ :: r => py_points w r
  end.
(** Strings of fewer than 2^29 characters. *)
Definition pyop_ok (o : pyop) : Prop :=
  match o with
  | PySchema d m _ _ _ => zlen d < 2 ^ 29 - 1 /\ zlen m < 2 ^ 29 - 1
  | PyWriter n _ => zlen n < 2 ^ 29 - 1
  | PyWrite _ d m _ _ => zlen d < 2 ^ 29 - 1 /\ zlen m < 2 ^ 29 - 1
  | _ => True
  end.
(** The series that the constructor of a [Schema] object names; of the codes the last eight bits count. *)
Definition py_request (d m : list Z) (ty en co : Z) : request := mkRequest (py_name d) (py_name m) (ty mod 256) (en mod 256) (co mod 256).
