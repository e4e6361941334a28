(** Specification side: sessions on a disk that fails now and then. The observables are the calls, their
    answers, whether the file grew, and whether the disk refused or cut a write during the call. *)
From Verif Require Export SHist.

(** [a] is [b] with some elements left out. *)
Inductive subseq {A} : list A -> list A -> Prop :=
  | sub_nil : subseq [] []
  | sub_keep : forall x a b, subseq a b -> subseq (x :: a) (x :: b)
  | sub_skip : forall x a b, subseq a b -> subseq a (x :: b).

(** The points that a call may have stored: the point of a write answered [Ok], all points of a batch
    (a rejected batch keeps the points before the rejected one, C28). *)
Definition offered (o : op) (a : answer) : list point :=
  match o, a with
  | OpWrite d m t v, AOk => [mkPoint d m t v]
  | OpWriteMany d t vs, _ => map (fun mv => mkPoint d (fst mv) t (snd mv)) vs
  | _, _ => []
  end.

(** No write of the disk failed or was cut between two states. *)
Definition is_full (f : fault) : bool := match f with FFull => true | _ => false end.
Definition calm (w w' : writer) : bool :=
  let s := io_out (w_io w) in
  forallb (fun n => is_full (sk_sched s n)) (seq (sk_calls s) (sk_calls (io_out (w_io w')) - sk_calls s)).
(** The disk works from now on. *)
Definition recovered (w : writer) : Prop :=
  forall n, (sk_calls (io_out (w_io w)) <= n)%nat -> sk_sched (io_out (w_io w)) n = FFull.

(** The ledger of a session: everything that may have been stored; the acknowledged points that an
    undisturbed flush has written; the acknowledged points since then, unless a disturbed call came after
    them; and, after a disturbed call, what was offered since, until the next undisturbed flush. *)
Record ledger := mkL { l_offered : list point; l_kept : list point; l_pending : list point; l_since : option (list point) }.
Definition l_new : ledger := mkL [] [] [] None.
Definition l_more (q : list point) (g : ledger) : option (list point) := option_map (fun s => s ++ q) (l_since g).
Definition l_step (o : op) (a : answer) (calm grew : bool) (g : ledger) : ledger :=
  let q := offered o a in
  if calm then
    if grew then mkL (l_offered g ++ q) (l_kept g ++ l_pending g ++ acked1 o a) [] None
    else mkL (l_offered g ++ q) (l_kept g) (l_pending g ++ acked1 o a) (l_more q g)
  else mkL (l_offered g ++ q) (l_kept g) [] (Some match l_more q g with Some s => s | None => [] end).

(** Between a disturbed call and the next undisturbed flush no series is offered more than 3446 points. *)
Definition few (s : option (list point)) : Prop :=
  match s with Some q => forall d m, zlen (series_of d m q) <= 3446 | None => True end.

(** A session, with the ledgers at its closes. *)
Inductive endured (p : profile) (snap : compressor) (sc : schema) (sched : nat -> fault) : writer -> ledger -> list ledger -> list op -> list answer -> Prop :=
  | endured_new : forall out w, writer_new sc (sink_new sched) = (out, Some w) -> endured p snap sc sched w l_new [] [] []
  | endured_step : forall w g cs ops l o w' a, endured p snap sc sched w g cs ops l -> step p snap w o = Ret (w', a) ->
      few (l_more (offered o a) g) -> let g' := l_step o a (calm w w') (grew w w') g in
      endured p snap sc sched w' g' (if is_close o then cs ++ [g'] else cs) (ops ++ [o]) (l ++ [a]).

(** [s] holds the kept points of the ledger in order, and nothing that was not offered. *)
Definition booked (d m : list Z) (g : ledger) (s : list (Z * value)) : Prop :=
  subseq (series_of d m (l_kept g)) s /\ subseq s (series_of d m (l_offered g)).
