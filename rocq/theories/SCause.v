(** What a panic of a call in a release build can be due to, told from the call and the schema. *)
From Verif Require Export SHist.
Open Scope list_scope. Open Scope Z_scope.

(** Values that a series of this type stores. *)
Definition kept_by (dt : dtype) (v : value) : Prop :=
  match dt, v with INT32, VInt _ | INT64, VLong _ | FLOAT, VFloat _ => True | _, _ => False end.
(** Type and encoding for which there is an encoder. *)
Definition has_encoder (ms : mschema) : Prop := ~ (ms_type ms = FLOAT /\ ms_enc ms = TS2DIFF).
(** The point itself: a value of another type ([todo!]) or a series without an encoder ([unwrap]). *)
Definition point_cause (sc : schema) (d m : list Z) (v : value) (q : panic) : Prop :=
  exists ms, declares sc d m ms /\ ((q = PTodo /\ ~ kept_by (ms_type ms) v) \/ (q = PUnwrap /\ ~ has_encoder ms)).
(** The state: the memory estimate is 0 ([PDivZero]), or a chunk writer that outlived a failed flush splits
    its buffer beyond the end ([PIndex]). *)
Definition state_cause (q : panic) : Prop := q = PDivZero \/ q = PIndex.
(** The causes of a panic of a write or a batch. *)
Definition write_cause (sc : schema) (o : op) (q : panic) : Prop :=
  match o with
  | OpWrite d m t v => point_cause sc d m v q \/ state_cause q
  | OpWriteMany d t vs => (exists m v, In (m, v) vs /\ point_cause sc d m v q) \/ state_cause q
  | OpClose _ => False
  end.

(** Points offered to a series. *)
Definition same_text (a b : list Z) : bool := if list_eq_dec Z.eq_dec a b then true else false.
Definition offered_by (d m : list Z) (o : op) : Z :=
  match o with
  | OpWrite d' m' _ _ => if same_text d d' && same_text m m' then 1 else 0
  | OpWriteMany d' _ vs => if same_text d d' then zlen (filter (fun mv => same_text m (fst mv)) vs) else 0
  | OpClose _ => 0
  end.
Definition offered (d m : list Z) (ops : list op) : Z := zsum (map (offered_by d m) ops).
(** So few points per series that no page is full. *)
Definition few_points (ops : list op) : Prop := forall d m, offered d m ops < 7989.
(** The causes left when no page is full. *)
Definition calm_cause (sc : schema) (o : op) (q : panic) : Prop :=
  match o with
  | OpWrite d m t v => point_cause sc d m v q \/ q = PDivZero
  | OpWriteMany d t vs => (exists m v, In (m, v) vs /\ point_cause sc d m v q) \/ q = PDivZero
  | OpClose _ => False
  end.
(** The causes left when there are at most 4095 series besides. *)
Definition small_cause (sc : schema) (o : op) (q : panic) : Prop :=
  match o with
  | OpWrite d m t v => point_cause sc d m v q
  | OpWriteMany d t vs => (exists m v, In (m, v) vs /\ point_cause sc d m v q) \/ (vs = [] /\ q = PDivZero)
  | OpClose _ => False
  end.
(** A point that its series, if there is one, stores. *)
Definition safe_point (sc : schema) (d m : list Z) (v : value) : Prop := forall ms, declares sc d m ms -> kept_by (ms_type ms) v /\ has_encoder ms.
(** Calls without a wrong value and without an empty batch; closes anywhere. *)
Definition safe_call (sc : schema) (o : op) : Prop :=
  match o with
  | OpWrite d m t v => safe_point sc d m v
  | OpWriteMany d t vs => vs <> [] /\ forall m v, In (m, v) vs -> safe_point sc d m v
  | OpClose _ => True
  end.
