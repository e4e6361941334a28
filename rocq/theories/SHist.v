(** Specification side: what a history of calls should have stored. The observables are the calls, whether
    the file grew, and the declared schema; nothing is said about how the writer works. *)
From Verif Require Export MWriter SChunk.

(** A stored point: device, measurement, timestamp, value. *)
Record point := mkPoint { pt_device : list Z; pt_name : list Z; pt_time : Z; pt_value : value }.
(** Points of one series. *)
Definition series_of (d m : list Z) (l : list point) : list (Z * value) :=
  map (fun q => (pt_time q, pt_value q))
    (filter (fun q => same_name (pt_device q) d && same_name (pt_name q) m) l).

(** Declared series; a schema is a pair of nested maps, so names are distinct. *)
Definition declares (sc : schema) (d m : list Z) (ms : mschema) : Prop := exists g, In (d, g) sc /\ In (m, ms) g.
Definition is_declared (sc : schema) (d m : list Z) : bool :=
  existsb (fun dg => same_name (fst dg) d && existsb (fun ms => same_name (fst ms) m) (snd dg)) sc.
Definition has_device (sc : schema) (d : list Z) : bool := existsb (fun dg => same_name (fst dg) d) sc.
Definition schema_ok (sc : schema) : Prop :=
  NoDup (map fst sc) /\
  Forall (fun dg => zlen (fst dg) < 2 ^ 31 /\ NoDup (map fst (snd dg)) /\
                    Forall (fun ms => zlen (fst ms) < 2 ^ 31) (snd dg)) sc.

(** The history: points flushed to the file, points accepted since the last flush, and how many of the
    latter came from calls that were answered [Ok]. *)
Record hist := mkHist { h_flushed : list point; h_recent : list point; h_counted : Z }.
Definition h_new : hist := mkHist [] [] 0.
Definition h_all (h : hist) : list point := h_flushed h ++ h_recent h.
(** Last timestamp of the series since the last flush, -1 if there is none. *)
Definition last_time (h : hist) (d m : list Z) : Z := last (map fst (series_of d m (h_recent h))) (-1).
(** A point is admitted iff its series is declared and its timestamp is larger than the last one. *)
Definition admits (sc : schema) (h : hist) (d m : list Z) (t : Z) : bool :=
  is_declared sc d m && (last_time h d m <? t).
Definition h_store (q : point) (h : hist) : hist := mkHist (h_flushed h) (h_recent h ++ [q]) (h_counted h).
Definition h_count (n : Z) (h : hist) : hist := mkHist (h_flushed h) (h_recent h) (h_counted h + n).
(** A batch stores its points up to the first one that is not admitted. *)
Fixpoint h_batch (sc : schema) (d : list Z) (t : Z) (vs : list (list Z * value)) (h : hist) : hist * bool :=
  match vs with
  | [] => (h, true)
  | (m, v) :: vs' =>
      if admits sc h d m t then h_batch sc d t vs' (h_store (mkPoint d m t v) h) else (h, false)
  end.
Definition h_call (sc : schema) (o : op) (h : hist) : hist :=
  match o with
  | OpWrite d m t v => if admits sc h d m t then h_count 1 (h_store (mkPoint d m t v) h) else h
  | OpWriteMany d t vs => let '(h', ok) := h_batch sc d t vs h in if ok then h_count (zlen vs) h' else h'
  | OpClose _ => h
  end.
Definition h_flush (h : hist) : hist := mkHist (h_flushed h ++ h_recent h) [] 0.
(** A call that makes the file grow has flushed, if there was something counted to flush (a [close]
    always makes the file grow, by its metadata). *)
Definition h_step (sc : schema) (o : op) (grew : bool) (h : hist) : hist :=
  let h' := h_call sc o h in if grew && (0 <? h_counted h') then h_flush h' else h'.

(** Histories on a healthy sink, with the log of what was stored. *)
Definition grew (w w' : writer) : bool := zlen (file_bytes w) <? zlen (file_bytes w').
Inductive trace (p : profile) (snap : compressor) (sc : schema) : writer -> hist -> list op -> list answer -> Prop :=
  | trace_new : forall out w, writer_new sc (sink_new healthy) = (out, Some w) -> trace p snap sc w h_new [] []
  | trace_step : forall w h ops l o w' a, trace p snap sc w h ops l -> step p snap w o = Ret (w', a) ->
      trace p snap sc w' (h_step sc o (grew w w') h) (ops ++ [o]) (l ++ [a]).

(** Machine ranges of arguments. *)
Definition value_machine (v : value) : Prop :=
  match v with
  | VInt n => - 2 ^ 31 <= n < 2 ^ 31
  | VLong n => - 2 ^ 63 <= n < 2 ^ 63
  | VFloat b => 0 <= b < 2 ^ 32
  | VDouble b => 0 <= b < 2 ^ 64
  end.
Definition op_ok (o : op) : Prop :=
  match o with
  | OpWrite _ _ t v => i64_min <= t <= i64_max /\ value_machine v
  | OpWriteMany _ t vs => i64_min <= t <= i64_max /\ Forall (fun mv => value_machine (snd mv)) vs
  | OpClose _ => True
  end.
Definition op_points (o : op) : Z :=
  match o with OpWrite _ _ _ _ => 1 | OpWriteMany _ _ vs => zlen vs | OpClose _ => 0 end.
Definition is_close (o : op) : bool := match o with OpClose _ => true | _ => false end.
(** Calls with arguments in range, fewer than 2^32 points in total. *)
Definition ops_ok (ops : list op) : Prop := Forall op_ok ops /\ zsum (map op_points ops) < 2 ^ 32.
(** The series of a point is declared and its value has the declared type. *)
Definition point_ok (sc : schema) (q : point) : Prop :=
  exists ms, declares sc (pt_device q) (pt_name q) ms /\ i64_min <= pt_time q <= i64_max /\ value_ok (ms_type ms) (pt_value q).

(** The answer a write deserves. *)
Inductive verdict := VStored | VOutOfOrder | VUnknown.
Definition h_verdict (sc : schema) (h : hist) (d m : list Z) (t : Z) : verdict :=
  if negb (has_device sc d) then VUnknown
  else if t <=? last_time h d m then VOutOfOrder
  else if is_declared sc d m then VStored else VUnknown.
(** For a batch: the verdict of the first point that is not stored. *)
Fixpoint b_verdict (sc : schema) (h : hist) (d : list Z) (t : Z) (vs : list (list Z * value)) : verdict :=
  match vs with
  | [] => if has_device sc d then VStored else VUnknown
  | (m, v) :: vs' =>
      match h_verdict sc h d m t with
      | VStored => b_verdict sc (h_store (mkPoint d m t v) h) d t vs'
      | x => x
      end
  end.
Definition says (x : verdict) (a : answer) : Prop :=
  match x with
  | VStored => a = AOk
  | VOutOfOrder => a = AErr EOutOfOrderData
  | VUnknown => exists s, a = AErr (EIllegalState s)
  end.
Definition answers (sc : schema) (h : hist) (o : op) (a : answer) : Prop :=
  match o with
  | OpWrite d m t v => says (h_verdict sc h d m t) a
  | OpWriteMany d t vs => says (b_verdict sc h d t vs) a
  | OpClose _ => a = AUnit
  end.

(** ** Recorded chunk offsets *)
(** Points of the chunk whose header starts at offset [o]. *)
Definition points_at (decomp : list Z -> option (list Z)) (file : list Z) (o : Z) : list (Z * Z) :=
  match chunk_at decomp file o with Some k => chunk_points k | None => [] end.
(** Offsets recorded for a series. *)
Definition recorded (gs : list (list Z * list chunk_meta)) (d m : list Z) : list Z :=
  map cm_offset (filter (fun cm => same_name (cm_id cm) m)
    (concat (map snd (filter (fun g => same_name (fst g) d) gs)))).
(** Offset [o] lies in a chunk group of device [d]: from some earlier position a reader reads a group
    header of [d] and chunks, and arrives at [o]. *)
Definition in_group (decomp : list Z -> option (list Z)) (file : list Z) (d : list Z) (o : Z) : Prop :=
  exists g l ks r, drop g file = Some l /\ nth_error l 0 = Some 0 /\
    scan decomp (S (length ks)) None l = (map (pair d) ks, r) /\ drop o file = Some r /\ r <> [].

(** ** Acknowledged points, from calls and answers alone *)
Definition acked1 (o : op) (a : answer) : list point :=
  match o, a with
  | OpWrite d m t v, AOk => [mkPoint d m t v]
  | OpWriteMany d t vs, AOk => map (fun mv => mkPoint d (fst mv) t (snd mv)) vs
  | _, _ => []
  end.
Fixpoint acked (ops : list op) (l : list answer) : list point :=
  match ops, l with
  | o :: ops', a :: l' => acked1 o a ++ acked ops' l'
  | _, _ => []
  end.
(** No batch failed. *)
Definition batches_ok (ops : list op) (l : list answer) : Prop :=
  Forall2 (fun o a => match o with OpWriteMany _ _ _ => a = AOk | _ => True end) ops l.
(** Strictly increasing and non-negative. *)
Fixpoint increasing (lo : Z) (l : list Z) : Prop :=
  match l with [] => True | x :: l' => lo < x /\ increasing x l' end.

(** ** Failed single writes *)
Definition failed_write (o : op) (a : answer) : bool :=
  match o, a with OpWrite _ _ _ _, AErr _ => true | _, _ => false end.
Definition survivors (ops : list op) (l : list answer) : list (op * answer) :=
  filter (fun oa => negb (failed_write (fst oa) (snd oa))) (combine ops l).

(** ** Batches and single writes *)
Definition singles (d : list Z) (t : Z) (vs : list (list Z * value)) : list op :=
  map (fun mv => OpWrite d (fst mv) t (snd mv)) vs.
(** All buffered data: device, chunk writers. *)
Definition buffered (w : writer) : list (list Z * smap chunk_writer) :=
  map (fun dg => (fst dg, gw_chunks (snd dg))) (w_groups w).

(** ** Values a series can store *)
Definition storable (ms : mschema) (v : value) : bool :=
  match ms_type ms, ms_enc ms, v with
  | INT32, _, VInt _ => true
  | INT64, _, VLong _ => true
  | FLOAT, PLAIN, VFloat _ => true
  | _, _, _ => false
  end.
Definition point_storable (sc : schema) (q : point) : Prop :=
  exists ms, declares sc (pt_device q) (pt_name q) ms /\ storable ms (pt_value q) = true.

(** A chunk found by the reader is not empty and belongs to a declared series of its type. *)
Definition kind_ok (sc : schema) (dk : list Z * chunk) : Prop := chunk_points (snd dk) <> [] /\
  exists ms, declares sc (fst dk) (ch_name (snd dk)) ms /\ ch_type (snd dk) = dtype_code (ms_type ms).
Definition no_close (ops : list op) : bool := forallb (fun o => negb (is_close o)) ops.

(** ** Memory *)
Definition series_count (sc : schema) : Z := zsum (map (fun dg => zlen (snd dg)) sc).
(** At most 24 bytes per buffered point and 150 bytes per series, together less than 4 GiB. *)
Definition memory_bound (sc : schema) (h : hist) : Z := 24 * zlen (h_recent h) + 150 * series_count sc.
(** Every point of the call that is reached and admitted has a value its series can store. *)
Fixpoint batch_storable (sc : schema) (d : list Z) (t : Z) (vs : list (list Z * value)) (h : hist) : Prop :=
  match vs with
  | [] => True
  | (m, v) :: vs' =>
      if admits sc h d m t then (forall ms, declares sc d m ms -> storable ms v = true) /\ batch_storable sc d t vs' (h_store (mkPoint d m t v) h)
      else True
  end.
(** Every point of the call for a declared series has a value the series can store; no batch is empty. *)
Definition well_typed (sc : schema) (o : op) : Prop :=
  match o with
  | OpWrite d m _ v => forall ms, declares sc d m ms -> storable ms v = true
  | OpWriteMany d _ vs => vs <> [] /\ Forall (fun mv => forall ms, declares sc d (fst mv) ms -> storable ms (snd mv) = true) vs
  | OpClose _ => False
  end.
