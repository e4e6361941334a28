(** writer/group_writer.rs and writer/tsfile_writer.rs: the public API as a transition system. *)
From Verif Require Export MIo.
From Coq Require Import String.

(** [GroupWriter] group_writer.rs:8-12 *)
Record group_writer := mkGW {
  gw_chunks : smap chunk_writer;
  gw_last : smap Z }.

(** [check_is_history_data] group_writer.rs:106-118: the map after the call, and [true] for [Ok]. *)
Definition check_is_history_data (m : str) (t : Z) (last : smap Z) : smap Z * bool :=
  let last := match sm_get m last with Some _ => last | None => sm_insert m (-1) last end in
  match sm_get m last with
  | Some l => (last, negb (t <=? l))
  | None => (last, false)                      (* not reachable: inserted above *)
  end.

(** [GroupWriter::write] group_writer.rs:85-104; the record count of an [Ok] is 1. *)
Definition gw_write (p : profile) (snap : compressor) (m : str) (t : Z) (v : value) (g : group_writer)
  : outcome (group_writer * option tserror) :=
  match check_is_history_data m t (gw_last g) with
  | (last, false) => Ret (mkGW (gw_chunks g) last, Some EOutOfOrderData)
  | (last, true) =>
      match sm_get m (gw_chunks g) with
      | None => Ret (mkGW (gw_chunks g) last, Some (EIllegalState (Some "Unknown measurement id"%string)))
      | Some c =>
          let* r := cw_write p snap t v c in
          match r with
          | inr _ => Panic PUnwrap                                       (* .unwrap() line 95 *)
          | inl c' => Ret (mkGW (sm_insert m c' (gw_chunks g)) (sm_insert m t last), None)
          end
      end
  end.

(** [GroupWriter::write_many] group_writer.rs:15-25: records written, or the first error. *)
Fixpoint gw_write_many (p : profile) (snap : compressor) (t : Z) (values : list (str * value))
    (records : Z) (g : group_writer) : outcome (group_writer * (Z + tserror)) :=
  match values with
  | [] => Ret (g, inl records)
  | (m, v) :: values' =>
      let* r := gw_write p snap m t v g in
      match r with
      | (g', Some e) => Ret (g', inr e)
      | (g', None) =>
          let* records' := arithU p 32 (records + 1) in
          gw_write_many p snap t values' records' g'
      end
  end.

(** apply to all values of a map in key order, group_writer.rs:66-68 *)
Fixpoint sm_mapM {A B} (f : A -> outcome B) (m : smap A) : outcome (smap B) :=
  match m with
  | [] => Ret []
  | (k, v) :: m' => let* v' := f v in let* r := sm_mapM f m' in Ret ((k, v') :: r)
  end.

(** [seal_all_chunks] group_writer.rs:65-69 *)
Definition seal_all_chunks (p : profile) (snap : compressor) (cs : smap chunk_writer) :=
  sm_mapM (seal_current_page p snap) cs.

(** [get_current_chunk_group_size] group_writer.rs:70-81 *)
Definition chunk_group_size (cs : smap chunk_writer) : Z :=
  fold_left (fun n kc => n + serialized_chunk_size (snd kc)) cs 0.

(** writing loop of [flush_to_filewriter] group_writer.rs:45-47 *)
Fixpoint flush_chunks (p : profile) (snap : compressor) (cs : smap chunk_writer) (w : io_writer)
  : outcome (smap chunk_writer * io_writer) :=
  match cs with
  | [] => Ret ([], w)
  | (k, c) :: cs' =>
      let* r := write_to_file_writer p snap c w in
      let '(c', w) := r in
      let* r' := flush_chunks p snap cs' w in
      Ret ((k, c') :: fst r', snd r')
  end.

(** [flush_to_filewriter] group_writer.rs:35-50 *)
Definition flush_to_filewriter (p : profile) (snap : compressor) (g : group_writer) (w : io_writer)
  : outcome (group_writer * io_writer * Z) :=
  let* cs := seal_all_chunks p snap (gw_chunks g) in
  let size := chunk_group_size cs in
  let* r := flush_chunks p snap cs w in
  Ret (mkGW (fst r) (gw_last g), snd r, size).

(** [update_max_group_mem_size] group_writer.rs:52-64 *)
Definition gw_mem_size (p : profile) (g : group_writer) : outcome Z :=
  foldM (fun n kc => let* s := cw_estimate p (snd kc) in arithU p 32 (n + s)) (gw_chunks g) 0.

(** [TsFileWriter] tsfile_writer.rs:105-120 (dead fields and the never read
    [non_aligned_timeseries_last_time_map] are dropped) *)
Record writer := mkW {
  w_io : io_writer;
  w_groups : smap group_writer;
  w_records : Z;
  w_next_check : Z;
  w_schema : schema }.

(** line 14 of tsfile_writer.rs:14 *)
Definition CHUNK_GROUP_SIZE_THRESHOLD_BYTE : Z := 134217728.

(** Group writers from a schema, tsfile_writer.rs:245-272 and 304-332: hash maps collected into
    [BTreeMap]s. *)
Definition group_of (g : mgroup) : group_writer :=
  mkGW (sm_of_list (map (fun ms => (fst ms, cw_new (fst ms) (ms_type (snd ms)) (ms_comp (snd ms)) (ms_enc (snd ms)))) g)) [].
(** tsfile_writer.rs:245-272, 304-332 *)
Definition groups_of (s : schema) : smap group_writer :=
  sm_of_list (map (fun dg => (fst dg, group_of (snd dg))) s).

(** [new_from_writer] tsfile_writer.rs:299-347: [None] is [Err(IoError)]. *)
Definition writer_new (s : schema) (out : sink) : sink * option writer :=
  match io_new out with
  | (out', Some io) => (out', Some (mkW io (groups_of s) 0 100 s))
  | (out', None) => (out', None)
  end.

(** [reset] tsfile_writer.rs:241-273 *)
Definition writer_reset (w : writer) : writer :=
  mkW (w_io w) (groups_of (w_schema w)) 0 (w_next_check w) (w_schema w).

(** Loop of [flush_all_chunk_groups], tsfile_writer.rs:205-222: processed groups, remaining groups;
    [Some e] is an early return. *)
Fixpoint flush_groups (p : profile) (snap : compressor) (gs : smap group_writer) (io : io_writer)
  : outcome (smap group_writer * io_writer * option tserror) :=
  match gs with
  | [] => Ret ([], io, None)
  | (d, g) :: gs' =>
      match start_chunk_group d io with
      | (io, false) => Ret ((d, g) :: gs', io, Some EIo)                            (* 208 *)
      | (io, true) =>
          let pos := sk_pos (io_out io) in
          let* r := flush_to_filewriter p snap g io in
          let '(g', io, data_size) := r in
          if negb (sk_pos (io_out io) - pos =? data_size) then                      (* 212-216 *)
            Ret ((d, g') :: gs', io, Some (EIllegalState (Some "Bytes written are not as expected!"%string)))
          else
            let io := end_chunk_group io in
            let* r' := flush_groups p snap gs' io in
            let '(gs'', io, e) := r' in
            Ret ((d, g') :: gs'', io, e)
      end
  end.

(** [flush_all_chunk_groups] tsfile_writer.rs:203-226 *)
Definition flush_all (p : profile) (snap : compressor) (w : writer) : outcome (writer * option tserror) :=
  if w_records w >? 0 then
    let* r := flush_groups p snap (w_groups w) (w_io w) in
    let '(gs, io, e) := r in
    let w := mkW io gs (w_records w) (w_next_check w) (w_schema w) in
    match e with
    | Some err => Ret (w, Some err)
    | None => Ret (writer_reset w, None)
    end
  else Ret (w, None).

(** [calculate_mem_size_for_all_groups] tsfile_writer.rs:228-239 *)
Definition mem_size (p : profile) (gs : smap group_writer) : outcome Z :=
  foldM (fun n dg => let* s := gw_mem_size p (snd dg) in arithU p 32 (n + s)) gs 0.

(** [check_memory_size_and_may_flush_chunks] tsfile_writer.rs:170-201 (its result is dropped by all
    callers) *)
Definition check_memory (p : profile) (snap : compressor) (w : writer) : outcome writer :=
  if w_records w >=? w_next_check w then
    let* mem := mem_size p (w_groups w) in
    if mem =? 0 then Panic PDivZero
    else
      let next := wrapU 32 (w_next_check w * CHUNK_GROUP_SIZE_THRESHOLD_BYTE / mem) in
      let w := mkW (w_io w) (w_groups w) (w_records w) next (w_schema w) in
      if mem >? CHUNK_GROUP_SIZE_THRESHOLD_BYTE then
        let* r := flush_all p snap w in Ret (fst r)
      else Ret w
  else Ret w.

(** Answers of API calls. tsfile_writer.rs:123, 137, 158. *)
Inductive answer := AOk | AErr (e : tserror) | AUnit.

(** [TsFileWriter::write] tsfile_writer.rs:131-151 *)
Definition writer_write (p : profile) (snap : compressor) (d m : str) (t : Z) (v : value) (w : writer)
  : outcome (writer * answer) :=
  match sm_get d (w_groups w) with
  | None => Ret (w, AErr (EIllegalState (Some "No Group Writer found"%string)))
  | Some g =>
      let* r := gw_write p snap m t v g in
      let '(g', e) := r in
      let w := mkW (w_io w) (sm_insert d g' (w_groups w)) (w_records w) (w_next_check w) (w_schema w) in
      match e with
      | Some err => Ret (w, AErr err)
      | None =>
          let* rc := arithU p 32 (w_records w + 1) in
          let* w := check_memory p snap (mkW (w_io w) (w_groups w) rc (w_next_check w) (w_schema w)) in
          Ret (w, AOk)
      end
  end.

(** [TsFileWriter::write_many] tsfile_writer.rs:153-168 *)
Definition writer_write_many (p : profile) (snap : compressor) (d : str) (t : Z)
    (values : list (str * value)) (w : writer) : outcome (writer * answer) :=
  match sm_get d (w_groups w) with
  | None => Ret (w, AErr (EIllegalState None))
  | Some g =>
      let* r := gw_write_many p snap t values 0 g in
      let '(g', res) := r in
      let w := mkW (w_io w) (sm_insert d g' (w_groups w)) (w_records w) (w_next_check w) (w_schema w) in
      match res with
      | inr err => Ret (w, AErr err)
      | inl n =>
          let* rc := arithU p 32 (w_records w + n) in
          let* w := check_memory p snap (mkW (w_io w) (w_groups w) rc (w_next_check w) (w_schema w)) in
          Ret (w, AOk)
      end
  end.

(** [TsFileWriter::close] tsfile_writer.rs:123-127 *)
Definition writer_close (p : profile) (snap : compressor) (ord : hash_order) (w : writer)
  : outcome (writer * answer) :=
  let* r := flush_all p snap w in
  let w := fst r in
  let* io := end_file p ord (w_io w) in
  Ret (mkW io (w_groups w) (w_records w) (w_next_check w) (w_schema w), AUnit).

(** API calls; [OpClose] carries the hash-map iteration order of that call. tsfile_writer.rs:123, 131, 153. *)
Inductive op :=
  | OpWrite (d m : str) (t : Z) (v : value)
  | OpWriteMany (d : str) (t : Z) (values : list (str * value))
  | OpClose (ord : hash_order).

(** One call: tsfile_writer.rs:123-168 *)
Definition step (p : profile) (snap : compressor) (w : writer) (o : op) : outcome (writer * answer) :=
  match o with
  | OpWrite d m t v => writer_write p snap d m t v w
  | OpWriteMany d t vs => writer_write_many p snap d t vs w
  | OpClose ord => writer_close p snap ord w
  end.

(** A history of calls and its answers; a panic ends it. Any sequence of tsfile_writer.rs:123-168. *)
Fixpoint run (p : profile) (snap : compressor) (w : writer) (ops : list op)
  : outcome (writer * list answer) :=
  match ops with
  | [] => Ret (w, [])
  | o :: ops' =>
      let* r := step p snap w o in
      let '(w', a) := r in
      let* r' := run p snap w' ops' in
      Ret (fst r', a :: snd r')
  end.

(** Contents of the file. Of [file_io_writer.out], tsfile_writer.rs:108. *)
Definition file_bytes (w : writer) : list byte := sk_data (io_out (w_io w)).
