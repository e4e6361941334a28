(** Specification side of the C interface. *)
From Verif Require Export SHist MFfi.

(** UTF-8 (The Unicode Standard, 3.9): scalar values and their encoding. *)
Definition scalar (c : Z) : Prop := 0 <= c < 0xD800 \/ 0xE000 <= c <= 0x10FFFF.
Definition utf8_encode (c : Z) : list Z :=
  if c <? 0x80 then [c]
  else if c <? 0x800 then [0xC0 + c / 64; 0x80 + c mod 64]
  else if c <? 0x10000 then [0xE0 + c / 4096; 0x80 + c / 64 mod 64; 0x80 + c mod 64]
  else [0xF0 + c / 262144; 0x80 + c / 4096 mod 64; 0x80 + c / 64 mod 64; 0x80 + c mod 64].
Definition utf8 (cs : list Z) : list Z := flat_map utf8_encode cs.

(** Valid text. *)
Definition is_text (l : list Z) : Prop := exists cs, Forall scalar cs /\ l = utf8 cs.

(** The name in a buffer: what stands before the first NUL. *)
Fixpoint before_nul (l : list Z) : list Z :=
  match l with [] => [] | b :: l' => if b =? 0 then [] else b :: before_nul l' end.
Definition name_at (bufs : Z -> option (list Z)) (a : Z) : list Z :=
  match bufs a with Some raw => before_nul raw | None => [] end.
Definition bufs_after (bufs : Z -> option (list Z)) (c : fcall) : Z -> option (list Z) :=
  match c with
  | CBuf a raw => fun x => if x =? a then Some raw else bufs x
  | CFree a => fun x => if x =? a then None else bufs x
  | _ => bufs
  end.
(** The points that the calls of a session write through the pointer [h]. *)
Fixpoint written (h : Z) (bufs : Z -> option (list Z)) (calls : list fcall) : list point :=
  match calls with
  | [] => []
  | FWriteInt32 h' d m t n :: r =>
      (if h' =? h then [mkPoint (name_at bufs d) (name_at bufs m) t (VInt n)] else []) ++ written h bufs r
  | c :: r => written h (bufs_after bufs c) r
  end.
Definition no_bufs : Z -> option (list Z) := fun _ => None.
Definition op_of (q : point) : op := OpWrite (pt_device q) (pt_name q) (pt_time q) (pt_value q).

(** Arguments in the range of their C types, buffers shorter than 2^31 bytes. *)
Definition call_ok (c : fcall) : Prop :=
  match c with
  | CBuf _ raw => zlen raw < 2 ^ 31
  | FWriteInt32 _ _ _ t n => - 2 ^ 63 <= t < 2 ^ 63 /\ - 2 ^ 31 <= n < 2 ^ 31
  | _ => True
  end.

(** A polite caller. It keeps track of its buffers and of the pointers it got; with each pointer, the
    buffers that must stay: those named in [schema_simple] and, for a writer, the measurement of every write. *)
Record caller := mkCaller {
  a_bufs : Z -> option (list Z);
  a_schemas : Z -> option (list Z);
  a_writers : Z -> option (list Z) }.
Definition caller_new : caller := mkCaller no_bufs (fun _ => None) (fun _ => None).
(** A pointer to a NUL-terminated buffer, or the null pointer. *)
Definition good_string (k : caller) (a : Z) : Prop := a = 0 \/ exists raw, a_bufs k a = Some raw /\ In 0 raw.
(** No pointer needs the buffer. *)
Definition unneeded (k : caller) (a : Z) : Prop :=
  (forall h l, a_schemas k h = Some l -> ~ In a l) /\ (forall h l, a_writers k h = Some l -> ~ In a l).
Definition polite (k : caller) (c : fcall) : Prop :=
  match c with
  | CBuf a _ => unneeded k a
  | CFree a => unneeded k a
  | FSchemaSimple d m _ _ _ => good_string k d /\ good_string k m
  | FSchemaFree h => h = 0 \/ a_schemas k h <> None
  | FWriterNew n h => good_string k n /\ a_schemas k h <> None
  | FWriteInt32 h d m _ _ => good_string k d /\ good_string k m /\ (h = 0 \/ a_writers k h <> None)
  | FClose h => h = 0 \/ a_writers k h <> None
  end.
(** What the caller notes when the call returns [r]. *)
Definition noted (k : caller) (c : fcall) (r : Z) : caller :=
  match c with
  | CBuf _ _ | CFree _ => mkCaller (bufs_after (a_bufs k) c) (a_schemas k) (a_writers k)
  | FSchemaSimple d m _ _ _ => mkCaller (a_bufs k) (upd r (Some [d; m]) (a_schemas k)) (a_writers k)
  | FSchemaFree h => mkCaller (a_bufs k) (upd h None (a_schemas k)) (a_writers k)
  | FWriterNew n h => mkCaller (a_bufs k) (a_schemas k) (upd r (a_schemas k h) (a_writers k))
  | FWriteInt32 h d m _ _ => mkCaller (a_bufs k) (a_schemas k) (upd h (option_map (cons m) (a_writers k h)) (a_writers k))
  | FClose h => mkCaller (a_bufs k) (a_schemas k) (upd h None (a_writers k))
  end.
(** The same, for a caller that takes the names given to a write for arguments of that call only. *)
Definition noted_schema (k : caller) (c : fcall) (r : Z) : caller :=
  match c with FWriteInt32 _ _ _ _ _ => k | _ => noted k c r end.
Fixpoint polite_session (note : caller -> fcall -> Z -> caller) (k : caller) (calls : list fcall) (rets : list Z) (next : fcall) : Prop :=
  match calls, rets with
  | [], [] => polite k next
  | c :: calls', r :: rets' => polite k c /\ polite_session note (note k c r) calls' rets' next
  | _, _ => False
  end.

(** The series named in a call of [schema_simple], with the codes for type, encoding and compression. *)
Record request := mkRequest { rq_device : list Z; rq_name : list Z; rq_type : Z; rq_encoding : Z; rq_compression : Z }.
(** The caller's buffers, what each schema pointer stands for, and file name and series of each writer pointer. *)
Record requests := mkRequests { k_bufs : Z -> option (list Z); k_schemas : Z -> option request; k_writers : Z -> option (list Z * request) }.
Definition requests_new : requests := mkRequests no_bufs (fun _ => None) (fun _ => None).
(** After a call that returned [r]. *)
Definition asks (k : requests) (cr : fcall * Z) : requests :=
  let '(c, r) := cr in
  match c with
  | CBuf _ _ | CFree _ => mkRequests (bufs_after (k_bufs k) c) (k_schemas k) (k_writers k)
  | FSchemaSimple d m ty en co =>
      mkRequests (k_bufs k) (fun x => if x =? r then Some (mkRequest (name_at (k_bufs k) d) (name_at (k_bufs k) m) ty en co) else k_schemas k x) (k_writers k)
  | FWriterNew n h =>
      mkRequests (k_bufs k) (k_schemas k) (fun x => if x =? r then option_map (fun q => (name_at (k_bufs k) n, q)) (k_schemas k h) else k_writers k x)
  | _ => k
  end.
Definition asked (calls : list fcall) (rets : list Z) : requests := fold_left asks (combine calls rets) requests_new.

(** The schema that a request stands for. *)
Definition stands_for (q : request) (sc : schema) : Prop := exists ty en co,
  In (rq_type q, ty) [(1, INT32); (2, INT64); (3, FLOAT)] /\ In (rq_encoding q, en) [(0, PLAIN); (4, TS2DIFF)] /\
  In (rq_compression q, co) [(0, UNCOMPRESSED); (1, SNAPPY)] /\ sc = [(rq_device q, [(rq_name q, mkMS ty en co)])].
