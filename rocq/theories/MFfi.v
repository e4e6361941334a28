(** tsfile-writer-c/src/lib.rs: the C interface of the writer, and tsfile-writer-c/rust.py: the Python
    classes on top of it. Paths in this file are relative to /repo; line numbers without a file name
    are those of tsfile-writer-c/src/lib.rs.

    Memory is seen as far as the interface depends on it: the buffers of the caller, by address, and
    the boxes handed out by [Box::into_raw], by address. Addresses of boxes are not reused. A writer
    refers to names in buffers of the caller ([&'a str]); using a writer while one of these buffers is
    gone or has changed is undefined behaviour (Rust reference, "dangling references"), whether the
    call reads it or not. A panic that reaches an [extern "C"] function ends the process. *)
From Verif Require Export MWriter MSchema.

(** Result of a call through the interface. Of the functions at tsfile-writer-c/src/lib.rs:14-136. *)
Inductive cresult (A : Type) := CVal (a : A) | CAbort | CUndef.
Arguments CVal {A} a.
Arguments CAbort {A}.
Arguments CUndef {A}.
(** Sequencing of statements, e.g. tsfile-writer-c/src/lib.rs:21-46 *)
Definition cbind {A B} (m : cresult A) (f : A -> cresult B) : cresult B :=
  match m with CVal a => f a | CAbort => CAbort | CUndef => CUndef end.
Notation "'let!' x ':=' m 'in' k" := (cbind m (fun x => k))
  (at level 200, x name, m at level 100, k at level 200, right associativity).
(** A panic of the library ends the process. E.g. at tsfile-writer-c/src/lib.rs:42, 74-79. *)
Definition of_outcome {A} (m : outcome A) : cresult A := match m with Ret a => CVal a | Panic _ => CAbort end.

(** Memory as a partial map from addresses. Boxes come and go at tsfile-writer-c/src/lib.rs:46, 55, 72, 85, 133. *)
Definition upd {A} (k : Z) (v : option A) (m : Z -> option A) : Z -> option A :=
  fun x => if x =? k then v else m x.

(** [core::str::from_utf8] (std), through [CStr::to_str], at tsfile-writer-c/src/lib.rs:31, 32, 75, 116, 117. *)
Definition in_span (lo hi b : Z) : bool := (lo <=? b) && (b <=? hi).
(** [core::str::from_utf8] at tsfile-writer-c/src/lib.rs:31, 32, 75, 116, 117 *)
Fixpoint utf8_ok (l : list byte) : bool :=
  match l with
  | [] => true
  | a :: l1 =>
      if in_span 0 0x7F a then utf8_ok l1
      else match l1 with
      | [] => false
      | b :: l2 =>
          if in_span 0xC2 0xDF a then in_span 0x80 0xBF b && utf8_ok l2
          else match l2 with
          | [] => false
          | c :: l3 =>
              if in_span 0xE0 0xEF a then
                in_span (if a =? 0xE0 then 0xA0 else 0x80) (if a =? 0xED then 0x9F else 0xBF) b
                && in_span 0x80 0xBF c && utf8_ok l3
              else match l3 with
              | [] => false
              | d :: l4 =>
                  in_span 0xF0 0xF4 a
                  && in_span (if a =? 0xF0 then 0x90 else 0x80) (if a =? 0xF4 then 0x8F else 0xBF) b
                  && in_span 0x80 0xBF c && in_span 0x80 0xBF d && utf8_ok l4
              end
          end
      end
  end.

(** Names and where they are. The arguments [device_id], [measurement_id] at tsfile-writer-c/src/lib.rs:15-16, 94-95. *)
Definition borrow := (Z * str)%type.
(** A [Schema<'a>] made by [schema_simple]. tsfile-writer-c/src/lib.rs:20, 42. *)
Record ffi_schema := mkFS { fs_schema : schema; fs_borrows : list borrow }.
(** A [TsFileWriter<'a, WriteWrapper<File>>], the name of its file, the names it refers to.
    tsfile-writer-c/src/lib.rs:66, 74-79. *)
Record ffi_writer := mkFW { fw_file : str; fw_borrows : list borrow; fw_writer : writer }.

(** State: buffers of the caller, boxes, files of closed writers (box, name, contents), next address.
    As tsfile-writer-c/src/lib.rs:14-136 use it. *)
Record ffi := mkFfi {
  f_bufs : Z -> option (list byte);
  f_schemas : Z -> option ffi_schema;
  f_writers : Z -> option ffi_writer;
  f_files : list (Z * (str * list byte));
  f_next : Z }.
(** Before the first call of tsfile-writer-c/src/lib.rs:14-136 *)
Definition ffi_new : ffi := mkFfi (fun _ => None) (fun _ => None) (fun _ => None) [] 1.

(** The file system and the hash order, as far as the calls depend on them: does the path have a
    parent, can the file be created, the fault schedule of the new file.
    tsfile-writer/src/writer/tsfile_writer.rs:284-292; the hash order as at writer/mod.rs:510. *)
Record ffi_env := mkEnv { e_parent : str -> bool; e_create : str -> bool; e_sched : str -> nat -> fault; e_order : hash_order }.

(** [TsFileWriter::new] tsfile-writer/src/writer/tsfile_writer.rs:278-296; [None] is [Err(_)]. The result of
    [create_dir_all] is dropped there. *)
Definition file_new (env : ffi_env) (name : str) (s : schema) : outcome (option writer) :=
  if negb (e_parent env name) then Ret None
  else if negb (e_create env name) then Panic PUnwrap
  else Ret (snd (writer_new s (sink_new (e_sched env name)))).

(** [CStr::from_ptr] (std): the bytes before the first NUL; no NUL in the buffer: out of bounds.
    tsfile-writer-c/src/lib.rs:24, 29, 70, 105, 110. *)
Fixpoint until_nul (l : list byte) : option str :=
  match l with
  | [] => None
  | b :: l' => if b =? 0 then Some [] else option_map (cons b) (until_nul l')
  end.
(** [assert!(!p.is_null()); CStr::from_ptr(p)], lines 21-25, 26-30, 67-71, 102-106, 107-111 *)
Definition c_str (bufs : Z -> option (list byte)) (a : Z) : cresult str :=
  if a =? 0 then CAbort
  else match bufs a with
  | None => CUndef
  | Some raw => match until_nul raw with None => CUndef | Some s => CVal s end
  end.
(** [to_str().unwrap()], lines 31, 32, 75, 116, 117 *)
Definition to_str (s : str) : cresult str := if utf8_ok s then CVal s else CAbort.
(** [try_into().expect(..)], lines 34-40 *)
Definition expect {A} (o : option A) : cresult A := match o with Some a => CVal a | None => CAbort end.

(** The buffers still hold the names. The lifetime of the names kept at tsfile-writer-c/src/lib.rs:42, 114-120. *)
Definition intact (bufs : Z -> option (list byte)) (bs : list borrow) : bool :=
  forallb (fun b => match bufs (fst b) with
                    | None => false
                    | Some raw => str_eqb (firstn (length (snd b)) raw) (snd b)
                    end) bs.

(** What a caller does: fill a buffer, free it, call one of the five functions.
    tsfile-writer-c/src/lib.rs:14, 53, 63, 92, 131. *)
Inductive fcall :=
  | CBuf (a : Z) (raw : list byte)
  | CFree (a : Z)
  | FSchemaSimple (device_id measurement_id data_type encoding compression : Z)
  | FSchemaFree (schema : Z)
  | FWriterNew (filename schema : Z)
  | FWriteInt32 (writer device_id measurement_id timestamp number : Z)
  | FClose (writer : Z).

(** [schema_simple] lines 14-47 *)
Definition ffi_schema_simple (st : ffi) (da ma dt en co : Z) : cresult (ffi * Z) :=
  let! d := c_str (f_bufs st) da in
  let! m := c_str (f_bufs st) ma in
  let! d := to_str d in
  let! m := to_str m in
  let! dt := expect (dtype_of_code dt) in
  let! en := expect (encoding_of_code en) in
  let! co := expect (compression_of_code co) in
  let! s := of_outcome (schema_simple d m dt en co) in
  CVal (mkFfi (f_bufs st) (upd (f_next st) (Some (mkFS s [(da, d); (ma, m)])) (f_schemas st)) (f_writers st) (f_files st)
          (f_next st + 1), f_next st).

(** [schema_free] lines 53-57 *)
Definition ffi_schema_free (st : ffi) (h : Z) : cresult (ffi * Z) :=
  if h =? 0 then CVal (st, 0)
  else match f_schemas st h with
  | None => CUndef
  | Some _ => CVal (mkFfi (f_bufs st) (upd h None (f_schemas st)) (f_writers st) (f_files st) (f_next st), 0)
  end.

(** [file_writer_new] lines 63-86 *)
Definition ffi_writer_new (env : ffi_env) (st : ffi) (na h : Z) : cresult (ffi * Z) :=
  let! n := c_str (f_bufs st) na in
  match f_schemas st h with
  | None => CUndef
  | Some s =>
      if negb (intact (f_bufs st) (fs_borrows s)) then CUndef
      else
        let! n := to_str n in
        let! w := of_outcome (file_new env n (fs_schema s)) in
        let! w := expect w in
        CVal (mkFfi (f_bufs st) (f_schemas st) (upd (f_next st) (Some (mkFW n (fs_borrows s) w)) (f_writers st)) (f_files st)
                (f_next st + 1), f_next st)
  end.

(** Is the name not yet a key of [last_time_map]? Then the call puts it there, with the address it was
    given: tsfile-writer/src/writer/group_writer.rs:109-110. *)
Definition keeps_name (w : writer) (d m : str) : bool :=
  match sm_get d (w_groups w) with
  | Some g => match sm_get m (gw_last g) with None => true | Some _ => false end
  | None => false
  end.

(** [file_writer_write_int32] lines 92-125 *)
Definition ffi_write_int32 (p : profile) (snap : compressor) (st : ffi) (h da ma t n : Z) : cresult (ffi * Z) :=
  if h =? 0 then CAbort
  else
    let! d := c_str (f_bufs st) da in
    let! m := c_str (f_bufs st) ma in
    match f_writers st h with
    | None => CUndef
    | Some fw =>
        if negb (intact (f_bufs st) (fw_borrows fw)) then CUndef
        else
          let! d := to_str d in
          let! m := to_str m in
          let! r := of_outcome (writer_write p snap d m t (VInt n) (fw_writer fw)) in
          match snd r with
          | AErr _ => CAbort
          | _ =>
              let bs := if keeps_name (fw_writer fw) d m then (ma, m) :: fw_borrows fw else fw_borrows fw in
              CVal (mkFfi (f_bufs st) (f_schemas st) (upd h (Some (mkFW (fw_file fw) bs (fst r))) (f_writers st)) (f_files st)
                      (f_next st), h)
          end
    end.

(** [file_writer_close] lines 131-136 *)
Definition ffi_close (p : profile) (snap : compressor) (env : ffi_env) (st : ffi) (h : Z) : cresult (ffi * Z) :=
  if h =? 0 then CVal (st, 0)
  else match f_writers st h with
  | None => CUndef
  | Some fw =>
      if negb (intact (f_bufs st) (fw_borrows fw)) then CUndef
      else
        let! r := of_outcome (writer_close p snap (e_order env) (fw_writer fw)) in
        CVal (mkFfi (f_bufs st) (f_schemas st) (upd h None (f_writers st))
                (f_files st ++ [(h, (fw_file fw, file_bytes (fst r)))]) (f_next st), 0)
  end.

(** One action of the caller; the number is the pointer returned, 0 if there is none.
    tsfile-writer-c/src/lib.rs:14-136. *)
Definition fstep (p : profile) (snap : compressor) (env : ffi_env) (st : ffi) (c : fcall) : cresult (ffi * Z) :=
  match c with
  | CBuf a raw => CVal (mkFfi (upd a (Some raw) (f_bufs st)) (f_schemas st) (f_writers st) (f_files st) (f_next st), 0)
  | CFree a => CVal (mkFfi (upd a None (f_bufs st)) (f_schemas st) (f_writers st) (f_files st) (f_next st), 0)
  | FSchemaSimple d m dt en co => ffi_schema_simple st d m dt en co
  | FSchemaFree h => ffi_schema_free st h
  | FWriterNew n h => ffi_writer_new env st n h
  | FWriteInt32 h d m t n => ffi_write_int32 p snap st h d m t n
  | FClose h => ffi_close p snap env st h
  end.

(** A session: final state and returned pointers. Any sequence of calls of tsfile-writer-c/src/lib.rs:14-136. *)
Fixpoint frun (p : profile) (snap : compressor) (env : ffi_env) (st : ffi) (calls : list fcall)
  : cresult (ffi * list Z) :=
  match calls with
  | [] => CVal (st, [])
  | c :: calls' =>
      let! r := fstep p snap env st c in
      let! r' := frun p snap env (fst r) calls' in
      CVal (fst r', snd r :: snd r')
  end.
