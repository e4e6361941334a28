(** tsfile-writer-c/rust.py: the Python classes on top of the C interface. Line numbers are those of that
    file. A Python string is the list of its code points. The declarations at lines 8-19 say [int] where
    the library has [u8] and [i64]; it is taken for granted here that small numbers arrive unchanged. *)
From Verif Require Export MFfi.

(** [bytes(s, 'UTF-8')] (Python): the encoder, and the NUL that every bytes object has behind its data;
    [None] is a [UnicodeEncodeError]. Lines 30, 61. *)
Definition py_encode (c : Z) : list byte :=
  if c <? 0x80 then [c]
  else if c <? 0x800 then [Z.lor 0xC0 (Z.shiftr c 6); Z.lor 0x80 (Z.land c 0x3F)]
  else if c <? 0x10000 then [Z.lor 0xE0 (Z.shiftr c 12); Z.lor 0x80 (Z.land (Z.shiftr c 6) 0x3F); Z.lor 0x80 (Z.land c 0x3F)]
  else [Z.lor 0xF0 (Z.shiftr c 18); Z.lor 0x80 (Z.land (Z.shiftr c 12) 0x3F); Z.lor 0x80 (Z.land (Z.shiftr c 6) 0x3F);
        Z.lor 0x80 (Z.land c 0x3F)].
(** Code points that can be encoded, [bytes] at lines 30, 61 *)
Definition py_scalar (c : Z) : bool := in_span 0 0xD7FF c || in_span 0xE000 0x10FFFF c.
(** [bytes(s, 'UTF-8')], lines 30, 61 *)
Definition py_bytes (s : list Z) : option (list byte) :=
  if forallb py_scalar s then Some (flat_map py_encode s ++ [0]) else None.

(** [Schema] objects, lines 34-55: the dictionary of the [VariableHolder] (24-31) and the pointer. *)
Record pyschema := mkPyS { ps_refs : list (list Z * Z); ps_inst : option Z }.
(** [TsFileWriter] objects, lines 58-86. *)
Record pywriter := mkPyW { pw_schema : Z; pw_inst : option Z }.
(** Objects by identity; next identity; next address of a bytes object. Objects of the classes at lines 24-86. *)
Record py := mkPy {
  py_schemas : Z -> option pyschema;
  py_writers : Z -> option pywriter;
  py_objs : nat;
  py_addr : Z }.
(** No objects yet of the classes at lines 24-86 *)
Definition py_new : py := mkPy (fun _ => None) (fun _ => None) 0 1.

(** Calls of the methods at lines 34-86 *)
Inductive pyop :=
  | PySchema (device_id measurement_id : list Z) (data_type encoding compression : Z)   (* constructor, lines 35-38 *)
  | PyFree (schema : Z)                                                                 (* [free], 46-55, also [__exit__] *)
  | PyWriter (filename : list Z) (schema : Z)                                           (* constructor, 59-61 *)
  | PyWrite (writer : Z) (device_id measurement_id : list Z) (timestamp value : Z)      (* [write_int], 69-75 *)
  | PyClose (writer : Z)                                                                (* [close], 77-86, also [__exit__] *)
  | PyForgetWriter (writer : Z)                                                         (* the garbage collector takes an object *)
  | PyForgetSchema (schema : Z).

(** What a Python caller sees; [PyExc] is an exception. Of the methods at lines 34-86. *)
Inductive pyret := PyNone | PyObj (id : Z) | PyExc.

(** [dict] lookup (Python), lines 29, 31 *)
Fixpoint ref_get (n : list Z) (refs : list (list Z * Z)) : option Z :=
  match refs with
  | [] => None
  | (n', a) :: refs' => if str_eqb n n' then Some a else ref_get n refs'
  end.
(** [VariableHolder.get] lines 28-31: calls, next address, dictionary and the address; [None] is an exception. *)
Definition holder_get (n : list Z) (addr : Z) (refs : list (list Z * Z)) : option (list fcall * Z * list (list Z * Z) * Z) :=
  match ref_get n refs with
  | Some a => Some ([], addr, refs, a)
  | None => match py_bytes n with
            | None => None
            | Some raw => Some ([CBuf addr raw], addr + 1, (n, addr) :: refs, addr)
            end
  end.
(** Assignment to an attribute of a [Schema] object, lines 30, 53 *)
Definition set_schema (st : py) (id : Z) (s : option pyschema) (addr : Z) : py :=
  mkPy (upd id s (py_schemas st)) (py_writers st) (py_objs st) addr.
(** Assignment to an attribute of a [TsFileWriter] object, line 84 *)
Definition set_writer (st : py) (id : Z) (w : option pywriter) : py :=
  mkPy (py_schemas st) (upd id w (py_writers st)) (py_objs st) (py_addr st).

(** cffi: an argument declared [int] out of its range raises [OverflowError] (the declarations at lines 13 and 17). *)
Definition c_int (n : Z) : bool := in_span (- 2 ^ 31) (2 ^ 31 - 1) n.

(** A live [TsFileWriter] object refers to the [Schema] object (line 60). *)
Definition referenced (st : py) (id : Z) : bool :=
  existsb (fun i => match py_writers st (Z.of_nat i) with Some w => pw_schema w =? id | None => false end) (seq 0 (py_objs st)).

(** What a method does: actions on the C side, the new objects given the returned pointers, and its result.
    Lines 34-86. *)
Definition py_plan (st : py) (o : pyop) : list fcall * (list Z -> py) * pyret :=
  let fail := ([], fun _ => st, PyExc) in
  match o with
  | PySchema d m dt en co =>
      match holder_get d (py_addr st) [] with
      | None => fail
      | Some (c1, ad, refs, a1) =>
      match holder_get m ad refs with
      | None => fail
      | Some (c2, ad, refs, a2) =>
          if c_int dt && c_int en && c_int co then
            let id := Z.of_nat (py_objs st) in
            (c1 ++ c2 ++ [FSchemaSimple a1 a2 (wrapU 8 dt) (wrapU 8 en) (wrapU 8 co)],
             fun rets => mkPy (upd id (Some (mkPyS refs (Some (last rets 0)))) (py_schemas st)) (py_writers st) (S (py_objs st)) ad,
             PyObj id)
          else fail
      end end
  | PyFree s =>
      match py_schemas st s with
      | Some (mkPyS refs (Some h)) => ([FSchemaFree h], fun _ => set_schema st s (Some (mkPyS refs None)) (py_addr st), PyNone)
      | _ => fail
      end
  | PyWriter n s =>
      match py_bytes n, py_schemas st s with
      | Some raw, Some (mkPyS refs (Some h)) =>
          let id := Z.of_nat (py_objs st) in
          ([CBuf (py_addr st) raw; FWriterNew (py_addr st) h; CFree (py_addr st)],
           fun rets => mkPy (py_schemas st) (upd id (Some (mkPyW s (Some (nth 1 rets 0)))) (py_writers st)) (S (py_objs st)) (py_addr st + 1),
           PyObj id)
      | _, _ => fail
      end
  | PyWrite w d m t v =>
      match py_writers st w with
      | Some (mkPyW s (Some h)) =>
          match py_schemas st s with
          | None => fail
          | Some ps =>
              match holder_get d (py_addr st) (ps_refs ps) with
              | None => fail
              | Some (c1, ad, refs, a1) =>
              match holder_get m ad refs with
              | None => (c1, fun _ => set_schema st s (Some (mkPyS refs (ps_inst ps))) ad, PyExc)
              | Some (c2, ad, refs, a2) =>
                  let st' := set_schema st s (Some (mkPyS refs (ps_inst ps))) ad in
                  if c_int t && c_int v then (c1 ++ c2 ++ [FWriteInt32 h a1 a2 t v], fun _ => st', PyNone)
                  else (c1 ++ c2, fun _ => st', PyExc)
              end end
          end
      | _ => fail
      end
  | PyClose w =>
      match py_writers st w with
      | Some (mkPyW s (Some h)) => ([FClose h], fun _ => set_writer st w (Some (mkPyW s None)), PyNone)
      | _ => fail
      end
  | PyForgetWriter w => ([], fun _ => set_writer st w None, PyNone)
  | PyForgetSchema s =>
      match py_schemas st s with
      | Some ps => if referenced st s then fail
                   else (map (fun r => CFree (snd r)) (ps_refs ps), fun _ => set_schema st s None (py_addr st), PyNone)
      | None => fail
      end
  end.

(** One call of a method, lines 34-86 *)
Definition pystep (p : profile) (snap : compressor) (env : ffi_env) (fs : ffi * py) (o : pyop) : cresult (ffi * py * pyret) :=
  let '(calls, k, ret) := py_plan (snd fs) o in
  let! r := frun p snap env (fst fs) calls in
  CVal (fst r, k (snd r), ret).
(** A session of calls, lines 34-86 *)
Fixpoint pyrun (p : profile) (snap : compressor) (env : ffi_env) (fs : ffi * py) (ops : list pyop) : cresult (ffi * py * list pyret) :=
  match ops with
  | [] => CVal (fst fs, snd fs, [])
  | o :: ops' =>
      let! r := pystep p snap env fs o in
      let! r' := pyrun p snap env (fst r) ops' in
      CVal (fst r', snd r :: snd r')
  end.
