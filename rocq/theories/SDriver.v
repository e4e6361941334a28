(** Specification side: how a user drives the modelled API (no behaviour of its own). *)
From Verif Require Export MEnc.

(** A fresh TS_2DIFF encoder fed with [vs] and serialized once
    ([LongTs2DiffEncoder::new] / [IntTs2DiffEncoder::new], [write]*, [serialize]). *)
Definition ts2_write_all (p : profile) (k : ts2kind) (vs : list Z) (e : ts2) : outcome ts2 :=
  foldM (fun e v => ts2_write p k v e) vs e.
Definition ts2_encode (p : profile) (k : ts2kind) (vs : list Z) : outcome (list Z) :=
  let* e := ts2_write_all p k vs (ts2_new k) in
  let* r := ts2_serialize p k e in Ret (snd r).

(** [Encoder::new], [write]*, [serialize]; [None]: one of the calls returned an error. *)
Definition encoder_write_all (p : profile) (vs : list value) (e : encoder) : outcome (option encoder) :=
  foldM (fun s v => match s with
                    | None => Ret None
                    | Some e => let* r := encoder_write p v e in
                                Ret (match snd r with None => Some (fst r) | Some _ => None end)
                    end) vs (Some e).
Definition encode_column (p : profile) (dt : dtype) (enc : encoding) (vs : list value)
  : outcome (option (list Z)) :=
  match encoder_new dt enc with
  | inr _ => Ret None
  | inl e =>
      let* s := encoder_write_all p vs e in
      match s with
      | None => Ret None
      | Some e => let* r := encoder_serialize p e in Ret (Some (snd r))
      end
  end.

(** Values of a column type: type match and machine range. FLOAT carries any 32-bit pattern. *)
Definition value_ok (dt : dtype) (v : value) : Prop :=
  match dt, v with
  | INT32, VInt n => - 2 ^ 31 <= n < 2 ^ 31
  | INT64, VLong n => - 2 ^ 63 <= n < 2 ^ 63
  | FLOAT, VFloat b => 0 <= b < 2 ^ 32
  | _, _ => False
  end.
(** The number a reader sees (integers, or the float's bit pattern). *)
Definition value_num (v : value) : Z :=
  match v with VDouble b => b | VFloat b => b | VInt n => n | VLong n => n end.
