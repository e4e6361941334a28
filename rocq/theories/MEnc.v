(** writer/encoding: TS_2DIFF and PLAIN encoders. *)
From Verif Require Export MFloat.

(** The two instances of the macro [ts2diff_encoder!], writer/encoding/time_encoder.rs:171-172. *)
Inductive ts2kind := KLong | KInt.
(** [$num_bits] time_encoder.rs:171-172 *)
Definition kbits (k : ts2kind) : Z := match k with KLong => 64 | KInt => 32 end.
(** Bytes of [to_be_bytes] at time_encoder.rs:141-144 *)
Definition kbytes (k : ts2kind) : nat := match k with KLong => 8%nat | KInt => 4%nat end.
(** [<$type>::MAX] time_encoder.rs:82-83, 93-94 *)
Definition kmax (k : ts2kind) : Z := 2 ^ (kbits k - 1) - 1.

(** Fields of the encoder, time_encoder.rs:30-36. *)
Record ts2 := mkTs2 {
  t_first : option Z;
  t_min : Z;
  t_prev : Z;
  t_values : list Z;
  t_buf : list byte }.

(** [new] time_encoder.rs:90-98 *)
Definition ts2_new (k : ts2kind) : ts2 := mkTs2 None (kmax k) (kmax k) [] [].

(** [Vec::resize(n, 0)] (std): truncate or pad. time_encoder.rs:202, 244 *)
Definition vec_resize (l : list byte) (n : nat) : list byte :=
  firstn n l ++ repeat 0 (n - length l).
(** [v[i] = x] for an index in range, time_encoder.rs:206, 247; writer/mod.rs:688 *)
Fixpoint vec_set {A} (l : list A) (i : nat) (x : A) : list A :=
  match l, i with
  | [], _ => []
  | _ :: l', O => x :: l'
  | y :: l', S j => y :: vec_set l' j x
  end.

(** Loop body shared shape: returns the index in range or panics ([result[index]]). time_encoder.rs:204, 247 *)
Definition vec_get {A} (l : list A) (i : nat) : outcome A :=
  match nth_error l i with Some x => Ret x | None => Panic PIndex end.

(** [LongTs2DiffEncoder::to_bytes], loop, time_encoder.rs:182-218. [cnt], [my_width] are [u8];
    the dead variable [my_number] (lines 181, 207-212) is dropped. The mask loops
    195-198 build [2^k - 1]. Fuel: the width decreases in every round. *)
Fixpoint to_bytes_long_loop (fuel : nat) (number : Z) (result : list byte)
    (cnt : Z) (index : nat) (my_width : Z) : outcome (list byte) :=
  match fuel with
  | O => if my_width >? 0 then Panic PFuel else Ret result
  | S f =>
      if my_width >? 0 then
        let m := if my_width + cnt >=? 8 then 8 - cnt else my_width in
        let my_width := my_width - m in
        let old_count := cnt in
        let cnt := cnt + m in
        let y := wrapU 8 (Z.shiftr number my_width) in
        let y := wrapU 8 (Z.shiftl y (8 - cnt)) in
        let new_mask := wrapU 8 (Z.lnot (Z.ones (8 - old_count))) in
        let result := if (index <=? length result)%nat then vec_resize result (S index) else result in
        let* cur := vec_get result index in
        let result := vec_set result index (Z.lor (Z.land cur new_mask) y) in
        if cnt =? 8 then to_bytes_long_loop f number result 0 (S index) my_width
        else to_bytes_long_loop f number result cnt index my_width
      else Ret result
  end.
(** [LongTs2DiffEncoder::to_bytes] time_encoder.rs:176-219 *)
Definition to_bytes_long (number : Z) (result : list byte) (pos : Z) (width : Z)
  : outcome (list byte) :=
  to_bytes_long_loop (Z.to_nat (wrapU 8 width)) number result
    (Z.land pos 7) (Z.to_nat (Z.shiftr pos 3)) (wrapU 8 width).

(** [IntTs2DiffEncoder::to_bytes], loop, time_encoder.rs:230-253. [mask] is an [i32],
    [mask as u8] keeps the low byte. *)
Fixpoint to_bytes_int_loop (fuel : nat) (my_number : Z) (result : list byte)
    (cnt : Z) (index : nat) (my_width : Z) : outcome (list byte) :=
  match fuel with
  | O => if my_width >? 0 then Panic PFuel else Ret result
  | S f =>
      if my_width >? 0 then
        let m := if my_width + cnt >=? 8 then 8 - cnt else my_width in
        let my_width := my_width - m in
        let mask := Z.shiftl 1 (8 - cnt) in
        let cnt := cnt + m in
        let y := wrapU 8 (Z.shiftr my_number my_width) in
        let y := wrapU 8 (Z.shiftl y (8 - cnt)) in
        let mask := Z.lnot (mask - Z.shiftl 1 (8 - cnt)) in
        let result := if (index <=? length result)%nat then vec_resize result (S index) else result in
        let* cur := vec_get result index in
        let result := vec_set result index (Z.lor (Z.land cur (wrapU 8 mask)) y) in
        let my_number := Z.land my_number (Z.lnot (wrapS 32 (Z.shiftl (-1) my_width))) in
        if cnt =? 8 then to_bytes_int_loop f my_number result 0 (S index) my_width
        else to_bytes_int_loop f my_number result cnt index my_width
      else Ret result
  end.
(** [IntTs2DiffEncoder::to_bytes] time_encoder.rs:223-254 *)
Definition to_bytes_int (number : Z) (result : list byte) (pos : Z) (width : Z)
  : outcome (list byte) :=
  to_bytes_int_loop (Z.to_nat (wrapU 8 width)) number result
    (Z.land pos 7) (Z.to_nat (Z.shiftr pos 3)) (wrapU 8 width).

(** The [to_bytes] of the two instances, time_encoder.rs:176, 223 *)
Definition to_bytes (k : ts2kind) :=
  match k with KLong => to_bytes_long | KInt => to_bytes_int end.

(** [get_value_width] time_encoder.rs:100-102: [bits - leading_zeros(v)], i.e. the bit length of the
    two's complement pattern of [v]. *)
Definition get_value_width (k : ts2kind) (v : Z) : Z :=
  let u := wrapU (kbits k) v in if u =? 0 then 0 else Z.log2 u + 1.

(** [calculate_bit_widths_for_delta_block_buffer] time_encoder.rs:104-117 *)
Definition calc_width (k : ts2kind) (l : list Z) : Z :=
  fold_left (fun w v => Z.max w (get_value_width k v)) l 0.

(** Packing loop of [flush], time_encoder.rs:148-156: element [i] at bit [i * width]. *)
Fixpoint pack_loop (k : ts2kind) (width : Z) (i : Z) (l : list Z) (payload : list byte)
  : outcome (list byte) :=
  match l with
  | [] => Ret payload
  | v :: l' =>
      let* payload' := to_bytes k v payload (i * width) width in
      pack_loop k width (i + 1) l' payload'
  end.

(** [flush] time_encoder.rs:119-166 *)
Definition ts2_flush (p : profile) (k : ts2kind) (e : ts2) : outcome ts2 :=
  match t_first e with
  | None => Ret e
  | Some first =>
      let* deltas := mapM (fun d => arithS p (kbits k) (d - t_min e)) (t_values e) in
      let width := calc_width k deltas in
      let* payload := pack_loop k width 0 deltas [] in
      Ret {| t_first := None;
             t_min := kmax k;
             t_prev := 0;
             t_values := [];
             t_buf := t_buf e
                      ++ be_bytes 4 (wrapU 32 (zlen (t_values e)))
                      ++ be_bytes 4 (wrapU 32 width)
                      ++ be_bytes (kbytes k) (t_min e)
                      ++ be_bytes (kbytes k) first
                      ++ payload |}
  end.

(** [write] after the type conversion, time_encoder.rs:41-61 *)
Definition ts2_write (p : profile) (k : ts2kind) (value : Z) (e : ts2) : outcome ts2 :=
  let* e' :=
    match t_first e with
    | None => Ret {| t_first := Some value; t_min := t_min e; t_prev := value;
                     t_values := t_values e; t_buf := t_buf e |}
    | Some _ =>
        let* delta := arithS p (kbits k) (value - t_prev e) in
        Ret {| t_first := t_first e;
               t_min := if delta <? t_min e then delta else t_min e;
               t_prev := value;
               t_values := t_values e ++ [delta];
               t_buf := t_buf e |}
    end in
  if zlen (t_values e') =? 128 then ts2_flush p k e' else Ret e'.

(** [size] time_encoder.rs:64-66 *)
Definition ts2_size (e : ts2) : Z := wrapU 32 (zlen (t_buf e)).
(** [get_max_byte_size] time_encoder.rs:67-70 *)
Definition ts2_max_byte_size (k : ts2kind) (e : ts2) : Z :=
  wrapU 32 (24 + zlen (t_values e) * kbits k / 8).
(** [serialize] time_encoder.rs:72-77: flush, then the bytes copied out. *)
Definition ts2_serialize (p : profile) (k : ts2kind) (e : ts2) : outcome (ts2 * list byte) :=
  let* e' := ts2_flush p k e in Ret (e', t_buf e').
(** [reset] time_encoder.rs:79-86 *)
Definition ts2_reset (k : ts2kind) (e : ts2) : ts2 := mkTs2 None (kmax k) (kmax k) [] [].

(** [Box<dyn Encoder>]: the three implementations. PLAIN keeps its data type,
    writer/encoding/plain.rs:7-10. *)
Inductive encoder :=
  | EncPlain (dt : dtype) (buf : list byte)
  | EncTs2 (k : ts2kind) (e : ts2).

(** [Encoder::new] writer/encoding/mod.rs:47-57 *)
Definition encoder_new (dt : dtype) (enc : encoding) : encoder + tserror :=
  match dt, enc with
  | _, PLAIN => inl (EncPlain dt [])
  | INT64, TS2DIFF => inl (EncTs2 KLong (ts2_new KLong))
  | INT32, TS2DIFF => inl (EncTs2 KInt (ts2_new KInt))
  | FLOAT, TS2DIFF => inr EEncoding
  end.

(** Bytes appended by [PlainEncoder::write], writer/encoding/plain.rs:22-38. *)
Definition plain_bytes (v : value) : list byte :=
  match v with
  | VDouble b => be_bytes 8 b
  | VFloat b => be_bytes 4 b
  | VInt n => wbytes (write_var_i32 n)
  | VLong n => be_bytes 8 n
  end.

(** [TryFrom<&IoTDBValue> for i64 / i32] time_encoder.rs:6-26 *)
Definition as_kind (k : ts2kind) (v : value) : option Z :=
  match k, v with
  | KLong, VLong n => Some n
  | KInt, VInt n => Some n
  | _, _ => None
  end.

(** [Encoder::write]: plain.rs:22-38, time_encoder.rs:39-62; the second component is the error. *)
Definition encoder_write (p : profile) (v : value) (e : encoder) : outcome (encoder * option tserror) :=
  match e with
  | EncPlain dt buf => Ret (EncPlain dt (buf ++ plain_bytes v), None)
  | EncTs2 k t =>
      match as_kind k v with
      | None => Ret (e, Some EWrongType)
      | Some n => let* t' := ts2_write p k n t in Ret (EncTs2 k t', None)
      end
  end.

(** [Encoder::size] plain.rs:40-42, time_encoder.rs:64-66 *)
Definition encoder_size (e : encoder) : Z :=
  match e with
  | EncPlain _ buf => wrapU 32 (zlen buf)
  | EncTs2 _ t => ts2_size t
  end.
(** [Encoder::get_max_byte_size] plain.rs:44-50, time_encoder.rs:67-70 *)
Definition encoder_max_byte_size (e : encoder) : Z :=
  match e with
  | EncPlain INT32 buf => wrapU 32 (24 + zlen buf)
  | EncPlain INT64 _ => 0
  | EncPlain FLOAT _ => 0
  | EncTs2 k t => ts2_max_byte_size k t
  end.
(** [Encoder::serialize] plain.rs:51-53 (a [Vec] accepts the whole [write]), time_encoder.rs:72-77 *)
Definition encoder_serialize (p : profile) (e : encoder) : outcome (encoder * list byte) :=
  match e with
  | EncPlain dt buf => Ret (e, buf)
  | EncTs2 k t => let* r := ts2_serialize p k t in Ret (EncTs2 k (fst r), snd r)
  end.
(** [Encoder::reset] plain.rs:55-57, time_encoder.rs:79-86 *)
Definition encoder_reset (e : encoder) : encoder :=
  match e with
  | EncPlain dt _ => EncPlain dt []
  | EncTs2 k t => EncTs2 k (ts2_reset k t)
  end.
