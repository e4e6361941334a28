(** writer/utils.rs and [write_str]. *)
From Verif Require Export MSink.

(** Loop of [write_var_u32], writer/utils.rs:10-16. [position] is the returned count. The
    fuel 5 is enough for a [u32] (proved); running out of fuel would write nothing. *)
Fixpoint write_var_loop (fuel : nat) (number position : Z) : wprog * Z :=
  match fuel with
  | O => (WNil, 0)
  | S f =>
      if negb (Z.land number 0xFFFFFF80 =? 0) then
        let '(w, pos) := write_var_loop f (Z.shiftr number 7) (position + 1) in
        (WThen (WAll [Z.lor (Z.land number 0x7F) 0x80]) w, pos)
      else
        (WThen (WAll [Z.land number 0x7F]) WNil, position)
  end.

(** [write_var_u32] writer/utils.rs:4-19 *)
Definition write_var_u32 (num : Z) : wprog := fst (write_var_loop 5 num 1).
(** its [Ok] value, writer/utils.rs:18 *)
Definition write_var_u32_ret (num : Z) : Z := snd (write_var_loop 5 num 1).

(** [size_var_u32] writer/utils.rs:29-37 *)
Fixpoint size_var_loop (fuel : nat) (value position : Z) : Z :=
  match fuel with
  | O => 0
  | S f =>
      if negb (Z.land value 0xFFFFFF80 =? 0)
      then size_var_loop f (Z.shiftr value 7) (position + 1)
      else position
  end.
(** [size_var_u32] writer/utils.rs:29-37 *)
Definition size_var_u32 (num : Z) : Z := size_var_loop 5 num 1.

(** [num << 1], bitwise not if negative, [as u32]: writer/utils.rs:22-26 and 40-44. *)
Definition zigzag_u32 (num : Z) : Z :=
  let u_value := wrapS 32 (Z.shiftl num 1) in
  let u_value := if num <? 0 then Z.lnot u_value else u_value in
  wrapU 32 u_value.

(** [size_var_i32] writer/utils.rs:21-27 *)
Definition size_var_i32 (num : Z) : Z := size_var_u32 (zigzag_u32 num).

(** [write_var_i32] writer/utils.rs:39-45 *)
Definition write_var_i32 (num : Z) : wprog := write_var_u32 (zigzag_u32 num).

(** [read_byte] writer/utils.rs:48-52 ([None]: end of input, an [Err]). *)
Definition read_byte (b : list byte) : option (byte * list byte) :=
  match b with [] => None | x :: b' => Some (x, b') end.

(** [read_var_u32] writer/utils.rs:55-65; [value: u32], [i: u8].  [<< i] with [i >= 32] panics in
    debug builds and masks the amount in release builds; [i += 7] overflows [u8] likewise.
    The loop consumes a byte per round, so the input length is enough fuel. *)
Definition shl_u32 (p : profile) (v i : Z) : outcome Z :=
  if i <? 32 then Ret (wrapU 32 (Z.shiftl v i))
  else match p with Debug => Panic POverflow | Release => Ret (wrapU 32 (Z.shiftl v (i mod 32))) end.
(** Loop of [read_var_u32], writer/utils.rs:59-64 *)
Fixpoint read_var_loop (p : profile) (fuel : nat) (value i b : Z) (rest : list byte)
  : outcome (option (Z * list byte)) :=
  match fuel with
  | O => Panic PFuel
  | S f =>
      if negb (b =? 255) && negb (Z.land b 0x80 =? 0) then
        let* sh := shl_u32 p (Z.land b 0x7F) i in
        let value' := Z.lor value sh in
        let* i' := arithU p 8 (i + 7) in
        match read_byte rest with
        | None => Ret None
        | Some (b', rest') => read_var_loop p f value' i' b' rest'
        end
      else
        let* sh := shl_u32 p b i in
        Ret (Some (Z.lor value sh, rest))
  end.
(** [read_var_u32] writer/utils.rs:55-65 *)
Definition read_var_u32 (p : profile) (input : list byte) : outcome (option (Z * list byte)) :=
  match read_byte input with
  | None => Ret None
  | Some (b, rest) => read_var_loop p (S (length rest)) 0 0 b rest
  end.

(** [write_str] writer/mod.rs:852-858 ([len as i32] wraps). *)
Definition write_str (s : str) : wprog :=
  WThen (write_var_i32 (wrapS 32 (zlen s))) (WThen (WAll s) WNil).
