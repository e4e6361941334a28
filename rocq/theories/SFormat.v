(** Specification side: readers of the TsFile byte formats, written independently of the model. They
    only use [Z] and lists. A parser returns the value read and the unread rest. *)
From Coq Require Import ZArith List Bool.
Import ListNotations.
Open Scope Z_scope.

Definition parser (A : Type) := list Z -> option (A * list Z).

(** Number with the given big-endian base-256 digits. *)
Definition be_val (l : list Z) : Z := fold_left (fun a b => a * 256 + b) l 0.

(** Reduction to a signed [n]-bit integer (two's complement). *)
Definition sgn (n v : Z) : Z := (v + 2 ^ (n - 1)) mod 2 ^ n - 2 ^ (n - 1).

(** The first [n] bytes. *)
Definition take (n : Z) : parser (list Z) := fun l =>
  if (0 <=? n) && (n <=? Z.of_nat (length l))
  then Some (firstn (Z.to_nat n) l, skipn (Z.to_nat n) l) else None.

(** Fixed-width big-endian integers of [n] bytes. *)
Definition be_unsigned (n : Z) : parser Z := fun l =>
  match take n l with Some (h, r) => Some (be_val h, r) | None => None end.
Definition be_signed (n : Z) : parser Z := fun l =>
  match take n l with Some (h, r) => Some (sgn (8 * n) (be_val h), r) | None => None end.

(** Unsigned LEB128. *)
Fixpoint leb128 (l : list Z) : option (Z * list Z) :=
  match l with
  | [] => None
  | b :: l' =>
      if b <? 128 then Some (b, l')
      else match leb128 l' with
           | Some (n, r) => Some ((b - 128) + 128 * n, r)
           | None => None
           end
  end.

(** Zig-zag code: 0, -1, 1, -2, 2, ... *)
Definition unzigzag (u : Z) : Z := if Z.even u then u / 2 else - ((u + 1) / 2).
Definition leb128_signed : parser Z := fun l =>
  match leb128 l with Some (u, r) => Some (unzigzag u, r) | None => None end.

(** String: signed length, then the bytes. *)
Definition str_field : parser (list Z) := fun l =>
  match leb128_signed l with Some (n, r) => take n r | None => None end.

(** Bits [i*w .. (i+1)*w - 1] (most significant first) of a bit string of [total] bits with value [v]. *)
Definition bit_field (v total i w : Z) : Z := (v / 2 ^ (total - (i + 1) * w)) mod 2 ^ w.

(** TS_2DIFF block: number of deltas, bit width, smallest delta, first value, packed deltas. *)
Fixpoint ts2_values (bits : Z) (v total w base : Z) (i : Z) (n : nat) (prev : Z) : list Z :=
  match n with
  | O => []
  | S n' =>
      let x := sgn bits (prev + base + bit_field v total i w) in
      x :: ts2_values bits v total w base (i + 1) n' x
  end.
Definition ts2_block (bytes : Z) : parser (list Z) := fun l =>
  match be_unsigned 4 l with None => None | Some (n, l) =>
  match be_unsigned 4 l with None => None | Some (w, l) =>
  match be_signed bytes l with None => None | Some (base, l) =>
  match be_signed bytes l with None => None | Some (first, l) =>
  match take ((n * w + 7) / 8) l with None => None | Some (payload, l) =>
    Some (first :: ts2_values (8 * bytes) (be_val payload) (8 * Z.of_nat (length payload)) w base 0
                     (Z.to_nat n) first, l)
  end end end end end.

(** Repeat a parser until the input is used up (every round must consume input). *)
Fixpoint many {A} (fuel : nat) (p : parser A) (l : list Z) : option (list A) :=
  match l with
  | [] => Some []
  | _ =>
      match fuel with
      | O => None
      | S f =>
          match p l with
          | None => None
          | Some (x, r) => match many f p r with Some xs => Some (x :: xs) | None => None end
          end
      end
  end.

Definition ts2_decode (bytes : Z) (l : list Z) : option (list Z) :=
  match many (length l) (ts2_block bytes) l with
  | Some bs => Some (concat bs)
  | None => None
  end.

(** PLAIN columns by type code: 1 INT32 (zig-zag LEB128), 2 INT64 (8 bytes), 3 FLOAT (the 4 bytes of
    the bit pattern). *)
Definition plain_value (ty : Z) : parser Z :=
  if ty =? 1 then leb128_signed
  else if ty =? 2 then be_signed 8
  else if ty =? 3 then be_unsigned 4
  else fun _ => None.
Definition plain_decode (ty : Z) (l : list Z) : option (list Z) := many (length l) (plain_value ty) l.

(** A value column: type code and encoding code (0 PLAIN, 4 TS_2DIFF). *)
Definition column_decode (ty enc : Z) (l : list Z) : option (list Z) :=
  if enc =? 0 then plain_decode ty l
  else if enc =? 4 then
    (if ty =? 1 then ts2_decode 4 l else if ty =? 2 then ts2_decode 8 l else None)
  else None.

(** Content of a page after decompression: length of the time column, time column, value column. *)
Definition page_points (ty enc : Z) (l : list Z) : option (list (Z * Z)) :=
  match leb128 l with None => None | Some (n, l) =>
  match take n l with None => None | Some (tb, vb) =>
  match ts2_decode 8 tb, column_decode ty enc vb with
  | Some ts, Some vs => if Nat.eqb (length ts) (length vs) then Some (combine ts vs) else None
  | _, _ => None
  end end end.

(** Statistics: count, time range, min, max, first, last, sum (INT32: 64-bit integer; others: binary64
    pattern); integers signed, FLOAT values as bit patterns. *)
Record stat_fields := mkSF {
  sf_count : Z; sf_start : Z; sf_end : Z;
  sf_min : Z; sf_max : Z; sf_first : Z; sf_last : Z; sf_sum : Z }.
Definition stat_value (ty : Z) : parser Z :=
  if ty =? 1 then be_signed 4 else if ty =? 2 then be_signed 8 else be_unsigned 4.
Definition stat_sum (ty : Z) : parser Z := if ty =? 1 then be_signed 8 else be_unsigned 8.
Definition stat_read (ty : Z) : parser stat_fields := fun l =>
  match leb128 l with None => None | Some (c, l) =>
  match be_signed 8 l with None => None | Some (s, l) =>
  match be_signed 8 l with None => None | Some (e, l) =>
  match stat_value ty l with None => None | Some (mn, l) =>
  match stat_value ty l with None => None | Some (mx, l) =>
  match stat_value ty l with None => None | Some (fi, l) =>
  match stat_value ty l with None => None | Some (la, l) =>
  match stat_sum ty l with None => None | Some (sm, l) =>
    Some (mkSF c s e mn mx fi la sm, l)
  end end end end end end end end.

(** Conditions on a column, for builds with overflow checks. [chop n l]: consecutive pieces of [n]
    elements, the last one possibly shorter. *)
Fixpoint chop_fuel (fuel n : nat) {A} (l : list A) : list (list A) :=
  match fuel, l with
  | O, _ | _, [] => []
  | S f, _ => firstn n l :: chop_fuel f n (skipn n l)
  end.
Definition chop {A} (n : nat) (l : list A) : list (list A) := chop_fuel (length l) n l.
Definition signed_in (bits v : Z) : Prop := - 2 ^ (bits - 1) <= v < 2 ^ (bits - 1).
Fixpoint steps (l : list Z) : list Z :=
  match l with
  | a :: ((b :: _) as l') => (b - a) :: steps l'
  | _ => []
  end.
(** Differences of neighbours, and differences of these differences, are representable. *)
Definition steps_fit (bits : Z) (l : list Z) : Prop := Forall (signed_in bits) (steps l).
Definition block_fits (bits : Z) (l : list Z) : Prop :=
  steps_fit bits l /\ forall d d', In d (steps l) -> In d' (steps l) -> signed_in bits (d - d').
