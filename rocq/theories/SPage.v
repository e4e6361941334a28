(** Specification side: where the pages of a chunk end. Sizes of encoded columns are computed from the
    values alone. *)
From Coq Require Import Floats.SpecFloat.
From Verif Require Export SChunk.

Definition bit_length (u : Z) : Z := if u =? 0 then 0 else Z.log2 u + 1.
Definition greatest (l : list Z) : Z := fold_right Z.max (hd 0 l) l.
Definition least (l : list Z) : Z := fold_right Z.min (hd 0 l) l.

(** Bytes of a finished TS_2DIFF block: two counters, smallest delta, first value, and for every delta as
    many bits as the spread of the deltas needs. *)
Definition block_len (bits : Z) (b : list Z) : Z :=
  let ds := map (sgn bits) (steps b) in
  8 + 2 * (bits / 8) + (zlen ds * bit_length (greatest ds - least ds) + 7) / 8.
Definition full_blocks (vs : list Z) : list (list Z) := filter (fun b => Nat.eqb (length b) 129) (chop 129 vs).
(** Estimate for an unfinished TS_2DIFF column: the finished blocks, and the deltas of the open block
    unpacked. *)
Definition ts2_estimate (bits : Z) (vs : list Z) : Z :=
  fold_right Z.add 0 (map (block_len bits) (full_blocks vs)) + (24 + Z.max 0 (zlen vs mod 129 - 1) * bits / 8).

(** Bytes of a zig-zag LEB128 number. *)
Definition leb_len (n : Z) : Z :=
  let u := if n <? 0 then - 2 * n - 1 else 2 * n in
  if u <? 2 ^ 7 then 1 else if u <? 2 ^ 14 then 2 else if u <? 2 ^ 21 then 3 else if u <? 2 ^ 28 then 4 else 5.

Definition value_estimate (dt : dtype) (enc : encoding) (vs : list Z) : Z :=
  match enc, dt with
  | TS2DIFF, INT32 => ts2_estimate 32 vs
  | TS2DIFF, _ => ts2_estimate 64 vs
  | PLAIN, INT32 => 24 + 2 * fold_right Z.add 0 (map leb_len vs)
  | PLAIN, INT64 => 8 * zlen vs
  | PLAIN, FLOAT => 4 * zlen vs
  end.
Definition page_estimate (dt : dtype) (enc : encoding) (pts : list (Z * value)) : Z :=
  ts2_estimate 64 (times pts) + value_estimate dt enc (map value_num (map snd pts)).

(** [65536 / size * points] in binary32, truncated to 32 bits. *)
Definition binary32 (n : Z) : spec_float := binary_normalize 24 128 n 0 false.
Definition whole (x : spec_float) : Z :=
  match x with
  | S754_finite false m e => Z.min (2 ^ 32 - 1) (if e <? 0 then Zpos m / 2 ^ (- e) else Zpos m * 2 ^ e)
  | S754_infinity false => 2 ^ 32 - 1
  | _ => 0
  end.
Definition next_check (size points : Z) : Z :=
  whole (SFmul 24 128 (SFdiv 24 128 (binary32 65536) (binary32 size)) (binary32 points)).

(** Cutting points into pages: finished pages, points of the open page, number of points of the open page
    at which its size is estimated next. *)
Definition cut_step (dt : dtype) (enc : encoding) (s : list (list (Z * value)) * list (Z * value) * Z)
    (tv : Z * value) :=
  let '(pages, cur, next) := s in
  let cur := cur ++ [tv] in
  if zlen cur <? next then (pages, cur, next)
  else
    let e := page_estimate dt enc cur in
    if 65536 <? e then (pages ++ [cur], [], 1500) else (pages, cur, next_check e (zlen cur)).
Definition cut (dt : dtype) (enc : encoding) (pts : list (Z * value)) :=
  fold_left (cut_step dt enc) pts ([], [], 7989).

(** Most points a page can have. *)
Definition page_limit (dt : dtype) (enc : encoding) : Z :=
  match enc, dt with
  | PLAIN, INT32 => 29980
  | PLAIN, INT64 => 8006
  | PLAIN, FLOAT => 15656
  | TS2DIFF, INT32 => 211354
  | TS2DIFF, _ => 176129
  end.
