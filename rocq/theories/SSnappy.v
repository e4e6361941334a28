(** Specification side: the Snappy block format (google/snappy, format_description.txt), read independently of any
    library. *)
From Verif Require Export SChunk.

(** Number with the given little-endian base-256 digits. *)
Definition le_val (l : list Z) : Z := fold_right (fun b a => b + 256 * a) 0 l.
(** A copy: [n] bytes from [off] bytes before the end of the output; it may reach into itself. *)
Fixpoint copy_back (n : nat) (off : Z) (out : list Z) : option (list Z) :=
  match n with
  | O => Some out
  | S n' => if (1 <=? off) && (off <=? zlen out) then copy_back n' off (out ++ [nth (Z.to_nat (zlen out - off)) out 0]) else None
  end.
(** The elements after the length: the low two bits of a tag byte select the kind. *)
Fixpoint elements (fuel : nat) (out l : list Z) : option (list Z) :=
  match fuel with
  | O => None
  | S f =>
      match l with
      | [] => Some out
      | tag :: l =>
          if tag mod 4 =? 0 then                                   (* literal: length - 1 in the tag or in 1-4 bytes *)
            let k := if tag / 4 <? 60 then 0 else tag / 4 - 59 in
            match take k l with None => None | Some (ns, l) =>
            match take ((if k =? 0 then tag / 4 else le_val ns) + 1) l with None => None | Some (bs, l) =>
              elements f (out ++ bs) l
            end end
          else if tag mod 4 =? 1 then                              (* copy, 4-11 bytes, offset of 11 bits *)
            match take 1 l with None => None | Some (os, l) =>
            match copy_back (Z.to_nat (4 + tag / 4 mod 8)) (tag / 32 * 256 + le_val os) out with None => None | Some out => elements f out l end end
          else                                                     (* copy, 1-64 bytes, offset of 2 or 4 bytes *)
            match take (if tag mod 4 =? 2 then 2 else 4) l with None => None | Some (os, l) =>
            match copy_back (Z.to_nat (1 + tag / 4)) (le_val os) out with None => None | Some out => elements f out l end end
      end
  end.
(** A block: length of the data as LEB128, elements. *)
Definition snappy_read (l : list Z) : option (list Z) :=
  match leb128 l with None => None | Some (n, l) =>
  match elements (S (length l)) [] l with
  | Some out => if zlen out =? n then Some out else None
  | None => None
  end end.

(** A compressor in this format that only uses one literal. *)
Fixpoint leb128_write (fuel : nat) (n : Z) : list Z :=
  match fuel with
  | O => []
  | S f => if n <? 128 then [n] else (n mod 128 + 128) :: leb128_write f (n / 128)
  end.
Definition le_bytes4 (n : Z) : list Z := [n mod 256; n / 256 mod 256; n / 65536 mod 256; n / 16777216 mod 256].
Definition snappy_literal (l : list Z) : option (list Z) :=
  Some (leb128_write 5 (zlen l) ++ match l with [] => [] | _ => 252 :: le_bytes4 (zlen l - 1) ++ l end).
