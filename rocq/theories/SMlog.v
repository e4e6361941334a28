(** Specification side: the metadata log (mlog) format and hexadecimal numerals. *)
From Coq Require Import ZArith List Bool.
From Verif Require Export SFormat MTypes.
Import ListNotations.
Open Scope Z_scope.

(** CRC-32 (IEEE 802.3) as a shift register over GF(2): the 32 coefficients of the remainder, highest
    power first, are shifted by one message bit at a time (bits of a byte least significant first) and
    reduced by the generator polynomial 0x04C11DB7. The remainder starts as all ones and is
    complemented at the end; the checksum reads the coefficients with the highest power as least
    significant bit. *)
Fixpoint bits_msb (n : nat) (v : Z) : list bool :=
  match n with O => [] | S k => Z.odd (v / 2 ^ Z.of_nat k) :: bits_msb k v end.
Fixpoint bits_lsb (n : nat) (v : Z) : list bool :=
  match n with O => [] | S k => Z.odd v :: bits_lsb k (v / 2) end.
Definition crc_generator : list bool := bits_msb 32 0x04C11DB7.
Fixpoint xor_list (a b : list bool) : list bool :=
  match a, b with x :: a', y :: b' => xorb x y :: xor_list a' b' | _, _ => [] end.
Definition crc_shift (r : list bool) (b : bool) : list bool :=
  match r with
  | [] => []
  | h :: t => if xorb h b then xor_list (t ++ [false]) crc_generator else t ++ [false]
  end.
Fixpoint lsb_val (l : list bool) : Z :=
  match l with [] => 0 | b :: l' => (if b then 1 else 0) + 2 * lsb_val l' end.
Definition crc_spec (l : list Z) : Z :=
  lsb_val (map negb (fold_left crc_shift (flat_map (bits_lsb 8) l) (repeat true 32))).

(** Plans of the log. *)
Inductive plan :=
  | SetStorageGroup (path : list Z)
  | CreateTimeseries (path : list Z) (ty enc comp : Z) (offset : Z) (flags : list Z).
Definition path_field : parser (list Z) := fun l =>
  match be_signed 4 l with Some (n, r) => take n r | None => None end.
(** type 3: path, 8-byte index; type 4: path, type, encoding, compression, 8-byte offset, four
    presence flags (props, tags, attributes, alias; all absent), 8-byte index *)
Definition plan_read : parser plan := fun l =>
  match l with
  | 3 :: l =>
      match path_field l with None => None | Some (p, l) =>
      match be_unsigned 8 l with None => None | Some (_, l) => Some (SetStorageGroup p, l) end end
  | 4 :: l =>
      match path_field l with None => None | Some (p, l) =>
      match be_unsigned 1 l with None => None | Some (ty, l) =>
      match be_unsigned 1 l with None => None | Some (enc, l) =>
      match be_unsigned 1 l with None => None | Some (comp, l) =>
      match be_signed 8 l with None => None | Some (off, l) =>
      match take 4 l with None => None | Some (flags, l) =>
      match be_unsigned 8 l with None => None | Some (_, l) =>
        Some (CreateTimeseries p ty enc comp off flags, l)
      end end end end end end end
  | _ => None
  end.
(** A frame: length, payload, checksum (8 bytes) that must match; the payload is a sequence of plans. *)
Definition frame_read : parser (list plan) := fun l =>
  match be_signed 4 l with None => None | Some (n, l) =>
  match take n l with None => None | Some (payload, l) =>
  match be_unsigned 8 l with None => None | Some (crc, l) =>
  if crc =? crc_spec payload then
    match many (length payload) plan_read payload with Some ps => Some (ps, l) | None => None end
  else None
  end end end.
Definition mlog_read (l : list Z) : option (list plan) :=
  match many (length l) frame_read l with Some pss => Some (concat pss) | None => None end.

(** Hexadecimal numeral of a number, without leading zeros (0 is the empty numeral). *)
Definition hex_chars : list Z := [48; 49; 50; 51; 52; 53; 54; 55; 56; 57; 97; 98; 99; 100; 101; 102].
Fixpoint hex_fuel (fuel : nat) (n : Z) : list Z :=
  match fuel with
  | O => []
  | S f => if n =? 0 then [] else hex_fuel f (n / 16) ++ [nth (Z.to_nat (n mod 16)) hex_chars 0]
  end.
Definition hex_numeral (n : Z) : list Z := hex_fuel (Z.to_nat (Z.log2 n) + 1) n.

(** Codes of the TsFile format. *)
Definition format_type (d : dtype) : Z := match d with INT32 => 1 | INT64 => 2 | FLOAT => 3 end.
Definition format_encoding (e : encoding) : Z := match e with PLAIN => 0 | TS2DIFF => 4 end.
Definition format_compression (c : compression) : Z := match c with UNCOMPRESSED => 0 | SNAPPY => 1 end.

(** Plans a log for storage group [sg] and schema [s] has to contain: the storage group, then every
    series once, with its path [sg.device.measurement], its codes and no tag offset and no extras. *)
Definition series_plan (sg d m : list Z) (ms : mschema) : plan :=
  CreateTimeseries (sg ++ [46] ++ d ++ [46] ++ m)
    (format_type (ms_type ms)) (format_encoding (ms_enc ms)) (format_compression (ms_comp ms)) (-1) [0; 0; 0; 0].
Definition expected_plans (sg : list Z) (s : schema) : list plan :=
  SetStorageGroup sg :: flat_map (fun dg => map (fun ms => series_plan sg (fst dg) (fst ms) (snd ms)) (snd dg)) s.
