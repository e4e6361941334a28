(** writer/murmur128.rs (signed 64-bit arithmetic) *)
From Verif Require Export MChunk.

(** Constants murmur128.rs:53-54; the literals overflow [i64] and wrap
    ([#[allow(overflowing_literals)]]). *)
Definition mm_c1 : Z := wrapS 64 0x87c37b91114253d5.
(** murmur128.rs:54 *)
Definition mm_c2 : Z := wrapS 64 0x4cf5ad432745937f.

(** [key[i] as i64]; every index used below is in range for [length = key.len()]. murmur128.rs:24-31, 85-132 *)
Definition mm_at (key : list byte) (i : nat) : Z := nth i key 0.

(** [get_block] murmur128.rs:21-32: eight bytes, little endian, starting at [offset + 8*index]. The
    additions have disjoint bits and cannot overflow. *)
Definition get_block (key : list byte) (offset index : nat) : Z :=
  let o := (offset + 8 * index)%nat in
  mm_at key o
  + Z.shiftl (mm_at key (o + 1)) 8
  + Z.shiftl (mm_at key (o + 2)) 16
  + Z.shiftl (mm_at key (o + 3)) 24
  + Z.shiftl (mm_at key (o + 4)) 32
  + Z.shiftl (mm_at key (o + 5)) 40
  + Z.shiftl (mm_at key (o + 6)) 48
  + wrapS 64 (Z.shiftl (mm_at key (o + 7)) 56).

(** [rotl64] murmur128.rs:34-36 *)
Definition rotl64 (v n : Z) : Z :=
  Z.lor (wrapS 64 (Z.shiftl v n)) (wrapS 64 (Z.shiftr (wrapU 64 v) (64 - n))).

(** [k ^= ((k as u64) >> 33) as i64], murmur128.rs:40, 42, 44 *)
Definition mm_xorshift (k : Z) : Z := Z.lxor k (wrapS 64 (Z.shiftr (wrapU 64 k) 33)).

(** [fmix] murmur128.rs:39-46: products in [i128], truncated *)
Definition mm_fmix (k : Z) : Z :=
  let k := mm_xorshift k in
  let k := wrapS 64 (k * 0xff51afd7ed558ccd) in
  let k := mm_xorshift k in
  let k := wrapS 64 (k * 0xc4ceb9fe1a85ec53) in
  mm_xorshift k.

(** One round of the body loop, murmur128.rs:58-73. [*=] and [+=] are checked in debug builds. *)
Definition mm_round (p : profile) (k1 k2 : Z) (h : Z * Z) : outcome (Z * Z) :=
  let '(h1, h2) := h in
  let* k1 := arithS p 64 (k1 * mm_c1) in
  let k1 := rotl64 k1 31 in
  let* k1 := arithS p 64 (k1 * mm_c2) in
  let h1 := Z.lxor h1 k1 in
  let h1 := rotl64 h1 27 in
  let* h1 := arithS p 64 (h1 + h2) in
  let* h1 := arithS p 64 (h1 * 5) in
  let* h1 := arithS p 64 (h1 + 0x52dce729) in
  let* k2 := arithS p 64 (k2 * mm_c2) in
  let k2 := rotl64 k2 33 in
  let* k2 := arithS p 64 (k2 * mm_c1) in
  let h2 := Z.lxor h2 k2 in
  let h2 := rotl64 h2 31 in
  let* h2 := arithS p 64 (h2 + h1) in
  let* h2 := arithS p 64 (h2 * 5) in
  let* h2 := arithS p 64 (h2 + 0x38495ab5) in
  Ret (h1, h2).

(** Body loop murmur128.rs:57-74: blocks [i .. i+n-1] *)
Fixpoint mm_body (p : profile) (key : list byte) (i n : nat) (h : Z * Z) : outcome (Z * Z) :=
  match n with
  | O => Ret h
  | S n' =>
      let* h' := mm_round p (get_block key 0 (i * 2)) (get_block key 0 (i * 2 + 1)) h in
      mm_body p key (S i) n' h'
  end.

(** Tail loop murmur128.rs:83-141: one iteration for [identifier]; state (k1, k2, h1, h2). *)
Definition mm_tail_step (key : list byte) (offset identifier : nat) (s : Z * Z * Z * Z)
  : Z * Z * Z * Z :=
  let '(k1, k2, h1, h2) := s in
  match identifier with
  | 15 => (k1, Z.lxor k2 (Z.shiftl (mm_at key (offset + 14)) 48), h1, h2)
  | 14 => (k1, Z.lxor k2 (Z.shiftl (mm_at key (offset + 13)) 40), h1, h2)
  | 13 => (k1, Z.lxor k2 (Z.shiftl (mm_at key (offset + 12)) 32), h1, h2)
  | 12 => (k1, Z.lxor k2 (Z.shiftl (mm_at key (offset + 11)) 24), h1, h2)
  | 11 => (k1, Z.lxor k2 (Z.shiftl (mm_at key (offset + 10)) 16), h1, h2)
  | 10 => (k1, Z.lxor k2 (Z.shiftl (mm_at key (offset + 9)) 8), h1, h2)
  | 9 =>
      let k2 := Z.lxor k2 (mm_at key (offset + 8)) in
      let k2 := wrapS 64 (k2 * mm_c2) in
      let k2 := rotl64 k2 33 in
      let k2 := wrapS 64 (k2 * mm_c1) in
      (k1, k2, h1, Z.lxor h2 k2)
  | 8 => (Z.lxor k1 (wrapS 64 (Z.shiftl (mm_at key (offset + 7)) 56)), k2, h1, h2)
  | 7 => (Z.lxor k1 (Z.shiftl (mm_at key (offset + 6)) 48), k2, h1, h2)
  | 6 => (Z.lxor k1 (Z.shiftl (mm_at key (offset + 5)) 40), k2, h1, h2)
  | 5 => (Z.lxor k1 (Z.shiftl (mm_at key (offset + 4)) 32), k2, h1, h2)
  | 4 => (Z.lxor k1 (Z.shiftl (mm_at key (offset + 3)) 24), k2, h1, h2)
  | 3 => (Z.lxor k1 (Z.shiftl (mm_at key (offset + 2)) 16), k2, h1, h2)
  | 2 => (Z.lxor k1 (Z.shiftl (mm_at key (offset + 1)) 8), k2, h1, h2)
  | 1 =>
      let k1 := Z.lxor k1 (mm_at key offset) in
      let k1 := wrapS 64 (k1 * mm_c1) in
      let k1 := rotl64 k1 31 in
      let k1 := wrapS 64 (k1 * mm_c2) in
      (k1, k2, Z.lxor h1 k1, h2)
  | _ => s
  end%nat.
(** The loop murmur128.rs:83-141 *)
Fixpoint mm_tail (key : list byte) (offset identifier : nat) (s : Z * Z * Z * Z) : Z * Z * Z * Z :=
  match identifier with
  | O => s
  | S i => mm_tail key offset i (mm_tail_step key offset identifier s)
  end.

(** [inner_hash] murmur128.rs:49-153 with [offset = 0] and [length = key.len()] *)
Definition inner_hash (p : profile) (key : list byte) (seed : Z) : outcome Z :=
  let len := length key in
  let nblocks := (len / 16)%nat in
  let* h := mm_body p key 0 nblocks (seed, seed) in
  let '(h1, h2) := h in
  let '(_, _, h1, h2) := mm_tail key (nblocks * 16) (len mod 16)%nat (0, 0, h1, h2) in
  let h1 := Z.lxor h1 (Z.of_nat len) in
  let h2 := Z.lxor h2 (Z.of_nat len) in
  let* h1 := arithS p 64 (h1 + h2) in
  let* h2 := arithS p 64 (h2 + h1) in
  let h1 := mm_fmix h1 in
  let h2 := mm_fmix h2 in
  let h1 := wrapS 64 (h1 + h2) in
  let h2 := wrapS 64 (h2 + h1) in
  Ret (wrapS 64 (h1 + h2)).

(** [Murmur128::hash] murmur128.rs:11-18 (strings shorter than 2^31 bytes) *)
Definition murmur_hash (p : profile) (value : str) (seed : Z) : outcome Z :=
  let* h := inner_hash p value seed in Ret (wrapS 32 h).
