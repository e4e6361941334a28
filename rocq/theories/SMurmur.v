(** Specification side: canonical MurmurHash3_x64_128 (unsigned 64-bit arithmetic, A. Appleby's reference
    algorithm), written on lists of bytes. *)
From Coq Require Import ZArith List Bool.
Import ListNotations.
Open Scope Z_scope.

Definition u64 (x : Z) : Z := x mod 2 ^ 64.
(** rotation of a 64-bit word *)
Definition rot (x r : Z) : Z := u64 (x * 2 ^ r) + x / 2 ^ (64 - r).
Definition C1 : Z := 0x87c37b91114253d5.
Definition C2 : Z := 0x4cf5ad432745937f.
(** little-endian value *)
Fixpoint le_val (l : list Z) : Z := match l with [] => 0 | b :: l => b + 256 * le_val l end.

Definition mix1 (k : Z) : Z := u64 (rot (u64 (k * C1)) 31 * C2).
Definition mix2 (k : Z) : Z := u64 (rot (u64 (k * C2)) 33 * C1).
(** one 16-byte block *)
Definition mm_block (b : list Z) (h1 h2 : Z) : Z * Z :=
  let h1 := rot (Z.lxor h1 (mix1 (le_val (firstn 8 b)))) 27 in
  let h1 := u64 (u64 (h1 + h2) * 5 + 0x52dce729) in
  let h2 := rot (Z.lxor h2 (mix2 (le_val (skipn 8 b)))) 31 in
  let h2 := u64 (u64 (h2 + h1) * 5 + 0x38495ab5) in
  (h1, h2).
(** all complete blocks, then the tail of fewer than 16 bytes (a missing word is 0 and mixes to 0) *)
Fixpoint mm_blocks (n : nat) (l : list Z) (h1 h2 : Z) : Z * Z :=
  match n with
  | O => (Z.lxor h1 (mix1 (le_val (firstn 8 l))), Z.lxor h2 (mix2 (le_val (skipn 8 l))))
  | S n => let '(h1, h2) := mm_block (firstn 16 l) h1 h2 in mm_blocks n (skipn 16 l) h1 h2
  end.
Definition avalanche (k : Z) : Z :=
  let k := Z.lxor k (k / 2 ^ 33) in
  let k := u64 (k * 0xff51afd7ed558ccd) in
  let k := Z.lxor k (k / 2 ^ 33) in
  let k := u64 (k * 0xc4ceb9fe1a85ec53) in
  Z.lxor k (k / 2 ^ 33).
Definition murmur3_x64_128 (l : list Z) (seed : Z) : Z * Z :=
  let '(h1, h2) := mm_blocks (length l / 16) l seed seed in
  let h1 := Z.lxor h1 (Z.of_nat (length l)) in
  let h2 := Z.lxor h2 (Z.of_nat (length l)) in
  let h1 := u64 (h1 + h2) in
  let h2 := u64 (h2 + h1) in
  let h1 := avalanche h1 in
  let h2 := avalanche h2 in
  let h1 := u64 (h1 + h2) in
  let h2 := u64 (h2 + h1) in
  (h1, h2).
(** What a TsFile reader uses: the sum of the two words, cut to a signed 32-bit integer. *)
Definition path_hash (l : list Z) (seed : Z) : Z :=
  let '(h1, h2) := murmur3_x64_128 l seed in (h1 + h2 + 2 ^ 31) mod 2 ^ 32 - 2 ^ 31.
(** Known answers of the reference implementation, as used by the test suites of its ports. *)
Example known_empty : murmur3_x64_128 [] 0 = (0, 0).
Proof. vm_compute. reflexivity. Qed.
(** "hell" *)
Example known_1 : murmur3_x64_128 [104;101;108;108] 0 =
  (0x629942693e10f867, 0x92db0b82baeb5347).
Proof. vm_compute. reflexivity. Qed.
(** "hello" *)
Example known_2 : murmur3_x64_128 [104;101;108;108;111] 0 =
  (0xcbd8a7b341bd9b02, 0x5b1e906a48ae1d19).
Proof. vm_compute. reflexivity. Qed.
(** "hello, world" *)
Example known_3 : murmur3_x64_128 [104;101;108;108;111;44;32;119;111;114;108;100] 0 =
  (0x342fac623a5ebc8e, 0x4cdcbc079642414d).
Proof. vm_compute. reflexivity. Qed.
(** "19 Jan 2038 at 3:14:07 AM" *)
Example known_4 : murmur3_x64_128 [49;57;32;74;97;110;32;50;48;51;56;32;97;116;32;51;58;49;52;58;48;55;32;65;77] 0 =
  (0xb89e5988b737affc, 0x664fc2950231b2cb).
Proof. vm_compute. reflexivity. Qed.
(** "The quick brown fox jumps over the lazy dog." *)
Example known_5 : murmur3_x64_128 [84;104;101;32;113;117;105;99;107;32;98;114;111;119;110;32;102;111;120;32;106;117;109;112;115;32;111;118;101;114;32;116;104;101;32;108;97;122;121;32;100;111;103;46] 0 =
  (0xcd99481f9ee902c9, 0x695da1a38987b6e7).
Proof. vm_compute. reflexivity. Qed.
