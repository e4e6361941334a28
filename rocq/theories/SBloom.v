(** Specification side: testing a path against a stored bloom filter. *)
From Coq Require Import ZArith List Bool.
From Verif Require Export SReader SMurmur.
Import ListNotations.
Open Scope Z_scope.

(** Seeds of the hash functions in the TsFile format. *)
Definition bloom_seeds : list Z := [5; 7; 11; 19; 31; 37; 43; 59].
(** Bit [i] of a bit set stored least significant bit first; missing bytes are zero. *)
Definition bloom_bit (bs : list Z) (i : Z) : bool := Z.testbit (nth (Z.to_nat (i / 8)) bs 0) (i mod 8).
Definition might_contain (b : bloom_block) (path : list Z) : bool :=
  forallb (fun seed => bloom_bit (bb_bytes b) (Z.abs (path_hash path seed) mod bb_size b))
    (firstn (Z.to_nat (bb_count b)) bloom_seeds).
