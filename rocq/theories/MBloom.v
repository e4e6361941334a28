(** Bloom filter, writer/mod.rs:656-786 *)
From Verif Require Export MMurmur.

(** Seeds and limits of the default configuration, writer/ts_file_config.rs:12-23 (the only
    configuration a user can construct: all fields are [pub(crate)]). *)
Definition cfg_seeds : list Z := [5; 7; 11; 19; 31; 37; 43; 59].
(** writer/ts_file_config.rs:19 *)
Definition cfg_minimal_size : Z := 256.
(** writer/ts_file_config.rs:20 *)
Definition cfg_maximal_hash_function_size : Z := 8.
(** writer/ts_file_config.rs:15 *)
Definition cfg_max_degree_of_index_node : nat := 256.

(** [BloomFilter] writer/mod.rs:676-681; [bf_func] are the (cap, seed) pairs *)
Record bloom := mkBloom {
  bf_size : Z;
  bf_hash_function_size : Z;
  bf_func : list (Z * Z);
  bf_bits : list bool }.

(** [i32::abs] (std): overflows on [i32::MIN] at writer/mod.rs:672 *)
Definition abs_i32 (p : profile) (v : Z) : outcome Z := arithS p 32 (Z.abs v).

(** [HashFunction::hash] writer/mod.rs:670-673: [i32] remainder, then [as usize] (64 bit) *)
Definition hash_function (p : profile) (f : Z * Z) (value : str) : outcome Z :=
  let '(cap, seed) := f in
  let* h := murmur_hash p value seed in
  let* a := abs_i32 p h in
  Ret (wrapU 64 (Z.rem a cap)).

(** [self.bit_set[bit_id] = true] writer/mod.rs:688 *)
Definition set_bit (bits : list bool) (i : Z) : outcome (list bool) :=
  if i <? zlen bits then Ret (vec_set bits (Z.to_nat i) true) else Panic PIndex.

(** [BloomFilter::add] writer/mod.rs:684-690 *)
Definition bloom_add (p : profile) (path : str) (b : bloom) : outcome bloom :=
  let* bits := foldM (fun bits f => let* i := hash_function p f path in set_bit bits i)
                     (bf_func b) (bf_bits b) in
  Ret {| bf_size := bf_size b; bf_hash_function_size := bf_hash_function_size b;
         bf_func := bf_func b; bf_bits := bits |}.

(** [BloomFilter::new] writer/mod.rs:692-707 *)
Definition bloom_new (size hash_function_size : Z) : bloom :=
  {| bf_size := size; bf_hash_function_size := hash_function_size;
     bf_func := map (fun s => (size, s)) (firstn (Z.to_nat hash_function_size) cfg_seeds);
     bf_bits := repeat false (Z.to_nat size) |}.

(** Filter size before clamping, writer/mod.rs:727: [(-n as f64 * ln(e) / ln2 / ln2) as i32] *)
Definition bloom_raw_size (n : Z) : Z :=
  sf_trunc i32_min i32_max
    (f64_div (f64_div (f64_mul (f64_of_Z (- n)) f64_ln_005) f64_ln2) f64_ln2).
(** Number of hash functions, writer/mod.rs:728: [((-1.0 * ln(e) / ln2) + 1.0) as i32] *)
Definition bloom_hash_count : Z :=
  sf_trunc i32_min i32_max
    (f64_add (f64_div (f64_mul (f64_of_Z (-1)) f64_ln_005) f64_ln2) (f64_of_Z 1)).

(** [BloomFilter::empty_filter] writer/mod.rs:720-735 *)
Definition bloom_empty (p : profile) (n : Z) : outcome bloom :=
  let* size := arithS p 32 (bloom_raw_size n + 1) in
  Ret (bloom_new (Z.max size cfg_minimal_size)
                 (Z.min bloom_hash_count cfg_maximal_hash_function_size)).

(** [BloomFilter::build] writer/mod.rs:709-718 *)
Definition bloom_build (p : profile) (paths : list str) : outcome bloom :=
  let* b := bloom_empty p (wrapS 32 (zlen paths)) in
  foldM (fun b path => bloom_add p path b) paths b.

(** Loop of [serialize_bits], writer/mod.rs:746-763: bit [i] and following *)
Fixpoint bits_loop (i : nat) (bits : list bool) (result : list byte) : outcome (list byte) :=
  match bits with
  | [] => Ret result
  | b :: bits' =>
      let byte_index := ((i - i mod 8) / 8)%nat in
      let bit_index := Z.of_nat (i mod 8) in
      let* v := vec_get result byte_index in
      let bit := if b then 1 else 0 in
      bits_loop (S i) bits' (vec_set result byte_index (Z.lor v (wrapU 8 (Z.shiftl bit bit_index))))
  end.

(** Removal of trailing zero bytes, writer/mod.rs:766-768 *)
Fixpoint strip_leading_zeros (l : list byte) : list byte :=
  match l with
  | 0 :: l' => strip_leading_zeros l'
  | _ => l
  end.
(** The bytes from the end on, writer/mod.rs:766-768 *)
Definition strip_trailing_zeros (l : list byte) : list byte := rev (strip_leading_zeros (rev l)).

(** [serialize_bits] writer/mod.rs:737-771 *)
Definition serialize_bits (bits : list bool) : outcome (list byte) :=
  let len := length bits in
  let number_of_bytes :=
    (if len mod 8 =? 0 then len / 8 else (len + len mod 8) / 8)%nat in
  let* result := bits_loop 0 bits (repeat 0 number_of_bytes) in
  Ret (strip_trailing_zeros result).

(** [Serializable for BloomFilter] writer/mod.rs:774-786 (results dropped) *)
Definition bloom_serialize (b : bloom) : outcome wprog :=
  let* bytes := serialize_bits (bf_bits b) in
  Ret (WAnd (write_var_u32 (wrapU 32 (zlen bytes)))
      (WAnd (WAll bytes)
      (WAnd (write_var_u32 (wrapU 32 (bf_size b)))
      (WAnd (write_var_u32 (wrapU 32 (bf_hash_function_size b))) WNil)))).
