(** Specification side of C58: every outcome of a session of a debug build, where an overflow panics. On top of
    what makes a release build panic these are: a delta of a TS_2DIFF value column, the spread of the deltas of
    one of its blocks, and an intermediate product or sum in the hash of a path. *)
From Verif Require Export SComplete SMurmur.

(** Representable as a signed number of [bits] bits. *)
Definition inside (bits v : Z) : bool := (- 2 ^ (bits - 1) <=? v) && (v <? 2 ^ (bits - 1)).

(** ** Columns *)
(** Width of a TS_2DIFF value column. *)
Definition col_bits (ms : mschema) : option Z :=
  match ms_enc ms, ms_type ms with
  | TS2DIFF, INT32 => Some 32
  | TS2DIFF, INT64 => Some 64
  | _, _ => None
  end.
(** A block that is being filled needs its deltas, a finished one also their distances from the least. *)
Definition deltas_fit (bits : Z) (b : list Z) : bool := forallb (inside bits) (steps b).
Definition block_fit (bits : Z) (b : list Z) : bool :=
  deltas_fit bits b && forallb (fun d => inside bits (d - least (steps b))) (steps b).
Definition page_fine (ms : mschema) (pts : list (Z * value)) : bool :=
  match col_bits ms with
  | None => true
  | Some bits => forallb (block_fit bits) (chop 129 (nums pts))
  end.
Definition open_fine (ms : mschema) (pts : list (Z * value)) : bool :=
  match col_bits ms with
  | None => true
  | Some bits => forallb (fun b => if Nat.eqb (length b) 129 then block_fit bits b else deltas_fit bits b) (chop 129 (nums pts))
  end.
(** Points of a series since the last flush: finished pages and the page being filled. *)
Definition series_fine (ms : mschema) (pts : list (Z * value)) : bool :=
  let '(pages, cur, _) := cut (ms_type ms) (ms_enc ms) pts in forallb (page_fine ms) pages && open_fine ms cur.
(** The page being filled is finished, too. *)
Definition series_done (ms : mschema) (pts : list (Z * value)) : bool :=
  forallb (page_fine ms) (pages_of (ms_type ms) (ms_enc ms) pts).
Definition all_series (f : mschema -> list (Z * value) -> bool) (sc : schema) (pts : list point) : bool :=
  forallb (fun dg => forallb (fun ms => f (snd ms) (series_of (fst dg) (fst ms) pts)) (snd dg)) sc.

(** ** Calls *)
(** A call overflows while it stores its points or in the flush that it triggers. *)
Definition overflows (snap : list Z -> option (list Z)) (sc : schema) (s : session) (o : op) : bool :=
  let pts := h_recent (h_call sc o (ss_hist s)) in
  negb (all_series series_fine sc pts) ||
  (zlen (ss_flushes s) <? zlen (ss_flushes (session_call snap sc s o))) && negb (all_series series_done sc pts).
Fixpoint debug_replies (snap : list Z -> option (list Z)) (sc : schema) (s : session) (ops : list op) : option (list answer) :=
  match ops with
  | [] => Some []
  | o :: ops' =>
      if call_panics sc s o || overflows snap sc s o then None
      else option_map (cons (reply sc (ss_hist s) o)) (debug_replies snap sc (session_call snap sc s o) ops')
  end.

(** ** Hashes *)
(** A 64-bit word as a signed number. *)
Definition s64 (u : Z) : Z := if u <? 2 ^ 63 then u else u - 2 ^ 64.
(** Products and sums in the mixing of a 16-byte block. *)
Definition block_numbers (b : list Z) (h1 h2 : Z) : list Z :=
  let k1 := le_val (firstn 8 b) in
  let k2 := le_val (skipn 8 b) in
  let a := rot (Z.lxor h1 (mix1 k1)) 27 in
  let a' := u64 (a + h2) in
  let g1 := u64 (a' * 5 + 0x52dce729) in
  let c := rot (Z.lxor h2 (mix2 k2)) 31 in
  let c' := u64 (c + g1) in
  [s64 k1 * s64 C1; s64 (rot (u64 (k1 * C1)) 31) * s64 C2; s64 a + s64 h2; s64 a' * 5; s64 (u64 (a' * 5)) + 0x52dce729;
   s64 k2 * s64 C2; s64 (rot (u64 (k2 * C2)) 33) * s64 C1; s64 c + s64 g1; s64 c' * 5; s64 (u64 (c' * 5)) + 0x38495ab5].
(** All complete blocks, then the two sums after the tail. *)
Fixpoint hash_numbers (n : nat) (l : list Z) (h1 h2 len : Z) : list Z :=
  match n with
  | O =>
      let a := Z.lxor (Z.lxor h1 (mix1 (le_val (firstn 8 l)))) len in
      let b := Z.lxor (Z.lxor h2 (mix2 (le_val (skipn 8 l)))) len in
      [s64 a + s64 b; s64 b + s64 (u64 (a + b))]
  | S n' => block_numbers (firstn 16 l) h1 h2 ++ let '(g1, g2) := mm_block (firstn 16 l) h1 h2 in hash_numbers n' (skipn 16 l) g1 g2 len
  end.
Definition hash_fine (q : list Z) (seed : Z) : bool :=
  forallb (inside 64) (hash_numbers (length q / 16) q seed seed (zlen q)) && negb (path_hash q seed =? - 2 ^ 31).

(** ** The close *)
Definition debug_closable (sc : schema) (s : session) : bool :=
  let pts := List.concat (final_flushes s) in
  (negb (0 <? h_counted (ss_hist s)) || all_series series_done sc (h_recent (ss_hist s))) &&
  closable sc pts && forallb (fun q => forallb (hash_fine q) [5; 7; 11; 19; 31]) (stored_paths sc pts).
