(** Specification side: what the statistics of a set of points are. Points are (timestamp, number), the
    number being the integer value or the bit pattern of an f32. *)
From Verif Require Export SFormat SDriver.
From Verif Require Export MStats.

(** Order of f32 bit patterns: sign and magnitude; the two zeros are equal. *)
Definition f32_nan (b : Z) : Prop := b mod 2 ^ 31 > 0x7F800000.
Definition f32_finite (b : Z) : Prop := b mod 2 ^ 31 < 0x7F800000.
Definition f32_key (b : Z) : Z := if b <? 2 ^ 31 then b else 2 ^ 31 - b.

(** The accumulation tree of statistics: a page is updated point by point, everything above merges
    (chunks merge pages, series merge chunks; [Empty] is a fresh [Statistics]). *)
Inductive mtree := Empty | Page (pts : list (Z * value)) | Merge (a b : mtree).
Fixpoint tree_points (t : mtree) : list (Z * value) :=
  match t with Empty => [] | Page l => l | Merge a b => tree_points a ++ tree_points b end.
Definition page_stats (p : profile) (d : dtype) (pts : list (Z * value)) : outcome stats :=
  foldM (fun s tv => stats_update p (fst tv) (snd tv) s) pts (stats_new d).
Fixpoint tree_stats (p : profile) (d : dtype) (t : mtree) : outcome stats :=
  match t with
  | Empty => Ret (stats_new d)
  | Page l => page_stats p d l
  | Merge a b => let* x := tree_stats p d a in let* y := tree_stats p d b in stats_merge p x y
  end.

Definition times (pts : list (Z * value)) : list Z := map fst pts.
Definition nums (pts : list (Z * value)) : list Z := map (fun tv => value_num (snd tv)) pts.
Definition tnums (pts : list (Z * value)) : list (Z * Z) := map (fun tv => (fst tv, value_num (snd tv))) pts.
Definition points_ok (d : dtype) (pts : list (Z * value)) : Prop :=
  Forall (fun tv => i64_min <= fst tv <= i64_max /\ value_ok d (snd tv)) pts.

Definition is_min (x : Z) (l : list Z) : Prop := In x l /\ Forall (fun y => x <= y) l.
Definition is_max (x : Z) (l : list Z) : Prop := In x l /\ Forall (fun y => y <= x) l.
Definition zsum (l : list Z) : Z := fold_right Z.add 0 l.
(** Left-to-right binary64 sum, starting from +0. *)
Definition fsum (l : list spec_float) : spec_float := fold_left (SFadd 53 1024) l (S754_zero false).
Definition to_f64 (d : dtype) (n : Z) : spec_float :=
  match d with
  | FLOAT => match f32_of_bits n with
             | S754_finite s m e => binary_normalize 53 1024 (if s then Zneg m else Zpos m) e s
             | x => x end
  | _ => binary_normalize 53 1024 n 0 false
  end.
(** binary64 value of an accumulation tree *)
Fixpoint tree_fsum (d : dtype) (t : mtree) : spec_float :=
  match t with
  | Empty => S754_zero false
  | Page l => fsum (map (to_f64 d) (nums l))
  | Merge a b => SFadd 53 1024 (tree_fsum d a) (tree_fsum d b)
  end.

(** The numbers that are not NaN patterns. *)
Definition bits_nan (b : Z) : bool := b mod 2 ^ 31 >? 0x7F800000.
Definition real_nums (pts : list (Z * value)) : list Z := filter (fun b => negb (bits_nan b)) (nums pts).
(** Removing the NaN points of FLOAT data. *)
Definition is_nan_value (v : value) : bool :=
  match v with VFloat b => b mod 2 ^ 31 >? 0x7F800000 | _ => false end.
Fixpoint drop_nan (t : mtree) : mtree :=
  match t with
  | Empty => Empty
  | Page l => Page (filter (fun tv => negb (is_nan_value (snd tv))) l)
  | Merge a b => Merge (drop_nan a) (drop_nan b)
  end.

(** Well-formed statistics values: every field within its machine type; a float sum is any spec float
    that is a binary64 datum (the canonical form, [valid_binary]). *)
Definition stats_wf (s : stats) : Prop :=
  0 <= st_count s < 2 ^ 32 /\
  i64_min <= st_ts_first s <= i64_max /\ i64_min <= st_ts_last s <= i64_max /\
  (match st_type s with
   | INT32 => Forall (signed_in 32) [st_min s; st_max s; st_first s; st_last s]
   | INT64 => Forall (signed_in 64) [st_min s; st_max s; st_first s; st_last s]
   | FLOAT => Forall (fun n => 0 <= n < 2 ^ 32) [st_min s; st_max s; st_first s; st_last s]
   end) /\
  match st_type s, st_sum s with
  | INT32, SumI z => signed_in 64 z
  | INT32, _ => False
  | _, SumF f => valid_binary 53 1024 f = true
  | _, _ => False
  end.
(** Reading of binary64 bit patterns (independent of the model's [f64_to_bits]). *)
Definition f64_of_pattern (b : Z) : spec_float :=
  let s := 2 ^ 63 <=? b in
  let ex := (b / 2 ^ 52) mod 2 ^ 11 in
  let man := b mod 2 ^ 52 in
  if ex =? 2047 then (if man =? 0 then S754_infinity s else S754_nan)
  else if ex =? 0 then (if man =? 0 then S754_zero s else S754_finite s (Z.to_pos man) (-1074))
  else S754_finite s (Z.to_pos (man + 2 ^ 52)) (ex - 1075).
(** The statistics a reader reconstructs. *)
Definition same_stats (sf : stat_fields) (s : stats) : Prop :=
  sf_count sf = st_count s /\ sf_start sf = st_ts_first s /\ sf_end sf = st_ts_last s /\
  sf_min sf = st_min s /\ sf_max sf = st_max s /\ sf_first sf = st_first s /\ sf_last sf = st_last s /\
  match st_sum s with SumI z => sf_sum sf = z | SumF f => f64_of_pattern (sf_sum sf) = f end.
