(** writer/statistics.rs *)
From Verif Require Export MEnc.

(** [sum_value]: [i64] for INT32, [f64] otherwise (statistics.rs:9-11). *)
Inductive ssum := SumI (z : Z) | SumF (f : spec_float).

(** [Statistics] / [StatisticsStruct] statistics.rs:8-12 and 88-98; [st_type] is the enum tag. Values
    are integers, or [f32] bit patterns for FLOAT. *)
Record stats := mkStats {
  st_type : dtype;
  st_ts_first : Z;
  st_ts_last : Z;
  st_min : Z;
  st_max : Z;
  st_first : Z;
  st_last : Z;
  st_count : Z;
  st_sum : ssum }.

(** [<$type>::MAX], [<$type>::MIN], statistics.rs:129 *)
Definition val_max (d : dtype) : Z :=
  match d with INT32 => i32_max | INT64 => i64_max | FLOAT => f32_max_bits end.
(** [<$type>::MIN], statistics.rs:130 *)
Definition val_min (d : dtype) : Z :=
  match d with INT32 => i32_min | INT64 => i64_min | FLOAT => f32_min_bits end.
(** [a < b] at the value type, statistics.rs:147, 150, 166, 169 *)
Definition val_ltb (d : dtype) (a b : Z) : bool :=
  match d with FLOAT => f32_ltb a b | _ => a <? b end.

(** [new] statistics.rs:68-74 and 125-136; [0 as f32] is the pattern 0. *)
Definition stats_new (d : dtype) : stats :=
  {| st_type := d; st_ts_first := i64_max; st_ts_last := i64_min;
     st_min := val_max d; st_max := val_min d; st_first := 0; st_last := 0; st_count := 0;
     st_sum := match d with INT32 => SumI 0 | _ => SumF f64_zero end |}.

(** [sum_value += x] statistics.rs:154, 173 *)
Definition sum_add (p : profile) (a b : ssum) : outcome ssum :=
  match a, b with
  | SumI x, SumI y => let* s := arithS p 64 (x + y) in Ret (SumI s)
  | SumF x, SumF y => Ret (SumF (f64_add x y))
  | _, _ => Panic PExplicit
  end.
(** [value as $sum] statistics.rs:173 *)
Definition val_to_sum (d : dtype) (v : Z) : ssum :=
  match d with
  | INT32 => SumI v
  | INT64 => SumF (f64_of_Z v)
  | FLOAT => SumF (f64_of_f32 (f32_of_bits v))
  end.

(** [StatisticsStruct::update] statistics.rs:157-174 *)
Definition stats_update_raw (p : profile) (t v : Z) (s : stats) : outcome stats :=
  let d := st_type s in
  let '(tf, fv) := if t <? st_ts_first s then (t, v) else (st_ts_first s, st_first s) in
  let '(tl, lv) := if t >? st_ts_last s then (t, v) else (st_ts_last s, st_last s) in
  let mn := if val_ltb d v (st_min s) then v else st_min s in
  let mx := if val_ltb d (st_max s) v then v else st_max s in
  let* c := arithU p 32 (st_count s + 1) in
  let* sm := sum_add p (st_sum s) (val_to_sum d v) in
  Ret {| st_type := d; st_ts_first := tf; st_ts_last := tl; st_min := mn; st_max := mx;
         st_first := fv; st_last := lv; st_count := c; st_sum := sm |}.

(** [Statistics::update] statistics.rs:32-39: only matching types, otherwise [todo!()]. *)
Definition stats_update (p : profile) (t : Z) (v : value) (s : stats) : outcome stats :=
  match st_type s, v with
  | INT32, VInt n => stats_update_raw p t n s
  | INT64, VLong n => stats_update_raw p t n s
  | FLOAT, VFloat b => stats_update_raw p t b s
  | _, _ => Panic PTodo
  end.

(** [StatisticsStruct::merge] statistics.rs:138-155 behind [Statistics::merge] 43-64 (panics on
    different tags). *)
Definition stats_merge (p : profile) (s o : stats) : outcome stats :=
  if dtype_eqb (st_type s) (st_type o) then
    let d := st_type s in
    let '(tf, fv) := if st_ts_first o <? st_ts_first s then (st_ts_first o, st_first o)
                     else (st_ts_first s, st_first s) in
    let '(tl, lv) := if st_ts_last o >? st_ts_last s then (st_ts_last o, st_last o)
                     else (st_ts_last s, st_last s) in
    let mx := if val_ltb d (st_max s) (st_max o) then st_max o else st_max s in
    let mn := if val_ltb d (st_min o) (st_min s) then st_min o else st_min s in
    let* c := arithU p 32 (st_count s + st_count o) in
    let* sm := sum_add p (st_sum s) (st_sum o) in
    Ret {| st_type := d; st_ts_first := tf; st_ts_last := tl; st_min := mn; st_max := mx;
           st_first := fv; st_last := lv; st_count := c; st_sum := sm |}
  else Panic PExplicit.

(** width in bytes of a value, [to_be_bytes] at statistics.rs:184-187 *)
Definition val_bytes (d : dtype) : nat := match d with INT64 => 8%nat | _ => 4%nat end.
(** [sum_value.to_be_bytes()], statistics.rs:188 *)
Definition sum_bits (s : ssum) : Z := match s with SumI z => z | SumF f => f64_to_bits f end.

(** [serialize] statistics.rs:178-191 *)
Definition stats_serialize (s : stats) : wprog :=
  let n := val_bytes (st_type s) in
  WThen (write_var_u32 (st_count s))
  (WThen (WAll (be_bytes 8 (st_ts_first s)))
  (WThen (WAll (be_bytes 8 (st_ts_last s)))
  (WThen (WAll (be_bytes n (st_min s)))
  (WThen (WAll (be_bytes n (st_max s)))
  (WThen (WAll (be_bytes n (st_first s)))
  (WThen (WAll (be_bytes n (st_last s)))
  (WThen (WAll (be_bytes 8 (sum_bits (st_sum s)))) WNil))))))).

(** [get_serialized_size] statistics.rs:100-120 *)
Definition stats_serialized_size (s : stats) : Z :=
  match st_type s with
  | INT64 => size_var_u32 (st_count s) + 16 + 40
  | INT32 => size_var_u32 (st_count s) + 16 + 24
  | FLOAT => size_var_u32 (st_count s) + 16 + 24
  end.
