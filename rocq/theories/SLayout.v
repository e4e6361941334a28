(** Specification side of C55: the bytes of a file as a function of the schema and the calls. A reference
    encoder without buffers, states and positions counters: columns, pages, chunks, flushes, index and filter
    are functions of the points they are about. *)
From Verif Require Export SPage SIndex.

(** ** Numbers and names *)
(** [n] big-endian base-256 digits (two's complement). *)
Fixpoint digits (n : nat) (v : Z) : list Z :=
  match n with O => [] | S n' => digits n' (v / 256) ++ [v mod 256] end.
(** LEB128 of a number below 2^35. *)
Fixpoint leb_groups (n : nat) (u : Z) : list Z :=
  match n with O => [] | S n' => if u <? 128 then [u] else (128 + u mod 128) :: leb_groups n' (u / 128) end.
Definition leb (u : Z) : list Z := leb_groups 5 u.
Definition zigzag (n : Z) : Z := if n <? 0 then - 2 * n - 1 else 2 * n.
Definition text (s : list Z) : list Z := leb (zigzag (zlen s)) ++ s.

(** ** Columns *)
(** A TS_2DIFF block: number of deltas, bits per delta, smallest delta, first value; then the deltas minus the
    smallest one, each in the least number of bits that holds the spread, left aligned. *)
Definition ts2_block_bytes (bits : Z) (b : list Z) : list Z :=
  let ds := map (sgn bits) (steps b) in
  let low := least ds in
  let w := bit_length (greatest ds - low) in
  let n := zlen ds * w in
  let size := Z.to_nat (bits / 8) in
  digits 4 (zlen ds) ++ digits 4 w ++ digits size (match ds with [] => 2 ^ (bits - 1) - 1 | _ => low end) ++ digits size (hd 0 b) ++
  digits (Z.to_nat ((n + 7) / 8)) (fold_left (fun a d => a * 2 ^ w + (d - low)) ds 0 * 2 ^ ((- n) mod 8)).
Definition ts2_bytes (bits : Z) (vs : list Z) : list Z := concat (map (ts2_block_bytes bits) (chop 129 vs)).
Definition column_bytes (dt : dtype) (enc : encoding) (vs : list Z) : list Z :=
  match enc, dt with
  | TS2DIFF, INT32 => ts2_bytes 32 vs
  | TS2DIFF, _ => ts2_bytes 64 vs
  | PLAIN, INT32 => concat (map (fun n => leb (zigzag n)) vs)
  | PLAIN, INT64 => concat (map (digits 8) vs)
  | PLAIN, FLOAT => concat (map (digits 4) vs)
  end.

(** ** Statistics *)
Definition below (dt : dtype) (a b : Z) : bool :=
  match dt with FLOAT => negb (bits_nan a) && negb (bits_nan b) && (f32_key a <? f32_key b) | _ => a <? b end.
(** Starting from the largest finite number of the type, NaN is skipped; likewise the other way. *)
Definition smallest (dt : dtype) (l : list Z) : Z :=
  fold_left (fun x y => if below dt y x then y else x) l (match dt with INT32 => 2 ^ 31 - 1 | INT64 => 2 ^ 63 - 1 | FLOAT => 0x7F7FFFFF end).
Definition largest (dt : dtype) (l : list Z) : Z :=
  fold_left (fun x y => if below dt x y then y else x) l (match dt with INT32 => - 2 ^ 31 | INT64 => - 2 ^ 63 | FLOAT => 0xFF7FFFFF end).
(** Time and value of the first point with the smallest time; a lone point at the end of time is overlooked. *)
Definition earliest (l : list (Z * Z)) : Z * Z := fold_left (fun x y => if fst y <? fst x then y else x) l (2 ^ 63 - 1, 0).
Definition latest (l : list (Z * Z)) : Z * Z := fold_left (fun x y => if fst x <? fst y then y else x) l (- 2 ^ 63, 0).
(** binary64 pattern of a number; NaN is the positive quiet one. *)
Definition pattern64 (x : spec_float) : Z :=
  match x with
  | S754_zero s => if s then 2 ^ 63 else 0
  | S754_infinity s => (if s then 2 ^ 63 else 0) + 2047 * 2 ^ 52
  | S754_nan => 2047 * 2 ^ 52 + 2 ^ 51
  | S754_finite s m e => (if s then 2 ^ 63 else 0) + (if Zpos m <? 2 ^ 52 then Zpos m else (e + 1074) * 2 ^ 52 + Zpos m)
  end.
(** binary64 sums: pages from left to right, then pages of a chunk, then chunks of a series. *)
Definition page_sum (dt : dtype) (pts : list (Z * value)) : spec_float := fsum (map (to_f64 dt) (nums pts)).
Definition chunk_sum (dt : dtype) (pages : list (list (Z * value))) : spec_float := fsum (map (page_sum dt) pages).
Definition series_sum (dt : dtype) (chunks : list (list (list (Z * value)))) : spec_float := fsum (map (chunk_sum dt) chunks).
(** Statistics of the points [pts] with binary64 sum [f] (INT32 has an integer sum instead). *)
Definition stat_bytes (dt : dtype) (pts : list (Z * value)) (f : spec_float) : list Z :=
  let n := match dt with INT64 => 8%nat | _ => 4%nat end in
  let a := earliest (tnums pts) in
  let b := latest (tnums pts) in
  leb (zlen pts) ++ digits 8 (fst a) ++ digits 8 (fst b) ++ digits n (smallest dt (nums pts)) ++ digits n (largest dt (nums pts)) ++
  digits n (snd a) ++ digits n (snd b) ++ digits 8 (match dt with INT32 => zsum (nums pts) | _ => pattern64 f end).

(** ** Pages and chunks *)
Definition pages_of (dt : dtype) (enc : encoding) (pts : list (Z * value)) : list (list (Z * value)) :=
  let '(pages, cur, _) := cut dt enc pts in pages ++ match cur with [] => [] | _ => [cur] end.
Definition page_content (dt : dtype) (enc : encoding) (pts : list (Z * value)) : list Z :=
  let ts := ts2_bytes 64 (times pts) in leb (zlen ts) ++ ts ++ column_bytes dt enc (nums pts).
Definition squeeze (snap : list Z -> option (list Z)) (c : compression) (l : list Z) : list Z :=
  match c with UNCOMPRESSED => l | SNAPPY => match snap l with Some x => x | None => [] end end.
Definition page_bytes (snap : list Z -> option (list Z)) (ms : mschema) (with_stat : bool) (pts : list (Z * value)) : list Z :=
  let c := page_content (ms_type ms) (ms_enc ms) pts in
  let z := squeeze snap (ms_comp ms) c in
  leb (zlen c) ++ leb (zlen z) ++ (if with_stat then stat_bytes (ms_type ms) pts (page_sum (ms_type ms) pts) else []) ++ z.
(** Pages of a chunk; a single page has no statistics of its own. *)
Definition pages_bytes (snap : list Z -> option (list Z)) (ms : mschema) (pages : list (list (Z * value))) : list Z :=
  concat (map (page_bytes snap ms (negb (zlen pages =? 1))) pages).
Definition chunk_image (snap : list Z -> option (list Z)) (m : list Z) (ms : mschema) (pts : list (Z * value)) : list Z :=
  let pages := pages_of (ms_type ms) (ms_enc ms) pts in
  let data := pages_bytes snap ms pages in
  [if zlen pages =? 1 then 5 else 1] ++ text m ++ leb (zlen data) ++
  [dtype_code (ms_type ms); compression_code (ms_comp ms); encoding_code (ms_enc ms)] ++ data.

(** ** Flushes *)
(** Names in byte order. *)
Fixpoint insert_name {V} (x : list Z * V) (l : list (list Z * V)) : list (list Z * V) :=
  match l with [] => [x] | y :: l' => if lex_leb (fst x) (fst y) then x :: l else y :: insert_name x l' end.
Definition by_name {V} (l : list (list Z * V)) : list (list Z * V) := fold_right insert_name [] l.
(** A flush writes for every declared device a header and the chunks of the series with points. A writer that goes on
    after a close (C61) leaves the metadata of that close behind. *)
Inductive piece := Header (d : list Z) | Chunk (d m : list Z) (ms : mschema) (pts : list (Z * value)) | Tail (bs : list Z).
Definition piece_bytes (snap : list Z -> option (list Z)) (x : piece) : list Z :=
  match x with Header d => [0] ++ text d | Chunk _ m ms pts => chunk_image snap m ms pts | Tail bs => bs end.
Definition group_pieces (pts : list point) (d : list Z) (g : mgroup) : list piece :=
  Header d :: concat (map (fun ms => match series_of d (fst ms) pts with [] => [] | l => [Chunk d (fst ms) (snd ms) l] end) (by_name g)).
Definition flush_pieces (sc : schema) (pts : list point) : list piece :=
  concat (map (fun dg => group_pieces pts (fst dg) (snd dg)) (by_name sc)).
Definition pieces (sc : schema) (flushes : list (list point)) : list piece := concat (map (flush_pieces sc) flushes).
Definition data_bytes (snap : list Z -> option (list Z)) (ps : list piece) : list Z := concat (map (piece_bytes snap) ps).
(** Where the chunks of a series are, if the pieces start at offset [o]. *)
Fixpoint places (snap : list Z -> option (list Z)) (d m : list Z) (o : Z) (ps : list piece) : list (Z * list (Z * value)) :=
  match ps with
  | [] => []
  | x :: ps' =>
      match x with
      | Chunk d' m' _ pts => if same_name d' d && same_name m' m then [(o, pts)] else []
      | Header _ | Tail _ => []
      end ++ places snap d m (o + zlen (piece_bytes snap x)) ps'
  end.

(** ** Index *)
(** The record of a series: with several chunks each reference carries the statistics of its chunk. *)
Definition series_bytes (m : list Z) (ms : mschema) (refs : list (Z * list (Z * value))) : list Z :=
  let dt := ms_type ms in
  let several := negb (zlen refs =? 1) in
  let cuts := map (fun r => pages_of dt (ms_enc ms) (snd r)) refs in
  let list_bytes := concat (map (fun r => digits 8 (fst r) ++
    if several then stat_bytes dt (snd r) (chunk_sum dt (pages_of dt (ms_enc ms) (snd r))) else []) refs) in
  [if several then 1 else 0] ++ text m ++ [dtype_code dt] ++ leb (zlen list_bytes) ++
  stat_bytes dt (concat (map snd refs)) (series_sum dt cuts) ++ list_bytes.
(** Devices with data, their series with data, in byte order. *)
Definition device_rows (snap : list Z -> option (list Z)) (ps : list piece) (d : list Z) (g : mgroup) : list (list Z * list Z) :=
  concat (map (fun ms => match places snap d (fst ms) 7 ps with [] => [] | refs => [(fst ms, series_bytes (fst ms) (snd ms) refs)] end) (by_name g)).
Definition index_rows (snap : list Z -> option (list Z)) (sc : schema) (ps : list piece) : list (list Z * list (list Z * list Z)) :=
  filter (fun dr => match snd dr with [] => false | _ => true end)
    (map (fun dg => (fst dg, device_rows snap ps (fst dg) (snd dg))) (by_name sc)).
Definition rows_bytes (rows : list (list Z * list Z)) : list Z := concat (map snd rows).
(** Name of the first row and offset of each piece of a table. *)
Fixpoint entries (o : Z) (l : list (list (list Z * list Z))) : list (list Z * Z) :=
  match l with
  | [] => []
  | p :: l' => (fst (hd ([], []) p), o) :: entries (o + zlen (rows_bytes p)) l'
  end.
Definition node_image (es : list (list Z * Z)) (e ty : Z) : list Z :=
  leb (zlen es) ++ concat (map (fun x => text (fst x) ++ digits 8 (snd x)) es) ++ digits 8 e ++ [ty].
(** One node per device: an entry for every 256 series. *)
Fixpoint device_nodes (o : Z) (l : list (list Z * list (list Z * list Z))) : list (list Z * list Z) :=
  match l with
  | [] => []
  | (d, rows) :: l' => let e := o + zlen (rows_bytes rows) in (d, node_image (entries o (chop 256 rows)) e 3) :: device_nodes e l'
  end.

(** ** Filter *)
Definition filter_size (n : Z) : Z :=
  let ln2 := S754_finite false 6243314768165359 (-53) in
  let ln005 := S754_finite true 6745789375439761 (-51) in
  Z.max 256 (1 + whole (SFdiv 53 1024 (SFdiv 53 1024 (SFmul 53 1024 (binary_normalize 53 1024 (- n) 0 false) ln005) ln2) ln2)).
Fixpoint drop_zeros (l : list Z) : list Z := match l with 0 :: l' => drop_zeros l' | _ => l end.
Definition filter_image (paths : list (list Z)) : list Z :=
  let size := filter_size (zlen paths) in
  let ones := flat_map (fun q => map (fun s => Z.abs (path_hash q s) mod size) [5; 7; 11; 19; 31]) paths in
  let on i := existsb (fun k => k =? i) ones in
  let byte j := zsum (map (fun b => if on (8 * Z.of_nat j + b) then 2 ^ b else 0) [0; 1; 2; 3; 4; 5; 6; 7]) in
  let bs := rev (drop_zeros (rev (map byte (seq 0 (Z.to_nat ((size + 7) / 8)))))) in
  leb (zlen bs) ++ bs ++ leb size ++ leb 5.

(** ** The file *)
(** Before a close. *)
Definition open_file (snap : list Z -> option (list Z)) (sc : schema) (flushes : list (list point)) : list Z :=
  magic ++ [3] ++ data_bytes snap (pieces sc flushes).
(** The nodes of the devices, in byte order of the devices; they are written in any order. *)
Definition file_nodes (snap : list Z -> option (list Z)) (sc : schema) (flushes : list (list point)) : list (list Z * list Z) :=
  device_nodes (8 + zlen (data_bytes snap (pieces sc flushes))) (index_rows snap sc (pieces sc flushes)).
Definition closed_file (snap : list Z -> option (list Z)) (sc : schema) (flushes : list (list point)) (nodes : list (list Z * list Z)) : list Z :=
  let body := open_file snap sc flushes in
  let table := index_rows snap sc (pieces sc flushes) in
  let head := body ++ [2] ++ concat (map (fun dr => rows_bytes (snd dr)) table) in
  let o := zlen head in
  let paths := concat (map (fun dr => map (fun r => fst dr ++ [46] ++ fst r) (snd dr)) table) in
  let foot := node_image (entries o (map (fun x => [x]) nodes)) (o + zlen (rows_bytes nodes)) 1 ++ digits 8 (zlen body) ++ filter_image paths in
  head ++ rows_bytes nodes ++ foot ++ digits 4 (zlen foot) ++ magic.

(** ** When the writer flushes *)
(** Memory of a series: the finished pages, the estimate of the open page, and its statistics. *)
Definition series_memory (snap : list Z -> option (list Z)) (ms : mschema) (pts : list (Z * value)) : Z :=
  match pts with
  | [] => 0
  | _ =>
      let '(pages, cur, _) := cut (ms_type ms) (ms_enc ms) pts in
      zlen (pages_bytes snap ms pages) + page_estimate (ms_type ms) (ms_enc ms) cur +
      (10 + zlen (leb (zlen cur)) + 16 + match ms_type ms with INT64 => 40 | _ => 24 end)
  end.
Definition memory (snap : list Z -> option (list Z)) (sc : schema) (pts : list point) : Z :=
  zsum (map (fun dg => zsum (map (fun ms => series_memory snap (snd ms) (series_of (fst dg) (fst ms) pts)) (snd dg))) sc).
(** Flushes done, history since, and the count at which memory is estimated next. *)
Record session := mkSession { ss_flushes : list (list point); ss_hist : hist; ss_next : Z }.
Definition session_new : session := mkSession [] h_new 100.
Definition call_ok (sc : schema) (o : op) (h : hist) : bool :=
  match o with
  | OpWrite d m t v => match h_verdict sc h d m t with VStored => true | _ => false end
  | OpWriteMany d t vs => match b_verdict sc h d t vs with VStored => true | _ => false end
  | OpClose _ => false
  end.
Definition session_call (snap : list Z -> option (list Z)) (sc : schema) (s : session) (o : op) : session :=
  let h := h_call sc o (ss_hist s) in
  if call_ok sc o (ss_hist s) && (ss_next s <=? h_counted h) then
    let mem := memory snap sc (h_recent h) in
    let next := (ss_next s * 2 ^ 27 / mem) mod 2 ^ 32 in
    if (2 ^ 27 <? mem) && (0 <? h_counted h) then mkSession (ss_flushes s ++ [h_recent h]) (h_flush h) next
    else mkSession (ss_flushes s) h next
  else mkSession (ss_flushes s) h (ss_next s).
Definition session_of (snap : list Z -> option (list Z)) (sc : schema) (ops : list op) : session :=
  fold_left (session_call snap sc) ops session_new.
(** At no moment do the buffered points together with those of the next call reach the 4 GiB of the memory estimate. *)
Definition roomy (snap : list Z -> option (list Z)) (sc : schema) (ops : list op) : Prop :=
  150 * series_count sc < 2 ^ 32 /\ forall a o b, ops = a ++ o :: b ->
    24 * (zlen (h_recent (ss_hist (session_of snap sc a))) + op_points o) + 150 * series_count sc < 2 ^ 32.
(** What a close adds. *)
Definition final_flushes (s : session) : list (list point) :=
  ss_flushes s ++ if 0 <? h_counted (ss_hist s) then [h_recent (ss_hist s)] else [].
