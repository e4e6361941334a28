(** Specification side: closes of sessions with names of any kind (C62). Nothing here looks at the schema: a close goes by
    the chunks in the file and by the texts "device.measurement". *)
From Verif Require Export SAgain.

(** Everything before the last dot. *)
Fixpoint skip_segment (l : list Z) : list Z :=
  match l with [] => [] | c :: l' => if c =? 46 then l' else skip_segment l' end.
Definition device_part (q : list Z) : list Z := rev (skip_segment (rev q)).
(** A set of names, in byte order. *)
Fixpoint insert_new (x : list Z) (l : list (list Z)) : list (list Z) :=
  match l with [] => [x] | y :: l' => if same_name x y then l else if lex_leb x y then x :: l else y :: insert_new x l' end.
Definition name_set (l : list (list Z)) : list (list Z) := fold_right insert_new [] l.

(** The chunks in the file and where they are. *)
Record spot := mkSpot { s_at : Z; s_device : list Z; s_name : list Z; s_ms : mschema; s_points : list (Z * value) }.
Definition s_path (x : spot) : list Z := s_device x ++ [46] ++ s_name x.
Fixpoint spots (snap : list Z -> option (list Z)) (o : Z) (ps : list piece) : list spot :=
  match ps with
  | [] => []
  | x :: ps' => match x with Chunk d m ms pts => [mkSpot o d m ms pts] | Header _ | Tail _ => [] end ++ spots snap (o + zlen (piece_bytes snap x)) ps'
  end.
Definition chunk_paths (snap : list Z -> option (list Z)) (ps : list piece) : list (list Z) := name_set (map s_path (spots snap 7 ps)).
Definition chunks_at (snap : list Z -> option (list Z)) (q : list Z) (ps : list piece) : list spot := filter (fun x => same_name (s_path x) q) (spots snap 7 ps).

(** The record of a path: it has name and type of the first chunk; chunks of another type are left out, but counted. *)
Definition record_name (l : list spot) : list Z := match l with [] => [] | x :: _ => s_name x end.
Definition record_bytes (l : list spot) : list Z :=
  match l with
  | [] => []
  | x :: _ =>
      let dt := ms_type (s_ms x) in
      let several := negb (zlen l =? 1) in
      let same := filter (fun y => dtype_code (ms_type (s_ms y)) =? dtype_code dt) l in
      let cuts := map (fun y => pages_of dt (ms_enc (s_ms y)) (s_points y)) same in
      let list_bytes := concat (map (fun y => digits 8 (s_at y) ++
        if several then stat_bytes dt (s_points y) (chunk_sum dt (pages_of dt (ms_enc (s_ms y)) (s_points y))) else []) same) in
      [if several then 1 else 0] ++ text (s_name x) ++ [dtype_code dt] ++ SLayout.leb (zlen list_bytes) ++
      stat_bytes dt (concat (map s_points same)) (series_sum dt cuts) ++ list_bytes
  end.
(** The records a device gets: those of the paths it is the device part of. *)
Definition path_rows (snap : list Z -> option (list Z)) (ps : list piece) (d : list Z) : list (list Z * list Z) :=
  map (fun q => let l := chunks_at snap q ps in (record_name l, record_bytes l)) (filter (fun q => same_name (device_part q) d) (chunk_paths snap ps)).
Definition stage_rows (snap : list Z -> option (list Z)) (stages : list (list piece)) : list (list Z * list (list Z * list Z)) :=
  map (fun d => (d, concat (map (fun ps => path_rows snap ps d) stages))) (name_set (map device_part (concat (map (chunk_paths snap) stages)))).
(** What a close appends to the pieces [ps]; see [close_bytes]. *)
Definition any_close_bytes (snap : list Z -> option (list Z)) (stages : list (list piece)) (ps : list piece) (nodes : list (list Z * list Z)) : list Z :=
  let start := 7 + zlen (data_bytes snap ps) in
  let rows := concat (map (fun dr => rows_bytes (snd dr)) (stage_rows snap stages)) in
  let o := start + 1 + zlen rows in
  let foot := node_image (entries o (map (fun x => [x]) nodes)) (o + zlen (rows_bytes nodes)) 1 ++ digits 8 start ++ filter_image (chunk_paths snap ps) in
  [2] ++ rows ++ rows_bytes nodes ++ foot ++ digits 4 (zlen foot) ++ magic.
Definition any_close_appends (snap : list Z -> option (list Z)) (stages : list (list piece)) (ps : list piece) (bs : list Z) : Prop :=
  exists nodes, Permutation nodes (device_nodes (8 + zlen (data_bytes snap ps)) (stage_rows snap stages)) /\ bs = any_close_bytes snap stages ps nodes.
Definition written_any (snap : list Z -> option (list Z)) (sc : schema) : list op -> list piece -> list (list piece) -> Prop :=
  session_file (any_close_appends snap) snap sc.

(** Declared texts with the same device part. *)
Definition declared_paths (sc : schema) : list (list Z) := name_set (concat (map (fun dg => map (fun ms => fst dg ++ [46] ++ fst ms) (snd dg)) sc)).
Definition few_paths (sc : schema) (n k : Z) : Prop := forall d, n * zlen (filter (fun q => same_name (device_part q) d) (declared_paths sc)) <= k.
