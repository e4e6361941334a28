(** Specification side: sessions with any number of closes, byte for byte (C61). *)
From Verif Require Export SLayout SReclose.

(** A close flushes what has been counted; the count at which memory is estimated next stays. *)
Definition session_close (s : session) : session :=
  mkSession (final_flushes s) (if 0 <? h_counted (ss_hist s) then h_flush (ss_hist s) else ss_hist s) (ss_next s).
Definition session_next (snap : list Z -> option (list Z)) (sc : schema) (s : session) (o : op) : session :=
  if is_close o then session_close s else session_call snap sc s o.
Definition session_after (snap : list Z -> option (list Z)) (sc : schema) (ops : list op) : session :=
  fold_left (session_next snap sc) ops session_new.
(** As [roomy]: never 4 GiB of buffered points with those of the next call. *)
Definition roomy_after (snap : list Z -> option (list Z)) (sc : schema) (ops : list op) : Prop :=
  150 * series_count sc < 2 ^ 32 /\ forall a o b, ops = a ++ o :: b ->
    24 * (zlen (h_recent (ss_hist (session_after snap sc a))) + op_points o) + 150 * series_count sc < 2 ^ 32.

(** What a close lists. [stages] holds, for this close and those before it, the pieces that were in the file: each close
    lists again what the earlier ones listed, and then all chunks. *)
Definition listed_rows (snap : list Z -> option (list Z)) (sc : schema) (stages : list (list piece)) : list (list Z * list (list Z * list Z)) :=
  filter (fun dr => match snd dr with [] => false | _ => true end)
    (map (fun dg => (fst dg, concat (map (fun ps => device_rows snap ps (fst dg) (snd dg)) stages))) (by_name sc)).
(** The metadata a close appends when the pieces [ps] are in the file. The filter is built from the series with chunks. *)
Definition close_bytes (snap : list Z -> option (list Z)) (sc : schema) (stages : list (list piece)) (ps : list piece)
    (nodes : list (list Z * list Z)) : list Z :=
  let start := 7 + zlen (data_bytes snap ps) in
  let rows := concat (map (fun dr => rows_bytes (snd dr)) (listed_rows snap sc stages)) in
  let o := start + 1 + zlen rows in
  let paths := concat (map (fun dr => map (fun r => fst dr ++ [46] ++ fst r) (snd dr)) (index_rows snap sc ps)) in
  let foot := node_image (entries o (map (fun x => [x]) nodes)) (o + zlen (rows_bytes nodes)) 1 ++ digits 8 start ++ filter_image paths in
  [2] ++ rows ++ rows_bytes nodes ++ foot ++ digits 4 (zlen foot) ++ magic.
(** The flushes one call adds. *)
Definition added (snap : list Z -> option (list Z)) (sc : schema) (ops : list op) (o : op) : list (list point) :=
  skipn (length (ss_flushes (session_after snap sc ops))) (ss_flushes (session_after snap sc (ops ++ [o]))).
(** After the calls [ops] the file holds the pieces [ps], and the closes listed [stages]; [appends stages ps bs]: a close
    that lists [stages] may append [bs] to the pieces [ps]. *)
Inductive session_file (appends : list (list piece) -> list piece -> list Z -> Prop) (snap : list Z -> option (list Z)) (sc : schema) :
    list op -> list piece -> list (list piece) -> Prop :=
  | written_new : session_file appends snap sc [] [] []
  | written_call : forall ops ps stages o, session_file appends snap sc ops ps stages -> is_close o = false ->
      session_file appends snap sc (ops ++ [o]) (ps ++ pieces sc (added snap sc ops o)) stages
  | written_close : forall ops ps stages ord bs, session_file appends snap sc ops ps stages ->
      let ps' := ps ++ pieces sc (added snap sc ops (OpClose ord)) in
      appends (stages ++ [ps']) ps' bs -> session_file appends snap sc (ops ++ [OpClose ord]) (ps' ++ [Tail bs]) (stages ++ [ps']).
(** The nodes of the devices are written in any order. *)
Definition close_appends (snap : list Z -> option (list Z)) (sc : schema) (stages : list (list piece)) (ps : list piece) (bs : list Z) : Prop :=
  exists nodes, Permutation nodes (device_nodes (8 + zlen (data_bytes snap ps)) (listed_rows snap sc stages)) /\ bs = close_bytes snap sc stages ps nodes.
Definition written (snap : list Z -> option (list Z)) (sc : schema) : list op -> list piece -> list (list piece) -> Prop :=
  session_file (close_appends snap sc) snap sc.
Definition the_file (snap : list Z -> option (list Z)) (ps : list piece) : list Z := magic ++ [3] ++ data_bytes snap ps.
(** Every close writes the devices in some order. *)
Definition orders_ok (ops : list op) : Prop := Forall (fun o => match o with OpClose ord => good_order ord | _ => True end) ops.
Definition closes (ops : list op) : Z := zlen (filter is_close ops).
