(** Specification side: how large a closed file can be, from the schema and the number of points alone. *)
From Verif Require Export SHist.

(** What one flush costs besides the points: 6 bytes and the name per device, 452 bytes and the name per
    series (page and chunk headers with statistics, and the index entry of the chunk). *)
Definition per_flush (sc : schema) : Z :=
  zsum (map (fun dg => 6 + zlen (fst dg) + zsum (map (fun kv => 452 + zlen (fst kv)) (snd dg))) sc).
(** What is paid once: 177 bytes and three times the names per series, and 100 bytes. *)
Definition per_file (sc : schema) : Z :=
  zsum (map (fun dg => zsum (map (fun kv => 177 + 3 * zlen (fst dg) + 3 * zlen (fst kv)) (snd dg))) sc) + 100.
(** A flush before the close needs 128 MiB of buffered data. *)
Definition most_flushes (sc : schema) (n : Z) : Z := 24 * n / (2 ^ 27 - 150 * series_count sc) + 1.
Definition size_bound (sc : schema) (n : Z) : Z := 24 * n + most_flushes sc n * per_flush sc + per_file sc.
