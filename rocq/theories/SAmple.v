(** Specification side: when a session is [modest], from the schema and the calls alone (C59). *)
From Verif Require Export SLayout SSize.

(** A condition on the schema and the calls alone. Besides the points (24 bytes each), a flush and the metadata cost what
    SSize.v says; neither the buffered points with those of the next call, nor the last flush with the metadata, may
    reach 4 GiB. *)
Definition ample (snap : compressor) (sc : schema) (ops : list op) : Prop :=
  let buffered a := zlen (h_recent (ss_hist (session_of snap sc a))) in
  150 * series_count sc < 2 ^ 27 /\
  (forall a o b, ops = a ++ o :: b -> 24 * (buffered a + op_points o) + per_flush sc < 2 ^ 32) /\
  24 * buffered ops + (most_flushes sc (zsum (map op_points ops)) + 1) * per_flush sc + per_file sc < 2 ^ 32.
