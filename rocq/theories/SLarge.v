(** Specification side: files of any size (C59). *)
From Verif Require Export SHist.

(** No call of the session appends 4 GiB or more, and the file stays below 2^63 bytes: chunk sizes and the size of
    the metadata are four byte fields, file offsets are signed eight byte fields. *)
Definition modest (p : profile) (snap : compressor) (sc : schema) (ops : list op) : Prop :=
  forall out w0 a o b w l w' r, writer_new sc (sink_new healthy) = (out, Some w0) -> ops = a ++ o :: b ->
    run p snap w0 a = Ret (w, l) -> step p snap w o = Ret (w', r) ->
    zlen (file_bytes w') - zlen (file_bytes w) < 2 ^ 32 /\ zlen (file_bytes w') < 2 ^ 63.
