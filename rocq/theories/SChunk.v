(** Specification side: driving one chunk writer, and what is assumed of the compressor. *)
From Verif Require Export MChunk SStats SReader.

(** What is assumed of the external crate snap: compression succeeds, decompression inverts it, and the
    result stays within the documented bound [max_compress_len]. *)
Definition good_snap (snap decomp : list Z -> option (list Z)) : Prop :=
  forall l, Forall (fun b => 0 <= b < 256) l -> zlen l < 2 ^ 32 ->
  exists out, snap l = Some out /\ decomp out = Some l /\ zlen out <= 32 + zlen l + zlen l / 6.

(** [ChunkWriter::write] for every point; [inr] as soon as one call returns an error. *)
Definition cw_run (p : profile) (snap : compressor) (pts : list (Z * value)) (c : chunk_writer)
  : outcome (chunk_writer + tserror) :=
  foldM (fun s tv => match s with
                     | inl c => cw_write p snap (fst tv) (snd tv) c
                     | inr e => Ret (inr e)
                     end) pts (inl c).
(** A fresh chunk writer, [write]*, [seal_current_page]. *)
Definition cw_session (p : profile) (snap : compressor) (id : list Z) (dt : dtype) (comp : compression)
    (enc : encoding) (pts : list (Z * value)) : outcome (chunk_writer + tserror) :=
  let* s := cw_run p snap pts (cw_new id dt comp enc) in
  match s with
  | inl c => let* c' := seal_current_page p snap c in Ret (inl c')
  | inr e => Ret (inr e)
  end.

(** The statistics of a chunk: its pages' statistics merged one after the other into fresh ones. *)
Definition chunk_tree (pages : list (list (Z * value))) : mtree :=
  fold_left (fun t pg => Merge t (Page pg)) pages Empty.

(** A page as a reader sees it holds the points [pg]; if page statistics are stored they are those of
    the points. *)
Definition page_holds (p : profile) (dt : dtype) (stored : bool) (pg : list (Z * value)) (q : page) : Prop :=
  pg_points q = tnums pg /\
  if stored then exists sf s, pg_stats q = Some sf /\ page_stats p dt pg = Ret s /\ same_stats sf s
  else pg_stats q = None.
