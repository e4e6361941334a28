(** Specification side of C47: compressors that may fail. *)
From Verif Require Export SChunk.

(** The external crate snap, allowed to fail on any input: when it succeeds decompression inverts it and
    the result stays within [max_compress_len]. *)
Definition fair_snap (snap decomp : list Z -> option (list Z)) : Prop :=
  forall l out, Forall (fun b => 0 <= b < 256) l -> zlen l < 2 ^ 32 -> snap l = Some out ->
  decomp out = Some l /\ zlen out <= 32 + zlen l + zlen l / 6.

(** The compressor rejects a page with these points: some page content that a reader decodes to exactly
    them. *)
Definition rejects (snap : list Z -> option (list Z)) (dt : dtype) (enc : encoding) (pts : list (Z * value)) : Prop :=
  exists content, page_points (dtype_code dt) (encoding_code enc) content = Some (tnums pts) /\ snap content = None.

(** Calls on one chunk writer in any order: writes and seals ([seal_current_page] is called by every flush,
    also after a failure). *)
Inductive cw_op := CWrite (t : Z) (v : value) | CSeal.
Definition cw_do (p : profile) (snap : compressor) (ops : list cw_op) (c : chunk_writer) : outcome (chunk_writer + tserror) :=
  foldM (fun s o => match s, o with
                    | inr e, _ => Ret (inr e)
                    | inl c, CWrite t v => cw_write p snap t v c
                    | inl c, CSeal => let* c' := seal_current_page p snap c in Ret (inl c')
                    end) ops (inl c).
Definition op_points (o : cw_op) : list (Z * value) := match o with CWrite t v => [(t, v)] | CSeal => [] end.
Definition ops_points (ops : list cw_op) : list (Z * value) := concat (map op_points ops).

(** What a chunk writer has finished: pages whose bytes an independent reader decodes to the points, with
    their statistics, and the merged statistics. *)
Definition chunk_has (p : profile) (decomp : list Z -> option (list Z)) (dt : dtype) (comp : compression) (enc : encoding)
    (c : chunk_writer) (pages : list (list (Z * value))) : Prop :=
  cw_num_pages c = zlen pages /\ Forall (fun pg => pg <> []) pages /\
  tree_stats p dt (chunk_tree pages) = Ret (cw_stats c) /\
  (pages = [] -> cw_buffer c = []) /\
  (pages <> [] -> exists qs, chunk_data decomp (if zlen pages <=? 1 then 5 else 1) (dtype_code dt) (compression_code comp)
      (encoding_code enc) (cw_buffer c) = Some qs /\ Forall2 (page_holds p dt (negb (zlen pages <=? 1))) pages qs).
