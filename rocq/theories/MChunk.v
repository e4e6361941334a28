(** writer/chunk_writer.rs: page and chunk writers, chunk header, chunk metadata. *)
From Verif Require Export MStats.

(** Constants chunk_writer.rs:15-18 *)
Definition MAX_NUMBER_OF_POINTS_IN_PAGE : Z := 1048576.
(** chunk_writer.rs:16 *)
Definition VALUE_COUNT_IN_ONE_PAGE_FOR_NEXT_CHECK : Z := 7989.
(** chunk_writer.rs:17 *)
Definition PAGE_SIZE_THRESHOLD : Z := 65536.
(** chunk_writer.rs:18 *)
Definition MINIMUM_RECORD_COUNT_FOR_CHECK : Z := 1500.

(** [PageWriter] chunk_writer.rs:20-28 *)
Record page_writer := mkPW {
  pw_time : ts2;
  pw_value : encoder;
  pw_type : dtype;
  pw_stats : stats;
  pw_points : Z;
  pw_buffer : list byte }.

(** [PageWriter::new] chunk_writer.rs:31-40 *)
Definition pw_new (dt : dtype) (enc : encoding) : page_writer + tserror :=
  match encoder_new dt enc with
  | inl e => inl {| pw_time := ts2_new KLong; pw_value := e; pw_type := dt;
                    pw_stats := stats_new dt; pw_points := 0; pw_buffer := [] |}
  | inr err => inr err
  end.

(** [PageWriter::reset] chunk_writer.rs:42-47 (the buffer is left alone) *)
Definition pw_reset (w : page_writer) : page_writer :=
  {| pw_time := ts2_reset KLong (pw_time w); pw_value := encoder_reset (pw_value w);
     pw_type := pw_type w; pw_stats := stats_new (pw_type w); pw_points := 0;
     pw_buffer := pw_buffer w |}.

(** [PageWriter::estimate_max_mem_size] chunk_writer.rs:49-58: [u32] additions left to right *)
Definition pw_estimate (p : profile) (w : page_writer) : outcome Z :=
  let* a := arithU p 32 (ts2_size (pw_time w) + encoder_size (pw_value w)) in
  let* b := arithU p 32 (a + ts2_max_byte_size KLong (pw_time w)) in
  arithU p 32 (b + encoder_max_byte_size (pw_value w)).

(** [PageWriter::write] chunk_writer.rs:60-66: the results of the encoders are dropped, the
    statistics panic on a value of another type. *)
Definition pw_write (p : profile) (t : Z) (v : value) (w : page_writer) : outcome page_writer :=
  let* te := ts2_write p KLong t (pw_time w) in
  let* ve := encoder_write p v (pw_value w) in
  let* st := stats_update p t v (pw_stats w) in
  let* n := arithU p 32 (pw_points w + 1) in
  Ret {| pw_time := te; pw_value := fst ve; pw_type := pw_type w; pw_stats := st;
         pw_points := n; pw_buffer := pw_buffer w |}.

(** [PageWriter::prepare_buffer] chunk_writer.rs:68-76 *)
Definition pw_prepare (p : profile) (w : page_writer) : outcome page_writer :=
  let* rt := ts2_serialize p KLong (pw_time w) in
  let* rv := encoder_serialize p (pw_value w) in
  Ret {| pw_time := fst rt; pw_value := fst rv; pw_type := pw_type w; pw_stats := pw_stats w;
         pw_points := pw_points w;
         pw_buffer := wbytes (write_var_u32 (wrapU 32 (zlen (snd rt)))) ++ snd rt ++ snd rv |}.

(** [ChunkWriter] chunk_writer.rs:79-95 ([mask], [offset_of_chunk_header] are dead fields) *)
Record chunk_writer := mkCW {
  cw_id : str;
  cw_type : dtype;
  cw_comp : compression;
  cw_enc : encoding;
  cw_stats : stats;
  cw_page : option page_writer;
  cw_buffer : list byte;
  cw_num_pages : Z;
  cw_first_stats : option stats;
  cw_next_check : Z;
  cw_size_wo_stats : Z }.

(** [ChunkWriter::new] chunk_writer.rs:98-119 *)
Definition cw_new (id : str) (dt : dtype) (comp : compression) (enc : encoding) : chunk_writer :=
  {| cw_id := id; cw_type := dt; cw_comp := comp; cw_enc := enc; cw_stats := stats_new dt;
     cw_page := None; cw_buffer := []; cw_num_pages := 0; cw_first_stats := None;
     cw_next_check := VALUE_COUNT_IN_ONE_PAGE_FOR_NEXT_CHECK; cw_size_wo_stats := 0 |}.

(** record updates of [ChunkWriter], chunk_writer.rs:79-95: assignment to [current_page_writer] *)
Definition cw_with_page (pg : option page_writer) (c : chunk_writer) : chunk_writer :=
  {| cw_id := cw_id c; cw_type := cw_type c; cw_comp := cw_comp c; cw_enc := cw_enc c;
     cw_stats := cw_stats c; cw_page := pg; cw_buffer := cw_buffer c;
     cw_num_pages := cw_num_pages c; cw_first_stats := cw_first_stats c;
     cw_next_check := cw_next_check c; cw_size_wo_stats := cw_size_wo_stats c |}.
(** Assignment to [value_count_in_one_page_for_next_check], chunk_writer.rs:304-331 *)
Definition cw_with_next (n : Z) (c : chunk_writer) : chunk_writer :=
  {| cw_id := cw_id c; cw_type := cw_type c; cw_comp := cw_comp c; cw_enc := cw_enc c;
     cw_stats := cw_stats c; cw_page := cw_page c; cw_buffer := cw_buffer c;
     cw_num_pages := cw_num_pages c; cw_first_stats := cw_first_stats c;
     cw_next_check := n; cw_size_wo_stats := cw_size_wo_stats c |}.

(** The snappy encoder of the external crate [snap] (chunk_writer.rs:369-383): [None] is an
    error. *)
Definition compressor := list byte -> option (list byte).

(** [write_page_to_buffer] chunk_writer.rs:358-496. The boolean is [true] for [Ok]; the only
    error is [Compression] (lines 379-381), with the page already prepared. *)
Definition write_page_to_buffer (p : profile) (snap : compressor) (c : chunk_writer)
  : outcome (chunk_writer * bool) :=
  match cw_page c with
  | None => Ret (c, true)
  | Some pw0 =>
      let* pw := pw_prepare p pw0 in                                         (* 360 *)
      let uncompressed_bytes := wrapU 32 (zlen (pw_buffer pw)) in             (* 362-364 *)
      let compressed :=                                                       (* 365-384, 397-404 *)
        match cw_comp c with
        | UNCOMPRESSED => Some (pw_buffer pw, uncompressed_bytes)
        | SNAPPY =>
            match snap (pw_buffer pw) with
            | Some out => Some (out, wrapU 32 (zlen out))
            | None => None
            end
        end in
      match compressed with
      | None => Ret (cw_with_page (Some pw) c, false)                         (* 379-381 *)
      | Some (content, compressed_bytes) =>
          let sizes := wbytes (write_var_u32 uncompressed_bytes)
                       ++ wbytes (write_var_u32 compressed_bytes) in
          let* bfs :=
            if cw_num_pages c =? 0 then                                       (* 387-408 *)
              Ret (cw_buffer c ++ sizes ++ content,
                   Some (pw_stats pw),
                   cw_size_wo_stats c + write_var_u32_ret uncompressed_bytes
                     + write_var_u32_ret compressed_bytes)
            else if cw_num_pages c =? 1 then                                  (* 409-461 *)
              let temp := cw_buffer c in
              if cw_size_wo_stats c <=? zlen temp then
                let k := Z.to_nat (cw_size_wo_stats c) in
                match cw_first_stats c with
                | None => Panic PExplicit                                     (* 419 *)
                | Some fs =>
                    Ret (firstn k temp ++ wbytes (stats_serialize fs) ++ skipn k temp
                         ++ sizes ++ wbytes (stats_serialize (pw_stats pw)) ++ content,
                         None, cw_size_wo_stats c)
                end
              else Panic PIndex                                               (* 414, 422 *)
            else                                                              (* 462-489 *)
              Ret (cw_buffer c ++ sizes ++ wbytes (stats_serialize (pw_stats pw)) ++ content,
                   cw_first_stats c, cw_size_wo_stats c) in
          let '(buffer, fstats, swo) := bfs in
          let* np := arithU p 32 (cw_num_pages c + 1) in                      (* 490 *)
          let* st := stats_merge p (cw_stats c) (pw_stats pw) in              (* 491 *)
          let pw' := {| pw_time := pw_time pw; pw_value := pw_value pw; pw_type := pw_type pw;
                        pw_stats := pw_stats pw; pw_points := pw_points pw;
                        pw_buffer := [] |} in                                 (* 406, 460, 488 *)
          Ret ({| cw_id := cw_id c; cw_type := cw_type c; cw_comp := cw_comp c; cw_enc := cw_enc c;
                  cw_stats := st; cw_page := Some (pw_reset pw'); cw_buffer := buffer;
                  cw_num_pages := np; cw_first_stats := fstats;
                  cw_next_check := cw_next_check c; cw_size_wo_stats := swo |}, true)
      end
  end.

(** [(PAGE_SIZE_THRESHOLD as f32) / (size as f32) * (points as f32)) as u32]
    chunk_writer.rs:326-328 *)
Definition next_check_estimate (size points : Z) : Z :=
  sf_trunc 0 (2 ^ 32 - 1)
    (f32_mul (f32_div (f32_of_Z PAGE_SIZE_THRESHOLD) (f32_of_Z size)) (f32_of_Z points)).

(** [check_page_size_and_may_open_new_page] chunk_writer.rs:304-331 (the results of
    [write_page_to_buffer] are dropped) *)
Definition check_page_size (p : profile) (snap : compressor) (c : chunk_writer) : outcome chunk_writer :=
  match cw_page c with
  | None => Ret c
  | Some pw =>
      if pw_points pw >? MAX_NUMBER_OF_POINTS_IN_PAGE then
        let* r := write_page_to_buffer p snap c in Ret (fst r)
      else if pw_points pw >=? cw_next_check c then
        let* size := pw_estimate p pw in
        if size >? PAGE_SIZE_THRESHOLD then
          let* r := write_page_to_buffer p snap c in
          Ret (cw_with_next MINIMUM_RECORD_COUNT_FOR_CHECK (fst r))
        else Ret (cw_with_next (next_check_estimate size (pw_points pw)) c)
      else Ret c
  end.

(** [ChunkWriter::write] chunk_writer.rs:283-302; [inr] is the [Err] of [PageWriter::new]. The number
    of records written is always 1. *)
Definition cw_write (p : profile) (snap : compressor) (t : Z) (v : value) (c : chunk_writer)
  : outcome (chunk_writer + tserror) :=
  match (match cw_page c with
         | Some pw => inl pw
         | None => pw_new (cw_type c) (cw_enc c)
         end) with
  | inr err => Ret (inr err)
  | inl pw =>
      let* pw' := pw_write p t v pw in
      let* c' := check_page_size p snap (cw_with_page (Some pw') c) in
      Ret (inl c')
  end.

(** [seal_current_page] chunk_writer.rs:180-189 *)
Definition seal_current_page (p : profile) (snap : compressor) (c : chunk_writer) : outcome chunk_writer :=
  match cw_page c with
  | None => Ret c
  | Some pw =>
      if pw_points pw >? 0 then let* r := write_page_to_buffer p snap c in Ret (fst r) else Ret c
  end.

(** [get_serialized_chunk_size] chunk_writer.rs:191-206: [u64] sum; [measurement_length as u64] is the
    sign-extended [i32]. *)
Definition serialized_chunk_size (c : chunk_writer) : Z :=
  match cw_buffer c with
  | [] => 0
  | _ =>
      let measurement_length := wrapS 32 (zlen (cw_id c)) in
      1 + size_var_i32 measurement_length + wrapU 64 measurement_length
      + size_var_u32 (wrapU 32 (zlen (cw_buffer c))) + 1 + 1 + 1 + zlen (cw_buffer c)
  end.

(** [estimate_max_series_mem_size] chunk_writer.rs:263-281 *)
Definition cw_estimate (p : profile) (c : chunk_writer) : outcome Z :=
  match cw_page c with
  | None => Ret 0
  | Some pw =>
      let* m := pw_estimate p pw in
      let* st := arithU p 32 (2 * (4 + 1) + stats_serialized_size (pw_stats pw)) in
      let* a := arithU p 32 (wrapU 32 (zlen (cw_buffer c)) + m) in
      arithU p 32 (a + st)
  end.

(** Markers writer/mod.rs:1807-1808 *)
Definition ONLY_ONE_PAGE_CHUNK_HEADER : byte := 5.
(** writer/mod.rs:1807-1808 *)
Definition CHUNK_HEADER : byte := 1.

(** [ChunkHeader::serialize] chunk_writer.rs:509-535 (the mask is always 0) *)
Definition chunk_header (id : str) (data_size : Z) (dt : dtype) (comp : compression)
    (enc : encoding) (num_pages : Z) : wprog :=
  let marker := if num_pages <=? 1 then ONLY_ONE_PAGE_CHUNK_HEADER else CHUNK_HEADER in
  WThen (WAll [Z.lor marker 0])
  (WThen (write_str id)
  (WThen (write_var_u32 data_size)
  (WThen (WAll [dtype_code dt])
  (WThen (WAll [compression_code comp])
  (WThen (WAll [encoding_code enc]) WNil))))).

(** [ChunkMetadata] chunk_writer.rs:559-565 ([mask] is always 0) *)
Record chunk_meta := mkCM {
  cm_id : str;
  cm_type : dtype;
  cm_offset : Z;
  cm_stats : stats }.

(** [ChunkMetadata::serialize] chunk_writer.rs:584-594: the result is that of the offset write, the
    statistics are written regardless of it and their result is dropped. It is only applied to a
    [Vec] (writer/tsfile_io_writer.rs:222), where both succeed. *)
Definition chunk_meta_serialize (with_stats : bool) (m : chunk_meta) : wprog :=
  WAnd (WAll (be_bytes 8 (cm_offset m)))
       (if with_stats then stats_serialize (cm_stats m) else WNil).
