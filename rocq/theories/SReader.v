(** Specification side: readers of whole TsFiles, written independently of the model. *)
From Coq Require Import ZArith List Bool.
From Verif Require Export SFormat.
Import ListNotations.
Open Scope Z_scope.

Section Reader.
(** Decompression of snappy data. *)
Variable decomp : list Z -> option (list Z).

(** Content of a page: compression code 0 is none, 1 is snappy; the size must be as announced. *)
Definition uncompress (comp usize : Z) (l : list Z) : option (list Z) :=
  match (if comp =? 0 then Some l else if comp =? 1 then decomp l else None) with
  | Some r => if Z.of_nat (length r) =? usize then Some r else None
  | None => None
  end.

(** A page: uncompressed size, compressed size, statistics (unless it is the only page of its chunk),
    compressed content. *)
Record page := mkPage { pg_stats : option stat_fields; pg_points : list (Z * Z) }.
Definition page_read (ty comp enc : Z) (with_stats : bool) : parser page := fun l =>
  match leb128 l with None => None | Some (usize, l) =>
  match leb128 l with None => None | Some (csize, l) =>
  match (if with_stats then match stat_read ty l with Some (s, l) => Some (Some s, l) | None => None end
         else Some (None, l)) with
  | None => None | Some (st, l) =>
  match take csize l with None => None | Some (body, l) =>
  match uncompress comp usize body with None => None | Some content =>
  match page_points ty enc content with None => None | Some pts => Some (mkPage st pts, l)
  end end end end end end.

(** The data of a chunk: one page without statistics (marker 5), or any number of pages with
    statistics (marker 1). *)
Definition chunk_data (marker ty comp enc : Z) (l : list Z) : option (list page) :=
  if marker =? 5 then
    match page_read ty comp enc false l with Some (p, []) => Some [p] | _ => None end
  else if marker =? 1 then many (length l) (page_read ty comp enc true) l
  else None.

(** A chunk: marker, measurement, data size, type, compression, encoding, data. *)
Record chunk := mkChunk { ch_name : list Z; ch_type : Z; ch_pages : list page }.
Definition chunk_points (c : chunk) : list (Z * Z) := concat (map pg_points (ch_pages c)).
Definition byte_field : parser Z := fun l => match l with b :: l => Some (b, l) | [] => None end.
Definition chunk_read : parser chunk := fun l =>
  match byte_field l with None => None | Some (marker, l) =>
  match str_field l with None => None | Some (name, l) =>
  match leb128 l with None => None | Some (size, l) =>
  match byte_field l with None => None | Some (ty, l) =>
  match byte_field l with None => None | Some (comp, l) =>
  match byte_field l with None => None | Some (enc, l) =>
  match take size l with None => None | Some (data, l) =>
  match chunk_data marker ty comp enc data with None => None | Some ps =>
    Some (mkChunk name ty ps, l)
  end end end end end end end end.

(** The data section: chunk group headers (0, device) and chunks; each chunk belongs to the device of
    the last group header. The scan stops at the first byte sequence that is neither; the result is what
    was found and the unread rest. *)
Fixpoint scan (fuel : nat) (dev : option (list Z)) (l : list Z) : list (list Z * chunk) * list Z :=
  match fuel with
  | O => ([], l)
  | S f =>
      match l with
      | 0 :: r => match str_field r with Some (d, r) => scan f (Some d) r | None => ([], l) end
      | _ =>
          match dev with
          | None => ([], l)
          | Some d =>
              match chunk_read l with
              | Some (c, r) => let '(cs, rest) := scan f dev r in ((d, c) :: cs, rest)
              | None => ([], l)
              end
          end
      end
  end.

(** Header: magic "TsFile", version 3. *)
Definition magic : list Z := [84; 115; 70; 105; 108; 101].
Definition scan_file (file : list Z) : option (list (list Z * chunk) * list Z) :=
  match take 7 file with
  | Some (h, l) => if list_eq_dec Z.eq_dec h (magic ++ [3]) then Some (scan (length l) None l) else None
  | None => None
  end.
(** Strict reading: the scan has to end at the separator 2. *)
Definition read_file (file : list Z) : option (list (list Z * chunk)) :=
  match scan_file file with
  | Some (cs, 2 :: _) => Some cs
  | _ => None
  end.
(** Points of one series in file order. *)
Definition same_name (a b : list Z) : bool := if list_eq_dec Z.eq_dec a b then true else false.
Definition series_in (cs : list (list Z * chunk)) (d m : list Z) : list (Z * Z) :=
  concat (map (fun dc => chunk_points (snd dc))
    (filter (fun dc => same_name (fst dc) d && same_name (ch_name (snd dc)) m) cs)).

(** ** Reading through the index *)
Definition drop (off : Z) (l : list Z) : option (list Z) :=
  if (0 <=? off) && (off <=? Z.of_nat (length l)) then Some (skipn (Z.to_nat off) l) else None.
(** Bytes [a .. b-1] *)
Definition slice (a b : Z) (l : list Z) : option (list Z) :=
  match drop a l with Some r => match take (b - a) r with Some (x, _) => Some x | None => None end | None => None end.

(** Index node: number of entries, entries (name, offset), end offset, node type. *)
Record node := mkNode { nd_entries : list (list Z * Z); nd_end : Z; nd_type : Z }.
Definition entry_read : parser (list Z * Z) := fun l =>
  match str_field l with None => None | Some (n, l) =>
  match be_unsigned 8 l with None => None | Some (o, l) => Some ((n, o), l) end end.
Fixpoint times_read {A} (n : nat) (p : parser A) : parser (list A) := fun l =>
  match n with
  | O => Some ([], l)
  | S k => match p l with None => None | Some (x, l) =>
           match times_read k p l with None => None | Some (xs, l) => Some (x :: xs, l) end end
  end.
Definition node_read : parser node := fun l =>
  match leb128 l with None => None | Some (n, l) =>
  match times_read (Z.to_nat n) entry_read l with None => None | Some (es, l) =>
  match be_unsigned 8 l with None => None | Some (e, l) =>
  match byte_field l with None => None | Some (t, l) => Some (mkNode es e t, l)
  end end end end.

(** Time series metadata: flag (1: several chunks), measurement, type, size of the chunk list,
    statistics, chunk list: offsets, each followed by its statistics if there are several. *)
Record tsmeta := mkTsMeta { ts_name : list Z; ts_type : Z; ts_stats : stat_fields; ts_chunks : list (Z * option stat_fields) }.
Definition chunk_ref (ty flag : Z) : parser (Z * option stat_fields) := fun l =>
  match be_unsigned 8 l with None => None | Some (o, l) =>
  if flag =? 0 then Some ((o, None), l)
  else match stat_read ty l with None => None | Some (s, l) => Some ((o, Some s), l) end
  end.
Definition tsmeta_read : parser tsmeta := fun l =>
  match byte_field l with None => None | Some (flag, l) =>
  match str_field l with None => None | Some (n, l) =>
  match byte_field l with None => None | Some (ty, l) =>
  match leb128 l with None => None | Some (sz, l) =>
  match stat_read ty l with None => None | Some (st, l) =>
  match take sz l with None => None | Some (cl, l) =>
  match many (length cl) (chunk_ref ty flag) cl with None => None | Some rs => Some (mkTsMeta n ty st rs, l)
  end end end end end end end.

(** Consecutive ranges given by the entries of a node: each entry's range ends where the next begins,
    the last one's at the end offset. *)
Fixpoint ranges (es : list (list Z * Z)) (e : Z) : list (Z * Z) :=
  match es with
  | [] => []
  | [(_, o)] => [(o, e)]
  | (_, o) :: (((_, o') :: _) as es') => (o, o') :: ranges es' e
  end.
Fixpoint all_some {A} (l : list (option A)) : option (list A) :=
  match l with
  | [] => Some []
  | None :: _ => None
  | Some x :: l' => match all_some l' with Some xs => Some (x :: xs) | None => None end
  end.
(** Time series below a measurement node: a leaf (type 3) lists ranges of metadata, an internal node
    (type 2) lists further nodes. *)
Fixpoint measurements (fuel : nat) (file : list Z) (n : node) : option (list tsmeta) :=
  match fuel with
  | O => None
  | S f =>
      if nd_type n =? 3 then
        match all_some (map (fun ab => match slice (fst ab) (snd ab) file with
                                       | Some l => many (length l) tsmeta_read l
                                       | None => None end) (ranges (nd_entries n) (nd_end n))) with
        | Some tss => Some (concat tss)
        | None => None
        end
      else if nd_type n =? 2 then
        match all_some (map (fun eo => match drop (snd eo) file with
                                       | Some l => match node_read l with
                                                   | Some (n', _) => measurements f file n'
                                                   | None => None end
                                       | None => None end) (nd_entries n)) with
        | Some tss => Some (concat tss)
        | None => None
        end
      else None
  end.
(** Bloom filter block: byte count, bytes, number of bits, number of hash functions. *)
Record bloom_block := mkBloomBlock { bb_bytes : list Z; bb_size : Z; bb_count : Z }.
Definition bloom_read : parser bloom_block := fun l =>
  match leb128 l with None => None | Some (n, l) =>
  match take n l with None => None | Some (bs, l) =>
  match leb128 l with None => None | Some (s, l) =>
  match leb128 l with None => None | Some (c, l) => Some (mkBloomBlock bs s c, l)
  end end end end.
(** The footer: found from the tail (footer length, magic); root node, offset of the metadata,
    bloom filter. *)
Record footer := mkFooter { ft_root : node; ft_meta : Z; ft_bloom : bloom_block; ft_size : Z }.
Definition footer_read (file : list Z) : option footer :=
  let len := Z.of_nat (length file) in
  match slice (len - 6) len file with None => None | Some m =>
  if list_eq_dec Z.eq_dec m magic then
  match slice (len - 10) (len - 6) file with None => None | Some nb =>
  match slice (len - 10 - be_val nb) (len - 10) file with None => None | Some l =>
  match node_read l with None => None | Some (root, l) =>
  match be_unsigned 8 l with None => None | Some (meta, l) =>
  match bloom_read l with
  | Some (b, []) => Some (mkFooter root meta b (be_val nb))
  | _ => None
  end end end end end
  else None end.
(** The chunks of a time series, read at their offsets. *)
Definition chunk_at (file : list Z) (o : Z) : option chunk :=
  match drop o file with Some l => match chunk_read l with Some (c, _) => Some c | None => None end | None => None end.
(** Everything reachable from the index: device, time series metadata, chunks. *)
Definition index_read (file : list Z) : option (list (list Z * tsmeta * list chunk)) :=
  match footer_read file with None => None | Some ft =>
  if nd_type (ft_root ft) =? 1 then
    match all_some (map (fun eo =>
      match drop (snd eo) file with None => None | Some l =>
      match node_read l with None => None | Some (n, _) =>
      match measurements (length file) file n with None => None | Some tss =>
        all_some (map (fun ts => match all_some (map (fun r => chunk_at file (fst r)) (ts_chunks ts)) with
                                 | Some cs => Some (fst eo, ts, cs) | None => None end) tss)
      end end end) (nd_entries (ft_root ft))) with
    | Some xs => Some (concat xs)
    | None => None
    end
  else None
  end.
End Reader.
