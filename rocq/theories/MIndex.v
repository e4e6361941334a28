(** Metadata index, writer/mod.rs:326-642 and 788-846 *)
From Verif Require Export MBloom.

(** [MetadataIndexNodeType] writer/mod.rs:327-331 *)
Inductive node_type := LeafMeasurement | InternalMeasurement | LeafDevice.
(** writer/mod.rs:345-354: a single [write], result dropped *)
Definition node_type_code (t : node_type) : byte :=
  match t with LeafMeasurement => 3 | InternalMeasurement => 2 | LeafDevice => 1 end.
(** writer/mod.rs:345-354 *)
Definition node_type_serialize (t : node_type) : wprog := WAnd (WOne [node_type_code t]) WNil.

(** [MetadataIndexEntry] writer/mod.rs:360-363 *)
Record index_entry := mkIE { ie_name : str; ie_offset : Z }.
(** writer/mod.rs:365-377: results dropped, the offset is written with [write]; [usize] is 8
    bytes *)
Definition index_entry_serialize (e : index_entry) : wprog :=
  WAnd (write_str (ie_name e)) (WAnd (WOne (be_bytes 8 (ie_offset e))) WNil).

(** [MetadataIndexNode] writer/mod.rs:380-384 *)
Record index_node := mkIN { in_children : list index_entry; in_end : Z; in_type : node_type }.
(** writer/mod.rs:410-416 *)
Definition index_node_new (t : node_type) : index_node := mkIN [] 0 t.
(** writer/mod.rs:386-407 *)
Definition index_node_serialize (n : index_node) : wprog :=
  WAnd (write_var_u32 (wrapU 32 (zlen (in_children n))))
    (fold_right (fun e k => WAnd (index_entry_serialize e) k)
       (WAnd (WOne (be_bytes 8 (in_end n)))
       (WAnd (node_type_serialize (in_type n)) WNil))
       (in_children n)).
(** [is_full] writer/mod.rs:609-611 *)
Definition is_full (deg : nat) (n : index_node) : bool := (deg <=? length (in_children n))%nat.
(** [children.push] writer/mod.rs:483, 537 *)
Definition push_child (e : index_entry) (n : index_node) : index_node :=
  mkIN (in_children n ++ [e]) (in_end n) (in_type n).
(** Assignment to [end_offset], writer/mod.rs:425, 473, 549 *)
Definition with_end (o : Z) (n : index_node) : index_node := mkIN (in_children n) o (in_type n).

(** [TimeSeriesMetadata] writer/mod.rs:635-642 *)
Record ts_meta := mkTM {
  tm_type : byte;
  tm_list_size : Z;
  tm_id : str;
  tm_dtype : dtype;
  tm_stats : stats;
  tm_buffer : list byte }.
(** [TimeSeriesMetadatable::serialize] writer/mod.rs:624-632 (results dropped) *)
Definition ts_meta_serialize (m : ts_meta) : wprog :=
  WAnd (WAll [tm_type m])
  (WAnd (write_str (tm_id m))
  (WAnd (WAll [dtype_code (tm_dtype m)])
  (WAnd (write_var_u32 (wrapU 32 (tm_list_size m)))
  (WAnd (stats_serialize (tm_stats m))
  (WAnd (WAll (tm_buffer m)) WNil))))).

(** [generate_root_node], inner loop writer/mod.rs:463-487: [n] iterations; [pos] is the file
    position (the loop does not write). State: queue (a [Vec], last element at the end) and
    current node. *)
Fixpoint root_round (deg : nat) (pos : Z) (n : nat) (queue : list index_node) (cur : index_node)
  : outcome (list index_node * index_node) :=
  match n with
  | O => Ret (queue, cur)
  | S n' =>
      match rev queue with
      | [] => Panic PUnwrap                                            (* 464 *)
      | node :: rest =>
          match in_children node with
          | [] => Panic PExplicit                                      (* 466-468 *)
          | c0 :: _ =>
              let queue := rev rest in                                 (* 471 *)
              let '(queue, cur) :=
                if is_full deg cur then
                  let cur := with_end pos cur in (queue ++ [cur], cur) (* 472-475 *)
                else (queue, cur) in
              root_round deg pos n' queue (push_child (mkIE (ie_name c0) pos) cur)  (* 483-486 *)
          end
      end
  end.

(** [generate_root_node] writer/mod.rs:431-502. Fuel: the queue shrinks in every round as long as it
    has at least two nodes. *)
Fixpoint generate_root_loop (deg fuel : nat) (pos : Z) (t : node_type) (queue : list index_node)
  : outcome index_node :=
  match fuel with
  | O => Panic PFuel
  | S f =>
      if (length queue =? 1)%nat then
        match queue with n :: _ => Ret n | [] => Panic PUnwrap end      (* 501 *)
      else
        let* r := root_round deg pos (length queue) queue (index_node_new t) in
        let '(queue', cur) := r in
        generate_root_loop deg f pos t (queue' ++ [with_end pos cur])    (* 489-499 *)
  end.
(** [generate_root_node] writer/mod.rs:431-502 *)
Definition generate_root_node (deg : nat) (pos : Z) (t : node_type) (queue : list index_node)
  : outcome index_node :=
  generate_root_loop deg (S (length queue)) pos t queue.

(** Measurement loop of [construct_metadata_index], writer/mod.rs:524-543: [i] is the loop
    counter. *)
Fixpoint measurement_loop (deg : nat) (i : Z) (l : list ts_meta)
    (cur : index_node) (queue : list index_node) (out : sink)
  : index_node * list index_node * sink :=
  match l with
  | [] => (cur, queue, out)
  | m :: l' =>
      let '(cur, queue) :=
        if i mod Z.of_nat deg =? 0 then
          let '(cur, queue) :=
            if is_full deg cur then
              (index_node_new LeafMeasurement, queue ++ [with_end (sk_pos out) cur])
            else (cur, queue) in
          (push_child (mkIE (tm_id m) (sk_pos out)) cur, queue)
        else (cur, queue) in
      let out := fst (wexec (ts_meta_serialize m) out) in
      measurement_loop deg (i + 1) l' cur queue out
  end.

(** Device loop, writer/mod.rs:512-559: the resulting list is the content of
    [device_metadata_index_map] (keys are distinct because they come from a [BTreeMap]). *)
Fixpoint device_loop (deg : nat) (devices : smap (list ts_meta)) (out : sink)
  : outcome (list (str * index_node) * sink) :=
  match devices with
  | [] => Ret ([], out)
  | (device, l) :: devices' =>
      match l with
      | [] => device_loop deg devices' out                               (* 513-515 *)
      | _ =>
          let '(cur, queue, out) :=
            measurement_loop deg 0 l (index_node_new LeafMeasurement) [] out in
          let queue := queue ++ [with_end (sk_pos out) cur] in           (* 549-550 *)
          let* root := generate_root_node deg (sk_pos out) InternalMeasurement queue in
          let* r := device_loop deg devices' out in
          Ret ((device, root) :: fst r, snd r)
      end
  end.

(** An iteration order of a [HashMap<String, MetadataIndexNode>]: an arbitrary rearrangement. writer/mod.rs:510. *)
Definition hash_order := list (str * index_node) -> list (str * index_node).

(** Root loop, writer/mod.rs:564-570 *)
Fixpoint device_entries (l : list (str * index_node)) (node : index_node) (out : sink)
  : index_node * sink :=
  match l with
  | [] => (node, out)
  | (s, n) :: l' =>
      let node := push_child (mkIE s (sk_pos out)) node in
      let out := fst (wexec (index_node_serialize n) out) in
      device_entries l' node out
  end.

(** [construct_metadata_index] writer/mod.rs:505-608 *)
Definition construct_metadata_index (deg : nat) (ord : hash_order)
    (m : smap (list ts_meta)) (out : sink) : outcome (index_node * sink) :=
  let* r := device_loop deg m out in
  let '(index_map, out) := r in
  if (length index_map <=? deg)%nat then
    let '(node, out) := device_entries (ord index_map) (index_node_new LeafDevice) out in
    Ret (with_end (sk_pos out) node, out)
  else Panic PExplicit.                                                  (* 575 *)

(** [TsFileMetadata::serialize] writer/mod.rs:802-818 (the index is always [Some], see
    writer/tsfile_io_writer.rs:172; results dropped) *)
Definition ts_file_metadata_serialize (index : index_node) (meta_offset : Z) : wprog :=
  WAnd (index_node_serialize index) (WAnd (WAll (be_bytes 8 meta_offset)) WNil).

(** [ChunkGroupHeader::serialize] writer/mod.rs:830-836 *)
Definition chunk_group_header (device : str) : wprog :=
  WThen (WAll [0]) (WThen (write_str device) WNil).
