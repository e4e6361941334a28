(** C68: the assumption about the compressor is met by the Snappy format. *)
From Verif Require Import PSnappy.
Open Scope list_scope. Open Scope Z_scope.

(** One literal per block is a compressor with all that [good_snap] asks for, read back with a reader of the Snappy
    block format. *)
Theorem C68_satisfiable : good_snap snappy_literal snappy_read.
Proof. exact snappy_good. Qed.
Print Assumptions C68_satisfiable.
(** Sessions with this compressor, read back with the Snappy reader. *)
Theorem C68_session : forall sc ops ord, schema_ok sc -> no_dots sc -> byte_names sc -> good_order ord -> series_count sc <= 41 ->
  Forall write_call ops -> Forall (point_storable sc) (input ops) -> in_order (input ops) -> size_bound sc (zlen (input ops)) < 2 ^ 32 ->
  exists out w0 w', writer_new sc (sink_new healthy) = (out, Some w0) /\ run Release snappy_literal w0 (ops ++ [OpClose ord]) = Ret (w', map (fun _ => AOk) ops ++ [AUnit]) /\
    holds snappy_read (file_bytes w') (input ops).
Proof. exact snappy_session. Qed.
Print Assumptions C68_session.
(** Blocks from the files expected by the tests at writer/mod.rs:1568 and 1710 (so what the crate snap makes, if these
    tests pass; they were not run), with copies that reach into themselves; and a block of this compressor. *)
Example C68_case :
  snappy_read [33; 4; 24; 0; 13; 1; 4; 127; 255; 9; 1; 13; 15; 32; 1; 0; 0; 0; 0; 0; 0; 0; 13] =
    Some [24; 0; 0; 0; 0; 0; 0; 0; 0; 127; 255; 255; 255; 255; 255; 255; 255; 0; 0; 0; 0; 0; 0; 0; 1; 0; 0; 0; 0; 0; 0; 0; 13] /\
  snappy_read [29; 4; 24; 0; 13; 1; 4; 127; 255; 9; 1; 44; 0; 0; 0; 0; 0; 0; 0; 1; 65; 96; 0; 0] =
    Some [24; 0; 0; 0; 0; 0; 0; 0; 0; 127; 255; 255; 255; 255; 255; 255; 255; 0; 0; 0; 0; 0; 0; 0; 1; 65; 96; 0; 0] /\
  snappy_literal [7; 8; 9] = Some [3; 252; 2; 0; 0; 0; 7; 8; 9] /\ snappy_read [3; 252; 2; 0; 0; 0; 7; 8; 9] = Some [7; 8; 9] /\
  snappy_read [4; 252; 2; 0; 0; 0; 7; 8; 9] = None /\ snappy_read [8; 1; 9] = None.
Proof. vm_compute. repeat split. Qed.
Definition sn_sc : schema := bench2_sc SNAPPY.
Definition sn_ops : list op := [OpWrite s_d1 s_s1 5 (VLong 7); OpWriteMany s_d2 6 [(s_s1, VLong 8); (s_s2, VFloat 0x3F800000)]].
Example C68_session_case : schema_ok sn_sc /\ no_dots sn_sc /\ byte_names sn_sc /\ series_count sn_sc <= 41 /\ Forall write_call sn_ops /\ size_bound sn_sc (zlen (input sn_ops)) < 2 ^ 32 /\
  match snd (writer_new sn_sc (sink_new healthy)) with
  | Some w0 => match run Release snappy_literal w0 (sn_ops ++ [OpClose (fun l => l)]) with
      | Ret (w', l) => l = [AOk; AOk; AUnit] /\ option_map (fun cs => SReader.series_in cs s_d2 s_s2) (read_file snappy_read (file_bytes w')) = Some [(6, 0x3F800000)]
      | Panic _ => False
      end
  | None => False
  end.
Proof.
  destruct (bench2_sc_facts SNAPPY) as (F1 & F2 & F3 & F4). split; [exact F1|]. split; [exact F2|]. split; [exact F3|]. split; [exact F4|].
  split; [|split; [vm_compute; reflexivity|vm_compute; auto]].
  unfold sn_ops. repeat (apply Forall_cons; [split; [split; [vm_compute; split; discriminate|repeat (apply Forall_cons || apply Forall_nil); vm_compute; split; discriminate || reflexivity]|discriminate]|]). apply Forall_nil.
Qed.
