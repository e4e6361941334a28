(** Property C47: a chunk writer whose compressor may fail. [fair_snap] (SComp.v) allows the compressor to
    reject any page; [cw_do] is any interleaving of [write] and [seal_current_page] on a fresh chunk writer;
    [chunk_has] says what an independent reader finds in the finished pages. *)
From Verif Require Import PComp.
From Verif Require Import SHist.

(** Nothing is lost while writing: the finished pages and the open page together are the points written, in
    order, also when pages were rejected (they stay open and are offered again). After a seal the open page
    is empty unless the compressor rejected exactly those points. *)
Theorem C47_pages_and_rest : forall p snap decomp id dt comp enc ops c, fair_snap snap decomp ->
  points_ok dt (ops_points ops) -> zlen (ops_points ops) <= 67108864 ->
  cw_do p snap ops (cw_new id dt comp enc) = Ret (inl c) ->
  exists pages cur, concat pages ++ cur = ops_points ops /\ chunk_has p decomp dt comp enc c pages /\
    match cw_page c with Some w => pw_points w = zlen cur | None => cur = [] end /\
    (forall ops', ops = ops' ++ [CSeal] -> cur = [] \/ comp = SNAPPY /\ rejects snap dt enc cur).
Proof. intros p snap decomp id dt comp enc ops c HG. exact (comp_ops p snap decomp HG id dt comp enc ops c). Qed.
Print Assumptions C47_pages_and_rest.
(** A rejection is never reported and never panics: in release builds every call returns [Ok]. *)
Theorem C47_never_fails : forall snap decomp id dt comp enc ops, fair_snap snap decomp ->
  points_ok dt (ops_points ops) -> zlen (ops_points ops) <= 67108864 -> ~ (dt = FLOAT /\ enc = TS2DIFF) ->
  exists c, cw_do Release snap ops (cw_new id dt comp enc) = Ret (inl c).
Proof. exact comp_release_total. Qed.
Print Assumptions C47_never_fails.

(** A compressor that rejects contents of odd length. *)
Definition odd_snap : list Z -> option (list Z) := fun l => if Nat.odd (length l) then None else Some (7 :: rev l).
Definition odd_decomp : list Z -> option (list Z) := fun l => match l with 7 :: r => Some (rev r) | _ => None end.
Lemma odd_fair : fair_snap odd_snap odd_decomp.
Proof.
  intros l out _ H E. unfold odd_snap in E. destruct (Nat.odd (length l)); [discriminate|]. inversion E; subst out.
  unfold odd_decomp. rewrite rev_involutive. split; [reflexivity|]. unfold zlen in *. cbn [length]. rewrite rev_length.
  assert (0 <= Z.of_nat (length l) / 6) by (apply Z.div_pos; lia). lia.
Qed.
(** Rejected, sealed again after another point, and lost at the end. *)
Example C47_case_retry :
  let ops := [CWrite 5 (VInt 7); CWrite 6 (VInt 8); CSeal; CWrite 9 (VInt 9); CSeal] in
  points_ok INT32 (ops_points ops) /\
  match cw_do Release odd_snap (firstn 3 ops) (cw_new [109] INT32 SNAPPY PLAIN) with
  | Ret (inl c) => cw_num_pages c = 0 /\ cw_buffer c = [] | _ => False end /\
  match cw_do Release odd_snap ops (cw_new [109] INT32 SNAPPY PLAIN) with
  | Ret (inl c) => cw_num_pages c = 1 /\
      chunk_data odd_decomp 5 1 1 0 (cw_buffer c) = Some [mkPage None [(5, 7); (6, 8); (9, 9)]]
  | _ => False
  end.
Proof. split; [|vm_compute; auto]. repeat constructor; cbn; unfold i64_min, i64_max; try lia; discriminate. Qed.
(** The claim "what was acknowledged is in the closed file" (C16) needs the compressor to succeed: here both
    writes and close return [Ok], the file is well formed, and the second point is missing. *)
Theorem C47_acknowledged_lost_refuted : exists snap decomp sc ops, fair_snap snap decomp /\
  match (let start := match writer_new sc (sink_new healthy) with (_, Some w) => w | (o, None) => mkW (mkIO o None [] None [] []) [] 0 0 [] end in
         run Release snap start ops) with
  | Ret (w, l) => l = [AOk; AOk] /\ series_of [100] [98] (acked ops l) = [(6, VLong 8)] /\
      match step Release snap w (OpClose (fun l => l)) with
      | Ret (w', a) => a = AUnit /\
          option_map (fun cs => (series_in cs [100] [97], series_in cs [100] [98])) (read_file decomp (file_bytes w'))
          = Some ([(5, 7)], [])
      | Panic _ => False
      end
  | Panic _ => False
  end.
Proof.
  exists (fun _ => None), (fun _ => None), [([100], [([97], mkMS INT32 PLAIN UNCOMPRESSED); ([98], mkMS INT64 TS2DIFF SNAPPY)])],
    [OpWrite [100] [97] 5 (VInt 7); OpWrite [100] [98] 6 (VLong 8)].
  split; [intros l out _ _ H; discriminate|]. vm_compute. auto.
Qed.
Print Assumptions C47_acknowledged_lost_refuted.
