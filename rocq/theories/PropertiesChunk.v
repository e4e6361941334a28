(** Properties C13, C14: pages and chunks. [cw_session] (SChunk.v) is a fresh chunk writer, one write per
    point, then sealing; [chunk_data] (SReader.v) is the independent reader of chunk data; [page_holds]
    compares a page read with the points of a page; [good_snap] is the assumption on the compressor. *)
From Verif Require Import PChunk.

(** C13. *)
Theorem C13_chunk_holds_points : forall p snap decomp id dt comp enc pts c, good_snap snap decomp ->
  points_ok dt pts -> pts <> [] -> zlen pts < 2 ^ 32 ->
  cw_session p snap id dt comp enc pts = Ret (inl c) ->
  exists pages qs, concat pages = pts /\ Forall (fun pg => 1 <= zlen pg <= 1048577) pages /\
    cw_num_pages c = zlen pages /\
    chunk_data decomp (if zlen pages <=? 1 then 5 else 1) (dtype_code dt) (compression_code comp) (encoding_code enc)
      (cw_buffer c) = Some qs /\
    Forall2 (page_holds p dt (negb (zlen pages <=? 1))) pages qs /\
    tree_stats p dt (chunk_tree pages) = Ret (cw_stats c).
Proof. exact chunk_faithful. Qed.
Print Assumptions C13_chunk_holds_points.
(** The hypothesis [cw_session .. = Ret (inl c)] always holds in release builds (except FLOAT with
    TS_2DIFF, which has no encoder). *)
Theorem C13_release_never_fails : forall snap decomp id dt comp enc pts, good_snap snap decomp ->
  points_ok dt pts -> zlen pts < 2 ^ 32 -> ~ (dt = FLOAT /\ enc = TS2DIFF) ->
  exists c, cw_session Release snap id dt comp enc pts = Ret (inl c).
Proof. exact chunk_release_total. Qed.
Print Assumptions C13_release_never_fails.

(** C14, in every state of a chunk writer, not only after sealing: the points written so far are those of
    the finished pages and of the open page, which the page writer counts; every finished page is
    non-empty and bounded. *)
Theorem C14_pages_bounded : forall p snap decomp id dt comp enc pts c, good_snap snap decomp ->
  points_ok dt pts -> zlen pts < 2 ^ 32 -> cw_run p snap pts (cw_new id dt comp enc) = Ret (inl c) ->
  exists pages cur, concat pages ++ cur = pts /\ cw_num_pages c = zlen pages /\
    Forall (fun pg => 1 <= zlen pg <= 1048577) pages /\
    match cw_page c with Some w => pw_points w = zlen cur | None => cur = [] end /\ zlen cur <= 1048576 /\
    (pages <> [] -> exists qs, chunk_data decomp (if zlen pages <=? 1 then 5 else 1) (dtype_code dt)
        (compression_code comp) (encoding_code enc) (cw_buffer c) = Some qs /\
      map (fun q => zlen (pg_points q)) qs = map zlen pages).
Proof. exact pages_bounded. Qed.
Print Assumptions C14_pages_bounded.

(** A chunk of more than one page (not computed: the sealing point depends on sizes, but a page cannot
    hold 1048578 points), and a single-page chunk with compression. *)
Example C13_case_two_pages :
  let pts := map (fun i => (Z.of_nat i, VLong (Z.of_nat i))) (seq 0 (Z.to_nat 1048578)) in
  points_ok INT64 pts /\ exists c, cw_session Release (fun l => Some l) [109] INT64 UNCOMPRESSED PLAIN pts = Ret (inl c) /\
    2 <= cw_num_pages c.
Proof.
  cbv zeta. assert (E : Z.of_nat (Z.to_nat 1048578) = 1048578) by (apply Z2Nat.id; discriminate).
  generalize dependent (Z.to_nat 1048578). intros n E.
  set (pts := map (fun i => (Z.of_nat i, VLong (Z.of_nat i))) (seq 0 n)).
  assert (L : zlen pts = 1048578) by (unfold pts, zlen; rewrite map_length, seq_length; exact E).
  assert (OK : points_ok INT64 pts).
  { apply Forall_forall. intros q I. apply in_map_iff in I. destruct I as (i & <- & I). apply in_seq in I.
    assert (0 <= Z.of_nat i < 1048578) by lia. cbn. unfold i64_min, i64_max. repeat split; lia. }
  clearbody pts. split; [exact OK|].
  assert (G : good_snap (fun l => Some l) (fun l => Some l)).
  { intros l _ H. exists l. split; [reflexivity|]. split; [reflexivity|]. assert (0 <= zlen l / 6) by (apply Z.div_pos; [apply zlen_nonneg|lia]). lia. }
  assert (B : zlen pts < 2 ^ 32) by (rewrite L; reflexivity).
  destruct (C13_release_never_fails _ _ [109] INT64 UNCOMPRESSED PLAIN pts G OK B) as (c & C); [intros [X _]; discriminate|].
  exists c. split; [exact C|]. assert (N : pts <> []) by (intros ->; discriminate).
  destruct (C13_chunk_holds_points _ _ _ _ _ _ _ _ _ G OK N B C) as (pages & _ & P1 & P2 & P3 & _).
  rewrite P3. destruct pages as [|a [|b r]].
  - subst pts. cbn [concat] in *. congruence.
  - cbn [concat] in P1. rewrite app_nil_r in P1. subst a. inversion P2; subst. lia.
  - rewrite !zlen_cons. pose proof (zlen_nonneg _ r). lia.
Qed.
(** In such a session at least one page is full before the end. *)
Example C14_case :
  let pts := map (fun i => (Z.of_nat i, VLong (Z.of_nat i))) (seq 0 (Z.to_nat 1048578)) in
  points_ok INT64 pts /\ exists c, cw_run Release (fun l => Some l) pts (cw_new [109] INT64 UNCOMPRESSED PLAIN) = Ret (inl c) /\ 1 <= cw_num_pages c.
Proof.
  cbv zeta. assert (E : Z.of_nat (Z.to_nat 1048578) = 1048578) by (apply Z2Nat.id; discriminate).
  generalize dependent (Z.to_nat 1048578). intros n E.
  set (pts := map (fun i => (Z.of_nat i, VLong (Z.of_nat i))) (seq 0 n)).
  assert (L : zlen pts = 1048578) by (unfold pts, zlen; rewrite map_length, seq_length; exact E).
  assert (OK : points_ok INT64 pts).
  { apply Forall_forall. intros q I. apply in_map_iff in I. destruct I as (i & <- & I). apply in_seq in I.
    assert (0 <= Z.of_nat i < 1048578) by lia. cbn. unfold i64_min, i64_max. repeat split; lia. }
  clearbody pts. split; [exact OK|].
  assert (G : good_snap (fun l => Some l) (fun l => Some l)).
  { intros l _ H. exists l. split; [reflexivity|]. split; [reflexivity|]. assert (0 <= zlen l / 6) by (apply Z.div_pos; [apply zlen_nonneg|lia]). lia. }
  assert (B : zlen pts < 2 ^ 32) by (rewrite L; reflexivity).
  destruct (C13_release_never_fails _ _ [109] INT64 UNCOMPRESSED PLAIN pts G OK B) as (c & C); [intros [X _]; discriminate|]. unfold cw_session in C.
  destruct (cw_run Release (fun l => Some l) pts (cw_new [109] INT64 UNCOMPRESSED PLAIN)) as [[c1|e]|e] eqn:R; [|discriminate|discriminate]. exists c1. split; [reflexivity|].
  destruct (C14_pages_bounded _ _ _ _ _ _ _ _ _ G OK B R) as (pages & cur & E1 & N & _ & _ & K & _). rewrite N.
  destruct pages as [|q pages]; [|rewrite zlen_cons; pose proof (zlen_nonneg _ pages); lia]. cbn [concat app] in E1. subst cur. lia.
Qed.
Example C13_case_compressed :
  let snap := fun l => Some (7 :: rev l) in
  let decomp := fun l => match l with 7 :: r => Some (rev r) | _ => None end in
  let pts := [(5, VInt 7); (6, VInt (-300)); (9, VInt 2000000000)] in
  good_snap snap decomp /\ points_ok INT32 pts /\
  match cw_session Release snap [109] INT32 SNAPPY TS2DIFF pts with
  | Ret (inl c) => cw_num_pages c = 1 /\
      chunk_data decomp 5 1 1 4 (cw_buffer c) = Some [mkPage None [(5, 7); (6, -300); (9, 2000000000)]]
  | _ => False
  end.
Proof.
  cbv zeta. split; [|split].
  - intros l _ H. exists (7 :: rev l). split; [reflexivity|]. rewrite rev_involutive. split; [reflexivity|].
    unfold zlen in *. cbn [length]. rewrite rev_length. assert (0 <= Z.of_nat (length l) / 6) by (apply Z.div_pos; lia). lia.
  - repeat constructor; cbn; unfold i64_min, i64_max; try lia; discriminate.
  - vm_compute. auto.
Qed.
