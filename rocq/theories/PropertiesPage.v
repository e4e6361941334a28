(** Property C48: where the pages of a chunk end. [cut] (SPage.v) computes the pages from the points alone: it
    estimates sizes from the values, divides in binary32, and knows no limit on the number of points. *)
From Verif Require Import PPage.

(** While writing, finished pages, open page and the next check are those of [cut]. *)
Theorem C48_page_boundaries : forall p snap decomp id dt comp enc pts c, good_snap snap decomp ->
  points_ok dt pts -> zlen pts < 2 ^ 32 -> cw_run p snap pts (cw_new id dt comp enc) = Ret (inl c) ->
  let '(pages, cur, next) := cut dt enc pts in
  cw_num_pages c = zlen pages /\ cw_next_check c = next /\
  match cw_page c with Some w => pw_points w = zlen cur | None => cur = [] end /\
  (pages <> [] -> exists qs, chunk_data decomp (if zlen pages <=? 1 then 5 else 1) (dtype_code dt)
      (compression_code comp) (encoding_code enc) (cw_buffer c) = Some qs /\
    map pg_points qs = map tnums pages).
Proof. intros p snap decomp id dt comp enc pts c HG. exact (pages_cut p snap decomp HG id dt comp enc pts c). Qed.
Print Assumptions C48_page_boundaries.
(** The sealed chunk: the open page follows. *)
Theorem C48_chunk_pages : forall p snap decomp id dt comp enc pts c, good_snap snap decomp ->
  points_ok dt pts -> zlen pts < 2 ^ 32 -> pts <> [] -> cw_session p snap id dt comp enc pts = Ret (inl c) ->
  let '(pages, cur, _) := cut dt enc pts in
  let all := pages ++ match cur with [] => [] | _ => [cur] end in
  cw_num_pages c = zlen all /\
  exists qs, chunk_data decomp (if zlen all <=? 1 then 5 else 1) (dtype_code dt)
      (compression_code comp) (encoding_code enc) (cw_buffer c) = Some qs /\
    map pg_points qs = map tnums all.
Proof. intros p snap decomp id dt comp enc pts c HG. exact (seal_cut p snap decomp HG id dt comp enc pts c). Qed.
Print Assumptions C48_chunk_pages.
(** Sizes of pages: at least 1500 points (the first page: 7989), at most [page_limit]; the open page has
    fewer. So the limit of 1048576 points per page of the code is never reached. *)
Theorem C48_page_sizes : forall dt enc pts,
  let '(pages, cur, _) := cut dt enc pts in
  concat pages ++ cur = pts /\
  Forall (fun pg => 1500 <= zlen pg <= page_limit dt enc) pages /\
  match pages with [] => True | pg :: _ => 7989 <= zlen pg end /\
  zlen cur < page_limit dt enc /\ page_limit dt enc < 1048576.
Proof.
  intros dt enc pts. pose proof (cut_concat dt enc pts) as C. pose proof (cut_ok dt enc pts) as I.
  destruct (cut dt enc pts) as [[pages cur] next]. pose proof (limit_small dt enc). cbn [cut_inv] in I.
  split; [auto|]. split; [tauto|]. split; [destruct pages; tauto|]. split; [tauto|lia].
Qed.
Print Assumptions C48_page_sizes.
(** INT64 with PLAIN: the first page is exactly the first 7989 points, whatever they are. *)
Theorem C48_first_page_int64 : forall p snap decomp id comp pts c, good_snap snap decomp -> points_ok INT64 pts ->
  7989 <= zlen pts < 2 ^ 32 -> cw_session p snap id INT64 comp PLAIN pts = Ret (inl c) ->
  exists q qs, chunk_data decomp (if zlen pts =? 7989 then 5 else 1) (dtype_code INT64) (compression_code comp)
      (encoding_code PLAIN) (cw_buffer c) = Some (q :: qs) /\
    pg_points q = tnums (firstn (Z.to_nat 7989) pts).
Proof. exact first_page_int64. Qed.
Print Assumptions C48_first_page_int64.

(** The estimate on 131 points (one finished block and two open values per column). *)
Definition page_ex : list (Z * value) := map (fun i => (Z.of_nat i * 3, VInt (Z.of_nat (i mod 7) - 3))) (seq 0 131).
Example C48_case_estimate : points_ok INT32 page_ex /\
  page_estimate INT32 TS2DIFF page_ex = 148 /\ page_estimate INT32 PLAIN page_ex = 342 /\
  cut INT32 PLAIN page_ex = ([], page_ex, 7989) /\ next_check 148 131 = 58008.
Proof.
  split.
  - unfold page_ex. apply Forall_forall. intros x Hx. apply in_map_iff in Hx. destruct Hx as (i & <- & Hi). apply in_seq in Hi.
    cbn [fst snd value_ok]. unfold i64_min, i64_max. pose proof (Nat.mod_upper_bound i 7). lia.
  - vm_compute. auto.
Qed.
(** 7990 points of an INT64 series: two pages, the first of 7989 points. *)
Definition long_ex : list (Z * value) := map (fun i => (Z.of_nat i, VLong 0)) (seq 0 (Z.to_nat 7990)).
Example C48_case_pages : exists c q qs, cw_session Release Some [109] INT64 UNCOMPRESSED PLAIN long_ex = Ret (inl c) /\
  chunk_data (fun l => Some l) 1 2 0 0 (cw_buffer c) = Some (q :: qs) /\ zlen (pg_points q) = 7989.
Proof.
  assert (G : good_snap Some (fun l => Some l)).
  { intros l _ _. exists l. split; [auto|]. split; [auto|]. pose proof (zlen_nonneg _ l). assert (0 <= zlen l / 6) by (apply Z.div_pos; lia). lia. }
  assert (L : zlen long_ex = 7990) by (unfold long_ex, zlen; rewrite map_length, seq_length; lia).
  assert (O : points_ok INT64 long_ex).
  { unfold long_ex. apply Forall_forall. intros x Hx. apply in_map_iff in Hx. destruct Hx as (i & <- & Hi). apply in_seq in Hi.
    cbn [fst snd value_ok]. unfold i64_min, i64_max. lia. }
  destruct (chunk_release_total Some (fun l => Some l) [109] INT64 UNCOMPRESSED PLAIN long_ex G O ltac:(lia)) as [c Hc]; [intros [Q _]; discriminate|].
  destruct (first_page_int64 Release Some (fun l => Some l) [109] UNCOMPRESSED long_ex c G O ltac:(lia) Hc) as (q & qs & A & B).
  exists c, q, qs. rewrite L in A. split; [exact Hc|]. split; [exact A|]. rewrite B. unfold zlen, tnums in *. rewrite map_length, firstn_length. lia.
Qed.
