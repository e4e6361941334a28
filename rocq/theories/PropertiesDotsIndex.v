(** Property C63: what the index of a file leads to, whatever the names and however often it was closed. SDotsIndex.v says
    which entries there are and what each holds ([index_lists]), in terms of the pieces C62 gives. *)
From Verif Require Import PropertiesWriter PropertiesIndex PropertiesDots PDotsReach.
Open Scope list_scope. Open Scope Z_scope.

(** ** All entries *)
Theorem C63_index : forall p snap decomp sc out w0 ops ord w l, good_snap snap decomp -> schema_ok sc ->
  writer_new sc (sink_new healthy) = (out, Some w0) -> run p snap w0 (ops ++ [OpClose ord]) = Ret (w, l) -> ops_ok (ops ++ [OpClose ord]) ->
  roomy_after snap sc (ops ++ [OpClose ord]) -> modest p snap sc (ops ++ [OpClose ord]) -> orders_ok (ops ++ [OpClose ord]) ->
  byte_names sc -> short_paths sc -> few_paths sc (closes (ops ++ [OpClose ord])) 65536 ->
  exists ps stages bs, written_any snap sc (ops ++ [OpClose ord]) (ps ++ [Tail bs]) (stages ++ [ps]) /\ file_bytes w = the_file snap (ps ++ [Tail bs]) /\
    index_lists p snap decomp (stages ++ [ps]) (file_bytes w).
Proof.
  intros p snap decomp sc out w0 ops ord w l HG Hsc N R O B M OO BN SP FP.
  destruct (reach_index p snap decomp sc out w0 ops ord w l HG Hsc N R O B M (conj OO (fun _ => conj BN (conj SP FP)))) as (ps & stages & bs & A & C & (D & _) & _). eauto 6.
Qed.
Print Assumptions C63_index.
(** For files below 4 GiB. *)
Theorem C63_index_small : forall p snap decomp sc out w0 ops ord w l, good_snap snap decomp -> schema_ok sc ->
  writer_new sc (sink_new healthy) = (out, Some w0) -> run p snap w0 (ops ++ [OpClose ord]) = Ret (w, l) -> ops_ok (ops ++ [OpClose ord]) ->
  24 * zsum (map op_points (ops ++ [OpClose ord])) + 150 * series_count sc < 2 ^ 32 -> zlen (file_bytes w) < 2 ^ 32 -> orders_ok (ops ++ [OpClose ord]) ->
  byte_names sc -> short_paths sc -> few_paths sc (closes (ops ++ [OpClose ord])) 65536 ->
  exists ps stages bs, written_any snap sc (ops ++ [OpClose ord]) (ps ++ [Tail bs]) (stages ++ [ps]) /\ file_bytes w = the_file snap (ps ++ [Tail bs]) /\
    index_lists p snap decomp (stages ++ [ps]) (file_bytes w).
Proof.
  intros p snap decomp sc out w0 ops ord w l HG Hsc N R O B L OO BN SP FP. destruct (run_trace _ _ _ _ _ _ _ _ N R) as (h & T).
  exact (C63_index p snap decomp sc out w0 ops ord w l HG Hsc N R O (roomy_after_of snap sc _ B) (small_modest _ _ _ _ _ _ _ T L) OO BN SP FP).
Qed.
Print Assumptions C63_index_small.

(** ** The acknowledged points: a series whose text is its own has an entry with exactly its points, under everything before
    the last dot of the text, and under its name; if only the types agree, an entry has them among others. *)
Theorem C63_series : forall p snap decomp sc out w0 ops ord w l, good_snap snap decomp -> schema_ok sc ->
  writer_new sc (sink_new healthy) = (out, Some w0) -> run p snap w0 (ops ++ [OpClose ord]) = Ret (w, l) -> ops_ok (ops ++ [OpClose ord]) -> batches_ok (ops ++ [OpClose ord]) l ->
  roomy_after snap sc (ops ++ [OpClose ord]) -> modest p snap sc (ops ++ [OpClose ord]) -> orders_ok (ops ++ [OpClose ord]) ->
  byte_names sc -> short_paths sc -> few_paths sc (closes (ops ++ [OpClose ord])) 65536 ->
  let pts := acked (ops ++ [OpClose ord]) l in
  exists xs, index_read decomp (file_bytes w) = Some xs /\
    (forall d m ms, declares sc d m ms -> own_text sc d m -> series_of d m pts <> [] ->
       exists x, In x xs /\ f_key x = (device_part (d ++ [46] ++ m), m) /\ series_found p (ms_type ms) (series_of d m pts) x) /\
    (forall d m dt, one_type sc d m dt -> series_of d m pts <> [] ->
       exists x, In x xs /\ fst (f_key x) = device_part (d ++ [46] ++ m) /\ incl (tnums (series_of d m pts)) (f_points x)).
Proof.
  intros p snap decomp sc out w0 ops ord w l HG Hsc N R O BO B M OO BN SP FP.
  exact (reach_series p snap decomp sc out w0 ops ord w l HG Hsc N R O BO B M (conj OO (fun _ => conj BN (conj SP FP)))).
Qed.
Print Assumptions C63_series.

(** ** Looking one name up: what is found depends on the entries listed for the device part, as [paged_lookup] says. *)
Theorem C63_lookup : forall p snap decomp sc out w0 ops ord w l, good_snap snap decomp -> schema_ok sc ->
  writer_new sc (sink_new healthy) = (out, Some w0) -> run p snap w0 (ops ++ [OpClose ord]) = Ret (w, l) -> ops_ok (ops ++ [OpClose ord]) ->
  roomy_after snap sc (ops ++ [OpClose ord]) -> modest p snap sc (ops ++ [OpClose ord]) -> orders_ok (ops ++ [OpClose ord]) ->
  byte_names sc -> short_paths sc -> few_paths sc (closes (ops ++ [OpClose ord])) 65536 -> lookups_follow decomp (file_bytes w).
Proof.
  intros p snap decomp sc out w0 ops ord w l HG Hsc N R O B M OO BN SP FP.
  destruct (reach_index p snap decomp sc out w0 ops ord w l HG Hsc N R O B M (conj OO (fun _ => conj BN (conj SP FP)))) as (ps & stages & bs & _ & _ & (_ & D) & _). exact D.
Qed.
Print Assumptions C63_lookup.

(** ** The chunks: all acknowledged points are in chunks, and an entry refers to a chunk exactly if its type is that of the
    first chunk with its text. *)
Theorem C63_chunks : forall p snap decomp sc out w0 ops ord w l, good_snap snap decomp -> schema_ok sc ->
  writer_new sc (sink_new healthy) = (out, Some w0) -> run p snap w0 (ops ++ [OpClose ord]) = Ret (w, l) -> ops_ok (ops ++ [OpClose ord]) -> batches_ok (ops ++ [OpClose ord]) l ->
  roomy_after snap sc (ops ++ [OpClose ord]) -> modest p snap sc (ops ++ [OpClose ord]) -> orders_ok (ops ++ [OpClose ord]) ->
  byte_names sc -> short_paths sc -> few_paths sc (closes (ops ++ [OpClose ord])) 65536 ->
  exists ps bs xs, file_bytes w = the_file snap (ps ++ [Tail bs]) /\ (forall d m, series_points snap d m ps = series_of d m (acked (ops ++ [OpClose ord]) l)) /\
    index_read decomp (file_bytes w) = Some xs /\
    forall s, In s (spots snap 7 ps) -> ((exists x, In x xs /\ In (s_at s) (map fst (ts_chunks (f_meta x)))) <-> leads snap ps s).
Proof.
  intros p snap decomp sc out w0 ops ord w l HG Hsc N R O BO B M OO BN SP FP.
  exact (reach_chunks p snap decomp sc out w0 ops ord w l HG Hsc N R O BO B M (conj OO (fun _ => conj BN (conj SP FP)))).
Qed.
Print Assumptions C63_chunks.

(** ** a / "b.c" holds INT32 values, a.b / "d" INT64 values: two texts with one device part *)
Definition di_sc : schema := [([97], [([98; 46; 99], mkMS INT32 PLAIN UNCOMPRESSED)]); ([97; 46; 98], [([100], mkMS INT64 PLAIN UNCOMPRESSED)])].
Definition di_start : writer := Eval vm_compute in
  match writer_new di_sc (sink_new healthy) with (_, Some w) => w | (o, None) => mkW (mkIO o None [] None [] []) [] 0 0 [] end.
Definition di_ops : list op := [OpWrite [97] [98; 46; 99] 1 (VInt 5); OpClose (fun l => l); OpWrite [97; 46; 98] [100] 2 (VLong 6)].
Definition di_all : list op := di_ops ++ [OpClose (fun l => l)].
Definition di_closed : writer := Eval vm_compute in match run Release ex_snap di_start di_all with Ret r => fst r | Panic _ => di_start end.
Lemma di_declares : forall d m ms, declares di_sc d m ms -> (d, m, ms) = ([97], [98; 46; 99], mkMS INT32 PLAIN UNCOMPRESSED) \/ (d, m, ms) = ([97; 46; 98], [100], mkMS INT64 PLAIN UNCOMPRESSED).
Proof. intros d m ms (g & A & B). destruct A as [A|[A|[]]]; inversion A; subst; destruct B as [B|[]]; inversion B; subst; auto. Qed.
Example C63_case : schema_ok di_sc /\ run Release ex_snap di_start di_all = Ret (di_closed, [AOk; AUnit; AOk; AUnit]) /\ ops_ok di_all /\ batches_ok di_all [AOk; AUnit; AOk; AUnit] /\
  24 * zsum (map op_points di_all) + 150 * series_count di_sc < 2 ^ 32 /\ zlen (file_bytes di_closed) < 2 ^ 32 /\ orders_ok di_all /\
  byte_names di_sc /\ short_paths di_sc /\ few_paths di_sc (closes di_all) 65536 /\
  own_text di_sc [97] [98; 46; 99] /\ one_type di_sc [97] [98; 46; 99] INT32 /\
  series_of [97] [98; 46; 99] (acked di_all [AOk; AUnit; AOk; AUnit]) <> [] /\
  match index_read ex_snap (file_bytes di_closed) with Some xs => map (fun x => (f_key x, f_points x)) xs | None => [] end =
    [(([97; 46; 98], [98; 46; 99]), [(1, 5)]); (([97; 46; 98], [98; 46; 99]), [(1, 5)]); (([97; 46; 98], [100]), [(2, 6)])].
Proof.
  split; [split; [repeat constructor; cbn; intuition discriminate|]; repeat constructor; cbn; intuition discriminate|]. split; [vm_compute; reflexivity|].
  split; [split; [|reflexivity]; repeat apply Forall_cons; try apply Forall_nil; repeat split; vm_compute; try discriminate|].
  split; [repeat apply Forall2_cons; try apply Forall2_nil; exact Logic.I|].
  split; [reflexivity|]. split; [reflexivity|]. split; [repeat apply Forall_cons; try apply Forall_nil; try exact Logic.I; exact order_id|].
  split; [intros d m ms D; destruct (di_declares d m ms D) as [E|E]; inversion E; subst; repeat constructor; lia|].
  split; [intros d m ms D; destruct (di_declares d m ms D) as [E|E]; inversion E; subst; vm_compute; reflexivity|].
  split; [intros d; change (declared_paths di_sc) with [[97; 46; 98; 46; 99]; [97; 46; 98; 46; 100]]; cbn [filter]; repeat match goal with |- context [same_name ?a ?b] => destruct (same_name a b) end; vm_compute; discriminate|].
  split; [intros d m ms D H; destruct (di_declares d m ms D) as [E|E]; inversion E; subst; [auto|discriminate H]|].
  split; [intros d m ms D H; destruct (di_declares d m ms D) as [E|E]; inversion E; subst; [reflexivity|discriminate H]|].
  split; [vm_compute; discriminate|vm_compute; reflexivity].
Qed.
(** So an entry need not have the device its points were written to. *)
Theorem C63_device_refuted : exists w0 w out xs, writer_new di_sc (sink_new healthy) = (out, Some w0) /\
  run Release ex_snap w0 [OpWrite [97] [98; 46; 99] 1 (VInt 5); OpClose (fun l => l)] = Ret (w, [AOk; AUnit]) /\ index_read ex_snap (file_bytes w) = Some xs /\
  ~ exists x, In x xs /\ f_key x = ([97], [98; 46; 99]).
Proof.
  do 4 eexists. do 3 (split; [vm_compute; reflexivity|]). intros (x & J & E). repeat (destruct J as [<-|J]; [discriminate E|]). destruct J.
Qed.
Print Assumptions C63_device_refuted.
(** In the session of C62_case the chunk of a.b / "c" has another type than the first with its text. *)
Example C63_chunks_case : map (fun s => (s_device s, s_name s)) (spots ex_snap 7 dt_one) = [([97], [98; 46; 99]); ([97; 46; 98], [99])] /\
  (forall s, In s (spots ex_snap 7 dt_one) -> s_name s = [98; 46; 99] -> leads ex_snap dt_one s) /\
  (forall s, In s (spots ex_snap 7 dt_one) -> s_name s = [99] -> ~ leads ex_snap dt_one s).
Proof.
  split; [vm_compute; reflexivity|]. split.
  - intros s J E. cbn in J. destruct J as [<-|[<-|[]]]; [|discriminate E]. eexists _, _. split; vm_compute; reflexivity.
  - intros s J E (c & l & H & T). cbn in J. destruct J as [<-|[<-|[]]]; [discriminate E|]. vm_compute in H. injection H as <- _. discriminate T.
Qed.
(** Records are listed in the order of their texts, so names need not rise: a.b / "c" comes before a / "b.d", and a search
    for "b.d" below the device part a.b ends before it began, although no other series has that text and the file was closed
    once. *)
Definition dl_sc : schema := [([97], [([98; 46; 100], mkMS INT32 PLAIN UNCOMPRESSED)]); ([97; 46; 98], [([99], mkMS INT64 PLAIN UNCOMPRESSED)])].
Definition dl_ops : list op := [OpWrite [97] [98; 46; 100] 1 (VInt 5); OpWrite [97; 46; 98] [99] 2 (VLong 6); OpClose (fun l => l)].
Theorem C63_lookup_refuted : own_text dl_sc [97] [98; 46; 100] /\ exists w0 w out xs x, writer_new dl_sc (sink_new healthy) = (out, Some w0) /\
  run Release ex_snap w0 dl_ops = Ret (w, [AOk; AOk; AUnit]) /\ index_read ex_snap (file_bytes w) = Some xs /\ In x xs /\
  f_key x = (device_part ([97] ++ [46] ++ [98; 46; 100]), [98; 46; 100]) /\ f_points x = [(1, 5)] /\
  lookup (file_bytes w) (fst (f_key x)) (snd (f_key x)) = None.
Proof.
  split.
  - intros d m ms (g & A & B) E. destruct A as [A|[A|[]]]; inversion A; subst; destruct B as [B|[]]; inversion B; subst; [auto|discriminate E].
  - do 5 eexists. do 3 (split; [vm_compute; reflexivity|]). split; [right; left; reflexivity|]. vm_compute. auto.
Qed.
Print Assumptions C63_lookup_refuted.
Example C63_lookup_case : map ts_name (map f_meta (match index_read ex_snap (file_bytes di_closed) with Some xs => xs | None => [] end)) = [[98; 46; 99]; [98; 46; 99]; [100]] /\
  option_map ts_name (lookup (file_bytes di_closed) [97; 46; 98] [100]) = Some [100] /\ lookup (file_bytes di_closed) [97; 46; 98] [97] = None.
Proof. vm_compute. auto. Qed.
