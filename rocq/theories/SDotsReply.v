(** Specification side: every outcome of a session with names of any kind (C62). *)
From Verif Require Export SDots SAgainReply.
Open Scope list_scope. Open Scope Z_scope.

(** The texts "device.measurement" of the stored series, each once, and their device parts. *)
Definition stored_texts (sc : schema) (pts : list point) : list (list Z) := name_set (stored_paths sc pts).
Definition stored_parts (sc : schema) (pts : list point) : list (list Z) := name_set (map device_part (stored_paths sc pts)).
(** As [closable] and [debug_closable], with these. *)
Definition texts_closable (sc : schema) (pts : list point) : bool :=
  let paths := stored_texts sc pts in
  let size := filter_size (zlen paths) in
  (zlen (stored_parts sc pts) <=? 256) && ((size mod 8 =? 0) || (4 <=? size mod 8)) &&
  forallb (fun q => forallb (fun s => negb (path_hash q s =? - 2 ^ 31) || (2 ^ 31 mod size =? 0)) [5; 7; 11; 19; 31]) paths.
Definition texts_fine (sc : schema) (p : profile) (s : session) : bool :=
  let pts := List.concat (final_flushes s) in
  match p with
  | Release => texts_closable sc pts
  | Debug => (negb (0 <? h_counted (ss_hist s)) || all_series series_done sc (h_recent (ss_hist s))) &&
      texts_closable sc pts && forallb (fun q => forallb (hash_fine q) [5; 7; 11; 19; 31]) (stored_texts sc pts)
  end.
Definition any_replies (p : profile) (snap : list Z -> option (list Z)) (sc : schema) : session -> list op -> option (list answer) := session_replies (texts_fine sc) p snap sc.
