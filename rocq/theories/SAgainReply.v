(** Specification side: every outcome of a session with any number of closes (C61). *)
From Verif Require Export SAgain SDebug.
From Coq Require Import String.
Open Scope list_scope. Open Scope Z_scope.

(** When a call panics, in either build; [fine] says when a close succeeds. *)
Definition stops (fine : profile -> session -> bool) (p : profile) (snap : list Z -> option (list Z)) (sc : schema) (s : session) (o : op) : bool :=
  match o, p with
  | OpClose _, _ => negb (fine p s)
  | _, Release => call_panics sc s o
  | _, Debug => call_panics sc s o || overflows snap sc s o
  end.
(** The answers; [None]: some call panics. *)
Fixpoint session_replies (fine : profile -> session -> bool) (p : profile) (snap : list Z -> option (list Z)) (sc : schema) (s : session) (ops : list op) : option (list answer) :=
  match ops with
  | [] => Some []
  | o :: ops' => if stops fine p snap sc s o then None else option_map (cons (reply sc (ss_hist s) o)) (session_replies fine p snap sc (session_next snap sc s o) ops')
  end.
(** Whether a close panics depends only on the points in the file after its flush. *)
Definition close_fine (sc : schema) (p : profile) (s : session) : bool :=
  match p with Release => closable sc (List.concat (final_flushes s)) | Debug => debug_closable sc s end.
Definition all_replies (p : profile) (snap : list Z -> option (list Z)) (sc : schema) : session -> list op -> option (list answer) := session_replies (close_fine sc) p snap sc.
(** Only a close looks at names. *)
Definition names_ok (sc : schema) (ops : list op) : Prop := 0 < closes ops -> no_dots sc /\ byte_names sc /\ short_paths sc.
