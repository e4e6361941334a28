(** Output sinks: [std::io::Write], [PositionedWrite], [WriteWrapper], and the small language
    of write sequences that the [serialize] functions consist of. *)
From Verif Require Export MBase.

(** What the underlying writer does on one [write] call (std::io::Write contract: accept any
    prefix of the buffer, or fail). [ErrorKind::Interrupted] is left out: [write_all] retries
    it without any effect. The [writer] inside [WriteWrapper], writer/mod.rs:144-147, 151. *)
Inductive fault := FFull | FShort (n : nat) | FFail.

(** [WriteWrapper<T>] writer/mod.rs:144-147 together with the underlying writer: the bytes it
    has accepted so far (newest first), the [position] field, the number of [write] calls so
    far and the fault schedule of the underlying writer. *)
Record sink := mkSink {
  sk_rev : list byte;
  sk_pos : Z;
  sk_calls : nat;
  sk_sched : nat -> fault }.

(** Bytes in the file, oldest first. Of the writer inside [WriteWrapper], writer/mod.rs:146. *)
Definition sk_data (s : sink) : list byte := rev (sk_rev s).

(** [WriteWrapper::new] writer/mod.rs:172-177 *)
Definition sink_new (sched : nat -> fault) : sink :=
  {| sk_rev := []; sk_pos := 0; sk_calls := 0%nat; sk_sched := sched |}.

(** The schedule of a writer that never fails ([Vec<u8>], writer/mod.rs:180-184, or a file on a
    healthy disk). *)
Definition healthy : nat -> fault := fun _ => FFull.

(** [WriteWrapper::write] writer/mod.rs:150-158: [Some n] is [Ok(n)], [None] is [Err(_)]; the
    position advances by the accepted size. *)
Definition sk_write (buf : list byte) (s : sink) : sink * option nat :=
  let accept (k : nat) :=
    ({| sk_rev := rev_append (firstn k buf) (sk_rev s);
        sk_pos := sk_pos s + Z.of_nat k;
        sk_calls := S (sk_calls s);
        sk_sched := sk_sched s |}, Some k) in
  match sk_sched s (sk_calls s) with
  | FFull => accept (length buf)
  | FShort n => accept (Nat.min n (length buf))
  | FFail =>
      ({| sk_rev := sk_rev s; sk_pos := sk_pos s; sk_calls := S (sk_calls s);
          sk_sched := sk_sched s |}, None)
  end.

(** [io::Write::write_all] (std): loop until the buffer is empty; [Ok(0)] is an error. The
    fuel is the buffer length: every successful round accepts at least one byte.
    Called e.g. at writer/tsfile_io_writer.rs:86-87. *)
Fixpoint sk_write_all_loop (fuel : nat) (buf : list byte) (s : sink) : sink * bool :=
  match buf with
  | [] => (s, true)
  | _ =>
      match fuel with
      | O => (s, false)
      | S f =>
          match sk_write buf s with
          | (s', None) => (s', false)
          | (s', Some O) => (s', false)
          | (s', Some n) => sk_write_all_loop f (skipn n buf) s'
          end
      end
  end.
(** [write_all], called e.g. at writer/tsfile_io_writer.rs:86-87 *)
Definition sk_write_all (buf : list byte) (s : sink) : sink * bool :=
  sk_write_all_loop (length buf) buf s.

(** Write sequences as they occur in the [serialize] functions.
    E.g. writer/statistics.rs:178-191 and writer/mod.rs:387-406. *)
Inductive wprog :=
  | WNil                        (* Ok(()) *)
  | WAll (bs : list byte)       (* file.write_all(bs) *)
  | WOne (bs : list byte)       (* file.write(bs): a single, possibly short, write *)
  | WThen (p q : wprog)         (* p?; q *)
  | WAnd (p q : wprog).         (* p; q   (the Result of p is dropped) *)

(** Execution on a sink; the boolean is [true] for [Ok]. E.g. of writer/statistics.rs:178-191. *)
Fixpoint wexec (w : wprog) (s : sink) : sink * bool :=
  match w with
  | WNil => (s, true)
  | WAll bs => sk_write_all bs s
  | WOne bs => match sk_write bs s with (s', Some _) => (s', true) | (s', None) => (s', false) end
  | WThen p q =>
      match wexec p s with
      | (s', true) => wexec q s'
      | (s', false) => (s', false)
      end
  | WAnd p q => wexec q (fst (wexec p s))
  end.

(** Execution on a [Vec<u8>], which accepts everything (writer/mod.rs:180-184 and std's
    [Write for Vec<u8>]): the bytes appended. *)
Fixpoint wbytes (w : wprog) : list byte :=
  match w with
  | WNil => []
  | WAll bs => bs
  | WOne bs => bs
  | WThen p q => wbytes p ++ wbytes q
  | WAnd p q => wbytes p ++ wbytes q
  end.
