(** Base of the model: fixed-width integers, byte order, panics, ordered maps.
    Paths in comments are relative to /repo/tsfile-writer/src. *)
From Coq Require Export ZArith List Bool.
Export ListNotations.
Global Open Scope Z_scope.

(** Byte strings; a Rust [&str]/[String] is the list of its UTF-8 bytes, a [Vec<u8>] the
    list of its bytes. *)
Notation byte := Z (only parsing).
Notation str := (list Z) (only parsing).

(** Build profile: Rust integer overflow panics in debug builds and wraps in release builds
    (language reference; no file in /repo, Cargo.toml does not override it).
    Cargo.toml: /repo/tsfile-writer/Cargo.toml and /repo/Cargo.toml set no profile; overflow is relevant e.g. at writer/murmur128.rs:60-73. *)
Inductive profile := Debug | Release.

(** Reasons for a panic that occur in the modelled code.
    E.g. writer/murmur128.rs:60, writer/tsfile_writer.rs:189-192, writer/encoding/time_encoder.rs:204, writer/group_writer.rs:95, writer/statistics.rs:32-39, writer/tsfile_io_writer.rs:24. *)
Inductive panic :=
  | POverflow          (* arithmetic overflow, debug profile *)
  | PDivZero           (* division by zero *)
  | PIndex             (* slice index out of range / unwrap of a failed get *)
  | PUnwrap            (* unwrap/expect on Err or None *)
  | PTodo              (* todo!() *)
  | PExplicit          (* panic!(..) / assert!(..) *)
  | PFuel.             (* model artefact: a loop did not terminate within its fuel *)

(** Result of running a function that may panic. A Rust [Result] stays data inside [Ret].
    E.g. writer/tsfile_writer.rs:131-151. *)
Inductive outcome (A : Type) := Ret (a : A) | Panic (p : panic).
Arguments Ret {A} a.
Arguments Panic {A} p.

(** Sequencing of statements, e.g. writer/tsfile_writer.rs:123-127: a panic ends the function. *)
Definition bind {A B} (m : outcome A) (f : A -> outcome B) : outcome B :=
  match m with Ret a => f a | Panic p => Panic p end.
Notation "'let*' x ':=' m 'in' k" := (bind m (fun x => k))
  (at level 200, x name, m at level 100, k at level 200, right associativity).
Notation "'let*' ' x ':=' m 'in' k" := (bind m (fun x => k))
  (at level 200, x strict pattern, m at level 100, k at level 200, right associativity).

(** [v as uN] / [v as iN]: two's complement wrapping (Rust [as] casts between integers).
    E.g. writer/utils.rs:44, writer/chunk_writer.rs:362. *)
Definition wrapU (n v : Z) : Z := v mod 2 ^ n.
(** The same for a signed target, e.g. writer/murmur128.rs:17, sync/mlog.rs:21. *)
Definition wrapS (n v : Z) : Z :=
  let u := v mod 2 ^ n in if u <? 2 ^ (n - 1) then u else u - 2 ^ n.

(** Results of [+ - *] on unsigned/signed n-bit integers under the given profile.
    Unsigned e.g. writer/chunk_writer.rs:490. *)
Definition arithU (p : profile) (n v : Z) : outcome Z :=
  if (0 <=? v) && (v <? 2 ^ n) then Ret v
  else match p with Debug => Panic POverflow | Release => Ret (wrapU n v) end.
(** The same for a signed type, e.g. writer/encoding/time_encoder.rs:48. *)
Definition arithS (p : profile) (n v : Z) : outcome Z :=
  if (- 2 ^ (n - 1) <=? v) && (v <? 2 ^ (n - 1)) then Ret v
  else match p with Debug => Panic POverflow | Release => Ret (wrapS n v) end.

(** [x.to_be_bytes()] for an n-byte integer (std). E.g. writer/statistics.rs:181-188. *)
Fixpoint be_bytes (n : nat) (v : Z) : list byte :=
  match n with
  | O => []
  | S k => (v / 2 ^ (8 * Z.of_nat k)) mod 256 :: be_bytes k v
  end.

(** [v.len() as Z], e.g. writer/encoding/time_encoder.rs:65. *)
Definition zlen {A} (l : list A) : Z := Z.of_nat (length l).

(** Integer constants of std. Used by writer/encoding/time_encoder.rs:82-83 and writer/statistics.rs:129. *)
Definition i32_max : Z := 2 ^ 31 - 1.
(** [i32::MIN], writer/statistics.rs:130. *)
Definition i32_min : Z := - 2 ^ 31.
(** [i64::MAX], writer/statistics.rs:127. *)
Definition i64_max : Z := 2 ^ 63 - 1.
(** [i64::MIN], writer/statistics.rs:128. *)
Definition i64_min : Z := - 2 ^ 63.

(** Ordering of [str]: lexicographic on bytes (std [Ord for str]).
    Order of the maps at writer/group_writer.rs:10-11 and writer/tsfile_writer.rs:109, and at writer/tsfile_io_writer.rs:206. *)
Fixpoint str_cmp (a b : str) : comparison :=
  match a, b with
  | [], [] => Eq
  | [], _ => Lt
  | _, [] => Gt
  | x :: a', y :: b' =>
      match Z.compare x y with Eq => str_cmp a' b' | c => c end
  end.
(** [==] of [str], by which the maps at writer/tsfile_writer.rs:138 and writer/group_writer.rs:94 find their keys. *)
Definition str_eqb (a b : str) : bool :=
  match str_cmp a b with Eq => true | _ => false end.
(** [<] of [str], writer/tsfile_io_writer.rs:206. *)
Definition str_ltb (a b : str) : bool :=
  match str_cmp a b with Lt => true | _ => false end.

(** [BTreeMap<&str, V>]: association list in strictly increasing key order.
    writer/group_writer.rs:10-11, writer/tsfile_writer.rs:109, writer/tsfile_io_writer.rs:17. *)
Definition smap (V : Type) := list (str * V).

(** [BTreeMap::get], writer/tsfile_writer.rs:138, writer/group_writer.rs:94, 114. *)
Fixpoint sm_get {V} (k : str) (m : smap V) : option V :=
  match m with
  | [] => None
  | (k', v) :: m' => if str_eqb k k' then Some v else sm_get k m'
  end.

(** [BTreeMap::insert] (replaces the value of an existing key).
    writer/group_writer.rs:102, 112, writer/tsfile_io_writer.rs:155, 254. *)
Fixpoint sm_insert {V} (k : str) (v : V) (m : smap V) : smap V :=
  match m with
  | [] => [(k, v)]
  | (k', v') :: m' =>
      match str_cmp k k' with
      | Lt => (k, v) :: m
      | Eq => (k', v) :: m'
      | Gt => (k', v') :: sm_insert k v m'
      end
  end.

(** [iter.collect::<BTreeMap<_,_>>()], writer/tsfile_writer.rs:267, 272, 327, 332. *)
Definition sm_of_list {V} (l : list (str * V)) : smap V :=
  fold_left (fun m kv => sm_insert (fst kv) (snd kv) m) l [].

(** Apply a fallible function to every element, left to right. Loops such as writer/group_writer.rs:66-68. *)
Fixpoint mapM {A B} (f : A -> outcome B) (l : list A) : outcome (list B) :=
  match l with
  | [] => Ret []
  | x :: l' => let* y := f x in let* ys := mapM f l' in Ret (y :: ys)
  end.
(** The same with a running value, e.g. writer/group_writer.rs:54-62. *)
Fixpoint foldM {A B} (f : B -> A -> outcome B) (l : list A) (b : B) : outcome B :=
  match l with
  | [] => Ret b
  | x :: l' => let* b' := f b x in foldM f l' b'
  end.
