(** writer/errors.rs: comparison of error values. *)
From Coq Require Import String.
From Verif Require Export MTypes.

(** [==] of [Option<String>] (std) at writer/errors.rs:20, 27 *)
Definition source_eqb (a b : option string) : bool :=
  match a, b with
  | None, None => true
  | Some x, Some y => String.eqb x y
  | _, _ => false
  end.

(** [PartialEq::eq] of [TsFileError], writer/errors.rs:16-35 *)
Definition tserror_eqb (self other : tserror) : bool :=
  match self with
  | EError a => match other with EError b => source_eqb a b | _ => false end
  | EIo => false
  | EWrite => match other with EWrite => true | _ => false end
  | EOutOfOrderData => match other with EOutOfOrderData => true | _ => false end
  | EIllegalState a => match other with EIllegalState b => source_eqb a b | _ => false end
  | ECompression => match other with ECompression => true | _ => false end
  | EWrongType => match other with EWrongType => true | _ => false end
  | EEncoding => match other with EEncoding => true | _ => false end
  end.

(** [==] of [Result<T, TsFileError>] (derived in std) for a type with comparison [eqb],
    over writer/errors.rs:16-37 (a test compares such an error at writer/mod.rs:1562) *)
Definition outcome_eqb {T} (eqb : T -> T -> bool) (a b : T + tserror) : bool :=
  match a, b with
  | inl x, inl y => eqb x y
  | inr e, inr f => tserror_eqb e f
  | _, _ => false
  end.
