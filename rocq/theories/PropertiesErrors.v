(** C66: comparison of errors. *)
From Coq Require Import String.
From Verif Require Import PErrors.
Open Scope string_scope.

(** Two errors compare equal exactly if they are the same error and not an I/O error. *)
Theorem C66_equal : forall a b, tserror_eqb a b = true <-> a = b /\ a <> EIo.
Proof. exact tserror_eqb_iff. Qed.
Print Assumptions C66_equal.
(** The comparison is a partial equivalence, as [PartialEq] demands. *)
Theorem C66_partial_equivalence : (forall a b, tserror_eqb a b = tserror_eqb b a) /\
  (forall a b c, tserror_eqb a b = true -> tserror_eqb b c = true -> tserror_eqb a c = true).
Proof. exact (conj tserror_eqb_sym tserror_eqb_trans). Qed.
Print Assumptions C66_partial_equivalence.
(** Results compare equal exactly if they are the same and not an I/O error, for contents with an exact comparison. *)
Theorem C66_outcomes : forall T (eqb : T -> T -> bool), (forall x y, eqb x y = true <-> x = y) ->
  forall a b, outcome_eqb eqb a b = true <-> a = b /\ a <> inr EIo.
Proof. exact outcome_eqb_iff. Qed.
Print Assumptions C66_outcomes.
Example C66_case : tserror_eqb (EError (Some "a")) (EError (Some "a")) = true /\ tserror_eqb (EError (Some "a")) (EError (Some "b")) = false /\
  tserror_eqb (EError (Some "a")) (EIllegalState (Some "a")) = false /\ tserror_eqb (EError None) (EError (Some "")) = false /\
  (forall x y, Bool.eqb x y = true <-> x = y) /\ outcome_eqb Bool.eqb (inl true) (inl true) = true.
Proof. repeat split; try reflexivity; apply Bool.eqb_true_iff. Qed.
(** "Every error equals itself" is false: a program that compares the result of a write with itself sees a difference. *)
Theorem C66_reflexive_refuted : exists e, tserror_eqb e e = false.
Proof. exists EIo. reflexivity. Qed.
Print Assumptions C66_reflexive_refuted.
