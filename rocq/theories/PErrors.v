(** Proofs about the comparison of errors (C66). *)
From Coq Require Import String.
From Verif Require Export MErrors.

Lemma source_eqb_iff : forall a b, source_eqb a b = true <-> a = b.
Proof.
  intros [x|] [y|]; cbn; try (split; (reflexivity || discriminate)).
  rewrite String.eqb_eq. split; [intros ->; reflexivity|intros E; injection E as <-; reflexivity].
Qed.
Lemma tserror_eqb_iff : forall a b, tserror_eqb a b = true <-> a = b /\ a <> EIo.
Proof.
  intros a b. destruct a, b; cbn [tserror_eqb]; rewrite ?source_eqb_iff;
    (split; [intros E; first [discriminate E | split; [congruence|discriminate]]
            |intros [E N]; first [discriminate E | congruence]]).
Qed.
Lemma tserror_eqb_sym : forall a b, tserror_eqb a b = tserror_eqb b a.
Proof.
  intros a b. destruct (tserror_eqb a b) eqn:E, (tserror_eqb b a) eqn:F; try reflexivity.
  - apply tserror_eqb_iff in E. destruct E as [-> N]. rewrite <- F. symmetry. apply tserror_eqb_iff. auto.
  - apply tserror_eqb_iff in F. destruct F as [-> N]. rewrite <- E. apply tserror_eqb_iff. auto.
Qed.
Lemma tserror_eqb_trans : forall a b c, tserror_eqb a b = true -> tserror_eqb b c = true -> tserror_eqb a c = true.
Proof. intros a b c A B. apply tserror_eqb_iff in A, B. destruct A as [-> _]. apply tserror_eqb_iff. exact B. Qed.
Lemma outcome_eqb_iff : forall T (eqb : T -> T -> bool), (forall x y, eqb x y = true <-> x = y) ->
  forall a b, outcome_eqb eqb a b = true <-> a = b /\ a <> inr EIo.
Proof.
  intros T eqb H [x|e] [y|f]; cbn [outcome_eqb]; try (split; [discriminate|intros [? _]; discriminate]).
  - rewrite H. split; [intros ->; split; [reflexivity|discriminate]|intros [E _]; congruence].
  - rewrite tserror_eqb_iff. split; [intros [-> N]; split; congruence|intros [E N]; split; congruence].
Qed.
