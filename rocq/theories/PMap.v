(** Laws of the ordered maps of the model. *)
From Verif Require Export PBase.
From Coq Require Export Sorting.Sorted.
Ltac Zify.zify_post_hook ::= idtac.

Lemma str_cmp_refl : forall a, str_cmp a a = Eq.
Proof. induction a; cbn; auto. rewrite Z.compare_refl. auto. Qed.
Lemma str_cmp_eq : forall a b, str_cmp a b = Eq -> a = b.
Proof.
  induction a as [|x a IH]; intros [|y b] H; cbn in H; try discriminate; auto.
  destruct (Z.compare_spec x y); try discriminate. subst. f_equal. auto.
Qed.
Lemma str_cmp_antisym : forall a b, str_cmp b a = CompOpp (str_cmp a b).
Proof.
  induction a as [|x a IH]; intros [|y b]; cbn; auto. rewrite (Z.compare_antisym x y).
  destruct (x ?= y); cbn; auto.
Qed.
Definition str_lt (a b : str) : Prop := str_cmp a b = Lt.
Lemma str_lt_trans : forall a b c, str_lt a b -> str_lt b c -> str_lt a c.
Proof.
  unfold str_lt. induction a as [|x a IH]; intros [|y b] [|z c] H G; cbn in *; try discriminate; auto.
  destruct (Z.compare_spec x y); try discriminate.
  - subst. destruct (Z.compare_spec y z); try discriminate; auto. eauto.
  - destruct (Z.compare_spec y z); try discriminate.
    + subst. destruct (Z.compare_spec x z); auto; lia.
    + destruct (Z.compare_spec x z); auto; lia.
Qed.
Lemma str_lt_irrefl : forall a, ~ str_lt a a.
Proof. unfold str_lt. intros a H. rewrite str_cmp_refl in H. discriminate. Qed.
Lemma str_eqb_eq : forall a b, str_eqb a b = true <-> a = b.
Proof.
  intros. unfold str_eqb. split.
  - destruct (str_cmp a b) eqn:E; try discriminate. intros _. apply str_cmp_eq. auto.
  - intros ->. rewrite str_cmp_refl. auto.
Qed.
Lemma str_eqb_refl : forall a, str_eqb a a = true.
Proof. intros. apply str_eqb_eq. auto. Qed.
Lemma str_eqb_neq : forall a b, a <> b -> str_eqb a b = false.
Proof. intros a b H. destruct (str_eqb a b) eqn:E; auto. apply str_eqb_eq in E. congruence. Qed.
Lemma str_ltb_lt : forall a b, str_ltb a b = true <-> str_lt a b.
Proof. intros. unfold str_ltb, str_lt. destruct (str_cmp a b); split; congruence. Qed.
Lemma str_eq_dec : forall a b : str, {a = b} + {a <> b}.
Proof. apply (list_eq_dec Z.eq_dec). Qed.
Lemma str_lt_total : forall a b, str_lt a b \/ a = b \/ str_lt b a.
Proof.
  intros. unfold str_lt. rewrite (str_cmp_antisym a b). destruct (str_cmp a b) eqn:E; auto.
  right. left. apply str_cmp_eq. auto.
Qed.

Definition sorted {V} (m : smap V) : Prop := StronglySorted str_lt (map fst m).
Lemma sorted_nil : forall V, sorted (@nil (str * V)).
Proof. constructor. Qed.
Lemma sorted_cons : forall V k (v : V) m, sorted ((k, v) :: m) -> sorted m /\ Forall (str_lt k) (map fst m).
Proof. intros V k v m H. inversion H; auto. Qed.

Lemma sm_get_in : forall V k (v : V) m, sm_get k m = Some v -> In (k, v) m.
Proof.
  induction m as [|[k' v'] m IH]; cbn; intros H; [discriminate|]. destruct (str_eqb k k') eqn:E.
  - apply str_eqb_eq in E. inversion H. subst. auto.
  - auto.
Qed.
Lemma sm_get_none : forall V k (m : smap V), sm_get k m = None <-> ~ In k (map fst m).
Proof.
  induction m as [|[k' v'] m IH]; cbn; [tauto|]. destruct (str_eqb k k') eqn:E.
  - apply str_eqb_eq in E. subst. split; [discriminate|tauto].
  - rewrite IH. assert (k' <> k) by (intros ->; rewrite str_eqb_refl in E; discriminate). tauto.
Qed.
Lemma in_sm_get : forall V k (v : V) m, sorted m -> In (k, v) m -> sm_get k m = Some v.
Proof.
  induction m as [|[k' v'] m IH]; cbn [sm_get]; intros S H; [destruct H|]. apply sorted_cons in S. destruct S as [S L].
  destruct H as [H|H].
  - inversion H; subst. rewrite str_eqb_refl. auto.
  - rewrite str_eqb_neq; auto. intros ->. apply (in_map fst) in H. rewrite Forall_forall in L. apply L in H.
    apply (str_lt_irrefl k'). exact H.
Qed.
Lemma sm_get_some_in : forall V k (m : smap V), In k (map fst m) -> exists v, sm_get k m = Some v.
Proof.
  intros V k m H. destruct (sm_get k m) eqn:E; eauto. apply sm_get_none in E. tauto.
Qed.

Lemma sm_insert_keys : forall V k (v : V) m x, In x (map fst (sm_insert k v m)) <-> x = k \/ In x (map fst m).
Proof.
  induction m as [|[k' v'] m IH]; intros x; cbn [sm_insert map fst In].
  - split; intros [H|H]; auto.
  - destruct (str_cmp k k') eqn:E; cbn [map fst In].
    + apply str_cmp_eq in E. subst. intuition.
    + intuition.
    + rewrite IH. intuition.
Qed.
Lemma sm_insert_sorted : forall V k (v : V) m, sorted m -> sorted (sm_insert k v m).
Proof.
  induction m as [|[k' v'] m IH]; intros S; cbn [sm_insert].
  - repeat constructor.
  - destruct (str_cmp k k') eqn:E.
    + inversion S; subst. constructor; auto.
    + constructor; auto. constructor; [exact E|]. apply sorted_cons in S. destruct S as [_ L]. cbn [map fst] in *.
      eapply Forall_impl; [|exact L]. intros a. apply str_lt_trans. exact E.
    + apply sorted_cons in S. destruct S as [S L]. constructor; [apply IH; auto|]. cbn [map fst].
      apply Forall_forall. intros x Hx. apply sm_insert_keys in Hx. destruct Hx as [->|Hx].
      * unfold str_lt. rewrite str_cmp_antisym, E. reflexivity.
      * rewrite Forall_forall in L. auto.
Qed.
Lemma sm_get_insert : forall V k (v : V) m x, sm_get x (sm_insert k v m) = if str_eqb x k then Some v else sm_get x m.
Proof.
  induction m as [|[k' v'] m IH]; intros x; cbn [sm_insert sm_get].
  - reflexivity.
  - destruct (str_cmp k k') eqn:E; cbn [sm_get].
    + apply str_cmp_eq in E. subst k'. destruct (str_eqb x k); auto.
    + reflexivity.
    + rewrite IH. destruct (str_eqb x k') eqn:X; auto. apply str_eqb_eq in X. subst k'.
      rewrite str_eqb_neq; auto. intros ->. rewrite str_cmp_refl in E. discriminate.
Qed.
Lemma sm_get_same : forall V k (v : V) m, sm_get k (sm_insert k v m) = Some v.
Proof. intros. rewrite sm_get_insert, str_eqb_refl. auto. Qed.
Lemma sm_get_other : forall V k (v : V) m x, x <> k -> sm_get x (sm_insert k v m) = sm_get x m.
Proof. intros. rewrite sm_get_insert, str_eqb_neq; auto. Qed.

(** extensionality *)
Lemma sm_ext : forall V (m n : smap V), sorted m -> sorted n -> (forall k, sm_get k m = sm_get k n) -> m = n.
Proof.
  induction m as [|[k v] m IH]; intros n Sm Sn H.
  - destruct n as [|[k v] n]; auto. specialize (H k). cbn in H. rewrite str_eqb_refl in H. discriminate.
  - destruct n as [|[k' v'] n].
    { specialize (H k). cbn in H. rewrite str_eqb_refl in H. discriminate. }
    apply sorted_cons in Sm. destruct Sm as [Sm Lm]. apply sorted_cons in Sn. destruct Sn as [Sn Ln].
    rewrite Forall_forall in Lm, Ln.
    assert (E : k = k').
    { destruct (str_lt_total k k') as [L|[L|L]]; auto; exfalso.
      - pose proof (H k) as K. cbn [sm_get] in K. rewrite str_eqb_refl in K. rewrite str_eqb_neq in K.
        + symmetry in K. apply sm_get_in in K. apply (in_map fst) in K. apply Ln in K. cbn in K.
          apply (str_lt_irrefl k). eapply str_lt_trans; eauto.
        + intros ->. apply (str_lt_irrefl _ L).
      - pose proof (H k') as K. cbn [sm_get] in K. rewrite str_eqb_refl in K. rewrite str_eqb_neq in K.
        + apply sm_get_in in K. apply (in_map fst) in K. apply Lm in K. cbn in K.
          apply (str_lt_irrefl k'). eapply str_lt_trans; eauto.
        + intros ->. apply (str_lt_irrefl _ L). }
    subst k'. pose proof (H k) as K. cbn [sm_get] in K. rewrite str_eqb_refl in K. inversion K; subst v'. f_equal.
    apply IH; auto. intros x. pose proof (H x) as X. cbn [sm_get] in X. destruct (str_eqb x k) eqn:E; auto.
    apply str_eqb_eq in E. subst x. transitivity (@None V); [|symmetry]; apply sm_get_none.
    + intros I. apply Lm in I. apply (str_lt_irrefl _ I).
    + intros I. apply Ln in I. apply (str_lt_irrefl _ I).
Qed.
Lemma sm_insert_get : forall V k (v : V) m, sorted m -> sm_get k m = Some v -> sm_insert k v m = m.
Proof.
  intros. apply sm_ext; auto using sm_insert_sorted. intros x. rewrite sm_get_insert.
  destruct (str_eqb x k) eqn:E; auto. apply str_eqb_eq in E. congruence.
Qed.
Lemma sm_insert_keys_same : forall V k (v : V) m, In k (map fst m) -> sorted m -> map fst (sm_insert k v m) = map fst m.
Proof.
  induction m as [|[k' v'] m IH]; cbn [map fst]; intros H S; [destruct H|].
  apply sorted_cons in S. destruct S as [S L]. cbn [sm_insert]. destruct (str_cmp k k') eqn:E; cbn [map fst]; auto.
  - exfalso. destruct H as [->|H]; [rewrite str_cmp_refl in E; discriminate|].
    rewrite Forall_forall in L. apply L in H. apply (str_lt_irrefl k). eapply str_lt_trans; eauto.
  - f_equal. apply IH; auto. destruct H as [->|H]; auto. rewrite str_cmp_refl in E. discriminate.
Qed.

(** maps built from lists *)
Lemma of_list_gen : forall V (l : list (str * V)) m, sorted m ->
  sorted (fold_left (fun m kv => sm_insert (fst kv) (snd kv) m) l m) /\
  forall k, sm_get k (fold_left (fun m kv => sm_insert (fst kv) (snd kv) m) l m) =
    match sm_get k (rev l) with Some v => Some v | None => sm_get k m end.
Proof.
  intros V l. induction l as [|[k v] l IH] using rev_ind; intros m S.
  - split; auto.
  - rewrite fold_left_app. cbn [fold_left fst snd]. destruct (IH m S) as [A B]. split.
    + apply sm_insert_sorted. auto.
    + intros x. rewrite sm_get_insert, rev_app_distr. cbn [rev app sm_get]. destruct (str_eqb x k); auto.
Qed.
Lemma sm_of_list_sorted : forall V (l : list (str * V)), sorted (sm_of_list l).
Proof. intros. apply of_list_gen. constructor. Qed.
Lemma sm_get_of_list : forall V (l : list (str * V)) k, sm_get k (sm_of_list l) = sm_get k (rev l).
Proof.
  intros. unfold sm_of_list. destruct (of_list_gen V l [] (sorted_nil V)) as [_ B]. rewrite B.
  destruct (sm_get k (rev l)); auto.
Qed.
Lemma sm_get_nodup : forall V k (v : V) l, NoDup (map fst l) -> In (k, v) l -> sm_get k l = Some v.
Proof.
  induction l as [|[k' v'] l IH]; cbn [sm_get map fst]; intros N H; [destruct H|]. inversion N; subst.
  destruct H as [H|H].
  - inversion H; subst. rewrite str_eqb_refl. auto.
  - rewrite str_eqb_neq; auto. intros ->. apply (in_map fst) in H. cbn in H. tauto.
Qed.
Lemma sm_of_list_nodup : forall V k (v : V) l, NoDup (map fst l) -> (sm_get k (sm_of_list l) = Some v <-> In (k, v) l).
Proof.
  intros V k v l N. rewrite sm_get_of_list. split; intros H.
  - apply sm_get_in in H. apply in_rev. auto.
  - apply sm_get_nodup; [|apply in_rev in H; auto]. rewrite map_rev. apply NoDup_rev. auto.
Qed.

(** pointwise related maps *)
Definition same_keys {A B} (P : str -> A -> B -> Prop) (m : smap A) (n : smap B) : Prop :=
  Forall2 (fun x y => fst x = fst y /\ P (fst x) (snd x) (snd y)) m n.
Lemma same_keys_fst : forall A B (P : str -> A -> B -> Prop) m n, same_keys P m n -> map fst m = map fst n.
Proof. intros A B P m n H. induction H as [|x y m n [E _] H IH]; cbn; auto. congruence. Qed.
Lemma same_keys_get : forall A B (P : str -> A -> B -> Prop) m n k, same_keys P m n ->
  match sm_get k m, sm_get k n with
  | Some a, Some b => P k a b
  | None, None => True
  | _, _ => False
  end.
Proof.
  intros A B P m n k H. induction H as [|[k1 a] [k2 b] m n [E HP] H IH]; cbn [sm_get]; auto.
  cbn [fst snd] in *. subst k2. destruct (str_eqb k k1) eqn:X; auto. apply str_eqb_eq in X. subst. auto.
Qed.
Lemma same_keys_insert : forall A B (P Q : str -> A -> B -> Prop) m n k a b, same_keys P m n -> sorted n ->
  sm_get k m = Some a -> Q k a b -> (forall k' a' b', k' <> k -> P k' a' b' -> Q k' a' b') ->
  same_keys Q m (sm_insert k b n).
Proof.
  intros A B P Q m n k a b H. induction H as [|[k1 a1] [k2 b1] m n [E HP] H IH]; intros S G Hk Ho; cbn [sm_get] in G; [discriminate|].
  cbn [fst snd] in *. subst k2. apply sorted_cons in S. destruct S as [S L]. cbn [sm_insert].
  destruct (str_cmp k k1) eqn:X.
  - apply str_cmp_eq in X. subst k1. rewrite str_eqb_refl in G. inversion G; subst a1. constructor; [cbn; auto|].
    clear - H Ho L.
    assert (K : Forall (fun x => fst x <> k) n).
    { apply Forall_forall. intros x Hx E. apply (in_map fst) in Hx. rewrite E in Hx. rewrite Forall_forall in L.
      apply L in Hx. apply (str_lt_irrefl _ Hx). }
    clear L. induction H as [|x y m n [E HP] H IH]; constructor.
    + inversion K; subst. split; auto. apply Ho; auto. congruence.
    + apply IH. inversion K; auto.
  - exfalso. rewrite str_eqb_neq in G by (intros ->; rewrite str_cmp_refl in X; discriminate).
    apply sm_get_in in G. apply (in_map fst) in G. fold (same_keys P m n) in H. rewrite (same_keys_fst _ _ _ _ _ H) in G.
    rewrite Forall_forall in L. apply L in G. apply (str_lt_irrefl k). eapply str_lt_trans; eauto.
  - assert (k1 <> k) by (intros ->; rewrite str_cmp_refl in X; discriminate).
    rewrite str_eqb_neq in G by auto. constructor; [cbn; auto|]. apply IH; auto.
Qed.
Lemma same_keys_impl : forall A B (P Q : str -> A -> B -> Prop) m n, same_keys P m n ->
  (forall k a b, P k a b -> Q k a b) -> same_keys Q m n.
Proof. intros A B P Q m n H HI. induction H as [|x y m n [E HP] H IH]; constructor; auto. Qed.
