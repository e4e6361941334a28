(** Looking one series up in a leaf measurement node (C20). *)
From Verif Require Export PSeries SIndex.
Ltac Zify.zify_post_hook ::= idtac.

Lemma F2_length : forall A B (P : A -> B -> Prop) l m, Forall2 P l m -> length l = length m.
Proof. intros A B P l m F. induction F; cbn [length]; auto. Qed.
Lemma same_name_eq : forall a b, same_name a b = true <-> a = b.
Proof. intros a b. unfold same_name. destruct (list_eq_dec Z.eq_dec a b); split; congruence. Qed.
Lemma same_name_refl : forall a, same_name a a = true.
Proof. intros a. apply same_name_eq. auto. Qed.
Lemma bytes_lt_iff : forall a b, bytes_lt a b <-> str_lt a b.
Proof.
  unfold str_lt. split.
  - induction 1; cbn [str_cmp]; auto.
    + rewrite (proj2 (Z.compare_lt_iff a b) H). auto.
    + rewrite Z.compare_refl. auto.
  - revert b. induction a as [|x a IH]; intros [|y b]; cbn [str_cmp]; try discriminate; [constructor|].
    destruct (Z.compare_spec x y) as [->|L|L]; intros H; try discriminate; [apply bl_tail; auto|apply bl_head; auto].
Qed.
Lemma bytes_lt_irrefl : forall a, ~ bytes_lt a a.
Proof. intros a H. apply bytes_lt_iff in H. unfold str_lt in H. rewrite str_cmp_refl in H. discriminate. Qed.
Lemma lex_leb_false : forall a b, lex_leb a b = false <-> bytes_lt b a.
Proof.
  induction a as [|x a IH]; intros [|y b]; cbn [lex_leb]; split; intros H; try discriminate; try (inversion H; fail); try apply bl_nil; auto.
  - apply orb_false_iff in H. destruct H as [H1 H2]. apply Z.ltb_ge in H1. destruct (Z.eqb_spec x y) as [->|N]; cbn [andb] in H2.
    + apply bl_tail. apply IH. auto.
    + apply bl_head. lia.
  - inversion H; subst.
    + replace (x <? y) with false by lia. replace (x =? y) with false by lia. auto.
    + rewrite Z.ltb_irrefl, Z.eqb_refl. cbn. apply IH. auto.
Qed.
Lemma bytes_lt_trans : forall a b c, bytes_lt a b -> bytes_lt b c -> bytes_lt a c.
Proof.
  intros a b c H. revert c. induction H; intros c K; inversion K; subst; try apply bl_nil; try (apply bl_head; lia); apply bl_tail; auto.
Qed.
Lemma lex_leb_refl : forall a, lex_leb a a = true.
Proof. intros a. destruct (lex_leb a a) eqn:E; auto. apply lex_leb_false in E. exfalso. eapply bytes_lt_irrefl; eauto. Qed.

Lemma ts_reads_name : forall m t, zlen (tm_id m) < 2 ^ 31 -> ts_reads m t -> ts_name t = tm_id m.
Proof.
  intros m t L [_ R]. specialize (R []). rewrite app_nil_r in R. unfold tser, ts_meta_serialize, tsmeta_read in R. cbn [wbytes] in R.
  rewrite <- ?app_assoc in R. cbn [app byte_field] in R. rewrite write_str_roundtrip in R by auto. cbn [app byte_field] in R.
  repeat match type of R with match ?x with _ => _ end = _ => destruct x as [[? ?]|]; [|discriminate] end.
  match type of R with match ?x with _ => _ end = _ => destruct x; [|discriminate] end. injection R as <- _. reflexivity.
Qed.
Definition named (m : list Z) (ts : tsmeta) : bool := same_name (ts_name ts) m.
Definition range_lookup (file m : list Z) (r : option (Z * Z)) : option tsmeta :=
  match r with None => None | Some ab => match read_range file ab with Some tss => find (named m) tss | None => None end end.
Lemma find_none_all : forall A (f : A -> bool) l, (forall x, In x l -> f x = false) -> find f l = None.
Proof. intros A f l. induction l as [|a l IH]; intros H; auto. cbn [find]. rewrite (H a) by (left; auto). apply IH. intros x I. apply H. right. auto. Qed.
Lemma find_app : forall A (f : A -> bool) a b, find f (a ++ b) = match find f a with Some x => Some x | None => find f b end.
Proof. intros A f a b. induction a as [|x a IH]; auto. cbn [app find]. destruct (f x); auto. Qed.
Lemma sorted_split : forall a b, StronglySorted bytes_lt (a ++ b) -> StronglySorted bytes_lt a /\ StronglySorted bytes_lt b /\ (forall x y, In x a -> In y b -> bytes_lt x y).
Proof.
  induction a as [|x a IH]; intros b H.
  - split; [constructor|]. split; [exact H|]. intros x y I. destruct I.
  - cbn [app] in H. inversion H as [|? ? S F]; subst. destruct (IH b S) as (A & B & C). apply Forall_app in F. destruct F as [F1 F2].
    split; [constructor; auto|]. split; [auto|]. intros y z [<-|I] J; [rewrite Forall_forall in F2; auto|auto].
Qed.
Lemma floor_some : forall m es e r, floor_range m es e = Some r -> exists n, In n (map fst es) /\ lex_leb n m = true.
Proof.
  intros m es e r. induction es as [|[n o] es IH]; cbn [floor_range]; [discriminate|]. intros H. destruct (floor_range m es e) eqn:E.
  - injection H as ->. destruct (IH eq_refl) as (x & I & L). exists x. split; [right|]; auto.
  - destruct (lex_leb n m) eqn:L; [|discriminate]. exists n. split; [left|]; auto.
Qed.
Lemma blocks_lookup : forall file m blocks o ts, Forall (fun b => b <> []) blocks -> at_ file o (tbytes (concat blocks)) ->
  Forall2 ts_reads (concat blocks) ts -> Forall (fun tm => zlen (tm_id tm) < 2 ^ 31) (concat blocks) -> StronglySorted bytes_lt (map ts_name ts) ->
  range_lookup file m (floor_range m (map entry_of (block_entries o blocks)) (o + zlen (tbytes (concat blocks)))) = find (named m) ts /\
  (forall n, In n (map fst (map entry_of (block_entries o blocks))) -> In n (map ts_name ts)) /\
  StronglySorted bytes_lt (map fst (map entry_of (block_entries o blocks))).
Proof.
  intros file m blocks. induction blocks as [|b bs IH]; intros o ts NE A F N S.
  - inversion F. cbn. split; [auto|]. split; [tauto|constructor].
  - cbn [concat] in *. apply Forall2_app_inv_l in F. destruct F as (t1 & t2 & F1 & F2 & ->). rewrite tbytes_app in A. apply Forall_app in N. destruct N as [N1 N2].
    assert (R : read_range file (o, o + zlen (tbytes b)) = Some t1).
    { unfold read_range. cbn [fst snd]. rewrite (at_slice file o (tbytes b) (o + zlen (tbytes b))); auto.
      - apply parts_many; [apply ts_parts; auto|auto].
      - replace o with (o + zlen (@nil Z)) by (rewrite zlen_nil; lia). apply (at_sub _ _ [] _ (tbytes (concat bs))). exact A. }
    assert (A2 : at_ file (o + zlen (tbytes b)) (tbytes (concat bs))).
    { apply (at_sub _ _ _ _ []). rewrite app_nil_r. exact A. }
    rewrite map_app in S. destruct (sorted_split _ _ S) as (S1 & S2 & S3).
    destruct (IH _ _ (Forall_inv_tail NE) A2 F2 N2 S2) as (I1 & I2 & I3). rewrite tbytes_app, zlen_app, Z.add_assoc. set (e := o + zlen (tbytes b) + zlen (tbytes (concat bs))) in *.
    assert (H1 : exists t t1', t1 = t :: t1' /\ ts_name t = first_id b).
    { pose proof (Forall_inv NE) as NB. cbv beta in NB. destruct b as [|tm b]; [congruence|]. inversion F1 as [|? t ? t1' X1 X2]; subst. exists t, t1'. split; auto.
      cbn [first_id]. apply ts_reads_name; auto. apply (Forall_inv N1). }
    destruct H1 as (t & t1' & -> & TN). set (es := map entry_of (block_entries (o + zlen (tbytes b)) bs)) in *.
    assert (NX : match es with [] => e | (_, o') :: _ => o' end = o + zlen (tbytes b)).
    { unfold es, e. destruct bs as [|b' bs]; [|reflexivity]. cbn [block_entries map concat]. change (tbytes []) with (@nil Z). rewrite zlen_nil, Z.add_0_r. reflexivity. }
    split; [|split].
    + cbn [block_entries map floor_range entry_of ie_name ie_offset]. fold es. rewrite NX. rewrite find_app. destruct (floor_range m es e) as [r|] eqn:FR.
      * rewrite <- I1. assert (X : find (named m) (t :: t1') = None); [|rewrite X; reflexivity]. apply find_none_all. intros x I. unfold named.
        destruct (same_name (ts_name x) m) eqn:E; auto. exfalso. apply same_name_eq in E. apply floor_some in FR. destruct FR as (n & J & LE).
        pose proof (S3 (ts_name x) n (in_map ts_name _ _ I) (I2 n J)) as LT. rewrite E in LT. apply lex_leb_false in LT. congruence.
      * cbn [range_lookup] in I1. rewrite <- I1. destruct (lex_leb (first_id b) m) eqn:LE.
        -- cbn [range_lookup]. rewrite R. destruct (find (named m) (t :: t1')); auto.
        -- cbn [range_lookup]. assert (X : find (named m) (t :: t1') = None); [|rewrite X; reflexivity]. apply find_none_all. intros x I. unfold named.
           destruct (same_name (ts_name x) m) eqn:E; auto. exfalso. apply same_name_eq in E. apply lex_leb_false in LE. rewrite <- TN in LE.
           destruct I as [<-|I]; [rewrite E in LE; eapply bytes_lt_irrefl; eauto|]. cbn [map] in S1. inversion S1 as [|? ? _ FS]; subst.
           rewrite Forall_forall in FS. apply (bytes_lt_irrefl (ts_name x)). eapply bytes_lt_trans; [exact LE|]. apply FS. apply in_map. auto.
    + intros n I. rewrite map_app. apply in_or_app. cbn [block_entries map entry_of fst ie_name] in I. destruct I as [<-|I]; [left; left; auto|right; auto].
    + cbn [block_entries map entry_of fst ie_name]. constructor; [exact I3|]. apply Forall_forall. intros n I. apply S3; [left; auto|]. apply I2. exact I.
Qed.
Lemma leaf_lookup : forall file l n ts m, leaf_ok file l n -> Forall2 ts_reads l ts -> Forall (fun tm => zlen (tm_id tm) < 2 ^ 31) l -> StronglySorted bytes_lt (map ts_name ts) ->
  node_lookup file (node_of n) m = find (named m) ts /\ StronglySorted bytes_lt (map fst (nd_entries (node_of n))).
Proof.
  intros file l n ts m [(o & bl & -> & <- & NE & _ & A & _)] F N S. destruct (blocks_lookup file m bl o ts NE A F N S) as (B1 & _ & B2). split; [|exact B2].
  rewrite <- B1. unfold node_lookup, range_lookup, read_range. cbn [node_of leaf_node in_type node_type_code nd_type nd_entries nd_end in_children in_end Z.eqb Pos.eqb].
  destruct (floor_range _ _ _) as [[a b]|]; [|reflexivity]. cbn [fst snd]. destruct (slice a b file); reflexivity.
Qed.

(** One entry per 256 series *)
Lemma cut_cons : forall b bs, Forall (fun x => x <> []) (b :: bs) -> cut256 (b :: bs) -> (bs = [] /\ zlen b <= 256 \/ bs <> [] /\ zlen b = 256) /\ cut256 bs.
Proof.
  intros b bs NE [N F]. destruct bs as [|c bs].
  - cbn [concat] in N. rewrite app_nil_r in N. change (zlen [b]) with 1 in N. split; [left; split; auto|split; [reflexivity|constructor]]. Z.div_mod_to_equations; lia.
  - change (removelast (b :: c :: bs)) with (b :: removelast (c :: bs)) in F. inversion F as [|? ? F1 F2]; subst. split; [right; split; [discriminate|auto]|].
    split; [|exact F2]. set (r := c :: bs) in *. cbn [concat] in N. rewrite zlen_cons, zlen_app, F1 in N. Z.div_mod_to_equations; lia.
Qed.
Lemma blocks_shape : forall file blocks o ts, Forall (fun b => b <> []) blocks -> cut256 blocks -> at_ file o (tbytes (concat blocks)) ->
  Forall2 ts_reads (concat blocks) ts -> Forall (fun tm => zlen (tm_id tm) < 2 ^ 31) (concat blocks) ->
  let es := map entry_of (block_entries o blocks) in
  forall j name q, nth_error es j = Some (name, q) -> exists e l, nth_error (ranges es (o + zlen (tbytes (concat blocks)))) j = Some (q, e) /\ slice q e file = Some l /\
    many (length l) tsmeta_read l = Some (firstn 256 (skipn (256 * j) ts)) /\ option_map ts_name (nth_error ts (256 * j)) = Some name.
Proof.
  intros file blocks. induction blocks as [|b bs IH]; intros o ts NE C A F S es j name q H; [destruct j; discriminate|].
  destruct (cut_cons b bs NE C) as [CB CC]. unfold es in *. clear es. cbn [concat] in *. apply Forall2_app_inv_l in F. destruct F as (t1 & t2 & F1 & F2 & ->). rewrite tbytes_app in A.
  apply Forall_app in S. destruct S as [S1 S2]. pose proof (F2_length _ _ _ _ _ F1) as L1.
  assert (RG : ranges (map entry_of (block_entries o (b :: bs))) (o + zlen (tbytes (b ++ concat bs))) =
               (o, o + zlen (tbytes b)) :: ranges (map entry_of (block_entries (o + zlen (tbytes b)) bs)) (o + zlen (tbytes b) + zlen (tbytes (concat bs)))).
  { rewrite tbytes_app, zlen_app, Z.add_assoc. destruct bs as [|b' bs]; cbn [block_entries map ranges entry_of ie_name ie_offset concat]; [|reflexivity].
    change (tbytes []) with (@nil Z). rewrite zlen_nil, Z.add_0_r. reflexivity. }
  rewrite RG. destruct j as [|j].
  - cbn [block_entries map nth_error entry_of ie_name ie_offset] in H. injection H as <- <-. exists (o + zlen (tbytes b)), (tbytes b). split; [reflexivity|].
    split; [|split].
    + apply at_slice; [|reflexivity]. replace o with (o + zlen (@nil Z)) by (rewrite zlen_nil; lia). apply (at_sub _ _ [] _ (tbytes (concat bs))). exact A.
    + rewrite Nat.mul_0_r. cbn [skipn]. destruct CB as [[-> LB]|[_ LB]].
      * cbn [concat] in F2. inversion F2; subst. rewrite app_nil_r. rewrite firstn_all2 by (unfold zlen in LB; lia). apply parts_many; [apply ts_parts; auto|auto].
      * rewrite firstn_app. replace (256 - length t1)%nat with 0%nat by (unfold zlen in LB; lia). rewrite firstn_O, app_nil_r, firstn_all2 by (unfold zlen in LB; lia). apply parts_many; [apply ts_parts; auto|auto].
    + rewrite Nat.mul_0_r. inversion NE as [|? ? NB _]; subst. destruct b as [|m b]; [congruence|]. inversion F1 as [|? t ? ? R1 _]; subst. cbn [app nth_error option_map first_id].
      rewrite (ts_reads_name m t (Forall_inv S1) R1). reflexivity.
  - cbn [block_entries map nth_error] in H. assert (BN : bs <> []) by (intros ->; cbn in H; destruct j; discriminate). destruct CB as [[X _]|[_ LB]]; [congruence|].
    assert (A2 : at_ file (o + zlen (tbytes b)) (tbytes (concat bs))) by (apply (at_sub _ _ _ _ []); rewrite app_nil_r; exact A).
    destruct (IH _ t2 (Forall_inv_tail NE) CC A2 F2 S2 j name q H) as (e & l & H1 & H2 & H3 & H4).
    exists e, l. split; [exact H1|]. split; [exact H2|]. assert (LT : length t1 = 256%nat) by (unfold zlen in LB; lia).
    replace (256 * S j)%nat with (length t1 + 256 * j)%nat by lia. rewrite skipn_app, nth_error_app2 by lia. rewrite (skipn_all2 t1) by lia.
    replace (length t1 + 256 * j - length t1)%nat with (256 * j)%nat by lia. auto.
Qed.
Lemma leaf_shape : forall file l n ts, leaf_ok file l n -> Forall2 ts_reads l ts -> Forall (fun tm => zlen (tm_id tm) < 2 ^ 31) l -> node_shape file (node_of n) ts.
Proof.
  intros file l n ts [(o & bl & -> & <- & NE & _ & A & C)] F S. split.
  - cbn [node_of leaf_node nd_entries in_children]. unfold zlen. rewrite map_length, block_entries_length, <- (F2_length _ _ _ _ _ F). apply C.
  - exact (blocks_shape file bl o ts NE C A F S).
Qed.
