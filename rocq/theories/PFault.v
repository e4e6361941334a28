(** Writers on arbitrary sinks: what a flush leaves behind when some of its writes fail (C57). *)
From Verif Require Export PSize PRefine SFault.
Ltac Zify.zify_post_hook ::= idtac.

(** ** Partial delivery *)
Fixpoint strict (w : wprog) : bool :=
  match w with WNil | WAll _ => true | WOne _ | WAnd _ _ => false | WThen a b => strict a && strict b end.
Lemma wexec_part : forall w s, exists l, sk_ext s (fst (wexec w s)) l /\ zlen l <= zlen (wbytes w) /\
  (zlen l = zlen (wbytes w) -> l = wbytes w) /\ (strict w = true -> snd (wexec w s) = true -> l = wbytes w).
Proof.
  assert (PFX : forall l tail : list byte, zlen l = zlen (l ++ tail) -> tail = []).
  { intros l tail E. rewrite zlen_app in E. apply zlen_0_nil. lia. }
  induction w; intros s; cbn [wexec wbytes strict].
  - exists []. split; [apply sk_ext_refl|]. auto using Z.le_refl.
  - unfold sk_write_all. destruct (sk_write_all_loop (length bs) bs s) as [s' ok] eqn:E.
    apply sk_write_all_loop_ext in E. destruct E as (l & X & (tail & ->) & O). exists l. cbn [fst snd]. split; auto. split; [rewrite zlen_app; pose proof (zlen_nonneg _ tail); lia|].
    split; [|auto]. intros E. apply PFX in E. subst. rewrite app_nil_r. auto.
  - destruct (sk_write bs s) as [s' r] eqn:E. apply sk_write_ext in E. destruct E as [X L].
    exists (match r with Some k => firstn k bs | None => [] end). split; [destruct r; exact X|]. split; [|split; [|discriminate]].
    + destruct r; [|rewrite zlen_nil; apply zlen_nonneg]. unfold zlen. rewrite firstn_length. lia.
    + destruct r as [k|]; intros E.
      * apply firstn_all2. unfold zlen in E. rewrite firstn_length in E. lia.
      * rewrite zlen_nil in E. symmetry in E. apply zlen_0_nil in E. auto.
  - destruct (IHw1 s) as (l1 & X1 & L1 & E1 & T1). destruct (wexec w1 s) as [s1 [|]]; cbn [fst snd] in *.
    + destruct (IHw2 s1) as (l2 & X2 & L2 & E2 & T2). exists (l1 ++ l2). split; [eapply sk_ext_trans; eauto|]. rewrite !zlen_app. split; [lia|]. split.
      * intros E. rewrite E1, E2 by lia. auto.
      * intros S O. apply andb_prop in S. destruct S as [S1 S2]. rewrite (T1 S1 eq_refl), (T2 S2 O). auto.
    + exists l1. pose proof (zlen_nonneg _ (wbytes w2)) as N. rewrite zlen_app. split; auto. split; [lia|]. split; [|discriminate].
      intros E. assert (B : zlen (wbytes w2) = 0) by lia. apply zlen_0_nil in B. rewrite B, app_nil_r. apply E1. lia.
  - destruct (IHw1 s) as (l1 & X1 & L1 & E1 & T1). destruct (IHw2 (fst (wexec w1 s))) as (l2 & X2 & L2 & E2 & T2).
    exists (l1 ++ l2). split; [eapply sk_ext_trans; eauto|]. rewrite !zlen_app. split; [lia|]. split; [|discriminate].
    intros E. rewrite E1, E2 by lia. auto.
Qed.
Lemma group_header_strict : forall d, strict (chunk_group_header d) = true.
Proof.
  intros d. cbn [chunk_group_header strict write_str andb]. rewrite andb_true_r. unfold write_var_i32, write_var_u32.
  generalize (zigzag_u32 (wrapS 32 (zlen d))). generalize 1. generalize 5%nat. intros n. induction n as [|n IH]; intros i z; [reflexivity|].
  cbn [write_var_loop]. destruct (negb (Z.land z 4294967168 =? 0)); [|reflexivity].
  specialize (IH (i + 1) (Z.shiftr z 7)). destruct (write_var_loop n (Z.shiftr z 7) (i + 1)). exact IH.
Qed.

(** no write call between two states of a sink failed *)
Definition undisturbed (s s' : sink) : Prop := forall n, (sk_calls s <= n < sk_calls s')%nat -> sk_sched s n = FFull.
Definition later (s s' : sink) : Prop := sk_ge s s'.
Lemma later_calls : forall s s', later s s' -> (sk_calls s <= sk_calls s')%nat /\ sk_sched s' = sk_sched s.
Proof. intros s s' (l & [_ _ A B]). auto. Qed.
Lemma undisturbed_split : forall a b c, later a b -> later b c -> undisturbed a c -> undisturbed a b /\ undisturbed b c.
Proof.
  intros a b c H G U. apply later_calls in H. apply later_calls in G. split; intros n L; [|replace (sk_sched b) with (sk_sched a) by (symmetry; apply H)]; apply U; lia.
Qed.
Lemma sk_write_full : forall buf s s' r, sk_write buf s = (s', r) -> undisturbed s s' -> r = Some (length buf) /\ sk_ext s s' buf.
Proof.
  intros buf s s' r H U. assert (C : sk_sched s (sk_calls s) = FFull).
  { apply U. unfold sk_write in H. destruct (sk_sched s (sk_calls s)); inversion H; subst; cbn [sk_calls]; lia. }
  pose proof H as H0. unfold sk_write in H. rewrite C in H. inversion H; subst. split; auto.
  apply sk_write_ext in H0. destruct H0 as [X _]. cbn [length] in X. rewrite firstn_all in X |- *. exact X.
Qed.
Lemma wexec_full : forall w s, undisturbed s (fst (wexec w s)) -> snd (wexec w s) = true /\ sk_ext s (fst (wexec w s)) (wbytes w).
Proof.
  induction w; intros s U; cbn [wexec wbytes] in *.
  - split; [reflexivity|apply sk_ext_refl].
  - unfold sk_write_all in *. destruct bs as [|b bs]; [cbn in *; split; [reflexivity|apply sk_ext_refl]|]. cbn [length sk_write_all_loop] in *.
    destruct (sk_write (b :: bs) s) as [s1 r] eqn:E.
    assert (S1 : (sk_calls s1 = S (sk_calls s))%nat) by (unfold sk_write in E; destruct (sk_sched s (sk_calls s)); inversion E; reflexivity).
    assert (U1 : undisturbed s s1).
    { intros n L. apply U. destruct r as [[|k]|]; cbn [fst]; try lia.
      destruct (sk_write_all_loop (length bs) (skipn (S k) (b :: bs)) s1) as [s2 ok] eqn:E2. apply sk_write_all_loop_ext in E2. destruct E2 as (x & X & _).
      pose proof (se_calls _ _ _ X). cbn [fst]. lia. }
    destruct (sk_write_full _ _ _ _ E U1) as [-> X]. cbn [length] in *. replace (skipn (S (length bs)) (b :: bs)) with (@nil byte) in * by (symmetry; apply skipn_all).
    destruct (length bs); cbn [sk_write_all_loop fst snd] in *; auto.
  - destruct (sk_write bs s) as [s1 r] eqn:E. assert (U1 : undisturbed s s1) by (destruct r; exact U).
    destruct (sk_write_full _ _ _ _ E U1) as [-> X]. auto.
  - destruct (wexec w1 s) as [s1 ok] eqn:E. assert (L1 : later s s1) by (pose proof (wexec_ext w1 s) as X; rewrite E in X; exact X).
    assert (U1 : undisturbed s s1).
    { destruct ok; [|exact U]. eapply undisturbed_split in U; [apply U|exact L1|apply wexec_ext]. }
    specialize (IHw1 s). rewrite E in IHw1. cbn [fst snd] in IHw1. destruct (IHw1 U1) as [-> X1].
    destruct (IHw2 s1) as [O X2]; [eapply undisturbed_split in U; [apply U|exact L1|apply wexec_ext]|].
    split; auto. eapply sk_ext_trans; eauto.
  - destruct (undisturbed_split _ _ _ (wexec_ext w1 s) (wexec_ext w2 _) U) as [U1 U2].
    destruct (IHw1 _ U1) as [_ X1]. destruct (IHw2 _ U2) as [O X2]. split; auto. eapply sk_ext_trans; eauto.
Qed.

(** ** Parts of lists *)
Lemma sub_refl : forall A (l : list A), subseq l l.
Proof. induction l; constructor; auto. Qed.
Lemma sub_none : forall A (l : list A), subseq [] l.
Proof. induction l; constructor; auto. Qed.
Lemma sub_app : forall A (a b c d : list A), subseq a b -> subseq c d -> subseq (a ++ c) (b ++ d).
Proof. intros A a b c d H G. induction H; cbn [app]; auto; constructor; auto. Qed.
Lemma sub_trans : forall A (a b c : list A), subseq a b -> subseq b c -> subseq a c.
Proof.
  intros A a b c H G. revert a H. induction G; intros a0 H; auto.
  - inversion H; subst; constructor; auto.
  - constructor; auto.
Qed.
Lemma sub_len : forall A (a b : list A), subseq a b -> zlen a <= zlen b.
Proof. intros A a b H. induction H; rewrite ?zlen_nil, ?zlen_cons; lia. Qed.
Lemma sub_nil_inv : forall A (a : list A), subseq a [] -> a = [].
Proof. intros A a H. inversion H. auto. Qed.
Lemma sub_left : forall A (a b : list A), subseq a (a ++ b).
Proof. intros. rewrite <- (app_nil_r a) at 1. apply sub_app; [apply sub_refl|apply sub_none]. Qed.
Lemma sub_forall : forall A (P : A -> Prop) a b, subseq a b -> Forall P b -> Forall P a.
Proof. intros A P a b H. induction H; intros F; auto; inversion F; subst; auto. Qed.

(** ** Chunk writers that were emptied without being replaced *)
Definition resume_limit : Z := 3446.
Section Fault.
Variable p : profile.
Variable snap decomp : list Z -> option (list Z).
Hypothesis HG : good_snap snap decomp.

Record resumed (m : list Z) (ms : mschema) (pts : list (Z * value)) (c : chunk_writer) : Prop := {
  re_id : cw_id c = m;
  re_type : cw_type c = ms_type ms;
  re_comp : cw_comp c = ms_comp ms;
  re_enc : cw_enc c = ms_enc ms;
  re_stats : cw_stats c = stats_new (ms_type ms);
  re_buffer : cw_buffer c = [];
  re_num : cw_num_pages c = 0;
  re_page : match cw_page c with
            | Some pw => exists pw0, pw_new (ms_type ms) (ms_enc ms) = inl pw0 /\ pw_run p pts pw0 = Ret pw
            | None => pts = [] end;
  re_few : zlen pts <= resume_limit }.
Definition held (m : list Z) (ms : mschema) (pts : list (Z * value)) (c : chunk_writer) : Prop :=
  open_chunk p snap m ms pts c \/ resumed m ms pts c.
(** what a flush uses of a chunk writer *)
Record alike (c d : chunk_writer) : Prop := {
  al_id : cw_id c = cw_id d; al_type : cw_type c = cw_type d; al_comp : cw_comp c = cw_comp d; al_enc : cw_enc c = cw_enc d;
  al_stats : cw_stats c = cw_stats d; al_buffer : cw_buffer c = cw_buffer d; al_num : cw_num_pages c = cw_num_pages d }.
Lemma alike_bytes : forall c d, alike c d -> chunk_bytes c = chunk_bytes d.
Proof. intros c d [A B C D E F G]. unfold chunk_bytes. rewrite A, B, C, D, F, G. auto. Qed.
Lemma alike_meta : forall c d o, alike c d -> cmeta o c = cmeta o d.
Proof. intros c d o [A B C D E F G]. unfold cmeta. rewrite A, B, E. auto. Qed.
Lemma alike_size : forall c d, alike c d -> serialized_chunk_size c = serialized_chunk_size d.
Proof. intros c d [A B C D E F G]. unfold serialized_chunk_size. rewrite A, F. auto. Qed.

(** ** Pages of resumed writers *)
Lemma pw_run_snoc : forall pts t v w, pw_run p (pts ++ [(t, v)]) w = (let* w' := pw_run p pts w in pw_write p t v w').
Proof. intros. unfold pw_run. rewrite foldM_snoc. reflexivity. Qed.
Lemma pw_run_state : forall dt enc pts w0 w, pw_new dt enc = inl w0 -> points_ok dt pts -> zlen pts < 2 ^ 32 -> pw_run p pts w0 = Ret w -> page_state p dt enc pts w.
Proof.
  intros dt enc pts. induction pts as [|[t v] pts IH] using rev_ind; intros w0 w N O L H.
  - unfold pw_run in H. cbn in H. apply ret_inj in H. subst. apply page_state_new; auto.
  - rewrite pw_run_snoc in H. apply bind_ret in H. destruct H as (w1 & H1 & H). apply Forall_app in O. destruct O as [O1 O2].
    rewrite zlen_app, zlen_cons, zlen_nil in L. eapply page_state_write; [eapply IH; eauto; lia| | |exact H].
    + inversion O2 as [|? ? [_ V]]; subst. exact V.
    + lia.
Qed.
(** a page with few points stays open *)
Lemma check_few : forall dt enc pts c pw c', cw_page c = Some pw -> page_state p dt enc pts pw -> points_ok dt pts -> zlen pts <= resume_limit ->
  check_page_size p snap c = Ret c' -> exists n, c' = cw_with_next n c.
Proof.
  intros dt enc pts c pw c' EP PS O L H. unfold resume_limit in L. unfold check_page_size in H. rewrite EP in H. pose proof (ps_points _ _ _ _ _ PS) as PN. rewrite PN in H.
  assert (SELF : c = cw_with_next (cw_next_check c) c) by (destruct c; reflexivity).
  replace (zlen pts >? MAX_NUMBER_OF_POINTS_IN_PAGE) with false in H by (unfold MAX_NUMBER_OF_POINTS_IN_PAGE; symmetry; rewrite Z.gtb_ltb; apply Z.ltb_ge; lia).
  destruct (zlen pts >=? cw_next_check c); [|apply ret_inj in H; subst; eauto].
  apply bind_ret in H. destruct H as (sz & Hs & H).
  apply (estimate_ok p dt enc pts) in Hs; auto; [|change (2 ^ 21) with 2097152; lia]. pose proof (estimate_le dt enc pts) as EL.
  replace (sz >? PAGE_SIZE_THRESHOLD) with false in H by (unfold PAGE_SIZE_THRESHOLD; symmetry; rewrite Z.gtb_ltb; apply Z.ltb_ge; lia).
  apply ret_inj in H. subst. eauto.
Qed.

Lemma resumed_inv_type : forall m ms pts c t v c', resumed m ms pts c -> points_ok (ms_type ms) pts -> value_machine v ->
  cw_write p snap t v c = Ret (inl c') -> value_ok (ms_type ms) v.
Proof.
  intros m ms pts c t v c' R O Hv H. unfold cw_write in H.
  set (x := match cw_page c with Some pw => inl pw | None => pw_new (cw_type c) (cw_enc c) end) in H.
  destruct x as [pw|err] eqn:M; [|apply ret_inj in H; discriminate].
  assert (PS : page_state p (ms_type ms) (ms_enc ms) pts pw).
  { pose proof (re_page _ _ _ _ R) as RP. pose proof (re_few _ _ _ _ R) as RF. unfold resume_limit in RF. unfold x in M. destruct (cw_page c).
    - inversion M; subst. destruct RP as (pw0 & N & RP). eapply pw_run_state; eauto. lia.
    - subst pts. rewrite (re_type _ _ _ _ R), (re_enc _ _ _ _ R) in M. apply page_state_new; auto. }
  apply bind_ret in H. destruct H as (pw' & Hw & _). unfold pw_write in Hw.
  apply bind_ret in Hw. destruct Hw as (te & _ & Hw). apply bind_ret in Hw. destruct Hw as (ve & _ & Hw).
  apply bind_ret in Hw. destruct Hw as (st & Hst & _).
  assert (T : st_type (pw_stats pw) = ms_type ms).
  { eapply page_stats_type; [|exact (ps_stats _ _ _ _ _ PS)]. reflexivity. }
  unfold stats_update in Hst. rewrite T in Hst. unfold value_ok. destruct (ms_type ms), v; try discriminate; exact Hv.
Qed.
Lemma resumed_write : forall m ms pts c t v c', resumed m ms pts c -> points_ok (ms_type ms) (pts ++ [(t, v)]) -> zlen (pts ++ [(t, v)]) <= resume_limit ->
  cw_write p snap t v c = Ret (inl c') -> resumed m ms (pts ++ [(t, v)]) c'.
Proof.
  intros m ms pts c t v c' R O L H. unfold cw_write in H.
  set (x := match cw_page c with Some pw => inl pw | None => pw_new (cw_type c) (cw_enc c) end) in H.
  destruct x as [pw|err] eqn:M; [|apply ret_inj in H; discriminate].
  assert (PS : exists pw0, pw_new (ms_type ms) (ms_enc ms) = inl pw0 /\ pw_run p pts pw0 = Ret pw).
  { pose proof (re_page _ _ _ _ R) as RP. unfold x in M. destruct (cw_page c).
    - inversion M; subst. exact RP.
    - subst pts. rewrite (re_type _ _ _ _ R), (re_enc _ _ _ _ R) in M. exists pw. auto. }
  destruct PS as (pw0 & N & RP). apply bind_ret in H. destruct H as (pw' & Hw & H). apply bind_ret in H. destruct H as (c1 & H1 & H).
  apply ret_inj in H. assert (c1 = c') by congruence. subst c1. clear H.
  assert (RP' : pw_run p (pts ++ [(t, v)]) pw0 = Ret pw') by (rewrite pw_run_snoc, RP; exact Hw).
  assert (L' : zlen (pts ++ [(t, v)]) < 2 ^ 32) by (unfold resume_limit in L; lia).
  pose proof (pw_run_state _ _ _ _ _ N O L' RP') as PS'.
  destruct (check_few (ms_type ms) (ms_enc ms) (pts ++ [(t, v)]) (cw_with_page (Some pw') c) pw' c' eq_refl PS' O L H1) as (n & ->).
  destruct R. split; auto. cbn. eauto.
Qed.
(** the same points in a fresh writer: the first size check comes later *)
Lemma fresh_few : forall m ms pts pw0 pw, pw_new (ms_type ms) (ms_enc ms) = inl pw0 -> pw_run p pts pw0 = Ret pw -> points_ok (ms_type ms) pts -> pts <> [] ->
  zlen pts <= resume_limit -> open_chunk p snap m ms pts (cw_with_page (Some pw) (new_chunk m ms)).
Proof.
  intros m ms pts. induction pts as [|[t v] pts IH] using rev_ind; intros pw0 pw N H O NE L; [congruence|].
  rewrite pw_run_snoc in H. apply bind_ret in H. destruct H as (pw1 & H1 & H). pose proof O as O'. apply Forall_app in O. destruct O as [O1 O2].
  pose proof L as L'. rewrite zlen_app, zlen_cons, zlen_nil in L.
  assert (RP : pw_run p (pts ++ [(t, v)]) pw0 = Ret pw) by (rewrite pw_run_snoc, H1; exact H).
  assert (PS : page_state p (ms_type ms) (ms_enc ms) (pts ++ [(t, v)]) pw) by (eapply pw_run_state; eauto; unfold resume_limit in *; lia).
  assert (X : exists pg, open_chunk p snap m ms pts (cw_with_page pg (new_chunk m ms)) /\
    match pg with Some q => inl q | None => pw_new (ms_type ms) (ms_enc ms) end = inl pw1).
  { destruct pts as [|tv pts].
    - exists None. split; [reflexivity|].
      unfold pw_run in H1. cbn in H1. apply ret_inj in H1. subst. exact N.
    - exists (Some pw1). split; [|reflexivity]. apply (IH pw0 pw1 N H1 O1 ltac:(discriminate) ltac:(lia)). }
  destruct X as (pg & OC & PG). unfold open_chunk in *.
  assert (CP : check_page_size p snap (cw_with_page (Some pw) (new_chunk m ms)) = Ret (cw_with_page (Some pw) (new_chunk m ms))).
  { unfold check_page_size. cbn [cw_page cw_with_page]. rewrite (ps_points _ _ _ _ _ PS). unfold resume_limit in L'.
    replace (zlen (pts ++ [(t, v)]) >? MAX_NUMBER_OF_POINTS_IN_PAGE) with false by (unfold MAX_NUMBER_OF_POINTS_IN_PAGE; symmetry; rewrite Z.gtb_ltb; apply Z.ltb_ge; lia).
    replace (zlen (pts ++ [(t, v)]) >=? cw_next_check (cw_with_page (Some pw) (new_chunk m ms))) with false; [reflexivity|].
    symmetry. rewrite Z.geb_leb. apply Z.leb_gt. cbn [cw_next_check cw_with_page new_chunk cw_new].
    unfold VALUE_COUNT_IN_ONE_PAGE_FOR_NEXT_CHECK. lia. }
  rewrite cw_run_snoc, OC. cbn [bind fst snd]. unfold cw_write at 1. cbn [cw_with_page cw_page cw_type cw_enc new_chunk cw_new]. rewrite PG, H. cbn [bind].
  change (cw_with_page (Some pw) (cw_with_page pg (new_chunk m ms))) with (cw_with_page (Some pw) (new_chunk m ms)). rewrite CP. reflexivity.
Qed.

(** ** Sealing *)
Lemma write_page_alike : forall c d, alike c d -> cw_page c = cw_page d -> cw_num_pages c = 0 ->
  match write_page_to_buffer p snap c, write_page_to_buffer p snap d with
  | Ret (c', x), Ret (d', y) => alike c' d' /\ cw_page c' = cw_page d'
  | Panic a, Panic b => True
  | _, _ => False end.
Proof.
  intros c d [A1 A2 A3 A4 A5 A6 A7] E N. unfold write_page_to_buffer. rewrite <- E. destruct (cw_page c) as [pw0|] eqn:EP; [|split; [split; auto|congruence]].
  destruct (pw_prepare p pw0) as [pw|]; cbn [bind]; [|exact I]. rewrite <- A3.
  match goal with |- context [match ?x with Some _ => _ | None => _ end] => destruct x as [[ct cb]|] end; [|split; [split; auto|reflexivity]].
  rewrite <- A7, N. cbn [Z.eqb bind]. destruct (arithU p 32 (0 + 1)); cbn [bind]; [|exact I]. rewrite <- A5.
  destruct (stats_merge p (cw_stats c) (pw_stats pw)); cbn [bind]; [|exact I]. split; [|reflexivity]. split; cbn [cw_id cw_type cw_comp cw_enc cw_stats cw_buffer cw_num_pages]; auto. rewrite A6. auto.
Qed.

(** a chunk writer whose page has been sealed *)
Record ready (m : list Z) (ms : mschema) (pts : list (Z * value)) (c : chunk_writer) : Prop := {
  rd_alike : exists c', sealed p snap m ms pts c' /\ alike c c';
  rd_again : seal_current_page p snap c = Ret c;
  rd_page : match cw_page c with Some pw => pw_new (ms_type ms) (ms_enc ms) = inl pw | None => True end }.
Lemma ready_sealed : forall m ms pts c, pts_ok ms pts -> sealed p snap m ms pts c -> ready m ms pts c.
Proof.
  intros m ms pts c O S. split.
  - exists c. split; auto. split; auto.
  - eapply seal_again; eauto.
  - destruct (sealed_inv p snap decomp HG _ _ _ _ O S) as (pages & ims & I & _). pose proof (ci_cur _ _ _ _ _ _ _ _ _ _ I) as C.
    destruct (cw_page c); auto. eapply page_state_nil; eauto.
Qed.
Lemma alike_new : forall m ms pts c, resumed m ms pts c -> alike c (new_chunk m ms).
Proof. intros m ms pts c []. split; cbn; auto. Qed.
Lemma held_seal : forall m ms pts c c', pts_ok ms pts -> held m ms pts c -> seal_current_page p snap c = Ret c' -> ready m ms pts c'.
Proof.
  intros m ms pts c c' O [H|R] S.
  - apply ready_sealed; auto. eapply open_seal; eauto.
  - pose proof (re_page _ _ _ _ R) as RP. pose proof (re_few _ _ _ _ R) as RF. destruct pts as [|tv pts].
    + assert (E : c' = c).
      { unfold seal_current_page in S. destruct (cw_page c) as [pw|]; [|apply ret_inj in S; auto]. destruct RP as (pw0 & N & RP). unfold pw_run in RP. cbn in RP. apply ret_inj in RP. subst pw0.
        rewrite (ps_points _ _ _ _ _ (page_state_new p _ _ _ N)) in S. cbn in S. apply ret_inj in S. auto. }
      subst c'. split; auto.
      * exists (new_chunk m ms). split; [reflexivity|]. eapply alike_new; eauto.
      * destruct (cw_page c) as [pw|]; auto. destruct RP as (pw0 & N & RP). unfold pw_run in RP. cbn in RP. apply ret_inj in RP. subst pw0. auto.
    + destruct (cw_page c) as [pw|] eqn:EP; [|discriminate]. destruct RP as (pw0 & N & RP). destruct O as [O1 O2].
      pose proof (fresh_few m ms (tv :: pts) pw0 pw N RP O1 ltac:(discriminate) RF) as FR.
      set (d := cw_with_page (Some pw) (new_chunk m ms)) in *.
      assert (A : alike c d) by (destruct (alike_new _ _ _ _ R); split; auto).
      pose proof (write_page_alike c d A EP (re_num _ _ _ _ R)) as W.
      assert (PP : pw_points pw >? 0 = true).
      { rewrite (ps_points _ _ _ _ _ (pw_run_state _ _ _ _ _ N O1 O2 RP)), zlen_cons. pose proof (zlen_nonneg _ pts). rewrite Z.gtb_ltb. apply Z.ltb_lt. lia. }
      unfold seal_current_page in S. rewrite EP, PP in S. apply bind_ret in S. destruct S as ([c1 x] & S1 & S). apply ret_inj in S. cbn [fst] in S. subst c1.
      rewrite S1 in W. destruct (write_page_to_buffer p snap d) as [[d' y]|] eqn:ED; [|contradiction]. destruct W as [W1 W2].
      assert (SD : sealed p snap m ms (tv :: pts) d').
      { eapply open_seal; [exact FR|]. unfold seal_current_page. change (cw_page d) with (Some pw). cbv beta iota. rewrite PP, ED. reflexivity. }
      pose proof (ready_sealed _ _ _ _ (conj O1 O2) SD) as [_ R2 R3]. rewrite <- W2 in R3. split; eauto.
      unfold seal_current_page in *. destruct (cw_page c') as [q|]; auto. rewrite (ps_points _ _ _ _ _ (page_state_new p _ _ _ R3)), zlen_nil. reflexivity.
Qed.
Lemma ready_emptied : forall m ms pts c, pts_ok ms pts -> ready m ms pts c ->
  resumed m ms [] {| cw_id := cw_id c; cw_type := cw_type c; cw_comp := cw_comp c; cw_enc := cw_enc c;
          cw_stats := stats_new (cw_type c); cw_page := cw_page c; cw_buffer := [];
          cw_num_pages := 0; cw_first_stats := None; cw_next_check := cw_next_check c;
          cw_size_wo_stats := cw_size_wo_stats c |}.
Proof.
  intros m ms pts c O [(c' & S & A) _ P]. destruct (sealed_inv p snap decomp HG _ _ _ _ O S) as (pages & ims & I & _). destruct I. destruct A.
  split; cbn; try congruence.
  - destruct (cw_page c) as [pw|]; auto. exists pw. split; auto.
  - rewrite zlen_nil. unfold resume_limit. lia.
Qed.

(** ** Flushing on any sink *)
Lemma write_all_any : forall m ms pts c io io', pts_ok ms pts -> ready m ms pts c -> write_all_pages c io = Ret io' ->
  exists l, sk_ext (io_out io) (io_out io') l /\ zlen l <= zlen (emitted pts c) /\ (zlen l = zlen (emitted pts c) -> l = emitted pts c) /\
  (undisturbed (io_out io) (io_out io') -> l = emitted pts c) /\
  io_device io' = io_device io /\ io_groups io' = io_groups io /\ io_tsmeta io' = io_tsmeta io /\
  io_chunks io' = io_chunks io ++ match pts with [] => [] | _ => [cmeta (sk_pos (io_out io)) c] end /\
  (io_current io = None -> io_current io' = None).
Proof.
  intros m ms pts c io io' Hok [(c' & S & A) _ _] H. destruct (chunk_tree_count p snap decomp HG _ _ _ _ Hok S) as [C _].
  unfold write_all_pages in H. rewrite (al_stats _ _ A), C in H. destruct pts as [|x l].
  - rewrite zlen_nil in H. cbn in H. apply ret_inj in H. subst io'. cbn [emitted]. rewrite app_nil_r. exists [].
    split; [apply sk_ext_refl|]. rewrite zlen_nil. repeat split; auto. lia.
  - replace (zlen (x :: l) =? 0) with false in H by (symmetry; rewrite zlen_cons; pose proof (zlen_nonneg _ l); apply Z.eqb_neq; lia).
    unfold end_current_chunk, io_with_out, start_flush_chunk in H. cbn [io_current io_out io_device io_chunks io_groups io_tsmeta] in H.
    apply ret_inj in H. subst io'. cbn [io_current io_out io_device io_chunks io_groups io_tsmeta]. cbn [emitted]. unfold chunk_bytes.
    set (h := chunk_header (cw_id c) (wrapU 32 (zlen (cw_buffer c))) (cw_type c) (cw_comp c) (cw_enc c) (cw_num_pages c)).
    destruct (wexec_part h (io_out io)) as (l1 & X1 & L1 & E1 & _). destruct (wexec_part (WAll (cw_buffer c)) (fst (wexec h (io_out io)))) as (l2 & X2 & L2 & E2 & _).
    cbn [wbytes] in L2, E2. exists (l1 ++ l2). split; [eapply sk_ext_trans; eauto|]. rewrite !zlen_app. split; [lia|]. split; [intros E; rewrite E1, E2 by lia; auto|].
    split; [|unfold cmeta; rewrite (al_stats _ _ A); auto].
    intros U. destruct (undisturbed_split _ _ _ (wexec_ext h (io_out io)) (wexec_ext (WAll (cw_buffer c)) _) U) as [U1 U2].
    destruct (wexec_full _ _ U1) as [_ Y1]. destruct (wexec_full _ _ U2) as [_ Y2].
    assert (Q1 : l1 = wbytes h) by (apply E1; pose proof (se_pos _ _ _ X1); pose proof (se_pos _ _ _ Y1); lia).
    assert (Q2 : l2 = cw_buffer c) by (apply E2; pose proof (se_pos _ _ _ X2); pose proof (se_pos _ _ _ Y2) as Z2; cbn [wbytes] in Z2; lia). subst. auto.
Qed.

Lemma write_to_any : forall m ms pts c io c1 io', pts_ok ms pts -> ready m ms pts c -> write_to_file_writer p snap c io = Ret (c1, io') ->
  resumed m ms [] c1 /\ write_all_pages c io = Ret io'.
Proof.
  intros m ms pts c io c1 io' O R H. unfold write_to_file_writer in H. rewrite (rd_again _ _ _ _ R) in H. cbn [bind] in H.
  apply bind_ret in H. destruct H as (w1 & H1 & H). rinj H. split; auto. eapply ready_emptied; eauto.
Qed.
Definition all_ready (f : list Z -> list (Z * value)) : smap mschema -> smap chunk_writer -> Prop :=
  same_keys (fun m ms c => pts_ok ms (f m) /\ ready m ms (f m) c).
Lemma flush_chunks_any : forall f g0 cs, all_ready f g0 cs -> Forall (fun m => zlen m < 2 ^ 31) (map fst g0) -> forall io cs' io',
  flush_chunks p snap cs io = Ret (cs', io') ->
  exists cis l, Forall (citem_ok p snap) cis /\ map plan_of cis = chunk_plan f g0 /\
    sk_ext (io_out io) (io_out io') l /\ zlen l <= zlen (concat (map cbytes cis)) /\
    (zlen l = zlen (concat (map cbytes cis)) -> l = concat (map cbytes cis) /\ io_chunks io' = io_chunks io ++ cmetas (sk_pos (io_out io)) cis) /\
    (undisturbed (io_out io) (io_out io') -> l = concat (map cbytes cis)) /\
    io_device io' = io_device io /\ io_groups io' = io_groups io /\ io_tsmeta io' = io_tsmeta io /\
    (io_current io = None -> io_current io' = None) /\
    same_keys (fun m ms c => resumed m ms [] c) g0 cs' /\
    (forall n, fold_left (fun n kc => n + serialized_chunk_size (snd kc)) cs n = n + zlen (concat (map cbytes cis))).
Proof.
  intros f g0 cs H. induction H as [|[m ms] [k c] g0 cs [E [Hok R]] H IH]; intros Hn io cs' io' F; cbn [flush_chunks] in F.
  - rinj F. exists [], []. cbn. split; [constructor|]. split; [reflexivity|]. split; [apply sk_ext_refl|]. split; [apply Z.le_refl|]. split; [rewrite app_nil_r; auto|].
    do 5 (split; [auto|]). split; [constructor|]. intros n. rewrite zlen_nil. lia.
  - cbn [fst snd map] in *. subst k. inversion Hn as [|? ? Hm Hn']; subst. apply bind_ret in F. destruct F as ([c1 io1] & F1 & F). apply bind_ret in F.
    destruct F as ([cs2 io2] & F2 & F). rinj F. cbn [snd fst].
    destruct (write_to_any _ _ _ _ _ _ _ Hok R F1) as [RS F1'].
    destruct (write_all_any _ _ _ _ _ _ Hok R F1') as (l1 & X & L1 & E1 & U1 & D & G & T & C & U).
    destruct (IH Hn' io1 cs2 io2 F2) as (cis & l2 & K1 & K2 & K3 & K4 & K5 & K6 & K7 & K8 & K9 & K10 & K11 & K12).
    destruct R as [(cc & S & A) _ _]. pose proof (serialized_size_ok p snap decomp HG _ _ _ _ Hok S Hm) as SZ. rewrite <- (alike_size _ _ A) in SZ.
    assert (EM : emitted (f m) c = emitted (f m) cc) by (unfold emitted; rewrite (alike_bytes _ _ A); auto). rewrite EM in *.
    assert (MT : cmeta (sk_pos (io_out io)) c = cmeta (sk_pos (io_out io)) cc) by (apply alike_meta; auto). rewrite MT in C.
    pose proof (sk_ext_trans _ _ _ _ _ X K3) as X'.
    assert (US : undisturbed (io_out io) (io_out io2) -> l1 = emitted (f m) cc /\ l2 = concat (map cbytes cis)).
    { intros Y. destruct (undisturbed_split _ _ _ (ex_intro _ _ X) (ex_intro _ _ K3) Y). auto. }
    unfold chunk_plan. cbn [map filter snd fst]. pose proof (zlen_nonneg _ l1) as N1. pose proof (zlen_nonneg _ l2) as N2. destruct (f m) as [|x l] eqn:EF.
    + exists cis, (l1 ++ l2). cbn [emitted] in *. rewrite zlen_nil in *. assert (Z1 : l1 = []) by (apply zlen_0_nil; lia). subst l1. cbn [app] in *. rewrite app_nil_r in C.
      split; [auto|]. split; [auto|]. split; [auto|]. split; [auto|]. split; [intros Y; apply K5 in Y; rewrite (se_pos _ _ _ X), zlen_nil, Z.add_0_r, C in Y; auto|].
      split; [apply US|]. do 3 (split; [congruence|]). split; [auto|]. split; [constructor; auto|]. intros n. cbn [fold_left snd]. rewrite SZ, K12. lia.
    + exists (mkCI m ms (x :: l) cc :: cis), (l1 ++ l2). cbn [map concat cmetas plan_of c_name c_ms c_pts c_cw]. change (cbytes (mkCI m ms (x :: l) cc)) with (chunk_bytes cc). cbn [emitted] in *.
      rewrite !zlen_app. split; [constructor; auto; split; cbn; auto; discriminate|]. split; [f_equal; auto|]. split; [exact X'|]. split; [lia|].
      split.
      { intros Y. rewrite (E1 ltac:(lia)). destruct (K5 ltac:(lia)) as [-> K5']. split; auto. rewrite K5', C, <- app_assoc, (se_pos _ _ _ X), (E1 ltac:(lia)). reflexivity. }
      split; [intros Y; destruct (US Y) as [-> ->]; auto|]. do 3 (split; [congruence|]). split; [auto|]. split; [constructor; auto|].
      intros n. cbn [fold_left snd]. rewrite SZ, K12. cbn [emitted]. lia.
Qed.

(** a chunk writer with its points; the writers that go on after a failed flush have at most the points
    offered since *)
Definition hold (since : option (list point)) (d m : list Z) (ms : mschema) (pts : list (Z * value)) (c : chunk_writer) : Prop :=
  open_chunk p snap m ms pts c \/ (resumed m ms pts c /\ exists q, since = Some q /\ zlen pts <= zlen (series_of d m q)).
Definition hchunks (since : option (list point)) (d : list Z) (f : list Z -> list (Z * value)) : smap mschema -> smap chunk_writer -> Prop :=
  same_keys (fun m ms c => pts_ok ms (f m) /\ hold since d m ms (f m) c).
Lemma seal_all_any : forall since d f g0 cs, hchunks since d f g0 cs -> forall cs', seal_all_chunks p snap cs = Ret cs' -> all_ready f g0 cs'.
Proof.
  intros since d f g0 cs H. induction H as [|[m ms] [k c] g0 cs [E [Hok S]] H IH]; intros cs' F; unfold seal_all_chunks in F; cbn [sm_mapM] in F.
  - apply ret_inj in F. subst. constructor.
  - cbn [fst snd] in *. subst k. apply bind_ret in F. destruct F as (c1 & F1 & F). apply bind_ret in F.
    destruct F as (cs2 & F2 & F). apply ret_inj in F. subst cs'. constructor.
    + cbn [fst snd]. split; auto. split; auto. eapply held_seal; eauto. destruct S as [S|[S _]]; [left|right]; auto.
    + apply IH. exact F2.
Qed.
Lemma flush_group_any : forall since d f g0 g io g' io' n, hchunks since d f g0 (gw_chunks g) ->
  Forall (fun m => zlen m < 2 ^ 31) (map fst g0) -> flush_to_filewriter p snap g io = Ret (g', io', n) ->
  exists cis l, Forall (citem_ok p snap) cis /\ map plan_of cis = chunk_plan f g0 /\
    sk_ext (io_out io) (io_out io') l /\ n = zlen (concat (map cbytes cis)) /\ zlen l <= n /\
    (zlen l = n -> l = concat (map cbytes cis) /\ io_chunks io' = io_chunks io ++ cmetas (sk_pos (io_out io)) cis) /\
    (undisturbed (io_out io) (io_out io') -> zlen l = n) /\
    io_device io' = io_device io /\ io_groups io' = io_groups io /\ io_tsmeta io' = io_tsmeta io /\
    (io_current io = None -> io_current io' = None) /\
    same_keys (fun m ms c => resumed m ms [] c) g0 (gw_chunks g').
Proof.
  intros since d f g0 g io g' io' n HC Hn H. unfold flush_to_filewriter in H. apply bind_ret in H. destruct H as (cs & H1 & H).
  apply bind_ret in H. destruct H as ([cs2 io2] & H2 & H). apply ret_inj in H. apply pair3 in H. destruct H as (<- & <- & <-).
  cbn [snd fst gw_chunks]. pose proof (seal_all_any _ _ _ _ _ HC _ H1) as S.
  destruct (flush_chunks_any _ _ _ S Hn _ _ _ H2) as (cis & l & K1 & K2 & K3 & K4 & K5 & K6 & K7 & K8 & K9 & K10 & K11 & K12).
  exists cis, l. assert (N : chunk_group_size cs = zlen (concat (map cbytes cis))) by (unfold chunk_group_size; rewrite K12; auto). rewrite N.
  split; [auto|]. split; [auto|]. split; [auto|]. split; [auto|]. split; [auto|]. split; [auto|]. split; [intros U; rewrite K6; auto|]. auto 8.
Qed.

Definition left_over (since : option (list point)) : list point := match since with Some q => q | None => [] end.
Lemma hold_later : forall since d m ms pts c, hold since d m ms pts c -> hold (Some (left_over since)) d m ms pts c.
Proof. intros since d m ms pts c [H|[H (q & -> & L)]]; [left; auto|right]. split; auto. exists q. auto. Qed.
Lemma hchunks_later : forall since d f g0 cs, hchunks since d f g0 cs -> hchunks (Some (left_over since)) d f g0 cs.
Proof. intros since d f g0 cs H. eapply same_keys_impl; [exact H|]. cbn beta. intros m ms c [A B]. split; auto. apply hold_later. auto. Qed.

Lemma flush_groups_any : forall since F G0 gs, same_keys (fun d g0 g => hchunks since d (F d) g0 (gw_chunks g)) G0 gs ->
  Forall (fun dg => zlen (fst dg) < 2 ^ 31 /\ Forall (fun m => zlen m < 2 ^ 31) (map fst (snd dg))) G0 ->
  NoDup (map fst G0) -> Forall (fun dg => sorted (snd dg)) G0 ->
  forall io gs' io' e, io_current io = None -> flush_groups p snap gs io = Ret (gs', io', e) ->
  exists its F', same_keys (fun d g0 g => hchunks (Some (left_over since)) d (F' d) g0 (gw_chunks g)) G0 gs' /\
    sk_ext (io_out io) (io_out io') (file_of its) /\ io_groups io' = io_groups io ++ metas (sk_pos (io_out io)) its /\
    io_tsmeta io' = io_tsmeta io /\ io_current io' = None /\
    Forall (fun it => match it with
      | GItem d cs => exists g0, In (d, g0) G0 /\ Forall (fun c => citem_ok p snap c /\ sm_get (c_name c) g0 = Some (c_ms c)) cs
      | Raw _ => True end) its /\
    (forall d m, ~ In d (map fst G0) -> its_series d m its = [] /\ F' d m = F d m) /\
    (forall d m, subseq (its_series d m its ++ F' d m) (F d m)) /\
    (e = None -> Forall2 (item_plan p snap F) G0 its) /\
    (undisturbed (io_out io) (io_out io') -> e = None).
Proof.
  intros since F G0 gs H. induction H as [|[d g0] [k g] G0 gs [E HC] H IH]; intros Hn ND SG io gs' io' e Hc FL; cbn [flush_groups] in FL.
  - apply ret_inj in FL. apply pair3 in FL. destruct FL as (<- & <- & <-). exists [], F. unfold file_of. cbn. rewrite app_nil_r.
    split; [constructor|]. split; [apply sk_ext_refl|]. do 3 (split; [auto|]). split; [constructor|]. split; [auto|]. split; [intros; apply sub_refl|]. split; [constructor|auto].
  - cbn [fst snd map] in *. subst k. inversion Hn as [|? ? [Hd Hm] Hn']; subst. inversion ND as [|? ? NI ND']; subst. inversion SG as [|? ? Sg SG']; subst. cbn [fst snd] in *.
    assert (TAIL : same_keys (fun d g0 g => hchunks (Some (left_over since)) d (F d) g0 (gw_chunks g)) G0 gs).
    { apply (same_keys_impl _ _ (fun d g0 g => hchunks since d (F d) g0 (gw_chunks g)) _ _ _ H). cbn beta. intros. apply hchunks_later. auto. }
    assert (OTHER : forall k, In k (map fst G0) -> k <> d) by (intros k I X; subst; auto).
    unfold start_chunk_group in FL. destruct (wexec_part (chunk_group_header d) (io_out io)) as (l1 & X1 & L1 & E1 & S1). pose proof (wexec_full (chunk_group_header d) (io_out io)) as WF.
    destruct (wexec (chunk_group_header d) (io_out io)) as [o1 ok]. cbn [fst snd] in *. destruct ok.
    2:{ (* the group header failed *)
      apply ret_inj in FL. apply pair3 in FL. destruct FL as (<- & <- & <-). exists [Raw l1], F. unfold file_of. cbn [map concat item_bytes metas imetas app io_with_out io_out io_groups io_tsmeta io_current].
      rewrite !app_nil_r. split; [constructor; [split; auto; cbn [fst snd]; apply hchunks_later; auto|exact TAIL]|]. split; [exact X1|]. do 3 (split; [auto|]). split; [repeat constructor|].
      split; [auto|]. split; [intros; apply sub_refl|]. split; [discriminate|]. intros U. apply WF in U. destruct U as [U _]. discriminate. }
    specialize (S1 (group_header_strict d) eq_refl). subst l1. fold (ghead d) in X1.
    apply bind_ret in FL. destruct FL as ([[g1 io1] n] & F1 & FL).
    destruct (flush_group_any since d (F d) g0 g _ _ _ _ HC Hm F1) as (cis & l2 & K1 & K2 & K3 & K4 & K5 & K6 & K7 & K8 & K9 & K10 & K11 & K12).
    cbn [io_out io_device io_chunks io_current io_groups io_tsmeta] in *.
    assert (EMPTY : hchunks (Some (left_over since)) d (fun _ => []) g0 (gw_chunks g1)).
    { eapply same_keys_impl; [exact K12|]. cbn beta. intros m ms c R. split; [split; [constructor|rewrite zlen_nil; lia]|]. right. split; auto. eexists. split; [reflexivity|]. rewrite zlen_nil. apply zlen_nonneg. }
    pose proof (sk_ext_trans _ _ _ _ _ X1 K3) as X2.
    assert (DEL : forall F1 gs1, same_keys (fun d g0 g => hchunks (Some (left_over since)) d (F1 d) g0 (gw_chunks g)) G0 gs1 ->
      same_keys (fun d0 g0 g => hchunks (Some (left_over since)) d0 (if str_eqb d0 d then fun _ => [] else F1 d0) g0 (gw_chunks g)) ((d, g0) :: G0) ((d, g1) :: gs1)).
    { intros F2 gs1 HF. constructor; [split; auto; cbn [fst snd]; rewrite str_eqb_refl; exact EMPTY|].
      clear - HF OTHER. revert OTHER. unfold same_keys in HF. induction HF as [|[k1 a1] [k2 a2] m n [B1 B2] HF IH]; intros OT; constructor.
      - cbn [fst snd] in *. split; auto. rewrite str_eqb_neq by (apply OT; left; auto). exact B2.
      - apply IH. intros k0 I. apply OT. right. auto. }
    destruct (sk_pos (io_out io1) - sk_pos o1 =? n) eqn:Z1; cbn [negb] in FL.
    2:{ (* fewer bytes arrived *)
      apply ret_inj in FL. apply pair3 in FL. destruct FL as (<- & <- & <-). apply Z.eqb_neq in Z1. rewrite (se_pos _ _ _ K3) in Z1.
      exists [Raw (ghead d ++ l2)], (fun d0 => if str_eqb d0 d then fun _ => [] else F d0). unfold file_of. cbn [map concat item_bytes metas imetas app]. rewrite !app_nil_r.
      split; [apply DEL; exact TAIL|]. split; [exact X2|]. do 2 (split; [congruence|]). split; [auto|]. split; [repeat constructor|].
      split; [intros d0 m N; split; auto; rewrite str_eqb_neq by (intros ->; apply N; left; auto); auto|].
      split; [intros d0 m; cbn [its_series map concat iseries app]; destruct (str_eqb d0 d); [apply sub_none|apply sub_refl]|]. split; [discriminate|].
      intros U. exfalso. destruct (undisturbed_split _ _ _ (ex_intro _ _ X1) (ex_intro _ _ K3) U) as [_ U2]. apply K7 in U2. lia. }
    apply Z.eqb_eq in Z1. rewrite (se_pos _ _ _ K3) in Z1. destruct (K6 ltac:(lia)) as [EL K6']. subst l2. clear K6.
    apply bind_ret in FL. destruct FL as ([[gs2 io2] e2] & F2 & FL). apply ret_inj in FL. apply pair3 in FL. destruct FL as (<- & <- & <-).
    assert (IO : io_out (end_chunk_group io1) = io_out io1) by apply end_chunk_group_out.
    assert (IC : io_current (end_chunk_group io1) = None).
    { unfold end_chunk_group. rewrite K8. destruct (io_chunks io1); cbn; auto. }
    assert (IT : io_tsmeta (end_chunk_group io1) = io_tsmeta io).
    { unfold end_chunk_group. rewrite K8. destruct (io_chunks io1); cbn; auto. }
    assert (IG : io_groups (end_chunk_group io1) = io_groups io ++ imetas (sk_pos (io_out io)) (GItem d cis)).
    { unfold end_chunk_group. rewrite K8. rewrite K6'. cbn [app imetas]. rewrite (se_pos _ _ _ X1).
      destruct cis; cbn [cmetas io_groups]; [rewrite app_nil_r|]; rewrite K9; auto. }
    destruct (IH Hn' ND' SG' (end_chunk_group io1) gs2 io2 e2 IC F2) as (its & F' & J1 & J2 & J3 & J4 & J5 & J6 & J7 & J8 & J9 & J10).
    rewrite IO in J2, J3, J10. destruct (citem_plan _ _ _ K2 Sg) as [C1 C2].
    assert (HD : forall d0 m, its_series d0 m (GItem d cis :: its) = (if str_eqb d0 d then match sm_get m g0 with Some _ => F d m | None => [] end else []) ++ its_series d0 m its).
    { intros d0 m. unfold its_series. cbn [map concat iseries]. rewrite same_name_str. f_equal. destruct (str_eqb d0 d) eqn:Q.
      - apply str_eqb_eq in Q. subst d0. rewrite str_eqb_refl. apply C2.
      - assert (str_eqb d d0 = false) as ->; auto. apply str_eqb_neq. intros ->. rewrite str_eqb_refl in Q. discriminate. }
    exists (GItem d cis :: its), (fun d0 => if str_eqb d0 d then fun _ => [] else F' d0). split; [apply DEL; exact J1|].
    split; [exact (sk_ext_trans _ _ _ _ _ X2 J2)|]. split; [rewrite J3, IG, (se_pos _ _ _ X2), <- app_assoc; reflexivity|]. split; [congruence|]. split; [auto|].
    split; [constructor|split; [|split; [|split]]].
    + exists g0. split; [left; auto|]. rewrite Forall_forall in *. intros c Ic. split; auto. apply C1. auto.
    + eapply Forall_impl; [|exact J6]. intros [d0 cs0|bs]; auto. intros (g2 & A1 & A2). exists g2. split; [right|]; auto.
    + intros d0 m N. rewrite HD, str_eqb_neq by (intros ->; apply N; left; auto). cbn [app]. apply J7. intros I. apply N. right. auto.
    + intros d0 m. rewrite HD. destruct (str_eqb d0 d) eqn:Q; [|apply J8]. apply str_eqb_eq in Q. subst d0. destruct (J7 d m NI) as [-> _]. rewrite !app_nil_r.
      destruct (sm_get m g0); [apply sub_refl|apply sub_none].
    + intros E2. constructor; auto. exists cis. auto.
    + intros U. apply J10. destruct (undisturbed_split _ _ _ (ex_intro _ _ X2) (ex_intro _ _ J2) U) as [_ U2]. exact U2.
Qed.

(** ** Writing *)
Definition grown (l : list point) (since : option (list point)) : option (list point) := option_map (fun q => q ++ l) since.
Lemma grown_app : forall a b since, grown (a ++ b) since = grown b (grown a since).
Proof. intros a b [q|]; cbn; [rewrite app_assoc|]; auto. Qed.
Lemma grown_nil : forall since, grown [] since = since.
Proof. intros [q|]; cbn; [rewrite app_nil_r|]; auto. Qed.
Lemma few_part : forall a b since, few (grown (a ++ b) since) -> few (grown a since).
Proof.
  intros a b [q|]; cbn [grown option_map few]; auto. intros H d m. specialize (H d m). rewrite app_assoc, series_app, zlen_app in H. pose proof (zlen_nonneg _ (series_of d m b)). lia.
Qed.
Lemma hold_grown : forall l since d m ms pts c, hold since d m ms pts c -> hold (grown l since) d m ms pts c.
Proof.
  intros l since d m ms pts c [H|[H (q & -> & L)]]; [left; auto|right]. split; auto. exists (q ++ l). split; auto. rewrite series_app, zlen_app. pose proof (zlen_nonneg _ (series_of d m l)). lia.
Qed.
Lemma hchunks_grown : forall l since d f g0 cs, hchunks since d f g0 cs -> hchunks (grown l since) d f g0 cs.
Proof. intros l since d f g0 cs H. eapply same_keys_impl; [exact H|]. cbn beta. intros m ms c [A B]. split; auto. apply hold_grown. auto. Qed.
Lemma hold_write : forall since d m ms pts c t v c', pts_ok ms pts -> hold since d m ms pts c -> value_machine v -> i64_min <= t <= i64_max ->
  few (grown [mkPoint d m t v] since) -> cw_write p snap t v c = Ret (inl c') ->
  value_ok (ms_type ms) v /\ hold (grown [mkPoint d m t v] since) d m ms (pts ++ [(t, v)]) c'.
Proof.
  intros since d m ms pts c t v c' O H Hv Ht FW W. destruct H as [H|[R (q & -> & L)]].
  - split; [eapply cw_write_typed; eauto|]. left. eapply open_snoc; eauto.
  - pose proof (resumed_inv_type _ _ _ _ _ _ _ R (proj1 O) Hv W) as V. split; auto. right.
    cbn [grown option_map few] in *. specialize (FW d m). rewrite series_app, series_same, zlen_app, zlen_cons, zlen_nil in FW. split.
    + eapply resumed_write; eauto; [|rewrite zlen_app, zlen_cons, zlen_nil; unfold resume_limit; lia]. apply Forall_app. split; [apply O|]. repeat constructor; auto; cbn; lia.
    + eexists. split; [reflexivity|]. rewrite series_app, series_same, !zlen_app, !zlen_cons, !zlen_nil. lia.
Qed.
Lemma gw_write_any : forall since d f g0 g m t v g' e, hchunks since d f g0 (gw_chunks g) -> sorted g0 -> value_machine v -> i64_min <= t <= i64_max ->
  zlen (f m) + 1 < 2 ^ 32 -> few (grown [mkPoint d m t v] since) -> gw_write p snap m t v g = Ret (g', e) ->
  match e with
  | None => sm_get m g0 <> None /\ hchunks (grown [mkPoint d m t v] since) d (fun m' => f m' ++ series_of d m' [mkPoint d m t v]) g0 (gw_chunks g')
  | Some _ => hchunks since d f g0 (gw_chunks g')
  end.
Proof.
  intros since d f g0 g m t v g' e A S0 Hv Ht Hl FW H. unfold gw_write in H.
  destruct (check_is_history_data m t (gw_last g)) as [l' [|]]; [|rinj H; exact A].
  pose proof (same_keys_get _ _ _ _ _ m A) as SK. cbn in SK. destruct (sm_get m g0) as [ms|] eqn:G0; destruct (sm_get m (gw_chunks g)) as [c|] eqn:GC; try tauto.
  - apply bind_ret in H. destruct H as ([c'|err] & W & H); [|discriminate]. rinj H. destruct SK as [Hok Ho]. cbn [gw_chunks].
    destruct (hold_write _ _ _ _ _ _ _ _ _ Hok Ho Hv Ht FW W) as [V HH]. split; [discriminate|]. eapply same_keys_insert; [exact A| |exact G0| |].
    + unfold sorted. rewrite <- (same_keys_fst _ _ _ _ _ A). exact S0.
    + cbn beta. rewrite series_same. split; auto. destruct Hok as [O1 O2]. split; [apply Forall_app; split; auto; repeat constructor; auto; cbn; lia|rewrite zlen_app, zlen_cons, zlen_nil; lia].
    + cbn beta. intros k a b N [X Y]. rewrite series_other, app_nil_r by congruence. split; auto. apply hold_grown. auto.
  - rinj H. exact A.
Qed.
Definition batch (d : list Z) (t : Z) (vs : list (list Z * value)) : list point := map (fun mv => mkPoint d (fst mv) t (snd mv)) vs.
Lemma hchunks_ext : forall since d f f' g0 cs, (forall m, f m = f' m) -> hchunks since d f g0 cs -> hchunks since d f' g0 cs.
Proof. intros since d f f' g0 cs E H. eapply same_keys_impl; [exact H|]. cbn beta. intros m ms c. rewrite E. auto. Qed.
Lemma gw_batch_any : forall d t g0, sorted g0 -> i64_min <= t <= i64_max -> forall vs since f g n g' r, hchunks since d f g0 (gw_chunks g) -> Forall (fun mv => value_machine (snd mv)) vs ->
  (forall m, zlen (f m) + zlen vs < 2 ^ 32) -> 0 <= n -> n + zlen vs < 2 ^ 32 -> few (grown (batch d t vs) since) -> gw_write_many p snap t vs n g = Ret (g', r) ->
  exists a b, vs = a ++ b /\
    (forall s, hchunks s d f g0 (gw_chunks g) -> few (grown (batch d t vs) s) -> hchunks (grown (batch d t a) s) d (fun m => f m ++ series_of d m (batch d t a)) g0 (gw_chunks g')) /\
    Forall (fun mv => sm_get (fst mv) g0 <> None) a /\ match r with inl k => b = [] /\ k = n + zlen vs | inr _ => True end.
Proof.
  intros d t g0 S0 Ht. induction vs as [|[m v] vs IH]; intros since f g n g' r A HV HL Hn HN FW H; cbn [gw_write_many] in H.
  - rinj H. exists [], []. split; auto. split; [|split; [constructor|rewrite zlen_nil, Z.add_0_r; auto]]. intros s As _. cbn [batch map]. rewrite grown_nil. eapply hchunks_ext; [|exact As]. intros m. cbn. rewrite app_nil_r. auto.
  - inversion HV as [|? ? Hv HV']; subst. cbn [snd] in Hv. rewrite zlen_cons in *. pose proof (zlen_nonneg _ vs) as NV. apply bind_ret in H. destruct H as ([g1 e] & W & H).
    change (batch d t ((m, v) :: vs)) with ([mkPoint d m t v] ++ batch d t vs) in *.
    assert (L1 : zlen (f m) + 1 < 2 ^ 32) by (specialize (HL m); lia).
    assert (XS : forall s, hchunks s d f g0 (gw_chunks g) -> few (grown ([mkPoint d m t v] ++ batch d t vs) s) -> match e with
      | None => sm_get m g0 <> None /\ hchunks (grown [mkPoint d m t v] s) d (fun m' => f m' ++ series_of d m' [mkPoint d m t v]) g0 (gw_chunks g1)
      | Some _ => hchunks s d f g0 (gw_chunks g1) end).
    { intros s As Fs. eapply gw_write_any; eauto. eapply few_part; eauto. } pose proof (XS since A FW) as X. destruct e as [err|].
    + rinj H. exists [], ((m, v) :: vs). split; auto. split; [|split; [constructor|auto]]. intros s As Fs. cbn [batch map]. rewrite grown_nil. eapply hchunks_ext; [|exact (XS s As Fs)]. intros m'. cbn. rewrite app_nil_r. auto.
    + destruct X as [DM X]. apply bind_ret in H. destruct H as (n1 & AR & H). rewrite arithU_ok in AR by lia. apply ret_inj in AR. subst n1. rewrite grown_app in FW.
      assert (HL' : forall m', zlen (f m' ++ series_of d m' [mkPoint d m t v]) + zlen vs < 2 ^ 32).
      { intros m'. rewrite zlen_app. specialize (HL m'). pose proof (series_len d m' [mkPoint d m t v]) as SL. rewrite zlen_cons, zlen_nil in SL. lia. }
      destruct (IH _ _ _ (n + 1) g' r X HV' HL' ltac:(lia) ltac:(lia) FW H) as (a & b & E & Y & DA & R).
      exists ((m, v) :: a), b. subst vs. split; auto. split; [|split; [constructor; auto|destruct r; auto; destruct R as [-> ->]; split; [auto|rewrite zlen_app in *; lia]]].
      intros s As Fs. pose proof (proj2 (XS s As Fs)) as X1. rewrite grown_app in Fs. pose proof (Y _ X1 Fs) as Y1.
      change (batch d t ((m, v) :: a)) with ([mkPoint d m t v] ++ batch d t a). rewrite grown_app. eapply hchunks_ext; [|exact Y1]. intros m'. cbn beta. rewrite series_app, app_assoc. auto.
Qed.
End Fault.
