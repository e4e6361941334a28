(** The memory check: the estimate is positive after an accepted write (C40). *)
From Verif Require Export PCompare.
Ltac Zify.zify_post_hook ::= idtac.

(** ** No other division *)
Definition ndz {A} (o : outcome A) : Prop := o <> Panic PDivZero.
Lemma ndz_ret : forall A (a : A), ndz (Ret a). Proof. unfold ndz. discriminate. Qed.
Lemma ndz_panic : forall A x, x <> PDivZero -> ndz (@Panic A x). Proof. unfold ndz. congruence. Qed.
Lemma ndz_bind : forall A B (m : outcome A) (f : A -> outcome B), ndz m -> (forall a, ndz (f a)) -> ndz (bind m f).
Proof. intros A B [a|e] f H G; cbn [bind]; auto. unfold ndz in *. congruence. Qed.
Lemma ndz_foldM : forall A B (f : B -> A -> outcome B) l b, (forall b a, ndz (f b a)) -> ndz (foldM f l b).
Proof. intros A B f l. induction l as [|a l IH]; intros b H; cbn [foldM]; [apply ndz_ret|]. apply ndz_bind; auto. Qed.
Lemma ndz_mapM : forall A B (f : A -> outcome B) l, (forall a, ndz (f a)) -> ndz (mapM f l).
Proof. intros A B f l H. induction l as [|a l IH]; cbn [mapM]; [apply ndz_ret|]. apply ndz_bind; auto. intros x. apply ndz_bind; auto. intros y. apply ndz_ret. Qed.
Ltac ndz :=
  repeat first
    [ apply ndz_ret
    | apply ndz_panic; discriminate
    | assumption
    | match goal with |- ndz (bind _ _) => apply ndz_bind; [|let x := fresh "x" in intros x] end
    | match goal with |- ndz (match ?x with _ => _ end) => destruct x end
    | match goal with |- ndz (let '(_, _) := ?x in _) => destruct x end
    | progress auto with ndz ].
Create HintDb ndz.
Lemma ndz_arithU : forall p n v, ndz (arithU p n v). Proof. intros. unfold arithU. ndz. Qed.
Lemma ndz_arithS : forall p n v, ndz (arithS p n v). Proof. intros. unfold arithS. ndz. Qed.
#[export] Hint Resolve ndz_arithU ndz_arithS : ndz.
Lemma ndz_long_loop : forall f n r c i w, ndz (to_bytes_long_loop f n r c i w).
Proof. induction f as [|f IH]; intros; cbn [to_bytes_long_loop]; unfold vec_get; ndz. Qed.
Lemma ndz_int_loop : forall f n r c i w, ndz (to_bytes_int_loop f n r c i w).
Proof. induction f as [|f IH]; intros; cbn [to_bytes_int_loop]; unfold vec_get; ndz. Qed.
#[export] Hint Resolve ndz_long_loop ndz_int_loop : ndz.
Lemma ndz_pack : forall k w l i b, ndz (pack_loop k w i l b).
Proof. intros k w. induction l as [|v l IH]; intros i b; cbn [pack_loop]; [ndz|]. apply ndz_bind; auto. destruct k; unfold to_bytes, to_bytes_long, to_bytes_int; auto with ndz. Qed.
#[export] Hint Resolve ndz_pack : ndz.
Lemma ndz_flush : forall p k e, ndz (ts2_flush p k e).
Proof. intros. unfold ts2_flush. destruct (t_first e); [|ndz]. apply ndz_bind; [apply ndz_mapM; auto with ndz|]. intros. ndz. Qed.
#[export] Hint Resolve ndz_flush : ndz.
Lemma ndz_ts2_write : forall p k v e, ndz (ts2_write p k v e). Proof. intros. unfold ts2_write. ndz. Qed.
#[export] Hint Resolve ndz_ts2_write : ndz.
Lemma ndz_encoder_write : forall p v e, ndz (encoder_write p v e). Proof. intros. unfold encoder_write. ndz. Qed.
Lemma ndz_encoder_serialize : forall p e, ndz (encoder_serialize p e). Proof. intros. unfold encoder_serialize, ts2_serialize. ndz. Qed.
Lemma ndz_sum_add : forall p a b, ndz (sum_add p a b). Proof. intros. unfold sum_add. ndz. Qed.
#[export] Hint Resolve ndz_encoder_write ndz_encoder_serialize ndz_sum_add : ndz.
Lemma ndz_update : forall p t v s, ndz (stats_update p t v s). Proof. intros. unfold stats_update, stats_update_raw. ndz. Qed.
Lemma ndz_merge : forall p a b, ndz (stats_merge p a b). Proof. intros. unfold stats_merge. ndz. Qed.
#[export] Hint Resolve ndz_update ndz_merge : ndz.
Lemma ndz_pw_write : forall p t v w, ndz (pw_write p t v w). Proof. intros. unfold pw_write. ndz. Qed.
Lemma ndz_prepare : forall p w, ndz (pw_prepare p w). Proof. intros. unfold pw_prepare, ts2_serialize. ndz. Qed.
Lemma ndz_estimate : forall p w, ndz (pw_estimate p w). Proof. intros. unfold pw_estimate. ndz. Qed.
#[export] Hint Resolve ndz_pw_write ndz_prepare ndz_estimate : ndz.
Lemma ndz_write_page : forall p snap c, ndz (write_page_to_buffer p snap c).
Proof. intros. unfold write_page_to_buffer. ndz. Qed.
#[export] Hint Resolve ndz_write_page : ndz.
Lemma ndz_check_page : forall p snap c, ndz (check_page_size p snap c). Proof. intros. unfold check_page_size. ndz. Qed.
#[export] Hint Resolve ndz_check_page : ndz.
Lemma ndz_cw_write : forall p snap t v c, ndz (cw_write p snap t v c). Proof. intros. unfold cw_write. ndz. Qed.
Lemma ndz_seal : forall p snap c, ndz (seal_current_page p snap c). Proof. intros. unfold seal_current_page. ndz. Qed.
Lemma ndz_cw_estimate : forall p c, ndz (cw_estimate p c). Proof. intros. unfold cw_estimate. ndz. Qed.
#[export] Hint Resolve ndz_cw_write ndz_seal ndz_cw_estimate : ndz.
Lemma ndz_write_to : forall p snap c io, ndz (write_to_file_writer p snap c io).
Proof. intros. unfold write_to_file_writer, write_all_pages, end_current_chunk. ndz. Qed.
#[export] Hint Resolve ndz_write_to : ndz.
Lemma ndz_gw_write : forall p snap m t v g, ndz (gw_write p snap m t v g). Proof. intros. unfold gw_write. ndz. Qed.
#[export] Hint Resolve ndz_gw_write : ndz.
Lemma ndz_many : forall p snap t vs n g, ndz (gw_write_many p snap t vs n g).
Proof. intros p snap t. induction vs as [|[m v] vs IH]; intros; cbn [gw_write_many]; ndz. Qed.
Lemma ndz_seal_all : forall p snap cs, ndz (seal_all_chunks p snap cs).
Proof. intros p snap. unfold seal_all_chunks. induction cs as [|[k c] cs IH]; cbn [sm_mapM]; ndz. Qed.
Lemma ndz_flush_chunks : forall p snap cs io, ndz (flush_chunks p snap cs io).
Proof. intros p snap. induction cs as [|[k c] cs IH]; intros; cbn [flush_chunks]; ndz. Qed.
#[export] Hint Resolve ndz_many ndz_seal_all ndz_flush_chunks : ndz.
Lemma ndz_flush_groups : forall p snap gs io, ndz (flush_groups p snap gs io).
Proof. intros p snap. induction gs as [|[d g] gs IH]; intros; cbn [flush_groups]; unfold flush_to_filewriter; ndz. Qed.
#[export] Hint Resolve ndz_flush_groups : ndz.
Lemma ndz_flush_all : forall p snap w, ndz (flush_all p snap w). Proof. intros. unfold flush_all. ndz. Qed.
#[export] Hint Resolve ndz_flush_all : ndz.
Lemma ndz_mem : forall p gs, ndz (mem_size p gs).
Proof. intros. unfold mem_size. apply ndz_foldM. intros. apply ndz_bind; auto with ndz. unfold gw_mem_size. apply ndz_foldM. intros. ndz. Qed.
#[export] Hint Resolve ndz_mem : ndz.
Lemma check_div : forall p snap w, check_memory p snap w = Panic PDivZero -> mem_size p (w_groups w) = Ret 0.
Proof.
  intros p snap w H. unfold check_memory in H. destruct (_ >=? _); [|discriminate]. pose proof (ndz_mem p (w_groups w)) as N.
  destruct (mem_size p (w_groups w)) as [m|e]; cbn [bind] in H; [|unfold ndz in N; congruence].
  destruct (m =? 0) eqn:E; [apply Z.eqb_eq in E; subst; auto|]. destruct (m >? _); [|discriminate]. exfalso.
  revert H. match goal with |- ?a = _ -> _ => assert (X : ndz a) by ndz; exact X end.
Qed.

(** ** The estimate *)
Lemma arithU_any : forall p n v x, arithU Debug n v = Ret x -> arithU p n v = Ret x /\ x = v /\ 0 <= v < 2 ^ n.
Proof.
  intros p n v x H. unfold arithU in *. destruct (0 <=? v) eqn:A; destruct (v <? 2 ^ n) eqn:B; cbn [andb] in *; try discriminate.
  inversion H; subst. apply Z.leb_le in A. apply Z.ltb_lt in B. auto.
Qed.
Lemma size_var_pos : forall v, 0 <= size_var_u32 v.
Proof.
  intros v. unfold size_var_u32. assert (G : forall f n k, 0 <= k -> 0 <= size_var_loop f n k); [|apply G; lia].
  induction f as [|f IH]; intros n k K; cbn [size_var_loop]; [lia|]. destruct (Z.land n 0xFFFFFF80 =? 0); cbn [negb]; auto. apply IH. lia.
Qed.
Lemma stats_size_pos : forall s, 0 < stats_serialized_size s.
Proof. intros s. unfold stats_serialized_size. pose proof (size_var_pos (st_count s)). destruct (st_type s); lia. Qed.
Lemma wrap_pos : forall n v, 0 <= n -> 0 <= wrapU n v.
Proof. intros. unfold wrapU. apply Z.mod_pos_bound. lia. Qed.

Lemma estimate_any : forall p w x, pw_estimate Debug w = Ret x -> pw_estimate p w = Ret x /\ 0 <= x.
Proof.
  intros p w x H. unfold pw_estimate in *. apply bind_ret in H. destruct H as (a & A & H). apply bind_ret in H. destruct H as (b & B & H).
  destruct (arithU_any p _ _ _ A) as (A1 & _). destruct (arithU_any p _ _ _ B) as (B1 & _). destruct (arithU_any p _ _ _ H) as (H1 & -> & H2).
  rewrite A1. cbn [bind]. rewrite B1. cbn [bind]. rewrite H1. split; [auto|lia].
Qed.
Lemma cw_estimate_any : forall p c x, cw_estimate Debug c = Ret x -> cw_estimate p c = Ret x /\ 0 <= x /\ (cw_page c <> None -> 0 < x).
Proof.
  intros p c x H. unfold cw_estimate in *. destruct (cw_page c) as [pw|]; [|inversion H; subst; split; [auto|split; [lia|congruence]]].
  apply bind_ret in H. destruct H as (m & M & H). apply bind_ret in H. destruct H as (st & ST & H). apply bind_ret in H. destruct H as (a & A & H).
  destruct (estimate_any p _ _ M) as [M1 M2]. destruct (arithU_any p _ _ _ ST) as (S1 & S2 & _). destruct (arithU_any p _ _ _ A) as (A1 & A2 & A3).
  destruct (arithU_any p _ _ _ H) as (H1 & H2 & _). rewrite M1. cbn [bind]. rewrite S1. cbn [bind]. rewrite A1. cbn [bind]. rewrite H1.
  pose proof (stats_size_pos (pw_stats pw)). split; [auto|]. split; [lia|]. intros _. lia.
Qed.
Lemma fold_any : forall A p (e : profile -> A -> outcome Z), (forall a x, e Debug a = Ret x -> e p a = Ret x /\ 0 <= x) ->
  forall l z m, foldM (fun n a => let* s := e Debug a in arithU Debug 32 (n + s)) l z = Ret m ->
    foldM (fun n a => let* s := e p a in arithU p 32 (n + s)) l z = Ret m /\ z <= m /\
    forall a, In a l -> exists x, e Debug a = Ret x /\ z + x <= m.
Proof.
  intros A p e He. induction l as [|a l IH]; intros z m H; cbn [foldM] in *.
  - inversion H; subst. split; [auto|]. split; [lia|]. intros a [].
  - apply bind_ret in H. destruct H as (b & B & H). apply bind_ret in B. destruct B as (x & X & B).
    destruct (He _ _ X) as [X1 X2]. destruct (arithU_any p _ _ _ B) as (B1 & B2 & _). destruct (IH _ _ H) as (IH1 & IH2 & IH3).
    rewrite X1. cbn [bind]. rewrite B1. cbn [bind]. split; auto. split; [lia|]. intros a' [<-|I]; [exists x; split; auto; lia|].
    destruct (IH3 _ I) as (y & Y1 & Y2). exists y. split; auto. lia.
Qed.
Lemma gw_mem_any : forall p g x, gw_mem_size Debug g = Ret x -> gw_mem_size p g = Ret x /\ 0 <= x /\
  (forall m c, In (m, c) (gw_chunks g) -> cw_page c <> None -> 0 < x).
Proof.
  intros p g x H. unfold gw_mem_size in *.
  destruct (fold_any _ p (fun p (kc : list Z * chunk_writer) => cw_estimate p (snd kc)) (fun a x H => let '(conj A (conj B _)) := cw_estimate_any p _ x H in conj A B) _ _ _ H) as (A & B & C).
  split; auto. split; auto. intros m c I P. destruct (C _ I) as (y & Y1 & Y2). cbn [snd] in Y1. apply (cw_estimate_any p) in Y1. destruct Y1 as (_ & _ & Y). specialize (Y P). lia.
Qed.
Lemma mem_any : forall p gs x, mem_size Debug gs = Ret x -> mem_size p gs = Ret x /\ 0 <= x /\
  (forall d g m c, In (d, g) gs -> In (m, c) (gw_chunks g) -> cw_page c <> None -> 0 < x).
Proof.
  intros p gs x H. unfold mem_size in *.
  destruct (fold_any _ p (fun p (kc : list Z * group_writer) => gw_mem_size p (snd kc)) (fun a x H => let '(conj A (conj B _)) := gw_mem_any p _ x H in conj A B) _ _ _ H) as (A & B & C).
  split; auto. split; auto. intros d g m c I I' P. destruct (C _ I) as (y & Y1 & Y2). cbn [snd] in Y1. apply (gw_mem_any p) in Y1. destruct Y1 as (_ & _ & Y). specialize (Y _ _ I' P). lia.
Qed.
Lemma mem_debug : forall gs e, mem_size Debug gs = Panic e -> e = POverflow.
Proof.
  assert (AO : forall n v e, arithU Debug n v = Panic e -> e = POverflow) by (intros n v e H; unfold arithU in H; destruct (_ && _); congruence).
  assert (CO : forall c e, cw_estimate Debug c = Panic e -> e = POverflow).
  { intros c e H. unfold cw_estimate in H. destruct (cw_page c) as [pw|]; [|discriminate]. unfold pw_estimate in H.
    repeat match type of H with bind (bind ?a _) _ = _ => let E := fresh in destruct a eqn:E; cbn [bind] in H; [|inversion H; subst; eapply AO; eauto]
      | bind ?a _ = _ => let E := fresh in destruct a eqn:E; cbn [bind] in H; [|inversion H; subst; eapply AO; eauto] end.
    eapply AO; eauto. }
  assert (FO : forall A (f : A -> outcome Z), (forall a e, f a = Panic e -> e = POverflow) -> forall l z e,
    foldM (fun n a => let* s := f a in arithU Debug 32 (n + s)) l z = Panic e -> e = POverflow).
  { intros A f Hf. induction l as [|a l IH]; intros z e H; cbn [foldM] in H; [discriminate|].
    destruct (f a) as [x|x] eqn:E; cbn [bind] in H; [|inversion H; subst; eauto].
    destruct (arithU Debug 32 (z + x)) eqn:E2; cbn [bind] in H; [eauto|inversion H; subst; eauto]. }
  intros gs e H. unfold mem_size in H. eapply (FO _ (fun kc : list Z * group_writer => gw_mem_size Debug (snd kc))); [|exact H].
  cbn beta. intros a e' H'. unfold gw_mem_size in H'. eapply (FO _ (fun kc : list Z * chunk_writer => cw_estimate Debug (snd kc))); [|exact H']. cbn beta. eauto.
Qed.

Section Mem.
Variable p : profile.
Variable snap decomp : list Z -> option (list Z).
Hypothesis HG : good_snap snap decomp.
Variable sc : schema.
Hypothesis Hsc : schema_ok sc.

Lemma page_open : forall m ms pts c, pts_ok ms pts -> pts <> [] -> open_chunk p snap m ms pts c -> cw_page c <> None.
Proof.
  intros m ms pts c Hok N H. destruct (run_inv p snap decomp HG _ _ _ _ Hok H) as (pg & im & cu & I & _ & E).
  pose proof (ci_cur _ _ _ _ _ _ _ _ _ _ I) as IC. destruct (cw_page c); [discriminate|]. destruct IC as [-> ->]. cbn in E. congruence.
Qed.
(** the groups right after the accepted point, before the memory check *)
Lemma mem_positive : forall w h ops l d m t v g g', trace p snap sc w h ops l -> ops_ok (ops ++ [OpWrite d m t v]) ->
  sm_get d (w_groups w) = Some g -> gw_write p snap m t v g = Ret (g', None) ->
  p = Debug \/ mem_size Debug (sm_insert d g' (w_groups w)) <> Panic POverflow ->
  forall n, mem_size p (sm_insert d g' (w_groups w)) = Ret n -> 0 < n.
Proof.
  intros w h ops l d m t v g g' T O G W HP n M. destruct (trace_ok p snap decomp HG sc Hsc _ _ _ _ T (ops_ok_app _ _ O)) as (TL & its & I & _).
  destruct O as [O2 O3]. rewrite map_app, zsum_app in O3. cbn [map zsum fold_right op_points] in O3. apply Forall_app in O2. destruct O2 as [_ O2]. apply Forall_inv in O2. destruct O2 as [Ht Hv].
  pose proof (winv_get _ _ _ _ _ _ d I) as WG. rewrite G in WG. destruct (sm_get d (decls sc)) as [g0|] eqn:D; [|contradiction].
  assert (HL : zlen (h_all h) + 1 < 2 ^ 32) by lia.
  pose proof (recent_len h d m) as RL. assert (RL1 : zlen (recent h d m) + 1 < 2 ^ 32) by lia.
  pose proof (gw_write_ok p snap decomp HG _ _ _ _ _ _ _ _ WG (decls_inner_sorted sc d g0 Hsc D) Ht Hv RL1 W) as GW.
  destruct (_ <? t); [|destruct GW; discriminate]. destruct (sm_get m g0) as [ms|] eqn:GM; [|destruct GW as [(s & X) _]; discriminate].
  destruct GW as (_ & _ & [GC _]). pose proof (same_keys_get _ _ _ _ _ m GC) as SK. cbn in SK. rewrite GM in SK.
  destruct (sm_get m (gw_chunks g')) as [c|] eqn:C; [|contradiction]. rewrite str_eqb_refl in SK. destruct SK as [S1 S2].
  assert (PO : cw_page c <> None) by (eapply page_open; eauto; intros X; apply app_eq_nil in X; destruct X; discriminate).
  destruct (mem_size Debug (sm_insert d g' (w_groups w))) as [n'|e] eqn:MD.
  - destruct (mem_any p _ _ MD) as (M1 & _ & M2). rewrite M1 in M. inversion M; subst.
    apply (M2 d g' m c); auto; apply sm_get_in; auto. apply insert_get.
  - pose proof (mem_debug _ _ MD) as ->. destruct HP as [->|HP]; [congruence|]. congruence.
Qed.
Lemma no_div_zero : forall w h ops l d m t v, trace p snap sc w h ops l -> ops_ok (ops ++ [OpWrite d m t v]) ->
  p = Debug \/ (forall g g', sm_get d (w_groups w) = Some g -> gw_write p snap m t v g = Ret (g', None) ->
                 mem_size Debug (sm_insert d g' (w_groups w)) <> Panic POverflow) ->
  step p snap w (OpWrite d m t v) <> Panic PDivZero.
Proof.
  intros w h ops l d m t v T O HP H. cbn [step] in H. unfold writer_write in H. destruct (sm_get d (w_groups w)) as [g|] eqn:G; [|discriminate].
  pose proof (ndz_gw_write p snap m t v g) as N. destruct (gw_write p snap m t v g) as [[g' [e|]]|e] eqn:W; cbn [bind] in H; [discriminate| |unfold ndz in N; congruence].
  cbn [w_records w_io w_groups w_next_check w_schema] in H.
  pose proof (ndz_arithU p 32 (w_records w + 1)) as N1. destruct (arithU p 32 (w_records w + 1)) as [rc|e]; cbn [bind] in H; [|unfold ndz in N1; congruence].
  destruct (check_memory _ _ _) as [w1|e] eqn:C; cbn [bind] in H; [discriminate|]. inversion H; subst e. apply check_div in C. cbn [w_groups] in C.
  assert (HP' : p = Debug \/ mem_size Debug (sm_insert d g' (w_groups w)) <> Panic POverflow) by (destruct HP as [HP|HP]; [left; auto|right; eapply HP; eauto]).
  pose proof (mem_positive _ _ _ _ _ _ _ _ _ _ T O G W HP' _ C). lia.
Qed.
End Mem.
