(** TS_2DIFF: C04, C05, C07. *)
From Coq Require Export Sorting.Sorted.
From Verif Require Export PPack SDriver.
Ltac Zify.zify_post_hook ::= idtac.
Ltac dlia := Z.div_mod_to_equations; lia.

Lemma ret_inj : forall A (a b : A), Ret a = Ret b -> a = b.
Proof. congruence. Qed.

Lemma kbits_bytes : forall k, kbits k = 8 * Z.of_nat (kbytes k).
Proof. destruct k; reflexivity. Qed.
Lemma kbits_pos : forall k, 1 <= kbits k <= 64.
Proof. destruct k; cbn; lia. Qed.

Lemma mapM_inv : forall A B (f : A -> outcome B) g l r,
  (forall a b, In a l -> f a = Ret b -> b = g a) -> mapM f l = Ret r -> r = map g l.
Proof.
  induction l; cbn; intros r Hf H.
  - inversion H. auto.
  - destruct (f a) eqn:E; [|discriminate]. cbn in H. destruct (mapM f l) eqn:E2; [|discriminate].
    cbn in H. inversion H; subst. f_equal; eauto.
Qed.
Lemma mapM_ok : forall A B (f : A -> outcome B) g l,
  (forall a, In a l -> f a = Ret (g a)) -> mapM f l = Ret (map g l).
Proof.
  induction l; cbn; intros Hf; [reflexivity|]. rewrite Hf by auto. cbn. rewrite IHl by auto. reflexivity.
Qed.

(** widths *)
Lemma width_range : forall k v, 0 <= get_value_width k v <= kbits k.
Proof.
  intros. unfold get_value_width. pose proof (kbits_pos k). pose proof (wrapU_range (kbits k) v ltac:(lia)) as R.
  destruct (wrapU (kbits k) v =? 0) eqn:E; [lia|].
  pose proof (Z.log2_nonneg (wrapU (kbits k) v)).
  assert (Z.log2 (wrapU (kbits k) v) < kbits k) by (apply Z.log2_lt_pow2; lia). lia.
Qed.
Lemma calc_width_acc : forall k l a, 0 <= a <= kbits k ->
  a <= fold_left (fun w v => Z.max w (get_value_width k v)) l a <= kbits k /\
  Forall (fun v => get_value_width k v <= fold_left (fun w v => Z.max w (get_value_width k v)) l a) l.
Proof.
  induction l; cbn [fold_left]; intros w Hw.
  - split; [lia|constructor].
  - pose proof (width_range k a). destruct (IHl (Z.max w (get_value_width k a)) ltac:(lia)) as [H1 H2].
    split; [lia|]. constructor; [lia|]. auto.
Qed.
Lemma calc_width_range : forall k l, 0 <= calc_width k l <= kbits k.
Proof. intros. pose proof (kbits_pos k). apply calc_width_acc. lia. Qed.
Lemma calc_width_ge : forall k l, Forall (fun v => get_value_width k v <= calc_width k l) l.
Proof. intros. pose proof (kbits_pos k). apply calc_width_acc. lia. Qed.

Lemma width_fits : forall k v w, signed_in (kbits k) v -> get_value_width k v <= w <= kbits k ->
  fits k w v /\ (v mod 2 ^ w) mod 2 ^ kbits k = v mod 2 ^ kbits k.
Proof.
  intros k v w [L U] Hw. pose proof (kbits_pos k). unfold get_value_width in Hw.
  pose proof (pow2_split (kbits k) ltac:(lia)) as S.
  pose proof (pow2_pos (kbits k - 1) ltac:(lia)) as P.
  destruct (Z_lt_le_dec v 0) as [N|N].
  - assert (E : wrapU (kbits k) v = v + 2 ^ kbits k).
    { unfold wrapU. symmetry. apply Z.mod_unique with (-1); lia. }
    rewrite E in Hw. replace (v + 2 ^ kbits k =? 0) with false in Hw by lia.
    assert (kbits k - 1 <= Z.log2 (v + 2 ^ kbits k)) by (apply Z.log2_le_pow2; lia).
    assert (w = kbits k) by lia. subst w. split; [right; reflexivity|]. apply Z.mod_mod. lia.
  - rewrite wrapU_small in Hw by lia. destruct (v =? 0) eqn:E0.
    + assert (v = 0) by lia. subst. split; [left; split; [lia|apply pow2_pos; lia]|].
      rewrite Z.mod_0_l; [reflexivity|]. pose proof (pow2_pos w ltac:(lia)). lia.
    + assert (v < 2 ^ w) by (apply Z.log2_lt_pow2; lia).
      split; [left; lia|]. rewrite (Z.mod_small v (2 ^ w)) by lia. reflexivity.
Qed.

(** decoding of a block *)
Fixpoint prefix_sums (bits : Z) (prev : Z) (ds : list Z) : list Z :=
  match ds with
  | [] => []
  | d :: ds' => let x := sgn bits (prev + d) in x :: prefix_sums bits x ds'
  end.

Lemma ts2_values_spec : forall bits v total w base ds us i prev, 1 <= bits ->
  length us = length ds ->
  (forall j, (j < length ds)%nat -> bit_field v total (i + Z.of_nat j) w mod 2 ^ bits = nth j us 0 mod 2 ^ bits) ->
  Forall2 (fun u d => u mod 2 ^ bits = (d - base) mod 2 ^ bits) us ds ->
  ts2_values bits v total w base i (length ds) prev = prefix_sums bits prev ds.
Proof.
  induction ds as [|d ds IH]; intros us i prev Hb Hlen Hf H2; [reflexivity|].
  destruct us as [|u us]; [discriminate|]. inversion H2; subst. cbn [length ts2_values prefix_sums].
  assert (E : sgn bits (prev + base + bit_field v total i w) = sgn bits (prev + d)).
  { apply sgn_eq; auto. apply sgn_range; auto. rewrite sgn_mod by auto.
    pose proof (pow2_pos bits ltac:(lia)).
    specialize (Hf 0%nat ltac:(cbn; lia)). cbn [nth] in Hf. rewrite Z.add_0_r in Hf.
    replace (prev + d) with (prev + base + (d - base)) by lia.
    rewrite <- (Z.add_mod_idemp_r (prev + base) (d - base)) by lia.
    rewrite <- H3, <- Hf. rewrite Z.add_mod_idemp_r by lia. reflexivity. }
  rewrite E. f_equal. apply (IH us); auto.
  intros j Hj. specialize (Hf (S j) ltac:(cbn; lia)). cbn [nth] in Hf.
  replace (i + 1 + Z.of_nat j) with (i + Z.of_nat (S j)) by lia. auto.
Qed.

(** bytes of one block *)
Definition block_bytes (k : ts2kind) (first mn : Z) (ds : list Z) (payload : list Z) (width : Z) : list Z :=
  be_bytes 4 (wrapU 32 (zlen ds)) ++ be_bytes 4 (wrapU 32 width)
  ++ be_bytes (kbytes k) mn ++ be_bytes (kbytes k) first ++ payload.

Lemma map_nth_0 : forall (f : Z -> Z) l j, (j < length l)%nat -> nth j (map f l) 0 = f (nth j l 0).
Proof.
  intros. rewrite (nth_indep _ 0 (f 0)) by (rewrite map_length; auto). apply map_nth.
Qed.

Definition rel_deltas (k : ts2kind) (mn : Z) (ds : list Z) := map (fun d => wrapS (kbits k) (d - mn)) ds.

Lemma rel_pack : forall k mn ds,
  let us := rel_deltas k mn ds in
  let width := calc_width k us in
  exists payload, pack_loop k width 0 us [] = Ret payload /\ bytes payload /\
    zlen payload = (zlen ds * width + 7) / 8 /\
    forall first rest, signed_in (kbits k) first -> signed_in (kbits k) mn -> zlen ds <= 128 ->
      ts2_block (Z.of_nat (kbytes k)) (block_bytes k first mn ds payload width ++ rest)
      = Some (first :: prefix_sums (kbits k) first ds, rest).
Proof.
  intros k mn ds us width. pose proof (kbits_pos k) as Kb.
  pose proof (calc_width_range k us) as Wr. fold width in Wr.
  pose proof (calc_width_ge k us) as Wg. fold width in Wg.
  assert (Hsig : Forall (signed_in (kbits k)) us).
  { unfold us, rel_deltas. apply Forall_forall. intros x Hx. apply in_map_iff in Hx.
    destruct Hx as (d & <- & _). red. apply wrapS_range. lia. }
  assert (Hfit : Forall (fits k width) us).
  { rewrite Forall_forall in *. intros x Hx. apply width_fits; auto. split; [apply Wg; auto|lia]. }
  destruct (pack_fields k width us Wr Hfit) as (payload & HR & Hb & Hl & Hf & _).
  assert (Elen : zlen us = zlen ds) by (unfold us, rel_deltas, zlen; rewrite map_length; auto).
  exists payload. split; [exact HR|]. split; [exact Hb|]. split; [rewrite Hl, Elen; auto|].
  intros first rest H1 H2 Hn.
  pose proof (zlen_nonneg _ ds) as Hzn.
  unfold ts2_block, block_bytes. rewrite <- !app_assoc.
  change 4 with (Z.of_nat 4) at 1. rewrite be_unsigned_be_bytes.
  change 4 with (Z.of_nat 4) at 1. rewrite be_unsigned_be_bytes.
  change (256 ^ Z.of_nat 4) with (2 ^ 32).
  rewrite !(wrapU_small 32) by lia. rewrite !Z.mod_small by lia.
  assert (1 <= kbytes k)%nat by (destruct k; cbn; lia).
  rewrite be_signed_be_bytes by (rewrite <- ?kbits_bytes; auto).
  rewrite be_signed_be_bytes by (rewrite <- ?kbits_bytes; auto). rewrite <- kbits_bytes.
  rewrite take_app_n by (rewrite Hl, Elen; reflexivity).
  do 3 f_equal. replace (Z.to_nat (zlen ds)) with (length ds) by (unfold zlen; lia). fold (zlen payload).
  apply (ts2_values_spec _ _ _ _ _ ds us); [lia| | |].
  - unfold us, rel_deltas. apply map_length.
  - intros j Hj. rewrite Z.add_0_l. rewrite Hf by (unfold us, rel_deltas; rewrite map_length; auto).
    apply width_fits.
    + rewrite Forall_forall in Hsig. apply Hsig, nth_In. unfold us, rel_deltas; rewrite map_length; auto.
    + split; [|lia]. rewrite Forall_forall in Wg. apply Wg, nth_In. unfold us, rel_deltas; rewrite map_length; auto.
  - unfold us, rel_deltas. clear - Kb. induction ds; cbn; constructor; auto. apply wrapS_mod. lia.
Qed.

(** sequences of parsed pieces *)
Definition parts {A} (p : parser A) (l : list Z) (xs : list A) : Prop :=
  exists bs, l = concat bs /\ Forall2 (fun b x => b <> [] /\ forall rest, p (b ++ rest) = Some (x, rest)) bs xs.
Lemma parts_nil : forall A (p : parser A), parts p [] [].
Proof. intros. exists []. split; auto. Qed.
Lemma parts_snoc : forall A (p : parser A) l xs b x,
  parts p l xs -> b <> [] -> (forall rest, p (b ++ rest) = Some (x, rest)) -> parts p (l ++ b) (xs ++ [x]).
Proof.
  intros A p l xs b x (bs & -> & H) Hb Hp. exists (bs ++ [b]). split.
  - rewrite concat_app. cbn. rewrite app_nil_r. reflexivity.
  - apply Forall2_app; auto.
Qed.
Lemma parts_many : forall A (p : parser A) l xs fuel,
  parts p l xs -> (length l <= fuel)%nat -> many fuel p l = Some xs.
Proof.
  intros A p l xs fuel (bs & -> & H). revert fuel. induction H; intros fuel Hf.
  - destruct fuel; reflexivity.
  - destruct H as [Hne Hp]. cbn [concat] in *. rewrite app_length in Hf.
    destruct x as [|b0 b]; [congruence|].
    destruct fuel; [cbn in Hf; lia|]. cbn [many app]. 
    change (b0 :: b ++ concat l) with ((b0 :: b) ++ concat l). rewrite Hp.
    rewrite IHForall2 by (cbn in Hf; lia). reflexivity.
Qed.

(** steps *)
Lemma steps_snoc : forall l a v, steps ((l ++ [a]) ++ [v]) = steps (l ++ [a]) ++ [v - a].
Proof.
  induction l; intros; [reflexivity|]. destruct l as [|b l]; [reflexivity|].
  cbn [app steps] in *. f_equal. apply IHl.
Qed.
Lemma steps_app_in : forall a b d, In d (steps a) -> In d (steps (a ++ b)).
Proof.
  induction a as [|x a IH]; cbn; intros b d H; [tauto|]. destruct a as [|y a]; [cbn in H; tauto|].
  cbn [app] in *. destruct H as [H|H]; [left; auto|]. right. apply (IH b d H).
Qed.
Lemma steps_length : forall l, length (steps l) = (length l - 1)%nat.
Proof. induction l as [|a [|b l] IH]; cbn in *; auto. rewrite IH. lia. Qed.
Lemma prefix_sums_steps : forall bits l a, 1 <= bits -> Forall (signed_in bits) l ->
  prefix_sums bits a (steps (a :: l)) = l.
Proof.
  induction l as [|b l IH]; intros a Hb H; [reflexivity|]. inversion H; subst.
  cbn [steps prefix_sums]. replace (a + (b - a)) with b by lia.
  rewrite sgn_wrapS, wrapS_small by (auto; lia). f_equal. apply (IH b); auto.
Qed.
Lemma prefix_sums_wrap : forall bits ds prev, 1 <= bits ->
  prefix_sums bits prev (map (wrapS bits) ds) = prefix_sums bits prev ds.
Proof.
  induction ds; intros; [reflexivity|]. cbn [map prefix_sums].
  assert (E : sgn bits (prev + wrapS bits a) = sgn bits (prev + a)).
  { apply sgn_eq; auto. apply sgn_range; auto. rewrite sgn_mod by auto.
    pose proof (pow2_pos bits ltac:(lia)).
    rewrite <- (Z.add_mod_idemp_r prev (wrapS bits a)), wrapS_mod by lia.
    rewrite Z.add_mod_idemp_r by lia. reflexivity. }
  rewrite E. f_equal. auto.
Qed.

(** the smallest delta tracked by the encoder *)
Definition min_of (k : ts2kind) (ds : list Z) : Z := fold_left (fun m d => if d <? m then d else m) ds (kmax k).
Lemma min_of_snoc : forall k ds d, min_of k (ds ++ [d]) = if d <? min_of k ds then d else min_of k ds.
Proof. intros. unfold min_of. rewrite fold_left_app. reflexivity. Qed.
Lemma min_of_spec : forall k ds, Forall (signed_in (kbits k)) ds ->
  Forall (fun d => min_of k ds <= d) ds /\ signed_in (kbits k) (min_of k ds) /\ (ds <> [] -> In (min_of k ds) ds).
Proof.
  intros k ds. pose proof (kbits_pos k) as Kb. pose proof (pow2_pos (kbits k - 1) ltac:(lia)) as P.
  induction ds using rev_ind; intros H.
  - split; [constructor|]. split; [|congruence]. unfold min_of, kmax, signed_in. cbn. lia.
  - apply Forall_app in H. destruct H as [H1 H2]. inversion H2; subst.
    destruct (IHds H1) as (A & B & C). rewrite min_of_snoc.
    destruct (x <? min_of k ds) eqn:E.
    + split; [|split; [auto|]].
      * apply Forall_app. split; [|repeat constructor; lia]. eapply Forall_impl; [|exact A]. cbn; intros; lia.
      * intros _. apply in_or_app. right. left. reflexivity.
    + split; [|split; [auto|]].
      * apply Forall_app. split; [auto|repeat constructor; lia].
      * intros _. apply in_or_app. destruct ds; [|left; apply C; discriminate].
        right. left. unfold min_of, kmax, signed_in in *. cbn [fold_left] in *. lia.
Qed.

Definition okd (p : profile) (k : ts2kind) (l : list Z) : Prop := p = Release \/ steps_fit (kbits k) l.
Definition full_ok (p : profile) (k : ts2kind) (l : list Z) : Prop := p = Release \/ block_fits (kbits k) l.

(** state of the encoder after the finished blocks [done] and the current block [cur] *)
Record ts2_rep (p : profile) (k : ts2kind) (e : ts2) (done : list (list Z)) (cur : list Z) : Prop := {
  r_first : t_first e = hd_error cur;
  r_vals : t_values e = map (wrapS (kbits k)) (steps cur);
  r_min : t_min e = min_of k (t_values e);
  r_prev : cur <> [] -> t_prev e = last cur 0;
  r_len : (length cur <= 128)%nat;
  r_cur : Forall (signed_in (kbits k)) cur;
  r_okd : okd p k cur;
  r_done : Forall (full_ok p k) done;
  r_dlen : Forall (fun b => length b = 129%nat) done;
  r_buf : parts (ts2_block (Z.of_nat (kbytes k))) (t_buf e) done }.

Lemma rep_new : forall p k, ts2_rep p k (ts2_new k) [] [].
Proof.
  intros. split; cbn; auto; try lia; try congruence.
  - right. constructor.
  - apply parts_nil.
Qed.

Lemma wrap_steps_signed : forall k l, Forall (signed_in (kbits k)) (map (wrapS (kbits k)) (steps l)).
Proof.
  intros. pose proof (kbits_pos k). apply Forall_forall. intros x Hx. apply in_map_iff in Hx.
  destruct Hx as (d & <- & _). red. apply wrapS_range. lia.
Qed.
Lemma wrap_steps_id : forall k l, steps_fit (kbits k) l -> map (wrapS (kbits k)) (steps l) = steps l.
Proof.
  intros k l H. pose proof (kbits_pos k). red in H. induction H; cbn; auto.
  rewrite wrapS_small by (auto; lia). f_equal. auto.
Qed.

(** [flush] of a non-empty block *)
Lemma flush_spec : forall p k e done cur, ts2_rep p k e done cur \/
    (exists v cur0, cur = cur0 ++ [v] /\ (length cur = 129)%nat /\
       t_first e = hd_error cur /\ t_values e = map (wrapS (kbits k)) (steps cur) /\
       t_min e = min_of k (t_values e) /\ Forall (signed_in (kbits k)) cur /\ okd p k cur /\
       Forall (full_ok p k) done /\ Forall (fun b => length b = 129%nat) done /\
       parts (ts2_block (Z.of_nat (kbytes k))) (t_buf e) done) ->
  cur <> [] ->
  (full_ok p k cur -> exists e', ts2_flush p k e = Ret e') /\
  (forall e', ts2_flush p k e = Ret e' ->
     full_ok p k cur /\
     t_first e' = None /\ t_values e' = [] /\ t_min e' = kmax k /\
     parts (ts2_block (Z.of_nat (kbytes k))) (t_buf e') (done ++ [cur])).
Proof.
  intros p k e done cur H Hne. pose proof (kbits_pos k) as Kb.
  assert (F : t_first e = hd_error cur /\ t_values e = map (wrapS (kbits k)) (steps cur) /\
       t_min e = min_of k (t_values e) /\ Forall (signed_in (kbits k)) cur /\ okd p k cur /\
       parts (ts2_block (Z.of_nat (kbytes k))) (t_buf e) done /\ (length cur <= 129)%nat).
  { destruct H as [[]|(v & c0 & E & L & A & B & C & D & E1 & F1 & G & I)].
    - repeat (split; auto). 
    - repeat (split; auto). lia. }
  clear H. destruct F as (F1 & F2 & F3 & F4 & F5 & F6 & F7).
  destruct cur as [|f cur]; [congruence|]. cbn [hd_error] in F1.
  pose proof (wrap_steps_signed k (f :: cur)) as Hsig. rewrite <- F2 in Hsig.
  destruct (min_of_spec k (t_values e) Hsig) as (Mle & Msig & Min). rewrite <- F3 in *.
  assert (Hlen : zlen (t_values e) <= 128).
  { unfold zlen. rewrite F2, map_length, steps_length. cbn [length] in *. lia. }
  destruct (rel_pack k (t_min e) (t_values e)) as (payload & HP & Hpb & Hpl & Hdec).
  unfold ts2_flush. rewrite F1.
  assert (EQ : forall r, mapM (fun d => arithS p (kbits k) (d - t_min e)) (t_values e) = Ret r ->
                 r = rel_deltas k (t_min e) (t_values e)).
  { intros r Hr. unfold rel_deltas. eapply mapM_inv; [|exact Hr]. cbn. intros a b _ Hab.
    eapply arithS_inv; [|exact Hab]. lia. }
  split.
  - intros Hok.
    assert (M : exists r, mapM (fun d => arithS p (kbits k) (d - t_min e)) (t_values e) = Ret r).
    { destruct Hok as [->|[Hs Hd]].
      - eexists. apply mapM_ok with (g := fun d => wrapS (kbits k) (d - t_min e)). intros. apply arithS_release. lia.
      - eexists. apply mapM_ok with (g := fun d => d - t_min e). intros d Hin. apply arithS_ok.
        rewrite F2, wrap_steps_id in Hin, Min by auto.
        assert (steps (f :: cur) <> []) by (intros E0; rewrite E0 in Hin; destruct Hin).
        apply Hd; auto. }
    destruct M as [r Hr]. rewrite Hr. pose proof (EQ _ Hr). subst r. cbn [bind].
    rewrite HP. cbn [bind]. eauto.
  - intros e' He'. apply bind_ret in He'. destruct He' as (r & Hm & He'). pose proof (EQ _ Hm) as ->. rewrite HP in He'. cbn [bind] in He'.
    apply ret_inj in He'. subst e'. cbn [t_first t_values t_min t_buf].
    split; [|repeat split; auto].
    + destruct p; [|left; reflexivity]. right.
      destruct F5 as [F5|F5]; [discriminate|]. split; [exact F5|].
      rewrite F2, wrap_steps_id in Hm, Mle, Min by auto.
      intros d d' Hd Hd'. red in F5. rewrite Forall_forall in F5, Mle.
      assert (K : forall x, In x (steps (f :: cur)) -> signed_in (kbits k) (x - t_min e)).
      { clear - Hm Kb. revert Hm. generalize (rel_deltas k (t_min e) (steps (f :: cur))).
        generalize (steps (f :: cur)). induction l; cbn; intros r Hm x Hx; [tauto|].
        apply bind_ret in Hm. destruct Hm as (r0 & Hm0 & Hm).
        apply bind_ret in Hm. destruct Hm as (r1 & Hm & Hr). destruct Hx as [<-|Hx]; [|eapply IHl; eauto].
        unfold arithS in Hm0. destruct ((- 2 ^ (kbits k - 1) <=? a - t_min e) && (a - t_min e <? 2 ^ (kbits k - 1))) eqn:E; [|discriminate].
        red. lia. }
      pose proof (K d Hd) as K1. pose proof (K d' Hd') as K2.
      pose proof (Mle d Hd). pose proof (Mle d' Hd').
      unfold signed_in in *. lia.
    + apply parts_snoc; auto.
      * cbn. discriminate.
      * intros rest. fold (block_bytes k f (t_min e) (t_values e) payload (calc_width k (rel_deltas k (t_min e) (t_values e)))). rewrite Hdec; auto.
        -- do 3 f_equal. rewrite F2, prefix_sums_wrap by lia. apply prefix_sums_steps; [lia|].
           inversion F4; auto.
        -- inversion F4; auto.
Qed.

Lemma last_snoc : forall A (l : list A) a d, last (l ++ [a]) d = a.
Proof. induction l; intros; [reflexivity|]. cbn [app last]. destruct l; [reflexivity|]. apply IHl. Qed.

Lemma steps_fit_app : forall b l r, steps_fit b (l ++ r) -> steps_fit b l.
Proof.
  intros b l r H. unfold steps_fit in *. rewrite Forall_forall in *. intros x Hx. apply H, steps_app_in, Hx.
Qed.
Lemma okd_app : forall p k l r, okd p k (l ++ r) -> okd p k l.
Proof. intros p k l r [H|H]; [left; auto|right; eapply steps_fit_app; eauto]. Qed.
Lemma full_okd : forall p k l r, full_ok p k (l ++ r) -> okd p k l.
Proof. intros p k l r [H|[H _]]; [left; auto|right; eapply steps_fit_app; eauto]. Qed.

Lemma write_spec : forall p k e done cur v, ts2_rep p k e done cur -> signed_in (kbits k) v ->
  (okd p k (cur ++ [v]) -> (length cur = 128%nat -> full_ok p k (cur ++ [v])) ->
     exists e', ts2_write p k v e = Ret e') /\
  (forall e', ts2_write p k v e = Ret e' ->
     (length cur < 128 /\ ts2_rep p k e' done (cur ++ [v]))%nat \/
     (length cur = 128 /\ ts2_rep p k e' (done ++ [cur ++ [v]]) [])%nat).
Proof.
  intros p k e done cur0 v R Hv. destruct R. pose proof (kbits_pos k) as Kb.
  unfold ts2_write.
  destruct cur0 as [|f cur] eqn:Ecur.
  - cbn [hd_error] in r_first0. rewrite r_first0. cbn [bind t_values].
    replace (zlen (t_values e) =? 128) with false by (rewrite r_vals0; reflexivity).
    split; [eauto|]. intros e' He'. left. apply ret_inj in He'. subst e'. split; [cbn; lia|].
    split; cbn [t_first t_values t_min t_prev t_buf app hd_error length]; auto; try lia.
  - remember (f :: cur) as c1 eqn:Ec1. clear Ecur cur0. rename c1 into cur0. rename Ec1 into Ecur. assert (Hne : cur0 <> []) by (subst; discriminate).
    assert (Hf : t_first e = Some f) by (rewrite r_first0, Ecur; reflexivity). rewrite Hf.
    destruct (exists_last Hne) as (c0 & a & Ec).
    assert (Hprev : t_prev e = a) by (rewrite r_prev0, Ec by auto; apply last_snoc).
    assert (Hst : steps (cur0 ++ [v]) = steps cur0 ++ [v - a]) by (rewrite Ec; apply steps_snoc).
    rewrite Hprev.
    assert (Hlen1 : length (t_values e) = (length cur0 - 1)%nat) by (rewrite r_vals0, map_length, steps_length; reflexivity).
    assert (Hlen2 : (1 <= length cur0)%nat) by (rewrite Ec, app_length; cbn; lia).
    (* facts about the updated state *)
    assert (NEW : forall delta e1, arithS p (kbits k) (v - a) = Ret delta ->
      e1 = {| t_first := Some f; t_min := if delta <? t_min e then delta else t_min e; t_prev := v;
              t_values := t_values e ++ [delta]; t_buf := t_buf e |} ->
      t_first e1 = hd_error (cur0 ++ [v]) /\ t_values e1 = map (wrapS (kbits k)) (steps (cur0 ++ [v])) /\
      t_min e1 = min_of k (t_values e1) /\ Forall (signed_in (kbits k)) (cur0 ++ [v]) /\ okd p k (cur0 ++ [v]) /\
      length (t_values e1) = length cur0 /\ t_prev e1 = v /\ t_buf e1 = t_buf e).
    { intros delta e1 Hd ->. cbn [t_first t_values t_min t_prev t_buf].
      pose proof (arithS_inv p (kbits k) (v - a) delta ltac:(lia) Hd) as Hdw.
      split; [rewrite Ecur; reflexivity|].
      split; [rewrite Hst, map_app, r_vals0, Hdw; reflexivity|].
      split; [rewrite min_of_snoc, r_min0; reflexivity|].
      split; [apply Forall_app; auto|].
      split.
      - destruct p; [|left; reflexivity]. right. destruct r_okd0 as [?|Hs]; [discriminate|].
        unfold steps_fit in *. rewrite Hst. apply Forall_app. split; auto. constructor; [|constructor].
        unfold arithS in Hd. destruct ((- 2 ^ (kbits k - 1) <=? v - a) && (v - a <? 2 ^ (kbits k - 1))) eqn:E; [|discriminate].
        red. lia.
      - split; [rewrite app_length, Hlen1; cbn; lia|]. auto. }
    split.
    + intros Hok Hfull.
      assert (D : exists delta, arithS p (kbits k) (v - a) = Ret delta).
      { destruct Hok as [->|Hs].
        - eexists. apply arithS_release. lia.
        - eexists. apply arithS_ok. unfold steps_fit in Hs. rewrite Hst in Hs. apply Forall_app in Hs.
          destruct Hs as [_ Hs]. inversion Hs. auto. }
      destruct D as [delta Hd]. rewrite Hd. cbn [bind].
      match goal with |- context [ts2_flush p k ?x] => remember x as e1 eqn:E1 end.
      destruct (NEW delta e1 Hd) as (A & B & C & D & E & F & G & H); [rewrite E1, ?Hf; reflexivity|].
      destruct (zlen (t_values e1) =? 128) eqn:EZ; [|eauto].
      assert (length cur0 = 128%nat) by (unfold zlen in EZ; lia).
      destruct (flush_spec p k e1 done (cur0 ++ [v])) as [FL _].
      * right. exists v, cur0. rewrite H. repeat (split; auto). rewrite app_length; cbn; lia.
      * intros X. apply (f_equal (@length Z)) in X. rewrite app_length in X. cbn in X. lia.
      * apply FL. auto.
    + intros e' He'. apply bind_ret in He'. destruct He' as (e1 & He1 & He').
      apply bind_ret in He1. destruct He1 as (delta & Hd & He1). apply ret_inj in He1.
      destruct (NEW delta e1 Hd) as (A & B & C & D & E & F & G & H); [rewrite <- He1, ?Hf; reflexivity|].
      destruct (zlen (t_values e1) =? 128) eqn:EZ.
      * assert (L128 : length cur0 = 128%nat) by (unfold zlen in EZ; lia). right. split; [auto|].
        destruct (flush_spec p k e1 done (cur0 ++ [v])) as [_ FL].
        -- right. exists v, cur0. rewrite H. repeat (split; auto). rewrite app_length; cbn; lia.
        -- intros X. apply (f_equal (@length Z)) in X. rewrite app_length in X. cbn in X. lia.
        -- destruct (FL e' He') as (F1 & F2 & F3 & F4 & F5).
           split; auto; cbn; try congruence; try lia; auto.
           ++ rewrite F4, F3. reflexivity.
           ++ right. constructor.
           ++ apply Forall_app. auto.
           ++ apply Forall_app. split; auto. constructor; [|constructor]. rewrite app_length; cbn; lia.
      * apply ret_inj in He'. subst e'. unfold zlen in EZ. left. split; [lia|].
        split; auto; rewrite ?H; auto.
        -- intros _. rewrite G. symmetry. apply last_snoc.
        -- rewrite app_length. cbn. lia.
Qed.

(** a whole column *)

Lemma write_all_sound : forall p k vs e done cur e', ts2_rep p k e done cur ->
  Forall (signed_in (kbits k)) vs -> ts2_write_all p k vs e = Ret e' ->
  exists done' cur', ts2_rep p k e' done' cur' /\ concat done' ++ cur' = concat done ++ cur ++ vs.
Proof.
  unfold ts2_write_all. induction vs as [|v vs IH]; cbn [foldM]; intros e done cur e' R Hv H.
  - apply ret_inj in H. subst e'. exists done, cur. rewrite app_nil_r. auto.
  - inversion Hv; subst. apply bind_ret in H. destruct H as (e1 & H1 & H).
    destruct (write_spec p k e done cur v R ltac:(auto)) as [_ W].
    destruct (W e1 H1) as [[L R1]|[L R1]].
    + destruct (IH _ _ _ _ R1 ltac:(auto) H) as (d' & c' & R' & E). exists d', c'. split; auto.
      rewrite E, <- app_assoc. reflexivity.
    + destruct (IH _ _ _ _ R1 ltac:(auto) H) as (d' & c' & R' & E). exists d', c'. split; auto.
      rewrite E, concat_app. cbn [concat app]. rewrite app_nil_r, <- !app_assoc. reflexivity.
Qed.

Lemma chop_nil : forall A n, chop n (@nil A) = [].
Proof. reflexivity. Qed.
Lemma chop_fuel_enough : forall A n f (l : list A), (1 <= n)%nat -> (length l <= f)%nat -> chop_fuel f n l = chop n l.
Proof.
  intros A n f. unfold chop. induction f as [f IH] using lt_wf_ind. intros l Hn Hl.
  destruct f; destruct l; cbn [length] in *; try lia; try reflexivity.
  cbn [chop_fuel]. f_equal.
  assert (length (skipn n (a :: l)) <= length l)%nat by (rewrite skipn_length; cbn [length]; lia).
  rewrite (IH f ltac:(lia)) by (auto; lia).
  destruct (Nat.eq_dec (length l) f) as [->|]; [rewrite (IH f) by (auto; lia); reflexivity|].
  rewrite (IH (length l)) by (auto; lia). reflexivity.
Qed.
Lemma chop_app : forall A n (b : list A) r, (1 <= n)%nat -> length b = n -> chop n (b ++ r) = b :: chop n r.
Proof.
  intros A n b r Hn Hb. unfold chop at 1. destruct b as [|x b]; [cbn in Hb; lia|].
  cbn [app length chop_fuel]. change (x :: b ++ r) with ((x :: b) ++ r).
  rewrite firstn_app, firstn_all2, skipn_app, skipn_all2 by lia. rewrite Hb, Nat.sub_diag. cbn [firstn skipn app].
  rewrite app_nil_r. f_equal. apply chop_fuel_enough; auto. rewrite app_length. lia.
Qed.
Lemma chop_short : forall A n (b : list A), b <> [] -> (length b <= n)%nat -> chop n b = [b].
Proof.
  intros A n b Hb Hl. unfold chop. destruct b as [|x b]; [congruence|]. cbn [length chop_fuel].
  rewrite firstn_all2, skipn_all2 by (cbn in *; lia). destruct (length b); reflexivity.
Qed.
Lemma chop_concat : forall A n (bs : list (list A)) r, (1 <= n)%nat -> Forall (fun b => length b = n) bs ->
  chop n (concat bs ++ r) = bs ++ chop n r.
Proof.
  intros A n bs r Hn H. induction H; [reflexivity|]. cbn [concat app].
  rewrite <- app_assoc, chop_app by auto. f_equal. auto.
Qed.

Lemma chop_first : forall A n (b : list A) r, (1 <= n)%nat -> b <> [] -> (length b <= n)%nat ->
  exists s t, chop n (b ++ r) = (b ++ s) :: t.
Proof.
  intros A n b r Hn Hb Hl. unfold chop. destruct b as [|x b]; [congruence|].
  cbn [app length chop_fuel]. change (x :: b ++ r) with ((x :: b) ++ r).
  rewrite firstn_app, firstn_all2 by lia. eexists; eexists; reflexivity.
Qed.

Lemma write_all_complete : forall p k vs e done cur, ts2_rep p k e done cur ->
  Forall (signed_in (kbits k)) vs ->
  Forall (full_ok p k) (chop 129 (cur ++ vs)) ->
  exists e', ts2_write_all p k vs e = Ret e'.
Proof.
  unfold ts2_write_all. induction vs as [|v vs IH]; cbn [foldM]; intros e done cur R Hv H; [eauto|].
  inversion Hv; subst. pose proof (r_len _ _ _ _ _ R) as Hlen.
  replace (cur ++ v :: vs) with ((cur ++ [v]) ++ vs) in H by (rewrite <- app_assoc; reflexivity).
  assert (Hne : cur ++ [v] <> []) by (intros X; apply app_eq_nil in X; destruct X; discriminate).
  assert (Hl1 : length (cur ++ [v]) = S (length cur)) by (rewrite app_length; cbn; lia).
  destruct (write_spec p k e done cur v R ltac:(auto)) as [W1 W2].
  destruct W1 as [e1 He1].
  - destruct (chop_first _ 129 (cur ++ [v]) vs ltac:(lia) Hne ltac:(lia)) as (s & t & E). rewrite E in H.
    inversion H; subst. eapply full_okd; eauto.
  - intros L. rewrite chop_app in H by lia. inversion H; auto.
  - rewrite He1. cbn [bind]. destruct (W2 e1 He1) as [[L R1]|[L R1]].
    + eapply IH; eauto.
    + eapply (IH _ _ [] R1); eauto. cbn [app]. rewrite chop_app in H by lia. inversion H; auto.
Qed.

(** serialize of a column *)

Lemma rep_serialize : forall p k e done cur e' bytes, ts2_rep p k e done cur ->
  ts2_serialize p k e = Ret (e', bytes) ->
  ts2_decode (Z.of_nat (kbytes k)) bytes = Some (concat done ++ cur).
Proof.
  intros p k e done cur e' bytes R H. unfold ts2_serialize in H. apply bind_ret in H.
  destruct H as (e1 & H1 & H). apply ret_inj in H. inversion H; subst. clear H.
  unfold ts2_decode. destruct cur as [|f cur].
  - unfold ts2_flush in H1. rewrite (r_first _ _ _ _ _ R) in H1. cbn in H1. apply ret_inj in H1. subst e'.
    rewrite (parts_many _ _ _ done); [|apply R|lia]. rewrite app_nil_r. reflexivity.
  - destruct (flush_spec p k e done (f :: cur)) as [_ F]; [left; auto|discriminate|].
    destruct (F e' H1) as (_ & _ & _ & _ & P). rewrite (parts_many _ _ _ _ _ P) by lia.
    rewrite concat_app. cbn. rewrite app_nil_r. reflexivity.
Qed.

Lemma ts2_roundtrip : forall p k vs bytes, Forall (signed_in (kbits k)) vs ->
  ts2_encode p k vs = Ret bytes -> ts2_decode (Z.of_nat (kbytes k)) bytes = Some vs.
Proof.
  intros p k vs bytes Hv H. unfold ts2_encode in H. apply bind_ret in H. destruct H as (e & He & H).
  apply bind_ret in H. destruct H as ([e' b] & Hs & H). apply ret_inj in H. cbn in H. subst b.
  destruct (write_all_sound p k vs _ [] [] e (rep_new p k) Hv He) as (d & c & R & E).
  rewrite (rep_serialize _ _ _ _ _ _ _ R Hs), E. reflexivity.
Qed.

Lemma rep_chop : forall p k e done cur, ts2_rep p k e done cur ->
  chop 129 (concat done ++ cur) = done ++ match cur with [] => [] | _ => [cur] end.
Proof.
  intros p k e done cur R. rewrite chop_concat by (try lia; apply R). f_equal.
  destruct cur; [reflexivity|]. apply chop_short; [discriminate|]. pose proof (r_len _ _ _ _ _ R). lia.
Qed.

Lemma ts2_total_iff : forall p k vs, Forall (signed_in (kbits k)) vs ->
  ((exists bytes, ts2_encode p k vs = Ret bytes) <-> Forall (full_ok p k) (chop 129 vs)).
Proof.
  intros p k vs Hv. split.
  - intros [b H]. unfold ts2_encode in H. apply bind_ret in H. destruct H as (e & He & H).
    apply bind_ret in H. destruct H as ([e' b'] & Hs & _).
    destruct (write_all_sound p k vs _ [] [] e (rep_new p k) Hv He) as (d & c & R & E).
    cbn [concat app] in E. rewrite <- E, (rep_chop _ _ _ _ _ R). apply Forall_app. split; [apply R|].
    destruct c as [|f c]; constructor; auto.
    unfold ts2_serialize in Hs. apply bind_ret in Hs. destruct Hs as (e1 & H1 & _).
    destruct (flush_spec p k e d (f :: c)) as [_ F]; [left; auto|discriminate|]. apply (F e1 H1).
  - intros H. destruct (write_all_complete p k vs _ [] [] (rep_new p k) Hv H) as [e He].
    destruct (write_all_sound p k vs _ [] [] e (rep_new p k) Hv He) as (d & c & R & E).
    cbn [concat app] in E. rewrite <- E, (rep_chop _ _ _ _ _ R) in H. apply Forall_app in H. destruct H as [_ H].
    unfold ts2_encode. rewrite He. cbn [bind]. unfold ts2_serialize.
    destruct c as [|f c].
    + unfold ts2_flush. rewrite (r_first _ _ _ _ _ R). cbn. eauto.
    + inversion H; subst. destruct (flush_spec p k e d (f :: c)) as [F _]; [left; auto|discriminate|].
      destruct (F ltac:(auto)) as [e1 E1]. rewrite E1. cbn. eauto.
Qed.

(** checked and unchecked builds agree whenever the checked one does not panic *)
Lemma arithS_mono : forall n v r, 1 <= n -> arithS Debug n v = Ret r -> arithS Release n v = Ret r.
Proof. intros n v r Hn H. rewrite (arithS_inv _ _ _ _ Hn H). apply arithS_release. auto. Qed.
Lemma mapM_mono : forall A B (f g : A -> outcome B) l r, (forall a b, f a = Ret b -> g a = Ret b) ->
  mapM f l = Ret r -> mapM g l = Ret r.
Proof.
  induction l; cbn; intros r H M; auto. apply bind_ret in M. destruct M as (b & Hb & M).
  apply bind_ret in M. destruct M as (bs & Hbs & M). rewrite (H _ _ Hb). cbn. rewrite (IHl _ H Hbs). auto.
Qed.
Lemma foldM_mono : forall A S (f g : S -> A -> outcome S) l s r, (forall s a b, f s a = Ret b -> g s a = Ret b) ->
  foldM f l s = Ret r -> foldM g l s = Ret r.
Proof.
  induction l; cbn; intros s r H M; auto. apply bind_ret in M. destruct M as (b & Hb & M).
  rewrite (H _ _ _ Hb). cbn. eauto.
Qed.
Lemma ts2_flush_mono : forall k e e', ts2_flush Debug k e = Ret e' -> ts2_flush Release k e = Ret e'.
Proof.
  intros k e e' H. unfold ts2_flush in *. destruct (t_first e); auto.
  apply bind_ret in H. destruct H as (ds & Hd & H).
  rewrite (mapM_mono _ _ _ (fun d => arithS Release (kbits k) (d - t_min e)) _ _
             (fun a b => arithS_mono (kbits k) (a - t_min e) b (proj1 (kbits_pos k))) Hd). exact H.
Qed.
Lemma ts2_write_mono : forall k v e e', ts2_write Debug k v e = Ret e' -> ts2_write Release k v e = Ret e'.
Proof.
  intros k v e e' H. unfold ts2_write in *. apply bind_ret in H. destruct H as (e1 & H1 & H).
  assert (H1' : match t_first e with
    | None => Ret {| t_first := Some v; t_min := t_min e; t_prev := v; t_values := t_values e; t_buf := t_buf e |}
    | Some _ => let* delta := arithS Release (kbits k) (v - t_prev e) in
        Ret {| t_first := t_first e; t_min := if delta <? t_min e then delta else t_min e; t_prev := v;
               t_values := t_values e ++ [delta]; t_buf := t_buf e |} end = Ret e1).
  { destruct (t_first e); auto. apply bind_ret in H1. destruct H1 as (d & Hd & H1).
    rewrite (arithS_mono (kbits k) (v - t_prev e) d ltac:(pose proof (kbits_pos k); lia) Hd). auto. }
  rewrite H1'. cbn [bind]. destruct (zlen (t_values e1) =? 128); auto. apply ts2_flush_mono; auto.
Qed.
Lemma ts2_serialize_mono : forall k e r, ts2_serialize Debug k e = Ret r -> ts2_serialize Release k e = Ret r.
Proof.
  intros k e r H. unfold ts2_serialize in *. apply bind_ret in H. destruct H as (e1 & H1 & H).
  rewrite (ts2_flush_mono _ _ _ H1). auto.
Qed.
Lemma ts2_encode_mono : forall k vs b, ts2_encode Debug k vs = Ret b -> ts2_encode Release k vs = Ret b.
Proof.
  intros k vs b H. unfold ts2_encode in *. apply bind_ret in H. destruct H as (e1 & H1 & H).
  apply bind_ret in H. destruct H as (r & H2 & H).
  unfold ts2_write_all in *. rewrite (foldM_mono _ _ _ (fun e v => ts2_write Release k v e) _ _ _ (fun e v e' => ts2_write_mono k v e e') H1).
  cbn [bind]. rewrite (ts2_serialize_mono _ _ _ H2). auto.
Qed.

Lemma ts2_release_total : forall k vs, Forall (signed_in (kbits k)) vs -> exists bytes, ts2_encode Release k vs = Ret bytes.
Proof.
  intros. apply ts2_total_iff; auto. apply Forall_forall. left. reflexivity.
Qed.

(** strictly increasing non-negative timestamps never overflow *)
Lemma steps_increasing : forall l, StronglySorted Z.lt l -> Forall (fun t => 0 <= t <= i64_max) l ->
  Forall (fun d => 0 < d <= i64_max) (steps l).
Proof.
  induction l as [|a [|b l] IH]; intros S R; try constructor.
  - inversion S as [|? ? S1 F]; subst. inversion F; subst. inversion R as [|? ? Ra Rr]; subst.
    inversion Rr; subst. lia.
  - inversion S; subst. inversion R; subst. apply IH; auto.
Qed.
Lemma sorted_skipn : forall n l, StronglySorted Z.lt l -> StronglySorted Z.lt (skipn n l).
Proof. induction n; intros l H; [auto|]. destruct l; [auto|]. cbn. inversion H; auto. Qed.
Lemma sorted_firstn : forall n l, StronglySorted Z.lt l -> StronglySorted Z.lt (firstn n l).
Proof.
  induction n; intros l H; [constructor|]. destruct l; [constructor|]. cbn. inversion H; subst.
  constructor; auto. rewrite Forall_forall in *. intros x Hx. apply H3.
  rewrite <- (firstn_skipn n l). apply in_or_app. auto.
Qed.
Lemma chop_forall : forall A (P : list A -> Prop) n l, (forall l m, P l -> P (firstn m l)) ->
  (forall l m, P l -> P (skipn m l)) -> P l -> Forall P (chop n l).
Proof.
  intros A P n l H1 H2 H. unfold chop. generalize (length l). intros f. revert l H.
  induction f; intros l H; [constructor|]. destruct l as [|a l]; [constructor|].
  cbn [chop_fuel]. constructor; auto.
Qed.
Lemma time_full_ok : forall p l, StronglySorted Z.lt l -> Forall (fun t => 0 <= t <= i64_max) l ->
  Forall (full_ok p KLong) (chop 129 l).
Proof.
  intros p l S R.
  apply Forall_impl with (P := fun l => StronglySorted Z.lt l /\ Forall (fun t => 0 <= t <= i64_max) l).
  - clear. intros l [S R]. right. pose proof (steps_increasing l S R) as H. rewrite Forall_forall in H.
    unfold i64_max in H. split.
    + apply Forall_forall. intros x Hx. specialize (H x Hx). red. cbn [kbits]. lia.
    + intros d d' Hd Hd'. pose proof (H d Hd). pose proof (H d' Hd'). red. cbn [kbits]. lia.
  - apply chop_forall; [| |auto].
    + intros l0 m [A B]. split; [apply sorted_firstn; auto|].
      rewrite Forall_forall in *. intros x Hx. apply B. rewrite <- (firstn_skipn m l0). apply in_or_app; auto.
    + intros l0 m [A B]. split; [apply sorted_skipn; auto|].
      rewrite Forall_forall in *. intros x Hx. apply B. rewrite <- (firstn_skipn m l0). apply in_or_app; auto.
Qed.
