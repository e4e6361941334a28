(** Devices with more than 65536 series: the internal index node (C23, C53). *)
From Verif Require Export PIndex.
Ltac Zify.zify_post_hook ::= idtac.

(** ** [generate_root_node] is total; with two nodes or more it makes one node all of whose entries point to
    the same place *)
Definition has_child (n : index_node) : Prop := in_children n <> [].
Definition points_to (pos : Z) (t : node_type) (n : index_node) : Prop :=
  in_type n = t /\ in_children n <> [] /\ Forall (fun e => ie_offset e = pos) (in_children n).

Lemma root_round_ok : forall deg pos t (P : str -> Prop), (1 <= deg)%nat -> forall n queue cur, (n <= length queue)%nat -> Forall has_child queue -> Forall (fun q => Forall (fun e => P (ie_name e)) (in_children q)) queue ->
  in_type cur = t -> Forall (fun e => ie_offset e = pos) (in_children cur) -> Forall (fun e => P (ie_name e)) (in_children cur) ->
  exists queue' cur', root_round deg pos n queue cur = Ret (queue', cur') /\ Forall has_child queue' /\ Forall (fun q => Forall (fun e => P (ie_name e)) (in_children q)) queue' /\ in_type cur' = t /\
    Forall (fun e => ie_offset e = pos) (in_children cur') /\ Forall (fun e => P (ie_name e)) (in_children cur') /\ length (in_children cur') = (length (in_children cur) + n)%nat /\
    (length queue' + Nat.min n (deg - length (in_children cur)) <= length queue)%nat.
Proof.
  intros deg pos t P D. induction n as [|n IH]; intros queue cur L F FP T C CP; cbn [root_round].
  - exists queue, cur. repeat (split; [auto|]). lia.
  - assert (Q : queue <> []) by (intros ->; cbn in L; lia). destruct (exists_last Q) as (rest & node & ->). rewrite rev_app_distr. cbn [rev app].
    rewrite app_length in L. cbn [length] in L. apply Forall_app in F. destruct F as [F1 F2]. pose proof (Forall_inv F2) as HC. apply Forall_app in FP. destruct FP as [FP1 FP2]. pose proof (Forall_inv FP2) as HP. cbv beta in HP.
    destruct (in_children node) as [|c0 cs] eqn:E; [elim HC; exact E|]. rewrite rev_involutive. pose proof (Forall_inv HP) as H0. cbv beta in H0.
    unfold is_full. destruct (Nat.leb_spec deg (length (in_children cur))) as [Fu|Fu].
    + destruct (IH (rest ++ [with_end pos cur]) (push_child (mkIE (ie_name c0) pos) (with_end pos cur))) as (q' & c' & R & A1 & A2 & A3 & A4 & A5 & A6 & A7).
      * rewrite app_length. cbn [length]. lia.
      * apply Forall_app. split; [exact F1|]. apply Forall_cons; [|apply Forall_nil]. unfold has_child. cbn [with_end in_children]. intros X. rewrite X in Fu. cbn in Fu. lia.
      * apply Forall_app. split; [exact FP1|]. apply Forall_cons; [exact CP|apply Forall_nil].
      * exact T.
      * cbn [push_child with_end in_children]. apply Forall_app. split; [exact C|]. apply Forall_cons; [reflexivity|apply Forall_nil].
      * cbn [push_child with_end in_children]. apply Forall_app. split; [exact CP|]. apply Forall_cons; [exact H0|apply Forall_nil].
      * exists q', c'. split; [exact R|]. repeat (split; [assumption|]). cbn [push_child with_end in_children] in *. rewrite !app_length in A6; rewrite !app_length in A7; rewrite ?app_length. cbn [length] in *. split; lia.
    + destruct (IH rest (push_child (mkIE (ie_name c0) pos) cur)) as (q' & c' & R & A1 & A2 & A3 & A4 & A5 & A6 & A7).
      * lia.
      * exact F1.
      * exact FP1.
      * exact T.
      * cbn [push_child in_children]. apply Forall_app. split; [exact C|]. apply Forall_cons; [reflexivity|apply Forall_nil].
      * cbn [push_child in_children]. apply Forall_app. split; [exact CP|]. apply Forall_cons; [exact H0|apply Forall_nil].
      * exists q', c'. split; [exact R|]. repeat (split; [assumption|]). cbn [push_child in_children] in *. rewrite !app_length in A6; rewrite !app_length in A7; rewrite ?app_length. cbn [length] in *. split; lia.
Qed.
Lemma root_loop_ok : forall deg pos t (P : str -> Prop), (2 <= deg)%nat -> forall fuel queue, (length queue <= fuel)%nat -> queue <> [] -> Forall has_child queue ->
  Forall (fun q => Forall (fun e => P (ie_name e)) (in_children q)) queue ->
  exists root, generate_root_loop deg (S fuel) pos t queue = Ret root /\
    ((2 <= length queue)%nat -> points_to pos t root /\ in_end root = pos /\ Forall (fun e => P (ie_name e)) (in_children root) /\ (length (in_children root) <= length queue)%nat).
Proof.
  intros deg pos t P D. induction fuel as [|fuel IH]; intros queue L NE F FP; [destruct queue; [congruence|cbn in L; lia]|].
  cbn [generate_root_loop]. destruct (Nat.eqb_spec (length queue) 1) as [E1|E1].
  - destruct queue as [|n [|]]; try discriminate. exists n. split; [reflexivity|]. cbn [length]. lia.
  - assert (G : (2 <= length queue)%nat) by (destruct queue as [|? [|]]; cbn [length] in *; try congruence; lia).
    destruct (root_round_ok deg pos t P ltac:(lia) (length queue) queue (index_node_new t) (le_n _) F FP eq_refl (Forall_nil _) (Forall_nil _)) as (q' & c' & R & A1 & A2 & A3 & A4 & A5 & A6 & A7).
    rewrite R. cbn [bind]. cbn [index_node_new in_children length] in A6, A7. rewrite Nat.sub_0_r in A7.
    assert (C : in_children c' <> []) by (intros X; rewrite X in A6; cbn in A6; lia).
    destruct (IH (q' ++ [with_end pos c'])) as (root & R2 & K).
    + rewrite app_length. cbn [length]. lia.
    + destruct q'; discriminate.
    + apply Forall_app. split; [exact A1|]. apply Forall_cons; [exact C|apply Forall_nil].
    + apply Forall_app. split; [exact A2|]. apply Forall_cons; [exact A5|apply Forall_nil].
    + exists root. split; [exact R2|]. intros _. destruct q' as [|x q'].
      * cbn [app generate_root_loop length Nat.eqb] in R2. apply ret_inj in R2. subst root. cbn [with_end in_children in_end]. split; [split; [exact A3|split; [exact C|exact A4]]|]. split; [reflexivity|]. split; [exact A5|lia].
      * rewrite app_length in K. cbn [length] in *. destruct K as (K1 & K2 & K3 & K4); [lia|]. repeat (split; [assumption|]). lia.
Qed.

(** ** The nodes queued for a device *)
Lemma mloop_queue_ok : forall deg (P : str -> Prop), (1 <= deg)%nat -> forall l i cur queue out cur' queue' out', Forall (fun m => P (tm_id m)) l ->
  measurement_loop deg i l cur queue out = (cur', queue', out') -> 0 <= i -> (i mod Z.of_nat deg <> 0 -> in_children cur <> []) ->
  Forall has_child queue -> Forall (fun q => Forall (fun e => P (ie_name e)) (in_children q)) queue -> Forall (fun e => P (ie_name e)) (in_children cur) ->
  Forall has_child queue' /\ Forall (fun q => Forall (fun e => P (ie_name e)) (in_children q)) queue' /\ Forall (fun e => P (ie_name e)) (in_children cur') /\
  (l <> [] -> in_children cur' <> []) /\ (length queue <= length queue')%nat /\ zlen queue' <= zlen queue + zlen l.
Proof.
  intros deg P D. induction l as [|m l IH]; intros i cur queue out cur' queue' out' F H I0 HC FQ PQ PC; cbn [measurement_loop] in H.
  - injection H as <- <- <-. do 3 (split; [auto|]). split; [congruence|]. split; [auto|]. rewrite zlen_nil. lia.
  - inversion F as [|? ? F1 F2]; subst. rewrite zlen_cons.
    set (x := if i mod Z.of_nat deg =? 0 then _ else _) in H.
    assert (X : exists c q, x = (c, q) /\ in_children c <> [] /\ Forall has_child q /\ Forall (fun q => Forall (fun e => P (ie_name e)) (in_children q)) q /\ Forall (fun e => P (ie_name e)) (in_children c) /\
      (length queue <= length q)%nat /\ zlen q <= zlen queue + 1).
    { unfold x. clear x H. destruct (Z.eqb_spec (i mod Z.of_nat deg) 0) as [E|E].
      - unfold is_full. destruct (Nat.leb_spec deg (length (in_children cur))) as [Fu|Fu].
        + eexists _, _. split; [reflexivity|]. cbn [push_child index_node_new in_children app]. split; [discriminate|].
          split; [apply Forall_app; split; [auto|]; apply Forall_cons; [|apply Forall_nil]; unfold has_child; cbn [with_end in_children]; intros Z; rewrite Z in Fu; cbn in Fu; lia|].
          split; [apply Forall_app; split; [auto|]; apply Forall_cons; [exact PC|apply Forall_nil]|].
          split; [apply Forall_cons; [exact F1|apply Forall_nil]|]. rewrite app_length, zlen_app. unfold zlen. cbn [length]. lia.
        + eexists _, _. split; [reflexivity|]. cbn [push_child in_children]. split; [intros Z; apply app_eq_nil in Z; destruct Z; discriminate|].
          split; [auto|]. split; [auto|]. split; [apply Forall_app; split; [auto|]; apply Forall_cons; [exact F1|apply Forall_nil]|]. lia.
      - exists cur, queue. split; [reflexivity|]. do 4 (split; [auto|]). lia. }
    destruct X as (c & q & -> & C1 & C2 & C3 & C4 & C5 & C6).
    destruct (IH (i + 1) c q _ _ _ _ F2 H ltac:(lia) (fun _ => C1) C2 C3 C4) as (R1 & R2 & R3 & R4 & R5 & R6).
    split; [auto|]. split; [auto|]. split; [auto|]. split; [|split; lia]. intros _.
    destruct l as [|m' l]; [|apply R4; discriminate]. cbn [measurement_loop] in H. injection H as <- <- <-. exact C1.
Qed.
(** More than [deg * deg] series overfill the leaf. *)
Lemma mloop_overfull : forall deg, (1 <= deg)%nat -> forall l i cur queue out cur' queue' out', measurement_loop deg i l cur queue out = (cur', queue', out') ->
  0 <= i -> queue = [] -> zlen (in_children cur) * Z.of_nat deg >= i -> (zlen (in_children cur) - 1) * Z.of_nat deg < i \/ in_children cur = [] ->
  Z.of_nat deg * Z.of_nat deg < i + zlen l -> i <= Z.of_nat deg * Z.of_nat deg -> queue' <> [].
Proof.
  intros deg D l. induction l as [|m l IH]; intros i cur queue out cur' queue' out' H I0 Q A B C L; [rewrite zlen_nil in C; lia|].
  cbn [measurement_loop] in H. rewrite zlen_cons in C. destruct (Z.eqb_spec (i mod Z.of_nat deg) 0) as [E|E].
  - assert (DI : i = Z.of_nat deg * (i / Z.of_nat deg)) by (pose proof (Z.div_mod i (Z.of_nat deg) ltac:(lia)); lia). set (k := i / Z.of_nat deg) in *.
    assert (K : zlen (in_children cur) = k).
    { pose proof (zlen_nonneg _ (in_children cur)). destruct B as [B|B]; [nia|]. rewrite B, zlen_nil in *. nia. }
    unfold is_full in H. destruct (Nat.leb_spec deg (length (in_children cur))) as [Fu|Fu].
    + subst queue. cbn [app] in H. clear IH.
      assert (G : forall l i cur q out cur' queue' out', measurement_loop deg i l cur q out = (cur', queue', out') -> q <> [] -> queue' <> []).
      { clear. induction l as [|m l IH]; intros i cur q out cur' queue' out' H N; cbn [measurement_loop] in H; [injection H as <- <- <-; auto|].
        destruct (_ =? 0); [destruct (is_full deg cur)|]; (eapply IH; [exact H|]); auto. destruct q; discriminate. }
      eapply G; [exact H|discriminate].
    + eapply IH; [exact H|lia|exact Q| | |lia|]; cbn [push_child in_children]; rewrite ?zlen_app, ?zlen_cons, ?zlen_nil, ?K; [nia|left; nia|].
      assert (k < Z.of_nat deg) by (unfold zlen in K; lia). nia.
  - assert (DI : i = Z.of_nat deg * (i / Z.of_nat deg) + i mod Z.of_nat deg) by (apply Z.div_mod; lia). pose proof (Z.mod_pos_bound i (Z.of_nat deg) ltac:(lia)).
    set (k := i / Z.of_nat deg) in *. set (r := i mod Z.of_nat deg) in *.
    destruct B as [B|B]; [|exfalso; rewrite B, zlen_nil in A; assert (Z0 : i = 0) by lia; apply E; unfold r; rewrite Z0; apply Zmod_0_l].
    assert (ZK : zlen (in_children cur) = k + 1) by nia.
    eapply IH; [exact H|lia|exact Q| | |lia|]; rewrite ?ZK; [rewrite Z.mul_add_distr_r; lia|left; replace (k + 1 - 1) with k by lia; lia|]. destruct (Z.eq_dec i (Z.of_nat deg * Z.of_nat deg)) as [X|X]; [|lia].
    exfalso. apply E. unfold r. rewrite X. apply Z_mod_mult.
Qed.
(** The device loop never panics. *)
Lemma device_loop_total : forall deg tsm out, (2 <= deg)%nat -> exists imap out', device_loop deg tsm out = Ret (imap, out') /\ map fst imap = map fst (nonempty tsm).
Proof.
  intros deg tsm out D. revert out. induction tsm as [|[d l] tsm IH]; intros out; cbn [device_loop]; [exists [], out; auto|].
  destruct l as [|m l]; [apply IH|].
  destruct (measurement_loop deg 0 (m :: l) (index_node_new LeafMeasurement) [] out) as [[cur queue] out1] eqn:M.
  destruct (mloop_queue_ok deg (fun _ => True) ltac:(lia) _ _ _ _ _ _ _ _ (proj2 (Forall_forall _ _) (fun _ _ => I)) M) as (Q1 & Q2 & Q3 & Q4 & _ & _); try lia; try apply Forall_nil.
  { rewrite Zmod_0_l. congruence. }
  destruct (root_loop_ok deg (sk_pos out1) InternalMeasurement (fun _ => True) D (length (queue ++ [with_end (sk_pos out1) cur])) (queue ++ [with_end (sk_pos out1) cur]) (le_n _)) as (root & R & _).
  { destruct queue; discriminate. }
  { apply Forall_app. split; [exact Q1|]. apply Forall_cons; [|apply Forall_nil]. apply Q4. discriminate. }
  { apply Forall_app. split; [exact Q2|]. apply Forall_cons; [exact Q3|apply Forall_nil]. }
  unfold generate_root_node. rewrite R. cbn [bind]. destruct (IH out1) as (imap & out' & E & MM). rewrite E. cbn [bind fst snd].
  eexists _, out'. split; [reflexivity|]. unfold nonempty in *. cbn [filter snd map fst]. rewrite MM. reflexivity.
Qed.
Lemma construct_total : forall ord tsm out, (exists r, construct_metadata_index 256 ord tsm out = Ret r) <-> zlen (nonempty tsm) <= 256.
Proof.
  intros ord tsm out. unfold construct_metadata_index. destruct (device_loop_total 256 tsm out ltac:(lia)) as (imap & out' & E & M). rewrite E. cbn [bind].
  assert (L : length imap = length (nonempty tsm)) by (rewrite <- (map_length fst imap), M, map_length; auto).
  rewrite L. unfold zlen. destruct (Nat.leb_spec (length (nonempty tsm)) 256) as [A|A].
  - destruct (device_entries _ _ _) as [n o]. split; [lia|eauto].
  - split; [intros [? X]; discriminate|lia].
Qed.
