(** Proofs about the bloom filter (C21, parts of C23). *)
From Verif Require Export PMurmur PVarint PSink SBloom MBloom.
Ltac Zify.zify_post_hook ::= idtac.

(** ** vectors *)
Lemma vec_set_length : forall A (l : list A) i x, length (vec_set l i x) = length l.
Proof. intros A l. induction l as [|y l IH]; intros [|i] x; cbn; auto. Qed.
Lemma vec_set_nth : forall A (l : list A) i x j d, (i < length l)%nat -> nth j (vec_set l i x) d = if (j =? i)%nat then x else nth j l d.
Proof.
  intros A l. induction l as [|y l IH]; intros i x j d H; [cbn in H; lia|]. destruct i as [|i], j as [|j]; cbn [vec_set nth Nat.eqb]; auto.
  apply IH. cbn in H. lia.
Qed.
Lemma vec_get_spec : forall (l : list Z) i, vec_get l i = if (i <? length l)%nat then Ret (nth i l 0) else Panic PIndex.
Proof.
  intros l i. unfold vec_get. destruct (Nat.ltb_spec i (length l)) as [H|H].
  - rewrite (nth_error_nth' l 0 H). reflexivity.
  - apply nth_error_None in H. rewrite H. reflexivity.
Qed.

(** ** the bit set *)
Definition bit_at (l : list Z) (i : nat) : bool := Z.testbit (nth (i / 8) l 0) (Z.of_nat (i mod 8)).
Lemma bit_at_bloom : forall l i, bloom_bit l (Z.of_nat i) = bit_at l i.
Proof.
  intros l i. unfold bloom_bit, bit_at. change 8 with (Z.of_nat 8). rewrite <- Nat2Z.inj_div, <- Nat2Z.inj_mod, Nat2Z.id. reflexivity.
Qed.
Lemma byte_idx : forall i, ((i - i mod 8) / 8 = i / 8)%nat.
Proof.
  intros i. pose proof (Nat.div_mod i 8 ltac:(lia)). replace (i - i mod 8)%nat with (i / 8 * 8)%nat by lia. apply Nat.div_mul. lia.
Qed.
Lemma or_bit : forall v (b : bool) k j, (j < 8)%nat -> (k < 8)%nat -> isbyte v ->
  Z.testbit (Z.lor v (wrapU 8 (Z.shiftl (if b then 1 else 0) (Z.of_nat k)))) (Z.of_nat j) = Z.testbit v (Z.of_nat j) || ((j =? k)%nat && b).
Proof.
  intros v b k j Hj Hk Hv. rewrite Z.lor_spec. f_equal. unfold wrapU. rewrite Z.mod_pow2_bits_low by lia. rewrite Z.shiftl_spec by lia.
  destruct b; [|rewrite Z.bits_0, andb_false_r; reflexivity]. rewrite andb_true_r.
  destruct (Nat.eqb_spec j k) as [->|N]; [rewrite Z.sub_diag; reflexivity|].
  destruct (Z.ltb_spec (Z.of_nat j - Z.of_nat k) 0); [apply Z.testbit_neg_r; lia|].
  apply (Z.bits_above_log2 1); [lia|]. cbn. lia.
Qed.
Lemma or_byte : forall v w, isbyte v -> isbyte w -> isbyte (Z.lor v w).
Proof.
  unfold isbyte. intros v w Hv Hw. split; [apply Z.lor_nonneg; lia|].
  destruct (Z.eq_dec (Z.lor v w) 0) as [->|N]; [lia|]. change 256 with (2 ^ 8). apply Z.log2_lt_pow2; [pose proof (Z.lor_nonneg v w); lia|].
  rewrite Z.log2_lor by lia. apply Z.max_lub_lt.
  - destruct (Z.eq_dec v 0) as [->|]; [cbn; lia|]. apply Z.log2_lt_pow2; lia.
  - destruct (Z.eq_dec w 0) as [->|]; [cbn; lia|]. apply Z.log2_lt_pow2; lia.
Qed.
Lemma bits_loop_spec : forall bits i res, Forall isbyte res -> ((i + length bits + 7) / 8 <= length res)%nat ->
  exists res', bits_loop i bits res = Ret res' /\ length res' = length res /\ Forall isbyte res' /\
    forall j, bit_at res' j = bit_at res j || ((i <=? j)%nat && (j <? i + length bits)%nat && nth (j - i) bits false).
Proof.
  intros bits. induction bits as [|b bits IH]; intros i res F L.
  - exists res. split; [reflexivity|]. split; [auto|]. split; [auto|]. intros j. cbn [length]. 
    destruct (Nat.leb_spec i j), (Nat.ltb_spec j (i + 0)); cbn; rewrite ?orb_false_r; auto; lia.
  - cbn [bits_loop]. rewrite byte_idx, vec_get_spec. cbn [length] in L.
    assert (B : (i / 8 < length res)%nat). { apply Nat.lt_le_trans with ((i + S (length bits) + 7) / 8)%nat; auto. pose proof (Nat.div_mod i 8 ltac:(lia)). pose proof (Nat.mod_upper_bound i 8 ltac:(lia)). apply Nat.div_le_lower_bound; lia. }
    rewrite (proj2 (Nat.ltb_lt _ _) B). cbn [bind]. cbv zeta.
    set (v := nth (i / 8) res 0). assert (V : isbyte v) by (unfold v; rewrite Forall_forall in F; apply F, nth_In; auto).
    set (x := Z.lor v (wrapU 8 (Z.shiftl (if b then 1 else 0) (Z.of_nat (i mod 8))))).
    assert (X : isbyte x). { apply or_byte; auto. unfold isbyte. change 256 with (2 ^ 8). unfold wrapU. apply Z.mod_pos_bound. lia. }
    destruct (IH (S i) (vec_set res (i / 8) x)) as (res' & E & L' & F' & B').
    + apply Forall_forall. intros y I. apply (In_nth _ _ 0) in I. destruct I as (k & K & <-). rewrite vec_set_length in K. rewrite vec_set_nth by auto.
      destruct (k =? i / 8)%nat; auto. rewrite Forall_forall in F. apply F, nth_In; auto.
    + rewrite vec_set_length. replace (S i + length bits + 7)%nat with (i + S (length bits) + 7)%nat by lia. auto.
    + exists res'. split; [exact E|]. split; [rewrite L', vec_set_length; auto|]. split; [exact F'|].
      intros j. rewrite B'. unfold bit_at at 1. rewrite vec_set_nth by auto.
      pose proof (Nat.div_mod j 8 ltac:(lia)) as Dj. pose proof (Nat.div_mod i 8 ltac:(lia)) as Di.
      pose proof (Nat.mod_upper_bound j 8 ltac:(lia)) as Mj. pose proof (Nat.mod_upper_bound i 8 ltac:(lia)) as Mi.
      assert (Q : Z.testbit (if (j / 8 =? i / 8)%nat then x else nth (j / 8) res 0) (Z.of_nat (j mod 8)) = bit_at res j || ((j =? i)%nat && b)).
      { unfold bit_at. destruct (Nat.eqb_spec (j / 8) (i / 8)) as [Q|Q].
        - unfold x. rewrite or_bit by (auto; lia). rewrite Q. fold v. f_equal. f_equal.
          destruct (Nat.eqb_spec (j mod 8) (i mod 8)), (Nat.eqb_spec j i); auto; subst; lia.
        - destruct (Nat.eqb_spec j i); [subst; congruence|]. rewrite orb_false_r. reflexivity. }
      rewrite Q, <- orb_assoc. f_equal. cbn [length].
      destruct (Nat.eqb_spec j i) as [->|N].
      * rewrite Nat.sub_diag. cbn [nth]. rewrite (proj2 (Nat.leb_gt (S i) i)) by lia. rewrite (proj2 (Nat.leb_le i i)) by lia. rewrite (proj2 (Nat.ltb_lt i (i + S (length bits)))) by lia. cbn. rewrite orb_false_r. reflexivity.
      * cbn [orb andb]. destruct (Nat.leb_spec (S i) j), (Nat.leb_spec i j); cbn [andb]; try lia; try reflexivity.
        replace (j - i)%nat with (S (j - S i))%nat by lia. cbn [nth].
        destruct (Nat.ltb_spec j (S i + length bits)), (Nat.ltb_spec j (i + S (length bits))); try lia; reflexivity.
Qed.
Lemma bits_loop_panic : forall bits i res, (length res * 8 < i + length bits)%nat -> (i <= length res * 8)%nat -> bits_loop i bits res = Panic PIndex.
Proof.
  intros bits. induction bits as [|b bits IH]; intros i res H L; cbn [length] in H; [lia|]. cbn [bits_loop]. rewrite byte_idx, vec_get_spec.
  destruct (Nat.ltb_spec (i / 8) (length res)) as [B|B]; [|reflexivity]. cbn [bind]. apply IH; rewrite vec_set_length; [lia|].
  pose proof (Nat.div_mod i 8 ltac:(lia)). pose proof (Nat.mod_upper_bound i 8 ltac:(lia)). lia.
Qed.
Lemma strip_leading_spec : forall l, exists k, l = repeat 0 k ++ strip_leading_zeros l.
Proof.
  intros l. induction l as [|[|x|x] l IH]; cbn [strip_leading_zeros]; try (exists 0%nat; reflexivity).
  destruct IH as [k E]. exists (S k). cbn [repeat app]. f_equal. exact E.
Qed.
Lemma strip_trailing_spec : forall l, exists k, l = strip_trailing_zeros l ++ repeat 0 k.
Proof.
  intros l. unfold strip_trailing_zeros. destruct (strip_leading_spec (rev l)) as [k E]. exists k.
  rewrite <- (rev_involutive l) at 1. rewrite E at 1. rewrite rev_app_distr. f_equal. 
  clear. induction k as [|k IH]; [reflexivity|]. cbn [repeat rev]. rewrite IH. symmetry. apply repeat_cons.
Qed.
Lemma strip_trailing_bit : forall l j, bit_at (strip_trailing_zeros l) j = bit_at l j.
Proof.
  intros l j. destruct (strip_trailing_spec l) as [k E]. unfold bit_at. rewrite E at 2. f_equal.
  destruct (Nat.ltb_spec (j / 8) (length (strip_trailing_zeros l))).
  - rewrite app_nth1; auto.
  - rewrite app_nth2 by auto. rewrite nth_overflow by auto. symmetry. apply nth_repeat.
Qed.
Lemma strip_trailing_incl : forall (P : Z -> Prop) l, Forall P l -> Forall P (strip_trailing_zeros l).
Proof. intros P l F. destruct (strip_trailing_spec l) as [k E]. rewrite E in F. apply Forall_app in F. apply F. Qed.
Lemma strip_trailing_len : forall l, (length (strip_trailing_zeros l) <= length l)%nat.
Proof. intros l. destruct (strip_trailing_spec l) as [k E]. rewrite E at 2. rewrite app_length. lia. Qed.

(** The bit counts for which [serialize_bits] works. *)
Definition bits_fit (n : nat) : bool := negb ((1 <=? n mod 8) && (n mod 8 <=? 3))%nat.
Lemma serialize_bits_ok : forall bits, bits_fit (length bits) = true ->
  exists bs, serialize_bits bits = Ret bs /\ Forall isbyte bs /\ (length bs <= length bits)%nat /\
    forall j, bit_at bs j = nth j bits false.
Proof.
  intros bits H. unfold serialize_bits. cbv zeta. set (n := length bits) in *.
  set (nb := (if (n mod 8 =? 0)%nat then (n / 8)%nat else ((n + n mod 8) / 8)%nat)).
  pose proof (Nat.div_mod n 8 ltac:(lia)) as D. pose proof (Nat.mod_upper_bound n 8 ltac:(lia)) as M.
  unfold bits_fit in H.
  assert (NB : ((0 + n + 7) / 8 <= nb <= n)%nat).
  { unfold nb. destruct (Nat.eqb_spec (n mod 8) 0) as [E|E].
    - split; [|apply Nat.div_le_upper_bound; lia]. apply Nat.lt_succ_r. apply Nat.div_lt_upper_bound; lia.
    - assert (4 <= n mod 8)%nat. { destruct (Nat.leb_spec 1 (n mod 8)), (Nat.leb_spec (n mod 8) 3); cbn in H; try discriminate; lia. }
      split; [|apply Nat.div_le_upper_bound; lia].
      replace ((0 + n + 7) / 8)%nat with ((n / 8) + 1)%nat by (apply (Nat.div_unique (0 + n + 7) 8 _ (n mod 8 - 1)); lia).
      apply Nat.div_le_lower_bound; lia. }
  destruct (bits_loop_spec bits 0 (repeat 0 nb)) as (res & E & L & F & B).
  - apply Forall_forall. intros x I. apply repeat_spec in I. subst x. unfold isbyte. lia.
  - rewrite repeat_length. apply NB.
  - rewrite E. cbn [bind]. eexists. split; [reflexivity|]. split; [apply strip_trailing_incl; exact F|]. split.
    + pose proof (strip_trailing_len res). rewrite L, repeat_length in H0. unfold n in NB. lia.
    + intros j. rewrite strip_trailing_bit, B. rewrite Nat.sub_0_r. cbn [Nat.leb]. unfold bit_at. rewrite nth_repeat, Z.bits_0. cbn [orb].
      destruct (Nat.ltb_spec j (0 + length bits)); cbn [andb]; [reflexivity|]. rewrite nth_overflow; auto.
Qed.
Lemma serialize_bits_panic : forall bits, bits_fit (length bits) = false -> serialize_bits bits = Panic PIndex.
Proof.
  intros bits H. unfold serialize_bits. cbv zeta. set (n := length bits) in *. unfold bits_fit in H.
  pose proof (Nat.div_mod n 8 ltac:(lia)) as D. pose proof (Nat.mod_upper_bound n 8 ltac:(lia)) as M.
  assert (R : (1 <= n mod 8 <= 3)%nat). { destruct (Nat.leb_spec 1 (n mod 8)), (Nat.leb_spec (n mod 8) 3); cbn in H; try discriminate; lia. }
  rewrite (proj2 (Nat.eqb_neq (n mod 8) 0)) by lia.
  replace ((n + n mod 8) / 8)%nat with (n / 8)%nat by (apply (Nat.div_unique _ 8 _ (2 * (n mod 8))); lia).
  rewrite bits_loop_panic; [reflexivity| |lia]. rewrite repeat_length. unfold n in *. lia.
Qed.

(** ** a checked build that does not panic computes the same *)
Lemma arithS_rel : forall p n v r, arithS p n v = Ret r -> arithS Release n v = Ret r.
Proof. intros [] n v r; auto. unfold arithS. destruct (_ && _); auto. discriminate. Qed.
Lemma bind_rel : forall A B (x y : outcome A) (f g : A -> outcome B) r, (forall a, x = Ret a -> y = Ret a) ->
  (forall a r, f a = Ret r -> g a = Ret r) -> bind x f = Ret r -> bind y g = Ret r.
Proof. intros A B [a|e] y f g r H G E; cbn in E; [|discriminate]. rewrite (H a eq_refl). cbn. apply G. exact E. Qed.
Lemma round_rel : forall p k1 k2 h r, mm_round p k1 k2 h = Ret r -> mm_round Release k1 k2 h = Ret r.
Proof.
  intros p k1 k2 [h1 h2] r. unfold mm_round.
  repeat (apply bind_rel; [intros ?; apply arithS_rel|intros ? ?; cbv zeta]). auto.
Qed.
Lemma body_rel : forall p key n i h r, mm_body p key i n h = Ret r -> mm_body Release key i n h = Ret r.
Proof.
  intros p key n. induction n as [|n IH]; intros i h r; cbn [mm_body]; auto.
  apply bind_rel; [apply round_rel|]. intros a r'. apply IH.
Qed.
Lemma murmur_rel : forall p s seed r, murmur_hash p s seed = Ret r -> murmur_hash Release s seed = Ret r.
Proof.
  intros p s seed r. unfold murmur_hash. apply bind_rel; [|auto]. clear r. intros r. unfold inner_hash. cbv zeta.
  apply bind_rel; [apply body_rel|]. intros [h1 h2] r'. destruct (mm_tail _ _ _ _) as [[[a b] c] d].
  apply bind_rel; [intros ?; apply arithS_rel|]. intros x r2.
  apply bind_rel; [intros ?; apply arithS_rel|]. auto.
Qed.
Lemma hash_rel : forall p f s r, hash_function p f s = Ret r -> hash_function Release f s = Ret r.
Proof.
  intros p [cap seed] s r. unfold hash_function. apply bind_rel; [apply murmur_rel|]. intros h r'.
  apply bind_rel; [|auto]. intros a. apply arithS_rel.
Qed.
Lemma foldM_rel : forall A B (f g : B -> A -> outcome B) l b r, (forall b x r, f b x = Ret r -> g b x = Ret r) ->
  foldM f l b = Ret r -> foldM g l b = Ret r.
Proof.
  intros A B f g l. induction l as [|x l IH]; intros b r H; cbn [foldM]; auto. apply bind_rel; [apply H|]. intros a r'. apply IH. exact H.
Qed.
Lemma add_rel : forall p s b r, bloom_add p s b = Ret r -> bloom_add Release s b = Ret r.
Proof.
  intros p s b r. unfold bloom_add. apply bind_rel; [|auto]. intros a. apply foldM_rel. intros x f r'. apply bind_rel; [apply hash_rel|auto].
Qed.
Lemma build_rel : forall p paths r, bloom_build p paths = Ret r -> bloom_build Release paths = Ret r.
Proof.
  intros p paths r. unfold bloom_build. apply bind_rel.
  - intros a. unfold bloom_empty. apply bind_rel; [intros ?; apply arithS_rel|auto].
  - intros a r'. apply foldM_rel. intros b x r2. apply add_rel.
Qed.

(** ** adding paths *)
Lemma path_hash_range : forall s seed, - 2 ^ 31 <= path_hash s seed < 2 ^ 31.
Proof.
  intros s seed. unfold path_hash. destruct (murmur3_x64_128 s seed) as [a b]. pose proof (Z.mod_pos_bound (a + b + 2 ^ 31) (2 ^ 32) ltac:(lia)). lia.
Qed.
(** a hash that makes [add] index outside of the bit set *)
Definition bad_hash (cap : Z) (s : list Z) (seed : Z) : bool := (path_hash s seed =? - 2 ^ 31) && negb (2 ^ 31 mod cap =? 0).
Definition path_ok (s : list Z) : Prop := Forall isbyte s /\ zlen s < 2 ^ 31.
Lemma set_hash : forall cap s seed bits, path_ok s -> 0 <= seed < 2 ^ 31 -> 0 < cap < 2 ^ 31 -> zlen bits = cap ->
  (let* i := hash_function Release (cap, seed) s in set_bit bits i) =
  if bad_hash cap s seed then Panic PIndex
  else Ret (vec_set bits (Z.to_nat (Z.abs (path_hash s seed) mod cap)) true).
Proof.
  intros cap s seed bits [F L] S C B. unfold hash_function. rewrite murmur_spec by auto. cbn [bind]. unfold abs_i32, arithS, bad_hash.
  pose proof (path_hash_range s seed) as R. change (2 ^ (32 - 1)) with (2 ^ 31).
  destruct (Z.eqb_spec (path_hash s seed) (- 2 ^ 31)) as [E|N]; cbn [andb].
  - rewrite E. change (Z.abs (- 2 ^ 31)) with (2 ^ 31). rewrite (proj2 (Z.ltb_ge (2 ^ 31) (2 ^ 31))) by lia. rewrite andb_false_r. cbn [bind].
    change (wrapS 32 (2 ^ 31)) with (- 2 ^ 31). rewrite Z.rem_opp_l by lia. rewrite Z.rem_mod_nonneg by lia.
    pose proof (Z.mod_pos_bound (2 ^ 31) cap ltac:(lia)) as M. unfold set_bit.
    destruct (Z.eqb_spec (2 ^ 31 mod cap) 0) as [Z0|NZ]; cbn [negb].
    + rewrite Z0. change (wrapU 64 (- 0)) with 0. rewrite (proj2 (Z.ltb_lt 0 (zlen bits))) by lia. reflexivity.
    + assert (W : wrapU 64 (- (2 ^ 31 mod cap)) = 2 ^ 64 - 2 ^ 31 mod cap). { unfold wrapU. symmetry. apply Z.mod_unique with (-1); [left; lia|lia]. }
      rewrite W. rewrite (proj2 (Z.ltb_ge _ _)) by lia. reflexivity.
  - rewrite (proj2 (Z.leb_le _ _)) by lia. rewrite (proj2 (Z.ltb_lt (Z.abs (path_hash s seed)) (2 ^ 31))) by lia. cbn [andb bind].
    rewrite Z.rem_mod_nonneg by lia. pose proof (Z.mod_pos_bound (Z.abs (path_hash s seed)) cap ltac:(lia)) as M.
    rewrite wrapU_small by lia. unfold set_bit. rewrite (proj2 (Z.ltb_lt _ _)) by lia. reflexivity.
Qed.
Definition set_all (cap : Z) (bits : list bool) (s : list Z) (seeds : list Z) : list bool :=
  fold_left (fun bits seed => vec_set bits (Z.to_nat (Z.abs (path_hash s seed) mod cap)) true) seeds bits.
Lemma set_all_length : forall cap s seeds bits, length (set_all cap bits s seeds) = length bits.
Proof. intros cap s seeds. induction seeds as [|x seeds IH]; intros bits; cbn [set_all fold_left]; auto. unfold set_all in IH. rewrite IH, vec_set_length. reflexivity. Qed.
Lemma set_all_nth : forall cap s seeds bits j, 0 < cap -> zlen bits = cap ->
  nth j (set_all cap bits s seeds) false = nth j bits false || existsb (fun seed => (j =? Z.to_nat (Z.abs (path_hash s seed) mod cap))%nat) seeds.
Proof.
  intros cap s seeds. induction seeds as [|x seeds IH]; intros bits j C B; cbn [set_all fold_left existsb]; [rewrite orb_false_r; reflexivity|].
  unfold set_all in IH. rewrite IH by (auto; unfold zlen; rewrite vec_set_length; auto).
  pose proof (Z.mod_pos_bound (Z.abs (path_hash s x)) cap ltac:(lia)) as M. rewrite vec_set_nth by (unfold zlen in B; lia).
  destruct (j =? _)%nat; cbn [orb]; [rewrite orb_true_r|]; reflexivity.
Qed.
Lemma fold_hash : forall cap s seeds bits, path_ok s -> Forall (fun x => 0 <= x < 2 ^ 31) seeds -> 0 < cap < 2 ^ 31 -> zlen bits = cap ->
  foldM (fun bits f => let* i := hash_function Release f s in set_bit bits i) (map (fun x => (cap, x)) seeds) bits =
  if existsb (bad_hash cap s) seeds then Panic PIndex else Ret (set_all cap bits s seeds).
Proof.
  intros cap s seeds. induction seeds as [|x seeds IH]; intros bits P F C B; cbn [map foldM existsb]; [reflexivity|].
  rewrite set_hash; auto; [|exact (Forall_inv F)]. destruct (bad_hash cap s x); cbn [bind orb]; [reflexivity|].
  rewrite IH; auto; [exact (Forall_inv_tail F)|unfold zlen; rewrite vec_set_length; exact B].
Qed.
(** filters of [cap] bits with the given seeds *)
Definition filter_ok (cap : Z) (seeds : list Z) (b : bloom) : Prop :=
  bf_size b = cap /\ bf_func b = map (fun x => (cap, x)) seeds /\ zlen (bf_bits b) = cap.
Definition hit (cap : Z) (seeds : list Z) (b : bloom) (s : list Z) : Prop :=
  Forall (fun seed => nth (Z.to_nat (Z.abs (path_hash s seed) mod cap)) (bf_bits b) false = true) seeds.
Lemma add_spec : forall cap seeds s b, path_ok s -> Forall (fun x => 0 <= x < 2 ^ 31) seeds -> 0 < cap < 2 ^ 31 -> filter_ok cap seeds b ->
  if existsb (bad_hash cap s) seeds then bloom_add Release s b = Panic PIndex
  else exists b', bloom_add Release s b = Ret b' /\ filter_ok cap seeds b' /\ bf_hash_function_size b' = bf_hash_function_size b /\
       hit cap seeds b' s /\ forall x, hit cap seeds b x -> hit cap seeds b' x.
Proof.
  intros cap seeds s b P F C (B1 & B2 & B3). unfold bloom_add. rewrite B2, fold_hash by auto.
  destruct (existsb (bad_hash cap s) seeds); [reflexivity|]. cbn [bind]. eexists. split; [reflexivity|].
  split; [repeat split; cbn [bf_size bf_func bf_bits]; auto; unfold zlen; rewrite set_all_length; exact B3|].
  split; [reflexivity|]. unfold hit. cbn [bf_bits]. split.
  - apply Forall_forall. intros x I. rewrite set_all_nth by (auto; lia). apply orb_true_iff. right. apply existsb_exists. exists x. split; auto. apply Nat.eqb_refl.
  - intros y H. rewrite Forall_forall in *. intros x I. rewrite set_all_nth by (auto; lia). rewrite (H x I). reflexivity.
Qed.
Lemma adds_spec : forall cap seeds paths b, Forall path_ok paths -> Forall (fun x => 0 <= x < 2 ^ 31) seeds -> 0 < cap < 2 ^ 31 -> filter_ok cap seeds b ->
  if existsb (fun s => existsb (bad_hash cap s) seeds) paths then foldM (fun b s => bloom_add Release s b) paths b = Panic PIndex
  else exists b', foldM (fun b s => bloom_add Release s b) paths b = Ret b' /\ filter_ok cap seeds b' /\ bf_hash_function_size b' = bf_hash_function_size b /\
       (forall s, In s paths -> hit cap seeds b' s) /\ forall x, hit cap seeds b x -> hit cap seeds b' x.
Proof.
  intros cap seeds paths. induction paths as [|s paths IH]; intros b P F C B; cbn [existsb foldM].
  - exists b. repeat split; try apply B; auto. intros s [].
  - pose proof (add_spec cap seeds s b (Forall_inv P) F C B) as A. destruct (existsb (bad_hash cap s) seeds); cbn [orb]; [rewrite A; reflexivity|].
    destruct A as (b1 & E & B1 & H1 & K1 & M1). rewrite E. cbn [bind]. pose proof (IH b1 (Forall_inv_tail P) F C B1) as A.
    destruct (existsb _ paths); [exact A|]. destruct A as (b2 & E2 & B2 & H2 & K2 & M2). exists b2. split; [exact E2|]. split; [exact B2|]. split; [congruence|].
    split; [|auto]. intros x [<-|I]; auto.
Qed.

(** ** the filter of a file *)
(** Number of bits for [n] series (writer/mod.rs:720-735 in a release build): the formula of the format
    in binary64, clamped below by 256. *)
Definition bloom_bits (n : Z) : Z := Z.max 256 (wrapS 32 (bloom_raw_size (wrapS 32 n) + 1)).
Lemma bloom_bits_range : forall n, 256 <= bloom_bits n < 2 ^ 31.
Proof. intros n. unfold bloom_bits. pose proof (wrapS_range 32 (bloom_raw_size (wrapS 32 n) + 1) ltac:(lia)) as R. change (2 ^ (32 - 1)) with (2 ^ 31) in R. lia. Qed.
Definition hash_seeds : list Z := [5; 7; 11; 19; 31].
Lemma hash_count : bloom_hash_count = 5. Proof. vm_compute. reflexivity. Qed.
Lemma build_spec : forall paths, Forall path_ok paths ->
  let cap := bloom_bits (zlen paths) in
  if existsb (fun s => existsb (bad_hash cap s) hash_seeds) paths then bloom_build Release paths = Panic PIndex
  else exists b, bloom_build Release paths = Ret b /\ filter_ok cap hash_seeds b /\ bf_hash_function_size b = 5 /\ forall s, In s paths -> hit cap hash_seeds b s.
Proof.
  intros paths P. cbv zeta. unfold bloom_build, bloom_empty. 
  assert (E : exists size, arithS Release 32 (bloom_raw_size (wrapS 32 (zlen paths)) + 1) = Ret size /\ Z.max size cfg_minimal_size = bloom_bits (zlen paths)).
  { unfold bloom_bits. rewrite arithS_release by lia. eexists. split; [reflexivity|]. unfold cfg_minimal_size. apply Z.max_comm. }
  destruct E as (size & -> & E). cbn [bind]. rewrite E. rewrite hash_count. change (Z.min 5 cfg_maximal_hash_function_size) with 5.
  set (cap := bloom_bits (zlen paths)). pose proof (bloom_bits_range (zlen paths)) as R. fold cap in R.
  assert (B : filter_ok cap hash_seeds (bloom_new cap 5)).
  { unfold filter_ok, bloom_new. cbn [bf_size bf_func bf_bits]. split; [reflexivity|]. split; [reflexivity|]. unfold zlen. rewrite repeat_length. lia. }
  assert (F : Forall (fun x => 0 <= x < 2 ^ 31) hash_seeds) by (unfold hash_seeds; repeat constructor; lia).
  pose proof (adds_spec cap hash_seeds paths (bloom_new cap 5) P F ltac:(lia) B) as A.
  destruct (existsb _ paths); [exact A|]. destruct A as (b & E1 & B1 & H1 & K1 & _). exists b. auto.
Qed.

(** serialization of a filter *)
Lemma bloom_serialize_spec : forall b rest, 0 < bf_size b < 2 ^ 31 -> zlen (bf_bits b) = bf_size b -> 0 <= bf_hash_function_size b < 2 ^ 31 ->
  if bits_fit (length (bf_bits b)) then
    exists bw bs, bloom_serialize b = Ret bw /\
      bloom_read (wbytes bw ++ rest) = Some (mkBloomBlock bs (bf_size b) (bf_hash_function_size b), rest) /\
      (forall j, bit_at bs j = nth j (bf_bits b) false) /\ zlen (wbytes bw) <= 15 + bf_size b
  else bloom_serialize b = Panic PIndex.
Proof.
  intros b rest S B H. unfold bloom_serialize. destruct (bits_fit (length (bf_bits b))) eqn:F.
  - destruct (serialize_bits_ok _ F) as (bs & -> & FB & L & BA). cbn [bind]. eexists. exists bs. split; [reflexivity|].
    assert (LB : 0 <= zlen bs < 2 ^ 32) by (unfold zlen in *; lia).
    rewrite !wrapU_small by lia. cbn [wbytes]. rewrite app_nil_r. split; [|split; [exact BA|]].
    + unfold bloom_read. rewrite <- !app_assoc, var_u32_roundtrip by lia. rewrite take_app by reflexivity.
      rewrite var_u32_roundtrip by lia. rewrite var_u32_roundtrip by lia. reflexivity.
    + rewrite !zlen_app. pose proof (var_u32_len (zlen bs) LB). pose proof (var_u32_len (bf_size b) ltac:(lia)). pose proof (var_u32_len (bf_hash_function_size b) ltac:(lia)).
      unfold zlen in *. lia.
  - rewrite (serialize_bits_panic _ F). reflexivity.
Qed.
(** what a reader answers *)
Lemma might_contain_spec : forall cap b bs s, filter_ok cap hash_seeds b -> 0 < cap -> (forall j, bit_at bs j = nth j (bf_bits b) false) ->
  hit cap hash_seeds b s -> might_contain (mkBloomBlock bs cap 5) s = true.
Proof.
  intros cap b bs s B C BA H. unfold might_contain. cbn [bb_bytes bb_size bb_count]. change (firstn (Z.to_nat 5) bloom_seeds) with hash_seeds.
  apply forallb_forall. intros x I. unfold hit in H. rewrite Forall_forall in H. specialize (H x I).
  pose proof (Z.mod_pos_bound (Z.abs (path_hash s x)) cap C) as M. rewrite <- (Z2Nat.id (Z.abs (path_hash s x) mod cap)) by lia.
  rewrite bit_at_bloom, BA. exact H.
Qed.
Lemma filter_complete : forall p paths b bw rest, Forall path_ok paths -> bloom_build p paths = Ret b -> bloom_serialize b = Ret bw ->
  exists blk, bloom_read (wbytes bw ++ rest) = Some (blk, rest) /\ bb_size blk = bloom_bits (zlen paths) /\ bb_count blk = 5 /\
    forall s, In s paths -> might_contain blk s = true.
Proof.
  intros p paths b bw rest P B S. apply build_rel in B. pose proof (build_spec paths P) as A. cbv zeta in A.
  destruct (existsb _ paths); [rewrite B in A; discriminate|]. destruct A as (b' & E & (F1 & F2 & F3) & H5 & H). rewrite E in B. injection B as ->.
  pose proof (bloom_bits_range (zlen paths)) as R. pose proof (bloom_serialize_spec b rest ltac:(lia) ltac:(lia) ltac:(lia)) as Z.
  destruct (bits_fit _); [|rewrite S in Z; discriminate]. destruct Z as (bw' & bs & E' & RD & BA & _). rewrite E' in S. injection S as ->.
  exists (mkBloomBlock bs (bf_size b) (bf_hash_function_size b)). split; [exact RD|]. cbn [bb_size bb_count]. split; [exact F1|]. split; [exact H5|].
  intros s I. rewrite H5, F1. apply (might_contain_spec _ b); [repeat split; auto|lia|exact BA|auto].
Qed.
Lemma bits_fit_Z : forall n, 0 <= n -> bits_fit (Z.to_nat n) = true <-> n mod 8 = 0 \/ 4 <= n mod 8.
Proof.
  intros n N. unfold bits_fit. pose proof (Z.mod_pos_bound n 8 ltac:(lia)).
  assert (E : (Z.to_nat n mod 8 = Z.to_nat (n mod 8))%nat). { apply Nat2Z.inj. rewrite Nat2Z.inj_mod. rewrite !Z2Nat.id by lia. reflexivity. }
  rewrite E. destruct (Nat.leb_spec 1 (Z.to_nat (n mod 8))), (Nat.leb_spec (Z.to_nat (n mod 8)) 3); cbn; split; intros X; try discriminate; try reflexivity; lia.
Qed.
Lemma filter_panics : forall paths, Forall path_ok paths ->
  let cap := bloom_bits (zlen paths) in
  let bad := existsb (fun s => existsb (bad_hash cap s) hash_seeds) paths in
  (exists bw, (let* b := bloom_build Release paths in bloom_serialize b) = Ret bw) <-> bad = false /\ (cap mod 8 = 0 \/ 4 <= cap mod 8).
Proof.
  intros paths P cap bad. pose proof (build_spec paths P) as A. cbv zeta in A. fold cap in A. fold bad in A.
  pose proof (bloom_bits_range (zlen paths)) as R. fold cap in R.
  destruct bad; [rewrite A; cbn [bind]; split; [intros [? X]|intros [X _]]; discriminate|].
  destruct A as (b & E & (F1 & F2 & F3) & H5 & H). rewrite E. cbn [bind]. rewrite <- bits_fit_Z by lia.
  pose proof (bloom_serialize_spec b [] ltac:(lia) ltac:(lia) ltac:(lia)) as Z. replace (length (bf_bits b)) with (Z.to_nat cap) in Z by (unfold zlen in F3; lia).
  destruct (bits_fit _).
  - destruct Z as (bw & bs & E' & _). rewrite E'. split; eauto.
  - rewrite Z. split; [intros [? X]|intros [_ X]]; discriminate.
Qed.
Lemma filter_44 : forall paths, Forall path_ok paths -> zlen paths = 44 ->
  (let* b := bloom_build Release paths in bloom_serialize b) = Panic PIndex.
Proof.
  intros paths P L. pose proof (build_spec paths P) as A. cbv zeta in A. rewrite L in A.
  assert (C : bloom_bits 44 = 275) by (vm_compute; reflexivity). rewrite C in A.
  destruct (existsb _ paths); [rewrite A; reflexivity|]. destruct A as (b & E & (F1 & F2 & F3) & H5 & H). rewrite E. cbn [bind].
  pose proof (bloom_serialize_spec b [] ltac:(lia) ltac:(lia) ltac:(lia)) as Z. replace (length (bf_bits b)) with 275%nat in Z by (unfold zlen in F3; lia). exact Z.
Qed.

(** shape of any filter that was built *)
Lemma foldM_inv : forall A B (I : B -> Prop) (f : B -> A -> outcome B) l b r, (forall b x r, I b -> f b x = Ret r -> I r) -> I b -> foldM f l b = Ret r -> I r.
Proof.
  intros A B I f l. induction l as [|x l IH]; intros b r H B0 E; cbn [foldM] in E; [apply ret_inj in E; subst; auto|].
  apply bind_ret in E. destruct E as (b1 & E1 & E2). eauto.
Qed.
Definition filter_shape (cap : Z) (b : bloom) : Prop := bf_size b = cap /\ zlen (bf_bits b) = cap /\ bf_hash_function_size b = 5.
Lemma build_shape : forall p paths b, bloom_build p paths = Ret b -> filter_shape (bloom_bits (zlen paths)) b.
Proof.
  intros p paths b H. apply build_rel in H. unfold bloom_build, bloom_empty in H. rewrite arithS_release in H by lia. cbn [bind] in H.
  replace (Z.max (wrapS 32 (bloom_raw_size (wrapS 32 (zlen paths)) + 1)) cfg_minimal_size) with (bloom_bits (zlen paths)) in H by (unfold bloom_bits, cfg_minimal_size; apply Z.max_comm).
  rewrite hash_count in H. change (Z.min 5 cfg_maximal_hash_function_size) with 5 in H. pose proof (bloom_bits_range (zlen paths)) as R. set (cap := bloom_bits (zlen paths)) in *. clearbody cap.
  refine (foldM_inv _ _ (filter_shape cap) _ _ _ _ _ _ H).
  - intros b0 s r (S1 & S2 & S3) E. unfold bloom_add in E. apply bind_ret in E. destruct E as (bits & E1 & E2). apply ret_inj in E2. subst r.
    split; [exact S1|]. split; [|exact S3]. cbn [bf_bits]. refine (foldM_inv _ _ (fun l => zlen l = cap) _ _ _ _ _ S2 E1).
    intros l f r L E. apply bind_ret in E. destruct E as (i & _ & E). unfold set_bit in E. destruct (_ <? _); [|discriminate]. apply ret_inj in E. subst r. unfold zlen. rewrite vec_set_length. exact L.
  - split; [reflexivity|]. split; [|reflexivity]. cbn [bloom_new bf_bits]. unfold zlen. rewrite repeat_length. lia.
Qed.
Lemma filter_roundtrip : forall p paths b bw, bloom_build p paths = Ret b -> bloom_serialize b = Ret bw ->
  exists blk, (forall rest, bloom_read (wbytes bw ++ rest) = Some (blk, rest)) /\ bb_size blk = bloom_bits (zlen paths) /\ bb_count blk = 5 /\
    (Forall path_ok paths -> forall s, In s paths -> might_contain blk s = true).
Proof.
  intros p paths b bw B S. destruct (build_shape _ _ _ B) as (F1 & F3 & H5). pose proof (bloom_bits_range (zlen paths)) as R.
  pose proof (bloom_serialize_spec b [] ltac:(lia) ltac:(lia) ltac:(lia)) as Z0. destruct (bits_fit (length (bf_bits b))) eqn:FT; [|rewrite S in Z0; discriminate].
  destruct Z0 as (bw0 & bs & E0 & RD & BA & _). rewrite E0 in S. injection S as ->.
  exists (mkBloomBlock bs (bf_size b) (bf_hash_function_size b)). split; [|split; [exact F1|split; [exact H5|]]].
  - intros rest. pose proof (bloom_serialize_spec b rest ltac:(lia) ltac:(lia) ltac:(lia)) as Z1. rewrite FT in Z1. destruct Z1 as (bw1 & bs1 & E1 & RD1 & _).
    rewrite E0 in E1. injection E1 as ->. rewrite RD1.
    assert (X : bs1 = bs); [|subst; reflexivity]. unfold bloom_serialize in E0. apply bind_ret in E0. destruct E0 as (bb & EB & E0). apply ret_inj in E0. subst bw1.
    destruct (serialize_bits_ok _ FT) as (b2 & EB2 & FB & L & _). rewrite EB in EB2. apply ret_inj in EB2. subst bb.
    assert (LB : 0 <= zlen b2 < 2 ^ 32) by (unfold zlen in *; lia).
    cbn [wbytes] in RD, RD1. unfold bloom_read in RD, RD1. rewrite <- !app_assoc in RD, RD1. rewrite wrapU_small in RD, RD1 by lia.
    rewrite var_u32_roundtrip, take_app in RD, RD1 by lia. rewrite wrapU_small in RD, RD1 by lia. rewrite var_u32_roundtrip in RD, RD1 by lia. rewrite wrapU_small in RD, RD1 by lia. rewrite var_u32_roundtrip in RD, RD1 by lia. congruence.
  - intros P s I. destruct (filter_complete p paths b bw [] P B E0) as (blk & X1 & _ & _ & X4). rewrite RD in X1. injection X1 as <-. auto.
Qed.
