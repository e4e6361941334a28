(** The bytes of the filter (C55). *)
From Verif Require Export PLayoutCol PBloom PFloat64.
From Coq Require Import Permutation.
Ltac Zify.zify_post_hook ::= idtac.

Lemma trunc_whole : forall x, 0 <= sf_trunc i32_min i32_max x < i32_max -> whole x = sf_trunc i32_min i32_max x.
Proof.
  intros x. unfold sf_trunc, whole. destruct x as [s|s| |s m e]; auto.
  - destruct s; cbn; unfold i32_min, i32_max; lia.
  - cbv zeta. set (mag := if e <? 0 then Zpos m / 2 ^ (- e) else Zpos m * 2 ^ e).
    assert (0 <= mag). { unfold mag. destruct (Z.ltb_spec e 0); [apply Z.div_pos; [lia|apply Z.pow_pos_nonneg; lia]|apply Z.mul_nonneg_nonneg; [lia|apply Z.pow_nonneg; lia]]. }
    clearbody mag. unfold i32_min, i32_max. change (2 ^ 31) with 2147483648. change (2 ^ 32) with 4294967296. destruct s; lia.
Qed.
Lemma filter_size_bits : forall n, 0 <= n <= 300000000 -> filter_size n = bloom_bits n.
Proof.
  intros n H. unfold bloom_bits, filter_size. cbv zeta. rewrite (wrapS_small 32 n) by (change (2 ^ (32 - 1)) with 2147483648; lia).
  assert (R : 0 <= bloom_raw_size n < i32_max).
  { destruct (Z.eq_dec n 0) as [->|N]; [rewrite raw_size_0; unfold i32_max; lia|]. destruct (raw_size n ltac:(lia)) as (A & B & _). unfold i32_max in *. change (2 ^ 31) with 2147483648. lia. }
  assert (E : whole (SFdiv 53 1024 (SFdiv 53 1024 (SFmul 53 1024 (binary_normalize 53 1024 (- n) 0 false) (S754_finite true 6745789375439761 (-51))) (S754_finite false 6243314768165359 (-53))) (S754_finite false 6243314768165359 (-53))) = bloom_raw_size n).
  { apply trunc_whole. exact R. }
  rewrite E. rewrite wrapS_small; [f_equal; lia|lia|unfold i32_max in R; change (2 ^ (32 - 1)) with (2 ^ 31); lia].
Qed.

Definition lit (size : Z) (paths : list (list Z)) (i : Z) : bool :=
  existsb (fun q => existsb (fun s => Z.abs (path_hash q s) mod size =? i) [5; 7; 11; 19; 31]) paths.
Lemma adds_nth : forall cap paths b b', Forall path_ok paths -> 0 < cap < 2 ^ 31 -> filter_ok cap hash_seeds b ->
  foldM (fun b s => bloom_add Release s b) paths b = Ret b' ->
  forall j, nth j (bf_bits b') false = nth j (bf_bits b) false || lit cap paths (Z.of_nat j).
Proof.
  intros cap paths. induction paths as [|s paths IH]; intros b b' P C B H j; cbn [foldM] in H.
  - rinj H. cbn. rewrite orb_false_r. reflexivity.
  - apply bind_ret in H. destruct H as (b1 & H1 & H). pose proof B as (B1 & B2 & B3).
    assert (F : Forall (fun x => 0 <= x < 2 ^ 31) hash_seeds) by (unfold hash_seeds; repeat constructor; lia).
    unfold bloom_add in H1. rewrite B2, fold_hash in H1 by (auto; exact (Forall_inv P)). destruct (existsb _ hash_seeds); [discriminate|]. cbn [bind] in H1. assert (Q : forall A (a c : A), Ret a = Ret c -> a = c) by congruence. apply Q in H1. rewrite <- H1 in H. clear H1 b1 Q.
    match type of H with foldM _ _ ?bb = _ => assert (B' : filter_ok cap hash_seeds bb) by (repeat split; cbn [bf_size bf_func bf_bits]; auto; unfold zlen; rewrite set_all_length; exact B3) end.
    rewrite (IH _ _ (Forall_inv_tail P) C B' H j).
    cbn [bf_bits]. rewrite set_all_nth by (auto; lia). rewrite <- orb_assoc. f_equal. unfold lit. cbn [existsb]. f_equal.
      assert (X : forall l, existsb (fun seed => (j =? Z.to_nat (Z.abs (path_hash s seed) mod cap))%nat) l = existsb (fun s0 => Z.abs (path_hash s s0) mod cap =? Z.of_nat j) l).
      { induction l as [|x l IHl]; [reflexivity|]. cbn [existsb]. rewrite IHl. f_equal. pose proof (Z.mod_pos_bound (Z.abs (path_hash s x)) cap ltac:(lia)).
        apply eq_true_iff_eq. rewrite Nat.eqb_eq, Z.eqb_eq. lia. }
      apply X.
Qed.
Lemma build_bits : forall p paths b, Forall path_ok paths -> bloom_build p paths = Ret b ->
  forall j, nth j (bf_bits b) false = lit (bloom_bits (zlen paths)) paths (Z.of_nat j).
Proof.
  intros p paths b P H j. apply build_rel in H. unfold bloom_build, bloom_empty in H. rewrite arithS_release in H by lia. cbn [bind] in H.
  replace (Z.max (wrapS 32 (bloom_raw_size (wrapS 32 (zlen paths)) + 1)) cfg_minimal_size) with (bloom_bits (zlen paths)) in H by (unfold bloom_bits, cfg_minimal_size; apply Z.max_comm).
  rewrite hash_count in H. change (Z.min 5 cfg_maximal_hash_function_size) with 5 in H. pose proof (bloom_bits_range (zlen paths)) as R. set (cap := bloom_bits (zlen paths)) in *. clearbody cap.
  assert (B : filter_ok cap hash_seeds (bloom_new cap 5)).
  2: { rewrite (adds_nth cap paths (bloom_new cap 5) b P ltac:(lia) B H j). cbn [bloom_new bf_bits]. rewrite nth_repeat. reflexivity. }
  - unfold filter_ok, bloom_new. cbn [bf_size bf_func bf_bits]. split; [reflexivity|]. split; [reflexivity|]. unfold zlen. rewrite repeat_length. lia.
Qed.

Definition byte_of (on : Z -> bool) : Z := zsum (map (fun b => if on b then 2 ^ b else 0) [0; 1; 2; 3; 4; 5; 6; 7]).
Lemma byte_bits : forall v, isbyte v -> v = byte_of (Z.testbit v).
Proof.
  assert (A : forallb (fun k => Z.of_nat k =? byte_of (Z.testbit (Z.of_nat k))) (seq 0 256) = true) by (vm_compute; reflexivity).
  intros v [H1 H2]. rewrite forallb_forall in A. specialize (A (Z.to_nat v)). rewrite Z2Nat.id in A by auto. apply Z.eqb_eq. apply A. apply in_seq. lia.
Qed.
Lemma serialize_exact : forall bits bs, serialize_bits bits = Ret bs ->
  bs = rev (drop_zeros (rev (map (fun j => byte_of (fun b => nth (8 * j + Z.to_nat b) bits false)) (seq 0 ((length bits + 7) / 8))))).
Proof.
  intros bits bs H. destruct (bits_fit (length bits)) eqn:FT; [|rewrite serialize_bits_panic in H by auto; discriminate].
  unfold serialize_bits in H. cbv zeta in H. set (n := length bits) in *.
  pose proof (Nat.div_mod n 8 ltac:(lia)) as D. pose proof (Nat.mod_upper_bound n 8 ltac:(lia)) as M. unfold bits_fit in FT.
  assert (NB : (if (n mod 8 =? 0)%nat then (n / 8)%nat else ((n + n mod 8) / 8)%nat) = ((n + 7) / 8)%nat).
  { destruct (Nat.eqb_spec (n mod 8) 0) as [E|E].
    - apply (Nat.div_unique (n + 7) 8 _ 7); lia.
    - assert (4 <= n mod 8)%nat. { destruct (Nat.leb_spec 1 (n mod 8)), (Nat.leb_spec (n mod 8) 3); cbn in FT; try discriminate; lia. }
      transitivity (n / 8 + 1)%nat; [symmetry; apply (Nat.div_unique _ 8 _ (2 * (n mod 8) - 8)); lia|apply (Nat.div_unique _ 8 _ (n mod 8 - 1)); lia]. }
  rewrite NB in H. destruct (bits_loop_spec bits 0 (repeat 0 ((n + 7) / 8))) as (res & E & L & F & B).
  - apply Forall_forall. intros x I. apply repeat_spec in I. subst x. unfold isbyte. lia.
  - rewrite repeat_length. fold n. rewrite Nat.add_0_l. lia.
  - rewrite E in H. cbn [bind] in H. rinj H. unfold strip_trailing_zeros. change strip_leading_zeros with drop_zeros. do 3 f_equal.
    rewrite repeat_length in L. apply (nth_ext _ _ 0 0); [rewrite map_length, seq_length; exact L|]. intros j Hj.
    assert (BJ : isbyte (nth j res 0)) by (rewrite Forall_forall in F; apply F; apply nth_In; auto).
    rewrite (byte_bits _ BJ). match goal with |- _ = nth j (map ?g0 _) 0 => set (g := g0); rewrite (nth_indep (map g (seq 0 ((n + 7) / 8))) 0 (g 0%nat)) by (rewrite map_length, seq_length; lia) end.
    rewrite (map_nth g), seq_nth by lia. rewrite Nat.add_0_l. unfold g. unfold byte_of. f_equal. apply map_ext_in. intros k K.
    assert (T : Z.testbit (nth j res 0) k = nth (8 * j + Z.to_nat k) bits false).
    { assert (HK : 0 <= k < 8) by (cbn in K; lia). pose proof (B (8 * j + Z.to_nat k)%nat) as BK. rewrite Nat.sub_0_r in BK. cbn [Nat.leb] in BK.
      unfold bit_at in BK. replace ((8 * j + Z.to_nat k) / 8)%nat with j in BK by (apply (Nat.div_unique _ 8 _ (Z.to_nat k)); lia).
      replace ((8 * j + Z.to_nat k) mod 8)%nat with (Z.to_nat k) in BK by (apply (Nat.mod_unique _ 8 j); lia). rewrite Z2Nat.id in BK by lia. rewrite BK.
      rewrite nth_repeat, Z.bits_0. cbn [orb]. destruct (Nat.ltb_spec (8 * j + Z.to_nat k) (0 + length bits)); cbn [andb]; [reflexivity|]. rewrite nth_overflow; auto. }
    rewrite T. reflexivity.
Qed.

Lemma lit_perm : forall size a b i, Permutation a b -> lit size a i = lit size b i.
Proof.
  intros size a b i P. unfold lit. apply eq_true_iff_eq. rewrite !existsb_exists. split; intros (x & I & E); exists x; split; auto; [apply (Permutation_in _ P)|apply (Permutation_in _ (Permutation_sym P))]; auto.
Qed.
Definition lit_image (paths : list (list Z)) : list Z :=
  let size := filter_size (zlen paths) in
  let byte j := zsum (map (fun b => if lit size paths (8 * Z.of_nat j + b) then 2 ^ b else 0) [0; 1; 2; 3; 4; 5; 6; 7]) in
  let bs := rev (drop_zeros (rev (map byte (seq 0 (Z.to_nat ((size + 7) / 8)))))) in
  SLayout.leb (zlen bs) ++ bs ++ SLayout.leb size ++ SLayout.leb 5.
Lemma ones_lit : forall size paths i,
  existsb (fun k => k =? i) (flat_map (fun q => map (fun s => Z.abs (path_hash q s) mod size) [5; 7; 11; 19; 31]) paths) = lit size paths i.
Proof.
  intros size paths i. unfold lit. apply eq_true_iff_eq. rewrite !existsb_exists. split.
  - intros (k & I & E). apply in_flat_map in I. destruct I as (q & Q & I). apply in_map_iff in I. destruct I as (s & <- & S). exists q. split; auto. apply existsb_exists. exists s. auto.
  - intros (q & Q & E). apply existsb_exists in E. destruct E as (s & S & E). exists (Z.abs (path_hash q s) mod size). split; auto. apply in_flat_map. exists q. split; auto. apply in_map_iff. exists s. auto.
Qed.
Lemma filter_image_lit : forall paths, filter_image paths = lit_image paths.
Proof.
  intros paths. unfold filter_image, lit_image. cbv zeta. set (size := filter_size (zlen paths)).
  assert (E : forall j, zsum (map (fun b0 => if existsb (fun k => k =? 8 * Z.of_nat j + b0) (flat_map (fun q => map (fun s => Z.abs (path_hash q s) mod size) [5; 7; 11; 19; 31]) paths) then 2 ^ b0 else 0) [0; 1; 2; 3; 4; 5; 6; 7]) =
                        zsum (map (fun b0 => if lit size paths (8 * Z.of_nat j + b0) then 2 ^ b0 else 0) [0; 1; 2; 3; 4; 5; 6; 7])).
  { intros j. f_equal. apply map_ext. intros k. rewrite ones_lit. reflexivity. }
  rewrite (map_ext _ _ E). reflexivity.
Qed.
Lemma filter_image_perm : forall a b, Permutation a b -> filter_image a = filter_image b.
Proof.
  intros a b P. rewrite !filter_image_lit. unfold lit_image. cbv zeta. replace (zlen b) with (zlen a) by (unfold zlen; rewrite (Permutation_length P); auto).
  assert (E : forall j, zsum (map (fun b0 => if lit (filter_size (zlen a)) a (8 * Z.of_nat j + b0) then 2 ^ b0 else 0) [0; 1; 2; 3; 4; 5; 6; 7]) =
                        zsum (map (fun b0 => if lit (filter_size (zlen a)) b (8 * Z.of_nat j + b0) then 2 ^ b0 else 0) [0; 1; 2; 3; 4; 5; 6; 7])).
  { intros j. f_equal. apply map_ext. intros k. rewrite (lit_perm _ a b) by auto. reflexivity. }
  rewrite (map_ext _ _ E). reflexivity.
Qed.
Lemma filter_exact : forall p paths b bw, Forall path_ok paths -> zlen paths <= 300000000 -> bloom_build p paths = Ret b -> bloom_serialize b = Ret bw ->
  wbytes bw = filter_image paths.
Proof.
  intros p paths b bw P L B S. destruct (build_shape _ _ _ B) as (F1 & F3 & F5). pose proof (build_bits _ _ _ P B) as BB. pose proof (bloom_bits_range (zlen paths)) as R. pose proof (zlen_nonneg _ paths).
  unfold bloom_serialize in S. apply bind_ret in S. destruct S as (bs & E & S). rinj S. pose proof (serialize_exact _ _ E) as X.
  rewrite filter_image_lit. unfold lit_image. cbv zeta. rewrite filter_size_bits by lia. unfold lit. set (cap := bloom_bits (zlen paths)) in *.
  assert (Y : bs = rev (drop_zeros (rev (map (fun j => zsum (map (fun b0 => if existsb (fun q => existsb (fun s => Z.abs (path_hash q s) mod cap =? 8 * Z.of_nat j + b0) [5; 7; 11; 19; 31]) paths then 2 ^ b0 else 0) [0; 1; 2; 3; 4; 5; 6; 7])) (seq 0 (Z.to_nat ((cap + 7) / 8))))))).
  { rewrite X. do 3 f_equal. replace (Z.to_nat ((cap + 7) / 8)) with ((length (bf_bits b) + 7) / 8)%nat.
    - apply map_ext. intros j. unfold byte_of. f_equal. apply map_ext_in. intros k K. rewrite BB. unfold lit. assert (HK : 0 <= k < 8) by (cbn in K; lia).
      replace (Z.of_nat (8 * j + Z.to_nat k)) with (8 * Z.of_nat j + k) by lia. reflexivity.
    - unfold zlen in F3. rewrite <- F3. change 8 with (Z.of_nat 8). change 7 with (Z.of_nat 7). rewrite <- Nat2Z.inj_add, <- Nat2Z.inj_div, Nat2Z.id by lia. reflexivity. }
  rewrite <- Y. cbn [wbytes]. rewrite F1, F5.
  assert (LB : zlen bs < 2 ^ 32).
  { destruct (bits_fit (length (bf_bits b))) eqn:FT; [|rewrite serialize_bits_panic in E by auto; discriminate]. destruct (serialize_bits_ok _ FT) as (b2 & EB2 & _ & LL & _). rewrite E in EB2. rinj EB2. unfold zlen in *. lia. }
  pose proof (zlen_nonneg _ bs). rewrite !wrapU_small by lia. rewrite !leb_var by lia. rewrite app_nil_r. reflexivity.
Qed.
