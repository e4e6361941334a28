(** Debug and release builds: whatever does not panic with overflow checks gives the same result
    without them. *)
From Verif Require Import PTs2 PPanic.

Definition refines {A} (a b : outcome A) : Prop := forall x, a = Ret x -> b = Ret x.

Lemma refines_refl : forall A (a : outcome A), refines a a.
Proof. intros A a x H. exact H. Qed.
Lemma refines_panic : forall A q (b : outcome A), refines (Panic q) b.
Proof. intros A q b x H. discriminate. Qed.
Lemma refines_bind : forall A B (a a' : outcome A) (f f' : A -> outcome B),
  refines a a' -> (forall x, refines (f x) (f' x)) -> refines (bind a f) (bind a' f').
Proof. intros A B a a' f f' H K x E. destruct a as [y|q]; [|discriminate]. rewrite (H y eq_refl). exact (K y x E). Qed.

Lemma arithU_refines : forall n v, refines (arithU Debug n v) (arithU Release n v).
Proof. intros n v x H. unfold arithU in *. destruct (_ && _); [exact H|discriminate]. Qed.
Lemma arithS_refines : forall n v, refines (arithS Debug n v) (arithS Release n v).
Proof. intros n v x H. unfold arithS in *. destruct (_ && _); [exact H|discriminate]. Qed.

Lemma mapM_refines : forall A B (f g : A -> outcome B) l, (forall a, refines (f a) (g a)) -> refines (mapM f l) (mapM g l).
Proof.
  intros A B f g l H. induction l as [|a l IH]; cbn [mapM]; [apply refines_refl|].
  apply refines_bind; [apply H|]. intros y. apply refines_bind; [exact IH|]. intros ys. apply refines_refl.
Qed.
Lemma foldM_refines : forall A B (f g : B -> A -> outcome B) l b, (forall b a, refines (f b a) (g b a)) -> refines (foldM f l b) (foldM g l b).
Proof.
  intros A B f g l b H. revert b. induction l as [|a l IH]; intros b; cbn [foldM]; [apply refines_refl|].
  apply refines_bind; [apply H|]. exact IH.
Qed.
Lemma sm_mapM_refines : forall A B (f g : A -> outcome B) m, (forall a, refines (f a) (g a)) -> refines (sm_mapM f m) (sm_mapM g m).
Proof.
  intros A B f g m H. induction m as [|(k, v) m IH]; cbn [sm_mapM]; [apply refines_refl|].
  apply refines_bind; [apply H|]. intros y. apply refines_bind; [exact IH|]. intros ys. apply refines_refl.
Qed.

Create HintDb prof discriminated.
Global Hint Constants Opaque : prof.
Global Hint Resolve refines_panic arithU_refines arithS_refines : prof.
(** Walk through a function body: bind by bind, and through every [match]. *)
Ltac prof :=
  repeat first
    [ match goal with |- refines ?a ?b => constr_eq a b; apply refines_refl end
    | solve [auto 2 with prof nocore]
    | progress intros
    | apply refines_bind; [solve [auto 2 with prof nocore]|]
    | apply refines_bind
    | apply foldM_refines
    | apply mapM_refines
    | apply sm_mapM_refines
    | match goal with |- refines (match ?x with _ => _ end) _ => destruct x end ].

Lemma ts2_flush_refines : forall k e, refines (ts2_flush Debug k e) (ts2_flush Release k e).
Proof. unfold ts2_flush. prof. Qed.
Global Hint Resolve ts2_flush_refines : prof.
Lemma ts2_write_refines : forall k v e, refines (ts2_write Debug k v e) (ts2_write Release k v e).
Proof. unfold ts2_write. prof. Qed.
Lemma ts2_serialize_refines : forall k e, refines (ts2_serialize Debug k e) (ts2_serialize Release k e).
Proof. unfold ts2_serialize. prof. Qed.
Global Hint Resolve ts2_write_refines ts2_serialize_refines : prof.
Lemma encoder_write_refines : forall v e, refines (encoder_write Debug v e) (encoder_write Release v e).
Proof. unfold encoder_write. prof. Qed.
Lemma encoder_serialize_refines : forall e, refines (encoder_serialize Debug e) (encoder_serialize Release e).
Proof. unfold encoder_serialize. prof. Qed.
Lemma sum_add_refines : forall a b, refines (sum_add Debug a b) (sum_add Release a b).
Proof. unfold sum_add. prof. Qed.
Global Hint Resolve encoder_write_refines encoder_serialize_refines sum_add_refines : prof.
Lemma stats_update_raw_refines : forall t v s, refines (stats_update_raw Debug t v s) (stats_update_raw Release t v s).
Proof. unfold stats_update_raw. prof. Qed.
Lemma stats_merge_refines : forall s o, refines (stats_merge Debug s o) (stats_merge Release s o).
Proof. unfold stats_merge. prof. Qed.
Global Hint Resolve stats_update_raw_refines stats_merge_refines : prof.
Lemma stats_update_refines : forall t v s, refines (stats_update Debug t v s) (stats_update Release t v s).
Proof. unfold stats_update. prof. Qed.
Global Hint Resolve stats_update_refines : prof.

Lemma pw_estimate_refines : forall w, refines (pw_estimate Debug w) (pw_estimate Release w).
Proof. unfold pw_estimate. prof. Qed.
Lemma pw_write_refines : forall t v w, refines (pw_write Debug t v w) (pw_write Release t v w).
Proof. unfold pw_write. prof. Qed.
Lemma pw_prepare_refines : forall w, refines (pw_prepare Debug w) (pw_prepare Release w).
Proof. unfold pw_prepare. prof. Qed.
Global Hint Resolve pw_estimate_refines pw_write_refines pw_prepare_refines : prof.
Lemma write_page_refines : forall snap c, refines (write_page_to_buffer Debug snap c) (write_page_to_buffer Release snap c).
Proof. unfold write_page_to_buffer. prof. Qed.
Global Hint Resolve write_page_refines : prof.
Lemma check_page_refines : forall snap c, refines (check_page_size Debug snap c) (check_page_size Release snap c).
Proof. unfold check_page_size. prof. Qed.
Lemma seal_refines : forall snap c, refines (seal_current_page Debug snap c) (seal_current_page Release snap c).
Proof. unfold seal_current_page. prof. Qed.
Global Hint Resolve check_page_refines seal_refines : prof.
Lemma cw_write_refines : forall snap t v c, refines (cw_write Debug snap t v c) (cw_write Release snap t v c).
Proof. unfold cw_write. prof. Qed.
Lemma cw_estimate_refines : forall c, refines (cw_estimate Debug c) (cw_estimate Release c).
Proof. unfold cw_estimate. prof. Qed.
Lemma write_to_file_refines : forall snap c w, refines (write_to_file_writer Debug snap c w) (write_to_file_writer Release snap c w).
Proof. unfold write_to_file_writer. prof. Qed.
Global Hint Resolve cw_write_refines cw_estimate_refines write_to_file_refines : prof.

Lemma gw_write_refines : forall snap m t v g, refines (gw_write Debug snap m t v g) (gw_write Release snap m t v g).
Proof. unfold gw_write. prof. Qed.
Global Hint Resolve gw_write_refines : prof.
Lemma gw_write_many_refines : forall snap t vs n g, refines (gw_write_many Debug snap t vs n g) (gw_write_many Release snap t vs n g).
Proof. intros snap t vs. induction vs as [|(m, v) vs IH]; intros n g; cbn [gw_write_many]; prof. Qed.
Lemma flush_chunks_refines : forall snap cs w, refines (flush_chunks Debug snap cs w) (flush_chunks Release snap cs w).
Proof. intros snap cs. induction cs as [|(k, c) cs IH]; intros w; cbn [flush_chunks]; prof. Qed.
Global Hint Resolve gw_write_many_refines flush_chunks_refines : prof.
Lemma flush_to_refines : forall snap g w, refines (flush_to_filewriter Debug snap g w) (flush_to_filewriter Release snap g w).
Proof. unfold flush_to_filewriter, seal_all_chunks. prof. Qed.
Lemma gw_mem_refines : forall g, refines (gw_mem_size Debug g) (gw_mem_size Release g).
Proof. unfold gw_mem_size. prof. Qed.
Global Hint Resolve flush_to_refines gw_mem_refines : prof.
Lemma flush_groups_refines : forall snap gs io, refines (flush_groups Debug snap gs io) (flush_groups Release snap gs io).
Proof. intros snap gs. induction gs as [|(d, g) gs IH]; intros io; cbn [flush_groups]; prof. Qed.
Global Hint Resolve flush_groups_refines : prof.
Lemma flush_all_refines : forall snap w, refines (flush_all Debug snap w) (flush_all Release snap w).
Proof. unfold flush_all. prof. Qed.
Lemma mem_size_refines : forall gs, refines (mem_size Debug gs) (mem_size Release gs).
Proof. unfold mem_size. prof. Qed.
Global Hint Resolve flush_all_refines mem_size_refines : prof.
Lemma check_memory_refines : forall snap w, refines (check_memory Debug snap w) (check_memory Release snap w).
Proof. unfold check_memory. prof. Qed.
Global Hint Resolve check_memory_refines : prof.

Lemma mm_round_refines : forall k1 k2 h, refines (mm_round Debug k1 k2 h) (mm_round Release k1 k2 h).
Proof. unfold mm_round. prof. Qed.
Global Hint Resolve mm_round_refines : prof.
Lemma mm_body_refines : forall key n i h, refines (mm_body Debug key i n h) (mm_body Release key i n h).
Proof. intros key n. induction n as [|n IH]; intros i h; cbn [mm_body]; prof. Qed.
Global Hint Resolve mm_body_refines : prof.
Lemma inner_hash_refines : forall key s, refines (inner_hash Debug key s) (inner_hash Release key s).
Proof.
  intros. unfold inner_hash. apply refines_bind; [auto with prof|]. intros (h1, h2).
  destruct (mm_tail _ _ _ _) as (((?, ?), ?), ?). prof.
Qed.
Global Hint Resolve inner_hash_refines : prof.
Lemma hash_function_refines : forall f v, refines (hash_function Debug f v) (hash_function Release f v).
Proof. unfold hash_function, murmur_hash, abs_i32. prof. Qed.
Global Hint Resolve hash_function_refines : prof.
Lemma bloom_build_refines : forall l, refines (bloom_build Debug l) (bloom_build Release l).
Proof. unfold bloom_build, bloom_empty, bloom_add. prof. Qed.
Lemma ts_meta_refines : forall l, refines (ts_meta_of Debug l) (ts_meta_of Release l).
Proof. unfold ts_meta_of. prof. Qed.
Global Hint Resolve bloom_build_refines ts_meta_refines : prof.
Lemma metadata_loop_refines : forall l last acc, refines (metadata_loop Debug last l acc) (metadata_loop Release last l acc).
Proof. induction l as [|(q, md) l IH]; intros last acc; cbn [metadata_loop]; prof. Qed.
Global Hint Resolve metadata_loop_refines : prof.
Lemma end_file_refines : forall ord w, refines (end_file Debug ord w) (end_file Release ord w).
Proof. unfold end_file. prof. Qed.
Global Hint Resolve end_file_refines : prof.
Lemma step_refines : forall snap w o, refines (step Debug snap w o) (step Release snap w o).
Proof. unfold step, writer_write, writer_write_many, writer_close. prof. Qed.
Global Hint Resolve step_refines : prof.

Lemma run_refines : forall snap ops w, refines (run Debug snap w ops) (run Release snap w ops).
Proof. intros snap ops. induction ops as [|o ops IH]; intros w; cbn [run]; prof. Qed.
Lemma trace_refines : forall snap sc w h ops l, trace Debug snap sc w h ops l -> trace Release snap sc w h ops l.
Proof.
  intros snap sc w h ops l T. induction T as [out w E|w h ops l o w' a T IH E]; [econstructor; eassumption|].
  econstructor; [exact IH|]. exact (step_refines _ _ _ _ E).
Qed.

(** ** Overflow checks in the hash: no path of sixteen or more bytes can be hashed *)
Definition plain_byte (b : Z) : Prop := 0 < b < 255.
Lemma block_big : forall key, Forall isbyte key -> (exists i, (1 <= i <= 7)%nat /\ plain_byte (nth i key 0)) ->
  ~ (- 1 <= get_block key 0 0 <= 1).
Proof.
  intros key HB (i & Hi & Pl).
  assert (B : forall j, 0 <= nth j key 0 < 256).
  { intros j. destruct (Nat.lt_ge_cases j (length key)) as [L|L]; [|rewrite nth_overflow by lia; lia].
    rewrite Forall_forall in HB. exact (HB _ (nth_In key 0 L)). }
  unfold get_block, mm_at. cbn [Nat.mul Nat.add]. rewrite !Z.shiftl_mul_pow2 by lia.
  pose proof (B 0%nat). pose proof (B 1%nat). pose proof (B 2%nat). pose proof (B 3%nat).
  pose proof (B 4%nat). pose proof (B 5%nat). pose proof (B 6%nat). pose proof (B 7%nat).
  assert (W : wrapS 64 (nth 7 key 0 * 2 ^ 56) = nth 7 key 0 * 2 ^ 56 - (if nth 7 key 0 <? 128 then 0 else 2 ^ 64)).
  { unfold wrapS. rewrite Z.mod_small by (change (2 ^ 64) with (256 * 2 ^ 56); lia).
    change (2 ^ (64 - 1)) with (128 * 2 ^ 56). change (2 ^ 56) with 72057594037927936. change (2 ^ 64) with 18446744073709551616.
    destruct (Z.ltb_spec (nth 7 key 0) 128); destruct (Z.ltb_spec (nth 7 key 0 * 72057594037927936) (128 * 72057594037927936)); lia. }
  rewrite W. clear W B HB. unfold plain_byte in Pl.
  assert (C : i = 1%nat \/ i = 2%nat \/ i = 3%nat \/ i = 4%nat \/ i = 5%nat \/ i = 6%nat \/ i = 7%nat) by lia.
  destruct (nth 7 key 0 <? 128) eqn:E; repeat destruct C as [->|C]; try subst i; lia.
Qed.
Lemma round_panics : forall k1 k2 h, ~ (- 1 <= k1 <= 1) -> mm_round Debug k1 k2 h = Panic POverflow.
Proof.
  intros k1 k2 [h1 h2] K. unfold mm_round. replace (arithS Debug 64 (k1 * mm_c1)) with (@Panic Z POverflow); [reflexivity|].
  unfold arithS. change mm_c1 with (- 8663945395140668459). destruct (_ && _) eqn:E; [exfalso|reflexivity]. lia.
Qed.
Lemma hash_panics : forall key s, (16 <= length key)%nat -> Forall isbyte key -> (exists i, (1 <= i <= 7)%nat /\ plain_byte (nth i key 0)) ->
  inner_hash Debug key s = Panic POverflow.
Proof.
  intros key s L HB PB. unfold inner_hash. destruct (length key / 16)%nat as [|n] eqn:E.
  - apply Nat.div_small_iff in E; lia.
  - cbn [mm_body]. change (0 * 2)%nat with 0%nat. rewrite round_panics; [reflexivity|]. apply block_big; auto.
Qed.
Lemma bloom_empty_func : forall p n b, bloom_empty p n = Ret b -> exists c, In (c, 5) (bf_func b).
Proof.
  intros p n b H. unfold bloom_empty in H. apply bind_ret in H. destruct H as (sz & _ & H). rinj H.
  exists (Z.max sz cfg_minimal_size). cbn [bloom_new bf_func].
  replace (Z.to_nat (Z.min bloom_hash_count cfg_maximal_hash_function_size)) with 5%nat by (vm_compute; reflexivity). left. reflexivity.
Qed.
Lemma foldM_in : forall A B (f : B -> A -> outcome B) (I : B -> Prop) l b r a, I b -> (forall b a b', I b -> f b a = Ret b' -> I b') ->
  In a l -> foldM f l b = Ret r -> exists b' r', I b' /\ f b' a = Ret r'.
Proof.
  intros A B f I l. induction l as [|x l IH]; intros b r a Hb Hs Hin H; [destruct Hin|]. cbn [foldM] in H. apply bind_ret in H. destruct H as (b1 & H1 & H).
  destruct Hin as [->|Hin]; [eauto|]. eapply (IH b1); eauto.
Qed.
Lemma build_panics : forall paths q, In q paths -> (16 <= length q)%nat -> Forall isbyte q -> (exists i, (1 <= i <= 7)%nat /\ plain_byte (nth i q 0)) ->
  forall b, bloom_build Debug paths <> Ret b.
Proof.
  intros paths q I L HB PB b H. unfold bloom_build in H. apply bind_ret in H. destruct H as (b0 & H0 & H).
  destruct (bloom_empty_func _ _ _ H0) as [c IC].
  assert (K : forall b1 a b2, bf_func b1 = bf_func b0 -> bloom_add Debug a b1 = Ret b2 -> bf_func b2 = bf_func b0).
  { intros b1 a b2 E Hb. unfold bloom_add in Hb. apply bind_ret in Hb. destruct Hb as (bits & _ & Hb). rinj Hb. exact E. }
  destruct (foldM_in _ _ _ (fun b => bf_func b = bf_func b0) _ _ _ q eq_refl K I H) as (b1 & r1 & E1 & A).
  unfold bloom_add in A. apply bind_ret in A. destruct A as (bits & A & _). rewrite E1 in A.
  destruct (foldM_in _ _ _ (fun _ => True) _ _ _ (c, 5) Logic.I (fun _ _ _ _ _ => Logic.I) IC A) as (b2 & r2 & _ & F).
  apply bind_ret in F. destruct F as (i & F & _). unfold hash_function, murmur_hash in F. rewrite hash_panics in F; auto. discriminate.
Qed.
Lemma debug_close_panics : forall snap decomp sc w h ops l ord d m, good_snap snap decomp -> schema_ok sc -> trace Debug snap sc w h ops l -> ops_ok ops -> no_close ops = true ->
  h_recent h = [] \/ 0 < h_counted h -> byte_names sc -> series_of d m (h_all h) <> [] ->
  let q := d ++ [46] ++ m in (16 <= length q)%nat -> (exists i, (1 <= i <= 7)%nat /\ plain_byte (nth i q 0)) ->
  forall r, step Debug snap w (OpClose ord) <> Ret r.
Proof.
  intros snap decomp sc w h ops l ord d m HG Hs T O NC HR BN X q L PB [w' a] H.
  destruct (close_parts Debug snap decomp HG sc Hs _ _ _ _ _ _ _ T O NC H) as (w1 & its & I & G & E). pose proof (kept_all h HR) as KA.
  assert (SE : its_series d m its <> []) by (rewrite (wi_series _ _ _ _ _ _ I), KA; auto).
  pose proof (wi_items _ _ _ _ _ _ I) as HI. unfold end_file in E. rewrite (wi_metas _ _ _ _ _ _ I) in E.
  apply bind_ret in E. destruct E as (tsm & _ & E). apply bind_ret in E. destruct E as ([idx o1] & _ & E). apply bind_ret in E. destruct E as (bf & B1 & E).
  destruct (series_declared Debug snap sc Hs its HI d m SE) as (ms & D).
  eapply build_panics; [|exact L|exact (BN d m ms D)|exact PB|exact B1].
  apply (key_series Debug snap decomp HG sc Hs its 7 HI). exists d, m. auto.
Qed.
