(** What the calls through a pointer asked for: an invariant of C sessions (C64). *)
From Coq Require Import Lia.
From Verif Require Export PFfi.
Ltac Zify.zify_post_hook ::= idtac.

Lemma frun_length : forall p snap env calls st st' rets, frun p snap env st calls = CVal (st', rets) -> length rets = length calls.
Proof.
  intros p snap env. induction calls as [|c calls IH]; intros st st' rets R; cbn [frun] in R; [injection R as _ <-; reflexivity|].
  apply cbind_val in R. destruct R as ([s1 r1] & _ & R). apply cbind_val in R. destruct R as ([s2 r2] & R2 & R). cbn [fst snd] in *. injection R as _ <-. cbn [length]. f_equal. eauto.
Qed.
Lemma combine_snoc : forall A B (a : list A) (b : list B) x y, length b = length a -> combine (a ++ [x]) (b ++ [y]) = combine a b ++ [(x, y)].
Proof. intros A B. induction a as [|z a IH]; intros [|u b] x y L; cbn in *; try discriminate; auto. f_equal. apply IH. congruence. Qed.
Lemma asked_snoc : forall calls rets c r, length rets = length calls -> asked (calls ++ [c]) (rets ++ [r]) = asks (asked calls rets) (c, r).
Proof. intros calls rets c r L. unfold asked. rewrite combine_snoc, fold_left_app by assumption. reflexivity. Qed.

Section Exact.
Context (p : profile) (snap : compressor) (env : ffi_env).
Definition good_request (q : request) : Prop := utf8_ok (rq_device q) = true /\ utf8_ok (rq_name q) = true.
(** The writer of the requested schema has run the points. *)
Definition exact_run (q : request) (name : list Z) (pts : list point) (w : writer) : Prop := exists sc out w0,
  stands_for q sc /\ good_request q /\ writer_new sc (sink_new (e_sched env name)) = (out, Some w0) /\
  run p snap w0 (map op_of pts) = Ret (w, map (fun _ => AOk) pts).
Record ainv (calls : list fcall) (rets : list Z) (st : ffi) : Prop := {
  ai_bufs : k_bufs (asked calls rets) = f_bufs st;
  ai_schemas : forall h s, f_schemas st h = Some s -> exists q, k_schemas (asked calls rets) h = Some q /\ stands_for q (fs_schema s) /\ good_request q;
  ai_writers : forall h fw, f_writers st h = Some fw -> exists q, k_writers (asked calls rets) h = Some (fw_file fw, q) /\
    exact_run q (fw_file fw) (written h no_bufs calls) (fw_writer fw);
  ai_files : forall h n data, In (h, (n, data)) (f_files st) -> exists q, k_writers (asked calls rets) h = Some (n, q) /\
    exists w w', exact_run q n (written h no_bufs calls) w /\ step p snap w (OpClose (e_order env)) = Ret (w', AUnit) /\ data = file_bytes w' }.

Lemma expect_val : forall A (o : option A) a, expect o = CVal a -> o = Some a.
Proof. intros A [x|] a H; cbn in H; congruence. Qed.

Lemma ainv_step : forall calls rets st c st' r, length rets = length calls -> finv p snap env calls st -> ainv calls rets st ->
  fstep p snap env st c = CVal (st', r) -> ainv (calls ++ [c]) (rets ++ [r]) st'.
Proof.
  intros calls rets st c st' r LN FI I S. destruct FI as [Ib _ In_ _ _ If]. destruct I as [Ab As Aw Af].
  assert (W : forall h, written h no_bufs (calls ++ [c]) = written h no_bufs calls ++ written h (f_bufs st) [c]) by (intros h; rewrite written_snoc, Ib; reflexivity).
  assert (low_s : forall h s, f_schemas st h = Some s -> h < f_next st).
  { intros h s H. destruct (Z_lt_le_dec h (f_next st)) as [L|L]; [exact L|]. destruct (In_ h L) as (_ & X & _). congruence. }
  assert (low_w : forall h s, f_writers st h = Some s -> h < f_next st).
  { intros h s H. destruct (Z_lt_le_dec h (f_next st)) as [L|L]; [exact L|]. destruct (In_ h L) as (_ & _ & X). congruence. }
  destruct c as [a raw|a|da ma dt en co|h|na h|h da ma t n|h]; cbn [fstep] in S.
  - injection S as <- <-. constructor; rewrite asked_snoc by assumption; cbn [asks k_bufs k_schemas k_writers f_bufs f_schemas f_writers f_files]; auto.
    + cbn [bufs_after]. rewrite Ab. reflexivity.
    + intros h fw H. rewrite W, app_nil_r. auto.
    + intros h n data H. rewrite W, app_nil_r. auto.
  - injection S as <- <-. constructor; rewrite asked_snoc by assumption; cbn [asks k_bufs k_schemas k_writers f_bufs f_schemas f_writers f_files]; auto.
    + cbn [bufs_after]. rewrite Ab. reflexivity.
    + intros h fw H. rewrite W, app_nil_r. auto.
    + intros h n data H. rewrite W, app_nil_r. auto.
  - unfold ffi_schema_simple in S.
    apply cbind_val in S. destruct S as (d & Hd & S). apply cbind_val in S. destruct S as (m & Hm & S).
    apply cbind_val in S. destruct S as (d' & Td & S). apply cbind_val in S. destruct S as (m' & Tm & S).
    apply to_str_val in Td, Tm. destruct Td as [-> Td], Tm as [-> Tm].
    apply cbind_val in S. destruct S as (dt' & E1 & S). apply cbind_val in S. destruct S as (en' & E2 & S). apply cbind_val in S. destruct S as (co' & E3 & S).
    apply expect_val in E1, E2, E3.
    apply cbind_val in S. destruct S as (s & Hs & S). injection S as <- <-.
    change (schema_simple d m dt' en' co') with (Ret [(d, [(m, mkMS dt' en' co')])]) in Hs. injection Hs as <-.
    assert (Nd : name_at (f_bufs st) da = d) by (apply c_str_val in Hd; destruct Hd as (_ & rd & Bd & Ud); unfold name_at; rewrite Bd; apply before_nul_until; exact Ud).
    assert (Nm : name_at (f_bufs st) ma = m) by (apply c_str_val in Hm; destruct Hm as (_ & rm & Bm & Um); unfold name_at; rewrite Bm; apply before_nul_until; exact Um).
    constructor; rewrite asked_snoc by assumption; cbn [asks k_bufs k_schemas k_writers f_bufs f_schemas f_writers f_files]; auto.
    + intros h s. unfold upd. destruct (Z.eqb_spec h (f_next st)) as [->|N]; [|apply As]. intros E. injection E as <-. rewrite Ab, Nd, Nm.
      eexists. split; [reflexivity|]. split; [|split; assumption]. exists dt', en', co'. cbn [rq_type rq_encoding rq_compression rq_device rq_name fs_schema].
      assert (K1 : In (dt, dt') [(1, INT32); (2, INT64); (3, FLOAT)]) by (clear - E1; unfold dtype_of_code in E1; repeat (match goal with H : match ?x with _ => _ end = _ |- _ => destruct x end; try discriminate); injection E1 as <-; cbn; tauto).
      assert (K2 : In (en, en') [(0, PLAIN); (4, TS2DIFF)]) by (clear - E2; unfold encoding_of_code in E2; repeat (match goal with H : match ?x with _ => _ end = _ |- _ => destruct x end; try discriminate); injection E2 as <-; cbn; tauto).
      assert (K3 : In (co, co') [(0, UNCOMPRESSED); (1, SNAPPY)]) by (clear - E3; unfold compression_of_code in E3; repeat (match goal with H : match ?x with _ => _ end = _ |- _ => destruct x end; try discriminate); injection E3 as <-; cbn; tauto).
      auto.
    + intros h fw H. rewrite W, app_nil_r. auto.
    + intros h n data H. rewrite W, app_nil_r. auto.
  - unfold ffi_schema_free in S.
    assert (X : forall st2, f_bufs st2 = f_bufs st -> (forall x s, f_schemas st2 x = Some s -> f_schemas st x = Some s) -> f_writers st2 = f_writers st -> f_files st2 = f_files st -> ainv (calls ++ [FSchemaFree h]) (rets ++ [r]) st2).
    { intros st2 X1 X2 X3 X4. constructor; rewrite asked_snoc by assumption; cbn [asks]; rewrite ?X1, ?X3, ?X4; auto; [intros h' fw H|intros h' n data H]; rewrite W, app_nil_r; auto. }
    destruct (h =? 0); [injection S as <- <-; apply X; auto|]. destruct (f_schemas st h) as [s|]; [|discriminate]. injection S as <- <-. apply X; auto.
    intros x s'. cbn [f_schemas]. unfold upd. destruct (x =? h); [discriminate|auto].
  - unfold ffi_writer_new in S.
    apply cbind_val in S. destruct S as (n & Hn & S). destruct (f_schemas st h) as [s|] eqn:Es; [|discriminate].
    destruct (intact (f_bufs st) (fs_borrows s)); [|discriminate]. cbn [negb] in S.
    apply cbind_val in S. destruct S as (n' & Tn & S). apply to_str_val in Tn. destruct Tn as [-> _].
    apply cbind_val in S. destruct S as (ow & Hw & S). apply cbind_val in S. destruct S as (w & He & S). injection S as <- <-.
    assert (Nn : name_at (f_bufs st) na = n) by (apply c_str_val in Hn; destruct Hn as (_ & rd & Bd & Ud); unfold name_at; rewrite Bd; apply before_nul_until; exact Ud).
    destruct (As _ _ Es) as (q & Kq & Sq & Gq).
    constructor; rewrite asked_snoc by assumption; cbn [asks k_bufs k_schemas k_writers f_bufs f_schemas f_writers f_files]; auto.
    + intros x fw. rewrite W, app_nil_r. unfold upd. destruct (Z.eqb_spec x (f_next st)) as [->|N]; [|apply Aw]. intros E. injection E as <-. cbn [fw_file fw_writer].
      exists q. rewrite Kq, Ab, Nn. split; [reflexivity|].
      destruct (In_ (f_next st) (Z.le_refl _)) as (A & _). rewrite A. cbn [map].
      unfold file_new in Hw. destruct (negb (e_parent env n)); [injection Hw as <-; discriminate|].
      destruct (negb (e_create env n)); [discriminate|]. injection Hw as <-.
      destruct (writer_new (fs_schema s) (sink_new (e_sched env n))) as [out o] eqn:N. cbn [snd] in He. destruct o as [w0|]; [|discriminate]. injection He as <-.
      exists (fs_schema s), out, w0. split; [exact Sq|]. split; [exact Gq|]. split; [exact N|reflexivity].
    + intros x n' data H. rewrite W, app_nil_r. destruct (If _ _ _ H) as (LT & _). destruct (Z.eqb_spec x (f_next st)) as [->|N]; [lia|]. auto.
  - unfold ffi_write_int32 in S. destruct (Z.eqb_spec h 0) as [|H0]; [discriminate|].
    apply cbind_val in S. destruct S as (d & Hd & S). apply cbind_val in S. destruct S as (m & Hm & S).
    destruct (f_writers st h) as [fw|] eqn:Ew; [|discriminate]. destruct (intact (f_bufs st) (fw_borrows fw)); [|discriminate]. cbn [negb] in S.
    apply cbind_val in S. destruct S as (d' & Td & S). apply cbind_val in S. destruct S as (m' & Tm & S).
    apply to_str_val in Td, Tm. destruct Td as [-> _], Tm as [-> _].
    apply cbind_val in S. destruct S as ([w' a] & Hw & S). cbn [fst snd] in S.
    destruct (writer_write p snap d m t (VInt n) (fw_writer fw)) as [[w2 a2]|] eqn:WW; [|discriminate]. cbn [of_outcome] in Hw. injection Hw as -> ->.
    assert (a = AOk) as -> by (destruct (write_answer _ _ _ _ _ _ _ _ _ WW) as [->|[e ->]]; [reflexivity|discriminate]).
    injection S as <- <-.
    assert (Nd : name_at (f_bufs st) da = d) by (apply c_str_val in Hd; destruct Hd as (_ & rd & Bd & Ud); unfold name_at; rewrite Bd; apply before_nul_until; exact Ud).
    assert (Nm : name_at (f_bufs st) ma = m) by (apply c_str_val in Hm; destruct Hm as (_ & rm & Bm & Um); unfold name_at; rewrite Bm; apply before_nul_until; exact Um).
    assert (Wh : written h (f_bufs st) [FWriteInt32 h da ma t n] = [mkPoint d m t (VInt n)]) by (cbn [written]; rewrite Z.eqb_refl, Nd, Nm; reflexivity).
    assert (Wn : forall x, x <> h -> written x (f_bufs st) [FWriteInt32 h da ma t n] = []).
    { intros x N. cbn [written]. destruct (Z.eqb_spec h x); [congruence|reflexivity]. }
    constructor; rewrite asked_snoc by assumption; cbn [asks f_bufs f_schemas f_writers f_files]; auto.
    + intros x fw'. unfold upd. destruct (Z.eqb_spec x h) as [->|N].
      * intros E. injection E as <-. cbn [fw_file fw_writer]. rewrite W, Wh. destruct (Aw _ _ Ew) as (q & Kq & sc & out & w0 & B & G & N & R).
        exists q. split; [exact Kq|]. exists sc, out, w0. split; [assumption|]. split; [assumption|]. split; [assumption|].
        rewrite !map_app. cbn [map]. rewrite run_snoc, R. cbn [bind op_of pt_device pt_name pt_time pt_value step]. rewrite WW. reflexivity.
      * intros E. rewrite W, Wn, app_nil_r by assumption. auto.
    + intros x n' data H. destruct (If x n' data H) as (_ & B & _). assert (x <> h) by congruence. rewrite W, Wn, app_nil_r by assumption. auto.
  - unfold ffi_close in S. destruct (h =? 0).
    { injection S as <- <-. constructor; rewrite asked_snoc by assumption; cbn [asks]; auto; [intros x fw H|intros x n data H]; rewrite W, app_nil_r; auto. }
    destruct (f_writers st h) as [fw|] eqn:Ew; [|discriminate]. destruct (intact (f_bufs st) (fw_borrows fw)); [|discriminate]. cbn [negb] in S.
    apply cbind_val in S. destruct S as ([w' a] & Hw & S). cbn [fst snd] in S. injection S as <- <-.
    destruct (writer_close p snap (e_order env) (fw_writer fw)) as [[w2 a2]|] eqn:WC; [|discriminate]. cbn [of_outcome] in Hw. injection Hw as -> ->.
    assert (a = AUnit) as ->.
    { unfold writer_close in WC. apply bind_ret in WC. destruct WC as (x & _ & WC). apply bind_ret in WC. destruct WC as (y & _ & WC). injection WC as _ <-. reflexivity. }
    constructor; rewrite asked_snoc by assumption; cbn [asks f_bufs f_schemas f_writers f_files]; auto.
    + intros x fw'. rewrite W, app_nil_r. unfold upd. destruct (x =? h); [discriminate|apply Aw].
    + intros x n' data H. rewrite W, app_nil_r. apply in_app_or in H. destruct H as [H|[H|[]]]; [auto|].
      injection H as <- <- <-. destruct (Aw _ _ Ew) as (q & Kq & R). exists q. split; [exact Kq|]. exists (fw_writer fw), w'. auto.
Qed.
Lemma ainv_run : forall calls st rets, frun p snap env ffi_new calls = CVal (st, rets) -> ainv calls rets st.
Proof.
  induction calls as [|c calls IH] using rev_ind; intros st rets R.
  - injection R as <- <-. constructor; cbn; try discriminate; try tauto; auto.
  - rewrite frun_snoc in R. apply cbind_val in R. destruct R as ([st1 l1] & R1 & R). apply cbind_val in R. destruct R as ([st2 r2] & S & R).
    cbn [fst snd] in *. injection R as <- <-. exact (ainv_step _ _ _ _ _ _ (frun_length _ _ _ _ _ _ _ R1) (finv_run _ _ _ _ _ _ R1) (IH _ _ R1) S).
Qed.
End Exact.

