(** Proofs about the C interface (C45). *)
From Coq Require Import Lia.
From Verif Require Export SFfi PCompare.
Ltac Zify.zify_post_hook ::= idtac.

(** ** UTF-8 *)
Lemma utf8_encode_ok : forall c l, scalar c -> utf8_ok (utf8_encode c ++ l) = utf8_ok l.
Proof.
  intros c l S. unfold scalar in S. unfold utf8_encode.
  destruct (Z.ltb_spec c 0x80); [|destruct (Z.ltb_spec c 0x800); [|destruct (Z.ltb_spec c 0x10000)]]; cbn [app utf8_ok].
  - assert (in_span 0 0x7F c = true) as -> by (unfold in_span; lia). reflexivity.
  - pose proof (Z.div_mod c 64 ltac:(lia)). pose proof (Z.mod_pos_bound c 64 ltac:(lia)).
    assert (in_span 0 0x7F (0xC0 + c / 64) = false) as -> by (unfold in_span; lia).
    assert (in_span 0xC2 0xDF (0xC0 + c / 64) = true) as -> by (unfold in_span; lia).
    assert (in_span 0x80 0xBF (0x80 + c mod 64) = true) as -> by (unfold in_span; lia). reflexivity.
  - pose proof (Z.div_mod c 64 ltac:(lia)). pose proof (Z.mod_pos_bound c 64 ltac:(lia)).
    pose proof (Z.div_mod (c / 64) 64 ltac:(lia)) as Q. pose proof (Z.mod_pos_bound (c / 64) 64 ltac:(lia)).
    rewrite Z.div_div in Q by lia. change (64 * 64) with 4096 in Q.
    assert (in_span 0 0x7F (0xE0 + c / 4096) = false) as -> by (unfold in_span; lia).
    assert (in_span 0xC2 0xDF (0xE0 + c / 4096) = false) as -> by (unfold in_span; lia).
    assert (in_span 0xE0 0xEF (0xE0 + c / 4096) = true) as -> by (unfold in_span; lia).
    assert (in_span 0x80 0xBF (0x80 + c mod 64) = true) as -> by (unfold in_span; lia).
    assert (in_span (if 0xE0 + c / 4096 =? 0xE0 then 0xA0 else 0x80) (if 0xE0 + c / 4096 =? 0xED then 0x9F else 0xBF) (0x80 + c / 64 mod 64) = true) as ->.
    { destruct (Z.eqb_spec (0xE0 + c / 4096) 0xE0), (Z.eqb_spec (0xE0 + c / 4096) 0xED); unfold in_span; lia. }
    reflexivity.
  - pose proof (Z.div_mod c 64 ltac:(lia)). pose proof (Z.mod_pos_bound c 64 ltac:(lia)).
    pose proof (Z.div_mod (c / 64) 64 ltac:(lia)) as Q. pose proof (Z.mod_pos_bound (c / 64) 64 ltac:(lia)).
    pose proof (Z.div_mod (c / 64 / 64) 64 ltac:(lia)) as R. pose proof (Z.mod_pos_bound (c / 64 / 64) 64 ltac:(lia)) as B.
    rewrite !Z.div_div in * by lia. change (64 * 64) with 4096 in *. change (64 * 64 * 64) with 262144 in *. change (64 * 4096) with 262144 in *. change (4096 * 64) with 262144 in *.
    assert (in_span 0 0x7F (0xF0 + c / 262144) = false) as -> by (unfold in_span; lia).
    assert (in_span 0xC2 0xDF (0xF0 + c / 262144) = false) as -> by (unfold in_span; lia).
    assert (in_span 0xE0 0xEF (0xF0 + c / 262144) = false) as -> by (unfold in_span; lia).
    assert (in_span 0xF0 0xF4 (0xF0 + c / 262144) = true) as -> by (unfold in_span; lia).
    assert (in_span 0x80 0xBF (0x80 + c mod 64) = true) as -> by (unfold in_span; lia).
    assert (in_span 0x80 0xBF (0x80 + c / 64 mod 64) = true) as -> by (unfold in_span; lia).
    assert (in_span (if 0xF0 + c / 262144 =? 0xF0 then 0x90 else 0x80) (if 0xF0 + c / 262144 =? 0xF4 then 0x8F else 0xBF) (0x80 + c / 4096 mod 64) = true) as ->.
    { destruct (Z.eqb_spec (0xF0 + c / 262144) 0xF0), (Z.eqb_spec (0xF0 + c / 262144) 0xF4); unfold in_span; lia. }
    reflexivity.
Qed.
Lemma utf8_complete : forall cs, Forall scalar cs -> utf8_ok (utf8 cs) = true.
Proof.
  induction 1 as [|c cs S F IH]; [reflexivity|]. unfold utf8. cbn [flat_map]. rewrite utf8_encode_ok by assumption. exact IH.
Qed.
Lemma in_span_iff : forall lo hi b, in_span lo hi b = true -> lo <= b <= hi.
Proof. unfold in_span. intros. lia. Qed.
Lemma utf8_sound : forall n l, (length l <= n)%nat -> utf8_ok l = true -> exists cs, Forall scalar cs /\ l = utf8 cs.
Proof.
  induction n as [|n IH]; intros l L H.
  - destruct l; [|cbn in L; lia]. exists []. split; [constructor|reflexivity].
  - destruct l as [|a l1]; [exists []; split; [constructor|reflexivity]|]. cbn [utf8_ok length] in *.
    assert (step : forall c r, scalar c -> (length r <= n)%nat -> utf8_ok r = true -> a :: l1 = utf8_encode c ++ r ->
      exists cs, Forall scalar cs /\ a :: l1 = utf8 cs).
    { intros c r S Lr Hr E. destruct (IH r Lr Hr) as (cs & F & ->). exists (c :: cs). split; [constructor; assumption|]. exact E. }
    destruct (in_span 0 0x7F a) eqn:A0.
    { apply in_span_iff in A0. apply (step a l1); [unfold scalar; lia | lia | assumption |].
      unfold utf8_encode. destruct (Z.ltb_spec a 0x80); [reflexivity|lia]. }
    destruct l1 as [|b l2]; [discriminate|]. destruct (in_span 0xC2 0xDF a) eqn:A1.
    { apply andb_prop in H. destruct H as [B H]. apply in_span_iff in A1, B. cbn [length] in L.
      apply (step ((a - 0xC0) * 64 + (b - 0x80)) l2); [unfold scalar; lia | lia | assumption |].
      unfold utf8_encode. destruct (Z.ltb_spec ((a - 0xC0) * 64 + (b - 0x80)) 0x80); [lia|].
      destruct (Z.ltb_spec ((a - 0xC0) * 64 + (b - 0x80)) 0x800); [|lia].
      rewrite Z.div_add_l, (Z.div_small (b - 0x80)), (Z.add_comm (_ * 64) (b - _)), Z.mod_add, Z.mod_small by lia. cbn [app]. f_equal; [lia|]. f_equal. lia. }
    destruct l2 as [|c l3]; [discriminate|]. destruct (in_span 0xE0 0xEF a) eqn:A2.
    { apply andb_prop in H. destruct H as [B H]. apply andb_prop in B. destruct B as [B C]. apply in_span_iff in A2, B, C. cbn [length] in L.
      set (x := ((a - 0xE0) * 64 + (b - 0x80)) * 64 + (c - 0x80)).
      assert (BB : 0x80 <= b <= 0xBF) by (destruct (a =? 0xE0), (a =? 0xED); lia).
      apply (step x l3); [| lia | assumption |].
      - unfold scalar. subst x. destruct (Z.eqb_spec a 0xE0), (Z.eqb_spec a 0xED); lia.
      - unfold utf8_encode. destruct (Z.ltb_spec x 0x80); [subst x; destruct (Z.eqb_spec a 0xE0); lia|].
        destruct (Z.ltb_spec x 0x800); [subst x; destruct (Z.eqb_spec a 0xE0); lia|].
        destruct (Z.ltb_spec x 0x10000); [|subst x; lia].
        assert (D : x / 64 = (a - 0xE0) * 64 + (b - 0x80)) by (unfold x; rewrite Z.div_add_l, Z.div_small by lia; lia).
        change 4096 with (64 * 64). rewrite <- Z.div_div, D, Z.div_add_l, (Z.div_small (b - 0x80)) by lia.
        unfold x at 1. rewrite (Z.add_comm (_ * 64) (b - _)), (Z.add_comm (_ * 64) (c - _)), !Z.mod_add, !Z.mod_small by lia.
        cbn [app]. f_equal; [lia|]. f_equal; [lia|]. f_equal. lia. }
    destruct l3 as [|d l4]; [discriminate|].
    do 4 (apply andb_prop in H; let X := fresh "X" in destruct H as [H X]).
    rename H into A. rename X into Hr, X0 into D, X1 into C, X2 into B. apply in_span_iff in A, B, C, D. cbn [length] in L.
    set (x := (((a - 0xF0) * 64 + (b - 0x80)) * 64 + (c - 0x80)) * 64 + (d - 0x80)).
    assert (BB : 0x80 <= b <= 0xBF) by (destruct (a =? 0xF0), (a =? 0xF4); lia).
    apply (step x l4); [| lia | assumption |].
    + unfold scalar. subst x. destruct (Z.eqb_spec a 0xF0), (Z.eqb_spec a 0xF4); lia.
    + assert (x >= 0x10000) by (subst x; destruct (Z.eqb_spec a 0xF0); lia).
      unfold utf8_encode. destruct (Z.ltb_spec x 0x80); [lia|]. destruct (Z.ltb_spec x 0x800); [lia|]. destruct (Z.ltb_spec x 0x10000); [lia|].
      assert (D1 : x / 64 = ((a - 0xF0) * 64 + (b - 0x80)) * 64 + (c - 0x80)) by (unfold x; rewrite Z.div_add_l, Z.div_small by lia; lia).
      assert (D2 : x / 64 / 64 = (a - 0xF0) * 64 + (b - 0x80)) by (rewrite D1, Z.div_add_l, Z.div_small by lia; lia).
      change 262144 with (64 * 64 * 64). change 4096 with (64 * 64). rewrite <- !Z.div_div, D2, D1 by lia.
      rewrite Z.div_add_l, (Z.div_small (b - 0x80)) by lia.
      unfold x. rewrite (Z.add_comm (_ * 64) (b - _)), (Z.add_comm (_ * 64) (c - _)), (Z.add_comm (_ * 64) (d - _)), !Z.mod_add, !Z.mod_small by lia.
      cbn [app]. f_equal; [lia|]. f_equal; [lia|]. f_equal; [lia|]. f_equal. lia.
Qed.
Lemma utf8_iff : forall l, utf8_ok l = true <-> exists cs, Forall scalar cs /\ l = utf8 cs.
Proof.
  intros l. split; [exact (utf8_sound (length l) l (le_n _))|]. intros (cs & F & ->). exact (utf8_complete cs F).
Qed.

(** ** Files of a session *)
Lemma cbind_val : forall A B (m : cresult A) (f : A -> cresult B) b, cbind m f = CVal b -> exists a, m = CVal a /\ f a = CVal b.
Proof. intros A B [a| |] f b H; cbn [cbind] in H; try discriminate. eauto. Qed.
Lemma c_str_val : forall bufs a s, c_str bufs a = CVal s -> a <> 0 /\ exists raw, bufs a = Some raw /\ until_nul raw = Some s.
Proof.
  unfold c_str. intros bufs a s H. destruct (Z.eqb_spec a 0); [discriminate|]. split; [assumption|].
  destruct (bufs a) as [raw|]; [|discriminate]. exists raw. split; [reflexivity|]. destruct (until_nul raw); [|discriminate]. congruence.
Qed.
Lemma to_str_val : forall s s', to_str s = CVal s' -> s' = s /\ utf8_ok s = true.
Proof. unfold to_str. intros s s' H. destruct (utf8_ok s); [|discriminate]. split; congruence. Qed.
Lemma until_nul_spec : forall raw s, until_nul raw = Some s <-> exists rest, raw = s ++ 0 :: rest /\ ~ In 0 s.
Proof.
  induction raw as [|b raw IH]; intros s; cbn [until_nul].
  - split; [discriminate|]. intros (rest & E & _). destruct s; discriminate.
  - destruct (Z.eqb_spec b 0) as [->|N].
    + split; [intros H; injection H as <-; exists raw; auto|]. intros (rest & E & I). destruct s as [|c s]; [reflexivity|].
      injection E as <- _. exfalso. apply I. left. reflexivity.
    + split.
      * intros H. destruct (until_nul raw) as [t|]; [|discriminate]. cbn in H. injection H as <-.
        destruct (proj1 (IH t) eq_refl) as (rest & -> & I). exists rest. split; [reflexivity|]. intros [E|E]; auto.
      * intros (rest & E & I). destruct s as [|c s]; injection E as -> E; [congruence|].
        rewrite (proj2 (IH s)); [reflexivity|]. exists rest. split; [assumption|]. intros J. apply I. right. exact J.
Qed.
Lemma before_nul_until : forall raw s, until_nul raw = Some s -> before_nul raw = s.
Proof.
  induction raw as [|b raw IH]; intros s H; cbn [until_nul before_nul] in *; [discriminate|]. destruct (b =? 0); [congruence|].
  destruct (until_nul raw) as [t|]; [|discriminate]. cbn in H. injection H as <-. f_equal. auto.
Qed.
Lemma until_nul_len : forall raw s, until_nul raw = Some s -> zlen s < zlen raw.
Proof. intros raw s H. apply until_nul_spec in H. destruct H as (rest & -> & _). rewrite zlen_app, zlen_cons. pose proof (zlen_nonneg _ rest). lia. Qed.
Lemma written_snoc : forall h calls c b, written h b (calls ++ [c]) = written h b calls ++ written h (fold_left bufs_after calls b) [c].
Proof.
  intros h calls c. induction calls as [|x calls IH]; intros b; [reflexivity|].
  cbn [app fold_left]. destruct x; cbn [written]; rewrite IH; try reflexivity. rewrite <- app_assoc. reflexivity.
Qed.
Lemma frun_snoc : forall p snap env calls c st, frun p snap env st (calls ++ [c]) =
  (let! r := frun p snap env st calls in let! r' := fstep p snap env (fst r) c in CVal (fst r', snd r ++ [snd r'])).
Proof.
  intros p snap env calls c. induction calls as [|x calls IH]; intros st; cbn [app frun].
  - cbn [cbind fst snd]. destruct (fstep p snap env st c) as [[st' r]| |]; reflexivity.
  - destruct (fstep p snap env st x) as [[st' r]| |]; cbn [cbind fst snd]; try reflexivity. rewrite IH.
    destruct (frun p snap env st' calls) as [[st2 l]| |]; cbn [cbind fst snd]; try reflexivity.
    destruct (fstep p snap env st2 c) as [[st3 r3]| |]; reflexivity.
Qed.
Lemma write_answer : forall p snap d m t v w w' a, writer_write p snap d m t v w = Ret (w', a) -> a = AOk \/ exists e, a = AErr e.
Proof.
  intros p snap d m t v w w' a H. unfold writer_write in H. destruct (sm_get d (w_groups w)) as [g|]; [|injection H as _ <-; eauto].
  apply bind_ret in H. destruct H as ([g' [e|]] & _ & H); [injection H as _ <-; eauto|].
  apply bind_ret in H. destruct H as (rc & _ & H). apply bind_ret in H. destruct H as (w2 & _ & H). injection H as _ <-. auto.
Qed.
Lemma upd_eq : forall A k (v : option A) m, upd k v m k = v.
Proof. intros. unfold upd. rewrite Z.eqb_refl. reflexivity. Qed.
Lemma upd_ne : forall A k (v : option A) m x, x <> k -> upd k v m x = m x.
Proof. intros. unfold upd. destruct (Z.eqb_spec x k); [contradiction|reflexivity]. Qed.

Section Files.
Variable p : profile.
Variable snap : compressor.
Variable env : ffi_env.

(** Names of a schema: two names from buffers. *)
Definition from_bufs (calls : list fcall) (sc : schema) : Prop := exists d m ms, sc = [(d, [(m, ms)])] /\
  (Forall call_ok calls -> zlen d < 2 ^ 31 /\ zlen m < 2 ^ 31).
(** The writer has run the points. *)
Definition has_run (calls : list fcall) (name : list Z) (pts : list point) (w : writer) : Prop := exists sc out w0,
  from_bufs calls sc /\ writer_new sc (sink_new (e_sched env name)) = (out, Some w0) /\
  run p snap w0 (map op_of pts) = Ret (w, map (fun _ => AOk) pts).
Record finv (calls : list fcall) (st : ffi) : Prop := {
  fi_bufs : f_bufs st = fold_left bufs_after calls no_bufs;
  fi_small : Forall call_ok calls -> forall a raw, f_bufs st a = Some raw -> zlen raw < 2 ^ 31;
  fi_next : forall h, f_next st <= h -> written h no_bufs calls = [] /\ f_schemas st h = None /\ f_writers st h = None;
  fi_schemas : forall h s, f_schemas st h = Some s -> from_bufs calls (fs_schema s);
  fi_writers : forall h fw, f_writers st h = Some fw -> has_run calls (fw_file fw) (written h no_bufs calls) (fw_writer fw);
  fi_files : forall h n data, In (h, (n, data)) (f_files st) -> h < f_next st /\ f_writers st h = None /\
    exists w w', has_run calls n (written h no_bufs calls) w /\ step p snap w (OpClose (e_order env)) = Ret (w', AUnit) /\ data = file_bytes w' }.

Lemma from_bufs_snoc : forall calls c sc, from_bufs calls sc -> from_bufs (calls ++ [c]) sc.
Proof. intros calls c sc (d & m & ms & E & B). exists d, m, ms. split; [assumption|]. intros F. apply B. apply Forall_app in F. tauto. Qed.
Lemma has_run_snoc : forall calls c n pts w, has_run calls n pts w -> has_run (calls ++ [c]) n pts w.
Proof. intros calls c n pts w (sc & out & w0 & B & N & R). exists sc, out, w0. split; [apply from_bufs_snoc; assumption|]. auto. Qed.

Lemma finv_step : forall calls st c st' r, finv calls st -> fstep p snap env st c = CVal (st', r) -> finv (calls ++ [c]) st'.
Proof.
  intros calls st c st' r I S. destruct I as [Ib Is In_ Isc Iw If].
  assert (W : forall h, written h no_bufs (calls ++ [c]) = written h no_bufs calls ++ written h (f_bufs st) [c]) by (intros h; rewrite written_snoc, Ib; reflexivity).
  assert (FB : fold_left bufs_after (calls ++ [c]) no_bufs = bufs_after (f_bufs st) c) by (rewrite fold_left_app, Ib; reflexivity).
  assert (FA : Forall call_ok (calls ++ [c]) -> Forall call_ok calls /\ call_ok c).
  { intros F. apply Forall_app in F. destruct F as [F G]. inversion G; auto. }
  (* states that differ from [st] in other parts only *)
  assert (frame : (forall h, written h (f_bufs st) [c] = []) -> (forall h, f_next st <= h -> written h no_bufs (calls ++ [c]) = [] /\ f_schemas st h = None /\ f_writers st h = None) /\
    (forall h s, f_schemas st h = Some s -> from_bufs (calls ++ [c]) (fs_schema s)) /\
    (forall h fw, f_writers st h = Some fw -> has_run (calls ++ [c]) (fw_file fw) (written h no_bufs (calls ++ [c])) (fw_writer fw)) /\
    (forall h n data, In (h, (n, data)) (f_files st) -> h < f_next st /\ f_writers st h = None /\
      exists w w', has_run (calls ++ [c]) n (written h no_bufs (calls ++ [c])) w /\ step p snap w (OpClose (e_order env)) = Ret (w', AUnit) /\ data = file_bytes w')).
  { intros Z0. repeat split.
    - rewrite W, Z0, app_nil_r. apply In_; assumption.
    - apply In_; assumption.
    - apply In_; assumption.
    - intros h s H. apply from_bufs_snoc. eauto.
    - intros h fw H. rewrite W, Z0, app_nil_r. apply has_run_snoc. eauto.
    - destruct (If h n data H) as (A & _). exact A.
    - destruct (If h n data H) as (_ & A & _). exact A.
    - destruct (If h n data H) as (_ & _ & w & w' & A & B & C). exists w, w'. rewrite W, Z0, app_nil_r. split; [apply has_run_snoc; exact A|]. auto. }
  destruct c as [a raw|a|da ma dt en co|h|na h|h da ma t n|h]; cbn [fstep] in S.
  - injection S as <- _. destruct (frame (fun _ => eq_refl)) as (F1 & F2 & F3 & F4). constructor; cbn [f_bufs f_schemas f_writers f_files f_next]; auto.
    intros F x rw. destruct (FA F) as [F' G]. unfold upd. destruct (x =? a); [intros E; injection E as <-; exact G|]. apply Is; assumption.
  - injection S as <- _. destruct (frame (fun _ => eq_refl)) as (F1 & F2 & F3 & F4). constructor; cbn [f_bufs f_schemas f_writers f_files f_next]; auto.
    intros F x rw. destruct (FA F) as [F' G]. unfold upd. destruct (x =? a); [discriminate|]. apply Is; assumption.
  - destruct (frame (fun _ => eq_refl)) as (F1 & F2 & F3 & F4). unfold ffi_schema_simple in S.
    apply cbind_val in S. destruct S as (d & Hd & S). apply cbind_val in S. destruct S as (m & Hm & S).
    apply cbind_val in S. destruct S as (d' & Td & S). apply cbind_val in S. destruct S as (m' & Tm & S).
    apply to_str_val in Td, Tm. destruct Td as [-> _], Tm as [-> _].
    apply cbind_val in S. destruct S as (dt' & _ & S). apply cbind_val in S. destruct S as (en' & _ & S). apply cbind_val in S. destruct S as (co' & _ & S).
    apply cbind_val in S. destruct S as (s & Hs & S). injection S as <- _.
    change (schema_simple d m dt' en' co') with (Ret [(d, [(m, mkMS dt' en' co')])]) in Hs. injection Hs as <-.
    constructor; cbn [f_bufs f_schemas f_writers f_files f_next]; auto.
    + intros F. apply FA in F. apply Is. tauto.
    + intros h L. rewrite upd_ne by lia. apply F1. lia.
    + intros h s. unfold upd. destruct (Z.eqb_spec h (f_next st)) as [->|N]; [|apply F2]. intros E. injection E as <-. cbn [fs_schema].
      exists d, m, (mkMS dt' en' co'). split; [reflexivity|]. intros F. apply FA in F. destruct F as [F _].
      apply c_str_val in Hd, Hm. destruct Hd as (_ & rd & Bd & Ud), Hm as (_ & rm & Bm & Um). apply (Is F) in Bd, Bm.
      apply until_nul_len in Ud, Um. lia.
    + intros h n data H. destruct (F4 h n data H) as (A & B). split; [lia|exact B].
  - destruct (frame (fun _ => eq_refl)) as (F1 & F2 & F3 & F4). unfold ffi_schema_free in S. destruct (h =? 0).
    + injection S as <- _. constructor; auto. intros F. apply FA in F. apply Is. tauto.
    + destruct (f_schemas st h) as [s|]; [|discriminate]. injection S as <- _.
      constructor; cbn [f_bufs f_schemas f_writers f_files f_next]; auto.
      * intros F. apply FA in F. apply Is. tauto.
      * intros x L. destruct (F1 x L) as (A & B & C). split; [exact A|]. split; [|exact C]. unfold upd. destruct (x =? h); auto.
      * intros x s'. unfold upd. destruct (x =? h); [discriminate|apply F2].
  - destruct (frame (fun _ => eq_refl)) as (F1 & F2 & F3 & F4). unfold ffi_writer_new in S.
    apply cbind_val in S. destruct S as (n & Hn & S). destruct (f_schemas st h) as [s|] eqn:Es; [|discriminate].
    destruct (intact (f_bufs st) (fs_borrows s)); [|discriminate]. cbn [negb] in S.
    apply cbind_val in S. destruct S as (n' & Tn & S). apply to_str_val in Tn. destruct Tn as [-> _].
    apply cbind_val in S. destruct S as (ow & Hw & S). apply cbind_val in S. destruct S as (w & He & S). injection S as <- _.
    constructor; cbn [f_bufs f_schemas f_writers f_files f_next]; auto.
    + intros F. apply FA in F. apply Is. tauto.
    + intros x L. rewrite upd_ne by lia. apply F1. lia.
    + intros x fw. unfold upd. destruct (Z.eqb_spec x (f_next st)) as [->|N]; [|apply F3]. intros E. injection E as <-. cbn [fw_file fw_writer].
      destruct (F1 (f_next st) (Z.le_refl _)) as (A & _). rewrite A. cbn [map].
      unfold file_new in Hw. destruct (negb (e_parent env n)); [injection Hw as <-; discriminate|].
      destruct (negb (e_create env n)); [discriminate|]. injection Hw as <-.
      destruct (writer_new (fs_schema s) (sink_new (e_sched env n))) as [out o] eqn:N. cbn [snd] in He. destruct o as [w0|]; [|discriminate]. injection He as <-.
      exists (fs_schema s), out, w0. split; [apply (F2 h); assumption|]. split; [exact N|reflexivity].
    + intros x n' data H. destruct (F4 x n' data H) as (A & B & C). split; [lia|]. split; [|exact C]. rewrite upd_ne by lia. exact B.
  - unfold ffi_write_int32 in S. destruct (Z.eqb_spec h 0) as [|H0]; [discriminate|].
    apply cbind_val in S. destruct S as (d & Hd & S). apply cbind_val in S. destruct S as (m & Hm & S).
    destruct (f_writers st h) as [fw|] eqn:Ew; [|discriminate]. destruct (intact (f_bufs st) (fw_borrows fw)); [|discriminate]. cbn [negb] in S.
    apply cbind_val in S. destruct S as (d' & Td & S). apply cbind_val in S. destruct S as (m' & Tm & S).
    apply to_str_val in Td, Tm. destruct Td as [-> _], Tm as [-> _].
    apply cbind_val in S. destruct S as ([w' a] & Hw & S). cbn [fst snd] in S.
    destruct (writer_write p snap d m t (VInt n) (fw_writer fw)) as [[w2 a2]|] eqn:WW; [|discriminate]. cbn [of_outcome] in Hw. injection Hw as -> ->.
    assert (a = AOk) as -> by (destruct (write_answer _ _ _ _ _ _ _ _ _ WW) as [->|[e ->]]; [reflexivity|discriminate]).
    injection S as <- _.
    assert (Nd : name_at (f_bufs st) da = d) by (apply c_str_val in Hd; destruct Hd as (_ & rd & Bd & Ud); unfold name_at; rewrite Bd; apply before_nul_until; exact Ud).
    assert (Nm : name_at (f_bufs st) ma = m) by (apply c_str_val in Hm; destruct Hm as (_ & rm & Bm & Um); unfold name_at; rewrite Bm; apply before_nul_until; exact Um).
    assert (Wh : written h (f_bufs st) [FWriteInt32 h da ma t n] = [mkPoint d m t (VInt n)]) by (cbn [written]; rewrite Z.eqb_refl, Nd, Nm; reflexivity).
    assert (Wn : forall x, x <> h -> written x (f_bufs st) [FWriteInt32 h da ma t n] = []).
    { intros x N. cbn [written]. destruct (Z.eqb_spec h x); [congruence|reflexivity]. }
    constructor; cbn [f_bufs f_schemas f_writers f_files f_next].
    + rewrite FB. reflexivity.
    + intros F. apply FA in F. apply Is. tauto.
    + intros x L. destruct (In_ x L) as (A & B & C). assert (x <> h) by congruence. rewrite W, Wn, A by assumption. rewrite upd_ne by assumption. auto.
    + intros x s Hs. apply from_bufs_snoc. eauto.
    + intros x fw'. unfold upd. destruct (Z.eqb_spec x h) as [->|N].
      * intros E. injection E as <-. cbn [fw_file fw_writer]. rewrite W, Wh. destruct (Iw _ _ Ew) as (sc & out & w0 & B & N & R).
        exists sc, out, w0. split; [apply from_bufs_snoc; assumption|]. split; [assumption|].
        rewrite !map_app. cbn [map]. rewrite run_snoc, R. cbn [bind op_of pt_device pt_name pt_time pt_value step]. rewrite WW. reflexivity.
      * intros E. rewrite W, Wn, app_nil_r by assumption. apply has_run_snoc. eauto.
    + intros x n' data H. destruct (If x n' data H) as (A & B & w & w3 & C & D & E). split; [exact A|].
      assert (x <> h) by congruence. rewrite upd_ne by assumption. split; [exact B|]. exists w, w3. rewrite W, Wn, app_nil_r by assumption. split; [apply has_run_snoc; exact C|]. auto.
  - destruct (frame (fun _ => eq_refl)) as (F1 & F2 & F3 & F4). unfold ffi_close in S. destruct (h =? 0).
    { injection S as <- _. constructor; auto. intros F. apply FA in F. apply Is. tauto. }
    destruct (f_writers st h) as [fw|] eqn:Ew; [|discriminate]. destruct (intact (f_bufs st) (fw_borrows fw)); [|discriminate]. cbn [negb] in S.
    apply cbind_val in S. destruct S as ([w' a] & Hw & S). cbn [fst snd] in S. injection S as <- _.
    destruct (writer_close p snap (e_order env) (fw_writer fw)) as [[w2 a2]|] eqn:WC; [|discriminate]. cbn [of_outcome] in Hw. injection Hw as -> ->.
    assert (a = AUnit) as ->.
    { unfold writer_close in WC. apply bind_ret in WC. destruct WC as (x & _ & WC). apply bind_ret in WC. destruct WC as (y & _ & WC). injection WC as _ <-. reflexivity. }
    constructor; cbn [f_bufs f_schemas f_writers f_files f_next]; auto.
    + intros F. apply FA in F. apply Is. tauto.
    + intros x L. destruct (F1 x L) as (A & B & C). split; [exact A|]. split; [exact B|]. unfold upd. destruct (x =? h); auto.
    + intros x fw'. unfold upd. destruct (x =? h); [discriminate|apply F3].
    + intros x n' data H. apply in_app_or in H. destruct H as [H|[H|[]]].
      * destruct (F4 x n' data H) as (A & B & C). split; [exact A|]. split; [|exact C]. unfold upd. destruct (x =? h); auto.
      * injection H as <- <- <-. split.
        { destruct (Z_lt_le_dec h (f_next st)) as [L|L]; [exact L|]. destruct (F1 h L) as (_ & _ & C). congruence. }
        split; [apply upd_eq|]. exists (fw_writer fw), w'. split; [apply F3; assumption|]. split; [exact WC|reflexivity].
Qed.
Lemma finv_run : forall calls st rets, frun p snap env ffi_new calls = CVal (st, rets) -> finv calls st.
Proof.
  induction calls as [|c calls IH] using rev_ind; intros st rets R.
  - injection R as <- _. constructor; cbn; try discriminate; try tauto; auto.
  - rewrite frun_snoc in R. apply cbind_val in R. destruct R as ([st1 l1] & R1 & R). apply cbind_val in R. destruct R as ([st2 r2] & S & R).
    cbn [fst snd] in *. injection R as <- _. exact (finv_step _ _ _ _ _ (IH _ _ R1) S).
Qed.
End Files.

Lemma acked_all : forall pts, acked (map op_of pts) (map (fun _ => AOk) pts) = pts.
Proof. induction pts as [|q pts IH]; [reflexivity|]. cbn [map acked acked1 op_of]. rewrite IH. destruct q; reflexivity. Qed.
Lemma batches_all : forall pts, batches_ok (map op_of pts) (map (fun _ => AOk) pts).
Proof. induction pts as [|q pts IH]; constructor; [exact I|exact IH]. Qed.
Lemma no_close_all : forall pts, no_close (map op_of pts) = true.
Proof. induction pts as [|q pts IH]; [reflexivity|]. exact IH. Qed.
Lemma written_ok : forall h calls b, Forall call_ok calls -> Forall op_ok (map op_of (written h b calls)).
Proof.
  intros h. induction calls as [|c calls IH]; intros b F; [constructor|]. inversion F as [|x y C G]; subst.
  destruct c; cbn [written]; auto. rewrite map_app. apply Forall_app. split; [|auto].
  destruct (writer =? h); cbn [map]; constructor; [|constructor]. cbn [call_ok] in C. cbn [op_of op_ok pt_time pt_value value_machine].
  unfold i64_min, i64_max. lia.
Qed.
Lemma written_count : forall h calls b, zlen (written h b calls) <= zlen calls.
Proof.
  intros h. induction calls as [|c calls IH]; intros b; [reflexivity|]. rewrite zlen_cons.
  destruct c; cbn [written]; try (match goal with |- zlen (written h ?x calls) <= _ => specialize (IH x) end; lia).
  rewrite zlen_app. specialize (IH b). destruct (writer =? h); rewrite ?zlen_cons, ?zlen_nil; lia.
Qed.
Lemma op_points_all : forall pts, zsum (map op_points (map op_of pts)) = zlen pts.
Proof. induction pts as [|q pts IH]; [reflexivity|]. cbn [map]. rewrite zlen_cons, <- IH. cbn [zsum fold_right op_points op_of]. reflexivity. Qed.
Lemma written_ops_ok : forall h calls, Forall call_ok calls -> zlen (written h no_bufs calls) < 2 ^ 32 -> ops_ok (map op_of (written h no_bufs calls)).
Proof.
  intros h calls F L. split; [apply written_ok; assumption|]. rewrite op_points_all. lia.
Qed.
Lemma from_bufs_ok : forall calls sc, Forall call_ok calls -> from_bufs calls sc -> schema_ok sc.
Proof.
  intros calls sc F (d & m & ms & -> & B). destruct (B F) as [Ld Lm]. split; [constructor; [intros []|constructor]|].
  constructor; [|constructor]. cbn [fst snd map]. split; [assumption|]. split; [constructor; [intros []|constructor]|]. constructor; [assumption|constructor].
Qed.

(** The file of a closed writer holds the points written through it. *)
Lemma ffi_file : forall p snap decomp env calls st rets h n data, good_snap snap decomp ->
  frun p snap env ffi_new calls = CVal (st, rets) -> In (h, (n, data)) (f_files st) ->
  e_sched env n = healthy -> Forall call_ok calls -> zlen (written h no_bufs calls) < 2 ^ 32 -> zlen data < 2 ^ 32 ->
  exists cs, read_file decomp data = Some cs /\
    forall d m, SReader.series_in cs d m = tnums (series_of d m (written h no_bufs calls)).
Proof.
  intros p snap decomp env calls st rets h n data HG R I E F L Ld.
  destruct (fi_files _ _ _ _ _ (finv_run _ _ _ _ _ _ R) _ _ _ I) as (_ & _ & w & w' & (sc & out & w0 & B & N & Rn) & C & ->).
  rewrite E in N.
  destruct (close_acked p snap decomp HG sc (from_bufs_ok _ _ F B) out w0 _ w _ _ w' AUnit N Rn (written_ops_ok h calls F L) (no_close_all _) (batches_all _) C Ld) as (cs & A & S & _).
  exists cs. split; [exact A|]. intros d m. rewrite S, acked_all. reflexivity.
Qed.
(** Whatever happens next: the points flushed so far can be read from the file of an open writer. *)
Lemma ffi_crash : forall p snap decomp env calls st rets h fw tail, good_snap snap decomp ->
  frun p snap env ffi_new calls = CVal (st, rets) -> f_writers st h = Some fw ->
  e_sched env (fw_file fw) = healthy -> Forall call_ok calls -> zlen (written h no_bufs calls) < 2 ^ 32 -> zlen (file_bytes (fw_writer fw)) < 2 ^ 32 ->
  exists flushed recent cs extra rest, written h no_bufs calls = flushed ++ recent /\
    scan_file decomp (file_bytes (fw_writer fw) ++ tail) = Some (cs ++ extra, rest) /\
    forall d m, SReader.series_in cs d m = tnums (series_of d m flushed).
Proof.
  intros p snap decomp env calls st rets h fw tail HG R I E F L Ld.
  destruct (fi_writers _ _ _ _ _ (finv_run _ _ _ _ _ _ R) _ _ I) as (sc & out & w0 & B & N & Rn). rewrite E in N.
  destruct (run_trace _ _ _ _ _ _ _ _ N Rn) as (hh & T). pose proof (from_bufs_ok _ _ F B) as Sc.
  pose proof (written_ops_ok h calls F L) as O.
  pose proof (trace_acked p snap decomp HG sc Sc _ _ _ _ T O (batches_all _)) as A. rewrite acked_all in A.
  destruct (flushed_survive p snap decomp HG sc Sc _ _ _ _ tail T O (no_close_all _) Ld) as (cs & extra & rest & S1 & S2 & _).
  exists (h_flushed hh), (h_recent hh), cs, extra, rest. split; [symmetry; exact A|]. auto.
Qed.

(** ** Polite callers *)
Lemma upd_id : forall A k (m : Z -> option A) x, m k = None -> upd k None m x = m x.
Proof. intros A k m x H. unfold upd. destruct (Z.eqb_spec x k); congruence. Qed.
Lemma intact_upd : forall bufs a v bs, ~ In a (map fst bs) -> intact (upd a v bufs) bs = intact bufs bs.
Proof.
  intros bufs a v bs. induction bs as [|[b s] bs IH]; intros N; [reflexivity|]. cbn [map fst] in N. unfold intact in *. cbn [forallb fst snd].
  rewrite IH by (intros J; apply N; right; exact J). rewrite upd_ne; [reflexivity|]. intros ->. apply N. left. reflexivity.
Qed.
Lemma intact_c_str : forall bufs a s bs, c_str bufs a = CVal s -> intact bufs ((a, s) :: bs) = intact bufs bs.
Proof.
  intros bufs a s bs H. apply c_str_val in H. destruct H as (_ & raw & B & U). apply until_nul_spec in U. destruct U as (rest & -> & _).
  unfold intact. cbn [forallb fst snd]. rewrite B, firstn_app, Nat.sub_diag, firstn_all, app_nil_r, str_eqb_refl. reflexivity.
Qed.
Definition held (bufs : Z -> option (list Z)) (l : list Z) (bs : list borrow) : Prop := incl (map fst bs) l /\ intact bufs bs = true.
Record psim (k : caller) (st : ffi) : Prop := {
  ps_bufs : forall a, a_bufs k a = f_bufs st a;
  ps_schemas : forall h, match a_schemas k h, f_schemas st h with
    | Some l, Some s => held (f_bufs st) l (fs_borrows s) | None, None => True | _, _ => False end;
  ps_writers : forall h, match a_writers k h, f_writers st h with
    | Some l, Some s => held (f_bufs st) l (fw_borrows s) | None, None => True | _, _ => False end;
  ps_next : 0 < f_next st;
  ps_fresh : forall h, h <= 0 \/ f_next st <= h -> f_schemas st h = None /\ f_writers st h = None }.
Lemma held_upd : forall bufs a v l bs, ~ In a l -> held bufs l bs -> held (upd a v bufs) l bs.
Proof. intros bufs a v l bs N [I T]. split; [exact I|]. rewrite intact_upd; [exact T|]. intros J. apply N. apply I. exact J. Qed.

Lemma psim_step : forall p snap env k st c st' r, psim k st -> polite k c -> fstep p snap env st c = CVal (st', r) -> psim (noted k c r) st'.
Proof.
  intros p snap env k st c st' r [Pb Ps Pw Pn Pf] Po S.
  assert (BUF : forall a v, unneeded k a -> psim (mkCaller (upd a v (a_bufs k)) (a_schemas k) (a_writers k)) (mkFfi (upd a v (f_bufs st)) (f_schemas st) (f_writers st) (f_files st) (f_next st))).
  { intros a v [U1 U2]. constructor; cbn [a_bufs a_schemas a_writers f_bufs f_schemas f_writers f_next]; auto.
    - intros x. unfold upd. rewrite Pb. reflexivity.
    - intros h. specialize (Ps h). specialize (U1 h). destruct (a_schemas k h) as [l|], (f_schemas st h) as [s|]; auto. apply held_upd; [apply U1; reflexivity|exact Ps].
    - intros h. specialize (Pw h). specialize (U2 h). destruct (a_writers k h) as [l|], (f_writers st h) as [s|]; auto. apply held_upd; [apply U2; reflexivity|exact Pw]. }
  destruct c as [a raw|a|da ma dt en co|h|na h|h da ma t n|h]; cbn [fstep polite noted bufs_after] in *.
  - injection S as <- _. apply BUF. exact Po.
  - injection S as <- _. apply BUF. exact Po.
  - unfold ffi_schema_simple in S.
    apply cbind_val in S. destruct S as (d & Hd & S). apply cbind_val in S. destruct S as (m & Hm & S).
    apply cbind_val in S. destruct S as (d' & Td & S). apply cbind_val in S. destruct S as (m' & Tm & S).
    apply to_str_val in Td, Tm. destruct Td as [-> _], Tm as [-> _].
    apply cbind_val in S. destruct S as (dt' & _ & S). apply cbind_val in S. destruct S as (en' & _ & S). apply cbind_val in S. destruct S as (co' & _ & S).
    apply cbind_val in S. destruct S as (s & Hs & S). injection S as <- <-.
    constructor; cbn [a_bufs a_schemas a_writers f_bufs f_schemas f_writers f_next]; auto; try lia.
    + intros h. unfold upd. destruct (h =? f_next st); [|apply Ps]. cbn [fs_borrows]. split; [intros x [<-|[<-|[]]]; cbn; auto|].
      rewrite (intact_c_str _ _ _ _ Hd), (intact_c_str _ _ _ _ Hm). reflexivity.
    + intros h L. rewrite upd_ne by lia. apply Pf. lia.
  - unfold ffi_schema_free in S. destruct (Z.eqb_spec h 0) as [->|H0].
    + injection S as <- _. constructor; cbn [a_bufs a_schemas a_writers]; auto. intros h. pose proof (Ps 0) as P0. destruct (Pf 0 ltac:(lia)) as [Z0 _]. rewrite Z0 in P0.
      specialize (Ps h). rewrite upd_id; [exact Ps|]. destruct (a_schemas k 0); [contradiction|reflexivity].
    + destruct (f_schemas st h) as [s|] eqn:Es; [|discriminate]. injection S as <- _.
      constructor; cbn [a_bufs a_schemas a_writers f_bufs f_schemas f_writers f_next]; auto.
      * intros x. unfold upd. destruct (x =? h); [exact I|apply Ps].
      * intros x L. destruct (Pf x L) as [A B]. split; [|exact B]. unfold upd. destruct (x =? h); auto.
  - unfold ffi_writer_new in S. apply cbind_val in S. destruct S as (n & Hn & S). destruct (f_schemas st h) as [s|] eqn:Es; [|discriminate].
    destruct (intact (f_bufs st) (fs_borrows s)); [|discriminate]. cbn [negb] in S.
    apply cbind_val in S. destruct S as (n' & Tn & S). apply cbind_val in S. destruct S as (ow & Hw & S). apply cbind_val in S. destruct S as (w & He & S).
    injection S as <- <-. pose proof (Ps h) as Ph. rewrite Es in Ph. destruct (a_schemas k h) as [l|] eqn:El; [|contradiction].
    constructor; cbn [a_bufs a_schemas a_writers f_bufs f_schemas f_writers f_next]; auto; try lia.
    + intros x. unfold upd. destruct (x =? f_next st); [exact Ph|apply Pw].
    + intros x L. rewrite upd_ne by lia. apply Pf. lia.
  - unfold ffi_write_int32 in S. destruct (Z.eqb_spec h 0) as [|H0]; [discriminate|].
    apply cbind_val in S. destruct S as (d & Hd & S). apply cbind_val in S. destruct S as (m & Hm & S).
    destruct (f_writers st h) as [fw|] eqn:Ew; [|discriminate]. destruct (intact (f_bufs st) (fw_borrows fw)); [|discriminate]. cbn [negb] in S.
    apply cbind_val in S. destruct S as (d' & Td & S). apply cbind_val in S. destruct S as (m' & Tm & S).
    apply to_str_val in Td, Tm. destruct Td as [-> _], Tm as [-> _].
    apply cbind_val in S. destruct S as ([w' a] & Hw & S). cbn [fst snd] in S.
    destruct a as [|e|]; try discriminate; injection S as <- _;
    (constructor; cbn [a_bufs a_schemas a_writers f_bufs f_schemas f_writers f_next]; auto;
     [ intros x; unfold upd; destruct (Z.eqb_spec x h) as [->|N]; [|apply Pw];
       pose proof (Pw h) as Ph; rewrite Ew in Ph; destruct (a_writers k h) as [l|]; [|contradiction]; cbn [option_map fw_borrows]; destruct Ph as [P1 P2];
       destruct (keeps_name (fw_writer fw) d m);
       [ split; [cbn [map fst]; intros y [<-|Hy]; [left; reflexivity|right; apply P1; exact Hy]|]; rewrite (intact_c_str _ _ _ _ Hm); exact P2
       | split; [intros y Hy; right; apply P1; exact Hy|exact P2] ]
     | intros x L; destruct (Pf x L) as [A B]; split; [exact A|]; rewrite upd_ne by congruence; exact B ]).
  - unfold ffi_close in S. destruct (Z.eqb_spec h 0) as [->|H0].
    + injection S as <- _. constructor; cbn [a_bufs a_schemas a_writers]; auto. intros h. pose proof (Pw 0) as P0. destruct (Pf 0 ltac:(lia)) as [_ Z0]. rewrite Z0 in P0.
      specialize (Pw h). rewrite upd_id; [exact Pw|]. destruct (a_writers k 0); [contradiction|reflexivity].
    + destruct (f_writers st h) as [fw|] eqn:Ew; [|discriminate]. destruct (intact (f_bufs st) (fw_borrows fw)); [|discriminate]. cbn [negb] in S.
      apply cbind_val in S. destruct S as ([w' a] & Hw & S). cbn [fst snd] in S. injection S as <- _.
      constructor; cbn [a_bufs a_schemas a_writers f_bufs f_schemas f_writers f_next]; auto.
      * intros x. unfold upd. destruct (x =? h); [exact I|apply Pw].
      * intros x L. destruct (Pf x L) as [A B]. split; [exact A|]. unfold upd. destruct (x =? h); auto.
Qed.
Lemma cbind_def : forall A B (m : cresult A) (f : A -> cresult B), m <> CUndef -> (forall a, m = CVal a -> f a <> CUndef) -> cbind m f <> CUndef.
Proof. intros A B [a| |] f H G; cbn [cbind]; [apply G; reflexivity|discriminate|congruence]. Qed.
Lemma c_str_def : forall k st a, psim k st -> good_string k a -> c_str (f_bufs st) a <> CUndef.
Proof.
  intros k st a P [->|(raw & B & I)]; [discriminate|]. rewrite (ps_bufs _ _ P) in B. unfold c_str. destruct (a =? 0); [discriminate|]. rewrite B.
  apply in_split in I. destruct (until_nul raw) as [s|] eqn:U; [discriminate|]. exfalso.
  destruct I as (l1 & l2 & ->). clear - U. induction l1 as [|x l1 IH]; cbn [app until_nul] in U; [discriminate|].
  destruct (x =? 0); [discriminate|]. apply IH. destruct (until_nul (l1 ++ 0 :: l2)); [discriminate|reflexivity].
Qed.
Lemma to_str_def : forall s, to_str s <> CUndef.
Proof. intros s. unfold to_str. destruct (utf8_ok s); discriminate. Qed.
Lemma expect_def : forall A (o : option A), expect o <> CUndef.
Proof. intros A [a|]; discriminate. Qed.
Lemma of_outcome_def : forall A (o : outcome A), of_outcome o <> CUndef.
Proof. intros A [a|]; discriminate. Qed.
Lemma polite_step : forall p snap env k st c, psim k st -> polite k c -> fstep p snap env st c <> CUndef.
Proof.
  intros p snap env k st c P Po. pose proof (fun a => c_str_def k st a P) as CS.
  destruct c as [a raw|a|da ma dt en co|h|na h|h da ma t n|h]; cbn [fstep polite] in *; try discriminate.
  - destruct Po as [G1 G2]. unfold ffi_schema_simple.
    apply cbind_def; [auto|]. intros d _. apply cbind_def; [auto|]. intros m _. apply cbind_def; [apply to_str_def|]. intros d' _. apply cbind_def; [apply to_str_def|]. intros m' _.
    do 3 (apply cbind_def; [apply expect_def|]; intros ? _). apply cbind_def; [apply of_outcome_def|]. discriminate.
  - unfold ffi_schema_free. destruct (Z.eqb_spec h 0); [discriminate|]. destruct Po as [|Po]; [contradiction|].
    pose proof (ps_schemas _ _ P h) as Ph. destruct (a_schemas k h); [|congruence]. destruct (f_schemas st h); [discriminate|contradiction].
  - destruct Po as [G Po]. unfold ffi_writer_new. apply cbind_def; [auto|]. intros n _.
    pose proof (ps_schemas _ _ P h) as Ph. destruct (a_schemas k h); [|congruence]. destruct (f_schemas st h) as [s|]; [|contradiction].
    destruct Ph as [_ ->]. cbn [negb]. apply cbind_def; [apply to_str_def|]. intros n' _. apply cbind_def; [apply of_outcome_def|]. intros w _. apply cbind_def; [apply expect_def|]. discriminate.
  - destruct Po as (G1 & G2 & Po). unfold ffi_write_int32. destruct (Z.eqb_spec h 0); [discriminate|]. destruct Po as [|Po]; [contradiction|].
    apply cbind_def; [auto|]. intros d _. apply cbind_def; [auto|]. intros m _.
    pose proof (ps_writers _ _ P h) as Ph. destruct (a_writers k h); [|congruence]. destruct (f_writers st h) as [fw|]; [|contradiction]. destruct Ph as [_ ->]. cbn [negb].
    apply cbind_def; [apply to_str_def|]. intros d' _. apply cbind_def; [apply to_str_def|]. intros m' _. apply cbind_def; [apply of_outcome_def|].
    intros [w' a] _. cbn [snd]. destruct a; discriminate.
  - unfold ffi_close. destruct (Z.eqb_spec h 0); [discriminate|]. destruct Po as [|Po]; [contradiction|].
    pose proof (ps_writers _ _ P h) as Ph. destruct (a_writers k h); [|congruence]. destruct (f_writers st h) as [fw|]; [|contradiction]. destruct Ph as [_ ->]. cbn [negb].
    apply cbind_def; [apply of_outcome_def|]. discriminate.
Qed.
Lemma psim_new : psim caller_new ffi_new.
Proof. constructor; cbn; auto. lia. Qed.
Lemma polite_run : forall p snap env calls k st st' rets c, psim k st -> frun p snap env st calls = CVal (st', rets) ->
  polite_session noted k calls rets c -> fstep p snap env st' c <> CUndef.
Proof.
  intros p snap env. induction calls as [|x calls IH]; intros k st st' rets c P R Po; cbn [frun] in R.
  - injection R as <- <-. exact (polite_step _ _ _ _ _ _ P Po).
  - apply cbind_val in R. destruct R as ([st1 r1] & S & R). apply cbind_val in R. destruct R as ([st2 l2] & R & E). cbn [fst snd] in *. injection E as <- <-.
    cbn [polite_session] in Po. destruct Po as [Px Po]. exact (IH _ _ _ _ _ (psim_step _ _ _ _ _ _ _ _ P Px S) R Po).
Qed.

(** ** When a call returns *)
Lemma until_before : forall raw, In 0 raw -> until_nul raw = Some (before_nul raw).
Proof.
  induction raw as [|b raw IH]; intros I; [destruct I|]. cbn [until_nul before_nul]. destruct (Z.eqb_spec b 0); [reflexivity|].
  destruct I as [->|I]; [congruence|]. rewrite IH by assumption. reflexivity.
Qed.
Lemma schema_iff : forall p snap env st da ma dt en co rd rm, da <> 0 -> ma <> 0 -> f_bufs st da = Some rd -> In 0 rd -> f_bufs st ma = Some rm -> In 0 rm ->
  ((exists st', fstep p snap env st (FSchemaSimple da ma dt en co) = CVal (st', f_next st)) <->
    is_text (before_nul rd) /\ is_text (before_nul rm) /\ In dt [1; 2; 3] /\ In en [0; 4] /\ In co [0; 1]) /\
  fstep p snap env st (FSchemaSimple da ma dt en co) <> CUndef.
Proof.
  intros p snap env st da ma dt en co rd rm Nd Nm Bd Id Bm Im. cbn [fstep]. unfold ffi_schema_simple, c_str.
  destruct (Z.eqb_spec da 0); [contradiction|]. destruct (Z.eqb_spec ma 0); [contradiction|]. rewrite Bd, Bm, (until_before _ Id), (until_before _ Im). cbn [cbind].
  unfold to_str. unfold is_text. rewrite <- !utf8_iff. destruct (utf8_ok (before_nul rd)); cbn [cbind]; [|split; [split; [intros [? ?]; discriminate|intros [? _]; discriminate]|discriminate]].
  destruct (utf8_ok (before_nul rm)); cbn [cbind]; [|split; [split; [intros [? ?]; discriminate|intros (_ & ? & _); discriminate]|discriminate]].
  assert (D : (exists x, dtype_of_code dt = Some x) <-> In dt [1; 2; 3]).
  { split; [intros [x X]|intros [<-|[<-|[<-|[]]]]; eexists; reflexivity]. cbn. unfold dtype_of_code in X. repeat (match goal with H : match ?q with _ => _ end = _ |- _ => destruct q end; try discriminate); tauto. }
  assert (E : (exists x, encoding_of_code en = Some x) <-> In en [0; 4]).
  { split; [intros [x X]|intros [<-|[<-|[]]]; eexists; reflexivity]. cbn. unfold encoding_of_code in X. repeat (match goal with H : match ?q with _ => _ end = _ |- _ => destruct q end; try discriminate); tauto. }
  assert (C : (exists x, compression_of_code co = Some x) <-> In co [0; 1]).
  { split; [intros [x X]|intros [<-|[<-|[]]]; eexists; reflexivity]. cbn. unfold compression_of_code in X. repeat (match goal with H : match ?q with _ => _ end = _ |- _ => destruct q end; try discriminate); tauto. }
  rewrite <- D, <- E, <- C. clear.
  destruct (dtype_of_code dt) as [dt'|]; cbn [expect cbind]; [|split; [split; [intros [? ?]; discriminate|intros (_ & _ & [? ?] & _); discriminate]|discriminate]].
  destruct (encoding_of_code en) as [en'|]; cbn [expect cbind]; [|split; [split; [intros [? ?]; discriminate|intros (_ & _ & _ & [? ?] & _); discriminate]|discriminate]].
  destruct (compression_of_code co) as [co'|]; cbn [expect cbind]; [|split; [split; [intros [? ?]; discriminate|intros (_ & _ & _ & _ & [? ?]); discriminate]|discriminate]].
  change (schema_simple (before_nul rd) (before_nul rm) dt' en' co') with (Ret [(before_nul rd, [(before_nul rm, mkMS dt' en' co')])]). cbn [of_outcome cbind].
  split; [|discriminate]. split; [intros _; repeat split; eauto|]. intros _. eexists. reflexivity.
Qed.
Lemma write_iff : forall p snap env st h da ma t n fw rd rm, f_writers st h = Some fw -> h <> 0 ->
  f_bufs st da = Some rd -> f_bufs st ma = Some rm ->
  fstep p snap env st (FWriteInt32 h da ma t n) <> CUndef ->
  forall st' r, fstep p snap env st (FWriteInt32 h da ma t n) = CVal (st', r) <->
    r = h /\ is_text (before_nul rd) /\ is_text (before_nul rm) /\ da <> 0 /\ ma <> 0 /\
    exists w bs, writer_write p snap (before_nul rd) (before_nul rm) t (VInt n) (fw_writer fw) = Ret (w, AOk) /\
      st' = mkFfi (f_bufs st) (f_schemas st) (upd h (Some (mkFW (fw_file fw) bs w)) (f_writers st)) (f_files st) (f_next st) /\
      bs = (if keeps_name (fw_writer fw) (before_nul rd) (before_nul rm) then (ma, before_nul rm) :: fw_borrows fw else fw_borrows fw).
Proof.
  intros p snap env st h da ma t n fw rd rm Ew Nh Bd Bm U st' r. revert U. cbn [fstep]. unfold ffi_write_int32. destruct (Z.eqb_spec h 0); [contradiction|].
  unfold c_str. rewrite Bd, Bm, Ew. destruct (Z.eqb_spec da 0); cbn [cbind]; [intros _; split; [discriminate|intros (_ & _ & _ & ? & _); contradiction]|].
  destruct (until_nul rd) as [d|] eqn:Ud; cbn [cbind]; [|congruence]. destruct (Z.eqb_spec ma 0); cbn [cbind]; [intros _; split; [discriminate|intros (_ & _ & _ & _ & ? & _); contradiction]|].
  destruct (until_nul rm) as [m|] eqn:Um; cbn [cbind]; [|congruence]. rewrite (before_nul_until _ _ Ud), (before_nul_until _ _ Um). destruct (intact (f_bufs st) (fw_borrows fw)); cbn [negb]; [|congruence].
  intros _. unfold is_text. rewrite <- !utf8_iff. unfold to_str. destruct (utf8_ok d); cbn [cbind]; [|split; [discriminate|intros (_ & ? & _); discriminate]].
  destruct (utf8_ok m); cbn [cbind]; [|split; [discriminate|intros (_ & _ & ? & _); discriminate]].
  destruct (writer_write p snap d m t (VInt n) (fw_writer fw)) as [[w a]|] eqn:WW; cbn [of_outcome cbind fst snd]; [|split; [discriminate|intros (_ & _ & _ & _ & _ & ? & ? & ? & _); discriminate]].
  destruct (write_answer _ _ _ _ _ _ _ _ _ WW) as [->|[e ->]]; [|split; [discriminate|intros (_ & _ & _ & _ & _ & ? & ? & ? & _); discriminate]].
  split.
  - intros H. injection H as <- <-. repeat (split; [auto; reflexivity|]). eexists w, _. repeat split.
  - intros (-> & _ & _ & _ & _ & w' & bs & E & -> & ->). injection E as <-. reflexivity.
Qed.

(** ** Checking that a given session is polite *)
Fixpoint fin {A} (l : list (Z * option A)) : Z -> option A :=
  match l with [] => fun _ => None | (k, v) :: r => fun x => if x =? k then v else fin r x end.
Definition has {A} (m : Z -> option A) (h : Z) : bool := match m h with Some _ => true | None => false end.
Definition good_b (b : list (Z * option (list Z))) (a : Z) : bool :=
  (a =? 0) || match fin b a with Some raw => existsb (Z.eqb 0) raw | None => false end.
Definition free_b (s : list (Z * option (list Z))) (a : Z) : bool :=
  forallb (fun e => match snd e with Some l => negb (existsb (Z.eqb a) l) | None => true end) s.
Definition polite_b (b s w : list (Z * option (list Z))) (c : fcall) : bool :=
  match c with
  | CBuf a _ => free_b s a && free_b w a
  | CFree a => free_b s a && free_b w a
  | FSchemaSimple d m _ _ _ => good_b b d && good_b b m
  | FSchemaFree h => (h =? 0) || has (fin s) h
  | FWriterNew n h => good_b b n && has (fin s) h
  | FWriteInt32 h d m _ _ => good_b b d && good_b b m && ((h =? 0) || has (fin w) h)
  | FClose h => (h =? 0) || has (fin w) h
  end.
Fixpoint session_b (keep : bool) (b s w : list (Z * option (list Z))) (calls : list fcall) (rets : list Z) (next : fcall) : bool :=
  match calls, rets with
  | [], [] => polite_b b s w next
  | c :: calls', r :: rets' => polite_b b s w c &&
      match c with
      | CBuf a raw => session_b keep ((a, Some raw) :: b) s w calls' rets' next
      | CFree a => session_b keep ((a, None) :: b) s w calls' rets' next
      | FSchemaSimple d m _ _ _ => session_b keep b ((r, Some [d; m]) :: s) w calls' rets' next
      | FSchemaFree h => session_b keep b ((h, None) :: s) w calls' rets' next
      | FWriterNew n h => session_b keep b s ((r, fin s h) :: w) calls' rets' next
      | FWriteInt32 h d m _ _ => session_b keep b s (if keep then (h, option_map (cons m) (fin w h)) :: w else w) calls' rets' next
      | FClose h => session_b keep b s ((h, None) :: w) calls' rets' next
      end
  | _, _ => false
  end.
Lemma free_b_ok : forall s a, free_b s a = true -> forall h l, fin s h = Some l -> ~ In a l.
Proof.
  intros s a F h l. induction s as [|[k v] s IH]; cbn [fin]; [discriminate|]. unfold free_b in F. cbn [forallb snd] in F. apply andb_prop in F. destruct F as [F1 F2].
  destruct (h =? k); [|apply IH; exact F2]. intros -> I. apply negb_true_iff in F1. assert (existsb (Z.eqb a) l = true); [|congruence].
  apply existsb_exists. exists a. split; [exact I|apply Z.eqb_refl].
Qed.
Lemma good_b_ok : forall b s w a, good_b b a = true -> good_string (mkCaller (fin b) s w) a.
Proof.
  intros b s w a G. unfold good_b in G. apply orb_prop in G. destruct G as [G|G]; [left; apply Z.eqb_eq; exact G|]. right. cbn [a_bufs].
  destruct (fin b a) as [raw|]; [|discriminate]. exists raw. split; [reflexivity|]. apply existsb_exists in G. destruct G as (x & I & E). apply Z.eqb_eq in E. subst. exact I.
Qed.
Lemma polite_b_ok : forall b s w c, polite_b b s w c = true -> polite (mkCaller (fin b) (fin s) (fin w)) c.
Proof.
  intros b s w c P. assert (N : forall m h, has m h = true -> m h <> @None (list Z)) by (unfold has; intros m h; destruct (m h); [discriminate|discriminate]).
  assert (O : forall m h, (h =? 0) || has m h = true -> h = 0 \/ m h <> @None (list Z)).
  { intros m h H. apply orb_prop in H. destruct H as [H|H]; [left; apply Z.eqb_eq; exact H|right; auto]. }
  destruct c; cbn [polite_b polite] in *; repeat match goal with H : _ && _ = true |- _ => apply andb_prop in H; destruct H end; cbn [a_schemas a_writers];
    try (apply O; assumption).
  - split; intros h l; cbn [a_schemas a_writers]; apply free_b_ok; assumption.
  - split; intros h l; cbn [a_schemas a_writers]; apply free_b_ok; assumption.
  - split; apply good_b_ok; assumption.
  - split; [apply good_b_ok; assumption|apply N; assumption].
  - split; [apply good_b_ok; assumption|]. split; [apply good_b_ok; assumption|apply O; assumption].
Qed.
Lemma session_b_ok : forall (keep : bool) calls rets next b s w, session_b keep b s w calls rets next = true ->
  polite_session (if keep then noted else noted_schema) (mkCaller (fin b) (fin s) (fin w)) calls rets next.
Proof.
  intros keep. induction calls as [|c calls IH]; intros [|r rets] next b s w H; cbn [session_b polite_session] in *; try discriminate; [apply polite_b_ok; exact H|].
  apply andb_prop in H. destruct H as [P H]. split; [apply polite_b_ok; exact P|].
  destruct c; try (apply IH in H; destruct keep; exact H); destruct keep; apply IH in H; exact H.
Qed.
