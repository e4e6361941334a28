(** Proofs about what C sessions write, byte by byte, and when calls return (C64). *)
From Coq Require Import Lia.
From Verif Require Export SFfiExact PPy PDotsReply PDotsReach.
Ltac Zify.zify_post_hook ::= idtac.

Lemma text_is_bytes : forall l, utf8_ok l = true -> Forall (fun b => 0 <= b < 256) l.
Proof.
  intros l H. apply utf8_iff in H. destruct H as (cs & F & ->). unfold utf8. induction F as [|c cs S F IH]; cbn [flat_map]; [constructor|].
  apply Forall_app. split; [|exact IH]. clear - S. unfold scalar in S. unfold utf8_encode.
  assert (D : forall k, 0 < k -> 0 <= c mod k < k) by (intros; apply Z.mod_pos_bound; lia).
  assert (M : forall x, 0 <= x mod 64 < 64) by (intros; apply Z.mod_pos_bound; lia).
  destruct (Z.ltb_spec c 0x80); [constructor; [lia|constructor]|].
  destruct (Z.ltb_spec c 0x800).
  { pose proof (Z.div_pos c 64 ltac:(lia) ltac:(lia)). assert (c / 64 < 32) by (apply Z.div_lt_upper_bound; lia). pose proof (M c). repeat constructor; lia. }
  destruct (Z.ltb_spec c 0x10000).
  { pose proof (Z.div_pos c 4096 ltac:(lia) ltac:(lia)). assert (c / 4096 < 16) by (apply Z.div_lt_upper_bound; lia). pose proof (M c). pose proof (M (c / 64)). repeat constructor; lia. }
  pose proof (Z.div_pos c 262144 ltac:(lia) ltac:(lia)). assert (c / 262144 < 5) by (apply Z.div_lt_upper_bound; lia). pose proof (M c). pose proof (M (c / 64)). pose proof (M (c / 4096)). repeat constructor; lia.
Qed.
(** ** Schemas of one series *)
Lemma one_ok : forall q sc, stands_for q sc -> good_request q -> short_names q ->
  schema_ok sc /\ byte_names sc /\ short_paths sc /\ few_paths sc 1 65536 /\ series_count sc = 1.
Proof.
  intros q sc (ty & en & co & _ & _ & _ & ->) [G1 G2] SN. unfold short_names in SN.
  pose proof (zlen_nonneg _ (rq_device q)). pose proof (zlen_nonneg _ (rq_name q)).
  assert (D : forall d m ms, declares [(rq_device q, [(rq_name q, mkMS ty en co)])] d m ms -> d = rq_device q /\ m = rq_name q).
  { intros d m ms (g & [J|[]] & K). injection J as <- <-. destruct K as [K|[]]. injection K as <- _. auto. }
  split; [split; [constructor; [intros []|constructor]|constructor; [|constructor]]; cbn [fst snd map]; split; [lia|]; split; [constructor; [intros []|constructor]|constructor; [cbn [fst]; lia|constructor]]|].
  split. { intros d m ms J. apply D in J. destruct J as [-> ->]. apply Forall_app. split; [apply text_is_bytes; exact G1|]. constructor; [lia|]. apply text_is_bytes. exact G2. }
  split. { intros d m ms J. apply D in J. destruct J as [-> ->]. cbn [app]. rewrite zlen_app, zlen_cons. lia. }
  split; [|reflexivity].
  intros d. unfold declared_paths. cbn [map concat app fst snd].
  assert (X : forall l, zlen (filter (fun x => same_name (device_part x) d) l) <= zlen l).
  { clear. induction l as [|x l IH]; cbn [filter]; [lia|]. destruct (same_name _ _); rewrite ?zlen_cons in *; lia. }
  match goal with |- 1 * zlen (filter _ (name_set ?l)) <= _ => pose proof (X (name_set l)); pose proof (name_set_len l) end.
  rewrite zlen_cons, zlen_nil in *. lia.
Qed.
Lemma writes_points : forall pts, zsum (map op_points (map op_of pts)) = zlen pts.
Proof. intros pts. apply op_points_all. Qed.
Lemma no_closes : forall pts, closes (map op_of pts) = 0.
Proof. induction pts as [|q pts IH]; [reflexivity|]. unfold closes in *. cbn [map filter is_close op_of]. exact IH. Qed.

Lemma ffi_bytes : forall p snap decomp env calls st rets h n data, good_snap snap decomp ->
  frun p snap env ffi_new calls = CVal (st, rets) -> In (h, (n, data)) (f_files st) ->
  e_sched env n = healthy -> good_order (e_order env) -> Forall SFfi.call_ok calls -> few_points (SFfi.written h no_bufs calls) -> zlen data < 2 ^ 32 ->
  (forall q, k_writers (asked calls rets) h = Some (n, q) -> short_names q) ->
  exists q sc ps stages, k_writers (asked calls rets) h = Some (n, q) /\ stands_for q sc /\
    written_any snap sc (writes h calls ++ [OpClose (e_order env)]) ps stages /\ data = the_file snap ps.
Proof.
  intros p snap decomp env calls st rets h n data HG R I E OO F L Ld SN. unfold few_points in L.
  destruct (ai_files _ _ _ _ _ _ (ainv_run _ _ _ _ _ _ R) _ _ _ I) as (q & K & w & w' & (sc & out & w0 & B & G & N & Rn) & C & ->). rewrite E in N.
  destruct (one_ok q sc B G (SN q K)) as (Hsc & BN & SP & FP & SC).
  assert (R2 : run p snap w0 (writes h calls ++ [OpClose (e_order env)]) = Ret (w', map (fun _ => AOk) (SFfi.written h no_bufs calls) ++ [AUnit])).
  { rewrite run_snoc. unfold writes. rewrite Rn. cbn [bind]. rewrite C. reflexivity. }
  destruct (run_trace _ _ _ _ _ _ _ _ N R2) as (hh & T).
  assert (O : ops_ok (writes h calls ++ [OpClose (e_order env)])).
  { split; [apply Forall_app; split; [apply written_ok; exact F|constructor; [exact Logic.I|constructor]]|]. unfold writes. rewrite map_app, zsum_app, writes_points. cbn. lia. }
  assert (CL : closes (writes h calls ++ [OpClose (e_order env)]) = 1) by (rewrite closes_snoc; unfold writes; rewrite no_closes; reflexivity).
  destruct (any_bytes p snap decomp HG sc Hsc w' hh _ _ T O) as (ps & stages & WA & FB).
  - apply roomy_after_of. rewrite SC. unfold writes. rewrite map_app, zsum_app, writes_points. cbn. lia.
  - exact (small_modest _ _ _ _ _ _ _ T Ld).
  - split; [apply Forall_app; split; [unfold writes; clear; induction (SFfi.written h no_bufs calls); constructor; [exact Logic.I|assumption]|constructor; [exact OO|constructor]]|].
    rewrite CL. auto.
  - exists q, sc, ps, stages. auto.
Qed.

(** ** When calls return *)
Lemma replies_snoc : forall fine p snap sc ops s o, session_replies fine p snap sc s (ops ++ [o]) =
  match session_replies fine p snap sc s ops with
  | None => None
  | Some l => let s' := fold_left (session_next snap sc) ops s in if stops fine p snap sc s' o then None else Some (l ++ [reply sc (ss_hist s') o])
  end.
Proof.
  intros fine p snap sc. induction ops as [|x ops IH]; intros s o; cbn [app session_replies fold_left]; [destruct (stops fine p snap sc s o); reflexivity|].
  destruct (stops fine p snap sc s x); [reflexivity|]. rewrite IH. destruct (session_replies fine p snap sc (session_next snap sc s x) ops) as [l|]; [|reflexivity].
  cbn [option_map]. cbv zeta. destruct (stops _ _ _ _ _ o); reflexivity.
Qed.
Lemma next_op : forall p snap decomp env calls st rets h fw o, good_snap snap decomp ->
  frun p snap env ffi_new calls = CVal (st, rets) -> f_writers st h = Some fw ->
  e_sched env (fw_file fw) = healthy -> Forall SFfi.call_ok calls -> op_ok o -> 24 * (zlen (SFfi.written h no_bufs calls) + op_points o) + 150 < 2 ^ 32 ->
  (forall q, k_writers (asked calls rets) h = Some (fw_file fw, q) -> short_names q) ->
  exists q sc, k_writers (asked calls rets) h = Some (fw_file fw, q) /\ stands_for q sc /\ all_fine p snap sc (writes h calls) /\
    forall a, (exists w, step p snap (fw_writer fw) o = Ret (w, a)) <->
      any_replies p snap sc session_new (writes h calls ++ [o]) = Some (map (fun _ => AOk) (writes h calls) ++ [a]).
Proof.
  intros p snap decomp env calls st rets h fw o HG R I E F OK L SN.
  destruct (ai_writers _ _ _ _ _ _ (ainv_run _ _ _ _ _ _ R) _ _ I) as (q & K & (sc & out & w0 & B & G & N & Rn)). rewrite E in N.
  destruct (one_ok q sc B G (SN q K)) as (Hsc & BN & SP & FP & SC). pose proof (PBound.op_points_nn o) as PN. pose proof (zlen_nonneg _ (SFfi.written h no_bufs calls)) as ZN.
  assert (M : map (fun _ => AOk) (SFfi.written h no_bufs calls) = map (fun _ : op => AOk) (writes h calls)) by (unfold writes; rewrite map_map; reflexivity).
  rewrite M in Rn. fold (writes h calls) in Rn.
  assert (O : ops_ok (writes h calls ++ [o])).
  { split; [apply Forall_app; split; [apply written_ok; exact F|constructor; [exact OK|constructor]]|]. unfold writes. rewrite map_app, zsum_app, writes_points. unfold zsum. cbn [map fold_right]. lia. }
  assert (RO : roomy_after snap sc (writes h calls ++ [o])).
  { apply roomy_after_of. rewrite SC. unfold writes. rewrite map_app, zsum_app, writes_points. unfold zsum. cbn [map fold_right]. lia. }
  pose proof (any_complete snap decomp HG sc Hsc p out w0 _ N O RO (fun _ => conj BN SP)) as AC.
  assert (O1 : ops_ok (writes h calls)). { split; [apply written_ok; exact F|]. unfold writes. rewrite writes_points. lia. }
  assert (RO1 : roomy_after snap sc (writes h calls)). { apply roomy_after_of. rewrite SC. unfold writes. rewrite writes_points. lia. }
  pose proof (any_complete snap decomp HG sc Hsc p out w0 _ N O1 RO1 (fun _ => conj BN SP)) as AC1.
  exists q, sc. split; [exact K|]. split; [exact B|]. split.
  { unfold all_fine. destruct (any_replies p snap sc session_new (writes h calls)) as [l|]; [destruct AC1 as [w1 AC1]; congruence|]. destruct AC1 as [e AC1]. congruence. }
  intros a. rewrite run_snoc, Rn in AC. cbn [bind] in AC. split.
  - intros [w S]. rewrite S in AC. cbn [bind] in AC. destruct (any_replies p snap sc session_new (writes h calls ++ [o])) as [l|]; [destruct AC as [w1 AC]; congruence|]. destruct AC as [e AC]. discriminate.
  - intros A. rewrite A in AC. destruct AC as [w1 AC]. destruct (step p snap (fw_writer fw) o) as [[w2 a2]|e]; [|discriminate]. cbn [bind] in AC. injection AC as <- AC. apply app_inv_head in AC. injection AC as ->. eauto.
Qed.
Lemma write_returns : forall p snap decomp env calls st rets h fw da ma t n, good_snap snap decomp ->
  frun p snap env ffi_new calls = CVal (st, rets) -> f_writers st h = Some fw -> h <> 0 -> da <> 0 -> ma <> 0 ->
  e_sched env (fw_file fw) = healthy -> Forall SFfi.call_ok (calls ++ [FWriteInt32 h da ma t n]) -> few_points (SFfi.written h no_bufs (calls ++ [FWriteInt32 h da ma t n])) ->
  (forall q, k_writers (asked calls rets) h = Some (fw_file fw, q) -> short_names q) ->
  fstep p snap env st (FWriteInt32 h da ma t n) <> CUndef ->
  exists q sc, k_writers (asked calls rets) h = Some (fw_file fw, q) /\ stands_for q sc /\ all_fine p snap sc (writes h calls) /\
    ((exists st' r, fstep p snap env st (FWriteInt32 h da ma t n) = CVal (st', r)) <->
      is_text (name_at (f_bufs st) da) /\ is_text (name_at (f_bufs st) ma) /\
      all_fine p snap sc (writes h calls ++ [OpWrite (name_at (f_bufs st) da) (name_at (f_bufs st) ma) t (VInt n)])).
Proof.
  intros p snap decomp env calls st rets h fw da ma t n HG R I H0 Nd Nm E F L SN U.
  set (d := name_at (f_bufs st) da). set (m := name_at (f_bufs st) ma).
  apply Forall_app in F. destruct F as [F G]. inversion G as [|x y G1 _]; subst x y. cbn [SFfi.call_ok] in G1.
  assert (IB : f_bufs st = fold_left bufs_after calls no_bufs) by exact (fi_bufs _ _ _ _ _ (finv_run _ _ _ _ _ _ R)).
  assert (L' : 24 * (zlen (SFfi.written h no_bufs calls) + op_points (OpWrite d m t (VInt n))) + 150 < 2 ^ 32).
  { unfold few_points in L. rewrite written_snoc, <- IB, zlen_app in L. cbn [SFfi.written] in L. rewrite Z.eqb_refl in L. cbn [app] in L. rewrite zlen_cons, zlen_nil in L. cbn [op_points]. lia. }
  assert (OK : op_ok (OpWrite d m t (VInt n))) by (cbn [op_ok value_machine]; unfold i64_min, i64_max; lia).
  destruct (next_op p snap decomp env calls st rets h fw _ HG R I E F OK L' SN) as (q & sc & K & B & A & X).
  exists q, sc. split; [exact K|]. split; [exact B|]. split; [exact A|]. specialize (X AOk).
  assert (AF : all_fine p snap sc (writes h calls ++ [OpWrite d m t (VInt n)]) <-> exists w, step p snap (fw_writer fw) (OpWrite d m t (VInt n)) = Ret (w, AOk)).
  { rewrite X. unfold all_fine. rewrite map_app. cbn [map]. reflexivity. }
  rewrite AF. clear X AF. cbn [step].
  assert (BD : exists rd, f_bufs st da = Some rd). { destruct (f_bufs st da) as [rd|] eqn:BB; [eauto|]. exfalso. apply U. cbn [fstep]. unfold ffi_write_int32, c_str. destruct (Z.eqb_spec h 0); [contradiction|]. destruct (Z.eqb_spec da 0); [contradiction|]. rewrite BB. reflexivity. }
  destruct BD as [rd BD].
  assert (UD : exists s, until_nul rd = Some s). { destruct (until_nul rd) as [s|] eqn:BB; [eauto|]. exfalso. apply U. cbn [fstep]. unfold ffi_write_int32, c_str. destruct (Z.eqb_spec h 0); [contradiction|]. destruct (Z.eqb_spec da 0); [contradiction|]. rewrite BD, BB. reflexivity. }
  assert (BM : exists rm, f_bufs st ma = Some rm). { destruct (f_bufs st ma) as [rm|] eqn:BB; [eauto|]. exfalso. apply U. cbn [fstep]. destruct UD as [sd UD]. unfold ffi_write_int32, c_str. destruct (Z.eqb_spec h 0); [contradiction|]. destruct (Z.eqb_spec da 0); [contradiction|]. rewrite BD, UD. cbn [cbind]. destruct (Z.eqb_spec ma 0); [contradiction|]. rewrite BB. reflexivity. }
  destruct BM as [rm BM].
  pose proof (PFfi.write_iff p snap env st h da ma t n fw rd rm I H0 BD BM U) as WI.
  assert (Ed : d = before_nul rd) by (unfold d, name_at; rewrite BD; reflexivity). assert (Em : m = before_nul rm) by (unfold m, name_at; rewrite BM; reflexivity). rewrite Ed, Em. split.
  - intros (st' & r & S). apply WI in S. destruct S as (_ & T1 & T2 & _ & _ & w & bs & S & _). eauto.
  - intros (T1 & T2 & w & S). do 2 eexists. apply WI. split; [reflexivity|]. repeat (split; [assumption|]). do 2 eexists. split; [exact S|]. split; reflexivity.
Qed.
Lemma close_returns : forall p snap decomp env calls st rets h fw, good_snap snap decomp ->
  frun p snap env ffi_new calls = CVal (st, rets) -> f_writers st h = Some fw -> h <> 0 ->
  e_sched env (fw_file fw) = healthy -> Forall SFfi.call_ok calls -> few_points (SFfi.written h no_bufs calls) ->
  (forall q, k_writers (asked calls rets) h = Some (fw_file fw, q) -> short_names q) ->
  fstep p snap env st (FClose h) <> CUndef ->
  exists q sc, k_writers (asked calls rets) h = Some (fw_file fw, q) /\ stands_for q sc /\ all_fine p snap sc (writes h calls) /\
    ((exists st' r, fstep p snap env st (FClose h) = CVal (st', r)) <-> texts_fine sc p (session_after snap sc (writes h calls)) = true).
Proof.
  intros p snap decomp env calls st rets h fw HG R I H0 E F L SN U. unfold few_points in L.
  destruct (next_op p snap decomp env calls st rets h fw (OpClose (e_order env)) HG R I E F Logic.I ltac:(cbn [op_points]; lia) SN) as (q & sc & K & B & A & X).
  exists q, sc. split; [exact K|]. split; [exact B|]. split; [exact A|]. specialize (X AUnit).
  unfold any_replies in X. rewrite replies_snoc in X. unfold all_fine, any_replies in A. rewrite A in X. cbv zeta in X. fold (session_after snap sc (writes h calls)) in X.
  cbn [stops reply] in X. transitivity (exists w, step p snap (fw_writer fw) (OpClose (e_order env)) = Ret (w, AUnit)).
  - cbn [fstep step] in *. unfold ffi_close in *. destruct (Z.eqb_spec h 0); [contradiction|]. rewrite I in *. destruct (intact (f_bufs st) (fw_borrows fw)); cbn [negb] in *; [|contradiction].
    destruct (writer_close p snap (e_order env) (fw_writer fw)) as [[w a]|e] eqn:WC; cbn [of_outcome cbind fst snd].
    + assert (a = AUnit) as ->. { unfold writer_close in WC. apply bind_ret in WC. destruct WC as (x & _ & WC). apply bind_ret in WC. destruct WC as (y & _ & WC). injection WC as _ <-. reflexivity. }
      split; intros _; eauto.
    + split; [intros (? & ? & ?); discriminate|intros (? & ?); discriminate].
  - rewrite X. destruct (texts_fine sc p (session_after snap sc (writes h calls))); cbn [negb]; split; auto; discriminate.
Qed.
(** In a release build. *)
Lemma release_write : forall snap q sc ops d m t n, stands_for q sc -> all_fine Release snap sc ops ->
  (all_fine Release snap sc (ops ++ [OpWrite d m t (VInt n)]) <->
    d = rq_device q /\ m = rq_name q /\ rq_type q = 1 /\ last_time (ss_hist (session_after snap sc ops)) d m < t).
Proof.
  intros snap q sc ops d m t n (ty & en & co & T & _ & _ & ->) A. unfold all_fine in *. unfold any_replies in *. rewrite replies_snoc, A. cbv zeta.
  set (sc := [(rq_device q, [(rq_name q, mkMS ty en co)])]) in *. fold (session_after snap sc ops). set (h := ss_hist (session_after snap sc ops)).
  assert (D : is_declared sc d m = same_name (rq_device q) d && same_name (rq_name q) m) by (unfold is_declared, sc; cbn [existsb fst snd]; rewrite !orb_false_r; reflexivity).
  assert (HD : has_device sc d = same_name (rq_device q) d) by (unfold has_device, sc; cbn [existsb fst]; apply orb_false_r).
  rewrite map_app. cbn [map]. cbn [stops call_panics reply stores batch_reply]. fold h. unfold admits. rewrite D, HD.
  assert (CS : can_store sc d m (VInt n) = negb (same_name (rq_device q) d) || (negb (same_name (rq_name q) m) || match ty with INT32 => true | _ => false end)).
  { unfold can_store, sc. cbn [forallb fst snd]. rewrite !andb_true_r. unfold storable. cbn [ms_type ms_enc]. destruct ty, en; reflexivity. }
  rewrite CS, andb_true_r. clear CS D HD.
  assert (SD : same_name (rq_device q) d = true <-> d = rq_device q) by (rewrite PLookup.same_name_eq; split; congruence).
  assert (SM : same_name (rq_name q) m = true <-> m = rq_name q) by (rewrite PLookup.same_name_eq; split; congruence).
  assert (TY : match ty with INT32 => true | _ => false end = true <-> rq_type q = 1) by (destruct T as [T|[T|[T|[]]]]; injection T as <- <-; split; intros; try reflexivity; discriminate).
  destruct (same_name (rq_device q) d); cbn [andb negb orb].
  - destruct (Z.leb_spec t (last_time h d m)) as [LE|LT].
    + assert (LB : (last_time h d m <? t) = false) by (apply Z.ltb_ge; lia). rewrite LB, andb_false_r. cbn [negb orb]. split; [|lia]. intros X. injection X as X. apply app_inv_head in X. discriminate.
    + assert (LB : (last_time h d m <? t) = true) by (apply Z.ltb_lt; lia). rewrite LB, andb_true_r.
      destruct (same_name (rq_name q) m); cbn [negb orb].
      * destruct ty; cbn [negb]; (split; [intros X; try discriminate X|intros (_ & _ & X & _); try (apply TY in X; discriminate X)]); auto.
        split; [apply SD; reflexivity|]. split; [apply SM; reflexivity|]. split; [apply TY; reflexivity|exact LT].
      * split; [intros X; injection X as X; apply app_inv_head in X; discriminate|]. intros (_ & X & _). apply SM in X. discriminate.
  - split; [intros X; injection X as X; apply app_inv_head in X; discriminate|]. intros (X & _). apply SD in X. discriminate.
Qed.

(** ** Python *)
Lemma py_exact : forall p snap decomp env ops f st rets d m ty en co s n w, good_snap snap decomp ->
  pyrun p snap env (ffi_new, py_new) ops = CVal (f, st, rets) -> let tr := combine ops rets in
  In (PySchema d m ty en co, PyObj s) tr -> In (PyWriter n s, PyObj w) tr -> In (PyClose w, PyNone) tr ->
  e_sched env (py_name n) = healthy -> good_order (e_order env) -> Forall pyop_ok ops -> few_points (py_points w tr) -> short_names (py_request d m ty en co) ->
  exists h data, In (h, (py_name n, data)) (f_files f) /\ (zlen data < 2 ^ 32 ->
    exists sc ps stages, stands_for (py_request d m ty en co) sc /\
      written_any snap sc (map op_of (py_points w tr) ++ [OpClose (e_order env)]) ps stages /\ data = the_file snap ps).
Proof.
  intros p snap decomp env ops f st rets d m ty en co s n w HG R tr SC O C E OO F L SN.
  destruct (link_run _ _ _ _ _ _ _ _ _ _ _ _ _ (link_new p snap env) R) as (Ln & calls & r0 & hd & K). cbn [app] in K. fold tr in K.
  destruct (ln_closed _ _ _ _ _ _ _ _ _ K _ _ _ O C) as (h & data & H & I). exists h, data. split; [exact I|]. intros Ld.
  pose proof (ln_run _ _ _ _ _ _ _ _ _ K) as R0.
  assert (F' : Forall SFfi.call_ok calls).
  { apply (ln_ok _ _ _ _ _ _ _ _ _ K). apply Forall_forall. intros [o r] J. apply in_combine_l in J. rewrite Forall_forall in F. exact (F o J). }
  pose proof (ln_points _ _ _ _ _ _ _ _ _ K _ _ H) as W. pose proof (ln_request _ _ _ _ _ _ _ _ _ K _ _ _ _ _ _ _ _ _ SC O H) as Q.
  destruct (ffi_bytes p snap decomp env calls f r0 h _ data HG R0 I E OO F') as (q & sc & ps & stages & Kq & B & WA & D); [rewrite W; exact L|exact Ld|intros q Kq; rewrite Q in Kq; injection Kq as <-; exact SN|].
  rewrite Q in Kq. injection Kq as <-. unfold writes in WA. rewrite W in WA. eauto 8.
Qed.
Lemma ffi_request : forall p snap env calls st rets h fw, frun p snap env ffi_new calls = CVal (st, rets) -> f_writers st h = Some fw ->
  exists q sc out w0, k_writers (asked calls rets) h = Some (fw_file fw, q) /\ stands_for q sc /\
    writer_new sc (sink_new (e_sched env (fw_file fw))) = (out, Some w0) /\
    run p snap w0 (writes h calls) = Ret (fw_writer fw, map (fun _ => AOk) (writes h calls)).
Proof.
  intros p snap env calls st rets h fw R I. destruct (ai_writers _ _ _ _ _ _ (ainv_run _ _ _ _ _ _ R) _ _ I) as (q & K & (sc & out & w0 & B & G & N & Rn)).
  exists q, sc, out, w0. unfold writes. rewrite map_map. auto.
Qed.
