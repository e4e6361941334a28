(** Proofs about the Python classes (C46). *)
From Coq Require Import Lia.
From Verif Require Export SPy PFfiAsked.
Ltac Zify.zify_post_hook ::= idtac.

Lemma frun_app : forall p snap env a b st, frun p snap env st (a ++ b) =
  (let! r := frun p snap env st a in let! r' := frun p snap env (fst r) b in CVal (fst r', snd r ++ snd r')).
Proof.
  intros p snap env a b. induction a as [|x a IH]; intros st; cbn [app frun].
  - cbn [cbind fst snd]. destruct (frun p snap env st b) as [[st' r]| |]; reflexivity.
  - destruct (fstep p snap env st x) as [[st' r]| |]; cbn [cbind fst snd]; try reflexivity. rewrite IH.
    destruct (frun p snap env st' a) as [[st2 l]| |]; cbn [cbind fst snd]; try reflexivity.
    destruct (frun p snap env st2 b) as [[st3 r3]| |]; reflexivity.
Qed.

Definition with_bufs (b : Z -> option (list Z)) (f : ffi) : ffi := mkFfi b (f_schemas f) (f_writers f) (f_files f) (f_next f).

(** Dictionaries of live bytes objects. *)
Definition dict_ok (b : Z -> option (list Z)) (addr : Z) (refs : list (list Z * Z)) : Prop :=
  forall n a, In (n, a) refs -> 0 < a < addr /\ exists raw, b a = Some raw /\ py_bytes n = Some raw.
Lemma py_bytes_nul : forall n raw, py_bytes n = Some raw -> In 0 raw.
Proof. intros n raw. unfold py_bytes. destruct (forallb py_scalar n); [|discriminate]. intros H. injection H as <-. apply in_or_app. right. left. reflexivity. Qed.
Lemma ref_get_in : forall n refs a, ref_get n refs = Some a -> In (n, a) refs.
Proof.
  intros n refs a. induction refs as [|[n' a'] refs IH]; cbn [ref_get]; [discriminate|].
  destruct (str_eqb n n') eqn:E; [|intros H; right; auto]. apply str_eqb_eq in E. subst n'. intros H. injection H as <-. left. reflexivity.
Qed.
Lemma holder_spec : forall p snap env n addr refs calls ad refs' a f, holder_get n addr refs = Some (calls, ad, refs', a) ->
  0 < addr -> dict_ok (f_bufs f) addr refs ->
  exists b, frun p snap env f calls = CVal (with_bufs b f, map (fun _ => 0) calls) /\
    dict_ok b ad refs' /\ In (n, a) refs' /\ addr <= ad /\ incl refs refs' /\ (forall x, x < addr -> b x = f_bufs f x) /\
    (forall x, In x (map snd refs') -> In x (map snd refs) \/ addr <= x < ad).
Proof.
  intros p snap env n addr refs calls ad refs' a f H A D. unfold holder_get in H. destruct (ref_get n refs) as [a'|] eqn:G.
  - injection H as <- <- <- <-. exists (f_bufs f). split; [destruct f; reflexivity|]. split; [exact D|]. split; [apply ref_get_in; exact G|].
    split; [lia|]. split; [apply incl_refl|]. split; auto.
  - destruct (py_bytes n) as [raw|] eqn:B; [|discriminate]. injection H as <- <- <- <-. exists (upd addr (Some raw) (f_bufs f)).
    split; [reflexivity|]. split.
    { intros n' a [E|I]; [injection E as <- <-; split; [lia|]|].
      - exists raw. rewrite upd_eq. split; [reflexivity|exact B].
      - destruct (D n' a I) as [L X]. split; [lia|]. rewrite upd_ne by lia. exact X. }
    split; [left; reflexivity|]. split; [lia|]. split; [intros x I; right; exact I|].
    split; [intros x L; apply upd_ne; lia|]. intros x [<-|I]; [right; cbn [snd]; lia|left; exact I].
Qed.

Record pyinv (f : ffi) (st : py) : Prop := {
  pi_addr : 0 < py_addr st;
  pi_next : 0 < f_next f;
  pi_fresh : forall h, f_next f <= h -> f_schemas f h = None /\ f_writers f h = None;
  pi_objs : forall id, Z.of_nat (py_objs st) <= id \/ id < 0 -> py_schemas st id = None /\ py_writers st id = None;
  pi_refs : forall id ps, py_schemas st id = Some ps -> dict_ok (f_bufs f) (py_addr st) (ps_refs ps);
  pi_apart : forall i j ps qs a, i <> j -> py_schemas st i = Some ps -> py_schemas st j = Some qs ->
    In a (map snd (ps_refs ps)) -> ~ In a (map snd (ps_refs qs));
  pi_inst : forall id ps h, py_schemas st id = Some ps -> ps_inst ps = Some h -> 0 < h /\
    exists s, f_schemas f h = Some s /\ held (f_bufs f) (map snd (ps_refs ps)) (fs_borrows s);
  pi_inst_apart : forall i j ps qs h, py_schemas st i = Some ps -> py_schemas st j = Some qs -> ps_inst ps = Some h -> ps_inst qs = Some h -> i = j;
  pi_wr : forall id pw, py_writers st id = Some pw -> exists ps, py_schemas st (pw_schema pw) = Some ps /\
    forall h, pw_inst pw = Some h -> 0 < h /\ exists fw, f_writers f h = Some fw /\ held (f_bufs f) (map snd (ps_refs ps)) (fw_borrows fw);
  pi_wr_apart : forall i j pw qw h, py_writers st i = Some pw -> py_writers st j = Some qw -> pw_inst pw = Some h -> pw_inst qw = Some h -> i = j }.

Lemma dict_below : forall b addr refs x, dict_ok b addr refs -> In x (map snd refs) -> 0 < x < addr.
Proof. intros b addr refs x D I. apply in_map_iff in I. destruct I as ([n a] & <- & I). apply (D n a I). Qed.
Lemma intact_agree : forall b b' bs, (forall x, In x (map fst bs) -> b' x = b x) -> intact b' bs = intact b bs.
Proof.
  intros b b' bs. induction bs as [|[a s] bs IH]; intros H; [reflexivity|]. unfold intact in *. cbn [forallb fst snd map] in *.
  rewrite (H a) by (left; reflexivity). f_equal. apply IH. intros x I. apply H. right. exact I.
Qed.
Lemma held_agree : forall b b' l l' bs, (forall x, In x l -> b' x = b x) -> incl l l' -> held b l bs -> held b' l' bs.
Proof.
  intros b b' l l' bs A S [I T]. split; [intros x J; apply S, I, J|]. rewrite <- T. apply intact_agree. intros x J. apply A, I, J.
Qed.
Lemma incl_map_snd : forall (r r' : list (list Z * Z)), incl r r' -> incl (map snd r) (map snd r').
Proof. intros r r' H x I. apply in_map_iff in I. destruct I as (y & <- & I). apply in_map. apply H. exact I. Qed.

(** New bytes objects, more entries in one dictionary. *)
Lemma pyinv_grow : forall f st id ps refs ad b, pyinv f st -> py_schemas st id = Some ps ->
  py_addr st <= ad -> incl (ps_refs ps) refs -> dict_ok b ad refs -> (forall x, x < py_addr st -> b x = f_bufs f x) ->
  (forall x, In x (map snd refs) -> In x (map snd (ps_refs ps)) \/ py_addr st <= x) ->
  pyinv (with_bufs b f) (set_schema st id (Some (mkPyS refs (ps_inst ps))) ad).
Proof.
  intros f st id ps refs ad b [A1 A2 A3 A4 A5 A6 A7 A8 A9 A10] E L S D G N.
  assert (B : forall i qs x, py_schemas st i = Some qs -> In x (map snd (ps_refs qs)) -> 0 < x < py_addr st) by (intros i qs x H; apply (dict_below _ _ _ _ (A5 i qs H))).
  unfold set_schema, with_bufs.
  assert (cases : forall i qs, upd id (Some (mkPyS refs (ps_inst ps))) (py_schemas st) i = Some qs ->
    exists qs0, py_schemas st i = Some qs0 /\ ps_inst qs = ps_inst qs0 /\ incl (ps_refs qs0) (ps_refs qs) /\ (i = id -> qs = mkPyS refs (ps_inst ps)) /\ (i <> id -> qs = qs0)).
  { intros i qs. unfold upd. destruct (Z.eqb_spec i id) as [->|X].
    - intros H. injection H as <-. exists ps. cbn [ps_inst ps_refs]. repeat split; auto; congruence.
    - intros H. exists qs. repeat split; auto. apply incl_refl. congruence. }
  constructor; cbn [f_bufs f_schemas f_writers f_next py_schemas py_writers py_objs py_addr]; auto; try lia.
  - intros i H. destruct (A4 i H) as [C1 C2]. split; [|exact C2]. rewrite upd_ne; [exact C1|]. congruence.
  - intros i qs H. destruct (cases i qs H) as (q0 & H0 & _ & _ & H1 & H2). destruct (Z.eq_dec i id) as [X|X].
    + rewrite (H1 X). exact D.
    + rewrite (H2 X). intros n a I. destruct (A5 i q0 H0 n a I) as [C1 C2]. split; [lia|]. rewrite G by lia. exact C2.
  - intros i j q1 q2 a X H1 H2 I J. destruct (cases i q1 H1) as (p1 & P1 & _ & _ & X1 & Y1). destruct (cases j q2 H2) as (p2 & P2 & _ & _ & X2 & Y2).
    assert (N1 : In a (map snd (ps_refs p1)) \/ i = id /\ py_addr st <= a).
    { destruct (Z.eq_dec i id) as [Z1|Z1]; [|rewrite (Y1 Z1) in I; auto]. rewrite (X1 Z1) in I. cbn [ps_refs] in I. destruct (N a I); auto. left. congruence. }
    assert (N2 : In a (map snd (ps_refs p2)) \/ j = id /\ py_addr st <= a).
    { destruct (Z.eq_dec j id) as [Z1|Z1]; [|rewrite (Y2 Z1) in J; auto]. rewrite (X2 Z1) in J. cbn [ps_refs] in J. destruct (N a J); auto. left. congruence. }
    destruct N1 as [N1|[N1 M1]], N2 as [N2|[N2 M2]].
    + exact (A6 i j p1 p2 a X P1 P2 N1 N2).
    + pose proof (B _ _ _ P1 N1). lia.
    + pose proof (B _ _ _ P2 N2). lia.
    + congruence.
  - intros i qs h H I. destruct (cases i qs H) as (q0 & H0 & I0 & S0 & _). rewrite I0 in I. destruct (A7 i q0 h H0 I) as (C1 & s & C2 & C3).
    split; [exact C1|]. exists s. split; [exact C2|]. eapply held_agree; [|apply incl_map_snd; exact S0|exact C3]. intros x J. apply G. apply (B _ _ _ H0 J).
  - intros i j q1 q2 h H1 H2 I J. destruct (cases i q1 H1) as (p1 & P1 & E1 & _). destruct (cases j q2 H2) as (p2 & P2 & E2 & _). rewrite E1 in I. rewrite E2 in J. eauto.
  - intros i pw H. destruct (A9 i pw H) as (q0 & H0 & C).
    assert (X : exists q, upd id (Some (mkPyS refs (ps_inst ps))) (py_schemas st) (pw_schema pw) = Some q).
    { unfold upd. destruct (pw_schema pw =? id); eauto. }
    destruct X as (q & X). exists q. split; [exact X|]. destruct (cases _ _ X) as (q1 & H1 & _ & S1 & _). assert (q1 = q0) as -> by congruence.
    intros h I. destruct (C h I) as (C1 & fw & C2 & C3). split; [exact C1|]. exists fw. split; [exact C2|].
    eapply held_agree; [|apply incl_map_snd; exact S1|exact C3]. intros x J. apply G. apply (B _ _ _ H0 J).
Qed.
(** Buffers above the addresses in use do not matter. *)
Lemma pyinv_bufs : forall f st ad b, pyinv f st -> py_addr st <= ad -> (forall x, x < py_addr st -> b x = f_bufs f x) ->
  pyinv (with_bufs b f) (mkPy (py_schemas st) (py_writers st) (py_objs st) ad).
Proof.
  intros f st ad b [A1 A2 A3 A4 A5 A6 A7 A8 A9 A10] L G. unfold with_bufs.
  assert (B : forall i qs x, py_schemas st i = Some qs -> In x (map snd (ps_refs qs)) -> 0 < x < py_addr st) by (intros i qs x H; apply (dict_below _ _ _ _ (A5 i qs H))).
  constructor; cbn [f_bufs f_schemas f_writers f_next py_schemas py_writers py_objs py_addr]; auto; try lia.
  - intros i qs H n a I. destruct (A5 i qs H n a I) as [C1 C2]. split; [lia|]. rewrite G by lia. exact C2.
  - intros i qs h H I. destruct (A7 i qs h H I) as (C1 & s & C2 & C3). split; [exact C1|]. exists s. split; [exact C2|].
    eapply held_agree; [|apply incl_refl|exact C3]. intros x J. apply G. apply (B _ _ _ H J).
  - intros i pw H. destruct (A9 i pw H) as (q0 & H0 & C). exists q0. split; [exact H0|]. intros h I. destruct (C h I) as (C1 & fw & C2 & C3).
    split; [exact C1|]. exists fw. split; [exact C2|]. eapply held_agree; [|apply incl_refl|exact C3]. intros x J. apply G. apply (B _ _ _ H0 J).
Qed.
Lemma c_str_dict : forall b addr refs n a, dict_ok b addr refs -> In (n, a) refs -> c_str b a <> CUndef.
Proof.
  intros b addr refs n a D I. destruct (D n a I) as (L & raw & B & Z0). apply py_bytes_nul in Z0. unfold c_str. destruct (a =? 0); [discriminate|]. rewrite B.
  destruct (until_nul raw) as [s|] eqn:U; [discriminate|]. exfalso. apply in_split in Z0. destruct Z0 as (l1 & l2 & ->). clear - U.
  induction l1 as [|x l1 IH]; cbn [app until_nul] in U; [discriminate|]. destruct (x =? 0); [discriminate|]. apply IH. destruct (until_nul (l1 ++ 0 :: l2)); [discriminate|reflexivity].
Qed.
Definition result_ok (r : cresult (ffi * py * pyret)) : Prop :=
  match r with CVal (f, st, _) => pyinv f st | CAbort => True | CUndef => False end.

Lemma frees : forall p snap env l f, exists b, frun p snap env f (map (fun r : list Z * Z => CFree (snd r)) l) = CVal (with_bufs b f, map (fun _ => 0) l) /\
  forall x, ~ In x (map snd l) -> b x = f_bufs f x.
Proof.
  intros p snap env. induction l as [|[n a] l IH]; intros f; cbn [map frun snd].
  - exists (f_bufs f). split; [destruct f; reflexivity|auto].
  - cbn [fstep cbind fst snd]. destruct (IH (mkFfi (upd a None (f_bufs f)) (f_schemas f) (f_writers f) (f_files f) (f_next f))) as (b & R & B).
    exists b. rewrite R. split; [reflexivity|]. intros x N. rewrite B by (intros I; apply N; right; exact I). cbn [f_bufs]. apply upd_ne. intros ->. apply N. left. reflexivity.
Qed.
Lemma not_referenced : forall st id i w, referenced st id = false -> (forall i, Z.of_nat (py_objs st) <= i \/ i < 0 -> py_writers st i = None) ->
  py_writers st i = Some w -> pw_schema w <> id.
Proof.
  intros st id i w R O W E. unfold referenced in R.
  assert (X : existsb (fun i => match py_writers st (Z.of_nat i) with Some w => pw_schema w =? id | None => false end) (seq 0 (py_objs st)) = true).
  { apply existsb_exists. destruct (Z_lt_le_dec i 0) as [L|L]; [rewrite O in W by lia; discriminate|].
    destruct (Z_lt_le_dec i (Z.of_nat (py_objs st))) as [L'|L']; [|rewrite O in W by lia; discriminate].
    exists (Z.to_nat i). split; [apply in_seq; lia|]. rewrite Z2Nat.id by lia. rewrite W, E. apply Z.eqb_refl. }
  congruence.
Qed.

Lemma pystep_ok : forall p snap env f st o, pyinv f st -> result_ok (pystep p snap env (f, st) o).
Proof.
  intros p snap env f st o V. unfold pystep. cbn [fst snd].
  assert (FAIL : result_ok (let! r := frun p snap env f [] in CVal (fst r, st, PyExc))) by exact V.
  destruct o as [d m dt en co|s|n s|w d m t v|w|w|s]; cbn [py_plan].
  - destruct (holder_get d (py_addr st) []) as [[[[c1 ad1] refs1] a1]|] eqn:H1; [|exact FAIL].
    destruct (holder_get m ad1 refs1) as [[[[c2 ad2] refs2] a2]|] eqn:H2; [|exact FAIL].
    destruct (c_int dt && c_int en && c_int co); [|exact FAIL].
    destruct (holder_spec p snap env _ _ _ _ _ _ _ f H1 (pi_addr _ _ V) ltac:(intros ? ? [])) as (b1 & R1 & D1 & I1 & L1 & S1 & G1 & N1).
    destruct (holder_spec p snap env _ _ _ _ _ _ _ (with_bufs b1 f) H2 ltac:(pose proof (pi_addr _ _ V); lia) D1) as (b2 & R2 & D2 & I2 & L2 & S2 & G2 & N2).
    cbn [f_bufs with_bufs] in G2. change (with_bufs b2 (with_bufs b1 f)) with (with_bufs b2 f) in R2.
    rewrite frun_app, R1. cbn [cbind fst snd]. rewrite frun_app, R2. cbn [cbind fst snd frun fstep].
    assert (I1' : In (d, a1) refs2) by (apply S2; exact I1).
    pose proof (c_str_dict _ _ _ _ _ D2 I1') as C1. pose proof (c_str_dict _ _ _ _ _ D2 I2) as C2.
    unfold ffi_schema_simple. cbn [f_bufs with_bufs]. destruct (c_str b2 a1) as [d1| |] eqn:E1; [|exact I|congruence]. cbn [cbind].
    destruct (c_str b2 a2) as [m1| |] eqn:E2; [|exact I|congruence]. cbn [cbind].
    unfold to_str. destruct (utf8_ok d1); [|exact I]. cbn [cbind]. destruct (utf8_ok m1); [|exact I]. cbn [cbind].
    destruct (dtype_of_code (wrapU 8 dt)) as [dt'|]; [|exact I]. cbn [cbind expect]. destruct (encoding_of_code (wrapU 8 en)) as [en'|]; [|exact I]. cbn [cbind expect].
    destruct (compression_of_code (wrapU 8 co)) as [co'|]; [|exact I]. cbn [cbind expect].
    change (schema_simple d1 m1 dt' en' co') with (Ret [(d1, [(m1, mkMS dt' en' co')])]). cbn [cbind of_outcome fst snd f_bufs f_schemas f_writers f_files f_next with_bufs].
    rewrite !app_assoc, last_last. destruct V as [A1 A2 A3 A4 A5 A6 A7 A8 A9 A10].
    assert (G : forall x, x < py_addr st -> b2 x = f_bufs f x) by (intros x Lx; rewrite G2 by lia; apply G1; exact Lx).
    assert (B : forall i qs x, py_schemas st i = Some qs -> In x (map snd (ps_refs qs)) -> 0 < x < py_addr st) by (intros i qs x H; apply (dict_below _ _ _ _ (A5 i qs H))).
    assert (NN : forall x, In x (map snd refs2) -> py_addr st <= x).
    { intros x Ix. destruct (N2 x Ix) as [Jx|]; [|lia]. destruct (N1 x Jx) as [[]|]; lia. }
    assert (F : 0 <= f_next f) by lia.
    unfold result_ok. constructor; cbn [f_bufs f_schemas f_writers f_next py_schemas py_writers py_objs py_addr]; try lia.
    + intros h Lh. destruct (A3 h ltac:(lia)) as [X Y]. rewrite upd_ne by lia. auto.
    + intros i Li. destruct (A4 i ltac:(lia)) as [X Y]. rewrite upd_ne by lia. auto.
    + intros i qs. unfold upd. destruct (Z.eqb_spec i (Z.of_nat (py_objs st))) as [->|X]; [intros E; injection E as <-; exact D2|].
      intros E nn a Ia. destruct (A5 i qs E nn a Ia) as [Y1 Y2]. split; [lia|]. rewrite G by lia. exact Y2.
    + intros i j ps qs a X. unfold upd. destruct (Z.eqb_spec i (Z.of_nat (py_objs st))) as [->|Xi], (Z.eqb_spec j (Z.of_nat (py_objs st))) as [->|Xj]; [congruence| | |].
      * intros E EJ Ia Ja. injection E as <-. cbn [ps_refs] in Ia. pose proof (NN a Ia). pose proof (B _ _ _ EJ Ja). lia.
      * intros EI E Ia Ja. injection E as <-. cbn [ps_refs] in Ja. pose proof (NN a Ja). pose proof (B _ _ _ EI Ia). lia.
      * intros EI EJ. exact (A6 i j ps qs a X EI EJ).
    + intros i qs h. unfold upd at 1. destruct (Z.eqb_spec i (Z.of_nat (py_objs st))) as [->|Xi].
      * intros E E'. injection E as <-. cbn [ps_inst ps_refs] in *. injection E' as <-. split; [lia|]. rewrite upd_eq. eexists. split; [reflexivity|]. cbn [fs_borrows].
        split; [intros x [<-|[<-|[]]]; cbn [fst]; [exact (in_map snd _ _ I1')|exact (in_map snd _ _ I2)]|].
        rewrite (intact_c_str _ _ _ _ E1), (intact_c_str _ _ _ _ E2). reflexivity.
      * intros E E'. destruct (A7 i qs h E E') as (Y1 & s & Y2 & Y3). split; [exact Y1|]. exists s.
        assert (h <> f_next f) by (intros ->; destruct (A3 (f_next f) ltac:(lia)) as [Q _]; congruence). rewrite upd_ne by assumption. split; [exact Y2|].
        eapply held_agree; [|apply incl_refl|exact Y3]. intros x J. apply G. apply (B _ _ _ E J).
    + intros i j ps qs h. unfold upd. destruct (Z.eqb_spec i (Z.of_nat (py_objs st))) as [->|Xi], (Z.eqb_spec j (Z.of_nat (py_objs st))) as [->|Xj]; auto.
      * intros E EJ E1' E2'. injection E as <-. cbn [ps_inst] in E1'. injection E1' as <-. destruct (A7 j qs _ EJ E2') as (_ & s & Q & _). destruct (A3 (f_next f) ltac:(lia)) as [Q' _]. congruence.
      * intros EI E E1' E2'. injection E as <-. cbn [ps_inst] in E2'. injection E2' as <-. destruct (A7 i ps _ EI E1') as (_ & s & Q & _). destruct (A3 (f_next f) ltac:(lia)) as [Q' _]. congruence.
      * intros EI EJ. exact (A8 i j ps qs h EI EJ).
    + intros i pw H. destruct (A9 i pw H) as (q0 & H0 & C). exists q0. split.
      { rewrite upd_ne; [exact H0|]. intros E. destruct (A4 (pw_schema pw) ltac:(lia)) as [Q _]. congruence. }
      intros h Ih. destruct (C h Ih) as (Y1 & fw & Y2 & Y3). split; [exact Y1|]. exists fw. split; [exact Y2|].
      eapply held_agree; [|apply incl_refl|exact Y3]. intros x J. apply G. apply (B _ _ _ H0 J).
  - destruct (py_schemas st s) as [[refs [h|]]|] eqn:E; [|exact FAIL|exact FAIL].
    destruct (pi_inst _ _ V _ _ _ E eq_refl) as (P & fs & F & Hh). cbn [frun fstep]. unfold ffi_schema_free.
    destruct (Z.eqb_spec h 0); [lia|]. rewrite F. cbn [cbind fst snd]. destruct V as [A1 A2 A3 A4 A5 A6 A7 A8 A9 A10].
    assert (cases : forall i qs, upd s (Some (mkPyS refs None)) (py_schemas st) i = Some qs -> exists q0, py_schemas st i = Some q0 /\ ps_refs q0 = ps_refs qs /\ (forall x, ps_inst qs = Some x -> q0 = qs /\ i <> s)).
    { intros i qs. unfold upd. destruct (Z.eqb_spec i s) as [->|X]; [intros Q; injection Q as <-; eexists; split; [exact E|]; split; [reflexivity|discriminate]|]. intros Q. exists qs. auto. }
    unfold result_ok, set_schema. constructor; cbn [f_bufs f_schemas f_writers f_next py_schemas py_writers py_objs py_addr]; auto.
    + intros x L. destruct (A3 x L) as [X Y]. split; [|exact Y]. unfold upd. destruct (x =? h); auto.
    + intros i L. destruct (A4 i L) as [X Y]. split; [|exact Y]. rewrite upd_ne; [exact X|congruence].
    + intros i qs H. destruct (cases i qs H) as (q0 & H0 & R & _). rewrite <- R. eauto.
    + intros i j q1 q2 a X H1 H2. destruct (cases _ _ H1) as (p1 & P1 & R1 & _). destruct (cases _ _ H2) as (p2 & P2 & R2 & _). rewrite <- R1, <- R2. eauto.
    + intros i qs x H Ix. destruct (cases i qs H) as (q0 & H0 & R & C). destruct (C x Ix) as [-> X]. destruct (A7 i qs x H0 Ix) as (Y1 & s' & Y2 & Y3).
      split; [exact Y1|]. exists s'. split; [|exact Y3]. rewrite upd_ne; [exact Y2|]. intros ->. apply X. exact (A8 _ _ _ _ _ H0 E Ix eq_refl).
    + intros i j q1 q2 x H1 H2 I1 I2. destruct (cases _ _ H1) as (p1 & P1 & _ & R1). destruct (cases _ _ H2) as (p2 & P2 & _ & R2).
      destruct (R1 x I1) as [-> _], (R2 x I2) as [-> _]. eauto.
    + intros i pw H. destruct (A9 i pw H) as (q0 & H0 & C).
      assert (X : exists q, upd s (Some (mkPyS refs None)) (py_schemas st) (pw_schema pw) = Some q) by (unfold upd; destruct (pw_schema pw =? s); eauto).
      destruct X as (q & X). exists q. split; [exact X|]. destruct (cases _ _ X) as (q1 & H1 & R & _). assert (q1 = q0) as -> by congruence. rewrite <- R. exact C.
  - destruct (py_bytes n) as [raw|] eqn:Bn; [|exact FAIL]. destruct (py_schemas st s) as [[refs [h|]]|] eqn:E; [|exact FAIL|exact FAIL].
    destruct (pi_inst _ _ V _ _ _ E eq_refl) as (P & fs & F & Hh). cbn [frun fstep cbind fst snd]. unfold ffi_writer_new. cbn [f_bufs f_schemas].
    assert (C : c_str (upd (py_addr st) (Some raw) (f_bufs f)) (py_addr st) <> CUndef).
    { apply (c_str_dict _ (py_addr st + 1) [(n, py_addr st)] n); [|left; reflexivity]. intros n' a [X|[]]. injection X as <- <-. pose proof (pi_addr _ _ V). split; [lia|].
      exists raw. rewrite upd_eq. split; [reflexivity|exact Bn]. }
    destruct (c_str (upd (py_addr st) (Some raw) (f_bufs f)) (py_addr st)) as [n1| |]; [|exact I|congruence]. cbn [cbind]. rewrite F.
    pose proof (pi_refs _ _ V _ _ E) as Dr. cbn [ps_refs] in Dr, Hh.
    assert (Hi : held (upd (py_addr st) (Some raw) (f_bufs f)) (map snd refs) (fs_borrows fs)).
    { eapply held_agree; [|apply incl_refl|exact Hh]. intros x J. apply upd_ne. pose proof (dict_below _ _ _ _ Dr J). lia. }
    destruct Hi as [_ Hi]. rewrite Hi. cbn [negb]. unfold to_str. destruct (utf8_ok n1); [|exact I]. cbn [cbind].
    destruct (file_new env n1 (fs_schema fs)) as [[w|]|]; [|exact I|exact I]. cbn [of_outcome cbind expect fst snd nth f_bufs f_schemas f_writers f_files f_next].
    pose proof (pyinv_bufs f st (py_addr st + 1) (upd (py_addr st) None (upd (py_addr st) (Some raw) (f_bufs f))) V ltac:(lia)
      ltac:(intros x L; rewrite !upd_ne by lia; reflexivity)) as V'.
    unfold with_bufs in V'. set (b2 := upd (py_addr st) None (upd (py_addr st) (Some raw) (f_bufs f))) in *.
    assert (Hf : held b2 (map snd refs) (fs_borrows fs)).
    { eapply held_agree; [|apply incl_refl|exact Hh]. intros x J. subst b2. pose proof (dict_below _ _ _ _ Dr J). rewrite !upd_ne by lia. reflexivity. }
    destruct V' as [A1 A2 A3 A4 A5 A6 A7 A8 A9 A10]. cbn [f_bufs f_schemas f_writers f_next py_schemas py_writers py_objs py_addr] in *.
    unfold result_ok. constructor; cbn [f_bufs f_schemas f_writers f_next py_schemas py_writers py_objs py_addr]; auto; try lia.
    + intros x L. destruct (A3 x ltac:(lia)) as [X Y]. rewrite upd_ne by lia. auto.
    + intros i L. destruct (A4 i ltac:(lia)) as [X Y]. rewrite upd_ne by lia. auto.
    + intros i pw. unfold upd at 1. destruct (Z.eqb_spec i (Z.of_nat (py_objs st))) as [->|X].
      * intros Q. injection Q as <-. cbn [pw_schema pw_inst]. exists (mkPyS refs (Some h)). split; [exact E|]. intros x Q. injection Q as <-. split; [lia|].
        rewrite upd_eq. eexists. split; [reflexivity|]. cbn [fw_borrows ps_refs]. exact Hf.
      * intros Q. destruct (A9 i pw Q) as (q0 & H0 & C'). exists q0. split; [exact H0|]. intros x Ix. destruct (C' x Ix) as (Y1 & fw & Y2 & Y3). split; [exact Y1|]. exists fw.
        split; [|exact Y3]. rewrite upd_ne; [exact Y2|]. intros ->. destruct (A3 (f_next f) ltac:(lia)) as [_ Z0]. congruence.
    + intros i j pw qw x. unfold upd. destruct (Z.eqb_spec i (Z.of_nat (py_objs st))) as [->|Xi], (Z.eqb_spec j (Z.of_nat (py_objs st))) as [->|Xj]; auto.
      * intros Q QJ Q1 Q2. injection Q as <-. cbn [pw_inst] in Q1. injection Q1 as <-. destruct (A9 j qw QJ) as (q0 & _ & C'). destruct (C' _ Q2) as (_ & fw & Y & _). destruct (A3 (f_next f) ltac:(lia)) as [_ Z0]. congruence.
      * intros QI Q Q1 Q2. injection Q as <-. cbn [pw_inst] in Q2. injection Q2 as <-. destruct (A9 i pw QI) as (q0 & _ & C'). destruct (C' _ Q1) as (_ & fw & Y & _). destruct (A3 (f_next f) ltac:(lia)) as [_ Z0]. congruence.
      * intros QI QJ. exact (A10 i j pw qw x QI QJ).
  - destruct (py_writers st w) as [[s [h|]]|] eqn:E; [|exact FAIL|exact FAIL].
    destruct (pi_wr _ _ V _ _ E) as (ps & Es & C). cbn [pw_schema pw_inst] in *. rewrite Es. destruct (C h eq_refl) as (P & fw & Fw & Hh).
    pose proof (pi_refs _ _ V _ _ Es) as Dr.
    destruct (holder_get d (py_addr st) (ps_refs ps)) as [[[[c1 ad1] refs1] a1]|] eqn:H1; [|exact FAIL].
    destruct (holder_spec p snap env _ _ _ _ _ _ _ f H1 (pi_addr _ _ V) Dr) as (b1 & R1 & D1 & I1 & L1 & S1 & G1 & N1).
    assert (V1 : pyinv (with_bufs b1 f) (set_schema st s (Some (mkPyS refs1 (ps_inst ps))) ad1)).
    { apply pyinv_grow; auto. intros x J. destruct (N1 x J); [auto|right; lia]. }
    destruct (holder_get m ad1 refs1) as [[[[c2 ad2] refs2] a2]|] eqn:H2; [|cbn [snd]; rewrite R1; exact V1].
    destruct (holder_spec p snap env _ _ _ _ _ _ _ (with_bufs b1 f) H2 ltac:(pose proof (pi_addr _ _ V); lia) D1) as (b2 & R2 & D2 & I2 & L2 & S2 & G2 & N2).
    cbn [f_bufs with_bufs] in G2. change (with_bufs b2 (with_bufs b1 f)) with (with_bufs b2 f) in R2.
    assert (G : forall x, x < py_addr st -> b2 x = f_bufs f x) by (intros x Lx; rewrite G2 by lia; apply G1; exact Lx).
    assert (V2 : pyinv (with_bufs b2 f) (set_schema st s (Some (mkPyS refs2 (ps_inst ps))) ad2)).
    { apply pyinv_grow; auto; [lia|intros x J; apply S2, S1, J|]. intros x J. destruct (N2 x J) as [K|K]; [|right; lia]. destruct (N1 x K); [auto|right; lia]. }
    destruct (c_int t && c_int v).
    2:{ rewrite frun_app, R1. cbn [cbind fst snd]. rewrite R2. exact V2. }
    rewrite frun_app, R1. cbn [cbind fst snd]. rewrite frun_app, R2. cbn [cbind fst snd frun fstep].
    unfold ffi_write_int32. cbn [f_bufs f_schemas f_writers f_files f_next with_bufs]. destruct (Z.eqb_spec h 0); [lia|].
    assert (I1' : In (d, a1) refs2) by (apply S2; exact I1).
    pose proof (c_str_dict _ _ _ _ _ D2 I1') as C1. pose proof (c_str_dict _ _ _ _ _ D2 I2) as C2.
    destruct (c_str b2 a1) as [d1| |] eqn:E1; [|exact I|congruence]. cbn [cbind].
    destruct (c_str b2 a2) as [m1| |] eqn:E2; [|exact I|congruence]. cbn [cbind]. rewrite Fw.
    assert (Hf : held b2 (map snd refs2) (fw_borrows fw)).
    { eapply held_agree; [|apply incl_map_snd; intros x J; apply S2, S1, J|exact Hh]. intros x J. apply G. apply (dict_below _ _ _ _ Dr J). }
    pose proof Hf as [Hf1 Hf2]. rewrite Hf2. cbn [negb]. unfold to_str. destruct (utf8_ok d1); [|exact I]. cbn [cbind]. destruct (utf8_ok m1); [|exact I]. cbn [cbind].
    destruct (writer_write p snap d1 m1 t (VInt v) (fw_writer fw)) as [[w' a]|]; [|exact I]. cbn [of_outcome cbind fst snd].
    set (bs := if keeps_name (fw_writer fw) d1 m1 then (a2, m1) :: fw_borrows fw else fw_borrows fw).
    assert (Hb : held b2 (map snd refs2) bs).
    { subst bs. destruct (keeps_name (fw_writer fw) d1 m1); [|exact Hf]. split; [cbn [map fst]; intros x [<-|J]; [exact (in_map snd _ _ I2)|apply Hf1; exact J]|].
      rewrite (intact_c_str _ _ _ _ E2). exact Hf2. }
    assert (FIN : pyinv (mkFfi b2 (f_schemas f) (upd h (Some (mkFW (fw_file fw) bs w')) (f_writers f)) (f_files f) (f_next f)) (set_schema st s (Some (mkPyS refs2 (ps_inst ps))) ad2)).
    { destruct V2 as [A1 A2 A3 A4 A5 A6 A7 A8 A9 A10]. unfold set_schema, with_bufs in *. cbn [f_bufs f_schemas f_writers f_next py_schemas py_writers py_objs py_addr] in *.
      constructor; cbn [f_bufs f_schemas f_writers f_next py_schemas py_writers py_objs py_addr]; auto.
      - intros x L. destruct (A3 x L) as [X Y]. split; [exact X|]. rewrite upd_ne; [exact Y|]. congruence.
      - intros i pw H. destruct (A9 i pw H) as (q0 & H0 & C'). exists q0. split; [exact H0|]. intros x Ix. destruct (C' x Ix) as (Y1 & fw' & Y2 & Y3). split; [exact Y1|].
        destruct (Z.eq_dec x h) as [->|X]; [|exists fw'; rewrite upd_ne by assumption; auto].
        rewrite upd_eq. eexists. split; [reflexivity|]. cbn [fw_borrows]. pose proof (A10 _ _ _ _ _ H E Ix eq_refl) as ->. rewrite E in H. injection H as <-. cbn [pw_schema] in H0.
        rewrite upd_eq in H0. injection H0 as <-. exact Hb. }
    destruct a; [exact FIN|exact I|exact FIN].
  - destruct (py_writers st w) as [[s [h|]]|] eqn:E; [|exact FAIL|exact FAIL].
    destruct (pi_wr _ _ V _ _ E) as (ps & Es & C). cbn [pw_schema pw_inst] in *. destruct (C h eq_refl) as (P & fw & Fw & Hh).
    cbn [frun fstep]. unfold ffi_close. destruct (Z.eqb_spec h 0); [lia|]. rewrite Fw. destruct Hh as [_ Hh]. rewrite Hh. cbn [negb].
    destruct (writer_close p snap (e_order env) (fw_writer fw)) as [[w' a]|]; [|exact I]. cbn [of_outcome cbind fst snd].
    destruct V as [A1 A2 A3 A4 A5 A6 A7 A8 A9 A10]. unfold result_ok, set_writer.
    assert (cases : forall i pw, upd w (Some (mkPyW s None)) (py_writers st) i = Some pw -> exists q, py_writers st i = Some q /\ pw_schema q = pw_schema pw /\ forall x, pw_inst pw = Some x -> q = pw /\ i <> w).
    { intros i pw. unfold upd. destruct (Z.eqb_spec i w) as [->|X]; [intros Q; injection Q as <-; eexists; split; [exact E|]; split; [reflexivity|discriminate]|]. intros Q. exists pw. auto. }
    constructor; cbn [f_bufs f_schemas f_writers f_next py_schemas py_writers py_objs py_addr]; auto.
    + intros x L. destruct (A3 x L) as [X Y]. split; [exact X|]. unfold upd. destruct (x =? h); auto.
    + intros i L. destruct (A4 i L) as [X Y]. split; [exact X|]. rewrite upd_ne; [exact Y|congruence].
    + intros i pw H. destruct (cases i pw H) as (q & Q & R & X). destruct (A9 i q Q) as (q0 & H0 & C'). exists q0. rewrite <- R. split; [exact H0|].
      intros x Ix. destruct (X x Ix) as [-> Xi]. destruct (C' x Ix) as (Y1 & fw' & Y2 & Y3). split; [exact Y1|]. exists fw'. split; [|exact Y3]. rewrite upd_ne; [exact Y2|].
      intros ->. apply Xi. exact (A10 _ _ _ _ _ Q E Ix eq_refl).
    + intros i j p1 p2 x H1 H2 I1 I2. destruct (cases i p1 H1) as (q1 & Q1 & _ & X1). destruct (cases j p2 H2) as (q2 & Q2 & _ & X2).
      destruct (X1 x I1) as [-> _], (X2 x I2) as [-> _]. eauto.
  - cbn [frun cbind fst snd]. destruct V as [A1 A2 A3 A4 A5 A6 A7 A8 A9 A10]. unfold result_ok, set_writer.
    assert (cases : forall i pw, upd w None (py_writers st) i = Some pw -> py_writers st i = Some pw) by (intros i pw; unfold upd; destruct (i =? w); [discriminate|auto]).
    constructor; cbn [f_bufs f_schemas f_writers f_next py_schemas py_writers py_objs py_addr]; auto.
    + intros i L. destruct (A4 i L) as [X Y]. split; [exact X|]. unfold upd. destruct (i =? w); auto.
    + intros i pw H. apply cases in H. exact (A9 i pw H).
    + intros i j p1 p2 x H1 H2. apply cases in H1, H2. exact (A10 i j p1 p2 x H1 H2).
  - destruct (py_schemas st s) as [ps|] eqn:E; [|exact FAIL]. destruct (referenced st s) eqn:Rf; [exact FAIL|]. cbn [fst snd].
    destruct (frees p snap env (ps_refs ps) f) as (b & R & G). rewrite R. cbn [cbind fst snd].
    destruct V as [A1 A2 A3 A4 A5 A6 A7 A8 A9 A10]. unfold result_ok, set_schema, with_bufs.
    assert (cases : forall i qs, upd s None (py_schemas st) i = Some qs -> i <> s /\ py_schemas st i = Some qs) by (intros i qs; unfold upd; destruct (Z.eqb_spec i s); [discriminate|auto]).
    assert (GG : forall i qs x, i <> s -> py_schemas st i = Some qs -> In x (map snd (ps_refs qs)) -> b x = f_bufs f x).
    { intros i qs x X H J. apply G. intros K. exact (A6 i s qs ps x X H E J K). }
    constructor; cbn [f_bufs f_schemas f_writers f_next py_schemas py_writers py_objs py_addr]; auto.
    + intros i L. destruct (A4 i L) as [X Y]. split; [|exact Y]. unfold upd. destruct (i =? s); auto.
    + intros i qs H. destruct (cases i qs H) as [X H0]. intros n a J. destruct (A5 i qs H0 n a J) as [Y1 Y2]. split; [exact Y1|]. rewrite (GG i qs a X H0 (in_map snd _ _ J)). exact Y2.
    + intros i j q1 q2 a X H1 H2. destruct (cases _ _ H1) as [_ P1], (cases _ _ H2) as [_ P2]. eauto.
    + intros i qs h H J. destruct (cases i qs H) as [X H0]. destruct (A7 i qs h H0 J) as (Y1 & s' & Y2 & Y3). split; [exact Y1|]. exists s'. split; [exact Y2|].
      eapply held_agree; [|apply incl_refl|exact Y3]. intros x K. exact (GG i qs x X H0 K).
    + intros i j q1 q2 h H1 H2. destruct (cases _ _ H1) as [_ P1], (cases _ _ H2) as [_ P2]. eauto.
    + intros i pw H. destruct (A9 i pw H) as (q0 & H0 & C). exists q0.
      pose proof (not_referenced st s i pw Rf (fun i L => proj2 (A4 i L)) H) as X. rewrite upd_ne by assumption. split; [exact H0|].
      intros h J. destruct (C h J) as (Y1 & fw & Y2 & Y3). split; [exact Y1|]. exists fw. split; [exact Y2|].
      eapply held_agree; [|apply incl_refl|exact Y3]. intros x K. exact (GG _ q0 x X H0 K).
Qed.
Lemma pyinv_new : pyinv ffi_new py_new.
Proof. constructor; cbn; try discriminate; try lia; auto. Qed.
Lemma pyrun_ok : forall p snap env ops f st, pyinv f st -> pyrun p snap env (f, st) ops <> CUndef.
Proof.
  intros p snap env. induction ops as [|o ops IH]; intros f st V; cbn [pyrun]; [discriminate|].
  pose proof (pystep_ok p snap env f st o V) as R. destruct (pystep p snap env (f, st) o) as [[[f' st'] r]| |]; [|discriminate|contradiction].
  cbn [cbind fst snd]. specialize (IH f' st' R). destruct (pyrun p snap env (f', st') ops) as [[[f2 st2] l]| |]; [discriminate|discriminate|congruence].
Qed.
(** ** What a session writes *)
Lemma encode_same : forall c, py_scalar c = true -> py_encode c = utf8_encode c.
Proof.
  intros c H. assert (R : 0 <= c <= 0x10FFFF) by (unfold py_scalar, in_span in H; lia). clear H.
  assert (head : forall k n x, 0 <= n -> 0 <= x < 2 ^ n -> Z.lor (k * 2 ^ n) x = k * 2 ^ n + x).
  { intros k n x Hn Hx. assert (N : Z.land (k * 2 ^ n) x = 0); [|rewrite (Z.add_nocarry_lxor _ _ N), (Z.lxor_lor _ _ N); reflexivity]. apply Z.bits_inj'. intros i Hi. rewrite Z.land_spec, Z.bits_0.
    destruct (Z_lt_le_dec i n) as [L|L]; [rewrite Z.mul_pow2_bits_low by lia; reflexivity|].
    destruct (Z.eq_dec x 0) as [->|]; [rewrite Z.testbit_0_l; apply andb_false_r|]. rewrite (Z.bits_above_log2 x i); [apply andb_false_r|lia|]. apply Z.log2_lt_pow2; [lia|]. pose proof (Z.pow_le_mono_r 2 n i ltac:(lia) L). lia. }
  assert (tail : forall x, Z.lor 0x80 (Z.land x 0x3F) = 0x80 + x mod 64).
  { intros x. change 0x3F with (Z.ones 6). rewrite Z.land_ones by lia. apply (head 2 6); [lia|]. apply Z.mod_pos_bound. lia. }
  unfold py_encode, utf8_encode. destruct (Z.ltb_spec c 0x80); [reflexivity|]. destruct (Z.ltb_spec c 0x800).
  { rewrite tail. f_equal. rewrite Z.shiftr_div_pow2 by lia. change (2 ^ 6) with 64. apply (head 6 5). lia. split; [apply Z.div_pos; lia|]. apply Z.div_lt_upper_bound; lia. }
  destruct (Z.ltb_spec c 0x10000); rewrite !tail, !Z.shiftr_div_pow2 by lia; f_equal.
  - change (2 ^ 12) with 4096. apply (head 14 4). lia. split; [apply Z.div_pos; lia|]. apply Z.div_lt_upper_bound; lia.
  - change (2 ^ 18) with 262144. apply (head 30 3). lia. split; [apply Z.div_pos; lia|]. apply Z.div_lt_upper_bound; lia.
Qed.
Lemma before_nul_snoc : forall l, before_nul (l ++ [0]) = before_nul l.
Proof. induction l as [|b l IH]; [reflexivity|]. cbn [app before_nul]. rewrite IH. reflexivity. Qed.
Lemma py_bytes_utf8 : forall n raw, py_bytes n = Some raw -> raw = utf8 n ++ [0] /\ Forall scalar n.
Proof.
  intros n raw. unfold py_bytes. destruct (forallb py_scalar n) eqn:E; [|discriminate]. intros H. injection H as <-. split.
  - f_equal. induction n as [|c n IH]; [reflexivity|]. cbn [forallb] in E. apply andb_prop in E. destruct E as [E1 E2]. unfold utf8. cbn [flat_map]. rewrite encode_same by assumption. f_equal. apply IH. exact E2.
  - rewrite forallb_forall in E. apply Forall_forall. intros c I. specialize (E c I). unfold py_scalar, in_span in E. unfold scalar. lia.
Qed.
Lemma py_bytes_name : forall n raw, py_bytes n = Some raw -> before_nul raw = py_name n.
Proof. intros n raw H. apply py_bytes_utf8 in H. destruct H as [-> _]. apply before_nul_snoc. Qed.
Lemma py_bytes_len : forall n raw, py_bytes n = Some raw -> zlen raw <= 4 * zlen n + 1.
Proof.
  intros n raw H. apply py_bytes_utf8 in H. destruct H as [-> _]. rewrite zlen_app, zlen_cons, zlen_nil. assert (zlen (utf8 n) <= 4 * zlen n); [|lia].
  unfold utf8. induction n as [|c n IH]; [cbn [flat_map]; rewrite !zlen_nil; lia|]. cbn [flat_map]. rewrite zlen_app, zlen_cons. assert (zlen (utf8_encode c) <= 4); [|lia].
  unfold utf8_encode. destruct (c <? 0x80), (c <? 0x800), (c <? 0x10000); rewrite ?zlen_cons, zlen_nil; lia.
Qed.

Definition quiet (c : fcall) : Prop := match c with FWriterNew _ _ | FWriteInt32 _ _ _ _ _ | FClose _ => False | _ => True end.
Lemma quiet_step : forall p snap env f c f' r, quiet c -> fstep p snap env f c = CVal (f', r) ->
  f_writers f' = f_writers f /\ f_files f' = f_files f /\ f_next f <= f_next f'.
Proof.
  intros p snap env f c f' r Q S. destruct c; cbn [fstep quiet] in *; try contradiction.
  - injection S as <- _. cbn. auto with zarith.
  - injection S as <- _. cbn. auto with zarith.
  - unfold ffi_schema_simple in S. do 8 (apply cbind_val in S; destruct S as (? & _ & S)). injection S as <- _. cbn. auto with zarith.
  - unfold ffi_schema_free in S. destruct (schema =? 0); [injection S as <- _; auto with zarith|]. destruct (f_schemas f schema); [|discriminate]. injection S as <- _. cbn. auto with zarith.
Qed.
Lemma quiet_run : forall p snap env c f f' r, Forall quiet c -> frun p snap env f c = CVal (f', r) ->
  f_writers f' = f_writers f /\ f_files f' = f_files f /\ f_next f <= f_next f'.
Proof.
  intros p snap env. induction c as [|x c IH]; intros f f' r Q R; cbn [frun] in R; [injection R as <- _; auto with zarith|].
  inversion Q as [|? ? Qx Qc]; subst. apply cbind_val in R. destruct R as ([f1 r1] & S & R). apply cbind_val in R. destruct R as ([f2 r2] & R & E). cbn [fst snd] in *. injection E as <- _.
  destruct (quiet_step _ _ _ _ _ _ _ Qx S) as (A1 & A2 & A3). destruct (IH _ _ _ Qc R) as (B1 & B2 & B3). rewrite B1, B2. split; [exact A1|]. split; [exact A2|lia].
Qed.
Lemma written_app : forall h a c b, written h b (a ++ c) = written h b a ++ written h (fold_left bufs_after a b) c.
Proof.
  intros h. induction a as [|x a IH]; intros c b; [reflexivity|]. cbn [app fold_left]. destruct x; cbn [written]; rewrite IH; try reflexivity. rewrite <- app_assoc. reflexivity.
Qed.
Lemma quiet_written : forall h c b, Forall quiet c -> written h b c = [].
Proof. intros h. induction c as [|x c IH]; intros b Q; [reflexivity|]. inversion Q as [|? ? Qx Qc]; subst. destruct x; cbn [written quiet] in *; try contradiction; auto. Qed.
Lemma holder_calls : forall n addr refs c ad refs' a, holder_get n addr refs = Some (c, ad, refs', a) -> Forall quiet c /\ (zlen n < 2 ^ 29 - 1 -> Forall call_ok c).
Proof.
  intros n addr refs c ad refs' a H. unfold holder_get in H. destruct (ref_get n refs); [injection H as <- _ _ _; auto|]. destruct (py_bytes n) as [raw|] eqn:B; [|discriminate].
  injection H as <- _ _ _. apply py_bytes_len in B. split; constructor; cbn; auto; lia.
Qed.
Lemma py_points_snoc : forall w tr x, py_points w (tr ++ [x]) = py_points w tr ++ py_points w [x].
Proof.
  intros w tr x. induction tr as [|[o r] tr IH]; [reflexivity|]. cbn [app]. destruct o, r; cbn [py_points] in *; rewrite ?IH; try reflexivity. rewrite <- app_assoc. reflexivity.
Qed.

Section Session.
Variable p : profile.
Variable snap : compressor.
Variable env : ffi_env.
Record link (tr : list (pyop * pyret)) (calls : list fcall) (rets : list Z) (f : ffi) (st : py) (hd : Z -> option Z) : Prop := {
  ln_inv : pyinv f st;
  ln_run : frun p snap env ffi_new calls = CVal (f, rets);
  ln_ok : Forall (fun x : pyop * pyret => pyop_ok (fst x)) tr -> Forall call_ok calls;
  ln_hd : forall id h, hd id = Some h -> 0 < h < f_next f /\ 0 <= id < Z.of_nat (py_objs st);
  ln_inj : forall i j h, hd i = Some h -> hd j = Some h -> i = j;
  ln_points : forall id h, hd id = Some h -> written h no_bufs calls = py_points id tr;
  ln_none : forall id, hd id = None -> py_points id tr = [];
  ln_live : forall id s h, py_writers st id = Some (mkPyW s (Some h)) -> hd id = Some h;
  ln_name : forall n s id, In (PyWriter n s, PyObj id) tr -> exists h, hd id = Some h /\ forall fw, f_writers f h = Some fw -> fw_file fw = py_name n;
  ln_closed : forall n s id, In (PyWriter n s, PyObj id) tr -> In (PyClose id, PyNone) tr -> exists h data, hd id = Some h /\ In (h, (py_name n, data)) (f_files f);
  ln_shut : forall id, In (PyClose id, PyNone) tr -> hd id <> None;
  ln_old : forall o id, In (o, PyObj id) tr -> id < Z.of_nat (py_objs st);
  ln_used : forall n s id, In (PyWriter n s, PyObj id) tr -> s < Z.of_nat (py_objs st);
  ln_schema : forall d m ty en co id refs h, In (PySchema d m ty en co, PyObj id) tr -> py_schemas st id = Some (mkPyS refs (Some h)) ->
    k_schemas (asked calls rets) h = Some (py_request d m ty en co);
  ln_request : forall d m ty en co s n id h, In (PySchema d m ty en co, PyObj s) tr -> In (PyWriter n s, PyObj id) tr -> hd id = Some h ->
    k_writers (asked calls rets) h = Some (py_name n, py_request d m ty en co) }.

Definition special (o : pyop) (r : pyret) : Prop :=
  match o, r with PyWriter _ _, PyObj _ | PyClose _, PyNone | PyWrite _ _ _ _ _, PyNone => True | _, _ => False end.
Lemma frun_more : forall calls c f f' rets r, frun p snap env ffi_new calls = CVal (f, r) -> frun p snap env f c = CVal (f', rets) ->
  frun p snap env ffi_new (calls ++ c) = CVal (f', r ++ rets).
Proof. intros calls c f f' rets r R C. rewrite frun_app, R. cbn [cbind fst snd]. rewrite C. reflexivity. Qed.
Lemma asked_more : forall calls rets c r, length rets = length calls -> asked (calls ++ c) (rets ++ r) = fold_left asks (combine c r) (asked calls rets).
Proof.
  intros calls rets c r L. unfold asked. assert (E : combine (calls ++ c) (rets ++ r) = combine calls rets ++ combine c r).
  { revert rets L. induction calls as [|x calls IH]; intros [|y rets] L; cbn in *; try discriminate; [reflexivity|]. f_equal. apply IH. congruence. }
  rewrite E. apply fold_left_app.
Qed.
Definition still (c : fcall) : Prop := match c with FWriterNew _ _ => False | _ => True end.
Lemma quiet_still : forall c, Forall quiet c -> Forall still c.
Proof. intros c Q. eapply Forall_impl; [|exact Q]. intros [] H; cbn in *; auto. Qed.
Lemma still_step : forall f c f' r, still c -> fstep p snap env f c = CVal (f', r) -> f_next f <= f_next f'.
Proof.
  intros f c f' r Q S. destruct c; try (eapply quiet_step; [|exact S]; exact I); cbn [fstep still] in *; try contradiction.
  - unfold ffi_write_int32 in S. destruct (writer =? 0); [discriminate|]. do 2 (apply cbind_val in S; destruct S as (? & _ & S)). destruct (f_writers f writer) as [fw|]; [|discriminate].
    destruct (negb _); [discriminate|]. do 3 (apply cbind_val in S; destruct S as (? & _ & S)). destruct (snd _); try discriminate; injection S as <- _; cbn; lia.
  - unfold ffi_close in S. destruct (writer =? 0); [injection S as <- _; lia|]. destruct (f_writers f writer) as [fw|]; [|discriminate].
    destruct (negb _); [discriminate|]. apply cbind_val in S; destruct S as (? & _ & S). injection S as <- _. cbn. lia.
Qed.
Lemma quiet_asked : forall c f f' r k, Forall still c -> frun p snap env f c = CVal (f', r) ->
  k_writers (fold_left asks (combine c r) k) = k_writers k /\ forall h, h < f_next f -> k_schemas (fold_left asks (combine c r) k) h = k_schemas k h.
Proof.
  induction c as [|x c IH]; intros f f' r k Q R; cbn [frun] in R; [injection R as _ <-; auto|].
  inversion Q as [|? ? Qx Qc]; subst. apply cbind_val in R. destruct R as ([f1 r1] & S & R). apply cbind_val in R. destruct R as ([f2 r2] & R & E). cbn [fst snd] in *. injection E as _ <-.
  pose proof (still_step _ _ _ _ Qx S) as A3. cbn [combine fold_left]. destruct (IH _ _ _ (asks k (x, r1)) Qc R) as (B1 & B2). rewrite B1.
  assert (X : k_writers (asks k (x, r1)) = k_writers k /\ forall h, h < f_next f -> k_schemas (asks k (x, r1)) h = k_schemas k h).
  { destruct x; cbn [still asks k_writers k_schemas] in *; try contradiction; auto. split; [reflexivity|]. cbn [fstep] in S. unfold ffi_schema_simple in S. do 8 (apply cbind_val in S; destruct S as (? & _ & S)). injection S as _ <-.
    intros h L. destruct (Z.eqb_spec h (f_next f)); [lia|reflexivity]. }
  destruct X as [X1 X2]. split; [exact X1|]. intros h L. rewrite B2 by lia. apply X2. exact L.
Qed.
Lemma ok_more : forall tr calls o r c, (Forall (fun x : pyop * pyret => pyop_ok (fst x)) tr -> Forall call_ok calls) -> (pyop_ok o -> Forall call_ok c) ->
  Forall (fun x : pyop * pyret => pyop_ok (fst x)) (tr ++ [(o, r)]) -> Forall call_ok (calls ++ c).
Proof. intros tr calls o r c A B F. apply Forall_app in F. destruct F as [F G]. inversion G; subst. apply Forall_app. auto. Qed.
Lemma link_quiet : forall tr calls r0 f st hd c f' rets st' o r, link tr calls r0 f st hd -> pyinv f' st' -> frun p snap env f c = CVal (f', rets) ->
  Forall quiet c -> (pyop_ok o -> Forall call_ok c) -> ~ special o r ->
  (py_objs st <= py_objs st')%nat -> (forall id w, py_writers st' id = Some w -> py_writers st id = Some w) ->
  (forall id, r = PyObj id -> id = Z.of_nat (py_objs st) /\ id < Z.of_nat (py_objs st')) ->
  (forall id refs h, py_schemas st' id = Some (mkPyS refs (Some h)) -> (exists refs0, py_schemas st id = Some (mkPyS refs0 (Some h))) \/
    (id = Z.of_nat (py_objs st) /\ forall d m ty en co, o = PySchema d m ty en co -> k_schemas (asked (calls ++ c) (r0 ++ rets)) h = Some (py_request d m ty en co))) ->
  link (tr ++ [(o, r)]) (calls ++ c) (r0 ++ rets) f' st' hd.
Proof.
  intros tr calls r0 f st hd c f' rets st' o r [A1 A2 A3 A4 A5 A6 A7 A8 A9 A10 A11 A12 A15 A13 A14] V R Q K S O W OB SC.
  destruct (quiet_run _ _ _ _ _ _ _ Q R) as (W1 & W2 & W3). pose proof (frun_length _ _ _ _ _ _ _ A2) as LN.
  destruct (quiet_asked _ _ _ _ (asked calls r0) (quiet_still _ Q) R) as (Q1 & Q2).
  assert (Z0 : forall id, py_points id [(o, r)] = []) by (intros id; destruct o, r; cbn [special py_points] in *; try reflexivity; exfalso; auto).
  constructor; auto.
  - eapply frun_more; eauto.
  - apply ok_more; assumption.
  - intros id h H. destruct (A4 id h H). lia.
  - intros id h H. rewrite written_app, (quiet_written _ c), app_nil_r by assumption. rewrite py_points_snoc, Z0, app_nil_r. auto.
  - intros id H. rewrite py_points_snoc, Z0, app_nil_r. auto.
  - intros id s h H. apply W in H. eauto.
  - intros n s id H. apply in_app_or in H. destruct H as [H|[H|[]]]; [rewrite W1; eauto|]. injection H as -> ->. exfalso. apply S. exact I.
  - intros n s id H1 H2. apply in_app_or in H1, H2. destruct H1 as [H1|[H1|[]]]; [|injection H1 as -> ->; exfalso; apply S; exact I].
    destruct H2 as [H2|[H2|[]]]; [|injection H2 as -> ->; exfalso; apply S; exact I]. rewrite W2. eauto.
  - intros id H. apply in_app_or in H. destruct H as [H|[H|[]]]; [eauto|]. injection H as -> ->. exfalso. apply S. exact I.
  - intros o' id H. apply in_app_or in H. destruct H as [H|[H|[]]]; [apply A12 in H; lia|]. injection H as _ ->. apply (OB id eq_refl).
  - intros n s id H. apply in_app_or in H. destruct H as [H|[H|[]]]; [apply A15 in H; lia|]. injection H as -> ->. exfalso. apply S. exact I.
  - intros d m ty en co id refs h H X. apply in_app_or in H. destruct (SC _ _ _ X) as [[refs0 Y]|[Y1 Y2]].
    + destruct H as [H|[H|[]]].
      * rewrite asked_more by assumption. destruct (pi_inst _ _ A1 _ _ h Y eq_refl) as (_ & s & Es & _).
        rewrite Q2; [eauto|]. destruct (Z_lt_le_dec h (f_next f)) as [L|L]; [exact L|]. destruct (pi_fresh _ _ A1 _ L). congruence.
      * injection H as -> ->. destruct (OB id eq_refl) as [-> _]. destruct (pi_objs _ _ A1 (Z.of_nat (py_objs st)) ltac:(lia)). congruence.
    + destruct H as [H|[H|[]]]; [apply A12 in H; lia|]. injection H as -> ->. apply Y2. reflexivity.
  - intros d m ty en co s n id h H1 H2 H3. rewrite asked_more, Q1 by assumption. apply in_app_or in H2. destruct H2 as [H2|[H2|[]]]; [|injection H2 as -> ->; exfalso; apply S; exact I].
    apply in_app_or in H1. destruct H1 as [H1|[H1|[]]]; [eauto|]. injection H1 as -> ->. exfalso. destruct (OB s eq_refl) as [-> _]. apply A15 in H2. lia.
Qed.
Lemma name_of : forall b addr refs n a, dict_ok b addr refs -> In (n, a) refs -> name_at b a = py_name n.
Proof. intros b addr refs n a D I. destruct (D n a I) as (_ & raw & B & E). unfold name_at. rewrite B. apply py_bytes_name. exact E. Qed.

Lemma link_step : forall tr calls r0 f st hd o f' st' r, link tr calls r0 f st hd -> pystep p snap env (f, st) o = CVal (f', st', r) ->
  exists c rets hd', link (tr ++ [(o, r)]) (calls ++ c) (r0 ++ rets) f' st' hd'.
Proof.
  intros tr calls r0 f st hd o f' st' r L S. pose proof (pystep_ok p snap env f st o (ln_inv _ _ _ _ _ _ L)) as V. rewrite S in V. cbn [result_ok] in V.
  unfold pystep in S. cbn [fst snd] in S. destruct (py_plan st o) as [[c k] ret] eqn:P. apply cbind_val in S. destruct S as ([f1 rets] & R & S). cbn [fst snd] in S.
  injection S as -> <- ->.
  assert (FAIL : c = [] -> k = (fun _ => st) -> r = PyExc -> exists c rets0 hd', link (tr ++ [(o, r)]) (calls ++ c) (r0 ++ rets0) f' (k rets) hd').
  { intros -> -> ->. exists [], rets, hd. eapply link_quiet; eauto; [destruct o; cbn; tauto|discriminate]. }
  assert (CALLS : fold_left bufs_after calls no_bufs = f_bufs f).
  { symmetry. apply (fi_bufs _ _ _ _ _ (finv_run _ _ _ _ _ _ (ln_run _ _ _ _ _ _ L))). }
  destruct o as [d m dt en co|s|n s|w d m t v|w|w|s]; cbn [py_plan] in P.
  - destruct (holder_get d (py_addr st) []) as [[[[c1 ad1] refs1] a1]|] eqn:H1; [|injection P as <- <- <-; apply FAIL; reflexivity].
    destruct (holder_get m ad1 refs1) as [[[[c2 ad2] refs2] a2]|] eqn:H2; [|injection P as <- <- <-; apply FAIL; reflexivity].
    destruct (c_int dt && c_int en && c_int co); [|injection P as <- <- <-; apply FAIL; reflexivity].
    injection P as <- <- <-. destruct (holder_calls _ _ _ _ _ _ _ H1) as [Q1 K1]. destruct (holder_calls _ _ _ _ _ _ _ H2) as [Q2 K2].
    eexists _, _, hd. eapply link_quiet; [exact L|exact V|exact R| | | | | | |].
    + repeat (apply Forall_app; split); auto. repeat constructor.
    + cbn [pyop_ok]. intros [? ?]. repeat (apply Forall_app; split); auto. repeat constructor.
    + cbn. tauto.
    + cbn [py_objs]. lia.
    + cbn [py_writers]. auto.
    + intros id X. injection X as <-. cbn [py_objs]. lia.
    + intros id refs h. cbn [py_schemas]. unfold upd. destruct (Z.eqb_spec id (Z.of_nat (py_objs st))) as [->|N]; [|eauto].
      intros X. injection X as _ <-. right. split; [reflexivity|]. intros d' m' ty' en' co' X. injection X as <- <- <- <- <-.
      pose proof (ln_run _ _ _ _ _ _ L) as R0. pose proof (pi_addr _ _ (ln_inv _ _ _ _ _ _ L)) as Pa.
      destruct (holder_spec p snap env _ _ _ _ _ _ _ f H1 Pa ltac:(intros ? ? [])) as (b1 & R1 & D1 & I1 & L1 & S1 & G1 & N1).
      destruct (holder_spec p snap env _ _ _ _ _ _ _ (with_bufs b1 f) H2 ltac:(lia) D1) as (b2 & R2 & D2 & I2 & L2 & S2 & G2 & N2).
      change (with_bufs b2 (with_bufs b1 f)) with (with_bufs b2 f) in R2.
      pose proof (frun_more _ _ _ _ _ _ (frun_more _ _ _ _ _ _ R0 R1) R2) as R3. pose proof (ai_bufs _ _ _ _ _ _ (ainv_run _ _ _ _ _ _ R3)) as KB. pose proof (frun_length _ _ _ _ _ _ _ R3) as LN.
      rewrite frun_app, R1 in R. cbn [cbind fst snd] in R. rewrite frun_app, R2 in R. cbn [cbind fst snd frun] in R.
      apply cbind_val in R. destruct R as ([f3 l3] & R & X). cbn [fst snd] in X. injection X as <- <-. apply cbind_val in R. destruct R as ([f4 l4] & R & X). cbn [fst snd] in X. injection X as <- <-.
      apply cbind_val in R. destruct R as ([f5 l5] & R & X). cbn [fst snd] in X. injection X as <- <-.
      rewrite !app_assoc. rewrite asked_snoc by exact LN. rewrite last_last. cbn [asks k_schemas]. rewrite Z.eqb_refl, KB. cbn [with_bufs f_bufs].
      rewrite (name_of _ _ _ _ _ D2 (S2 _ I1)), (name_of _ _ _ _ _ D2 I2). reflexivity.
  - destruct (py_schemas st s) as [[refs [h|]]|] eqn:E; try (injection P as <- <- <-; apply FAIL; reflexivity).
    injection P as <- <- <-. eexists _, _, hd. eapply link_quiet; [exact L|exact V|exact R|repeat constructor|intros _; repeat constructor|cbn; tauto|cbn; lia|cbn; auto|discriminate|].
    intros id refs' h'. cbn [py_schemas set_schema]. unfold upd. destruct (id =? s); [discriminate|eauto].
  - destruct (py_bytes n) as [raw|] eqn:Bn; [|injection P as <- <- <-; apply FAIL; reflexivity].
    destruct (py_schemas st s) as [[refs [h|]]|] eqn:E; try (injection P as <- <- <-; apply FAIL; reflexivity).
    injection P as <- <- <-. exists [CBuf (py_addr st) raw; FWriterNew (py_addr st) h; CFree (py_addr st)], [0; f_next f; 0], (upd (Z.of_nat (py_objs st)) (Some (f_next f)) hd).
    assert (R' := R). cbn [frun fstep cbind fst snd] in R. apply cbind_val in R. destruct R as ([f2 r2] & R & X). cbn [fst snd] in X. injection X as <- <-.
    apply cbind_val in R. destruct R as ([f3 r3] & R & X). injection X as <- <-. cbn [fst snd nth] in *.
    unfold ffi_writer_new in R. cbn [f_bufs f_schemas f_writers f_files f_next] in R. apply cbind_val in R. destruct R as (n1 & Hn & R).
    destruct (f_schemas f h) as [sc|]; [|discriminate]. destruct (intact (upd (py_addr st) (Some raw) (f_bufs f)) (fs_borrows sc)); [|discriminate]. cbn [negb] in R.
    apply cbind_val in R. destruct R as (n2 & Tn & R). apply to_str_val in Tn. destruct Tn as [-> _]. apply cbind_val in R. destruct R as (ow & _ & R). apply cbind_val in R. destruct R as (w & _ & R).
    injection R as <- <-. cbn [f_bufs f_schemas f_writers f_files f_next] in *.
    assert (n1 = py_name n) as ->.
    { apply c_str_val in Hn. destruct Hn as (_ & raw' & B & U). rewrite upd_eq in B. injection B as <-. apply before_nul_until in U. rewrite <- U. apply py_bytes_name. exact Bn. }
    assert (Nid : hd (Z.of_nat (py_objs st)) = None).
    { destruct (hd (Z.of_nat (py_objs st))) as [x|] eqn:X; [|reflexivity]. pose proof (ln_hd _ _ _ _ _ _ L _ _ X). lia. }
    assert (Nx : forall id, hd id <> Some (f_next f)) by (intros id X; pose proof (ln_hd _ _ _ _ _ _ L _ _ X); lia).
    assert (N2 : forall id, py_points id [(PyWriter n s, PyObj (Z.of_nat (py_objs st)))] = []) by reflexivity.
    assert (N3 : forall x b, written x b [CBuf (py_addr st) raw; FWriterNew (py_addr st) h; CFree (py_addr st)] = []) by reflexivity.
    pose proof (pi_next _ _ (ln_inv _ _ _ _ _ _ L)) as F0.
    pose proof (frun_length _ _ _ _ _ _ _ (ln_run _ _ _ _ _ _ L)) as LN. destruct L as [A1 A2 A3 A4 A5 A6 A7 A8 A9 A10 A11 A12 A15 A13 A14]. constructor; auto; cbn [f_writers f_files f_next py_objs py_writers].
    + eapply frun_more; eauto.
    + apply ok_more; [exact A3|]. cbn [pyop_ok]. intros Ln. apply py_bytes_len in Bn. repeat constructor. cbn [call_ok]. lia.
    + intros id x. unfold upd. destruct (Z.eqb_spec id (Z.of_nat (py_objs st))) as [->|X]; [intros Y; injection Y as <-; lia|]. intros Y. destruct (A4 id x Y). lia.
    + intros i j x. unfold upd. destruct (Z.eqb_spec i (Z.of_nat (py_objs st))) as [->|X], (Z.eqb_spec j (Z.of_nat (py_objs st))) as [->|Y]; auto.
      * intros Q1 Q2. injection Q1 as <-. destruct (Nx _ Q2).
      * intros Q1 Q2. injection Q2 as <-. destruct (Nx _ Q1).
      * apply A5.
    + intros id x. unfold upd. rewrite written_app, N3, app_nil_r, py_points_snoc, N2, app_nil_r. destruct (Z.eqb_spec id (Z.of_nat (py_objs st))) as [->|X]; [|apply A6].
      intros Y. injection Y as <-. rewrite A7 by exact Nid. apply (fi_next _ _ _ _ _ (finv_run _ _ _ _ _ _ A2) (f_next f)). lia.
    + intros id. rewrite py_points_snoc, N2, app_nil_r. unfold upd. destruct (id =? Z.of_nat (py_objs st)); [discriminate|apply A7].
    + intros id sx x. unfold upd. destruct (id =? Z.of_nat (py_objs st)); [|apply A8]. intros Y. injection Y as _ <-. reflexivity.
    + intros n' s' id H. apply in_app_or in H. destruct H as [H|[H|[]]].
      * destruct (A9 n' s' id H) as (x & X & Y). exists x. rewrite upd_ne by congruence. split; [exact X|]. intros fw. unfold upd. destruct (Z.eqb_spec x (f_next f)) as [->|]; [destruct (Nx _ X)|]. apply Y.
      * injection H as <- <- <-. exists (f_next f). rewrite !upd_eq. split; [reflexivity|]. intros fw Y. injection Y as <-. reflexivity.
    + intros n' s' id H1 H2. apply in_app_or in H2. destruct H2 as [H2|[H2|[]]]; [|discriminate]. apply in_app_or in H1. destruct H1 as [H1|[H1|[]]].
      * destruct (A10 n' s' id H1 H2) as (x & data & X & Y). exists x, data. rewrite upd_ne by congruence. auto.
      * injection H1 as _ _ <-. destruct (A11 _ H2 Nid).
    + intros id H. apply in_app_or in H. destruct H as [H|[H|[]]]; [|discriminate]. unfold upd. destruct (id =? Z.of_nat (py_objs st)); [discriminate|]. apply A11. exact H.
    + intros o id H. apply in_app_or in H. destruct H as [H|[H|[]]]; [apply A12 in H; lia|]. injection H as _ <-. lia.
    + intros n' s' id H. apply in_app_or in H. destruct H as [H|[H|[]]]; [apply A15 in H; lia|]. injection H as _ <- _.
      destruct (Z_lt_le_dec s (Z.of_nat (py_objs st))) as [LT|LE]; [lia|]. destruct (pi_objs _ _ A1 s ltac:(lia)). congruence.
    + intros d' m' ty' en' co' id refs' h' H X. rewrite asked_more by exact LN. cbn [combine fold_left asks k_schemas]. apply in_app_or in H. destruct H as [H|[H|[]]]; [eauto|discriminate].
    + intros d' m' ty' en' co' s' n' id h' H1 H2 H3. rewrite asked_more by exact LN. cbn [combine fold_left asks k_schemas k_writers k_bufs bufs_after]. apply in_app_or in H1, H2. destruct H1 as [H1|[H1|[]]]; [|discriminate].
      unfold upd in H3. destruct H2 as [H2|[H2|[]]].
      * destruct (Z.eqb_spec id (Z.of_nat (py_objs st))) as [->|N4]; [apply A12 in H2; lia|]. destruct (Z.eqb_spec h' (f_next f)) as [->|N5]; [destruct (Nx _ H3)|]. eauto.
      * injection H2 as <- <- <-. rewrite Z.eqb_refl in H3. injection H3 as <-. rewrite Z.eqb_refl, (A13 _ _ _ _ _ _ _ _ H1 E). cbn [option_map]. unfold name_at. rewrite Z.eqb_refl, (py_bytes_name _ _ Bn). reflexivity.
  - destruct (py_writers st w) as [[s [h|]]|] eqn:E; try (injection P as <- <- <-; apply FAIL; reflexivity).
    destruct (py_schemas st s) as [ps|] eqn:Es; [|injection P as <- <- <-; apply FAIL; reflexivity].
    destruct (holder_get d (py_addr st) (ps_refs ps)) as [[[[c1 ad1] refs1] a1]|] eqn:H1; [|injection P as <- <- <-; apply FAIL; reflexivity].
    destruct (holder_calls _ _ _ _ _ _ _ H1) as [Q1 K1].
    destruct (holder_get m ad1 refs1) as [[[[c2 ad2] refs2] a2]|] eqn:H2.
    2:{ injection P as <- <- <-. eexists _, _, hd. eapply link_quiet; [exact L|exact V|exact R|exact Q1|cbn; tauto|cbn; tauto|cbn; lia|cbn; auto|discriminate|intros id' refs' h'; cbn [py_schemas set_schema]; unfold upd; destruct (Z.eqb_spec id' s) as [->|]; [intros X; injection X as _ X; left; exists (ps_refs ps); rewrite Es; destruct ps; cbn in *; congruence|eauto]]. }
    destruct (holder_calls _ _ _ _ _ _ _ H2) as [Q2 K2]. destruct (c_int t && c_int v) eqn:Ci.
    2:{ injection P as <- <- <-. eexists _, _, hd. eapply link_quiet; [exact L|exact V|exact R|apply Forall_app; auto|intros [? ?]; apply Forall_app; auto|cbn; tauto|cbn; lia|cbn; auto|discriminate|intros id' refs' h'; cbn [py_schemas set_schema]; unfold upd; destruct (Z.eqb_spec id' s) as [->|]; [intros X; injection X as _ X; left; exists (ps_refs ps); rewrite Es; destruct ps; cbn in *; congruence|eauto]]. }
    injection P as <- <- <-. exists (c1 ++ c2 ++ [FWriteInt32 h a1 a2 t v]), rets, hd.
    pose proof (pi_refs _ _ (ln_inv _ _ _ _ _ _ L) _ _ Es) as Dr. pose proof (pi_addr _ _ (ln_inv _ _ _ _ _ _ L)) as Pa.
    destruct (holder_spec p snap env _ _ _ _ _ _ _ f H1 Pa Dr) as (b1 & R1 & D1 & I1 & L1 & S1 & G1 & N1).
    destruct (holder_spec p snap env _ _ _ _ _ _ _ (with_bufs b1 f) H2 ltac:(lia) D1) as (b2 & R2 & D2 & I2 & L2 & S2 & G2 & N2).
    change (with_bufs b2 (with_bufs b1 f)) with (with_bufs b2 f) in R2. assert (R' := R).
    rewrite frun_app, R1 in R. cbn [cbind fst snd] in R. rewrite frun_app, R2 in R. cbn [cbind fst snd frun fstep] in R.
    apply cbind_val in R. destruct R as ([f3 l3] & R & X). cbn [fst snd] in X. injection X as <- _. apply cbind_val in R. destruct R as ([f4 l4] & R & X). cbn [fst snd] in X. injection X as <- _.
    apply cbind_val in R. destruct R as ([f5 l5] & R & X). cbn [fst snd] in X. injection X as <- _.
    unfold ffi_write_int32 in R. cbn [f_bufs f_schemas f_writers f_files f_next with_bufs] in R. destruct (h =? 0); [discriminate|].
    apply cbind_val in R. destruct R as (d1 & _ & R). apply cbind_val in R. destruct R as (m1 & _ & R). destruct (f_writers f h) as [fw|] eqn:Fw; [|discriminate].
    destruct (intact b2 (fw_borrows fw)); [|discriminate]. cbn [negb] in R. apply cbind_val in R. destruct R as (d2 & _ & R). apply cbind_val in R. destruct R as (m2 & _ & R).
    apply cbind_val in R. destruct R as ([w2 an] & _ & R). cbn [fst snd] in R.
    assert (exists bs, f5 = mkFfi b2 (f_schemas f) (upd h (Some (mkFW (fw_file fw) bs w2)) (f_writers f)) (f_files f) (f_next f)) as [bs ->] by (destruct an; [|discriminate|]; injection R as <- _; eexists; reflexivity).
    clear R.
    assert (Bf : fold_left bufs_after c2 (fold_left bufs_after c1 (f_bufs f)) = b2).
    { pose proof (ln_run _ _ _ _ _ _ L) as R0. assert (RR : frun p snap env ffi_new (calls ++ c1 ++ c2) = CVal (with_bufs b2 f, r0 ++ map (fun _ => 0) c1 ++ map (fun _ => 0) c2)).
      { rewrite frun_app, R0. cbn [cbind fst snd]. rewrite frun_app, R1. cbn [cbind fst snd]. rewrite R2. reflexivity. }
      pose proof (fi_bufs _ _ _ _ _ (finv_run _ _ _ _ _ _ RR)) as B. rewrite !fold_left_app, CALLS in B. symmetry. exact B. }
    assert (Wr : forall x, written x (f_bufs f) (c1 ++ c2 ++ [FWriteInt32 h a1 a2 t v]) = if h =? x then [mkPoint (py_name d) (py_name m) t (VInt v)] else []).
    { intros x. rewrite !written_app, !quiet_written by assumption. rewrite Bf. cbn [app written]. rewrite (name_of _ _ _ _ _ D2 (S2 _ I1)), (name_of _ _ _ _ _ D2 I2), app_nil_r. reflexivity. }
    pose proof (ln_live _ _ _ _ _ _ L _ _ _ E) as Hw.
    assert (ST : Forall still (c1 ++ c2 ++ [FWriteInt32 h a1 a2 t v])) by (repeat (apply Forall_app; split); try (apply quiet_still; assumption); repeat constructor).
    destruct (quiet_asked _ _ _ _ (asked calls r0) ST R') as (KA1 & KA2).
    pose proof (frun_length _ _ _ _ _ _ _ (ln_run _ _ _ _ _ _ L)) as LN. destruct L as [A1 A2 A3 A4 A5 A6 A7 A8 A9 A10 A11 A12 A15 A13 A14]. constructor; auto; cbn [f_writers f_files f_next py_objs py_writers set_schema].
    + eapply frun_more; eauto.
    + apply ok_more; [exact A3|]. cbn [pyop_ok]. intros [? ?]. repeat (apply Forall_app; split); auto. constructor; [|constructor]. unfold c_int, in_span in Ci. cbn [call_ok]. lia.
    + intros id x H. rewrite written_app, CALLS, Wr, py_points_snoc, (A6 id x H). f_equal. cbn [py_points]. rewrite app_nil_r.
      destruct (Z.eqb_spec h x) as [->|X], (Z.eqb_spec w id) as [->|Y]; try reflexivity.
      * destruct Y. exact (A5 _ _ _ Hw H).
      * congruence.
    + intros id H. rewrite py_points_snoc, A7 by assumption. cbn [py_points app]. destruct (Z.eqb_spec w id) as [->|]; [congruence|reflexivity].
    + intros n' s' id H. apply in_app_or in H. destruct H as [H|[H|[]]]; [|discriminate]. destruct (A9 n' s' id H) as (x & X & Y). exists x. split; [exact X|]. intros fw'. unfold upd.
      destruct (Z.eqb_spec x h) as [->|]; [|apply Y]. intros Q. injection Q as <-. cbn [fw_file]. apply Y. exact Fw.
    + intros n' s' id H3 H4. apply in_app_or in H3, H4. destruct H3 as [H3|[H3|[]]]; [|discriminate]. destruct H4 as [H4|[H4|[]]]; [|discriminate]. eauto.
    + intros id H. apply in_app_or in H. destruct H as [H|[H|[]]]; [|discriminate]. auto.
    + intros o id H. apply in_app_or in H. destruct H as [H|[H|[]]]; [eauto|discriminate].
    + intros n' s' id H. apply in_app_or in H. destruct H as [H|[H|[]]]; [eauto|discriminate].
    + intros d' m' ty' en' co' id refs' h' H. apply in_app_or in H. destruct H as [H|[H|[]]]; [|discriminate]. intros X.
      assert (exists refs0, py_schemas st id = Some (mkPyS refs0 (Some h'))) as [refs0 Y].
      { revert X. cbn [py_schemas set_schema]. unfold upd. destruct (Z.eqb_spec id s) as [->|]; [intros X; injection X as _ X; exists (ps_refs ps); rewrite Es; destruct ps; cbn in *; congruence|eauto]. }
      rewrite asked_more by exact LN. rewrite KA2; [eauto|]. destruct (pi_inst _ _ A1 _ _ h' Y eq_refl) as (_ & sx & Ex & _).
      destruct (Z_lt_le_dec h' (f_next f)) as [LT|LE]; [exact LT|]. destruct (pi_fresh _ _ A1 _ LE). congruence.
    + intros d' m' ty' en' co' s' n' id h' H3 H4 H5. rewrite asked_more, KA1 by exact LN. apply in_app_or in H3, H4. destruct H3 as [H3|[H3|[]]]; [|discriminate]. destruct H4 as [H4|[H4|[]]]; [|discriminate]. eauto.
  - destruct (py_writers st w) as [[s [h|]]|] eqn:E; try (injection P as <- <- <-; apply FAIL; reflexivity).
    injection P as <- <- <-. exists [FClose h], rets, hd. assert (R' := R). cbn [frun fstep] in R.
    apply cbind_val in R. destruct R as ([f3 l3] & R & X). cbn [cbind fst snd] in X. injection X as <- _.
    pose proof (pi_wr _ _ (ln_inv _ _ _ _ _ _ L) _ _ E) as (ps & _ & C). destruct (C h eq_refl) as (P0 & fw & Fw & _). cbn [pw_inst] in *.
    unfold ffi_close in R. destruct (Z.eqb_spec h 0); [lia|]. rewrite Fw in R. destruct (intact (f_bufs f) (fw_borrows fw)); [|discriminate]. cbn [negb] in R.
    apply cbind_val in R. destruct R as ([w2 an] & _ & R). cbn [fst snd] in R. injection R as <- _.
    pose proof (ln_live _ _ _ _ _ _ L _ _ _ E) as Hw.
    assert (N3 : forall x b, written x b [FClose h] = []) by reflexivity.
    assert (N2 : forall id, py_points id [(PyClose w, PyNone)] = []) by reflexivity.
    assert (ST : Forall still [FClose h]) by repeat constructor.
    destruct (quiet_asked _ _ _ _ (asked calls r0) ST R') as (KA1 & KA2).
    pose proof (frun_length _ _ _ _ _ _ _ (ln_run _ _ _ _ _ _ L)) as LN. destruct L as [A1 A2 A3 A4 A5 A6 A7 A8 A9 A10 A11 A12 A15 A13 A14]. constructor; auto; cbn [f_writers f_files f_next py_objs py_writers set_writer].
    + eapply frun_more; eauto.
    + apply ok_more; [exact A3|]. repeat constructor.
    + intros id x H. rewrite written_app, N3, app_nil_r, py_points_snoc, N2, app_nil_r. auto.
    + intros id H. rewrite py_points_snoc, N2, app_nil_r. auto.
    + intros id sx x. unfold upd. destruct (Z.eqb_spec id w); [discriminate|apply A8].
    + intros n' s' id H. apply in_app_or in H. destruct H as [H|[H|[]]]; [|discriminate]. destruct (A9 n' s' id H) as (x & X & Y). exists x. split; [exact X|]. intros fw'. unfold upd.
      destruct (x =? h); [discriminate|apply Y].
    + intros n' s' id H3 H4. apply in_app_or in H3, H4. destruct H3 as [H3|[H3|[]]]; [|discriminate]. destruct H4 as [H4|[H4|[]]].
      * destruct (A10 n' s' id H3 H4) as (x & data & X & Y). exists x, data. split; [exact X|]. apply in_or_app. auto.
      * injection H4 as <-. destruct (A9 n' s' w H3) as (x & X & Y). assert (x = h) as -> by congruence. eexists h, _. split; [exact X|]. apply in_or_app. right. left.
        rewrite (Y fw Fw). reflexivity.
    + intros id H. apply in_app_or in H. destruct H as [H|[H|[]]]; [auto|]. injection H as <-. congruence.
    + intros o id H. apply in_app_or in H. destruct H as [H|[H|[]]]; [eauto|discriminate].
    + intros n' s' id H. apply in_app_or in H. destruct H as [H|[H|[]]]; [eauto|discriminate].
    + intros d' m' ty' en' co' id refs' h' H. apply in_app_or in H. destruct H as [H|[H|[]]]; [|discriminate]. intros X.
      assert (exists refs0, py_schemas st id = Some (mkPyS refs0 (Some h'))) as [refs0 Y].
      { cbn [py_schemas set_writer] in X. eauto. }
      rewrite asked_more by exact LN. rewrite KA2; [eauto|]. destruct (pi_inst _ _ A1 _ _ h' Y eq_refl) as (_ & sx & Ex & _).
      destruct (Z_lt_le_dec h' (f_next f)) as [LT|LE]; [exact LT|]. destruct (pi_fresh _ _ A1 _ LE). congruence.
    + intros d' m' ty' en' co' s' n' id h' H3 H4 H5. rewrite asked_more, KA1 by exact LN. apply in_app_or in H3, H4. destruct H3 as [H3|[H3|[]]]; [|discriminate]. destruct H4 as [H4|[H4|[]]]; [|discriminate]. eauto.
  - injection P as <- <- <-. eexists _, _, hd. eapply link_quiet; [exact L|exact V|exact R|constructor|intros _; constructor|cbn; tauto|cbn; lia| |discriminate|cbn [py_schemas set_writer]; eauto].
    intros id x. cbn [py_writers set_writer]. unfold upd. destruct (id =? w); [discriminate|auto].
  - destruct (py_schemas st s) as [ps|] eqn:E; [|injection P as <- <- <-; apply FAIL; reflexivity]. destruct (referenced st s); [injection P as <- <- <-; apply FAIL; reflexivity|].
    injection P as <- <- <-. eexists _, _, hd. eapply link_quiet; [exact L|exact V|exact R| | |cbn; tauto|cbn; lia|cbn; auto|discriminate|].
    + apply Forall_map, Forall_forall. cbn. auto.
    + intros _. apply Forall_map, Forall_forall. cbn. auto.
    + intros id refs' h'. cbn [py_schemas set_schema]. unfold upd. destruct (id =? s); [discriminate|eauto].
Qed.
Lemma link_new : link [] [] [] ffi_new py_new (fun _ => None).
Proof. constructor; try discriminate; try (cbn [In]; intros; contradiction); auto. exact pyinv_new. Qed.
Lemma link_run : forall ops tr calls r0 f st hd f' st' rets, link tr calls r0 f st hd -> pyrun p snap env (f, st) ops = CVal (f', st', rets) ->
  length rets = length ops /\ exists c r hd', link (tr ++ combine ops rets) c r f' st' hd'.
Proof.
  induction ops as [|o ops IH]; intros tr calls r0 f st hd f' st' rets L R; cbn [pyrun] in R.
  - injection R as <- <- <-. split; [reflexivity|]. exists calls, r0, hd. rewrite app_nil_r. exact L.
  - apply cbind_val in R. destruct R as ([[f1 st1] r1] & S & R). apply cbind_val in R. destruct R as ([[f2 st2] l2] & R & Q). cbn [fst snd] in *. injection Q as <- <- <-.
    destruct (link_step _ _ _ _ _ _ _ _ _ _ L S) as (c & cr & hd1 & L1). destruct (IH _ _ _ _ _ _ _ _ _ L1 R) as (Ln & c2 & cr2 & hd2 & L2).
    split; [cbn; congruence|]. exists c2, cr2, hd2. cbn [combine]. rewrite <- app_assoc in L2. exact L2.
Qed.
End Session.

Lemma py_points_len : forall w tr, zlen (py_points w tr) <= zlen tr.
Proof.
  intros w tr. induction tr as [|[o r] tr IH]; [reflexivity|]. rewrite zlen_cons. destruct o, r; cbn [py_points]; try lia. rewrite zlen_app. destruct (writer =? w); rewrite ?zlen_cons, ?zlen_nil; lia.
Qed.
Lemma py_file : forall p snap decomp env ops f st rets n s w, good_snap snap decomp ->
  pyrun p snap env (ffi_new, py_new) ops = CVal (f, st, rets) ->
  In (PyWriter n s, PyObj w) (combine ops rets) -> In (PyClose w, PyNone) (combine ops rets) ->
  e_sched env (py_name n) = healthy -> Forall pyop_ok ops -> zlen ops < 2 ^ 32 ->
  exists h data, In (h, (py_name n, data)) (f_files f) /\ (zlen data < 2 ^ 32 ->
    exists cs, read_file decomp data = Some cs /\ forall d m, SReader.series_in cs d m = tnums (series_of d m (py_points w (combine ops rets)))).
Proof.
  intros p snap decomp env ops f st rets n s w HG R O C E F L.
  destruct (link_run _ _ _ _ _ _ _ _ _ _ _ _ _ (link_new p snap env) R) as (Ln & calls & r0 & hd & K). cbn [app] in K.
  destruct (ln_closed _ _ _ _ _ _ _ _ _ K _ _ _ O C) as (h & data & H & I). exists h, data. split; [exact I|]. intros Ld.
  pose proof (ln_run _ _ _ _ _ _ _ _ _ K) as R0.
  assert (F' : Forall call_ok calls).
  { apply (ln_ok _ _ _ _ _ _ _ _ _ K). apply Forall_forall. intros [o r] J. apply in_combine_l in J. rewrite Forall_forall in F. exact (F o J). }
  pose proof (ln_points _ _ _ _ _ _ _ _ _ K _ _ H) as W.
  assert (Lw : zlen (written h no_bufs calls) < 2 ^ 32).
  { rewrite W. pose proof (py_points_len w (combine ops rets)). assert (zlen (combine ops rets) = zlen ops) by (unfold zlen; rewrite combine_length, Ln, Nat.min_id; reflexivity). lia. }
  destruct (ffi_file p snap decomp env calls f r0 h _ data HG R0 I E F' Lw Ld) as (cs & A & S). exists cs. split; [exact A|]. intros d m. rewrite S, W. reflexivity.
Qed.

(** ** Names *)
Lemma encode_head : forall a b x y, scalar a -> scalar b -> utf8_encode a ++ x = utf8_encode b ++ y -> a = b /\ x = y.
Proof.
  intros a b x y A B. unfold scalar in *.
  assert (D : forall k c, 0 < k -> c = k * (c / k) + c mod k /\ 0 <= c mod k < k) by (intros k c K; split; [apply Z.div_mod; lia|apply Z.mod_pos_bound; lia]).
  assert (T : forall c, 0 <= c -> c = 64 * (c / 64) + c mod 64 /\ 0 <= c mod 64 < 64 /\
    c / 64 = 64 * (c / 4096) + c / 64 mod 64 /\ 0 <= c / 64 mod 64 < 64 /\ c / 4096 = 64 * (c / 262144) + c / 4096 mod 64 /\ 0 <= c / 4096 mod 64 < 64 /\ 0 <= c / 262144).
  { intros c C. destruct (D 64 c ltac:(lia)) as [D1 D2]. destruct (D 64 (c / 64) ltac:(lia)) as [D3 D4]. destruct (D 64 (c / 4096) ltac:(lia)) as [D5 D6].
    rewrite Z.div_div in D3, D5 by lia. change (64 * 64) with 4096 in D3. change (4096 * 64) with 262144 in D5. pose proof (Z.div_pos c 262144 C ltac:(lia)). repeat (split; [assumption|]). assumption. }
  pose proof (T a ltac:(lia)) as Ta. pose proof (T b ltac:(lia)) as Tb. clear D T. unfold utf8_encode.
  generalize dependent (a mod 64). generalize dependent (b mod 64). generalize dependent (a / 64 mod 64). generalize dependent (b / 64 mod 64).
  generalize dependent (a / 4096 mod 64). generalize dependent (b / 4096 mod 64). generalize dependent (a / 64). generalize dependent (b / 64).
  generalize dependent (a / 4096). generalize dependent (b / 4096). generalize dependent (a / 262144). generalize dependent (b / 262144). intros.
  revert H. destruct (Z.ltb_spec a 0x80); [|destruct (Z.ltb_spec a 0x800); [|destruct (Z.ltb_spec a 0x10000)]];
    (destruct (Z.ltb_spec b 0x80); [|destruct (Z.ltb_spec b 0x800); [|destruct (Z.ltb_spec b 0x10000)]]); cbn [app]; intros E; injection E; intros; split; try assumption; try lia; exfalso; lia.
Qed.
Lemma utf8_inj : forall a b, Forall scalar a -> Forall scalar b -> utf8 a = utf8 b -> a = b.
Proof.
  induction a as [|c a IH]; intros [|c' b] A B E; unfold utf8 in *; cbn [flat_map] in E; auto.
  - exfalso. unfold utf8_encode in E. destruct (c' <? 0x80), (c' <? 0x800), (c' <? 0x10000); discriminate.
  - exfalso. unfold utf8_encode in E. destruct (c <? 0x80), (c <? 0x800), (c <? 0x10000); discriminate.
  - inversion A; inversion B; subst. apply encode_head in E; auto. destruct E as [-> E]. f_equal. apply IH; auto.
Qed.
Lemma before_nul_id : forall l, ~ In 0 l -> before_nul l = l.
Proof. induction l as [|b l IH]; intros N; [reflexivity|]. cbn [before_nul]. destruct (Z.eqb_spec b 0) as [->|]; [destruct N; left; reflexivity|]. rewrite IH; [reflexivity|]. intros I. apply N. right. exact I. Qed.
Lemma encode_nul : forall c, scalar c -> In 0 (utf8_encode c) -> c = 0.
Proof.
  intros c S I. unfold scalar in S. unfold utf8_encode in I.
  assert (D : forall k x, 0 < k -> 0 <= x mod k) by (intros k x K; apply Z.mod_pos_bound; lia).
  pose proof (D 64 c ltac:(lia)). pose proof (D 64 (c / 64) ltac:(lia)). pose proof (D 64 (c / 4096) ltac:(lia)).
  pose proof (Z.div_pos c 64 ltac:(lia) ltac:(lia)). pose proof (Z.div_pos c 4096 ltac:(lia) ltac:(lia)). pose proof (Z.div_pos c 262144 ltac:(lia) ltac:(lia)).
  destruct (c <? 0x80), (c <? 0x800), (c <? 0x10000); cbn [In] in I; lia.
Qed.
Lemma py_name_inj : forall a b, Forall scalar a -> Forall scalar b -> ~ In 0 a -> ~ In 0 b -> py_name a = py_name b -> a = b.
Proof.
  assert (K : forall a, Forall scalar a -> ~ In 0 a -> py_name a = utf8 a).
  { intros a A N. apply before_nul_id. intros I. apply in_flat_map in I. destruct I as (c & J & I). rewrite Forall_forall in A. apply encode_nul in I; [|auto]. subst. contradiction. }
  intros a b A B Na Nb. rewrite !K by assumption. apply utf8_inj; assumption.
Qed.
