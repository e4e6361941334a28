(** Proofs about the stand-alone synchronisation program (C65). *)
From Verif Require Export SSyncMain PSync.

Section Main.
Variable sha : list byte -> list byte.
Variable env : main_env.
Variable srv : mserver.
Let dig := calculate_digest sha.
Let path := [46; 46; 47] ++ demo_file.

Lemma uuid_pick : forall u, main_uuid env u <->
  (match me_lock env with Some c => Some c | None => if me_can_write env then Some (strip_dashes (me_fresh env)) else None end) = Some u.
Proof.
  intros u. unfold main_uuid, strip_dashes. destruct (me_lock env) as [c|]; [|destruct (me_can_write env)].
  - split; [intros [E|[E _]]; [exact E|discriminate]|auto].
  - split; [intros [E|(_ & _ & ->)]; [discriminate|reflexivity]|]. intros E. injection E as <-. auto.
  - split; [intros [E|(_ & E & _)]; discriminate|discriminate].
Qed.
Lemma address_pick : main_address env =
  match me_interfaces env with [] => None | ips :: _ => Some (match ips with [] => loopback | ip :: _ => ip end) end.
Proof. unfold main_address. destruct (me_interfaces env) as [|[|ip r] l]; reflexivity. Qed.

Lemma closed : me_opens env = false -> main_run sha env srv = ([], me_lock env, RErr).
Proof. intros O. unfold main_run. rewrite O. reflexivity. Qed.
Lemma nobody : me_opens env = true -> (forall u, ~ main_uuid env u) -> main_run sha env srv = ([], None, RPanic).
Proof.
  intros O N. unfold main_run. rewrite O. cbn [negb].
  destruct (match me_lock env with Some c => Some c | None => _ end) as [u|] eqn:U; [|reflexivity].
  destruct (N u). apply uuid_pick. exact U.
Qed.

Section Known.
Variable u : str.
Hypothesis Ho : me_opens env = true.
Hypothesis Hu : main_uuid env u.
Notation at_ data i := (main_answer srv (main_script dig env u main_mlog data) i).

Lemma main_prefix : forall r lock res, main_run sha env srv = (r, lock, res) -> lock = Some u /\
  exists data k, r = firstn k (main_script dig env u main_mlog data) /\ (1 <= k <= 10)%nat /\
    (me_fs env path = Some data \/ (k <= 7)%nat) /\
    (forall i, (S i < k)%nat -> i <> 8%nat -> is_status (at_ data i) = true).
Proof.
  intros r lock res H. unfold main_run in H. rewrite Ho in H. cbn [negb] in H.
  rewrite (proj1 (uuid_pick u) Hu), <- address_pick in H. fold dig in H. cbv zeta in H. unfold main_answer, main_script, script.
  generalize dependent main_mlog. intros mlog H.
  change main_name with ([48; 95; 48; 95] ++ demo_file) in H. change main_path with path in H.
  change main_group with demo_group in H. change mlog_name with [109; 108; 111; 103; 46; 98; 105; 110] in H.
  change partition_interval with 604800 in H. change sync_version with [48; 46; 49; 51] in H.
  generalize dependent (main_address env). intros ip H. generalize dependent ([48; 95; 48; 95] ++ demo_file). intros name H.
  generalize dependent demo_group. intros group H. generalize dependent [109; 108; 111; 103; 46; 98; 105; 110]. intros lname H.
  generalize dependent path. intros pth H.
  repeat match type of H with
  | context [srv ?a ?b] => let E := fresh "E" in destruct (srv a b) eqn:E; cbn [app] in E; cbn [app] in H; cbn beta iota zeta in H
  | context [me_fs env ?a] => destruct (me_fs env a) eqn:?; cbn beta iota zeta in H
  | context [if ?c =? -1 then _ else _] => destruct (c =? -1); cbn beta iota zeta in H
  end;
  inversion H; subst r lock res; clear H; (split; [reflexivity|]); cbn [app map];
  match goal with
  | F : me_fs env _ = Some ?d |- context [RqSyncData ?d] => exists d
  | _ => exists []
  end;
  match goal with |- exists k, ?l = _ /\ _ => exists (length l) end; cbn [length]; (split; [reflexivity|]); (split; [lia|]);
  (split; [auto; right; lia|]); intros i L N8;
  do 10 (destruct i as [|i]; [first [lia | congruence | cbn [firstn nth];
     match goal with E : _ = RpStatus _ |- _ => rewrite E; reflexivity end]|]); lia.
Qed.

Definition main_outcome_of (file : option (list Z)) : run_result :=
  let data := match file with Some d => d | None => [] end in
  if negb (is_status (at_ data 0) && is_status (at_ data 1) && is_status (at_ data 2)) then RPanic
  else if negb (is_status (at_ data 3) && is_status (at_ data 4)) then RErr
  else match at_ data 5 with
  | RpErr => RPanic
  | RpStatus c =>
      if c =? -1 then RPanic
      else if negb (is_status (at_ data 6)) then RPanic
      else match file with
      | None => RPanic
      | Some _ => if negb (is_status (at_ data 7)) then RPanic
                  else if is_status (at_ data 9) then ROk else RErr
      end
  end.
Lemma main_outcome : snd (main_run sha env srv) = main_outcome_of (me_fs env path).
Proof.
  unfold main_run. rewrite Ho. cbn [negb]. rewrite (proj1 (uuid_pick u) Hu), <- address_pick. fold dig. cbv zeta.
  unfold main_outcome_of, main_answer, main_script, script.
  change main_name with ([48; 95; 48; 95] ++ demo_file). change main_path with path.
  change main_group with demo_group. change mlog_name with [109; 108; 111; 103; 46; 98; 105; 110].
  change partition_interval with 604800. change sync_version with [48; 46; 49; 51].
  set (ip := main_address env). set (mlog := main_mlog). set (name := [48; 95; 48; 95] ++ demo_file).
  set (group := demo_group). set (lname := [109; 108; 111; 103; 46; 98; 105; 110]). set (pth := path). set (ver := [48; 46; 49; 51]).
  clearbody ip mlog name group lname pth ver. cbn [firstn nth map app].
  destruct (me_fs env pth) as [d|]; cbv beta iota zeta;
  repeat (match goal with |- snd (match srv ?a ?b with _ => _ end) = _ => destruct (srv a b)
     | |- snd (if ?c =? -1 then _ else _) = _ => destruct (c =? -1) end;
     cbn [is_status andb negb snd]; try reflexivity).
Qed.

Lemma early : forall a b i, (i <= 6)%nat -> at_ a i = at_ b i.
Proof. intros a b i L. do 7 (destruct i as [|i]; [reflexivity|]). lia. Qed.

Lemma known_ok : snd (main_run sha env srv) = ROk <->
  exists data, me_fs env path = Some data /\
    (forall i, (i <= 9)%nat -> i <> 8%nat -> is_status (at_ data i) = true) /\ at_ data 5 <> RpStatus (-1).
Proof.
  rewrite main_outcome. unfold main_outcome_of. destruct (me_fs env path) as [d|] eqn:F.
  2:{ split; [|intros (d & E & _); discriminate].
      destruct (at_ [] 5) as [|c]; repeat match goal with |- context [if ?b then _ else _] => destruct b end; discriminate. }
  cbv zeta. split.
  - intros H. exists d. split; [reflexivity|].
    destruct (is_status (at_ d 0)) eqn:A0; [|discriminate]. destruct (is_status (at_ d 1)) eqn:A1; [|discriminate].
    destruct (is_status (at_ d 2)) eqn:A2; [|discriminate]. cbn [negb andb] in H.
    destruct (is_status (at_ d 3)) eqn:A3; [|discriminate]. destruct (is_status (at_ d 4)) eqn:A4; [|discriminate]. cbn [negb andb] in H.
    destruct (at_ d 5) as [|c] eqn:A5; [discriminate|]. destruct (Z.eqb_spec c (-1)) as [|N]; [discriminate|].
    destruct (is_status (at_ d 6)) eqn:A6; [|discriminate]. cbn [negb] in H.
    destruct (is_status (at_ d 7)) eqn:A7; [|discriminate]. cbn [negb] in H.
    destruct (is_status (at_ d 9)) eqn:A9; [|discriminate].
    split; [|congruence]. intros i L N8. do 10 (destruct i as [|i]; [first [assumption | congruence | rewrite A5; reflexivity]|]). lia.
  - intros (d' & E & S & N5). injection E as <-.
    rewrite (S 0%nat), (S 1%nat), (S 2%nat), (S 3%nat), (S 4%nat), (S 6%nat), (S 7%nat), (S 9%nat) by lia. cbn [negb andb].
    pose proof (S 5%nat ltac:(lia) ltac:(lia)) as S5. destruct (at_ d 5) as [|c]; [discriminate|].
    destruct (Z.eqb_spec c (-1)); congruence.
Qed.
Lemma known_err : snd (main_run sha env srv) = RErr <->
  (forall data, (forall i, (i <= 2)%nat -> is_status (at_ data i) = true) /\ (at_ data 3 = RpErr \/ at_ data 4 = RpErr)) \/
  exists data, me_fs env path = Some data /\
    (forall i, (i <= 7)%nat -> is_status (at_ data i) = true) /\ at_ data 5 <> RpStatus (-1) /\ at_ data 9 = RpErr.
Proof.
  rewrite main_outcome. unfold main_outcome_of.
  set (file := me_fs env path). set (d := match file with Some d => d | None => [] end). cbv zeta. fold d. split.
  - intros H.
    destruct (is_status (at_ d 0)) eqn:A0; [|discriminate]. destruct (is_status (at_ d 1)) eqn:A1; [|discriminate].
    destruct (is_status (at_ d 2)) eqn:A2; [|discriminate]. cbn [negb andb] in H.
    destruct (is_status (at_ d 3)) eqn:A3, (is_status (at_ d 4)) eqn:A4; cbn [negb andb] in H;
    try (left; intros d'; rewrite (early d' d 3%nat), (early d' d 4%nat) by lia; split;
      [intros i L; rewrite (early d' d i) by lia; do 3 (destruct i as [|i]; [assumption|]); lia|];
      first [left; destruct (at_ d 3); [reflexivity|discriminate] | right; destruct (at_ d 4); [reflexivity|discriminate]]).
    right. destruct (at_ d 5) as [|c] eqn:A5; [discriminate|]. destruct (Z.eqb_spec c (-1)) as [|N]; [discriminate|].
    destruct (is_status (at_ d 6)) eqn:A6; [|discriminate]. cbn [negb] in H.
    destruct file as [d'|]; [|discriminate]. subst d.
    destruct (is_status (at_ d' 7)) eqn:A7; [|discriminate]. cbn [negb] in H.
    destruct (at_ d' 9) eqn:A9; [|discriminate].
    exists d'. split; [reflexivity|]; split; [|split; [congruence|exact A9]].
    intros i L. do 8 (destruct i as [|i]; [first [assumption | rewrite A5; reflexivity]|]). lia.
  - intros [H|(d' & E & S & N5 & A9)].
    + destruct (H d) as (S & A). rewrite (S 0%nat), (S 1%nat), (S 2%nat) by lia. cbn [negb andb].
      destruct A as [A|A]; rewrite A; cbn [is_status andb negb]; rewrite ?andb_false_r; reflexivity.
    + subst d. rewrite E in *. rewrite (S 0%nat), (S 1%nat), (S 2%nat), (S 3%nat), (S 4%nat), (S 6%nat), (S 7%nat) by lia. cbn [negb andb].
      pose proof (S 5%nat ltac:(lia)) as S5. destruct (at_ d' 5) as [|c]; [discriminate|].
      destruct (Z.eqb_spec c (-1)); [congruence|]. rewrite A9. reflexivity.
Qed.
End Known.

Notation at_ u data i := (main_answer srv (main_script dig env u main_mlog data) i).
Lemma uuid_cases : (exists u, main_uuid env u) \/ forall u, ~ main_uuid env u.
Proof.
  destruct (match me_lock env with Some c => Some c | None => if me_can_write env then Some (strip_dashes (me_fresh env)) else None end) as [u|] eqn:U.
  - left. exists u. apply uuid_pick. exact U.
  - right. intros u H. apply uuid_pick in H. congruence.
Qed.
Lemma uuid_unique : forall u v, main_uuid env u -> main_uuid env v -> u = v.
Proof. intros u v A B. apply uuid_pick in A. apply uuid_pick in B. congruence. Qed.
Lemma exit_ok : main_exit (snd (main_run sha env srv)) = 0 <->
  me_opens env = true /\ exists u data, main_uuid env u /\ me_fs env path = Some data /\
    (forall i, (i <= 9)%nat -> i <> 8%nat -> is_status (at_ u data i) = true) /\ at_ u data 5 <> RpStatus (-1).
Proof.
  assert (X : main_exit (snd (main_run sha env srv)) = 0 <-> snd (main_run sha env srv) = ROk)
    by (destruct (snd _); split; (reflexivity || discriminate)).
  rewrite X. clear X. destruct (me_opens env) eqn:O.
  2:{ rewrite closed by exact O. split; [discriminate|intros [? _]; discriminate]. }
  destruct uuid_cases as [(u & U)|N].
  - rewrite (known_ok u O U). split.
    + intros (data & H). split; [reflexivity|]. exists u, data. tauto.
    + intros (_ & v & data & V & H). rewrite (uuid_unique v u V U) in H. exists data. exact H.
  - rewrite nobody by assumption. split; [discriminate|]. intros (_ & u & d & U & _). destruct (N u U).
Qed.
Lemma exit_err : main_exit (snd (main_run sha env srv)) = 1 <->
  me_opens env = false \/
  exists u, main_uuid env u /\
  ((forall data, (forall i, (i <= 2)%nat -> is_status (at_ u data i) = true) /\ (at_ u data 3 = RpErr \/ at_ u data 4 = RpErr)) \/
   exists data, me_fs env path = Some data /\
    (forall i, (i <= 7)%nat -> is_status (at_ u data i) = true) /\ at_ u data 5 <> RpStatus (-1) /\ at_ u data 9 = RpErr).
Proof.
  assert (X : main_exit (snd (main_run sha env srv)) = 1 <-> snd (main_run sha env srv) = RErr)
    by (destruct (snd _); split; (reflexivity || discriminate)).
  rewrite X. clear X. destruct (me_opens env) eqn:O.
  2:{ rewrite closed by exact O. split; auto. }
  destruct uuid_cases as [(u & U)|N].
  - rewrite (known_err u O U). split.
    + intros H. right. exists u. tauto.
    + intros [?|(v & V & H)]; [discriminate|]. rewrite (uuid_unique v u V U) in H. exact H.
  - rewrite nobody by assumption. split; [discriminate|]. intros [?|(u & U & _)]; [discriminate|]. destruct (N u U).
Qed.
Lemma exit_values : let e := main_exit (snd (main_run sha env srv)) in e = 0 \/ e = 1 \/ e = 101.
Proof. cbv zeta. destruct (snd _); cbn; auto. Qed.
End Main.

Lemma main_log : main_mlog = write_mlog demo_group demo_schema.
Proof. vm_compute. reflexivity. Qed.
Lemma main_log_read : mlog_read main_mlog = Some (expected_plans demo_group demo_schema).
Proof. vm_compute. reflexivity. Qed.

Section MainReceiver.
Variable sha ch : list byte -> list byte.
Variable env : main_env.
Variable u : str.
Let dig := calculate_digest sha.
Let srv := main_receiver dig ch.
Let path := [46; 46; 47] ++ demo_file.
Hypothesis Ho : me_opens env = true.
Hypothesis Hu : main_uuid env u.

Lemma main_delivered : forall data, me_fs env path = Some data -> dig (ch main_mlog) = dig main_mlog ->
  exists rqs, main_run sha env srv = (rqs, Some u, ROk) /\
  main_receive_all dig ch rqs = mkRecv demo_group ([48; 95; 48; 95] ++ demo_file) []
    (([109; 108; 111; 103; 46; 98; 105; 110], ch main_mlog) ::
     (if list_eq_dec Z.eq_dec (dig (ch data)) (dig data) then [([48; 95; 48; 95] ++ demo_file, ch data)] else [])) true.
Proof.
  intros data F D. unfold main_run. rewrite Ho. cbn [negb]. rewrite (proj1 (uuid_pick env u) Hu). fold dig. cbv zeta.
  unfold srv, main_receiver. set (mlog := main_mlog) in *. clearbody mlog.
  unfold main_receive_all. cbn [app fold_left fst snd main_receive receive receiver_new rc_sg rc_name rc_data rc_files rc_done].
  destruct (list_eq_dec Z.eq_dec (dig (ch mlog)) (dig mlog)) as [_|E]; [|contradiction].
  cbn [app fold_left fst snd main_receive receive receiver_new rc_sg rc_name rc_data rc_files rc_done].
  change (1 =? -1) with false. cbv iota. change main_path with path. rewrite F.
  cbn [app fold_left fst snd main_receive receive receiver_new rc_sg rc_name rc_data rc_files rc_done].
  destruct (list_eq_dec Z.eq_dec (dig (ch data)) (dig data)) as [Ed|Nd];
  cbn [app fold_left fst snd main_receive receive receiver_new rc_sg rc_name rc_data rc_files rc_done];
  (eexists; split; [reflexivity|]);
  cbn [app fold_left fst snd main_receive receive receiver_new rc_sg rc_name rc_data rc_files rc_done];
  (destruct (list_eq_dec Z.eq_dec (dig (ch mlog)) (dig mlog)) as [_|E]; [|contradiction]);
  cbn [app fold_left fst snd main_receive receive receiver_new rc_sg rc_name rc_data rc_files rc_done];
  (destruct (list_eq_dec Z.eq_dec (dig (ch data)) (dig data)); [|try contradiction]); try contradiction; reflexivity.
Qed.
Lemma main_damaged_log : dig (ch main_mlog) <> dig main_mlog -> exists rqs,
  main_run sha env srv = (rqs, Some u, RPanic) /\ rc_files (main_receive_all dig ch rqs) = [].
Proof.
  intros D. unfold main_run. rewrite Ho. cbn [negb]. rewrite (proj1 (uuid_pick env u) Hu). fold dig. cbv zeta.
  unfold srv, main_receiver. set (mlog := main_mlog) in *. clearbody mlog.
  unfold main_receive_all. cbn [app fold_left fst snd main_receive receive receiver_new rc_sg rc_name rc_data rc_files rc_done].
  destruct (list_eq_dec Z.eq_dec (dig (ch mlog)) (dig mlog)) as [E|_]; [contradiction|].
  cbn [app fold_left fst snd main_receive receive receiver_new rc_sg rc_name rc_data rc_files rc_done].
  change (-1 =? -1) with true. cbv iota. eexists. split; [reflexivity|].
  cbn [app fold_left fst snd main_receive receive receiver_new rc_sg rc_name rc_data rc_files rc_done].
  destruct (list_eq_dec Z.eq_dec (dig (ch mlog)) (dig mlog)) as [E|_]; [contradiction|]. reflexivity.
Qed.
End MainReceiver.
Lemma main_received : forall sha ch env u data, let digest := calculate_digest sha in
  me_opens env = true -> main_uuid env u -> me_fs env ([46; 46; 47] ++ demo_file) = Some data ->
  exists rqs res, main_run sha env (main_receiver digest ch) = (rqs, Some u, res) /\
  (digest (ch main_mlog) <> digest main_mlog -> res = RPanic /\ rc_files (main_receive_all digest ch rqs) = []) /\
  (digest (ch main_mlog) = digest main_mlog -> res = ROk /\
     main_receive_all digest ch rqs = mkRecv demo_group ([48; 95; 48; 95] ++ demo_file) []
       (([109; 108; 111; 103; 46; 98; 105; 110], ch main_mlog) ::
        (if list_eq_dec Z.eq_dec (digest (ch data)) (digest data) then [([48; 95; 48; 95] ++ demo_file, ch data)] else [])) true).
Proof.
  intros sha ch env u data digest O U F. destruct (list_eq_dec Z.eq_dec (digest (ch main_mlog)) (digest main_mlog)) as [E|N].
  - destruct (main_delivered sha ch env u O U data F E) as (rqs & R & S). exists rqs, ROk.
    split; [exact R|]. split; [intros N; contradiction|]. intros _. split; [reflexivity|exact S].
  - destruct (main_damaged_log sha ch env u O U N) as (rqs & R & S). exists rqs, RPanic.
    split; [exact R|]. split; [auto|intros E; contradiction].
Qed.
