(** Proofs about the sender of the synchronisation protocol (C44). *)
From Verif Require Export SSync PMlog.

Section Sync.
Variable sha : list byte -> list byte.
Variable fs : str -> option (list byte).
Variable srv : server.
Variable filename sg : str.
Variable s : schema.
Variable tr : list request.
Let dig := calculate_digest sha.
Let mlog := write_mlog sg s.

Notation at_ data i := (answer_at srv tr (script dig sg mlog filename data) i).
(** Requests: a prefix of the script, up to the first request without an answer. The answer to the digest
    of the data file is ignored. *)
Lemma sync_prefix : forall r res, sync sha fs srv filename sg s tr = (r, res) ->
  exists data k, r = tr ++ firstn k (script dig sg mlog filename data) /\ (k <= 9)%nat /\
    (fs ([48; 95; 48; 95] ++ filename) = Some data \/ (k <= 6)%nat) /\
    (forall i, (S i < k)%nat -> i <> 7%nat -> is_status (at_ data i) = true).
Proof.
  intros r res H. unfold sync in H. fold mlog in H. fold dig in H.
  repeat match type of H with
  | context [srv ?a ?b] => let E := fresh "E" in destruct (srv a b) eqn:E; rewrite <- ?app_assoc in E; cbn [app] in E; cbn beta iota zeta in H
  | context [fs ?a] => destruct (fs a) eqn:?; cbn beta iota zeta in H
  | context [if ?c =? -1 then _ else _] => destruct (c =? -1); cbn beta iota zeta in H
  end;
  match type of H with (?a, _) = _ => idtac end; inversion H; subst r res; clear H; rewrite <- ?app_assoc; cbn [app];
  match goal with
  | F : fs _ = Some ?d |- context [RqSyncData ?d] => exists d
  | _ => exists []
  end;
  match goal with |- exists k, ?t ++ ?l = _ /\ _ => exists (length l) end; cbn [length]; (split; [reflexivity|]); (split; [lia|]);
  (split; [auto; right; lia|]); intros i L N7;
  do 9 (destruct i as [|i]; [first [lia | congruence | unfold answer_at, script; cbn [firstn nth app]; rewrite ?app_nil_r;
     change ([109; 108; 111; 103; 46; 98; 105; 110]) with mlog_name; change (48 :: 95 :: 48 :: 95 :: filename) with (data_prefix ++ filename);
     match goal with E : _ = RpStatus _ |- _ => rewrite E; reflexivity end]|]); lia.
Qed.

(** Exact outcome, from the answers to the requests of the script. *)
Definition outcome_of (file : option (list Z)) : sync_result :=
  let data := match file with Some d => d | None => [] end in
  if negb (is_status (at_ data 0)) then SPanic
  else if negb (is_status (at_ data 1) && is_status (at_ data 2) && is_status (at_ data 3)) then SErr SConnectionError
  else match at_ data 4 with
  | RpErr => SPanic
  | RpStatus c =>
      if c =? -1 then SPanic
      else if negb (is_status (at_ data 5)) then SPanic
      else match file with
      | None => SPanic
      | Some _ => if negb (is_status (at_ data 6)) then SPanic
                  else if is_status (at_ data 8) then SOk else SErr SConnectionError
      end
  end.
Lemma sync_outcome : snd (sync sha fs srv filename sg s tr) = outcome_of (fs ([48; 95; 48; 95] ++ filename)).
Proof.
  unfold sync. fold mlog. fold dig. unfold outcome_of, answer_at, script. cbn [firstn nth app]. change (data_prefix ++ filename) with ([48; 95; 48; 95] ++ filename). cbn [app].
  rewrite app_nil_r. unfold mlog_name. cbv zeta beta.
  destruct (fs (48 :: 95 :: 48 :: 95 :: filename)) as [d|]; cbv beta iota zeta; rewrite <- ?app_assoc; cbn [app];
  repeat (match goal with |- snd (match srv ?a ?b with _ => _ end) = _ => destruct (srv a b)
     | |- snd (if ?c =? -1 then _ else _) = _ => destruct (c =? -1) end;
     cbn [is_status andb negb snd]; try reflexivity).
Qed.

(** The exact conditions for the three outcomes. *)
Lemma ok_iff : snd (sync sha fs srv filename sg s tr) = SOk <->
  exists data, fs ([48; 95; 48; 95] ++ filename) = Some data /\
    (forall i, (i <= 8)%nat -> i <> 7%nat -> is_status (at_ data i) = true) /\ at_ data 4 <> RpStatus (-1).
Proof.
  rewrite sync_outcome. unfold outcome_of. destruct (fs _) as [d|] eqn:F.
  2:{ split; [|intros (d & E & _); discriminate].
      destruct (at_ [] 4) as [|c]; repeat match goal with |- context [if ?b then _ else _] => destruct b end; discriminate. }
  split.
  - intros H. exists d. split; [reflexivity|].
    destruct (is_status (at_ d 0)) eqn:A0; [|discriminate]. cbn [negb] in H.
    destruct (is_status (at_ d 1)) eqn:A1; [|discriminate]. destruct (is_status (at_ d 2)) eqn:A2; [|discriminate].
    destruct (is_status (at_ d 3)) eqn:A3; [|discriminate]. cbn [negb andb] in H.
    destruct (at_ d 4) as [|c] eqn:A4; [discriminate|]. destruct (Z.eqb_spec c (-1)) as [|N]; [discriminate|].
    destruct (is_status (at_ d 5)) eqn:A5; [|discriminate]. cbn [negb] in H.
    destruct (is_status (at_ d 6)) eqn:A6; [|discriminate]. cbn [negb] in H.
    destruct (is_status (at_ d 8)) eqn:A8; [|discriminate].
    split; [|congruence]. intros i L N7. do 9 (destruct i as [|i]; [first [assumption | congruence | rewrite A4; reflexivity]|]). lia.
  - intros (d' & E & S & N4). injection E as <-.
    rewrite (S 0%nat), (S 1%nat), (S 2%nat), (S 3%nat), (S 5%nat), (S 6%nat), (S 8%nat) by lia. cbn [negb andb].
    pose proof (S 4%nat ltac:(lia) ltac:(lia)) as S4. destruct (at_ d 4) as [|c]; [discriminate|].
    destruct (Z.eqb_spec c (-1)); congruence.
Qed.
(** The only error returned is a connection error: a request of the schema log, or the last one. *)
Lemma err_iff : forall e, snd (sync sha fs srv filename sg s tr) = SErr e <->
  e = SConnectionError /\ (forall data, is_status (at_ data 0) = true /\
    exists i, (1 <= i <= 3)%nat /\ at_ data i = RpErr) \/
  e = SConnectionError /\ exists data, fs ([48; 95; 48; 95] ++ filename) = Some data /\
    (forall i, (i <= 6)%nat -> is_status (at_ data i) = true) /\ at_ data 4 <> RpStatus (-1) /\ at_ data 8 = RpErr.
Proof.
  intros e. rewrite sync_outcome. unfold outcome_of.
  assert (I : forall a b i, (i <= 4)%nat -> at_ a i = at_ b i) by (intros a b i L; do 5 (destruct i as [|i]; [reflexivity|]); lia).
  set (file := fs _). set (d := match file with Some d => d | None => [] end). cbv zeta. fold d.
  split.
  - intros H.
    destruct (is_status (at_ d 0)) eqn:A0; [|discriminate]. cbn [negb] in H.
    destruct (is_status (at_ d 1)) eqn:A1, (is_status (at_ d 2)) eqn:A2, (is_status (at_ d 3)) eqn:A3; cbn [negb andb] in H;
    try (injection H as <-; left; split; [reflexivity|]; intros d'; rewrite (I d' d 0%nat) by lia; split; [assumption|];
      first [ exists 1%nat; split; [lia|]; rewrite (I d' d 1%nat) by lia; destruct (at_ d 1); [reflexivity|discriminate]
            | exists 2%nat; split; [lia|]; rewrite (I d' d 2%nat) by lia; destruct (at_ d 2); [reflexivity|discriminate]
            | exists 3%nat; split; [lia|]; rewrite (I d' d 3%nat) by lia; destruct (at_ d 3); [reflexivity|discriminate] ]).
    right. destruct (at_ d 4) as [|c] eqn:A4; [discriminate|]. destruct (Z.eqb_spec c (-1)) as [|N]; [discriminate|].
    destruct (is_status (at_ d 5)) eqn:A5; [|discriminate]. cbn [negb] in H.
    destruct file as [d'|]; [|discriminate]. subst d.
    destruct (is_status (at_ d' 6)) eqn:A6; [|discriminate]. cbn [negb] in H.
    destruct (at_ d' 8) eqn:A8; [|discriminate]. cbn [is_status] in H. injection H as <-.
    split; [reflexivity|]. exists d'. split; [reflexivity|]; split; [|split; [congruence|exact A8]].
    intros i L. do 7 (destruct i as [|i]; [first [assumption | rewrite A4; reflexivity]|]). lia.
  - intros [(-> & H)|(-> & d' & E & S & N4 & A8)].
    + destruct (H d) as (A0 & i & L & A). rewrite A0. cbn [negb].
      destruct i as [|[|[|[|i]]]]; [lia| | | |lia]; rewrite A; cbn [is_status andb negb]; rewrite ?andb_false_r; reflexivity.
    + subst d. rewrite E in *. rewrite (S 0%nat), (S 1%nat), (S 2%nat), (S 3%nat), (S 5%nat), (S 6%nat) by lia. cbn [negb andb].
      pose proof (S 4%nat ltac:(lia)) as S4. destruct (at_ d' 4) as [|c]; [discriminate|].
      destruct (Z.eqb_spec c (-1)); [congruence|]. rewrite A8. reflexivity.
Qed.
End Sync.

(** A receiver at the other end of a channel that delivers every payload as [ch] of it. *)
Section Receiver.
Variable sha ch : list byte -> list byte.
Variable fs : str -> option (list byte).
Variable name sg : str.
Variable s : schema.
Variable addr uuid : str.
Let dig := calculate_digest sha.
Let mlog := write_mlog sg s.
Let srv := receiver_server dig ch.
Let start := fst (sync_connect srv addr uuid []).

Lemma start_eq : start = [RqCheck addr uuid 604800 [48; 46; 49; 51]].
Proof. reflexivity. Qed.

(** The schema log arrives damaged in a way its digest shows: panic, and nothing of the data file is sent. *)
Lemma damaged_log : dig (ch mlog) <> dig mlog ->
  sync sha fs srv name sg s start = (start ++ firstn 5 (script dig sg mlog name []), SPanic).
Proof.
  intros D. rewrite start_eq. unfold sync. fold mlog. fold dig.
  unfold srv, receiver_server, receive_all.
  cbn [app fold_left fst snd receive receiver_new rc_sg rc_name rc_data rc_files rc_done].
  destruct (list_eq_dec Z.eq_dec (dig (ch mlog)) (dig mlog)) as [E|_]; [contradiction|].
  reflexivity.
Qed.
(** It arrives with its digest intact: Ok if the data file can be read, whatever happens to the data. *)
Lemma delivered : forall data, dig (ch mlog) = dig mlog -> fs ([48; 95; 48; 95] ++ name) = Some data ->
  sync sha fs srv name sg s start = (start ++ script dig sg mlog name data, SOk) /\
  receive_all dig ch (start ++ script dig sg mlog name data) =
    mkRecv sg ([48; 95; 48; 95] ++ name) []
      ((mlog_name, ch mlog) :: (if list_eq_dec Z.eq_dec (dig (ch data)) (dig data) then [([48; 95; 48; 95] ++ name, ch data)] else [])) true.
Proof.
  intros data D F. rewrite start_eq. split.
  - unfold sync. fold mlog. fold dig.
    unfold srv, receiver_server, receive_all.
    cbn [app fold_left fst snd receive receiver_new rc_sg rc_name rc_data rc_files rc_done].
    destruct (list_eq_dec Z.eq_dec (dig (ch mlog)) (dig mlog)) as [_|E]; [|contradiction].
    cbn [app fold_left fst snd receive receiver_new rc_sg rc_name rc_data rc_files rc_done].
    change (1 =? -1) with false. change (data_prefix ++ name) with ([48; 95; 48; 95] ++ name). rewrite F.
    cbn [app fold_left fst snd receive receiver_new rc_sg rc_name rc_data rc_files rc_done].
    reflexivity.
  - unfold receive_all, script.
    cbn [app fold_left fst snd receive receiver_new rc_sg rc_name rc_data rc_files rc_done].
    destruct (list_eq_dec Z.eq_dec (dig (ch mlog)) (dig mlog)) as [_|E]; [|contradiction].
    cbn [app fold_left fst snd receive receiver_new rc_sg rc_name rc_data rc_files rc_done].
    destruct (list_eq_dec Z.eq_dec (dig (ch data)) (dig data)); reflexivity.
Qed.
End Receiver.

(** Identifiers. *)
Lemma uuid_first : forall lock fresh w u lock', get_or_generate_uuid lock fresh w = (inl u, lock') ->
  lock' = Some u /\ (lock = None -> u = filter (fun c => negb (c =? 45)) fresh /\ ~ In 45 u).
Proof.
  intros [c|] fresh w u lock'; cbn [get_or_generate_uuid].
  - intros H. injection H as -> <-. split; [reflexivity|discriminate].
  - destruct w; intros H; [|discriminate]. injection H as <- <-. split; [reflexivity|]. intros _. split; [reflexivity|].
    intros H. apply filter_In in H. destruct H as [_ H]. discriminate H.
Qed.
Lemma new_ok_iff : forall env srv local uuid a u lock rqs, sender_new env srv local uuid = (inl (a, u), lock, rqs) <->
  (local = Some a \/ local = None /\ exists ips rest, se_interfaces env = ips :: rest /\ a = hd loopback ips) /\
  (uuid = Some u /\ lock = se_lock env \/ uuid = None /\ get_or_generate_uuid (se_lock env) (se_fresh env) (se_can_write env) = (inl u, lock)) /\
  se_opens env = true /\ rqs = [RqCheck a u 604800 [48; 46; 49; 51]] /\ (exists c, srv [] (RqCheck a u 604800 [48; 46; 49; 51]) = RpStatus c).
Proof.
  intros env srv local uuid a u lock rqs. unfold sender_new. split.
  - intros H.
    destruct (match local with Some la => _ | None => _ end) as [addr|] eqn:L; [|discriminate].
    destruct (match uuid with Some u => _ | None => _ end) as [[u'|e] lock'] eqn:U; [|discriminate].
    destruct (se_opens env) eqn:O; [|discriminate]. cbn [negb] in H. cbv zeta in H. unfold sync_connect in H.
    destruct (srv [] _) as [|c] eqn:S; [discriminate|]. injection H as <- <- <- <-.
    repeat split.
    + destruct local as [la|]; [left; assumption|right]. split; [reflexivity|].
      destruct (se_interfaces env) as [|ips rest]; [discriminate|]. exists ips, rest. split; [reflexivity|].
      injection L as <-. destruct ips; reflexivity.
    + destruct uuid as [x|]; [left|right]; [|split; [reflexivity|assumption]]. injection U as <- <-. auto.
    + exists c. exact S.
  - intros (L & U & O & -> & c & S).
    assert (EL : match local with Some la => Some la | None => match se_interfaces env with [] => None
      | ips :: _ => Some (match ips with [] => loopback | ip :: _ => ip end) end end = Some a).
    { destruct L as [->|(-> & ips & rest & -> & ->)]; [reflexivity|]. destruct ips; reflexivity. }
    rewrite EL.
    assert (EU : (match uuid with Some u => (inl u, se_lock env)
      | None => get_or_generate_uuid (se_lock env) (se_fresh env) (se_can_write env) end) = (inl u, lock)).
    { destruct U as [(-> & ->)|(-> & G)]; [reflexivity|assumption]. }
    rewrite EU, O. cbn [negb]. unfold sync_connect, partition_interval, sync_version. rewrite S. reflexivity.
Qed.
(** The identifier is chosen once: later senders on the same machine use it. *)
Lemma uuid_stable : forall env srv local a u lock rqs env' srv' local' a' u' lock' rqs',
  sender_new env srv local None = (inl (a, u), lock, rqs) -> se_lock env' = lock ->
  sender_new env' srv' local' None = (inl (a', u'), lock', rqs') -> u' = u /\ lock' = lock.
Proof.
  intros env srv local a u lock rqs env' srv' local' a' u' lock' rqs' H E H'.
  apply new_ok_iff in H. apply new_ok_iff in H'. destruct H as (_ & [[? _]|[_ H]] & _); [discriminate|].
  destruct H' as (_ & [[? _]|[_ H']] & _); [discriminate|].
  apply uuid_first in H. destruct H as [-> _]. rewrite E in H'. cbn [get_or_generate_uuid] in H'. injection H' as <- <-. auto.
Qed.

(** The constructor, all outcomes. *)
Lemma own_address_iff : forall env local a, own_address env local a <->
  match local with Some la => Some la | None => match se_interfaces env with [] => None | ips :: _ => Some (match ips with [] => loopback | ip :: _ => ip end) end end = Some a.
Proof.
  intros env local a. unfold own_address. destruct local as [la|].
  - split; [intros [E|[E _]]; [exact E|discriminate]|auto].
  - destruct (se_interfaces env) as [|ips rest].
    + split; [intros [E|(_ & i & r & E & _)]; discriminate|discriminate].
    + split; [intros [E|(_ & i & r & E & ->)]; [discriminate|]; injection E as <- <-; destruct ips; reflexivity|].
      intros E. injection E as <-. right. split; [reflexivity|]. exists ips, rest. split; [reflexivity|]. destruct ips; reflexivity.
Qed.
Lemma own_uuid_iff : forall env uuid u lock, own_uuid env uuid u lock <->
  match uuid with Some u => (inl u, se_lock env) | None => get_or_generate_uuid (se_lock env) (se_fresh env) (se_can_write env) end = (inl u, lock).
Proof.
  intros env uuid u lock. unfold own_uuid, get_or_generate_uuid, strip_dashes. destruct uuid as [x|].
  - split; [intros [(E & ->)|(E & _)]; [injection E as ->; reflexivity|discriminate]|]. intros E. injection E as -> <-. auto.
  - destruct (se_lock env) as [c|]; [|destruct (se_can_write env)].
    + split; [intros [(E & _)|(_ & -> & [E|(E & _)])]; try discriminate; injection E as ->; reflexivity|]. intros E. injection E as -> <-. auto.
    + split; [intros [(E & _)|(_ & -> & [E|(_ & _ & ->)])]; try discriminate; reflexivity|]. intros E. injection E as <- <-. right. auto 6.
    + split; [intros [(E & _)|(_ & -> & [E|(_ & E & _)])]; discriminate|discriminate].
Qed.
Lemma new_iff : forall env srv local uuid r lock rqs, sender_new env srv local uuid = (r, lock, rqs) <->
  let check a u := RqCheck a u 604800 [48; 46; 49; 51] in
  r = inr SNoLocalIpFound /\ local = None /\ se_interfaces env = [] /\ lock = se_lock env /\ rqs = [] \/
  (exists a, own_address env local a /\
    (r = inr SUnableGenerateUuid /\ uuid = None /\ se_lock env = None /\ se_can_write env = false /\ lock = None /\ rqs = [] \/
     exists u, own_uuid env uuid u lock /\
      (r = inr SConnectionError /\ se_opens env = false /\ rqs = [] \/
       se_opens env = true /\ rqs = [check a u] /\
         (r = inr SHandshakeError /\ srv [] (check a u) = RpErr \/ r = inl (a, u) /\ exists c, srv [] (check a u) = RpStatus c)))).
Proof.
  intros env srv local uuid r lock rqs. cbv zeta. unfold sender_new. split.
  - intros H. destruct (match local with Some la => _ | None => _ end) as [addr|] eqn:L.
    + right. exists addr. split; [apply own_address_iff; exact L|].
      destruct (match uuid with Some u => _ | None => _ end) as [[u'|e] lock'] eqn:U.
      * right. exists u'. destruct (se_opens env) eqn:O; cbn [negb] in H.
        -- unfold sync_connect in H. cbv zeta in H. destruct (srv [] _) as [|c] eqn:S; cbn [app] in H; injection H as <- <- <-; (split; [apply own_uuid_iff; exact U|]); right; repeat (split; [reflexivity|]); [left|right]; eauto.
        -- injection H as <- <- <-. split; [apply own_uuid_iff; exact U|]. auto.
      * left. injection H as <- <- <-. destruct uuid; [discriminate|]. unfold get_or_generate_uuid in U. destruct (se_lock env); [discriminate|]. destruct (se_can_write env); [discriminate|].
        injection U as <- <-. auto 7.
    + left. injection H as <- <- <-. destruct local; [discriminate|]. destruct (se_interfaces env); [|discriminate]. auto.
  - intros [(-> & -> & E & -> & ->)|(a & A & H)]; [rewrite E; reflexivity|]. apply own_address_iff in A. rewrite A.
    destruct H as [(-> & -> & E1 & E2 & -> & ->)|(u & U & H)]; [unfold get_or_generate_uuid; rewrite E1, E2; reflexivity|]. apply own_uuid_iff in U. rewrite U.
    destruct H as [(-> & -> & ->)|(-> & -> & [(-> & S)|(-> & c & S)])]; cbn [negb]; unfold sync_connect; cbv zeta; unfold partition_interval, sync_version; rewrite ?S; reflexivity.
Qed.
