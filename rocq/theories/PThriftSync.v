(** The sync sender over a connection, and which bytes a client accepts. *)
From Verif Require Import PBase PMap PFfi PMlog PSync PThrift.
From Coq Require Import Lia.
Ltac Zify.zify_post_hook ::= idtac.

(** sync with servers that agree on the requests it makes *)
Lemma sync_agree : forall sha fs srv srv' name sg s tr (P : list request -> request -> Prop),
  (forall tr rq, P tr rq -> srv tr rq = srv' tr rq) ->
  (forall data k, fs ([48; 95; 48; 95] ++ name) = Some data \/ (k < 6)%nat -> (k < 9)%nat ->
     P (tr ++ firstn k (script (calculate_digest sha) sg (write_mlog sg s) name data)) (nth k (script (calculate_digest sha) sg (write_mlog sg s) name data) RqStartSync)) ->
  sync sha fs srv name sg s tr = sync sha fs srv' name sg s tr.
Proof.
  intros sha fs srv srv' name sg s tr P E V. unfold sync.
  pose proof (fun k H K => E _ _ (V [] k (or_intror H) K)) as E0.
  cbv [script] in E0.
  pose proof (E0 0%nat ltac:(lia) ltac:(lia)) as Q0. pose proof (E0 1%nat ltac:(lia) ltac:(lia)) as Q1. pose proof (E0 2%nat ltac:(lia) ltac:(lia)) as Q2.
  pose proof (E0 3%nat ltac:(lia) ltac:(lia)) as Q3. pose proof (E0 4%nat ltac:(lia) ltac:(lia)) as Q4. pose proof (E0 5%nat ltac:(lia) ltac:(lia)) as Q5.
  cbn [firstn nth] in Q0, Q1, Q2, Q3, Q4, Q5. rewrite app_nil_r in Q0.
  rewrite <- ?app_assoc. cbn [app]. rewrite Q0. destruct (srv' tr RqStartSync); [reflexivity|].
  rewrite Q1. destruct (srv' _ (RqInit sg)); [reflexivity|].
  change mlog_name with [109; 108; 111; 103; 46; 98; 105; 110]. rewrite <- ?app_assoc. cbn [app].
  rewrite Q2. destruct (srv' _ (RqInitSyncData _)); [reflexivity|].
  rewrite <- ?app_assoc. cbn [app]. rewrite Q3. destruct (srv' _ (RqSyncData _)); [reflexivity|].
  rewrite <- ?app_assoc. cbn [app]. rewrite Q4. destruct (srv' _ (RqCheckDataDigest _)); [reflexivity|].
  match goal with |- context[?c =? -1] => destruct (c =? -1); [reflexivity|] end.
  rewrite <- ?app_assoc. cbn [app]. unfold data_prefix. cbn [app] in Q5 |- *. rewrite Q5. destruct (srv' _ (RqInitSyncData _)); [reflexivity|].
  cbn [app] in *. destruct (fs (48 :: 95 :: 48 :: 95 :: name)) as [data|] eqn:F; [|reflexivity].
  pose proof (fun k K => E _ _ (V data k (or_introl eq_refl) K)) as E1. cbv [script] in E1.
  pose proof (E1 6%nat ltac:(lia)) as Q6. pose proof (E1 7%nat ltac:(lia)) as Q7. pose proof (E1 8%nat ltac:(lia)) as Q8.
  cbn [firstn nth] in Q6, Q7, Q8. cbn [app] in Q6, Q7, Q8.
  rewrite <- ?app_assoc. cbn [app]. rewrite Q6. destruct (srv' _ (RqSyncData _)); [reflexivity|].
  rewrite <- ?app_assoc. cbn [app]. rewrite Q8. reflexivity.
Qed.

(** digests are text *)
Lemma ascii_text : forall l, Forall (fun b => 0 <= b < 128) l -> utf8_ok l = true.
Proof.
  induction 1 as [|a l A F IH]; [reflexivity|]. cbn [utf8_ok]. unfold in_span at 1. replace ((0 <=? a) && (a <=? 127)) with true by lia. exact IH.
Qed.
Lemma trim_sub : forall l P, Forall P l -> Forall P (trim_zeros l) /\ (length (trim_zeros l) <= length l)%nat.
Proof.
  induction l as [|a l IH]; intros P F; [split; [constructor|reflexivity]|]. inversion F; subst.
  assert (D : trim_zeros (a :: l) = trim_zeros l \/ trim_zeros (a :: l) = a :: l).
  { cbn [trim_zeros]. destruct a as [|q|q]; auto. do 6 (destruct q; auto). }
  destruct (IH P H2) as [A B]. destruct D as [-> | ->]; [split; [assumption|cbn [length]; lia]|split; [assumption|lia]].
Qed.
Lemma digest_text : forall sha l, bytes (sha l) -> length (sha l) = 32%nat -> text (calculate_digest sha l).
Proof.
  intros sha l B L. unfold calculate_digest.
  assert (F : Forall (fun b => 0 <= b < 128) (hex_encode (sha l))).
  { apply Forall_forall. intros x I. unfold hex_encode in I. apply in_flat_map in I. destruct I as (b & Ib & I).
    unfold bytes in B. rewrite Forall_forall in B. specialize (B b Ib). red in B.
    assert (D : forall n, 0 <= n < 16 -> 0 <= hex_digit n < 128) by (intros n N; unfold hex_digit; destruct (n <? 10); lia).
    destruct I as [<-|[<-|[]]]; apply D.
    - split; [apply Z.div_pos; lia|apply Z.div_lt_upper_bound; lia].
    - apply Z.mod_pos_bound. lia. }
  destruct (trim_sub _ _ F) as [F' L']. split; [apply utf8_iff, ascii_text; assumption|].
  assert (HL : length (hex_encode (sha l)) = 64%nat).
  { assert (G : forall m, length (hex_encode m) = (2 * length m)%nat) by (induction m as [|b m IH]; [reflexivity|]; unfold hex_encode in *; cbn [flat_map app length]; lia).
    rewrite G, L. reflexivity. }
  rewrite HL in L'. apply Z.le_lt_trans with 64; [lia|reflexivity].
Qed.

Definition sha_like (sha : list Z -> list Z) : Prop := forall l, bytes (sha l) /\ length (sha l) = 32%nat.
Definition sendable (rq : request) : Prop := valid_call (call_of rq).

Section Over.
Variables (p : profile) (display debug : thrift_error -> list Z) (sha : list Z -> list Z) (fs : list Z -> option (list Z)) (name sg addr uuid : list Z) (s : schema).
Hypothesis HS : sha_like sha.
Hypothesis Hname : text ([48; 95; 48; 95] ++ name).
Hypothesis Hsg : text sg.
Hypothesis Haddr : text addr.
Hypothesis Huuid : text uuid.
Hypothesis Hlog : Z.of_nat (length (write_mlog sg s)) < 2 ^ 31.
Hypothesis Hdata : forall data, fs ([48; 95; 48; 95] ++ name) = Some data -> Z.of_nat (length data) < 2 ^ 31.
Let scr := script (calculate_digest sha) sg (write_mlog sg s) name.
Lemma script_sendable : forall data k, fs ([48; 95; 48; 95] ++ name) = Some data \/ (k < 6)%nat -> (k < 9)%nat ->
  Forall sendable (firstn k (scr data)) /\ sendable (nth k (scr data) RqStartSync).
Proof.
  intros data k HD K.
  assert (D : forall l, text (calculate_digest sha l)) by (intros l; apply digest_text; apply HS).
  assert (M : text [109; 108; 111; 103; 46; 98; 105; 110]) by (split; [apply utf8_iff; reflexivity|reflexivity]).
  unfold scr, script.
  assert (HD' : (6 <= k)%nat -> Z.of_nat (length data) < 2 ^ 31) by (intros G; destruct HD as [E|E]; [exact (Hdata data E)|lia]).
  assert (S0 : sendable RqStartSync) by exact I. assert (S1 : sendable (RqInit sg)) by exact Hsg.
  assert (S2 : sendable (RqInitSyncData [109; 108; 111; 103; 46; 98; 105; 110])) by exact M.
  assert (S3 : sendable (RqSyncData (write_mlog sg s))) by exact Hlog.
  assert (S4 : sendable (RqCheckDataDigest (calculate_digest sha (write_mlog sg s)))) by apply D.
  assert (S5 : sendable (RqInitSyncData ([48; 95; 48; 95] ++ name))) by exact Hname.
  assert (S6 : (6 <= k)%nat -> sendable (RqSyncData data)) by exact HD'.
  assert (S7 : sendable (RqCheckDataDigest (calculate_digest sha data))) by apply D.
  assert (S8 : sendable RqEndSync) by exact I.
  do 9 (destruct k as [|k]; [split; cbn [firstn nth]; [repeat (apply Forall_cons; [first [assumption|apply S6; lia]|]); apply Forall_nil|first [assumption|apply S6; lia]]|]).
  lia.
Qed.
Lemma check_sendable : sendable (RqCheck addr uuid partition_interval sync_version).
Proof.
  unfold sendable. cbn. split; [assumption|]. split; [assumption|]. split; [unfold int_range, partition_interval; lia|].
  split; [apply utf8_iff; reflexivity|reflexivity].
Qed.
Lemma sync_wire : forall H, (forall seen c, valid_answer display (H seen c)) ->
  let start := [RqCheck addr uuid partition_interval sync_version] in
  sync_connect (wire_server p display debug H) addr uuid [] = sync_connect (direct_server H) addr uuid [] /\
  sync sha fs (wire_server p display debug H) name sg s start = sync sha fs (direct_server H) name sg s start.
Proof.
  intros H HA start. split.
  - unfold sync_connect. cbn [app]. rewrite (wire_direct p display debug H HA); [reflexivity|cbn; lia|].
    cbn [app]. constructor; [exact check_sendable|constructor].
  - apply (sync_agree _ _ _ _ _ _ _ _ (fun tr rq => Z.of_nat (length tr) < 2 ^ 31 - 1 /\ Forall sendable (tr ++ [rq]))).
    + intros tr rq [L F]. apply wire_direct; assumption.
    + intros data k HD K. destruct (script_sendable data k HD K) as [A B]. fold (scr data). split.
      * rewrite app_length, firstn_length. unfold start. cbn [length]. lia.
      * apply Forall_app. split; [|constructor; [exact B|constructor]]. apply Forall_app. split; [constructor; [exact check_sendable|constructor]|exact A].
Qed.
End Over.

(** the receiver as a handler *)
Lemma receiver_direct : forall dig ch tr rq, direct_server (receiver_handler dig ch) tr rq = receiver_server dig ch tr rq.
Proof.
  intros dig ch tr rq. unfold direct_server, receiver_handler.
  assert (E : forall r, request_of (call_of r) = [r]) by (intros []; reflexivity).
  rewrite E. replace (flat_map request_of (map call_of tr)) with tr.
  - destruct (receiver_server dig ch tr rq); reflexivity.
  - induction tr as [|r tr IH]; [reflexivity|]. cbn [map flat_map]. rewrite E. cbn [app]. f_equal. exact IH.
Qed.
Lemma receiver_answers : forall dig ch display, (forall e, text (display e)) -> forall seen c, valid_answer display (receiver_handler dig ch seen c).
Proof.
  intros dig ch display D seen c.
  assert (T : text []) by (split; [exists []; split; [constructor|reflexivity]|reflexivity]).
  unfold receiver_handler. destruct (request_of c) as [|rq l]; [split; [unfold int_range; cbn; lia|exact T]|].
  unfold receiver_server. generalize (receive_all dig ch (flat_map request_of seen)). intros rc.
  destruct rq; cbn [receive snd]; try (split; [unfold int_range; cbn; lia|exact T]).
  destruct (list_eq_dec Z.eq_dec (dig (rc_data rc)) digest); cbn [snd]; (split; [unfold int_range; cbn; lia|exact T]).
Qed.
Lemma sync_ext : forall sha fs srv srv' name sg s tr, (forall tr rq, srv tr rq = srv' tr rq) ->
  sync sha fs srv name sg s tr = sync sha fs srv' name sg s tr.
Proof. intros. apply (sync_agree _ _ _ _ _ _ _ _ (fun _ _ => True)); auto. Qed.

(** which bytes a client accepts *)
Lemma read_n_inv : forall n l a r, read_n n l = (inl a, r) -> l = a ++ r /\ length a = n.
Proof.
  intros n l a r. unfold read_n. destruct (Nat.leb_spec n (length l)); [|discriminate]. intros [= <- <-].
  split; [symmetry; apply firstn_skipn|apply firstn_length_le; assumption].
Qed.
Lemma be_bytes_be_val : forall l v, bytes l -> v mod 256 ^ zlen l = be_val l -> int_be (length l) v = l.
Proof.
  intros l v B E. rewrite int_be_bytes. apply be_val_inj; [apply be_bytes_bytes|assumption|apply be_bytes_length|].
  rewrite be_val_be_bytes. exact E.
Qed.
Lemma read_int_inv : forall n l v r, (1 <= n)%nat -> bytes l -> read_int n l = (inl v, r) -> l = int_be n v ++ r.
Proof.
  intros n l v r N B. unfold read_int. destruct (read_n n l) as [[a|e] r'] eqn:E; [|discriminate]. intros [= <- <-].
  destruct (read_n_inv _ _ _ _ E) as [-> L]. unfold bytes in B. apply Forall_app in B. destruct B as [Ba _]. rewrite <- L at 1. f_equal. symmetry.
  apply be_bytes_be_val; [assumption|]. unfold zlen. rewrite L, pow256 by lia. rewrite wrapS_mod by lia.
  change (fold_left (fun a0 x : Z => a0 * 256 + x) a 0) with (be_val a).
  apply Z.mod_small. rewrite <- pow256 by lia. rewrite <- L. apply be_val_range. assumption.
Qed.
Lemma rbind_inv : forall A B (m : rd A) (f : A -> rd B) l b r, rbind m f l = (inl b, r) -> exists a r', m l = (inl a, r') /\ f a r' = (inl b, r).
Proof. intros A B m f l b r. unfold rbind. destruct (m l) as [[a|e] r'] eqn:E; [|discriminate]. eauto. Qed.
Lemma bytes_app_r : forall a b, bytes (a ++ b) -> bytes b.
Proof. unfold bytes. intros a b H. apply Forall_app in H. tauto. Qed.
Lemma header_inv : forall l m r, bytes l -> read_message_begin l = (inl m, r) ->
  1 <= msg_type m <= 4 /\ utf8_ok (msg_name m) = true /\
  (l = plain_header (msg_name m) (msg_type m) (msg_seq m) ++ r \/
   exists x, l = [128; 1; x; msg_type m] ++ int_be 4 (Z.of_nat (length (msg_name m))) ++ msg_name m ++ int_be 4 (msg_seq m) ++ r).
Proof.
  intros l m r B H. unfold read_message_begin in H. apply rbind_inv in H. destruct H as (h & r1 & H1 & H).
  apply read_n_inv in H1. destruct H1 as [-> L]. pose proof (bytes_app_r _ _ B) as B1.
  destruct h as [|a [|b [|c [|d [|]]]]]; try discriminate L. cbn [nth] in H.
  assert (BH : bytes [a; b; c; d]) by (unfold bytes in *; apply Forall_app in B; tauto).
  destruct (Z.geb_spec a 8).
  - destruct (Z.eqb_spec a 128) as [->|]; [|discriminate H]. destruct (Z.eqb_spec b 1) as [->|]; [|discriminate H]. cbn [andb] in H.
    apply rbind_inv in H. destruct H as (ty & r2 & H2 & H). unfold message_type in H2. destruct ((1 <=? d) && (d <=? 4)) eqn:D; [|discriminate H2]. injection H2 as <- <-.
    apply rbind_inv in H. destruct H as (nm & r3 & H3 & H). unfold read_string in H3. apply rbind_inv in H3. destruct H3 as (nm' & r3' & H3 & U).
    destruct (utf8_ok nm') eqn:U8; [|discriminate U]. injection U as -> ->.
    unfold read_bytes in H3. apply rbind_inv in H3. destruct H3 as (n & r4 & H4 & H3).
    apply read_int_inv in H4; [|lia|assumption]. subst r1. destruct (Z.ltb_spec n 0); [discriminate H3|].
    apply read_n_inv in H3. destruct H3 as [-> LN].
    apply rbind_inv in H. destruct H as (sq & r5 & H5 & H). injection H as <- <-. cbn [msg_type msg_name msg_seq].
    apply bytes_app_r in B1. apply bytes_app_r in B1. apply read_int_inv in H5; [|lia|assumption]. subst r3.
    split; [lia|]. split; [assumption|]. right. exists c. rewrite LN, Z2Nat.id by lia. reflexivity.
  - apply rbind_inv in H. destruct H as (nm & r2 & H2 & H). apply read_n_inv in H2. destruct H2 as [-> LN].
    destruct (utf8_ok nm) eqn:U8; [|discriminate H].
    apply rbind_inv in H. destruct H as (k & r3 & H3 & H). unfold read_byte in H3. apply rbind_inv in H3. destruct H3 as (kb & r3' & H3 & K). injection K as <- <-.
    apply read_n_inv in H3. destruct H3 as [-> LK]. destruct kb as [|k [|]]; try discriminate LK. cbn [nth] in H.
    apply rbind_inv in H. destruct H as (ty & r4 & H4 & H). unfold message_type in H4. destruct ((1 <=? k) && (k <=? 4)) eqn:D; [|discriminate H4]. injection H4 as <- <-.
    apply bytes_app_r in B1. apply bytes_app_r in B1.
    apply rbind_inv in H. destruct H as (sq & r5 & H5 & H). injection H as <- <-. cbn [msg_type msg_name msg_seq].
    apply read_int_inv in H5; [|lia|assumption]. subst r3'. split; [lia|]. split; [assumption|]. left.
    unfold plain_header. rewrite LN. change (fold_left (fun a0 x : Z => a0 * 256 + x) [a; b; c; d] 0) with (be_val [a; b; c; d]).
    pose proof (be_val_range _ BH) as RG. rewrite Z2Nat.id by lia.
    rewrite <- (be_bytes_be_val [a; b; c; d] (be_val [a; b; c; d]) BH) at 1 by (apply Z.mod_small; assumption).
    cbn [length]. rewrite <- !app_assoc. reflexivity.
Qed.
Lemma recv_sound : forall seq s l st r, bytes l -> client_recv seq s l = (inl st, r) ->
  exists body, (l = plain_header (method s) 2 seq ++ body \/
    exists x, l = [128; 1; x; 2] ++ int_be 4 (Z.of_nat (length (method s))) ++ method s ++ int_be 4 seq ++ body) /\
  result_reader s body = (inl st, r).
Proof.
  intros seq s l st r B H. unfold client_recv in H. apply rbind_inv in H. destruct H as (m & body & H1 & H).
  apply header_inv in H1; [|assumption]. destruct H1 as (K & U & F).
  apply rbind_inv in H. destruct H as (u & r1 & H1 & H). unfold verify_sequence_number in H1. destruct (Z.eqb_spec (msg_seq m) seq) as [E|]; [|discriminate H1]. injection H1 as <- <-.
  apply rbind_inv in H. destruct H as (u' & r1 & H1 & H). unfold verify_service_call in H1. change (service_name s) with (method s) in H1. destruct (str_eqb (msg_name m) (method s)) eqn:EN; [|discriminate H1]. injection H1 as <- <-.
  apply str_eqb_eq in EN. destruct (msg_type m =? msg_exception).
  - apply rbind_inv in H. destruct H as (e & r1 & _ & H). discriminate H.
  - apply rbind_inv in H. destruct H as (u'' & r1 & H1 & H). unfold verify_message_type, msg_reply in H1. destruct (Z.eqb_spec (msg_type m) 2) as [ET|]; [|discriminate H1]. injection H1 as <- <-.
    exists body. rewrite E, EN, ET in F. split; [exact F|exact H].
Qed.
