(** Proofs about the Thrift service. *)
From Verif Require Import PBase PMap PFfi.
From Verif Require Export SThrift.
From Coq Require Import Lia.
Ltac Zify.zify_post_hook ::= idtac.

(** integers *)
Lemma int_be_bytes : forall n v, int_be n v = be_bytes n v.
Proof.
  assert (H : forall n v k, digits_le (n + k) v = digits_le n v ++ digits_le k (v / 256 ^ Z.of_nat n)).
  { induction n as [|n IH]; intros v k.
    - cbn [Nat.add digits_le app]. change (256 ^ Z.of_nat 0) with 1. rewrite Z.div_1_r. reflexivity.
    - cbn [Nat.add digits_le app]. rewrite IH. do 3 f_equal. rewrite Z.div_div by lia. f_equal.
      rewrite Nat2Z.inj_succ, Z.pow_succ_r by lia. lia. }
  unfold int_be. induction n as [|n IH]; intros v; [reflexivity|].
  replace (S n) with (n + 1)%nat by lia. rewrite H, rev_app_distr. cbn [digits_le rev app].
  rewrite Nat.add_comm. cbn [Nat.add be_bytes]. rewrite IH, pow256 by lia. reflexivity.
Qed.
Lemma read_n_app : forall a r, read_n (length a) (a ++ r) = (inl a, r).
Proof.
  intros. unfold read_n. rewrite app_length. destruct (Nat.leb_spec (length a) (length a + length r)); [|lia].
  rewrite firstn_app, skipn_app, firstn_all, skipn_all, Nat.sub_diag. cbn. rewrite app_nil_r. reflexivity.
Qed.
Lemma read_n_int : forall n v r, read_n n (int_be n v ++ r) = (inl (int_be n v), r).
Proof. intros. rewrite int_be_bytes. rewrite <- (be_bytes_length n v) at 1. apply read_n_app. Qed.
Lemma read_int_be : forall n v r, (1 <= n)%nat -> int_range (8 * Z.of_nat n) v -> read_int n (int_be n v ++ r) = (inl v, r).
Proof.
  intros n v r N R. unfold read_int. rewrite read_n_int, int_be_bytes.
  change (fold_left (fun a x : Z => a * 256 + x) (be_bytes n v) 0) with (be_val (be_bytes n v)).
  rewrite be_val_be_bytes, pow256 by lia. do 2 f_equal.
  assert (P : 0 < 2 ^ (8 * Z.of_nat n)) by (apply Z.pow_pos_nonneg; lia).
  unfold wrapS. rewrite Z.mod_mod by lia.
  assert (P2 : 2 ^ (8 * Z.of_nat n) = 2 * 2 ^ (8 * Z.of_nat n - 1)).
  { replace (8 * Z.of_nat n) with (Z.succ (8 * Z.of_nat n - 1)) at 1 by lia. rewrite Z.pow_succ_r by lia. reflexivity. }
  unfold int_range in R. destruct (Z_lt_le_dec v 0).
  - replace (v mod 2 ^ (8 * Z.of_nat n)) with (v + 2 ^ (8 * Z.of_nat n)).
    + destruct (Z.ltb_spec (v + 2 ^ (8 * Z.of_nat n)) (2 ^ (8 * Z.of_nat n - 1))); lia.
    + rewrite <- (Z_mod_plus_full v 1). rewrite Z.mod_small; lia.
  - rewrite Z.mod_small by lia. destruct (Z.ltb_spec v (2 ^ (8 * Z.of_nat n - 1))); lia.
Qed.
Lemma read_int_2 : forall v r, int_range 16 v -> read_int 2 (int_be 2 v ++ r) = (inl v, r).
Proof. intros. apply read_int_be; [lia|assumption]. Qed.
Lemma read_int_4 : forall v r, int_range 32 v -> read_int 4 (int_be 4 v ++ r) = (inl v, r).
Proof. intros. apply read_int_be; [lia|assumption]. Qed.
Lemma read_int_8 : forall v r, int_range 64 v -> read_int 8 (int_be 8 v ++ r) = (inl v, r).
Proof. intros. apply read_int_be; [lia|assumption]. Qed.
Lemma len_range : forall A (l : list A), Z.of_nat (length l) < 2 ^ 31 -> int_range 32 (Z.of_nat (length l)).
Proof. intros. unfold int_range. change (32 - 1) with 31. lia. Qed.

Lemma bind_ok : forall A B (m : rd A) (f : A -> rd B) l a r, m l = (inl a, r) -> rbind m f l = f a r.
Proof. intros. unfold rbind. rewrite H. reflexivity. Qed.
Lemma rbind_rret : forall A B (a : A) (f : A -> rd B) l, rbind (rret a) f l = f a l.
Proof. reflexivity. Qed.
Lemma bind_err : forall A B (m : rd A) (f : A -> rd B) l e r, m l = (inr e, r) -> rbind m f l = (inr e, r).
Proof. intros. unfold rbind. rewrite H. reflexivity. Qed.

Lemma read_bytes_ok : forall b r, Z.of_nat (length b) < 2 ^ 31 -> read_bytes (encode (TVBin b) ++ r) = (inl b, r).
Proof.
  intros b r L. unfold read_bytes. cbn [encode]. rewrite <- app_assoc.
  rewrite (bind_ok _ _ _ _ _ _ _ (read_int_4 _ _ (len_range _ _ L))).
  destruct (Z.ltb_spec (Z.of_nat (length b)) 0); [lia|]. rewrite Nat2Z.id. apply read_n_app.
Qed.
Lemma read_string_ok : forall b r, text b -> read_string (encode (TVBin b) ++ r) = (inl b, r).
Proof.
  intros b r [T L]. unfold read_string. rewrite (bind_ok _ _ _ _ _ _ _ (read_bytes_ok b r L)).
  apply utf8_iff in T. rewrite T. reflexivity.
Qed.
Lemma read_byte_ok : forall b r, read_byte (b :: r) = (inl b, r).
Proof. intros. reflexivity. Qed.

Lemma read_type_ok : forall ty r, In ty value_types -> read_type (ty :: r) = (inl ty, r).
Proof. intros ty r I. unfold read_type. rewrite (bind_ok _ _ _ _ _ _ _ (read_byte_ok ty r)).
  cbn [In value_types] in I. repeat (destruct I as [<-|I]; [reflexivity|]). destruct I. Qed.
Lemma type_of_value : forall v, In (type_of v) value_types.
Proof. intros []; cbn; tauto. Qed.
Lemma value_not_stop : forall ty, In ty value_types -> (ty =? ty_stop) = false.
Proof. intros ty I. cbn [In value_types] in I. repeat (destruct I as [<-|I]; [reflexivity|]). destruct I. Qed.

(** fields *)
Definition enc_fields (fs : list (Z * tvalue)) : list Z :=
  flat_map (fun f => type_of (snd f) :: int_be 2 (fst f) ++ encode (snd f)) fs.
Lemma field_begin_ok : forall id v r, int_range 16 id ->
  read_field_begin (type_of v :: int_be 2 id ++ r) = (inl (type_of v, id), r).
Proof.
  intros id v r R. unfold read_field_begin. rewrite (bind_ok _ _ _ _ _ _ _ (read_type_ok _ _ (type_of_value v))).
  rewrite (value_not_stop _ (type_of_value v)). rewrite (bind_ok _ _ _ _ _ _ _ (read_int_2 id r R)). reflexivity.
Qed.
Lemma field_stop_ok : forall r, read_field_begin (0 :: r) = (inl (0, 0), r).
Proof. reflexivity. Qed.

Lemma loop_ok : forall S (step : S -> Z -> Z -> rd S) (f : S -> Z * tvalue -> S) fs s r fuel,
  Forall (fun x => int_range 16 (fst x) /\ forall s r, step s (type_of (snd x)) (fst x) (encode (snd x) ++ r) = (inl (f s x), r)) fs ->
  (length fs < fuel)%nat ->
  fields_loop fuel step s (enc_fields fs ++ 0 :: r) = (inl (fold_left f fs s), r).
Proof.
  intros S step f fs. induction fs as [|[id v] fs IH]; intros s r fuel F L; (destruct fuel as [|fuel]; [lia|]).
  - cbn [enc_fields flat_map app fields_loop]. rewrite (bind_ok _ _ _ _ _ _ _ (field_stop_ok r)). reflexivity.
  - inversion F as [|? ? [R ST] F']; subst. cbn [fst snd] in *. cbn [length] in L.
    cbn [enc_fields flat_map fields_loop fst snd]. cbn [app]. rewrite <- !app_assoc.
    rewrite (bind_ok _ _ _ _ _ _ _ (field_begin_ok id v _ R)). cbn [fst snd].
    change ty_stop with 0. pose proof (value_not_stop _ (type_of_value v)) as NS. unfold ty_stop in NS. rewrite NS.
    rewrite (bind_ok _ _ _ _ _ _ _ (ST s _)). cbn [fold_left]. apply IH; [assumption|lia].
Qed.
Lemma enc_fields_length : forall fs, (length fs <= length (enc_fields fs))%nat.
Proof. induction fs as [|f fs IH]; [reflexivity|]. unfold enc_fields in *. cbn [flat_map length app]. rewrite !app_length. lia. Qed.
Lemma fields_ok : forall S (step : S -> Z -> Z -> rd S) (f : S -> Z * tvalue -> S) fs s r,
  Forall (fun x => int_range 16 (fst x) /\ forall s r, step s (type_of (snd x)) (fst x) (encode (snd x) ++ r) = (inl (f s x), r)) fs ->
  read_fields step s (encode (TVStruct fs) ++ r) = (inl (fold_left f fs s), r).
Proof.
  intros. unfold read_fields. cbn [encode]. rewrite <- app_assoc. cbn [app]. apply loop_ok; [assumption|].
  rewrite app_length. pose proof (enc_fields_length fs). unfold enc_fields in H0. lia.
Qed.
(** The first field that cannot be read. *)
Lemma loop_err : forall S (step : S -> Z -> Z -> rd S) (f : S -> Z * tvalue -> S) e id v fs' fs s fuel r,
  Forall (fun x => int_range 16 (fst x) /\ forall s r, step s (type_of (snd x)) (fst x) (encode (snd x) ++ r) = (inl (f s x), r)) fs ->
  int_range 16 id -> (forall s r, fst (step s (type_of v) id (encode v ++ r)) = inr e) ->
  (length fs < fuel)%nat ->
  fst (fields_loop fuel step s (enc_fields (fs ++ (id, v) :: fs') ++ r)) = inr e.
Proof.
  intros S step f e id v fs' fs. induction fs as [|[id1 v1] fs IH]; intros s fuel r F R E L; (destruct fuel as [|fuel]; [lia|]).
  - cbn [app enc_fields flat_map fields_loop fst snd]. rewrite <- !app_assoc.
    rewrite (bind_ok _ _ _ _ _ _ _ (field_begin_ok id v _ R)). cbn [fst snd].
    change ty_stop with 0. pose proof (value_not_stop _ (type_of_value v)) as NS. unfold ty_stop in NS. rewrite NS.
    unfold rbind. match goal with |- context[step s (type_of v) id (encode v ++ ?r')] => specialize (E s r'); destruct (step s (type_of v) id (encode v ++ r')) as [[x|x] y] end;
    cbn [fst] in E |- *; [discriminate|congruence].
  - inversion F as [|? ? [R1 ST] F']; subst. cbn [fst snd] in *. cbn [length] in L.
    cbn [app enc_fields flat_map fields_loop fst snd]. rewrite <- !app_assoc.
    rewrite (bind_ok _ _ _ _ _ _ _ (field_begin_ok id1 v1 _ R1)). cbn [fst snd].
    change ty_stop with 0. pose proof (value_not_stop _ (type_of_value v1)) as NS. unfold ty_stop in NS. rewrite NS.
    rewrite (bind_ok _ _ _ _ _ _ _ (ST s _)). apply IH; [assumption..|lia].
Qed.
Lemma fields_err : forall S (step : S -> Z -> Z -> rd S) (f : S -> Z * tvalue -> S) e id v fs' fs s r,
  Forall (fun x => int_range 16 (fst x) /\ forall s r, step s (type_of (snd x)) (fst x) (encode (snd x) ++ r) = (inl (f s x), r)) fs ->
  int_range 16 id -> (forall s r, fst (step s (type_of v) id (encode v ++ r)) = inr e) ->
  fst (read_fields step s (encode (TVStruct (fs ++ (id, v) :: fs')) ++ r)) = inr e.
Proof.
  intros. unfold read_fields. cbn [encode]. rewrite <- app_assoc. apply (loop_err _ _ f); [assumption..|].
  rewrite !app_length. pose proof (enc_fields_length (fs ++ (id, v) :: fs')) as L. unfold enc_fields in L. rewrite app_length in L. cbn [length] in L. lia.
Qed.

(** skipping *)
Lemma times_ok : forall vs (m : rd unit) r, Forall (fun v => forall r, m (v ++ r) = (inl tt, r)) vs ->
  read_times (length vs) m (concat vs ++ r) = (inl tt, r).
Proof.
  induction vs as [|v vs IH]; intros m r F; [reflexivity|]. inversion F as [|? ? M F']; subst.
  cbn [length read_times concat]. rewrite <- app_assoc. rewrite (bind_ok _ _ _ _ _ _ _ (M _)). apply IH. assumption.
Qed.
Lemma skip_ok : forall d v r, skippable d v -> skip_depth d (type_of v) (encode v ++ r) = (inl tt, r).
Proof.
  induction d as [|d IH]; intros v r K; [inversion K|].
  inversion K; subst; cbn [type_of skip_depth].
  1-6: (destruct b || idtac); cbv [ty_bool ty_i8 ty_i16 ty_i32 ty_i64 ty_double ty_string ty_struct ty_list ty_set ty_map]; cbn [Z.eqb Pos.eqb orb encode];
    first [reflexivity | erewrite bind_ok by apply read_n_int; reflexivity].
  all: cbv [ty_bool ty_i8 ty_i16 ty_i32 ty_i64 ty_double ty_string ty_struct ty_list ty_set ty_map]; cbn [Z.eqb Pos.eqb orb].
  - erewrite bind_ok by (apply read_string_ok; assumption). reflexivity.
  - rewrite (fields_ok unit _ (fun s _ => s)).
    + replace (fold_left (fun (s : unit) (_ : Z * tvalue) => s) fs tt) with tt; [reflexivity|]. clear. induction fs; cbn; auto.
    + eapply Forall_impl; [|eassumption]. intros [i w] [R W]. split; [assumption|]. intros [] r'. cbn [fst snd] in *. apply IH. assumption.
  - cbn [encode app]. rewrite <- !app_assoc.
    erewrite bind_ok by (apply read_type_ok; assumption). erewrite bind_ok by (apply read_type_ok; assumption).
    erewrite bind_ok by (apply read_int_4, len_range; assumption). rewrite Nat2Z.id.
    rewrite flat_map_concat_map. rewrite <- (map_length (fun kv : tvalue * tvalue => encode (fst kv) ++ encode (snd kv)) kvs) at 1.
    apply times_ok. apply Forall_map. eapply Forall_impl; [|eassumption]. intros [a b] (<- & <- & A & B) r'. cbn [fst snd] in *.
    rewrite <- app_assoc. erewrite bind_ok by (apply IH; assumption). apply IH. assumption.
  - cbn [encode app]. rewrite <- !app_assoc.
    erewrite bind_ok by (apply read_type_ok; assumption).
    erewrite bind_ok by (apply read_int_4, len_range; assumption). rewrite Nat2Z.id.
    rewrite flat_map_concat_map. rewrite <- (map_length encode vs) at 1.
    apply times_ok. apply Forall_map. eapply Forall_impl; [|eassumption]. intros a (<- & A) r'. apply IH. assumption.
  - cbn [encode app]. rewrite <- !app_assoc.
    erewrite bind_ok by (apply read_type_ok; assumption).
    erewrite bind_ok by (apply read_int_4, len_range; assumption). rewrite Nat2Z.id.
    rewrite flat_map_concat_map. rewrite <- (map_length encode vs) at 1.
    apply times_ok. apply Forall_map. eapply Forall_impl; [|eassumption]. intros a (<- & A) r'. apply IH. assumption.
Qed.
Lemma skip_bind : forall S v (s : S) r, skippable 64 v -> (let? _ := skip (type_of v) in rret s) (encode v ++ r) = (inl s, r).
Proof. intros. erewrite bind_ok by (apply skip_ok; assumption). reflexivity. Qed.

(** which field counts *)
Definition keep {A} (get : Z * tvalue -> option A) (s : option A) (x : Z * tvalue) : option A :=
  match get x with Some a => Some a | None => s end.
Lemma fold_keep : forall A (get : Z * tvalue -> option A) fs s,
  fold_left (keep get) fs s = match find (fun x => match get x with Some _ => true | None => false end) (rev fs) with
    | Some x => get x | None => s end.
Proof.
  intros A get fs. induction fs as [|x fs IH] using rev_ind; intros s; [reflexivity|].
  rewrite fold_left_app, rev_app_distr. cbn [fold_left rev app find]. unfold keep at 1. rewrite IH.
  destruct (get x) eqn:E; [symmetry; exact E|]. reflexivity.
Qed.
Lemma find_filter : forall A (p : A -> bool) l, find p l = match filter p l with x :: _ => Some x | [] => None end.
Proof. induction l as [|x l IH]; [reflexivity|]. cbn. destruct (p x); auto. Qed.
(** The value of the last field with an identifier, for fields of one type. *)
Lemma fold_last : forall A (wrap : A -> tvalue) (get : tvalue -> option A) id fs s,
  (forall a, get (wrap a) = Some a) ->
  Forall (fun x => fst x = id -> exists a, snd x = wrap a) fs ->
  fold_left (keep (fun x => if fst x =? id then get (snd x) else None)) fs s =
  match last_field id fs with Some v => get v | None => s end.
Proof.
  intros A wrap get id fs s G F. rewrite fold_keep, find_filter. unfold last_field.
  assert (E : forall l, Forall (fun x => fst x = id -> exists a, snd x = wrap a) l ->
    filter (fun x => match (if fst x =? id then get (snd x) else None) with Some _ => true | None => false end) l = filter (fun f => fst f =? id) l /\
    Forall (fun x => fst x = id /\ exists a, snd x = wrap a) (filter (fun f => fst f =? id) l)).
  { induction l as [|x l IH]; intros Fl; [split; [reflexivity|constructor]|]. inversion Fl as [|? ? X Fl']; subst.
    destruct (IH Fl') as [I1 I2]. cbn [filter]. destruct (Z.eqb_spec (fst x) id) as [E|E].
    - destruct (X E) as [a W]. rewrite W, G. rewrite I1. split; [reflexivity|]. constructor; [split; [assumption|exists a; assumption]|assumption].
    - split; [exact I1|exact I2]. }
  destruct (E (rev fs)) as [E1 E2]; [apply Forall_rev; assumption|]. rewrite E1.
  destruct (filter (fun f => fst f =? id) (rev fs)) as [|x l]; [reflexivity|].
  inversion E2 as [|? ? [X _] _]; subst. rewrite Z.eqb_refl. reflexivity.
Qed.
Definition get_i32 (v : tvalue) : option Z := match v with TVI32 c => Some c | _ => None end.
Definition get_bin (v : tvalue) : option (list Z) := match v with TVBin b => Some b | _ => None end.
Lemma last_field_in : forall id fs v, last_field id fs = Some v -> In (id, v) fs.
Proof.
  intros id fs v. unfold last_field. destruct (filter (fun f => fst f =? id) (rev fs)) as [|[i w] l] eqn:E; [discriminate|]. cbn [snd]. intros [= ->].
  assert (I : In (i, v) (filter (fun f => fst f =? id) (rev fs))) by (rewrite E; left; reflexivity).
  apply filter_In in I. destruct I as [I J]. cbn [fst] in J. apply Z.eqb_eq in J. subst. apply in_rev. assumption.
Qed.

(** status *)
Lemma read_status_ok : forall fs r, Forall typed_status_field fs ->
  fst (read_status (encode (TVStruct fs) ++ r)) = match status_in (TVStruct fs) with Some s => inl s | None => inr TProtocol end /\
  (forall s, status_in (TVStruct fs) = Some s -> read_status (encode (TVStruct fs) ++ r) = (inl s, r)).
Proof.
  intros fs r F.
  pose (f := fun (s : option Z * option (list Z)) (x : Z * tvalue) =>
    (keep (fun x => if fst x =? 1 then get_i32 (snd x) else None) (fst s) x,
     keep (fun x => if fst x =? 2 then get_bin (snd x) else None) (snd s) x)).
  assert (E : forall s, read_fields (fun (s : option Z * option str) ty id =>
    if id =? 1 then let? v := read_int 4 in rret (Some v, snd s)
    else if id =? 2 then let? t := read_string in rret (fst s, Some t)
    else let? _ := skip ty in rret s) s (encode (TVStruct fs) ++ r) = (inl (fold_left f fs s), r)).
  { intros s. apply fields_ok. eapply Forall_impl; [|exact F]. intros [id v] [R T]. cbn [fst snd] in *. split; [assumption|]. intros s' r'.
    unfold f, keep. cbn [fst snd]. destruct (Z.eqb_spec id 1) as [->|N1].
    - destruct T as (c & -> & C). cbn [encode]. erewrite bind_ok by (apply read_int_4; assumption). reflexivity.
    - destruct (Z.eqb_spec id 2) as [->|N2].
      + destruct T as (t & -> & C). erewrite bind_ok by (apply read_string_ok; assumption). reflexivity.
      + rewrite skip_bind by assumption. destruct s'. reflexivity. }
  assert (P : forall fs s, fold_left f fs s = (fold_left (keep (fun x => if fst x =? 1 then get_i32 (snd x) else None)) fs (fst s),
    fold_left (keep (fun x => if fst x =? 2 then get_bin (snd x) else None)) fs (snd s))).
  { induction fs0 as [|x l IH]; intros s; [destruct s; reflexivity|]. cbn [fold_left]. rewrite IH. reflexivity. }
  assert (V : fold_left f fs (None, None) = (match last_field 1 fs with Some v => get_i32 v | None => None end,
     match last_field 2 fs with Some v => get_bin v | None => None end)).
  { rewrite P. cbn [fst snd]. f_equal.
    - apply (fold_last Z TVI32); [reflexivity|]. eapply Forall_impl; [|exact F]. intros [id v] [R T] X. cbn [fst snd] in *. subst id. cbn in T. destruct T as (c & -> & _). eauto.
    - apply (fold_last _ TVBin); [reflexivity|]. eapply Forall_impl; [|exact F]. intros [id v] [R T] X. cbn [fst snd] in *. subst id. cbn in T. destruct T as (c & -> & _). eauto. }
  unfold read_status. rewrite (bind_ok _ _ _ _ _ _ _ (E (None, None))). rewrite V. cbn [fst snd status_in].
  destruct (last_field 1 fs) as [v1|] eqn:L1; cbn [required].
  2: { split; [reflexivity|discriminate]. }
  apply last_field_in in L1. rewrite Forall_forall in F. pose proof (F _ L1) as [_ T1]. cbn in T1. destruct T1 as (c & -> & _). cbn [get_i32].
  destruct (last_field 2 fs) as [v2|] eqn:L2.
  2: { split; [reflexivity|discriminate]. }
  apply last_field_in in L2. pose proof (F _ L2) as [_ T2]. cbn in T2. destruct T2 as (t & -> & _). cbn [get_bin].
  split; [reflexivity|]. intros s [= <-]. reflexivity.
Qed.

(** results *)
Lemma first_bad : forall (bad : tvalue -> bool) fs, existsb bad (map snd (filter (fun f => fst f =? 0) fs)) = true ->
  exists a v b, fs = a ++ (0, v) :: b /\ bad v = true /\ existsb bad (map snd (filter (fun f => fst f =? 0) a)) = false.
Proof.
  intros bad fs. induction fs as [|[id w] fs IH]; cbn [filter map existsb fst]; [discriminate|].
  destruct (Z.eqb_spec id 0) as [->|N].
  - cbn [map existsb snd]. destruct (bad w) eqn:B.
    + intros _. exists [], w, fs. auto.
    + cbn [orb]. intros H. destruct (IH H) as (a & v & b & -> & V & A). exists ((0, w) :: a), v, b. split; [reflexivity|]. split; [assumption|].
      cbn [filter fst Z.eqb map snd existsb]. rewrite B, A. reflexivity.
  - intros H. destruct (IH H) as (a & v & b & -> & V & A). exists ((id, w) :: a), v, b. split; [reflexivity|]. split; [assumption|].
    cbn [filter fst]. destruct (Z.eqb_spec id 0); [contradiction|]. exact A.
Qed.
Definition no_status (v : tvalue) : bool := match status_in v with None => true | Some _ => false end.
Definition result_step (s : option sync_status) (x : Z * tvalue) : option sync_status :=
  keep (fun x => if fst x =? 0 then status_in (snd x) else None) s x.
Lemma result_fields : forall fs, Forall typed_result_field fs -> existsb no_status (map snd (filter (fun f => fst f =? 0) fs)) = false ->
  Forall (fun x => int_range 16 (fst x) /\ forall s r,
    (if fst x =? 0 then let? v := read_status in rret (Some v) else let? _ := skip (type_of (snd x)) in rret s) (encode (snd x) ++ r) = (inl (result_step s x), r)) fs.
Proof.
  intros fs F B. rewrite Forall_forall in F |- *. intros [id v] I. destruct (F _ I) as [R T]. cbn [fst snd] in *. split; [assumption|]. intros s r.
  unfold result_step, keep. cbn [fst snd]. destruct (Z.eqb_spec id 0) as [->|N].
  - destruct T as (fs' & -> & T). destruct (read_status_ok fs' r T) as [_ OK]. destruct (status_in (TVStruct fs')) as [st|] eqn:ST.
    + rewrite (bind_ok _ _ _ _ _ _ _ (OK st eq_refl)). reflexivity.
    + exfalso. assert (E : existsb no_status (map snd (filter (fun f => fst f =? 0) fs)) = true).
      { apply existsb_exists. exists (TVStruct fs'). split; [|unfold no_status; rewrite ST; reflexivity].
        apply in_map_iff. exists (0, TVStruct fs'). split; [reflexivity|]. apply filter_In. split; [assumption|reflexivity]. }
      congruence.
  - rewrite skip_bind by assumption. reflexivity.
Qed.
Lemma fold_result : forall fs, existsb no_status (map snd (filter (fun f => fst f =? 0) fs)) = false ->
  fold_left result_step fs None = match last_field 0 fs with Some v => status_in v | None => None end.
Proof.
  intros fs B. change result_step with (keep (fun x => if fst x =? 0 then status_in (snd x) else None)). rewrite fold_keep, find_filter. unfold last_field.
  assert (E : forall l, (forall x, In x l -> In x fs) ->
    filter (fun x => match (if fst x =? 0 then status_in (snd x) else None) with Some _ => true | None => false end) l = filter (fun f => fst f =? 0) l).
  { intros l I. apply filter_ext_in. intros [id v] X. cbn [fst snd]. destruct (Z.eqb_spec id 0) as [->|N]; [|reflexivity].
    destruct (status_in v) eqn:S; [reflexivity|]. exfalso.
    assert (E : existsb no_status (map snd (filter (fun f => fst f =? 0) fs)) = true); [|congruence].
    apply existsb_exists. exists v. split; [|unfold no_status; rewrite S; reflexivity]. apply in_map_iff. exists (0, v). split; [reflexivity|].
    apply filter_In. split; [apply I; assumption|reflexivity]. }
  rewrite E by (intros x; apply in_rev). destruct (filter (fun f => fst f =? 0) (rev fs)) as [|x l] eqn:Q; [reflexivity|].
  assert (I : In x (filter (fun f => fst f =? 0) (rev fs))) by (rewrite Q; left; reflexivity). apply filter_In in I. destruct I as [_ I]. rewrite I. reflexivity.
Qed.
Lemma service_name_ok : forall s, service_name s = method s. Proof. intros []; reflexivity. Qed.
Lemma service_of_ok : forall c, service_of c = method_of c. Proof. intros []; reflexivity. Qed.
Definition result_reader (s : service) : rd sync_status := let? r := read_result in result_ok_or s r.
Lemma result_ok : forall s fs r, Forall typed_result_field fs ->
  fst (result_reader s (encode (TVStruct fs) ++ r)) = result_in s fs /\
  (forall st, result_in s fs = inl st -> snd (result_reader s (encode (TVStruct fs) ++ r)) = r).
Proof.
  intros s fs r F. unfold result_reader, result_in. cbv zeta.
  destruct (existsb (fun v => match status_in v with Some _ => false | None => true end) (map snd (filter (fun f => fst f =? 0) fs))) eqn:B.
  - split; [|intros st Q; discriminate Q]. destruct (first_bad no_status fs B) as (a & v & b & -> & V & A).
    apply Forall_app in F. destruct F as [Fa Fb]. inversion Fb as [|? ? [R T] _]; subst. cbn [fst snd Z.eqb] in *. destruct T as (fs' & -> & T).
    assert (E : fst (read_result (encode (TVStruct (a ++ (0, TVStruct fs') :: b)) ++ r)) = inr TProtocol).
    { unfold read_result. apply (fields_err _ _ result_step); [apply result_fields; assumption|assumption|].
      intros s' r'. cbn [Z.eqb]. destruct (read_status_ok fs' r' T) as [E _]. unfold no_status in V. destruct (status_in (TVStruct fs')); [discriminate|].
      unfold rbind. destruct (read_status (encode (TVStruct fs') ++ r')) as [[x|x] y]; cbn [fst] in *; congruence. }
    unfold rbind. destruct (read_result (encode (TVStruct (a ++ (0, TVStruct fs') :: b)) ++ r)) as [[x|x] y]; cbn [fst] in *; congruence.
  - change (fun v => match status_in v with Some _ => false | None => true end) with no_status in B.
    unfold read_result. rewrite (bind_ok _ _ _ _ _ _ _ (fields_ok _ _ result_step fs None r (result_fields fs F B))).
    rewrite (fold_result fs B). destruct (last_field 0 fs) as [v|] eqn:L.
    + destruct (status_in v) as [st|] eqn:S.
      * split; [reflexivity|]. intros; reflexivity.
      * exfalso. assert (E : existsb no_status (map snd (filter (fun f => fst f =? 0) fs)) = true); [|congruence].
        apply existsb_exists. exists v. split; [|unfold no_status; rewrite S; reflexivity]. apply in_map_iff. exists (0, v). split; [reflexivity|].
        apply filter_In. split; [apply last_field_in; assumption|reflexivity].
    + cbn [result_ok_or rfail fst snd]. split; [|intros st Q; discriminate Q]. unfold no_result_text, capital. rewrite service_name_ok. reflexivity.
Qed.

(** exceptions *)
Lemma exception_ok : forall fs r, Forall typed_exception_field fs -> exists k t,
  read_application_error (encode (TVStruct fs) ++ r) = (inl (k, t), r) /\ exception_in fs = TApplication k (Some t).
Proof.
  intros fs r F.
  pose (f := fun (s : Z * list Z) (x : Z * tvalue) =>
    (if fst x =? 2 then match get_i32 (snd x) with Some v => app_kind v | None => fst s end else fst s,
     if fst x =? 1 then match get_bin (snd x) with Some v => v | None => snd s end else snd s)).
  assert (E : forall s, read_fields (fun (s : Z * str) ty id =>
    if id =? 1 then let? t := read_string in rret (fst s, t)
    else if id =? 2 then let? v := read_int 4 in rret (app_kind v, snd s)
    else let? _ := skip ty in rret s) s (encode (TVStruct fs) ++ r) = (inl (fold_left f fs s), r)).
  { intros s. apply fields_ok. eapply Forall_impl; [|exact F]. intros [id v] [R T]. cbn [fst snd] in *. split; [assumption|]. intros s' r'.
    unfold f. cbn [fst snd]. destruct (Z.eqb_spec id 1) as [->|N1].
    - destruct T as (t & -> & C). erewrite bind_ok by (apply read_string_ok; assumption). reflexivity.
    - destruct (Z.eqb_spec id 2) as [->|N2].
      + destruct T as (c & -> & C). cbn [encode]. erewrite bind_ok by (apply read_int_4; assumption). reflexivity.
      + rewrite skip_bind by assumption. destruct s'. reflexivity. }
  assert (P : forall l s, Forall typed_exception_field l -> fold_left f l s =
    (match fold_left (keep (fun x => if fst x =? 2 then get_i32 (snd x) else None)) l None with Some v => app_kind v | None => fst s end,
     match fold_left (keep (fun x => if fst x =? 1 then get_bin (snd x) else None)) l None with Some v => v | None => snd s end)).
  { induction l as [|x l IH] using rev_ind; intros s Fl; [destruct s; reflexivity|]. apply Forall_app in Fl. destruct Fl as [Fl Fx].
    rewrite !fold_left_app. cbn [fold_left]. rewrite (IH s Fl). 
    generalize (fold_left (keep (fun x => if fst x =? 2 then get_i32 (snd x) else None)) l None) (fold_left (keep (fun x => if fst x =? 1 then get_bin (snd x) else None)) l None).
    intros A B. clear. unfold f, keep. cbn [fst snd].
    destruct (fst x =? 2), (fst x =? 1), (get_i32 (snd x)), (get_bin (snd x)); reflexivity. }
  unfold read_application_error. rewrite E, (P _ _ F). cbn [fst snd].
  rewrite (fold_last Z TVI32); [|reflexivity|eapply Forall_impl; [|exact F]; intros [id v] [R T] X; cbn [fst snd] in *; subst id; cbn in T; destruct T as (c & -> & _); eauto].
  rewrite (fold_last _ TVBin); [|reflexivity|eapply Forall_impl; [|exact F]; intros [id v] [R T] X; cbn [fst snd] in *; subst id; cbn in T; destruct T as (c & -> & _); eauto].
  eexists _, _. split; [reflexivity|]. unfold exception_in. unfold get_i32, get_bin, app_kind, app_unknown, general_remote_error. f_equal.
  - destruct (last_field 2 fs) as [[]|]; reflexivity.
  - destruct (last_field 1 fs) as [[]|]; reflexivity.
Qed.

(** headers *)
Definition header_of (hd : list Z -> Z -> Z -> list Z) (name : list Z) : Prop :=
  hd = plain_header /\ Z.of_nat (length name) < 2 ^ 27 \/ hd = strict_header /\ Z.of_nat (length name) < 2 ^ 31.
Lemma int_be4 : forall v, 0 <= v < 2 ^ 27 -> exists a b c d, int_be 4 v = [a; b; c; d] /\ a < 8 /\
  fold_left (fun a x => a * 256 + x) [a; b; c; d] 0 = v.
Proof.
  intros v V. rewrite int_be_bytes. cbn [be_bytes]. eexists _, _, _, _. split; [reflexivity|]. split.
  - change (2 ^ (8 * Z.of_nat 3)) with (2 ^ 24). rewrite Z.mod_small.
    + apply Z.div_lt_upper_bound; [reflexivity|]. change (2 ^ 24 * 8) with (2 ^ 27). lia.
    + split; [apply Z.div_pos; [lia|reflexivity]|]. apply Z.div_lt_upper_bound; [reflexivity|]. change (2 ^ 24 * 256) with (2 ^ 32). lia.
  - pose proof (be_val_be_bytes 4 v) as E. unfold be_val in E. cbn [be_bytes] in E. rewrite E. apply Z.mod_small. change (256 ^ Z.of_nat 4) with (2 ^ 32). lia.
Qed.
Lemma header_ok : forall hd name kind seq r, header_of hd name -> is_text name -> 1 <= kind <= 4 -> int_range 32 seq ->
  read_message_begin (hd name kind seq ++ r) = (inl (mkMsg name kind seq), r).
Proof.
  intros hd name kind seq r [[-> L]|[-> L]] T K S; unfold read_message_begin.
  - unfold plain_header. rewrite <- !app_assoc. rewrite (bind_ok _ _ _ _ _ _ _ (read_n_int 4 _ _)).
    destruct (int_be4 (Z.of_nat (length name)) ltac:(lia)) as (a & b & c & d & -> & A & V). cbn [nth].
    destruct (Z.geb_spec a 8); [lia|]. rewrite V, Nat2Z.id. rewrite (bind_ok _ _ _ _ _ _ _ (read_n_app name _)).
    apply utf8_iff in T. rewrite T. cbn [app]. rewrite (bind_ok _ _ _ _ _ _ _ (read_byte_ok _ _)). unfold message_type.
    replace ((1 <=? kind) && (kind <=? 4)) with true by lia.
    rewrite !rbind_rret. rewrite (bind_ok _ _ _ _ _ _ _ (read_int_4 seq r S)). reflexivity.
  - unfold strict_header. cbn [app].
    change (rbind (read_n 4) ?f (128 :: 1 :: 0 :: kind :: ?l)) with (f [128; 1; 0; kind] l). cbn [nth].
    change (128 >=? 8) with true. change ((128 =? 0x80) && (1 =? 1)) with true. cbn iota. unfold message_type.
    replace ((1 <=? kind) && (kind <=? 4)) with true by lia. rewrite !rbind_rret.
    replace ((int_be 4 (Z.of_nat (length name)) ++ name ++ int_be 4 seq) ++ r) with (encode (TVBin name) ++ int_be 4 seq ++ r) by (cbn [encode]; rewrite <- !app_assoc; reflexivity).
    rewrite (bind_ok _ _ _ _ _ _ _ (read_string_ok name _ (conj T L))). rewrite (bind_ok _ _ _ _ _ _ _ (read_int_4 seq r S)). reflexivity.
Qed.
Lemma method_text : forall s, is_text (method s).
Proof. intros s. apply utf8_iff. destruct s; reflexivity. Qed.
Lemma method_header : forall hd s, header_form hd -> header_of hd (method s).
Proof. intros hd s [->| ->]; [left|right]; (split; [reflexivity|]); destruct s; reflexivity. Qed.

(** the client *)
Lemma recv_result : forall hd s seq fs r, header_form hd -> int_range 32 seq -> Forall typed_result_field fs ->
  fst (client_recv seq s (hd (method s) 2 seq ++ encode (TVStruct fs) ++ r)) = result_in s fs /\
  (forall st, result_in s fs = inl st -> snd (client_recv seq s (hd (method s) 2 seq ++ encode (TVStruct fs) ++ r)) = r).
Proof.
  intros hd s seq fs r HF S F. unfold client_recv.
  rewrite (bind_ok _ _ _ _ _ _ _ (header_ok hd (method s) 2 seq _ (method_header hd s HF) (method_text s) ltac:(lia) S)). cbn [msg_seq msg_name msg_type].
  unfold verify_sequence_number. rewrite Z.eqb_refl. unfold verify_service_call. change (service_name s) with (method s). rewrite str_eqb_refl.
  change (2 =? msg_exception) with false. change (verify_message_type msg_reply 2) with (@rret unit tt).
  apply result_ok. assumption.
Qed.
Lemma recv_exception : forall hd s seq fs r, header_form hd -> int_range 32 seq -> Forall typed_exception_field fs ->
  client_recv seq s (hd (method s) 3 seq ++ encode (TVStruct fs) ++ r) = (inr (exception_in fs), r).
Proof.
  intros hd s seq fs r HF S F. unfold client_recv.
  rewrite (bind_ok _ _ _ _ _ _ _ (header_ok hd (method s) 3 seq _ (method_header hd s HF) (method_text s) ltac:(lia) S)). cbn [msg_seq msg_name msg_type].
  unfold verify_sequence_number. rewrite Z.eqb_refl. unfold verify_service_call. change (service_name s) with (method s). rewrite str_eqb_refl.
  destruct (exception_ok fs r F) as (k & t & E & ->).
  rewrite !rbind_rret. change (3 =? msg_exception) with true. cbn iota.
  rewrite (bind_ok _ _ _ _ _ _ _ E). reflexivity.
Qed.
(** Any header: what the client checks first. *)
Lemma recv_header : forall hd name kind seq' s seq r, header_of hd name -> is_text name -> 1 <= kind <= 4 -> int_range 32 seq' ->
  (seq' <> seq -> client_recv seq s (hd name kind seq' ++ r) = (inr (TApplication 4 None), r)) /\
  (seq' = seq -> name <> method s -> client_recv seq s (hd name kind seq' ++ r) = (inr (TApplication 3 None), r)) /\
  (seq' = seq -> name = method s -> kind <> 2 -> kind <> 3 -> client_recv seq s (hd name kind seq' ++ r) = (inr (TApplication 2 None), r)).
Proof.
  intros hd name kind seq' s seq r HF T K S. unfold client_recv.
  rewrite (bind_ok _ _ _ _ _ _ _ (header_ok hd name kind seq' _ HF T K S)). cbn [msg_seq msg_name msg_type].
  unfold verify_sequence_number, verify_service_call. change (service_name s) with (method s). split; [|split].
  - intros N. destruct (Z.eqb_spec seq' seq); [contradiction|]. reflexivity.
  - intros -> N. rewrite Z.eqb_refl. destruct (str_eqb name (method s)) eqn:E; [apply str_eqb_eq in E; contradiction|]. reflexivity.
  - intros -> -> N2 N3. rewrite Z.eqb_refl, str_eqb_refl. unfold verify_message_type, msg_exception, msg_reply.
    rewrite !rbind_rret.
    destruct (Z.eqb_spec kind 3); [contradiction|]. destruct (Z.eqb_spec kind 2); [contradiction|]. reflexivity.
Qed.

(** the processor: arguments *)
Lemma text_args_ok : forall fs r, Forall typed_text_field fs ->
  read_text_args (encode (TVStruct fs) ++ r) = (match last_field 1 fs with Some (TVBin t) => inl t | _ => inr TProtocol end, r).
Proof.
  intros fs r F. unfold read_text_args.
  erewrite bind_ok by (apply (fields_ok _ _ (keep (fun x => if fst x =? 1 then get_bin (snd x) else None))); eapply Forall_impl; [|exact F];
    intros [id v] [R T]; cbn [fst snd] in *; split; [assumption|]; intros s' r'; unfold keep; cbn [fst snd]; destruct (Z.eqb_spec id 1) as [->|N1];
    [destruct T as (t & -> & C); erewrite bind_ok by (apply read_string_ok; assumption); reflexivity|rewrite skip_bind by assumption; reflexivity]).
  rewrite (fold_last _ TVBin); [|reflexivity|eapply Forall_impl; [|exact F]; intros [id v] [R T] X; cbn [fst snd] in *; subst id; cbn in T; destruct T as (c & -> & _); eauto].
  destruct (last_field 1 fs) as [[]|]; reflexivity.
Qed.
Lemma data_args_ok : forall fs r, Forall typed_data_field fs ->
  read_data_args (encode (TVStruct fs) ++ r) = (match last_field 1 fs with Some (TVBin t) => inl t | _ => inr TProtocol end, r).
Proof.
  intros fs r F. unfold read_data_args.
  erewrite bind_ok by (apply (fields_ok _ _ (keep (fun x => if fst x =? 1 then get_bin (snd x) else None))); eapply Forall_impl; [|exact F];
    intros [id v] [R T]; cbn [fst snd] in *; split; [assumption|]; intros s' r'; unfold keep; cbn [fst snd]; destruct (Z.eqb_spec id 1) as [->|N1];
    [destruct T as (t & -> & C); erewrite bind_ok by (apply read_bytes_ok; assumption); reflexivity|rewrite skip_bind by assumption; reflexivity]).
  rewrite (fold_last _ TVBin); [|reflexivity|eapply Forall_impl; [|exact F]; intros [id v] [R T] X; cbn [fst snd] in *; subst id; cbn in T; destruct T as (c & -> & _); eauto].
  destruct (last_field 1 fs) as [[]|]; reflexivity.
Qed.
Lemma no_args_ok : forall fs r, Forall any_field fs -> read_no_args (encode (TVStruct fs) ++ r) = (inl tt, r).
Proof.
  intros fs r F. unfold read_no_args. rewrite (fields_ok unit _ (fun s _ => s)).
  - destruct (fold_left _ fs tt). reflexivity.
  - eapply Forall_impl; [|exact F]. intros [id v] [R T]. split; [assumption|]. intros s' r'. cbn [fst snd] in *. apply skip_bind. assumption.
Qed.
Definition get_i64 (v : tvalue) : option Z := match v with TVI64 c => Some c | _ => None end.
Lemma info_ok : forall fs r, Forall typed_info_field fs -> read_info (encode (TVStruct fs) ++ r) = (inl (info_in fs), r).
Proof.
  intros fs r F. unfold read_info.
  pose (kt := fun id => keep (fun x : Z * tvalue => if fst x =? id then get_bin (snd x) else None)).
  pose (f := fun s (x : Z * tvalue) => mkInfo (kt 1 (ci_address s) x) (kt 2 (ci_uuid s) x)
    (keep (fun x => if fst x =? 3 then get_i64 (snd x) else None) (ci_interval s) x) (kt 4 (ci_version s) x)).
  rewrite (fields_ok _ _ f).
  - f_equal. f_equal.
    assert (P : forall l s, fold_left f l s = mkInfo (fold_left (kt 1) l (ci_address s)) (fold_left (kt 2) l (ci_uuid s))
      (fold_left (keep (fun x => if fst x =? 3 then get_i64 (snd x) else None)) l (ci_interval s)) (fold_left (kt 4) l (ci_version s))).
    { induction l as [|x l IH]; intros s; [destruct s; reflexivity|]. cbn [fold_left]. rewrite IH. reflexivity. }
    rewrite P. cbn [ci_address ci_uuid ci_interval ci_version]. unfold kt, info_in.
    rewrite !(fold_last _ TVBin), (fold_last _ TVI64); try reflexivity;
      try (eapply Forall_impl; [|exact F]; intros [id v] [R T] X; cbn [fst snd] in *; subst id; cbn in T; destruct T as (c & -> & _); eauto).
    f_equal; match goal with |- context[last_field ?i fs] => destruct (last_field i fs) as [v|] eqn:L; [|reflexivity] end;
      apply last_field_in in L; rewrite Forall_forall in F; destruct (F _ L) as [_ T]; cbn in T; destruct T as (c & -> & _); reflexivity.
  - eapply Forall_impl; [|exact F]. intros [id v] [R T]. cbn [fst snd] in *. split; [assumption|]. intros s r'. unfold f, kt, keep. cbn [fst snd].
    destruct (Z.eqb_spec id 1) as [->|N1]; [cbn in T; destruct T as (t & -> & C); erewrite bind_ok by (apply read_string_ok; assumption); reflexivity|].
    destruct (Z.eqb_spec id 2) as [->|N2]; [cbn in T; destruct T as (t & -> & C); erewrite bind_ok by (apply read_string_ok; assumption); reflexivity|].
    destruct (Z.eqb_spec id 3) as [->|N3]; [cbn in T; destruct T as (t & -> & C); cbn [encode]; erewrite bind_ok by (apply read_int_8; assumption); reflexivity|].
    destruct (Z.eqb_spec id 4) as [->|N4]; [cbn in T; destruct T as (t & -> & C); erewrite bind_ok by (apply read_string_ok; assumption); reflexivity|].
    cbn [orb] in T. rewrite skip_bind by assumption. destruct s. reflexivity.
Qed.
Definition get_info (v : tvalue) : option confirm_info := match v with TVStruct fs => Some (info_in fs) | _ => None end.
Lemma check_args_ok : forall fs r, typed_arguments SCheck fs ->
  read_check_args (encode (TVStruct fs) ++ r) = (match rev fs with (_, TVStruct fs') :: _ => inl (info_in fs') | _ => inr TProtocol end, r).
Proof.
  intros fs r F. cbn [typed_arguments] in F. unfold read_check_args.
  erewrite bind_ok by (apply (fields_ok _ _ (keep (fun x => get_info (snd x)))); eapply Forall_impl; [|exact F];
    intros [id v] [R (fs' & E & T)]; cbn [fst snd] in *; split; [assumption|]; intros s' r'; subst v; unfold keep; cbn [fst snd get_info];
    erewrite bind_ok by (apply info_ok; assumption); reflexivity).
  rewrite fold_keep. destruct (rev fs) as [|[id v] l] eqn:E; [reflexivity|].
  assert (I : In (id, v) fs) by (apply in_rev; rewrite E; left; reflexivity). rewrite Forall_forall in F. destruct (F _ I) as [_ (fs' & V & _)].
  cbn [snd] in V. subst v. reflexivity.
Qed.
Lemma args_ok : forall s fs r, typed_arguments s fs ->
  read_args s (encode (TVStruct fs) ++ r) = (match call_in s fs with Some c => inl c | None => inr TProtocol end, r).
Proof.
  intros s fs r T. unfold read_args, call_in. cbv zeta. destruct s; cbn [typed_arguments] in T; unfold rbind.
  - rewrite check_args_ok by assumption. destruct (rev fs) as [|[? []] ?]; reflexivity.
  - rewrite no_args_ok by assumption. reflexivity.
  - rewrite text_args_ok by assumption. destruct (last_field 1 fs) as [[]|]; reflexivity.
  - rewrite text_args_ok by assumption. destruct (last_field 1 fs) as [[]|]; reflexivity.
  - rewrite text_args_ok by assumption. destruct (last_field 1 fs) as [[]|]; reflexivity.
  - rewrite data_args_ok by assumption. destruct (last_field 1 fs) as [[]|]; reflexivity.
  - rewrite text_args_ok by assumption. destruct (last_field 1 fs) as [[]|]; reflexivity.
  - rewrite no_args_ok by assumption. reflexivity.
Qed.

(** the bytes written *)
Lemma enc_bin : forall b, encode (TVBin b) = write_bytes b.
Proof. intros. cbn [encode]. rewrite int_be_bytes. reflexivity. Qed.
Lemma plain_ok : forall name kind seq, write_message_begin (mkMsg name kind seq) = plain_header name kind seq.
Proof. intros. unfold write_message_begin, plain_header, write_bytes, write_i32. cbn [msg_name msg_type msg_seq]. rewrite !int_be_bytes, <- !app_assoc. reflexivity. Qed.
Lemma info_bytes : forall i, encode (info_value i) = write_info i.
Proof.
  intros i. unfold info_value, write_info. cbn [encode]. rewrite !flat_map_app.
  rewrite <- !app_assoc. unfold opt_field, write_field_begin.
  destruct (ci_address i), (ci_uuid i), (ci_interval i), (ci_version i); cbn [flat_map fst snd type_of app];
    rewrite ?enc_bin; cbn [encode]; rewrite ?int_be_bytes, ?app_nil_r, <- ?app_assoc; reflexivity.
Qed.
Lemma send_ok : forall seq c, client_send seq c = request_message seq c.
Proof.
  intros seq c. unfold client_send, request_message. rewrite plain_ok. rewrite service_of_ok.
  change (service_name (method_of c)) with (method (method_of c)). f_equal.
  destruct c; cbn [write_args arguments]; try reflexivity;
    unfold write_check_args, write_text_args, write_field_begin, write_field_stop;
    cbn [encode flat_map fst snd]; rewrite ?app_nil_r, ?int_be_bytes; cbn [type_of app]; rewrite <- ?app_assoc.
  - change (encode (TVStruct ?x)) with (encode (TVStruct x)). rewrite <- info_bytes. reflexivity.
  - change (int_be 4 (Z.of_nat (length ?b)) ++ ?b) with (encode (TVBin b)). unfold write_bytes, zlen. rewrite <- !app_assoc. reflexivity.
  - unfold write_bytes, zlen. rewrite <- !app_assoc. reflexivity.
  - unfold write_bytes, zlen. rewrite <- !app_assoc. reflexivity.
  - unfold write_bytes, zlen. rewrite <- !app_assoc. reflexivity.
  - unfold write_bytes, zlen. rewrite <- !app_assoc. reflexivity.
Qed.
Lemma result_bytes : forall s seq v, write_message_begin (mkMsg (service_name s) msg_reply seq) ++ write_result (Some v) = result_message s seq v.
Proof.
  intros. unfold result_message. rewrite plain_ok. change (service_name s) with (method s). f_equal.
  unfold write_result, write_status, status_value, write_field_begin, write_field_stop, write_bytes, write_i32, zlen.
  cbn [encode flat_map fst snd type_of]. rewrite !int_be_bytes, !app_nil_r. cbn [app]. rewrite <- !app_assoc. cbn [app]. rewrite <- ?app_assoc. reflexivity.
Qed.
Lemma exception_bytes : forall name seq k t, write_message_begin (mkMsg name msg_exception seq) ++ write_application_error k t = exception_message name seq k t.
Proof.
  intros. unfold exception_message. rewrite plain_ok. f_equal.
  unfold write_application_error, write_field_begin, write_field_stop, write_bytes, write_i32, zlen.
  cbn [encode flat_map fst snd type_of]. rewrite !int_be_bytes, !app_nil_r. cbn [app]. rewrite <- !app_assoc. cbn [app]. rewrite <- ?app_assoc. reflexivity.
Qed.

(** the processor *)
Lemma service_named_ok : forall s, service_named (method s) = Some s.
Proof. intros []; reflexivity. Qed.
Lemma service_named_none : forall n, (forall s, n <> method s) -> service_named n = None.
Proof.
  intros n N. unfold service_named, all_services. cbn [find].
  repeat match goal with |- context[str_eqb n (service_name ?s)] => change (service_name s) with (method s); rewrite (str_eqb_neq n (method s) (N s)) end. reflexivity.
Qed.

Section Process.
Variables (display debug : thrift_error -> list Z) (h : handler).
Lemma process_known : forall hd s kind seq fs r, header_form hd -> 1 <= kind <= 4 -> int_range 32 seq -> typed_arguments s fs ->
  process display debug h (hd (method s) kind seq ++ encode (TVStruct fs) ++ r) =
  (match call_in s fs with
   | Some c => reply_bytes display s seq (h c)
   | None => exception_message (method s) seq 0 (debug TProtocol)
   end, inl tt, r).
Proof.
  intros hd s kind seq fs r HF K S T. unfold process.
  rewrite (header_ok hd (method s) kind seq _ (method_header hd s HF) (method_text s) K S). cbn [msg_name msg_seq].
  rewrite service_named_ok. unfold process_call. rewrite args_ok by assumption.
  destruct (call_in s fs) as [c|]; [reflexivity|]. rewrite <- exception_bytes. reflexivity.
Qed.
Lemma process_unknown : forall hd name kind seq r, header_of hd name -> is_text name -> 1 <= kind <= 4 -> int_range 32 seq ->
  (forall s, name <> method s) ->
  process display debug h (hd name kind seq ++ r) =
  (exception_message name seq 1 ([117; 110; 107; 110; 111; 119; 110; 32; 109; 101; 116; 104; 111; 100; 32] ++ name), inl tt, r).
Proof.
  intros hd name kind seq r HF T K S N. unfold process. rewrite (header_ok hd name kind seq _ HF T K S). cbn [msg_name msg_seq].
  rewrite service_named_none by assumption. rewrite <- exception_bytes. reflexivity.
Qed.
End Process.
Lemma answer_ok : forall display s seq a, valid_answer display a -> reply_bytes display s seq a = answer_message display s seq a.
Proof.
  intros display s seq a V. unfold reply_bytes, answer_message. destruct a as [v|e].
  - apply result_bytes.
  - change (service_name s) with (method s).
    destruct e as [k [t|]| | |t]; cbn [valid_answer] in V; try contradiction; rewrite exception_bytes; reflexivity.
Qed.

(** one call from end to end *)
Lemma or_default_field : forall (t : option (list Z)) id, (match (match opt_field id TVBin t with [] => None | f :: _ => Some (snd f) end) with Some (TVBin x) => Some x | _ => Some [] end) = or_default [] t.
Proof. intros [t|] id; reflexivity. Qed.
Lemma last_info : forall i, info_in (opt_field 1 TVBin (ci_address i) ++ opt_field 2 TVBin (ci_uuid i) ++
            opt_field 3 TVI64 (ci_interval i) ++ opt_field 4 TVBin (ci_version i)) =
  mkInfo (or_default [] (ci_address i)) (or_default [] (ci_uuid i)) (or_default 0 (ci_interval i)) (or_default [] (ci_version i)).
Proof. intros [[a|] [u|] [n|] [v|]]; reflexivity. Qed.
Lemma arguments_typed : forall c, valid_call c -> typed_arguments (method_of c) (arguments c) /\ call_in (method_of c) (arguments c) = Some (as_delivered c).
Proof.
  assert (R1 : int_range 16 1) by (unfold int_range; lia).
  intros c V. destruct c; cbn [valid_call method_of typed_arguments arguments as_delivered] in *.
  - split; [|unfold info_value; cbn [call_in rev app]; rewrite last_info; reflexivity].
    destruct V as (A & U & I & W). repeat constructor; try (cbn; lia). exists (match info_value info with TVStruct fs => fs | _ => [] end). split; [reflexivity|].
    unfold info_value. rewrite !Forall_app.
    destruct (ci_address info), (ci_uuid info), (ci_interval info), (ci_version info); cbn [opt_ok opt_field] in *;
      (repeat split); repeat constructor; cbn [fst snd]; try lia; try (unfold typed_info_field; cbn [fst snd Z.eqb Pos.eqb orb]; split; [unfold int_range; lia|eauto]);
      try (cbn; eauto).
  - split; [constructor|reflexivity].
  - split; [|reflexivity]. repeat constructor; cbn [fst snd]; try lia. cbn. eauto.
  - split; [|reflexivity]. repeat constructor; cbn [fst snd]; try lia. cbn. eauto.
  - split; [|reflexivity]. repeat constructor; cbn [fst snd]; try lia. cbn. eauto.
  - split; [|reflexivity]. repeat constructor; cbn [fst snd]; try lia. cbn. eauto.
  - split; [|reflexivity]. repeat constructor; cbn [fst snd]; try lia. cbn. eauto.
  - split; [constructor|reflexivity].
Qed.
Lemma recv_answer : forall display s seq a r, int_range 32 seq -> valid_answer display a ->
  client_recv seq s (answer_message display s seq a ++ r) = (received display a, r).
Proof.
  intros display s seq a r S V. unfold answer_message.
  assert (EX : forall k t, 0 <= k <= 10 -> text t -> client_recv seq s (exception_message (method s) seq k t ++ r) = (inr (TApplication k (Some t)), r)).
  { intros k t K T. unfold exception_message. rewrite <- app_assoc.
    rewrite (recv_exception plain_header s seq _ r (or_introl eq_refl) S).
    - unfold exception_in. cbn. replace ((0 <=? k) && (k <=? 10)) with true by lia. reflexivity.
    - repeat constructor; cbn [fst snd]; try lia; cbn; [eauto|]. exists k. split; [reflexivity|]. unfold int_range. cbn. lia. }
  destruct a as [v|e].
  - cbn [received]. unfold result_message. rewrite <- app_assoc. destruct V as [VC VT].
    assert (F : Forall typed_result_field [(0, status_value v)]).
    { repeat constructor; cbn [fst snd]; try (unfold int_range; lia). cbn. eexists. split; [reflexivity|].
      repeat constructor; cbn [fst snd]; try (unfold int_range; lia); cbn; eauto. }
    destruct (recv_result plain_header s seq _ r (or_introl eq_refl) S F) as [A B].
    assert (E : result_in s [(0, status_value v)] = inl v) by (destruct v; reflexivity).
    rewrite E in A. specialize (B v E). destruct (client_recv seq s _) as [x y]. cbn [fst snd] in *. subst. reflexivity.
  - destruct e as [k [t|]| | |t]; cbn [valid_answer received] in *; try contradiction; apply EX; tauto || lia || assumption.
Qed.
Lemma call_ok : forall display debug h seq c r r', int_range 32 seq -> valid_call c -> valid_answer display (h (as_delivered c)) ->
  exists out, process display debug h (client_send seq c ++ r) = (out, inl tt, r) /\
    client_recv seq (service_of c) (out ++ r') = (received display (h (as_delivered c)), r').
Proof.
  intros display debug h seq c r r' S V A. destruct (arguments_typed c V) as [T C].
  rewrite send_ok. unfold request_message. rewrite <- app_assoc.
  rewrite (process_known display debug h plain_header _ 1 seq _ r (or_introl eq_refl) ltac:(lia) S T), C.
  eexists. split; [reflexivity|]. rewrite answer_ok by assumption. rewrite service_of_ok. apply recv_answer; assumption.
Qed.

(** sessions *)
Section Session.
Variables (p : profile) (display debug : thrift_error -> list Z) (H : remote_handler).
Hypothesis HA : forall seen c, valid_answer display (H seen c).
Lemma over_wire_gen : forall seq seq' seen c, increment_sequence_number p seq = Ret seq' -> int_range 32 seq' -> valid_call c ->
  over_wire p display debug H (mkConn seq [] [] seen) c =
  Ret (received display (H seen (as_delivered c)), mkConn seq' [] [] (seen ++ [as_delivered c])).
Proof.
  intros seq seq' seen c I SR V. unfold over_wire. cbn [cn_seq cn_server cn_client cn_seen app].
  rewrite I. cbn [bind].
  destruct (arguments_typed c V) as [T C].
  destruct (call_ok display debug (H seen) seq' c [] [] SR V (HA _ _)) as (out & P & R). rewrite !app_nil_r in P, R. rewrite P, R.
  do 3 f_equal.
  rewrite send_ok. unfold request_message.
  rewrite (header_ok plain_header (method (method_of c)) 1 seq' _ (method_header _ _ (or_introl eq_refl)) (method_text _) ltac:(lia) SR). cbn [msg_name].
  rewrite service_named_ok. rewrite <- (app_nil_r (encode _)), args_ok by assumption. rewrite C. reflexivity.
Qed.
Lemma over_wire_ok : forall seq seen c, 0 <= seq < 2 ^ 31 - 1 -> valid_call c ->
  over_wire p display debug H (mkConn seq [] [] seen) c =
  Ret (received display (H seen (as_delivered c)), mkConn (seq + 1) [] [] (seen ++ [as_delivered c])).
Proof.
  intros seq seen c S V. apply over_wire_gen; [|unfold int_range; cbn; lia|assumption].
  unfold increment_sequence_number. apply arithS_ok. cbn. lia.
Qed.
Lemma calls_ok : forall cs seq seen, 0 <= seq -> seq + Z.of_nat (length cs) < 2 ^ 31 -> Forall valid_call cs ->
  calls_over_wire p display debug H (mkConn seq [] [] seen) cs =
  Ret (calls_direct display H seen cs, mkConn (seq + Z.of_nat (length cs)) [] [] (seen ++ map as_delivered cs)).
Proof.
  induction cs as [|c cs IH]; intros seq seen S L F.
  - cbn [calls_over_wire calls_direct length map]. rewrite Z.add_0_r, app_nil_r. reflexivity.
  - inversion F as [|? ? V F']; subst. cbn [length] in L. cbn [calls_over_wire calls_direct length map].
    rewrite over_wire_ok by (auto; lia). cbn [bind fst snd]. rewrite IH by (auto; lia). cbn [bind fst snd].
    rewrite <- app_assoc. cbn [app]. do 3 f_equal. lia.
Qed.
Lemma delivered_call_of : forall rq, as_delivered (call_of rq) = call_of rq.
Proof. intros []; reflexivity. Qed.
Lemma direct_last : forall cs c seen d, last (calls_direct display H seen (cs ++ [c])) d = received display (H (seen ++ map as_delivered cs) (as_delivered c)).
Proof.
  induction cs as [|x cs IH]; intros c seen d; cbn [app calls_direct map].
  - rewrite app_nil_r. reflexivity.
  - transitivity (last (calls_direct display H (seen ++ [as_delivered x]) (cs ++ [c])) d).
    + destruct (calls_direct display H (seen ++ [as_delivered x]) (cs ++ [c])) eqn:E; [|reflexivity]. destruct cs; discriminate E.
    + rewrite IH, <- app_assoc. reflexivity.
Qed.
Lemma reply_received : forall a, reply_of (received display a) = reply_of a.
Proof. intros [s|[]]; reflexivity. Qed.
Lemma wire_direct : forall tr rq, Z.of_nat (length tr) < 2 ^ 31 - 1 -> Forall (fun rq => valid_call (call_of rq)) (tr ++ [rq]) ->
  wire_server p display debug H tr rq = direct_server H tr rq.
Proof.
  intros tr rq L F. unfold wire_server, direct_server. unfold connected.
  rewrite calls_ok; [|lia|rewrite map_length, app_length; cbn; lia|apply Forall_map; assumption].
  rewrite map_app. cbn [map]. rewrite direct_last, reply_received, delivered_call_of. cbn [app]. do 2 f_equal.
  rewrite map_map. apply map_ext, delivered_call_of.
Qed.
End Session.
