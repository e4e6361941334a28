(** Specification side of the Thrift service: the binary protocol as values and their encoding, the messages of
    the service as tables, and what the two ends make of them. *)
From Verif Require Export SFormat SFfi SSync MThrift.

(** Big-endian integers of [n] bytes: the base-256 digits, least significant last. *)
Fixpoint digits_le (n : nat) (v : Z) : list Z :=
  match n with O => [] | S k => v mod 256 :: digits_le k (v / 256) end.
Definition int_be (n : nat) (v : Z) : list Z := rev (digits_le n v).
Definition int_range (n v : Z) : Prop := - 2 ^ (n - 1) <= v < 2 ^ (n - 1).

(** Values of the binary protocol. *)
Inductive tvalue :=
  | TVBool (b : bool) | TVByte (v : Z) | TVDouble (bits : Z) | TVI16 (v : Z) | TVI32 (v : Z) | TVI64 (v : Z)
  | TVBin (b : list Z)
  | TVStruct (fs : list (Z * tvalue))
  | TVMap (kt vt : Z) (kvs : list (tvalue * tvalue))
  | TVSet (et : Z) (vs : list tvalue)
  | TVList (et : Z) (vs : list tvalue).
Definition type_of (v : tvalue) : Z :=
  match v with
  | TVBool _ => 2 | TVByte _ => 3 | TVDouble _ => 4 | TVI16 _ => 6 | TVI32 _ => 8 | TVI64 _ => 10 | TVBin _ => 11
  | TVStruct _ => 12 | TVMap _ _ _ => 13 | TVSet _ _ => 14 | TVList _ _ => 15
  end.
Fixpoint encode (v : tvalue) : list Z :=
  match v with
  | TVBool b => [if b then 1 else 0]
  | TVByte v => int_be 1 v
  | TVDouble bits => int_be 8 bits
  | TVI16 v => int_be 2 v
  | TVI32 v => int_be 4 v
  | TVI64 v => int_be 8 v
  | TVBin b => int_be 4 (Z.of_nat (length b)) ++ b
  | TVStruct fs => flat_map (fun f => type_of (snd f) :: int_be 2 (fst f) ++ encode (snd f)) fs ++ [0]
  | TVMap kt vt kvs => [kt; vt] ++ int_be 4 (Z.of_nat (length kvs)) ++ flat_map (fun kv => encode (fst kv) ++ encode (snd kv)) kvs
  | TVSet et vs | TVList et vs => et :: int_be 4 (Z.of_nat (length vs)) ++ flat_map encode vs
  end.
Definition value_types : list Z := [2; 3; 4; 6; 8; 10; 11; 12; 13; 14; 15].

(** Text a string field can carry. *)
Definition text (l : list Z) : Prop := is_text l /\ Z.of_nat (length l) < 2 ^ 31.

(** Values a reader can skip: well-formed, strings are text, at most [d] levels. *)
Inductive skippable : nat -> tvalue -> Prop :=
  | SkBool : forall d b, skippable (S d) (TVBool b)
  | SkByte : forall d v, skippable (S d) (TVByte v)
  | SkDouble : forall d v, skippable (S d) (TVDouble v)
  | SkI16 : forall d v, skippable (S d) (TVI16 v)
  | SkI32 : forall d v, skippable (S d) (TVI32 v)
  | SkI64 : forall d v, skippable (S d) (TVI64 v)
  | SkText : forall d b, text b -> skippable (S d) (TVBin b)
  | SkStruct : forall d fs, Forall (fun f => int_range 16 (fst f) /\ skippable d (snd f)) fs -> skippable (S d) (TVStruct fs)
  | SkMap : forall d kt vt kvs, In kt value_types -> In vt value_types -> Z.of_nat (length kvs) < 2 ^ 31 ->
      Forall (fun kv => type_of (fst kv) = kt /\ type_of (snd kv) = vt /\ skippable d (fst kv) /\ skippable d (snd kv)) kvs ->
      skippable (S d) (TVMap kt vt kvs)
  | SkSet : forall d et vs, In et value_types -> Z.of_nat (length vs) < 2 ^ 31 ->
      Forall (fun v => type_of v = et /\ skippable d v) vs -> skippable (S d) (TVSet et vs)
  | SkList : forall d et vs, In et value_types -> Z.of_nat (length vs) < 2 ^ 31 ->
      Forall (fun v => type_of v = et /\ skippable d v) vs -> skippable (S d) (TVList et vs).

(** Messages: the plain form and the form with a version. *)
Definition plain_header (name : list Z) (kind seq : Z) : list Z :=
  int_be 4 (Z.of_nat (length name)) ++ name ++ [kind] ++ int_be 4 seq.
Definition strict_header (name : list Z) (kind seq : Z) : list Z :=
  [128; 1; 0; kind] ++ int_be 4 (Z.of_nat (length name)) ++ name ++ int_be 4 seq.
Definition header_form (hd : list Z -> Z -> Z -> list Z) : Prop := hd = plain_header \/ hd = strict_header.

(** The service: the name and the arguments of each call. *)
Definition method (s : service) : list Z :=
  match s with
  | SCheck => [99; 104; 101; 99; 107]
  | SStartSync => [115; 116; 97; 114; 116; 83; 121; 110; 99]
  | SInit => [105; 110; 105; 116]
  | SSyncDeletedFileName => [115; 121; 110; 99; 68; 101; 108; 101; 116; 101; 100; 70; 105; 108; 101; 78; 97; 109; 101]
  | SInitSyncData => [105; 110; 105; 116; 83; 121; 110; 99; 68; 97; 116; 97]
  | SSyncData => [115; 121; 110; 99; 68; 97; 116; 97]
  | SCheckDataDigest => [99; 104; 101; 99; 107; 68; 97; 116; 97; 68; 105; 103; 101; 115; 116]
  | SEndSync => [101; 110; 100; 83; 121; 110; 99]
  end.
Definition method_of (c : call) : service :=
  match c with
  | CCheck _ => SCheck | CStartSync => SStartSync | CInit _ => SInit | CSyncDeletedFileName _ => SSyncDeletedFileName
  | CInitSyncData _ => SInitSyncData | CSyncData _ => SSyncData | CCheckDataDigest _ => SCheckDataDigest | CEndSync => SEndSync
  end.
Definition opt_field {A} (id : Z) (v : A -> tvalue) (o : option A) : list (Z * tvalue) :=
  match o with Some a => [(id, v a)] | None => [] end.
Definition info_value (i : confirm_info) : tvalue :=
  TVStruct (opt_field 1 TVBin (ci_address i) ++ opt_field 2 TVBin (ci_uuid i) ++
            opt_field 3 TVI64 (ci_interval i) ++ opt_field 4 TVBin (ci_version i)).
Definition arguments (c : call) : list (Z * tvalue) :=
  match c with
  | CCheck i => [(-1, info_value i)]
  | CStartSync | CEndSync => []
  | CInit t | CSyncDeletedFileName t | CInitSyncData t | CSyncData t | CCheckDataDigest t => [(1, TVBin t)]
  end.
Definition status_value (s : sync_status) : tvalue := TVStruct [(1, TVI32 (st_code s)); (2, TVBin (st_msg s))].
Definition request_message (seq : Z) (c : call) : list Z :=
  plain_header (method (method_of c)) 1 seq ++ encode (TVStruct (arguments c)).
Definition result_message (s : service) (seq : Z) (v : sync_status) : list Z :=
  plain_header (method s) 2 seq ++ encode (TVStruct [(0, status_value v)]).
Definition exception_message (name : list Z) (seq kind : Z) (t : list Z) : list Z :=
  plain_header name 3 seq ++ encode (TVStruct [(1, TVBin t); (2, TVI32 kind)]).

(** Calls with arguments the Rust types and the protocol admit. *)
Definition opt_ok {A} (P : A -> Prop) (o : option A) : Prop := match o with Some a => P a | None => True end.
Definition valid_call (c : call) : Prop :=
  match c with
  | CCheck i => opt_ok text (ci_address i) /\ opt_ok text (ci_uuid i) /\ opt_ok (int_range 64) (ci_interval i) /\ opt_ok text (ci_version i)
  | CStartSync | CEndSync => True
  | CInit t | CSyncDeletedFileName t | CInitSyncData t | CCheckDataDigest t => text t
  | CSyncData b => Z.of_nat (length b) < 2 ^ 31
  end.
(** What the handler is given: fields of the handshake that are not sent become empty texts and 0. *)
Definition or_default {A} (d : A) (o : option A) : option A := match o with Some a => Some a | None => Some d end.
Definition as_delivered (c : call) : call :=
  match c with
  | CCheck i => CCheck (mkInfo (or_default [] (ci_address i)) (or_default [] (ci_uuid i)) (or_default 0 (ci_interval i)) (or_default [] (ci_version i)))
  | c => c
  end.
(** Answers of a handler that can be sent, and what the caller gets. *)
Definition valid_answer (display : thrift_error -> list Z) (a : sync_status + thrift_error) : Prop :=
  match a with
  | inl s => int_range 32 (st_code s) /\ text (st_msg s)
  | inr (TApplication k (Some t)) => 0 <= k <= 10 /\ text t
  | inr (TApplication _ None) => False
  | inr e => text (display e)
  end.
Definition received (display : thrift_error -> list Z) (a : sync_status + thrift_error) : sync_status + thrift_error :=
  match a with
  | inl s => inl s
  | inr (TApplication k t) => inr (TApplication k t)
  | inr e => inr (TApplication 0 (Some (display e)))
  end.

(** A reply with any fields: those with the known identifiers have the right type, the others can be skipped. *)
Definition typed_status_field (f : Z * tvalue) : Prop := int_range 16 (fst f) /\
  (if fst f =? 1 then exists c, snd f = TVI32 c /\ int_range 32 c
   else if fst f =? 2 then exists t, snd f = TVBin t /\ text t else skippable 64 (snd f)).
Definition typed_result_field (f : Z * tvalue) : Prop := int_range 16 (fst f) /\
  (if fst f =? 0 then exists fs, snd f = TVStruct fs /\ Forall typed_status_field fs else skippable 64 (snd f)).
Definition typed_exception_field (f : Z * tvalue) : Prop := int_range 16 (fst f) /\
  (if fst f =? 1 then exists t, snd f = TVBin t /\ text t
   else if fst f =? 2 then exists c, snd f = TVI32 c /\ int_range 32 c else skippable 64 (snd f)).
Definition typed_text_field (f : Z * tvalue) : Prop := int_range 16 (fst f) /\
  (if fst f =? 1 then exists t, snd f = TVBin t /\ text t else skippable 64 (snd f)).
Definition typed_data_field (f : Z * tvalue) : Prop := int_range 16 (fst f) /\
  (if fst f =? 1 then exists t, snd f = TVBin t /\ Z.of_nat (length t) < 2 ^ 31 else skippable 64 (snd f)).
Definition any_field (f : Z * tvalue) : Prop := int_range 16 (fst f) /\ skippable 64 (snd f).

(** The last field with an identifier counts. *)
Definition last_field (id : Z) (fs : list (Z * tvalue)) : option tvalue :=
  match filter (fun f => fst f =? id) (rev fs) with f :: _ => Some (snd f) | [] => None end.
Definition status_in (v : tvalue) : option sync_status :=
  match v with
  | TVStruct fs => match last_field 1 fs, last_field 2 fs with
                   | Some (TVI32 c), Some (TVBin t) => Some (mkStatus c t)
                   | _, _ => None
                   end
  | _ => None
  end.
(** Meaning of a reply: a status without code or text is an error, and so is a reply without status. *)
Definition capital (l : list Z) : list Z := match l with [] => [] | c :: t => (c - 32) :: t end.
Definition result_in (s : service) (fs : list (Z * tvalue)) : sync_status + thrift_error :=
  let answers := map snd (filter (fun f => fst f =? 0) fs) in
  if existsb (fun v => match status_in v with None => true | Some _ => false end) answers then inr TProtocol
  else match last_field 0 fs with
       | Some v => match status_in v with Some st => inl st | None => inr TProtocol end
       | None => inr (TApplication 5 (Some ([110; 111; 32; 114; 101; 115; 117; 108; 116; 32; 114; 101; 99; 101; 105; 118; 101; 100; 32; 102; 111; 114; 32;
                   83; 121; 110; 99; 83; 101; 114; 118; 105; 99; 101] ++ capital (method s))))
       end.
(** Meaning of an exception: kinds out of range and missing kinds are 0, a missing text is "general remote
    error". *)
Definition exception_in (fs : list (Z * tvalue)) : thrift_error :=
  TApplication
    (match last_field 2 fs with Some (TVI32 k) => if (0 <=? k) && (k <=? 10) then k else 0 | _ => 0 end)
    (Some (match last_field 1 fs with
           | Some (TVBin t) => t
           | _ => [103; 101; 110; 101; 114; 97; 108; 32; 114; 101; 109; 111; 116; 101; 32; 101; 114; 114; 111; 114]
           end)).

(** A request with any fields, and the call it stands for. The processor takes every field of a [check]
    for the handshake, whatever its identifier. *)
Definition typed_info_field (f : Z * tvalue) : Prop := int_range 16 (fst f) /\
  (if (fst f =? 1) || (fst f =? 2) || (fst f =? 4) then exists t, snd f = TVBin t /\ text t
   else if fst f =? 3 then exists v, snd f = TVI64 v /\ int_range 64 v else skippable 64 (snd f)).
Definition info_in (fs : list (Z * tvalue)) : confirm_info :=
  let t id := match last_field id fs with Some (TVBin t) => Some t | _ => Some [] end in
  mkInfo (t 1) (t 2) (match last_field 3 fs with Some (TVI64 v) => Some v | _ => Some 0 end) (t 4).
Definition typed_arguments (s : service) (fs : list (Z * tvalue)) : Prop :=
  match s with
  | SCheck => Forall (fun f => int_range 16 (fst f) /\ exists fs', snd f = TVStruct fs' /\ Forall typed_info_field fs') fs
  | SStartSync | SEndSync => Forall any_field fs
  | SSyncData => Forall typed_data_field fs
  | _ => Forall typed_text_field fs
  end.
Definition call_in (s : service) (fs : list (Z * tvalue)) : option call :=
  let t (mk : list Z -> call) := match last_field 1 fs with Some (TVBin t) => Some (mk t) | _ => None end in
  match s with
  | SCheck => match rev fs with (_, TVStruct fs') :: _ => Some (CCheck (info_in fs')) | _ => None end
  | SStartSync => Some CStartSync
  | SInit => t CInit
  | SSyncDeletedFileName => t CSyncDeletedFileName
  | SInitSyncData => t CInitSyncData
  | SSyncData => t CSyncData
  | SCheckDataDigest => t CCheckDataDigest
  | SEndSync => Some CEndSync
  end.

(** The message a processor sends for an answer of its handler. *)
Definition answer_message (display : thrift_error -> list Z) (s : service) (seq : Z) (a : sync_status + thrift_error) : list Z :=
  match a with
  | inl v => result_message s seq v
  | inr (TApplication k (Some t)) => exception_message (method s) seq k t
  | inr e => exception_message (method s) seq 0 (display e)
  end.

(** A connection: a client and a processor, with what each has not read yet; the handler sees the
    earlier calls it was given. One call after the other. *)
Record connection := mkConn { cn_seq : Z; cn_client : list Z; cn_server : list Z; cn_seen : list call }.
Definition connected : connection := mkConn 0 [] [] [].
Definition remote_handler := list call -> call -> sync_status + thrift_error.
Definition over_wire (p : profile) (display debug : thrift_error -> list Z) (H : remote_handler)
    (cn : connection) (c : call) : outcome ((sync_status + thrift_error) * connection) :=
  let* seq := increment_sequence_number p (cn_seq cn) in
  let inbox := cn_server cn ++ client_send seq c in
  let given := match read_message_begin inbox with
    | (inl m, r) => match service_named (msg_name m) with
                    | Some s => match fst (read_args s r) with inl c' => [c'] | inr _ => [] end
                    | None => []
                    end
    | _ => []
    end in
  let '(out, _, rest) := process display debug (H (cn_seen cn)) inbox in
  let '(answer, rest') := client_recv seq (service_of c) (cn_client cn ++ out) in
  Ret (answer, mkConn seq rest' rest (cn_seen cn ++ given)).
Fixpoint calls_over_wire (p : profile) (display debug : thrift_error -> list Z) (H : remote_handler)
    (cn : connection) (cs : list call) : outcome (list (sync_status + thrift_error) * connection) :=
  match cs with
  | [] => Ret ([], cn)
  | c :: cs => let* r := over_wire p display debug H cn c in
               let* rs := calls_over_wire p display debug H (snd r) cs in
               Ret (fst r :: fst rs, snd rs)
  end.
(** The same calls made directly. *)
Fixpoint calls_direct (display : thrift_error -> list Z) (H : remote_handler) (seen cs : list call) : list (sync_status + thrift_error) :=
  match cs with
  | [] => []
  | c :: cs => received display (H seen (as_delivered c)) :: calls_direct display H (seen ++ [as_delivered c]) cs
  end.

(** The sender of sync/sync_sender.rs over a connection: its requests as calls, its view of the answers. *)
Definition call_of (rq : request) : call :=
  match rq with
  | RqCheck a u i v => CCheck (mkInfo (Some a) (Some u) (Some i) (Some v))
  | RqStartSync => CStartSync
  | RqInit sg => CInit sg
  | RqInitSyncData n => CInitSyncData n
  | RqSyncData d => CSyncData d
  | RqCheckDataDigest g => CCheckDataDigest g
  | RqEndSync => CEndSync
  end.
Definition reply_of (a : sync_status + thrift_error) : reply :=
  match a with inl s => RpStatus (st_code s) | inr _ => RpErr end.
Definition wire_server (p : profile) (display debug : thrift_error -> list Z) (H : remote_handler) : server := fun tr rq =>
  match calls_over_wire p display debug H connected (map call_of (tr ++ [rq])) with
  | Ret (answers, _) => reply_of (last answers (inr TTransport))
  | Panic _ => RpErr
  end.
Definition direct_server (H : remote_handler) : server := fun tr rq => reply_of (H (map call_of tr) (call_of rq)).
(** The receiver of SSync.v as a handler: the calls it does not know about are answered with 1. *)
Definition text_or_empty (o : option (list Z)) : list Z := match o with Some t => t | None => [] end.
Definition request_of (c : call) : list request :=
  match c with
  | CCheck i => [RqCheck (text_or_empty (ci_address i)) (text_or_empty (ci_uuid i)) (match ci_interval i with Some v => v | None => 0 end) (text_or_empty (ci_version i))]
  | CStartSync => [RqStartSync]
  | CInit sg => [RqInit sg]
  | CSyncDeletedFileName _ => []
  | CInitSyncData n => [RqInitSyncData n]
  | CSyncData d => [RqSyncData d]
  | CCheckDataDigest g => [RqCheckDataDigest g]
  | CEndSync => [RqEndSync]
  end.
Definition receiver_handler (digest ch : list Z -> list Z) : remote_handler := fun seen c =>
  match request_of c with
  | rq :: _ => match receiver_server digest ch (flat_map request_of seen) rq with RpStatus code => inl (mkStatus code []) | RpErr => inr TTransport end
  | [] => inl (mkStatus 1 [])
  end.
