(** C49: the Thrift service. C50: the sync sender over a connection. *)
From Verif Require Import PBase PSync PThrift PThriftSync.

(** C49. The bytes of a request: a header of type call and the arguments as a structure. *)
Theorem C49_request_bytes : forall seq c, client_send seq c = request_message seq c.
Proof. exact send_ok. Qed.
Print Assumptions C49_request_bytes.
(** What the processor makes of a request with any fields, and what it sends back: unknown fields are
    skipped, the last of several counts, a missing one is answered with an exception. *)
Theorem C49_process : forall display debug h hd s kind seq fs r, header_form hd -> 1 <= kind <= 4 -> int_range 32 seq ->
  typed_arguments s fs ->
  (forall c, call_in s fs = Some c -> valid_answer display (h c) ->
     process display debug h (hd (method s) kind seq ++ encode (TVStruct fs) ++ r) = (answer_message display s seq (h c), inl tt, r)) /\
  (call_in s fs = None ->
     process display debug h (hd (method s) kind seq ++ encode (TVStruct fs) ++ r) = (exception_message (method s) seq 0 (debug TProtocol), inl tt, r)).
Proof.
  intros display debug h hd s kind seq fs r HF K S T. rewrite (process_known display debug h hd s kind seq fs r HF K S T). split.
  - intros c -> V. rewrite (answer_ok display s seq _ V). reflexivity.
  - intros ->. reflexivity.
Qed.
Print Assumptions C49_process.
Theorem C49_process_unknown : forall display debug h hd name kind seq r,
  hd = plain_header /\ Z.of_nat (length name) < 2 ^ 27 \/ hd = strict_header /\ Z.of_nat (length name) < 2 ^ 31 ->
  is_text name -> 1 <= kind <= 4 -> int_range 32 seq -> (forall s, name <> method s) ->
  process display debug h (hd name kind seq ++ r) =
  (exception_message name seq 1 ([117; 110; 107; 110; 111; 119; 110; 32; 109; 101; 116; 104; 111; 100; 32] ++ name), inl tt, r).
Proof. exact process_unknown. Qed.
Print Assumptions C49_process_unknown.

(** What the client makes of a reply with any fields: unknown fields are skipped. *)
Theorem C49_reply : forall hd s seq fs r, header_form hd -> int_range 32 seq -> Forall typed_result_field fs ->
  fst (client_recv seq s (hd (method s) 2 seq ++ encode (TVStruct fs) ++ r)) = result_in s fs /\
  (forall st, result_in s fs = inl st -> snd (client_recv seq s (hd (method s) 2 seq ++ encode (TVStruct fs) ++ r)) = r).
Proof. exact recv_result. Qed.
Print Assumptions C49_reply.
Theorem C49_exception : forall hd s seq fs r, header_form hd -> int_range 32 seq -> Forall typed_exception_field fs ->
  client_recv seq s (hd (method s) 3 seq ++ encode (TVStruct fs) ++ r) = (inr (exception_in fs), r).
Proof. exact recv_exception. Qed.
Print Assumptions C49_exception.
(** A message with another number, another name or another type is refused. *)
Theorem C49_mismatch : forall hd name kind seq' s seq r,
  hd = plain_header /\ Z.of_nat (length name) < 2 ^ 27 \/ hd = strict_header /\ Z.of_nat (length name) < 2 ^ 31 ->
  is_text name -> 1 <= kind <= 4 -> int_range 32 seq' ->
  (seq' <> seq -> client_recv seq s (hd name kind seq' ++ r) = (inr (TApplication 4 None), r)) /\
  (seq' = seq -> name <> method s -> client_recv seq s (hd name kind seq' ++ r) = (inr (TApplication 3 None), r)) /\
  (seq' = seq -> name = method s -> kind <> 2 -> kind <> 3 -> client_recv seq s (hd name kind seq' ++ r) = (inr (TApplication 2 None), r)).
Proof. exact recv_header. Qed.
Print Assumptions C49_mismatch.
(** Whatever arrives: success means that a reply to this very call arrived. *)
Theorem C49_success_sound : forall seq s l st r, Forall (fun b => 0 <= b < 256) l -> client_recv seq s l = (inl st, r) ->
  exists body, l = plain_header (method s) 2 seq ++ body \/
    exists x, l = [128; 1; x; 2] ++ int_be 4 (Z.of_nat (length (method s))) ++ method s ++ int_be 4 seq ++ body.
Proof. intros seq s l st r B H. destruct (recv_sound seq s l st r B H) as (body & F & _). exists body. exact F. Qed.
Print Assumptions C49_success_sound.

(** One call from end to end, whatever follows in the two streams: the handler is given the arguments, the
    caller gets its answer, and both read exactly the messages. *)
Theorem C49_call : forall display debug h seq c r r', int_range 32 seq -> valid_call c -> valid_answer display (h (as_delivered c)) ->
  exists out, process display debug h (client_send seq c ++ r) = (out, inl tt, r) /\
    client_recv seq (service_of c) (out ++ r') = (received display (h (as_delivered c)), r').
Proof. exact call_ok. Qed.
Print Assumptions C49_call.
(** Any number of calls over one connection: the answers of a handler with a memory, in order; the numbers count
    the calls; nothing is left over. *)
Theorem C49_calls : forall p display debug H, (forall seen c, valid_answer display (H seen c)) ->
  forall cs seq seen, 0 <= seq -> seq + Z.of_nat (length cs) < 2 ^ 31 -> Forall valid_call cs ->
  calls_over_wire p display debug H (mkConn seq [] [] seen) cs =
  Ret (calls_direct display H seen cs, mkConn (seq + Z.of_nat (length cs)) [] [] (seen ++ map as_delivered cs)).
Proof. exact calls_ok. Qed.
Print Assumptions C49_calls.
(** After 2^31 - 1 calls: a panic in a debug build; a release build goes on with the least number. *)
Theorem C49_number_overflow : forall display debug H, (forall seen c, valid_answer display (H seen c)) ->
  forall seen c, valid_call c ->
  over_wire Debug display debug H (mkConn (2 ^ 31 - 1) [] [] seen) c = Panic POverflow /\
  over_wire Release display debug H (mkConn (2 ^ 31 - 1) [] [] seen) c =
    Ret (received display (H seen (as_delivered c)), mkConn (- 2 ^ 31) [] [] (seen ++ [as_delivered c])).
Proof.
  intros display debug H HA seen c V. split; [reflexivity|].
  apply over_wire_gen; [exact HA|reflexivity|split; reflexivity || discriminate|exact V].
Qed.
Print Assumptions C49_number_overflow.

(** "The handler is given the arguments unchanged" is false for the handshake: fields that are not sent
    come back as empty texts and 0. *)
Theorem C49_arguments_unchanged_refuted : exists c, valid_call c /\
  fst (read_args SCheck (write_args c)) <> inl c /\ as_delivered c <> c.
Proof.
  exists (CCheck (mkInfo None None None None)). split; [cbn; tauto|]. split; [vm_compute|cbn]; discriminate.
Qed.
Print Assumptions C49_arguments_unchanged_refuted.
(** "Unknown fields are skipped" is false for the arguments of [check]: an added number makes the processor refuse
    the request, an added structure replaces the handshake. *)
Theorem C49_check_skips_refuted : exists i v w, skippable 64 v /\ skippable 64 w /\
  fst (read_args SCheck (encode (TVStruct [(-1, info_value i); (7, v)]))) = inr TTransport /\
  fst (read_args SCheck (encode (TVStruct [(-1, info_value i); (7, w)]))) = inl (CCheck (mkInfo (Some []) (Some []) (Some 0) (Some []))) /\
  fst (read_args SCheck (encode (TVStruct [(-1, info_value i)]))) = inl (CCheck i) /\
  i <> mkInfo (Some []) (Some []) (Some 0) (Some []).
Proof.
  exists (mkInfo (Some [97]) (Some [98]) (Some 5) (Some [99])), (TVI32 (11 * 2 ^ 24 + 65536)), (TVStruct []).
  split; [constructor|]. split; [constructor; constructor|].
  split; [vm_compute; reflexivity|]. split; [vm_compute; reflexivity|]. split; [vm_compute; reflexivity|]. discriminate.
Qed.
Print Assumptions C49_check_skips_refuted.

(** C50. The sender of the sync session over a connection behaves as with the handler itself, ... *)
Theorem C50_sync_over_wire : forall p display debug sha fs name sg addr uuid s H,
  (forall l, Forall (fun b => 0 <= b < 256) (sha l) /\ length (sha l) = 32%nat) ->
  text ([48; 95; 48; 95] ++ name) -> text sg -> text addr -> text uuid -> Z.of_nat (length (write_mlog sg s)) < 2 ^ 31 ->
  (forall data, fs ([48; 95; 48; 95] ++ name) = Some data -> Z.of_nat (length data) < 2 ^ 31) ->
  (forall seen c, valid_answer display (H seen c)) ->
  let start := [RqCheck addr uuid 604800 [48; 46; 49; 51]] in
  sync_connect (wire_server p display debug H) addr uuid [] = sync_connect (direct_server H) addr uuid [] /\
  sync sha fs (wire_server p display debug H) name sg s start = sync sha fs (direct_server H) name sg s start.
Proof. exact (fun p display debug sha fs name sg addr uuid s H HS Hn Hs Ha Hu Hl Hd HA => sync_wire p display debug sha fs name sg addr uuid s HS Hn Hs Ha Hu Hl Hd H HA). Qed.
Print Assumptions C50_sync_over_wire.
(** ... and a session with a receiver at the other end of the connection delivers both files. *)
Theorem C50_delivered : forall p display debug sha fs name sg addr uuid s data,
  (forall l, Forall (fun b => 0 <= b < 256) (sha l) /\ length (sha l) = 32%nat) -> (forall e, text (display e)) ->
  text ([48; 95; 48; 95] ++ name) -> text sg -> text addr -> text uuid -> Z.of_nat (length (write_mlog sg s)) < 2 ^ 31 ->
  fs ([48; 95; 48; 95] ++ name) = Some data -> Z.of_nat (length data) < 2 ^ 31 ->
  let dig := calculate_digest sha in let srv := wire_server p display debug (receiver_handler dig (fun l => l)) in
  exists start rqs, sync_connect srv addr uuid [] = (start, SOk) /\ sync sha fs srv name sg s start = (rqs, SOk) /\
    receive_all dig (fun l => l) rqs = mkRecv sg ([48; 95; 48; 95] ++ name) []
      [([109; 108; 111; 103; 46; 98; 105; 110], write_mlog sg s); ([48; 95; 48; 95] ++ name, data)] true.
Proof.
  intros p display debug sha fs name sg addr uuid s data HS HD Hn Hs Ha Hu Hl F Hd dig srv.
  assert (Hd' : forall data, fs ([48; 95; 48; 95] ++ name) = Some data -> Z.of_nat (length data) < 2 ^ 31) by (intros d E; congruence).
  destruct (sync_wire p display debug sha fs name sg addr uuid s HS Hn Hs Ha Hu Hl Hd' (receiver_handler dig (fun l => l))
    (receiver_answers dig (fun l => l) display HD)) as [C S].
  fold srv in C, S.
  destruct (delivered sha (fun l => l) fs name sg s addr uuid data eq_refl F) as [D R].
  eexists _, _. split; [etransitivity; [exact C|reflexivity]|].
  split; [etransitivity; [exact S|]; etransitivity; [apply sync_ext, receiver_direct|exact D]|].
  etransitivity; [exact R|]. destruct (list_eq_dec Z.eq_dec _ _) as [_|E]; [reflexivity|]. exfalso. apply E. reflexivity.
Qed.
Print Assumptions C50_delivered.

(** The cases: a call and its answer as bytes, a reply with unknown fields, an exception, a reply to an earlier call,
    a session of three calls, and a sync session over a connection. *)
Definition ex_display (e : thrift_error) : list Z := match e with TUser t => t | _ => [63] end.
Definition ex_handler : remote_handler := fun seen c =>
  match c with
  | CInit sg => inl (mkStatus (zlen seen) sg)
  | CSyncData _ => inr (TUser [98; 97; 100])
  | CEndSync => inr (TApplication 6 (Some [120]))
  | _ => inl (mkStatus 1 [])
  end.
Example C49_case :
  let unknown := TVMap 11 15 [(TVBin [107], TVList 8 [TVI32 1; TVI32 2])] in
  client_send 5 (CInit [103]) = [0; 0; 0; 4; 105; 110; 105; 116; 1; 0; 0; 0; 5; 11; 0; 1; 0; 0; 0; 1; 103; 0] /\
  client_recv 5 SInit (plain_header [105; 110; 105; 116] 2 5 ++
    encode (TVStruct [(9, unknown); (0, TVStruct [(2, TVBin [104]); (3, unknown); (1, TVI32 (-1))])]) ++ [77]) = (inl (mkStatus (-1) [104]), [77]) /\
  fst (client_recv 5 SInit (strict_header [105; 110; 105; 116] 2 5 ++ encode (TVStruct []))) =
    inr (TApplication 5 (Some ([110; 111; 32; 114; 101; 115; 117; 108; 116; 32; 114; 101; 99; 101; 105; 118; 101; 100; 32; 102; 111; 114; 32;
      83; 121; 110; 99; 83; 101; 114; 118; 105; 99; 101; 73; 110; 105; 116]))) /\
  fst (client_recv 5 SInit (result_message SInit 4 (mkStatus 1 []))) = inr (TApplication 4 None) /\
  fst (client_recv 5 SInit (exception_message [105; 110; 105; 116] 5 6 [120])) = inr (TApplication 6 (Some [120])) /\
  calls_over_wire Debug ex_display ex_display ex_handler connected [CInit [103]; CSyncData [255; 0]; CEndSync; CInit []] =
    Ret ([inl (mkStatus 0 [103]); inr (TApplication 0 (Some [98; 97; 100])); inr (TApplication 6 (Some [120])); inl (mkStatus 3 [])],
         mkConn 4 [] [] [CInit [103]; CSyncData [255; 0]; CEndSync; CInit []]).
Proof. vm_compute. auto 10. Qed.
Example C49_case_typed :
  typed_arguments SInit [(9, TVI16 3); (1, TVBin [103])] /\ call_in SInit [(9, TVI16 3); (1, TVBin [103])] = Some (CInit [103]) /\
  Forall typed_result_field [(9, TVList 8 [TVI32 1]); (0, TVStruct [(2, TVBin [104]); (1, TVI32 7)])] /\
  valid_answer ex_display (inr (TUser [98])).
Proof.
  assert (T : forall l, MFfi.utf8_ok l = true -> Z.of_nat (length l) < 2 ^ 31 -> text l) by (intros l A B; split; [apply PFfi.utf8_iff; exact A|exact B]).
  split; [|split; [reflexivity|split]].
  - constructor; [|constructor; [|constructor]]; (split; [split; reflexivity || discriminate|]); cbn; [constructor|].
    exists [103]. split; [reflexivity|]. apply T; reflexivity.
  - constructor; [|constructor; [|constructor]]; (split; [split; reflexivity || discriminate|]); cbn.
    + constructor; [cbn; tauto|reflexivity|]. constructor; [|constructor]. split; [reflexivity|constructor].
    + eexists. split; [reflexivity|]. constructor; [|constructor; [|constructor]]; (split; [split; reflexivity || discriminate|]); cbn.
      * exists [104]. split; [reflexivity|]. apply T; reflexivity.
      * exists 7. split; [reflexivity|]. split; reflexivity || discriminate.
  - apply T; reflexivity.
Qed.
Definition ex_sha32 (l : list Z) : list Z := repeat (fold_left Z.add l 0 mod 256) 32.
Example C50_case :
  let dig := calculate_digest ex_sha32 in
  let srv := wire_server Debug ex_display ex_display (receiver_handler dig (fun l => l)) in
  let fs n := if list_eq_dec Z.eq_dec n [48; 95; 48; 95; 102] then Some [7; 8] else None in
  let s := [([100], [([115], mkMS INT32 PLAIN UNCOMPRESSED)])] in
  snd (sync_connect srv [97] [117] []) = SOk /\
  snd (sync ex_sha32 fs srv [102] [103] s (fst (sync_connect srv [97] [117] []))) = SOk.
Proof. vm_compute. auto. Qed.
