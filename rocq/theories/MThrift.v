(** sync/sync.rs: the generated Thrift client, processor and structures, over the binary protocol.

    The first part stands for the crate [thrift] (0.16, not part of /repo): [TBinaryInputProtocol] and
    [TBinaryOutputProtocol] with [strict = false], as sync/sync_sender.rs:92-93 makes them, after the published
    description of the binary protocol. Names of structures and fields are not transmitted; the ends of
    messages, structures and fields are empty. The framed transports around them hand on the bytes
    unchanged and are left out, and writing does not fail. *)
From Verif Require Export MSync MFfi.

(** [thrift::Error]. Application errors have a kind and a text; [None] is a text made by the crate.
    The error of the results at sync/sync.rs:204-213. *)
Inductive thrift_error := TApplication (kind : Z) (msg : option str) | TTransport | TProtocol | TUser (text : str).

(** A reader: value or error, and the unread rest of the input. E.g. sync/sync.rs:48-81. *)
Definition rd (A : Type) := list byte -> (A + thrift_error) * list byte.
(** [Ok(..)], e.g. sync/sync.rs:79-80 *)
Definition rret {A} (a : A) : rd A := fun l => (inl a, l).
(** [Err(..)], e.g. sync/sync.rs:951-958 *)
Definition rfail {A} (e : thrift_error) : rd A := fun l => (inr e, l).
(** [?], e.g. sync/sync.rs:252-263 *)
Definition rbind {A B} (m : rd A) (f : A -> rd B) : rd B := fun l =>
  match m l with (inl a, r) => f a r | (inr e, r) => (inr e, r) end.
Notation "'let?' x ':=' m 'in' k" := (rbind m (fun x => k))
  (at level 200, x name, m at level 100, k at level 200, right associativity).

(** [read_exact]; at the end of the input a transport error. Under the readers used at sync/sync.rs:48-160. *)
Definition read_n (n : nat) : rd (list byte) := fun l =>
  if (n <=? length l)%nat then (inl (firstn n l), skipn n l) else (inr TTransport, []).
(** Big-endian two's complement integers. [read_i32], [read_i64] at sync/sync.rs:48-160. *)
Definition read_int (n : nat) : rd Z := fun l =>
  match read_n n l with
  | (inl b, r) => (inl (wrapS (8 * Z.of_nat n) (fold_left (fun a x => a * 256 + x) b 0)), r)
  | (inr e, r) => (inr e, r)
  end.
(** Under [read_field_begin] at sync/sync.rs:914 *)
Definition read_byte : rd Z := let? b := read_n 1 in rret (nth 0 b 0).
(** [read_bytes], [read_string]; a negative length counts as a protocol error here. At sync/sync.rs:1405-1431. *)
Definition read_bytes : rd (list byte) :=
  let? n := read_int 4 in if n <? 0 then rfail TProtocol else read_n (Z.to_nat n).
(** [read_string] at sync/sync.rs:48-160 *)
Definition read_string : rd str := let? b := read_bytes in if utf8_ok b then rret b else rfail TProtocol.

(** [TType] by its code: bool, byte, double, i16, i32, i64, string, struct, map, set, list.
    [TType::Stop], sync/sync.rs:915. *)
Definition ty_stop : Z := 0.
(** [TType::Bool]; only met by [skip], e.g. sync/sync.rs:925 *)
Definition ty_bool : Z := 2.
(** [TType::I08]; only met by [skip], e.g. sync/sync.rs:925 *)
Definition ty_i8 : Z := 3.
(** [TType::Double]; only met by [skip], e.g. sync/sync.rs:925 *)
Definition ty_double : Z := 4.
(** [TType::I16]; only met by [skip], e.g. sync/sync.rs:925 *)
Definition ty_i16 : Z := 6.
(** [TType::I32] at sync/sync.rs:85 *)
Definition ty_i32 : Z := 8.
(** [TType::I64] at sync/sync.rs:175 *)
Definition ty_i64 : Z := 10.
(** [TType::String] at sync/sync.rs:88 *)
Definition ty_string : Z := 11.
(** [TType::Struct] at sync/sync.rs:940 *)
Definition ty_struct : Z := 12.
(** [TType::Map]; only met by [skip], e.g. sync/sync.rs:925 *)
Definition ty_map : Z := 13.
(** [TType::Set]; only met by [skip], e.g. sync/sync.rs:925 *)
Definition ty_set : Z := 14.
(** [TType::List]; only met by [skip], e.g. sync/sync.rs:925 *)
Definition ty_list : Z := 15.
(** Codes [field_type_from_u8] accepts; 1 (void), 16 and 17 (UTF-8, UTF-16) never occur in a value.
    Under [read_field_begin] at sync/sync.rs:914. *)
Definition type_codes : list Z := [0; 1; 2; 3; 4; 6; 8; 10; 11; 12; 13; 14; 15; 16; 17].
(** The type in [read_field_begin], sync/sync.rs:914 *)
Definition read_type : rd Z :=
  let? b := read_byte in if existsb (Z.eqb b) type_codes then rret b else rfail TProtocol.
(** [read_field_begin]: type and identifier; the stop field has no identifier. sync/sync.rs:914-918. *)
Definition read_field_begin : rd (Z * Z) :=
  let? ty := read_type in
  if ty =? ty_stop then rret (ty, 0) else let? id := read_int 2 in rret (ty, id).

(** The loop all generated readers of structures share (e.g. sync.rs:52-72): read a field header, stop at
    the stop field, else let [step] read the value. Every round reads at least one byte; the number of
    bytes bounds the number of rounds. *)
Fixpoint fields_loop {S} (fuel : nat) (step : S -> Z -> Z -> rd S) (s : S) : rd S :=
  match fuel with
  | O => rfail TProtocol
  | Datatypes.S fuel =>
      let? f := read_field_begin in
      if fst f =? ty_stop then rret s
      else let? s' := step s (fst f) (snd f) in fields_loop fuel step s'
  end.
(** That loop for an input of any length, e.g. sync/sync.rs:52-72 and 913-929 *)
Definition read_fields {S} (step : S -> Z -> Z -> rd S) (s : S) : rd S :=
  fun l => fields_loop (Datatypes.S (length l)) step s l.

(** [n] values one after the other. Under [skip] at sync/sync.rs:925. *)
Fixpoint read_times (n : nat) (m : rd unit) : rd unit :=
  match n with O => rret tt | S k => let? _ := m in read_times k m end.

(** [skip] ([TInputProtocol::skip_till_depth]); nesting is limited to 64. sync/sync.rs:925. *)
Fixpoint skip_depth (d : nat) (ty : Z) : rd unit :=
  match d with
  | O => rfail TProtocol
  | S d =>
      if (ty =? ty_bool) || (ty =? ty_i8) then let? _ := read_n 1 in rret tt
      else if ty =? ty_i16 then let? _ := read_n 2 in rret tt
      else if ty =? ty_i32 then let? _ := read_n 4 in rret tt
      else if (ty =? ty_i64) || (ty =? ty_double) then let? _ := read_n 8 in rret tt
      else if ty =? ty_string then let? _ := read_string in rret tt
      else if ty =? ty_struct then read_fields (fun _ ty' _ => skip_depth d ty') tt
      else if (ty =? ty_list) || (ty =? ty_set) then
        let? et := read_type in let? n := read_int 4 in read_times (Z.to_nat n) (skip_depth d et)
      else if ty =? ty_map then
        let? kt := read_type in let? vt := read_type in let? n := read_int 4 in
        read_times (Z.to_nat n) (let? _ := skip_depth d kt in skip_depth d vt)
      else rfail TProtocol
  end.
(** [skip] at sync/sync.rs:925 *)
Definition skip (ty : Z) : rd unit := skip_depth 64 ty.

(** Writing: [write_i32], [write_i64], [write_bytes]/[write_string], [write_field_begin],
    [write_field_stop]. sync/sync.rs:82-93. *)
Definition write_i32 (v : Z) : list byte := be_bytes 4 v.
(** [write_i64] at sync/sync.rs:161-186 *)
Definition write_i64 (v : Z) : list byte := be_bytes 8 v.
(** [write_bytes], [write_string] at sync/sync.rs:82-93, 1432-1440 *)
Definition write_bytes (b : list byte) : list byte := be_bytes 4 (zlen b) ++ b.
(** [write_field_begin] at sync/sync.rs:940 *)
Definition write_field_begin (ty id : Z) : list byte := ty :: be_bytes 2 id.
(** [write_field_stop] at sync/sync.rs:944 *)
Definition write_field_stop : list byte := [ty_stop].

(** [TMessageType] by its code; [TMessageIdentifier]: name, type, sequence number.
    [TMessageType::Call] at sync/sync.rs:243. *)
Definition msg_call : Z := 1.
(** [TMessageType::Reply] at sync/sync.rs:260 *)
Definition msg_reply : Z := 2.
(** [TMessageType::Exception] at sync/sync.rs:255 *)
Definition msg_exception : Z := 3.
(** [TMessageType::OneWay]: not used in sync/sync.rs:239-455, but accepted on reading *)
Definition msg_oneway : Z := 4.
(** [TMessageIdentifier] at sync/sync.rs:243, 252 *)
Record message := mkMsg { msg_name : str; msg_type : Z; msg_seq : Z }.
(** The type in [read_message_begin], sync/sync.rs:252 *)
Definition message_type (b : Z) : rd Z := if (1 <=? b) && (b <=? 4) then rret b else rfail TProtocol.
(** [write_message_begin], not strict. sync/sync.rs:245. *)
Definition write_message_begin (m : message) : list byte :=
  write_bytes (msg_name m) ++ [msg_type m] ++ write_i32 (msg_seq m).
(** [read_message_begin]: a first byte of at least 8 announces the strict form with version 0x8001.
    sync/sync.rs:252, 811. *)
Definition read_message_begin : rd message :=
  let? h := read_n 4 in
  if nth 0 h 0 >=? 8 then
    if (nth 0 h 0 =? 0x80) && (nth 1 h 0 =? 1) then
      let? ty := message_type (nth 3 h 0) in let? name := read_string in let? seq := read_int 4 in
      rret (mkMsg name ty seq)
    else rfail TProtocol
  else
    let? name := read_n (Z.to_nat (fold_left (fun a x => a * 256 + x) h 0)) in
    if utf8_ok name then
      let? b := read_byte in let? ty := message_type b in let? seq := read_int 4 in
      rret (mkMsg name ty seq)
    else rfail TProtocol.

(** [ApplicationErrorKind] by its code; those the crate and the generated code make.
    In the errors read at sync/sync.rs:256. *)
Definition app_unknown : Z := 0.
(** [UnknownMethod] at sync/sync.rs:841 *)
Definition app_unknown_method : Z := 1.
(** Made by [verify_expected_message_type] at sync/sync.rs:260 *)
Definition app_invalid_message_type : Z := 2.
(** Made by [verify_expected_service_call] at sync/sync.rs:254 *)
Definition app_wrong_method_name : Z := 3.
(** Made by [verify_expected_sequence_number] at sync/sync.rs:253 *)
Definition app_bad_sequence_id : Z := 4.
(** [MissingResult] at sync/sync.rs:954 *)
Definition app_missing_result : Z := 5.
(** Unknown codes become [Unknown]. In errors read at sync/sync.rs:256. *)
Definition app_kind (v : Z) : Z := if (0 <=? v) && (v <=? 10) then v else app_unknown.

(** [write_application_error_to_out_protocol], [read_application_error_from_in_protocol]; "general remote
    error" is the text of an exception without one. sync/sync.rs:256, 511-547. *)
Definition general_remote_error : str :=
  [103; 101; 110; 101; 114; 97; 108; 32; 114; 101; 109; 111; 116; 101; 32; 101; 114; 114; 111; 114].
(** [write_application_error_to_out_protocol], sync/sync.rs:511-547 *)
Definition write_application_error (kind : Z) (text : str) : list byte :=
  write_field_begin ty_string 1 ++ write_bytes text ++ write_field_begin ty_i32 2 ++ write_i32 kind ++ write_field_stop.
(** [read_application_error_from_in_protocol] at sync/sync.rs:256 *)
Definition read_application_error : rd (Z * str) :=
  read_fields (fun (s : Z * str) ty id =>
    if id =? 1 then let? t := read_string in rret (fst s, t)
    else if id =? 2 then let? v := read_int 4 in rret (app_kind v, snd s)
    else let? _ := skip ty in rret s) (app_unknown, general_remote_error).

(** [verify_expected_sequence_number], [verify_expected_service_call], [verify_expected_message_type],
    [verify_required_field_exists] at sync/sync.rs:253-260 *)
Definition verify_sequence_number (expected actual : Z) : rd unit :=
  if actual =? expected then rret tt else rfail (TApplication app_bad_sequence_id None).
(** [verify_expected_service_call] at sync/sync.rs:254 *)
Definition verify_service_call (expected actual : str) : rd unit :=
  if str_eqb actual expected then rret tt else rfail (TApplication app_wrong_method_name None).
(** [verify_expected_message_type] at sync/sync.rs:260 *)
Definition verify_message_type (expected actual : Z) : rd unit :=
  if actual =? expected then rret tt else rfail (TApplication app_invalid_message_type None).
(** [verify_required_field_exists], sync/sync.rs:48-81 *)
Definition required {A} (f : option A) : rd A :=
  match f with Some a => rret a | None => rfail TProtocol end.

(** ** The generated code *)

(** [SyncStatus] sync/sync.rs:35-39 *)
Record sync_status := mkStatus { st_code : Z; st_msg : str }.
(** [SyncStatus::read_from_in_protocol] sync/sync.rs:48-81 *)
Definition read_status : rd sync_status :=
  let? s := read_fields (fun (s : option Z * option str) ty id =>
    if id =? 1 then let? v := read_int 4 in rret (Some v, snd s)
    else if id =? 2 then let? t := read_string in rret (fst s, Some t)
    else let? _ := skip ty in rret s) (None, None) in
  let? code := required (fst s) in let? msg := required (snd s) in rret (mkStatus code msg).
(** [SyncStatus::write_to_out_protocol] sync/sync.rs:82-93 *)
Definition write_status (s : sync_status) : list byte :=
  write_field_begin ty_i32 1 ++ write_i32 (st_code s) ++
  write_field_begin ty_string 2 ++ write_bytes (st_msg s) ++ write_field_stop.

(** [ConfirmInfo] sync/sync.rs:100-106 *)
Record confirm_info := mkInfo { ci_address : option str; ci_uuid : option str; ci_interval : option Z; ci_version : option str }.
(** [ConfirmInfo::read_from_in_protocol] sync/sync.rs:117-160: the fields start with the default values,
    not with [None] *)
Definition read_info : rd confirm_info :=
  read_fields (fun s ty id =>
    if id =? 1 then let? t := read_string in rret (mkInfo (Some t) (ci_uuid s) (ci_interval s) (ci_version s))
    else if id =? 2 then let? t := read_string in rret (mkInfo (ci_address s) (Some t) (ci_interval s) (ci_version s))
    else if id =? 3 then let? v := read_int 8 in rret (mkInfo (ci_address s) (ci_uuid s) (Some v) (ci_version s))
    else if id =? 4 then let? t := read_string in rret (mkInfo (ci_address s) (ci_uuid s) (ci_interval s) (Some t))
    else let? _ := skip ty in rret s) (mkInfo (Some []) (Some []) (Some 0) (Some [])).
(** [ConfirmInfo::write_to_out_protocol] sync/sync.rs:161-186 *)
Definition write_info (i : confirm_info) : list byte :=
  match ci_address i with Some t => write_field_begin ty_string 1 ++ write_bytes t | None => [] end ++
  match ci_uuid i with Some t => write_field_begin ty_string 2 ++ write_bytes t | None => [] end ++
  match ci_interval i with Some v => write_field_begin ty_i64 3 ++ write_i64 v | None => [] end ++
  match ci_version i with Some t => write_field_begin ty_string 4 ++ write_bytes t | None => [] end ++
  write_field_stop.

(** The calls of the service, [TSyncServiceSyncClient] sync/sync.rs:204-213 *)
Inductive call :=
  | CCheck (info : confirm_info)
  | CStartSync
  | CInit (storage_group_name : str)
  | CSyncDeletedFileName (file_name : str)
  | CInitSyncData (filename : str)
  | CSyncData (buff : list byte)
  | CCheckDataDigest (md5 : str)
  | CEndSync.
(** The methods of [TSyncServiceSyncClient] by name only, sync/sync.rs:204-213 *)
Inductive service := SCheck | SStartSync | SInit | SSyncDeletedFileName | SInitSyncData | SSyncData | SCheckDataDigest | SEndSync.
(** The method of a call, sync/sync.rs:204-213 *)
Definition service_of (c : call) : service :=
  match c with
  | CCheck _ => SCheck | CStartSync => SStartSync | CInit _ => SInit | CSyncDeletedFileName _ => SSyncDeletedFileName
  | CInitSyncData _ => SInitSyncData | CSyncData _ => SSyncData | CCheckDataDigest _ => SCheckDataDigest | CEndSync => SEndSync
  end.
(** Names on the wire: "check", "startSync", "init", "syncDeletedFileName", "initSyncData", "syncData",
    "checkDataDigest", "endSync", sync/sync.rs:243, 270, 297, 324, 351, 378, 405, 432 (and 812-835) *)
Definition service_name (s : service) : str :=
  match s with
  | SCheck => [99; 104; 101; 99; 107]
  | SStartSync => [115; 116; 97; 114; 116; 83; 121; 110; 99]
  | SInit => [105; 110; 105; 116]
  | SSyncDeletedFileName => [115; 121; 110; 99; 68; 101; 108; 101; 116; 101; 100; 70; 105; 108; 101; 78; 97; 109; 101]
  | SInitSyncData => [105; 110; 105; 116; 83; 121; 110; 99; 68; 97; 116; 97]
  | SSyncData => [115; 121; 110; 99; 68; 97; 116; 97]
  | SCheckDataDigest => [99; 104; 101; 99; 107; 68; 97; 116; 97; 68; 105; 103; 101; 115; 116]
  | SEndSync => [101; 110; 100; 83; 121; 110; 99]
  end.
(** The name of the service in the text of [ok_or]: "no result received for SyncService" followed by the name
    of the method with a capital, sync/sync.rs:955, 1054, 1165, 1276, 1387, 1498, 1609, 1708 *)
Definition no_result_text (s : service) : str :=
  [110; 111; 32; 114; 101; 115; 117; 108; 116; 32; 114; 101; 99; 101; 105; 118; 101; 100; 32; 102; 111; 114; 32] ++
  [83; 121; 110; 99; 83; 101; 114; 118; 105; 99; 101] ++
  match service_name s with [] => [] | c :: t => (c - 32) :: t end.

(** Arguments with one string field 1, sync/sync.rs:1072-1107, 1183-1218, 1294-1329, 1516-1551 *)
Definition write_text_args (t : str) : list byte := write_field_begin ty_string 1 ++ write_bytes t ++ write_field_stop.
(** Reading them, sync/sync.rs:1072-1098, 1183-1209, 1294-1320, 1516-1542 *)
Definition read_text_args : rd str :=
  let? s := read_fields (fun (s : option str) ty id =>
    if id =? 1 then let? t := read_string in rret (Some t) else let? _ := skip ty in rret s) None in
  required s.
(** [SyncServiceSyncDataArgs]: the same with [read_bytes], sync/sync.rs:1405-1440 *)
Definition read_data_args : rd (list byte) :=
  let? s := read_fields (fun (s : option (list byte)) ty id =>
    if id =? 1 then let? t := read_bytes in rret (Some t) else let? _ := skip ty in rret s) None in
  required s.
(** [SyncServiceStartSyncArgs], [SyncServiceEndSyncArgs] sync/sync.rs:972-996, 1626-1650 *)
Definition read_no_args : rd unit := read_fields (fun s ty _ => let? _ := skip ty in rret s) tt.
(** [SyncServiceCheckArgs::read_from_in_protocol] sync/sync.rs:862-888: the pattern [neg1] is a variable, so the
    first arm takes every field, whatever its identifier and type *)
Definition read_check_args : rd confirm_info :=
  let? s := read_fields (fun (s : option confirm_info) ty id => let? i := read_info in rret (Some i)) None in
  required s.
(** [SyncServiceCheckArgs::write_to_out_protocol] sync/sync.rs:889-897 *)
Definition write_check_args (i : confirm_info) : list byte :=
  write_field_begin ty_struct (-1) ++ write_info i ++ write_field_stop.

(** The arguments of each call, the [write_to_out_protocol] of the argument structures,
    sync/sync.rs:889-897, 991-996, 1099-1107, 1210-1218, 1321-1329, 1432-1440, 1543-1551, 1645-1650 *)
Definition write_args (c : call) : list byte :=
  match c with
  | CCheck i => write_check_args i
  | CStartSync | CEndSync => write_field_stop
  | CInit t | CSyncDeletedFileName t | CInitSyncData t | CSyncData t | CCheckDataDigest t => write_text_args t
  end.
(** The [read_from_in_protocol] of the argument structures,
    sync/sync.rs:862-888, 972-990, 1072-1098, 1183-1209, 1294-1320, 1405-1431, 1516-1542, 1626-1644 *)
Definition read_args (s : service) : rd call :=
  match s with
  | SCheck => let? i := read_check_args in rret (CCheck i)
  | SStartSync => let? _ := read_no_args in rret CStartSync
  | SInit => let? t := read_text_args in rret (CInit t)
  | SSyncDeletedFileName => let? t := read_text_args in rret (CSyncDeletedFileName t)
  | SInitSyncData => let? t := read_text_args in rret (CInitSyncData t)
  | SSyncData => let? b := read_data_args in rret (CSyncData b)
  | SCheckDataDigest => let? t := read_text_args in rret (CCheckDataDigest t)
  | SEndSync => let? _ := read_no_args in rret CEndSync
  end.

(** The result structures, all alike: [SyncServiceCheckResult] sync/sync.rs:910-960 and 1009-1059, 1120-1170,
    1231-1281, 1342-1392, 1453-1503, 1564-1614, 1663-1713 *)
Definition read_result : rd (option sync_status) :=
  read_fields (fun (s : option sync_status) ty id =>
    if id =? 0 then let? v := read_status in rret (Some v) else let? _ := skip ty in rret s) None.
(** Writing them, sync/sync.rs:936-946 and 1035, 1146, 1257, 1368, 1479, 1590, 1689 *)
Definition write_result (r : option sync_status) : list byte :=
  match r with Some s => write_field_begin ty_struct 0 ++ write_status s | None => [] end ++ write_field_stop.
(** [ok_or] sync/sync.rs:947-960 and 1046, 1157, 1268, 1379, 1490, 1601, 1700 *)
Definition result_ok_or (s : service) (r : option sync_status) : rd sync_status :=
  match r with
  | Some v => rret v
  | None => rfail (TApplication app_missing_result (Some (no_result_text s)))
  end.

(** A call, first half: [check] sync/sync.rs:241-250 and its likes at 268, 295, 322, 349, 376, 403, 430; the
    sequence number is the incremented one *)
Definition client_send (seq : Z) (c : call) : list byte :=
  write_message_begin (mkMsg (service_name (service_of c)) msg_call seq) ++ write_args c.
(** A call, second half: sync/sync.rs:252-264 and its likes *)
Definition client_recv (seq : Z) (s : service) : rd sync_status :=
  let? m := read_message_begin in
  let? _ := verify_sequence_number seq (msg_seq m) in
  let? _ := verify_service_call (service_name s) (msg_name m) in
  if msg_type m =? msg_exception then
    let? e := read_application_error in rfail (TApplication (fst e) (Some (snd e)))
  else
    let? _ := verify_message_type msg_reply (msg_type m) in
    let? r := read_result in result_ok_or s r.
(** [increment_sequence_number] sync/sync.rs:233 *)
Definition increment_sequence_number (p : profile) (seq : Z) : outcome Z := arithS p 32 (seq + 1).

(** [SyncServiceSyncHandler] sync/sync.rs:461-470 *)
Definition handler := call -> sync_status + thrift_error.
(** [process_check] sync/sync.rs:511-547 and its likes up to 806: read the arguments, call the handler,
    write the answer. [display] is [to_string] of an error. Result: bytes written, [Ok] or the
    error of reading the arguments, the unread rest. *)
Definition reply_bytes (display : thrift_error -> str) (s : service) (seq : Z) (r : sync_status + thrift_error) : list byte :=
  match r with
  | inl v => write_message_begin (mkMsg (service_name s) msg_reply seq) ++ write_result (Some v)
  | inr (TApplication k (Some t)) => write_message_begin (mkMsg (service_name s) msg_exception seq) ++ write_application_error k t
  | inr e => write_message_begin (mkMsg (service_name s) msg_exception seq) ++ write_application_error
               (match e with TApplication k _ => k | _ => app_unknown end) (display e)
  end.
(** [process_check] sync/sync.rs:511-547 and its likes up to 806 *)
Definition process_call (display : thrift_error -> str) (h : handler) (s : service) (seq : Z) (l : list byte)
  : list byte * (unit + thrift_error) * list byte :=
  match read_args s l with
  | (inl c, r) => (reply_bytes display s seq (h c), inl tt, r)
  | (inr e, r) => ([], inr e, r)
  end.
(** The service with a given name: the match in [process], sync/sync.rs:812-835 *)
Definition all_services : list service :=
  [SCheck; SStartSync; SInit; SSyncDeletedFileName; SInitSyncData; SSyncData; SCheckDataDigest; SEndSync].
(** The match in [process], sync/sync.rs:812-846 *)
Definition service_named (n : str) : option service := find (fun s => str_eqb n (service_name s)) all_services.
(** "unknown method ", sync/sync.rs:842 *)
Definition unknown_method_text (n : str) : str :=
  [117; 110; 107; 110; 111; 119; 110; 32; 109; 101; 116; 104; 111; 100; 32] ++ n.
(** [process] sync/sync.rs:810-849 with [thrift::server::handle_process_result]: an error of the
    call is answered with an exception; [debug] is the debug form of an error. The type of the message is
    not looked at. *)
Definition process (display debug : thrift_error -> str) (h : handler) (l : list byte)
  : list byte * (unit + thrift_error) * list byte :=
  match read_message_begin l with
  | (inr e, r) => ([], inr e, r)
  | (inl m, r) =>
      let '(out, res, r) := match service_named (msg_name m) with
        | Some s => process_call display h s (msg_seq m) r
        | None => ([], inr (TApplication app_unknown_method (Some (unknown_method_text (msg_name m)))), r)
        end in
      match res with
      | inl _ => (out, inl tt, r)
      | inr e =>
          let '(k, t) := match e with TApplication k (Some t) => (k, t) | TApplication k None => (k, display e) | e => (app_unknown, debug e) end in
          (out ++ write_message_begin (mkMsg (msg_name m) msg_exception (msg_seq m)) ++ write_application_error k t, inl tt, r)
      end
  end.
